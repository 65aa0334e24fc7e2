(** Model of the word format of images: r_code/object.cpp (SysView, SysObject),
    r_code/image.cpp (strings), r_comp/segments.cpp and segments.h (Metadata,
    ObjectMap, CodeSegment, ObjectNames, Image), r_comp/class.cpp,
    r_comp/structure_member.cpp, r_code/image.tpl.cpp (files).

    Memory is a list of 32-bit words; [None] is an out-of-bounds access.
    Positions in memory are [nat]: the uint32 arithmetic on positions is taken
    not to overflow; 16-bit offsets and counters are wrapped explicitly. *)
From Verif Require Import Base.
Local Open Scope nat_scope.

Definition mem := list Z.
(** [data[i] = w] and [data[i]] *)
Definition store (m : mem) (i : nat) (w : Z) : option mem := upd m i w.
Definition load (m : mem) (i : nat) : option Z := nth_error m i.

(** The loop [for (i = 0; i < l.size(); ++i) data[b + i] = l[i];] *)
Fixpoint store_list (m : mem) (b : nat) (l : list Z) : option mem :=
  match l with
  | [] => Some m
  | w :: l' => match store m b w with Some m1 => store_list m1 (S b) l' | None => None end
  end.
(** The loop [for (i = 0; i < n; ++i) l.push_back(data[b + i]);] *)
Fixpoint load_list (m : mem) (b n : nat) : option (list Z) :=
  match n with
  | O => Some []
  | S n' => match load m b, load_list m (S b) n' with
            | Some w, Some l => Some (w :: l) | _, _ => None end
  end.

(** The loop writing items one after the other, the offset advancing by the
    size of each (object.cpp:219-224, segments.cpp:123-128, 365-370,
    class.cpp:173-177). *)
Fixpoint write_items {X} (size : X -> nat) (wr : mem -> nat -> X -> option mem)
  (m : mem) (b : nat) (xs : list X) : option mem :=
  match xs with
  | [] => Some m
  | x :: xs' => match wr m b x with
                | Some m1 => write_items size wr m1 (b + size x) xs' | None => None end
  end.
(** The loop reading [n] items, the offset advancing by the size of the item
    read (object.cpp:244-251, class.cpp:188-194); returns the final offset. *)
Fixpoint read_items {X} (size : X -> nat) (rd : mem -> nat -> option X)
  (m : mem) (b n : nat) : option (list X * nat) :=
  match n with
  | O => Some ([], b)
  | S n' => match rd m b with
            | Some x => match read_items size rd m (b + size x) n' with
                        | Some (xs, e) => Some (x :: xs, e) | None => None end
            | None => None end
  end.
(** The same with a uint16 offset from [base] (segments.cpp:175-183, 373-382). *)
Definition wrap16 (n : nat) : nat := Z.to_nat (u16 (Z.of_nat n)).
Fixpoint read_items16 {X} (size : X -> nat) (rd : mem -> nat -> option X)
  (m : mem) (base off n : nat) : option (list X * nat) :=
  match n with
  | O => Some ([], off)
  | S n' => match rd m (base + off) with
            | Some x => match read_items16 size rd m base (wrap16 (off + size x)) n' with
                        | Some (xs, e) => Some (x :: xs, e) | None => None end
            | None => None end
  end.

(** A size as stored in a word32. *)
Definition count {X} (l : list X) : Z := u32 (Z.of_nat (length l)).

(** ** Views and objects *)
(** r_code/object.h:106-147: the members of SysView and SysObject that are
    written.  [references_] holds uint16 values, so reading one truncates the
    word. *)
Record sys_view := mkview { v_code : list Z; v_refs : list Z }.
Record sys_object := mkobj { o_oid : Z; o_code : list Z; o_refs : list Z; o_markers : list Z; o_views : list sys_view }.

(** object.cpp:144-147 *)
Definition view_size (v : sys_view) : nat := 2 + length (v_code v) + length (v_refs v).
(** object.cpp:121-130 *)
Definition write_view (m : mem) (b : nat) (v : sys_view) : option mem :=
  match store m b (count (v_code v)) with
  | None => None
  | Some m1 => match store m1 (b + 1) (count (v_refs v)) with
  | None => None
  | Some m2 => match store_list m2 (b + 2) (v_code v) with
  | None => None
  | Some m3 => store_list m3 (b + 2 + length (v_code v)) (v_refs v)
  end end end.
(** object.cpp:132-142, into a new view *)
Definition read_view (m : mem) (b : nat) : option sys_view :=
  match load m b, load m (b + 1) with
  | Some cs, Some rs =>
      match load_list m (b + 2) (Z.to_nat cs), load_list m (b + 2 + Z.to_nat cs) (Z.to_nat rs) with
      | Some c, Some r => Some (mkview c (map u16 r))
      | _, _ => None
      end
  | _, _ => None
  end.

(** object.cpp:254-260 *)
Definition object_size (o : sys_object) : nat :=
  5 + length (o_code o) + length (o_refs o) + length (o_markers o) +
  fold_right (fun v n => view_size v + n) 0 (o_views o).
(** object.cpp:202-225 *)
Definition write_object (m : mem) (b : nat) (o : sys_object) : option mem :=
  match store m b (o_oid o) with None => None | Some m =>
  match store m (b + 1) (count (o_code o)) with None => None | Some m =>
  match store m (b + 2) (count (o_refs o)) with None => None | Some m =>
  match store m (b + 3) (count (o_markers o)) with None => None | Some m =>
  match store m (b + 4) (count (o_views o)) with None => None | Some m =>
  let i := length (o_code o) in let j := length (o_refs o) in let k := length (o_markers o) in
  match store_list m (b + 5) (o_code o) with None => None | Some m =>
  match store_list m (b + 5 + i) (o_refs o) with None => None | Some m =>
  match store_list m (b + 5 + i + j) (o_markers o) with None => None | Some m =>
  write_items view_size write_view m (b + 5 + i + j + k) (o_views o)
  end end end end end end end end.
(** object.cpp:227-252, into a new object *)
Definition read_object (m : mem) (b : nat) : option sys_object :=
  match load m b, load m (b + 1), load m (b + 2), load m (b + 3), load m (b + 4) with
  | Some oid, Some cs, Some rs, Some ms, Some vs =>
      let i := Z.to_nat cs in let j := Z.to_nat rs in let k := Z.to_nat ms in
      match load_list m (b + 5) i, load_list m (b + 5 + i) j, load_list m (b + 5 + i + j) k,
            read_items view_size read_view m (b + 5 + i + j + k) (Z.to_nat vs) with
      | Some c, Some r, Some mk, Some (v, _) => Some (mkobj oid c (map u16 r) mk v)
      | _, _, _, _ => None
      end
  | _, _, _, _, _ => None
  end.

(** ** Strings, r_code/image.cpp.  A string is the list of its bytes. *)
(** image.cpp:90-96 *)
Definition string_size (s : list Z) : nat :=
  let len := length s + 1 in
  if (len mod 4 =? 0)%nat then len / 4 + 1 else len / 4 + 2.

(** Byte [k] of a word (little endian), and its replacement. *)
Definition byte_of (w : Z) (k : nat) : Z := (w / 256 ^ Z.of_nat k) mod 256.
Definition set_byte (w : Z) (k : nat) (ch : Z) : Z :=
  (w - byte_of w k * 256 ^ Z.of_nat k + ch * 256 ^ Z.of_nat k)%Z.
(** [content[k]] where [content = (char * )(data + b)] *)
Definition load_byte (m : mem) (b k : nat) : option Z :=
  option_map (fun w => byte_of w (k mod 4)) (load m (b + k / 4)).
Definition store_byte (m : mem) (b k : nat) (ch : Z) : option mem :=
  match load m (b + k / 4) with
  | Some w => store m (b + k / 4) (set_byte w (k mod 4) ch)
  | None => None
  end.
Fixpoint store_bytes (m : mem) (b k : nat) (s : list Z) : option mem :=
  match s with
  | [] => Some m
  | ch :: s' => match store_byte m b k ch with Some m1 => store_bytes m1 b (S k) s' | None => None end
  end.
(** image.cpp:98-105 *)
Definition write_string (m : mem) (b : nat) (s : list Z) : option mem :=
  match store m b (Z.of_nat (string_size s - 1)) with
  | Some m1 => store_bytes m1 (b + 1) 0 (s ++ [0%Z])
  | None => None
  end.
(** image.cpp:107-117: appends to the given string the characters found before
    the first NUL.  The fuel covers the whole memory, so running out of it is
    running past its end. *)
Fixpoint scan (fuel : nat) (m : mem) (b k : nat) : option (list Z) :=
  match fuel with
  | O => None
  | S n => match load_byte m b k with
           | None => None
           | Some ch => if (ch =? 0)%Z then Some []
                        else option_map (cons ch) (scan n m b (S k))
           end
  end.
Definition read_string (m : mem) (b : nat) (init : list Z) : option (list Z) :=
  option_map (app init) (scan (S (4 * length m)) m (b + 1) 0).

(** ** Structure members, r_comp/structure_member.cpp *)
(** structure_member.h:115-143; the read function is its index in ReadID
    (structure_member.h:124-137): write and read are inverse tables over it
    (structure_member.cpp:143-166, 177-190). *)
Record member := mkmember { mb_read : Z; mb_type : Z; mb_class : list Z; mb_iter : Z; mb_name : list Z }.
(** structure_member.cpp:199-205 *)
Definition member_size (x : member) : nat := 3 + string_size (mb_class x) + string_size (mb_name x).
(** structure_member.cpp:141-173 *)
Definition write_member (m : mem) (b : nat) (x : member) : option mem :=
  match store m b (mb_read x) with None => None | Some m =>
  match store m (b + 1) (mb_type x) with None => None | Some m =>
  match write_string m (b + 2) (mb_class x) with None => None | Some m =>
  let offset := 2 + string_size (mb_class x) in
  match store m (b + offset) (mb_iter x) with None => None | Some m =>
  write_string m (b + (offset + 1)) (mb_name x)
  end end end end.
(** structure_member.cpp:175-197; [class_] and [name_] are empty in a new
    member (class.cpp:190).  A read ID outside the table leaves [read_]
    uninitialised: [None]. *)
Definition read_member (m : mem) (b : nat) : option member :=
  match load m b, load m (b + 1), read_string m (b + 2) [] with
  | Some r, Some t, Some c =>
      let offset := 2 + string_size c in
      match load m (b + offset), read_string m (b + (offset + 1)) [] with
      | Some it, Some n => if (0 <=? r)%Z && (r <=? 11)%Z then Some (mkmember r t c it n) else None
      | _, _ => None
      end
  | _, _, _ => None
  end.

(** ** Classes, r_comp/class.cpp *)
(** class.h:114-118 *)
Record class := mkclass { k_atom : Z; k_opcode : list Z; k_type : Z; k_use : Z; k_members : list member }.
(** class.cpp:197-204 *)
Definition class_size (c : class) : nat :=
  4 + string_size (k_opcode c) + fold_right (fun x n => member_size x + n) 0 (k_members c).
(** class.cpp:165-178 *)
Definition write_class (m : mem) (b : nat) (c : class) : option mem :=
  match store m b (k_atom c) with None => None | Some m =>
  match write_string m (b + 1) (k_opcode c) with None => None | Some m =>
  let offset := 1 + string_size (k_opcode c) in
  match store m (b + offset) (k_type c) with None => None | Some m =>
  match store m (b + offset + 1) (k_use c) with None => None | Some m =>
  match store m (b + offset + 2) (count (k_members c)) with None => None | Some m =>
  write_items member_size write_member m (b + offset + 3) (k_members c)
  end end end end end.
(** class.cpp:180-195, on a class whose [str_opcode] is [init] and which has no
    members. *)
Definition read_class (init : list Z) (m : mem) (b : nat) : option class :=
  match load m b, read_string m (b + 1) init with
  | Some a, Some s =>
      let offset := 1 + string_size s in
      match load m (b + offset), load m (b + offset + 1), load m (b + offset + 2) with
      | Some t, Some u, Some n =>
          match read_items member_size read_member m (b + offset + 3) (Z.to_nat n) with
          | Some (ms, _) => Some (mkclass a s t u ms)
          | None => None
          end
      | _, _, _ => None
      end
  | _, _ => None
  end.
(** class.cpp:109-110: the string "undefined" of a default-constructed class. *)
Definition undefined_name : list Z := [117; 110; 100; 101; 102; 105; 110; 101; 100]%Z.
(** segments.cpp:174-183, the class array of [Metadata::read] at [data]: each
    class is default-constructed, then read. *)
Definition read_class_array (m : mem) (base : nat) : option (list class * nat) :=
  match load m base with
  | Some n => read_items16 class_size (read_class undefined_name) m base 1 (wrap16 (Z.to_nat n))
  | None => None
  end.
(** segments.cpp:121-128 *)
Definition write_class_array (m : mem) (base : nat) (cs : list class) : option mem :=
  match store m base (count cs) with
  | Some m1 => write_items class_size write_class m1 (base + 1) cs
  | None => None
  end.

(** ** Code segments, object maps, object names *)
(** segments.cpp:385-391 *)
Definition segment_size (os : list sys_object) : nat := fold_right (fun o n => object_size o + n) 0 os.
(** segments.cpp:363-371 *)
Definition write_segment (m : mem) (b : nat) (os : list sys_object) : option mem :=
  write_items object_size write_object m b os.
(** segments.cpp:373-383: uint16 object count and offset *)
Definition read_segment (m : mem) (b object_count : nat) : option (list sys_object) :=
  option_map fst (read_items16 object_size read_object m b 0 (wrap16 object_count)).

(** segments.cpp:332-336: entries are uint16 *)
Definition shift_map (l : list Z) (offset : Z) : list Z := map (fun x => u16 (x + u16 offset)) l.
(** segments.cpp:338-342 *)
Definition write_map (m : mem) (b : nat) (l : list Z) : option mem := store_list m b l.
(** segments.cpp:344-348: the index is uint16, so with 65536 entries or more the
    loop does not terminate: [None]. *)
Definition read_map (m : mem) (b size : nat) : option (list Z) :=
  if (65535 <? Z.of_nat size)%Z then None else option_map (map u16) (load_list m b size).

(** segments.cpp:415-420, 449-454: words for a symbol with its NUL *)
Definition symbol_words (s : list Z) : nat :=
  let len := length s + 1 in if (len mod 4 =? 0)%nat then len / 4 else len / 4 + 1.
Definition name_size (n : Z * list Z) : nat := 2 + symbol_words (snd n).
(** segments.cpp:441-458 *)
Definition names_size (ns : list (Z * list Z)) : nat := 1 + fold_right (fun x n => name_size x + n) 0 ns.
(** segments.cpp:414-422 *)
Definition write_name (m : mem) (b : nat) (n : Z * list Z) : option mem :=
  match store m b (fst n) with None => None | Some m =>
  match store m (b + 1) (Z.of_nat (symbol_words (snd n))) with None => None | Some m =>
  store_bytes m (b + 2) 0 (snd n ++ [0%Z])
  end end.
(** segments.cpp:405-424; the hash map is its list of entries in iteration order. *)
Definition write_names (m : mem) (b : nat) (ns : list (Z * list Z)) : option mem :=
  match store m b (count ns) with
  | Some m1 => write_items name_size write_name m1 (b + 1) ns
  | None => None
  end.
(** segments.cpp:430-438: here the offset advances by the stored length. *)
Fixpoint read_name_loop (m : mem) (index n : nat) : option (list (Z * list Z)) :=
  match n with
  | O => Some []
  | S n' =>
      match load m index, load m (index + 1), scan (S (4 * length m)) m (index + 2) 0 with
      | Some oid, Some len, Some s =>
          match read_name_loop m (index + (Z.to_nat len + 2)) n' with
          | Some l => Some ((oid, s) :: l)
          | None => None
          end
      | _, _, _ => None
      end
  end.
(** segments.cpp:426-439; the result lists the assignments [symbols_[oid] = symbol]
    in order. *)
Definition read_names (m : mem) (b : nat) : option (list (Z * list Z)) :=
  match load m b with Some n => read_name_loop m (b + 1) (Z.to_nat n) | None => None end.

(** ** Images, r_comp/segments.h:177-241, r_code/image_impl.cpp *)
Record image := mkimage {
  im_time : Z; im_map : list Z; im_code : list sys_object; im_names : list (Z * list Z) }.
Record raw_image := mkraw {
  r_time : Z; r_map_size : nat; r_code_size : nat; r_names_size : nat; r_data : mem }.

(** segments.h:222-232; [fill] is the content of the freshly allocated array. *)
Definition serialize (fill : Z) (im : image) : option raw_image :=
  let ms := length (im_map im) in
  let cs := segment_size (im_code im) in
  let ns := names_size (im_names im) in
  let m := repeat fill (ms + cs + ns) in
  match write_map m 0 (shift_map (im_map im) (Z.of_nat ms)) with None => None | Some m =>
  match write_segment m ms (im_code im) with None => None | Some m =>
  match write_names m (ms + cs) (im_names im) with None => None | Some m =>
  Some (mkraw (im_time im) ms cs ns m)
  end end end.
(** segments.h:234-240, into a new image *)
Definition load_image (r : raw_image) : option image :=
  match read_map (r_data r) 0 (r_map_size r),
        read_segment (r_data r) (r_map_size r) (r_map_size r),
        read_names (r_data r) (r_map_size r + r_code_size r) with
  | Some mp, Some cd, Some ns => Some (mkimage (r_time r) mp cd ns)
  | _, _, _ => None
  end.

(** segments.cpp:484-489, 471: [map_offset_] is a uint32, the entries uint16. *)
Definition add_sys_object (st : image * Z) (o : sys_object) : image * Z :=
  let '(im, off) := st in
  (mkimage (im_time im) (im_map im ++ [u16 off]) (im_code im ++ [o]) (im_names im),
   u32 (off + Z.of_nat (object_size o))).
(** An image holding the given objects, added one after the other. *)
Definition build_image (t : Z) (os : list sys_object) (ns : list (Z * list Z)) : image :=
  fst (fold_left add_sys_object os (mkimage t [] [] ns, 0%Z)).

(** ** Files, r_code/image.tpl.cpp:97-123.  A stream is a list of bytes. *)
Definition bytes4 (w : Z) : list Z := map (byte_of w) (seq 0 4).
Definition bytes8 (w : Z) : list Z := map (byte_of (u64 w)) (seq 0 8).
Definition of_bytes (l : list Z) : Z := fold_right (fun b n => b + 256 * n)%Z 0%Z l.
(** image.tpl.cpp:112-123 *)
Definition write_file (r : raw_image) : list Z :=
  bytes8 (r_time r) ++ bytes4 (Z.of_nat (r_map_size r)) ++ bytes4 (Z.of_nat (r_code_size r)) ++
  bytes4 (Z.of_nat (r_names_size r)) ++ concat (map bytes4 (r_data r)).
(** Reading [n] words. *)
Fixpoint words_of (n : nat) (l : list Z) : option mem :=
  match n with
  | O => Some []
  | S n' => if (length l <? 4)%nat then None
            else option_map (cons (of_bytes (firstn 4 l))) (words_of n' (skipn 4 l))
  end.
(** image.tpl.cpp:97-110; [None]: the stream is too short. *)
Definition read_file (l : list Z) : option raw_image :=
  if (length l <? 20)%nat then None else
  let t := i64 (of_bytes (firstn 8 l)) in
  let ms := Z.to_nat (of_bytes (firstn 4 (skipn 8 l))) in
  let cs := Z.to_nat (of_bytes (firstn 4 (skipn 12 l))) in
  let ns := Z.to_nat (of_bytes (firstn 4 (skipn 16 l))) in
  option_map (mkraw t ms cs ns) (words_of (ms + cs + ns) (skipn 20 l)).
