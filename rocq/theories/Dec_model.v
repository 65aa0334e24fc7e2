(** Names in decompiled code: r_comp/decompiler.cpp (make_suffix, get_variable_name,
    get_hlp_variable_name, decompile_references, the choice of the objects to be written)
    and the stream into which labels are inserted (r_comp/out_stream.h).
    Not modelled: how the code of an object is rendered (write_expression and the like). *)
From Verif Require Import Base Obj_model.

(** std::string: character codes. *)
Definition text := list Z.
Fixpoint teqb (a b : text) : bool :=
  match a, b with [], [] => true | x :: a, y :: b => (x =? y) && teqb a b | _, _ => false end.

(** The loop of make_suffix (decompiler.cpp:99-106): the lowest digit is prepended. Also
    std::to_string, with base 10 and '0'. The fuel 32 is more than the number of digits of
    a uint32 in these bases. *)
Fixpoint digits (fuel : nat) (base zero v : Z) (acc : text) : text :=
  match fuel with
  | O => acc
  | S f => let acc := (zero + v mod base) :: acc in if v / base =? 0 then acc else digits f base zero (v / base) acc
  end.
(** decompiler.cpp:97-109: base 26 from 'a'. *)
Definition make_suffix (v : Z) : text := digits 32 26 97 v [].
Definition to_string (v : Z) : text := digits 32 10 48 v [].

(** ** Names of variables *)

(** variable_names_ (as the numbers following 'v') and last_variable_id_; cleared for each
    object (decompiler.cpp:331-332). *)
Record vars := mkvars { given : list (Z * Z); next : Z }.
Definition no_vars : vars := mkvars [] 0.
Fixpoint find_z {A} (l : list (Z * A)) (k : Z) : option A :=
  match l with [] => None | (k', x) :: r => if k =? k' then Some x else find_z r k end.
(** get_variable_name (decompiler.cpp:122-137): the name, and whether it is inserted in
    the stream. The counter is a uint16 (decompiler.h:115). *)
Definition get_variable_name (s : vars) (i : Z) : vars * (text * bool) :=
  match find_z (given s) i with
  | None => (mkvars ((i, next s) :: given s) (u16 (next s + 1)), (118 :: to_string (next s), true))
  | Some n => (s, (118 :: to_string n, false))
  end.
(** get_hlp_variable_name (decompiler.cpp:139-145). *)
Definition get_hlp_variable_name (postfix : bool) (i : Z) : text := 118 :: to_string i ++ (if postfix then [58] else []).

(** ** Names of objects *)

(** An object of an image: its OID and the opcode of its class. *)
Record obj := mkobj { o_oid : Z; o_class : Z }.
(** An image: its objects, image->object_names_.symbols_, and the names of the classes
    (metadata_->get_class(..)->str_opcode). *)
Record image := mkimage { objs : list obj; symbol : Z -> option text; class_name : Z -> text }.
(** object_names_, object_indices_ and named_objects_ (of uint16, decompiler.h:147) of a
    decompiler. Entries are never erased; a later assignment is put in front. *)
Record names := mknames { by_index : list (Z * text); by_name : list (text * Z); named : list Z }.
Definition no_names : names := mknames [] [] [].
Fixpoint find_t (l : list (text * Z)) (k : text) : option Z :=
  match l with [] => None | (k', x) :: r => if teqb k k' then Some x else find_t r k end.
(** object_names_[i] = s; object_indices_[s] = i (decompiler.cpp:230-231, 260-261,
    308-309). *)
Definition assign (st : names) (i : Z) (s : text) : names := mknames ((i, s) :: by_index st) ((s, i) :: by_name st) (named st).
(** decompiler.cpp:227-233: the names passed by the caller, in the order of the map. *)
Definition prefill (st : names) (g : list (Z * text)) : names := fold_left (fun st e => assign st (fst e) (snd e)) g st.
(** decompiler.cpp:244-263, from the object of index [i]; [false]: returned 0. *)
Fixpoint pass1 (sym : Z -> option text) (os : list obj) (i : Z) (st : names) : names * bool :=
  match os with
  | [] => (st, true)
  | o :: r =>
      match sym (o_oid o) with
      | None => pass1 sym r (i + 1) st
      | Some s =>
          let st := mknames (by_index st) (by_name st) (u16 (o_oid o) :: named st) in
          match find_z (by_index st) i with
          | Some old => if negb (teqb old []) && negb (teqb old s) then (st, false) else pass1 sym r (i + 1) (assign st i s)
          | None => pass1 sym r (i + 1) (assign st i s)
          end
      end
  end.
(** decompiler.cpp:279-284: '.' is replaced by '_' and '|' by "anti_". *)
Definition identifier (c : text) : text :=
  flat_map (fun x => if x =? 46 then [95] else if x =? 124 then [97; 110; 116; 105; 95] else [x]) c.
(** decompiler.cpp:286-294; the counters per class are uint16. *)
Definition default_name (img : image) (cnt : list (Z * Z)) (o : obj) : text * list (Z * Z) :=
  let c := identifier (class_name img (o_class o)) in
  if negb (o_oid o =? UNDEFINED_OID) then (c ++ [95] ++ to_string (o_oid o), cnt)
  else let n := match find_z cnt (o_class o) with Some n => n | None => 0 end in
       (c ++ to_string n, (o_class o, u16 (n + 1)) :: cnt).
(** decompiler.cpp:296-306: the loop, from a value; [None]: the fuel is exhausted. *)
Fixpoint search (fuel : nat) (taken : list (text * Z)) (s : text) (value : Z) : option text :=
  match fuel with
  | O => None
  | S f => let n := s ++ make_suffix value in
           match find_t taken n with None => Some n | Some _ => search f taken s (u32 (value + 1)) end
  end.
Definition free_name (taken : list (text * Z)) (s : text) : option text :=
  match find_t taken s with None => Some s | Some _ => search (S (length taken)) taken s 1 end.
(** decompiler.cpp:265-310, from the object of index [i]. *)
Fixpoint pass2 (img : image) (os : list obj) (i : Z) (cnt : list (Z * Z)) (st : names) : option names :=
  match os with
  | [] => Some st
  | o :: r =>
      match symbol img (o_oid o), find_z (by_index st) i with
      | None, None =>
          let '(s, cnt) := default_name img cnt o in
          match free_name (by_name st) s with
          | None => None
          | Some s => pass2 img r (i + 1) cnt (assign st i s)
          end
      | _, _ => pass2 img r (i + 1) cnt st
      end
  end.
(** decompile_references (decompiler.cpp:225-315). The index of the loops is a uint16:
    with more than 65535 objects it never reaches their number. *)
Definition reached (os : list obj) : list obj := if 65536 <=? Z.of_nat (length os) then firstn (Z.to_nat 65536) os else os.
Inductive outcome := Named (st : names) | Refused (st : names) | Endless.
Definition decompile_references (st : names) (g : list (Z * text)) (img : image) : outcome :=
  let st := prefill st g in
  let (st, ok) := pass1 (symbol img) (reached (objs img)) 0 st in
  if negb ok then Refused st
  else if 65536 <=? Z.of_nat (length (objs img)) then Endless
  else match pass2 img (objs img) 0 [] st with Some st => Named st | None => Endless end.
(** Whether decompile_object writes the object of index [i] (decompiler.cpp:340-344) when
    the whole image is decompiled, and the label it writes (379). *)
Definition written (ignore : bool) (st : names) (o : obj) : bool := negb (ignore && existsb (Z.eqb (u16 (o_oid o))) (named st)).
Definition label (st : names) (i : Z) : text := match find_z (by_index st) i with Some s => s | None => [] end.
Fixpoint write_all (ignore : bool) (st : names) (os : list obj) (i : Z) : list (Z * text) :=
  match os with
  | [] => []
  | o :: r => (if written ignore st o then [(i, label st i)] else []) ++ write_all ignore st r (i + 1)
  end.
(** Decompiler::decompile (decompiler.cpp:198-208): the objects that are written, with
    their labels; the value returned by decompile_references is not tested. [None]: runs
    forever. *)
Definition decompile (st : names) (img : image) (ignore : bool) : option (names * list (Z * text)) :=
  match decompile_references st [] img with
  | Endless => None
  | Named st | Refused st =>
      if 65536 <=? Z.of_nat (length (objs img)) then None else Some (st, write_all ignore st (objs img) 0)
  end.

(** ** The stream *)

(** stream_ (the put position is at its end between the operations), positions_ and
    code_indexes_to_stream_indexes_ (entries that were not assigned read 0:
    resized_vector). *)
Record ostr := mkostr { content : text; positions : list Z; stream_index : list (Z * Z) }.
Definition empty_stream : ostr := mkostr [] [] [].
Inductive oop := Write (t : text) | Push (t : text) (i : Z) | Skip | Insert (i : Z) (t : text).
Inductive ores := Running (s : ostr) | Loops | Throws.
(** out_stream.h:100-131. A stream index is a uint16; so is the index of the loop that
    shifts the positions, which does not end when there are more than 65535 of them.
    substr throws when the position is beyond the end. *)
Definition ostep (s : ostr) (o : oop) : ores :=
  match o with
  | Write t => Running (mkostr (content s ++ t) (positions s) (stream_index s))
  | Push t i =>
      let p := positions s ++ [Z.of_nat (length (content s))] in
      Running (mkostr (content s ++ t) p ((i, u16 (Z.of_nat (length p) - 1)) :: stream_index s))
  | Skip => Running (mkostr (content s) (positions s ++ [0]) (stream_index s))
  | Insert i t =>
      let k := match find_z (stream_index s) i with Some k => k | None => 0 end in
      let ps := match positions s with [] => [0] | ps => ps end in
      let pos := nth (Z.to_nat k) ps 0 in
      if Z.of_nat (length (content s)) <? pos then Throws
      else if 65536 <=? Z.of_nat (length ps) then Loops
      else Running (mkostr (firstn (Z.to_nat pos) (content s) ++ t ++ skipn (Z.to_nat pos) (content s))
                           (firstn (S (Z.to_nat k)) ps ++ map (Z.add (Z.of_nat (length t))) (skipn (S (Z.to_nat k)) ps)) (stream_index s))
  end.
Fixpoint orun (s : ostr) (ops : list oop) : ores :=
  match ops with
  | [] => Running s
  | o :: r => match ostep s o with Running s => orun s r | x => x end
  end.
