(** Objects as they are written, the words they are compiled to, and what is written from the
    words again: r_comp/compiler.cpp:164-288 (read_sys_object), 358-374 (addLocalReference),
    908-924 (local_reference), 1180-1213, 1596-1664 (expression_tail), 1668-1805 (expression,
    set), 1935-1968 (set_element_count), 2120-2190, 2308-2400, 2410-2428, 2525-2561, 2660-2700;
    r_comp/decompiler.cpp:451-474 (write_expression_tail), 741-804 (write_set), 804-930
    (write_any); r_code/atom.inline.cpp: IPointer, CodeVLPointer, Set.

    Simplifications: the text is given as a tree; what a word of its own stands for (numbers,
    names of objects, this, nil...) is one number; the types of members, paths (a.b.c), casts,
    sets with a class, the variables of composite states and models and the views are left out.
    Extents beyond 65535 are not wrapped. *)
From Verif Require Import Base.
Local Open Scope nat_scope.

(** What is written.  [Val]: what takes one word.  [Raw h l]: a time, a duration, a string; its
    head and the words behind it.  [Any]: [:].  [Rest]: [::].  [Var x]: [x:].  [Use x]: [x].
    [Node x c n p l]: [x:(c l)] (or without [x:]), [c] a class with [n] members, [p] if it is ptn or
    |ptn.  [SetOf x l]: [x:[l]]; without elements: [|[]]. *)
Inductive tree :=
| Val (z : Z) | Raw (h : Z) (l : list Z) | Any | Rest | Var (x : nat) | Use (x : nat)
| Node (x : option nat) (c : Z) (n : nat) (p : bool) (l : list tree)
| SetOf (x : option nat) (l : list tree).

(** Words.  [Undef]: what a vector is filled with when it grows.  [WRaw h n]: the head of a time,
    a duration or a string, [n] words follow. *)
Inductive word := Undef | W (z : Z) | WRaw (h : Z) (n : nat) | Wild | Tail | Ptr (i : nat) | VPtr (i : nat) | Head (c : Z) (n : nat) | Set_ (n : nat).

(** IPointer, CodeVLPointer: twelve bits. *)
Definition bits12 (i : nat) : nat := i mod 4096.

(** The compiler: the words written, the extent, the names with the words they are at, the flag
    no_arity_check. *)
Record state := mks { code : nat -> word; extent : nat; names : nat -> option nat; cut : bool }.
Definition put (i : nat) (w : word) (s : state) : state :=
  mks (fun j => if j =? i then w else code s j) (extent s) (names s) (cut s).
Fixpoint put_all (i : nat) (l : list word) (s : state) : state :=
  match l with [] => s | w :: l => put_all (S i) l (put i w s) end.
Definition grow (n : nat) (s : state) : state := mks (code s) (extent s + n) (names s) (cut s).
Definition name (x : nat) (i : nat) (s : state) : state :=
  mks (code s) (extent s) (fun y => if y =? x then Some i else names s y) (cut s).
Definition name_opt (x : option nat) (i : nat) (s : state) : state := match x with Some x => name x i s | None => s end.
Definition set_cut (b : bool) (s : state) : state := mks (code s) (extent s) (names s) b.
Definition set_names (e : nat -> option nat) (s : state) : state := mks (code s) (extent s) e (cut s).

(** set_element_count, 1935-1968: the elements are read once without writing; names are recorded
    all the same, with indices that start from zero in every structure, as extents are not known
    (1690, 1766).  [None]: a name is not known; the pass that writes fails there too. *)
Fixpoint mark (t : tree) (i : nat) (e : nat -> option nat) {struct t} : option (nat -> option nat) :=
  match t with
  | Var x => Some (fun y => if y =? x then Some i else e y)
  | Use x => match e x with Some _ => Some e | None => None end
  | Node x _ _ _ l | SetOf x l =>
      (fix go (l : list tree) (j : nat) (e : nat -> option nat) : option (nat -> option nat) :=
         match l with [] => Some e | t :: l => match mark t j e with Some e => go l (S j) e | None => None end end)
        l 0 (match x with Some x => fun y => if y =? x then Some i else e y | None => e end)
  | _ => Some e
  end.
(** 1946-1959: each element at the index 0. *)
Fixpoint mark_elements (l : list tree) (e : nat -> option nat) : option (nat -> option nat) :=
  match l with [] => Some e | t :: l => match mark t 0 e with Some e => mark_elements l e | None => None end end.

Definition is_rest (t : tree) : bool := match t with Rest => true | _ => false end.

(** One thing at the index [i]; [open]: within the skeleton of a pattern (pattern_lvl).  [None]: an
    error is reported. *)
Fixpoint comp (open : bool) (t : tree) (i : nat) (s : state) {struct t} : option state :=
  match t with
  | Val z => Some (put i (W z) s)
  | Raw h l =>
      (* 2095-2106, 2130-2141, 2170-2190 *)
      Some (grow (S (length l)) (put_all (extent s) (WRaw h (length l) :: map W l) (put i (Ptr (bits12 (extent s))) s)))
  | Any => if open then Some (put i Wild s) else None
  | Rest => if open then Some (set_cut true (put i Tail s)) else None
  | Var x => if open then Some (put i Wild (name x i s)) else None
  | Use x => match names s x with Some j => Some (put i (VPtr (bits12 j)) s) | None => None end
  | Node x c n p l =>
      (* expression, 1668-1707 *)
      let e := extent s in
      let s := grow (S n) (put e (Head c n) (put i (Ptr (bits12 e)) (name_opt x i s))) in
      (* expression_tail, 1596-1664 *)
      let s := if open then put_all (S e) (repeat Wild n) s else s in
      (fix go (l : list tree) (k : nat) (s : state) : option state :=
         match l with
         | [] => if cut s then Some (set_cut false s) else if k =? n then Some s else None
         | t :: l =>
             if n <=? k then None
             else if is_rest t && negb (match l with [] => true | _ => false end) then None
             else match comp (open || (p && (k =? 0))) t (S e + k) s with Some s => go l (S k) s | None => None end
         end) l 0 s
  | SetOf x [] => match x with None => Some (grow 1 (put (extent s) (Set_ 0) (put i (Ptr (bits12 (extent s))) s))) | Some _ => None end
  | SetOf x l =>
      (* set, 1751-1805 *)
      let e := extent s in
      let s := name_opt x i s in
      match mark_elements l (names s) with
      | None => None
      | Some a =>
          let s := grow (S (length l mod 256)) (put e (Set_ (length l mod 256)) (put i (Ptr (bits12 e)) (set_names a s))) in
          (fix go (l : list tree) (k : nat) (s : state) : option state :=
             match l with
             | [] => Some s
             | t :: l =>
                 if is_rest t && negb (match l with [] => true | _ => false end) then None
                 else match comp open t (S e + k) s with Some s => go l (S k) s | None => None end
             end) l 0 s
      end
  end.

(** The members of an expression and the elements of a set, as above. *)
Fixpoint members (open p : bool) (n base : nat) (l : list tree) (k : nat) (s : state) : option state :=
  match l with
  | [] => if cut s then Some (set_cut false s) else if k =? n then Some s else None
  | t :: l =>
      if n <=? k then None
      else if is_rest t && negb (match l with [] => true | _ => false end) then None
      else match comp (open || (p && (k =? 0))) t (base + k) s with Some s => members open p n base l (S k) s | None => None end
  end.
Fixpoint elements (open : bool) (base : nat) (l : list tree) (k : nat) (s : state) : option state :=
  match l with
  | [] => Some s
  | t :: l =>
      if is_rest t && negb (match l with [] => true | _ => false end) then None
      else match comp open t (base + k) s with Some s => elements open base l (S k) s | None => None end
  end.

(** read_sys_object, 164-233: an object of the class [c] with [n] members. *)
Definition compile_object (c : Z) (n : nat) (p : bool) (l : list tree) : option state :=
  members false p n 1 l 0 (mks (fun j => if j =? 0 then Head c n else Undef) (S n) (fun _ => None) false).

(** What is written from the words.  A number [i] at a wildcard or a structure: the index of the word
    it is written for; a label is put there if it is used ([OUse i]).  [OBad]: undefined. *)
Inductive out := OBad | OVal (z : Z) | ORaw (h : Z) (l : list word) | OWild (i : nat) | ORest | OUse (i : nat)
| ONode (i : nat) (c : Z) (l : list out) | OSet (i : nat) (l : list out).

(** 840-847: pointers to pointers. *)
Fixpoint follow (fuel : nat) (m : nat -> word) (i : nat) : option nat :=
  match fuel with 0 => None | S fuel => match m i with Ptr j => follow fuel m j | _ => Some i end end.

(** write_any, 804-930; write_expression_tail and write_set: [n] members from the index [j] on;
    [after]: what is left out behind [::]. *)
Fixpoint show (fuel : nat) (m : nat -> word) (r : nat) {struct fuel} : option out :=
  match fuel with
  | 0 => None
  | S fuel =>
      match m r with
      | W z => Some (OVal z)
      | Wild => Some (OWild r)
      | Tail => Some ORest
      | Ptr i | VPtr i =>
          match follow fuel m i with
          | None => None
          | Some k =>
              if k <? r then Some (OUse k)
              else match m k with
                   | Head c n => match show_all fuel m (S k) n false with Some l => Some (ONode k c l) | None => None end
                   | Set_ n => match show_all fuel m (S k) n false with Some l => Some (OSet k l) | None => None end
                   | WRaw h n => Some (ORaw h (map m (seq (S k) n)))
                   | _ => Some OBad
                   end
          end
      | _ => Some OBad
      end
  end
with show_all (fuel : nat) (m : nat -> word) (j n : nat) (after : bool) {struct fuel} : option (list out) :=
  match fuel with
  | 0 => None
  | S fuel =>
      match n with
      | 0 => Some []
      | S n =>
          match show fuel m j with
          | None => None
          | Some o =>
              match show_all fuel m (S j) n (after || match o with ORest => true | _ => false end) with
              | None => None
              | Some l => Some (match after, o with true, OWild _ => l | _, _ => o :: l end)
              end
          end
      end
  end.
(** The object as a whole: decompile_object. *)
Definition show_object (fuel : nat) (m : nat -> word) : option out :=
  match m 0 with
  | Head c n => match show_all fuel m 1 n false with Some l => Some (ONode 0 c l) | None => None end
  | _ => None
  end.
