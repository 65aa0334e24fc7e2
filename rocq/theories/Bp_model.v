(** Model of the copy of structures and of the binding of patterns, on the words of
    the code: r_exec/binding_map.cpp:119-122, 169-172, 217-222, 242-259, 326-330,
    1188-1261, r_exec/binding_map.h:191-194. *)
From Verif Require Import Base Atom_model.
Local Open Scope nat_scope.

(** Code: a word per index.  [resized_vector] (r_code/resized_vector.h) grows when a
    word is written beyond its end, so no write fails. *)
Definition mem := nat -> Z.
Definition write (m : mem) (i : nat) (w : Z) : mem := fun j => if j =? i then w else m j.

Definition place (w : Z) : nat := Z.to_nat (asIndex w).
Definition count (w : Z) : nat := Z.to_nat (getAtomCount w).
Definition ptr (i : nat) : Z := IPointer (Z.of_nat i).

(** The loop of [copy_structure], binding_map.cpp:249-258, from the word of index [i],
    [n] words left.  [copy] is the recursive call.  Simplified: [extent_index] is a
    [uint16]; here it does not wrap. *)
Fixpoint copy_words (copy : mem -> nat -> nat -> option (mem * nat)) (src : mem) (si start i n : nat)
    (dst : mem) (ext : nat) : option (mem * nat) :=
  match n with
  | 0 => Some (dst, ext)
  | S n =>
      let a := src (si + i) in
      if (getDescriptor a =? I_PTR)%Z then
        match copy (write dst (start + i) (ptr ext)) ext (place a) with
        | Some (dst, ext) => copy_words copy src si start (S i) n dst ext
        | None => None
        end
      else copy_words copy src si start (S i) n (write dst (start + i) a) ext
  end.

(** binding_map.cpp:242-259: copy the structure at [si] of [src] to the end [ext] of
    [dst]; the result has the new end.  [None]: the recursion is deeper than [fuel]. *)
Fixpoint copy_structure (fuel : nat) (src : mem) (dst : mem) (ext si : nat) : option (mem * nat) :=
  match fuel with
  | 0 => None
  | S fuel =>
      let n := count (src si) in
      copy_words (copy_structure fuel src) src si ext 0 (1 + n) dst (ext + (1 + n))
  end.

(** Objects: words, their number, references. *)
Inductive obj := Obj (word : mem) (size : nat) (refs : list obj).
Definition word (o : obj) : mem := let 'Obj m _ _ := o in m.
Definition size (o : obj) : nat := let 'Obj _ n _ := o in n.
Definition refs (o : obj) : list obj := let 'Obj _ _ l := o in l.

(** Values of the map: binding_map.h:141-240.  A structure is held in an object of its
    own, at index 0. *)
Inductive value := Unbound | AtomV (a : Z) | StructureV (m : mem) | ObjectV (o : obj).

(** TIMESTAMP, DURATION, STRING: the words that follow are raw data
    (binding_map.cpp:1212-1214, 1250-1252). *)
Definition raw (w : Z) : bool :=
  let d := getDescriptor w in ((d =? TIMESTAMP) || (d =? DURATION) || (d =? STRING))%Z.

Section Bind.
Context (fuel : nat).
(** Is the opcode that of [Ont], [Ent], [Mdl] or [Cst]?  binding_map.cpp:1232-1236. *)
Context (kept : Z -> bool).
Context (values : nat -> value).

(** The scan of the code in [need_binding], binding_map.cpp:1244-1258: is there a
    variable?  [n] bounds the number of words left. *)
Fixpoint has_variable (m : mem) (size i n : nat) : bool :=
  match n with
  | 0 => false
  | S n =>
      if size <=? i then false
      else if (getDescriptor (m i) =? VL_PTR)%Z then true
      else if raw (m i) then has_variable m size (i + count (m i) + 1) n
      else has_variable m size (i + 1) n
  end.

(** binding_map.cpp:1230-1261. *)
Fixpoint need_binding (o : obj) : bool :=
  let 'Obj m size l := o in
  if kept (m 0) then false
  else if existsb need_binding l then true
  else has_variable m size 1 size.

(** [valuate]: binding_map.cpp:119-122, 169-172, 326-330, binding_map.h:191-194. *)
Definition valuate (x : nat) (dst : mem) (i ext : nat) (l : list obj) : option (mem * nat * list obj) :=
  match values x with
  | Unbound => Some (write dst i (VLPointer (Z.of_nat x)), ext, l)
  | AtomV a => Some (write dst i a, ext, l)
  | StructureV m =>
      match copy_structure fuel m (write dst i (ptr ext)) ext 0 with
      | Some (dst, ext) => Some (dst, ext, l)
      | None => None
      end
  | ObjectV o => Some (write dst i (RPointer (Z.of_nat (length l))), ext, l ++ [o])
  end.

(** The words [from] to [from + n - 1] copied as they are. *)
Fixpoint copy_raw (src dst : mem) (from n : nat) : mem :=
  match n with
  | 0 => dst
  | S n => copy_raw src (write dst from (src from)) (from + 1) n
  end.

(** The loop on the code, binding_map.cpp:1205-1223. *)
Fixpoint bind_words (src : mem) (size i n : nat) (dst : mem) (ext : nat) (l : list obj)
    : option (mem * nat * list obj) :=
  match n with
  | 0 => Some (dst, ext, l)
  | S n =>
      if size <=? i then Some (dst, ext, l)
      else if (getDescriptor (src i) =? VL_PTR)%Z then
        match valuate (place (src i)) dst i ext l with
        | Some (dst, ext, l) => bind_words src size (i + 1) n dst ext l
        | None => None
        end
      else if raw (src i) then
        bind_words src size (i + count (src i) + 1) n (copy_raw src dst i (count (src i) + 1)) ext l
      else bind_words src size (i + 1) n (write dst i (src i)) ext l
  end.

(** All, or none. *)
Fixpoint all_bound (l : list (option obj)) : option (list obj) :=
  match l with
  | [] => Some []
  | Some o :: t => match all_bound t with Some r => Some (o :: r) | None => None end
  | None :: _ => None
  end.

(** binding_map.cpp:1188-1226.  A reference that needs no binding is shared
    (1198-1201), as is the pattern itself (1190-1191).  The new object has the head of
    the pattern (1193); the other words are undefined at first. *)
Fixpoint bind_pattern (o : obj) : option obj :=
  let 'Obj m size l := o in
  if negb (need_binding o) then Some o
  else
    match all_bound (map bind_pattern l) with
    | None => None
    | Some l' =>
        match bind_words m size 1 size (write (fun _ => UndefinedAtom) 0 (m 0)) size l' with
        | Some (dst, ext, l'') => Some (Obj dst ext l'')
        | None => None
        end
    end.
End Bind.
