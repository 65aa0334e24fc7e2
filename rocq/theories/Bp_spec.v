(** Vocabulary for the statements about copies of structures and bound patterns. *)
From Verif Require Import Base Atom_model Bp_model.
Local Open Scope nat_scope.

(** A structure, read off the code: a word that is no internal pointer; raw data (times,
    durations, strings); a head and its parts. *)
Inductive tree := Leaf (w : Z) | Raw (h : Z) (ws : list Z) | Node (h : Z) (ts : list tree).

Definition words (m : mem) (i n : nat) : list Z := map m (seq i n).

(** The word [w] of the code [m] stands for a structure; [ok] holds of the places of
    heads and parts, [okr] of those of raw data. *)
Inductive shows (ok okr : nat -> Prop) (m : mem) : Z -> tree -> Prop :=
| shows_leaf : forall w, getDescriptor w <> I_PTR -> shows ok okr m w (Leaf w)
| shows_raw : forall w, getDescriptor w = I_PTR -> ok (place w) -> raw (m (place w)) = true ->
    (forall j, j < count (m (place w)) -> okr (place w + 1 + j)) ->
    shows ok okr m w (Raw (m (place w)) (words m (place w + 1) (count (m (place w)))))
| shows_node : forall w ts, getDescriptor w = I_PTR -> ok (place w) -> raw (m (place w)) = false ->
    getDescriptor (m (place w)) <> I_PTR ->
    (forall j, j < count (m (place w)) -> ok (place w + 1 + j)) ->
    Forall2 (shows ok okr m) (words m (place w + 1) (count (m (place w)))) ts ->
    shows ok okr m w (Node (m (place w)) ts).

Definition anywhere : nat -> Prop := fun _ => True.
Definition within (lo hi : nat) : nat -> Prop := fun i => lo <= i < hi.

(** The number of words of a structure, pointers to it excluded. *)
Fixpoint tsize (t : tree) : nat :=
  match t with
  | Leaf _ => 0
  | Raw _ ws => 1 + length ws
  | Node _ ts => 1 + length ts + list_sum (map tsize ts)
  end.

(** How deep it is. *)
Fixpoint height (t : tree) : nat :=
  match t with
  | Leaf _ => 0
  | Raw _ _ => 1
  | Node _ ts => 1 + list_max (map height ts)
  end.

(** No word of raw data looks like an internal pointer. *)
Fixpoint tame (t : tree) : Prop :=
  match t with
  | Leaf _ => True
  | Raw _ ws => Forall (fun w => getDescriptor w <> I_PTR) ws
  | Node _ ts => fold_right (fun t P => tame t /\ P) True ts
  end.

(** What an object says: variables, atoms, structures, objects. *)
Inductive term :=
| TVar (x : nat)
| TAtom (w : Z)
| TRaw (h : Z) (ws : list Z)
| TStr (h : Z) (ts : list term)
| TObj (h : Z) (ts : list term).

(** Replace variables, save in the objects that are [kept]. *)
Fixpoint subst (kept : Z -> bool) (s : nat -> term) (t : term) : term :=
  match t with
  | TVar x => s x
  | TAtom w => TAtom w
  | TRaw h ws => TRaw h ws
  | TStr h ts => TStr h (map (subst kept s) ts)
  | TObj h ts => if kept h then t else TObj h (map (subst kept s) ts)
  end.

(** The meaning of a structure in an object whose references are [l].  [ok o] holds of
    the places read in [o]. *)
Inductive means (ok : obj -> nat -> Prop) : list obj -> tree -> term -> Prop :=
| means_var : forall l w, getDescriptor w = VL_PTR -> means ok l (Leaf w) (TVar (place w))
| means_ref : forall l w o tr ts, getDescriptor w = R_PTR -> nth_error l (place w) = Some o ->
    (forall j, j < count (word o 0) -> ok o (1 + j)) ->
    Forall2 (shows (ok o) anywhere (word o)) (words (word o) 1 (count (word o 0))) tr ->
    Forall2 (means ok (refs o)) tr ts ->
    means ok l (Leaf w) (TObj (word o 0) ts)
| means_atom : forall l w, getDescriptor w <> VL_PTR -> getDescriptor w <> R_PTR ->
    means ok l (Leaf w) (TAtom w)
| means_raw : forall l h ws, means ok l (Raw h ws) (TRaw h ws)
| means_str : forall l h tr ts, getDescriptor h <> VL_PTR -> Forall2 (means ok l) tr ts -> means ok l (Node h tr) (TStr h ts).

(** The meaning of an object. *)
Definition says (ok : obj -> nat -> Prop) (o : obj) (t : term) : Prop :=
  exists tr ts, t = TObj (word o 0) ts /\
    (forall j, j < count (word o 0) -> ok o (1 + j)) /\
    Forall2 (shows (ok o) anywhere (word o)) (words (word o) 1 (count (word o 0))) tr /\
    Forall2 (means ok (refs o)) tr ts.

(** The places reached from [i] by going through the code word by word, raw data
    skipped. *)
Inductive steps (m : mem) (size i : nat) : nat -> Prop :=
| steps_here : i < size -> steps m size i i
| steps_raw : forall k, steps m size i k -> raw (m k) = true -> k + count (m k) + 1 < size ->
    steps m size i (k + count (m k) + 1)
| steps_next : forall k, steps m size i k -> raw (m k) = false -> k + 1 < size -> steps m size i (k + 1).

(** The places that are not raw data. *)
Definition starts (o : obj) : nat -> Prop := steps (word o) (size o) 1.

(** Everything goes: no condition on places. *)
Definition free : obj -> nat -> Prop := fun _ _ => True.

(** Raw data do not run over the end of the code, in the object and in those it refers to. *)
Inductive whole : obj -> Prop :=
| whole_intro : forall m size l,
    (forall k, steps m size 1 k -> raw (m k) = true -> k + count (m k) < size) ->
    (forall o, In o l -> whole o) -> whole (Obj m size l).

(** Pointers have 12 bits. *)
Definition limit : nat := Z.to_nat 4096.

(** Small enough for such pointers. *)
Inductive fits : obj -> Prop :=
| fits_intro : forall m size l, size <= limit -> length l <= limit -> (forall o, In o l -> fits o) -> fits (Obj m size l).

(** What a variable stands for: nothing yet; a word that is no pointer; a structure
    without references and without raw data that look like pointers; an object. *)
Definition stands (fuel : nat) (x : nat) (v : value) (t : term) : Prop :=
  match v with
  | Unbound => t = TVar x
  | AtomV a => t = TAtom a /\ getDescriptor a <> I_PTR /\ getDescriptor a <> VL_PTR /\ getDescriptor a <> R_PTR
  | StructureV m => exists tr, shows anywhere anywhere m (ptr 0) tr /\ tame tr /\ height tr <= fuel /\
      forall l, means free l tr t
  | ObjectV o => says free o t
  end.

(** The value made of the structure at a place of a code: a copy of its own
    (binding_map.cpp:217-222). *)
Definition hold (fuel : nat) (src : mem) (w : Z) : option mem :=
  option_map fst (copy_structure fuel src (fun _ => UndefinedAtom) 0 (place w)).
