(** Vocabulary for codes: the words an index leads to. *)
From Verif Require Import Base Atom_model Utils_model.
Local Open Scope nat_scope.

Definition kind (c : code) (i : nat) (d : Z) : Prop := exists a, nth_error c i = Some a /\ getDescriptor a = d.

(** A structure: its members are words that can be read, unlike those of times, durations and strings. *)
Definition structure (d : Z) : Prop :=
  In d [C_PTR; SET; OBJECT; S_SET; MARKER; OPERATOR; GROUP; INSTANTIATED_PROGRAM; INSTANTIATED_CPP_PROGRAM;
        INSTANTIATED_INPUT_LESS_PROGRAM; INSTANTIATED_ANTI_PROGRAM; COMPOSITE_STATE; MODEL].

(** One step: from a pointer to where it points, from a structure to its members.  An assignment
    points to its expression. *)
Inductive Step (c : code) (i : nat) : nat -> Prop :=
| step_pointer a : nth_error c i = Some a -> getDescriptor a = I_PTR -> Step c i (Z.to_nat (asIndex a))
| step_assignment a : nth_error c i = Some a -> getDescriptor a = ASSIGN_PTR -> Step c i (Z.to_nat (asIndex a))
| step_member a k : nth_error c i = Some a -> structure (getDescriptor a) -> 1 <= k <= Z.to_nat (getAtomCount a) -> Step c i (i + k).
Inductive Reach (c : code) (i : nat) : nat -> Prop :=
| reach_here : Reach c i i
| reach_step j k : Step c i j -> Reach c j k -> Reach c i k.

(** What is at [i] refers to another object. *)
Definition Refers (c : code) (i : nat) : Prop := exists j, Reach c i j /\ kind c j R_PTR.

(** No way leads round in a circle, and no way leads beyond the code. *)
Definition Ends (c : code) : Prop := exists rank : nat -> nat, forall i j, Step c i j -> rank j < rank i.
Definition Within (c : code) (i : nat) : Prop := forall j, Reach c i j -> j < length c.

(** No word reached is of one of the kinds [l]. *)
Definition Free (l : list Z) (c : code) (i : nat) : Prop := forall j d, Reach c i j -> kind c j d -> ~ In d l.

(** The time at [i]: its two words. *)
Definition time_at (c : code) (i : nat) : option Z := GetInt64 c (S i).
(** Every word reached from [r] is reached in one way. *)
Definition Unshared (c : code) (r : nat) : Prop :=
  (forall i i' j, Reach c r i -> Reach c r i' -> Step c i j -> Step c i' j -> i = i') /\ (forall i, Reach c r i -> ~ Step c i r).
(** A time that is reached: a time with a head that says so and two words that are reached by no way. *)
Definition TimesApart (c : code) (r : nat) : Prop :=
  forall t, Reach c r t -> kind c t TIMESTAMP -> nth_error c t = Some ATimestamp /\ t + 2 < length c /\ ~ Reach c r (t + 1) /\ ~ Reach c r (t + 2).
(** [later ref t]: [t], [ref] later, at most the last time there is. *)
Definition later (ref t : Z) : Z := Z.min 9223372036854775807 (t + ref).
(** Kinds of objects that are not members of others; what is excluded below. *)
Definition others : list Z := [INSTANTIATED_PROGRAM; INSTANTIATED_CPP_PROGRAM; INSTANTIATED_INPUT_LESS_PROGRAM; INSTANTIATED_ANTI_PROGRAM; COMPOSITE_STATE; MODEL].
Definition strange : list Z := TIMESTAMP :: DURATION :: ASSIGN_PTR :: others.
