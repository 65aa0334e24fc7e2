(** Vocabulary for C05-C08. *)
From Verif Require Import Base Float32 Atom_model Utils_model.

(** [k] is the index of the last update instant at or before [now] on the
    lattice of instants [ref + k * period]. *)
Definition last_update (ref period now k : Z) : Prop :=
  ref + k * period <= now < ref + (k + 1) * period.

(** Every atom of [c] outside the three atoms starting at [i] is the same in [c']. *)
Definition only_changes (i n : nat) (c c' : code) : Prop :=
  forall j, (j < i \/ i + n <= j)%nat -> (j < length c)%nat -> nth_error c' j = nth_error c j.

(** A string that the storage format supports: at most 254 characters, all of
    them ASCII and none of them NUL. *)
Definition storable (s : list Z) : Prop :=
  (length s <= 254)%nat /\ Forall (fun ch => 1 <= ch <= 127) s.

(** The atom [p] at [index] is an internal pointer to a three-atom structure
    that does not contain [index] itself. *)
Definition other_index (c : code) (index : nat) (p : Z) : Prop :=
  get c index = Some p /\ getDescriptor p = I_PTR /\
  (index < Z.to_nat (asIndex p) \/ Z.to_nat (asIndex p) + 3 <= index)%nat.
