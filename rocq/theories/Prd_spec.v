(** Vocabulary of the statements about the simulations of predictions. *)
From Verif Require Import Base Atom_model Prd_model.

(** The last element of a list comes first. *)
Definition rotated (l : list nat) : list nat := match rev l with [] => [] | x :: r => x :: rev r end.
(** The first of [l] whose root is [r]. *)
Definition first_of_root (root : nat -> nat) (r : nat) (l : list nat) : option nat := find (fun s => Nat.eqb (root s) r) l.
