(** Vocabulary of the statements about overlays. *)
From Verif Require Import Base Atom_model Ovl_model.

(** Changes that an evaluation makes between commits, and where it makes them. *)
Definition is_change (x : op) : Prop := match x with Patch _ _ | Value _ _ => True | _ => False end.
Definition changes (l : list op) : Prop := Forall is_change l.
Fixpoint touched (l : list op) : list nat :=
  match l with [] => [] | Patch i _ :: r | Value i _ :: r => i :: touched r | _ :: r => touched r end.
(** The overlays that a program can be in: created for a code, then operated on. *)
Definition reached (o : overlay) : Prop := exists src tpl o0 l, src <> [] /\ create src tpl = Some o0 /\ run o0 l = Some o.
(** Place [i] still holds what the program was written with. *)
Definition pristine (o : overlay) (i : nat) : Prop := nth_error (code_ o) i = nth_error (source o) i.
(** The places of the code and of the values can be counted in 16 bits. *)
Definition small (n : nat) : Prop := Z.of_nat n < 65536.
