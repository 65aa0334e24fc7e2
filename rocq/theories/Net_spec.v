(* What is said about models that are built on others. *)
From Coq Require Import List Bool Arith.
From Verif Require Import Net_model.
Import ListNotations.

(* [n] has an instance of [m] as one of its sides. *)
Definition on (net : nat -> sides) (n m : nat) : Prop := lhs (net n) = Some m \/ rhs (net n) = Some m.
(* No controller of a top-level model among them. *)
Definition inner (net : nat -> sides) (l : list nat) : Prop := forall k, In k l -> top (net k) = false.
(* A way up: each is built on the one before, the first on [m]. *)
Inductive Way (net : nat -> sides) (m : nat) : list nat -> nat -> Prop :=
| WNil : Way net m [] m
| WSnoc : forall l n k, Way net m l n -> on net k n -> Way net m (l ++ [k]) k.
(* Inputs come to all of them, in this order, whatever comes in between. *)
Inductive Come : list nat -> list event -> Prop :=
| CNil : forall es, Come [] es
| CSkip : forall l e es, Come l es -> Come l (e :: es)
| CTake : forall n l es, Come l es -> Come (n :: l) (Offer n :: es).
