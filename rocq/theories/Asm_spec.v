(* What is said about assumptions. *)
From Coq Require Import ZArith QArith List Bool.
From Verif Require Import Req_model Asm_model.
Import ListNotations.

(* The model makes assumptions of the fact at all. *)
Definition willing (m : mdl) (i : fact) : Prop :=
  is_req m = false /\ is_reuse m = false /\ is_cmd m = false /\ ~ strength m == 0 /\ predicted i = false /\ thr m < rate m * fcfd i.
(* The left side that follows from it, by a match that is positive or negative. *)
Definition cause (a : agent) (i : fact) (negative : bool) (l : fact) : Prop :=
  exists b b1 st b2 b3,
    rhs a i = (if negative then MNeg b else MPos b) /\ timings a b = Some b1 /\ look a b1 = (st, b2) /\
    (st = WeakEnabled \/ st = NoRequirement) /\ guards a b2 = Some b3 /\ l = lhs a b3.

(* Assumptions of assumptions: by agents one after the other, none twice in a row
   (its own assumptions are not given to a model). *)
Inductive Line (f0 : fact) : list agent -> fact -> Prop :=
| LNil : Line f0 [] f0
| LSnoc : forall l f a now x,
    Line f0 l f -> assume a now f = Some x -> (forall k b, l = k ++ [b] -> a <> b) -> Line f0 (l ++ [a]) (what x).
Fixpoint power (q : Q) (n : nat) : Q := match n with O => 1 | S k => power q k * q end.
