(* What is said about promoted facts. *)
From Coq Require Import ZArith QArith List Bool Arith.
From Verif Require Import Pro_model.
Import ListNotations.

(* An input that counts: in this simulation, and not promoted itself. *)
Definition counts (e : event) : Prop := promoted e = false /\ own e = true.
(* A fact that was promoted and has not been invalidated. *)
Definition stands (s : state) (n : nat) (f p : fact) : Prop := (exists o, In (n, o, f, p) (made s)) /\ ~ In n (invalid s).
(* The input begins when all that the overlay has is over. *)
Definition is_later (e : event) : Prop :=
  (exists b, fwd_before e = Some b /\ (b <= after (inp e))%Z) /\ (after (inp e) < before (inp e))%Z.
(* The same thing, at the time of another fact. *)
Definition kept_for (f i p : fact) : Prop :=
  obj p = obj f /\ neg p = neg f /\ fcfd p = fcfd f /\ after p = after i /\ before p = before i.
Definition of_ov (o : nat) (x : nat * nat * fact * fact) : bool := Nat.eqb (snd (fst (fst x))) o.
