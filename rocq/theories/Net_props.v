(* C207: models that are built on others. *)
From Coq Require Import List Bool Arith.
From Verif Require Import Net_model Net_spec Net_proofs.
Import ListNotations.

(* Three models, each with an instance of the one before; and one with none. *)
Definition tower (n : nat) : sides := match n with 1 => Sd (Some 0) None false | 2 => Sd None (Some 1) false | 3 => Sd (Some 2) (Some 9) false | 5 => Sd (Some 0) None true | _ => Sd None None false end.

(* C207.  What is built on something that disappears, disappears: not before inputs have come to
   all in between. *)
Theorem C207_refuted : exists net m l n e1 e2,
  Way net m l n /\ inner net l /\ (forall k, In k l -> In (Offer k) e2) /\ ~ In n (gone (run net (e1 ++ Kill m :: e2))) /\ In n (taken (run net (e1 ++ Kill m :: e2))).
Proof.
  exists tower, 0, [1; 2], 2, [], [Offer 2; Offer 1]. split.
  { apply (WSnoc tower 0 [1] 1 2); [apply (WSnoc tower 0 [] 0 1); [constructor|left; reflexivity]|right; reflexivity]. }
  split; [intros k [<- | [<- | []]]; reflexivity|]. split; [intros k [<- | [<- | []]]; cbn; auto|]. split; [|left; reflexivity]. cbn. intros [X | [X | []]]; discriminate.
Qed.
Print Assumptions C207_refuted.
(* Top-level models take inputs for ever. *)
Theorem C207_top_refuted : exists net n m, on net n m /\ forall e2, ~ In (Kill n) e2 ->
  ~ In n (gone (run net (Kill m :: e2))) /\ taken (run net ((Kill m :: e2) ++ [Offer n])) = taken (run net (Kill m :: e2)) ++ [n].
Proof.
  exists tower, 5, 0. split; [left; reflexivity|]. intros e2 N. split.
  - intros H. apply only in H. destruct H as (k & l & A & W & T & _). inversion W as [E|l' n' k' W' O E1 E2]; subst.
    + destruct A as [A|A]; [discriminate|exact (N A)].
    + assert (X : top (tower 5) = false) by (apply T, in_or_app; right; left; reflexivity). discriminate X.
  - rewrite run_snoc. reflexivity.
Qed.
Print Assumptions C207_top_refuted.
(* When they have, in this order, it does. *)
Theorem C207_all_partial : forall net m l n e1 e2, Way net m l n -> inner net l -> Come l e2 -> In n (gone (run net (e1 ++ Kill m :: e2))).
Proof. exact everything. Qed.
Print Assumptions C207_all_partial.
(* Nothing else does. *)
Theorem C207_only_partial : forall net es n, In n (gone (run net es)) ->
  exists m l, In (Kill m) es /\ Way net m l n /\ inner net l /\ (forall k, In k l -> In (Offer k) es).
Proof. exact only. Qed.
Print Assumptions C207_only_partial.
(* What is built on something that is gone takes no input; everything that is there does. *)
Theorem C207_input_partial : forall net es n m, top (net n) = false -> on net n m -> In m (gone (run net es)) -> taken (run net (es ++ [Offer n])) = taken (run net es).
Proof. exact not_taken. Qed.
Print Assumptions C207_input_partial.
Theorem C207_taken_partial : forall net es n, top (net n) = false -> ~ In n (gone (run net (es ++ [Offer n]))) -> taken (run net (es ++ [Offer n])) = taken (run net es) ++ [n].
Proof. intros net es n T N. rewrite taken_iff by exact T. destruct (in_dec Nat.eq_dec n _) as [I|I]; [contradiction|reflexivity]. Qed.
Print Assumptions C207_taken_partial.

Example C207_case :
  Way tower 0 [1; 2; 3] 3 /\ Come [1; 2; 3] [Offer 4; Offer 1; Offer 3; Offer 2; Offer 3] /\
  run tower [Offer 2; Kill 0; Offer 4; Offer 1; Offer 3; Offer 2; Offer 3] = St [3; 2; 1; 0] [2; 4; 3].
Proof.
  split; [|split; [apply CSkip, CTake, CSkip, CTake, CTake, CNil|reflexivity]].
  apply (WSnoc tower 0 [1; 2] 2 3); [|left; reflexivity]. apply (WSnoc tower 0 [1] 1 2); [apply (WSnoc tower 0 [] 0 1); [constructor|left; reflexivity]|right; reflexivity].
Qed.
