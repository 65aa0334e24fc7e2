(* C202 and C203: assumptions. *)
From Coq Require Import ZArith QArith List Bool.
From Verif Require Import Req_model Asm_model Asm_spec Asm_proofs.
Import ListNotations.

(* C202.  When an assumption is made, and which one. *)
Theorem C202_assumption : forall a now i x,
  assume a now i = Some x <->
  willing (par a) i /\ exists neg l, cause a i neg l /\
    x = Mk (Fc (obj l) (xorb neg (anti l)) (predicted l) (rate (par a) * fcfd i) (until l)) (rate (par a) * fcfd i) (Z.max 0 (until l - now)).
Proof. exact exact. Qed.
Print Assumptions C202_assumption.

Definition strong := Md false false false 1 (3 # 4) (1 # 2).
Definition door : agent :=
  Ag strong (fun i => if Nat.eqb (obj i) 5 then if anti i then MNeg 1 else MPos 1 else MNo) (fun b => Some (S b))
     (fun b => (if Nat.eqb b 2 then WeakEnabled else WeakDisabled, S b)) (fun b => Some (S b)) (fun b => Fc b false false 1 70).
Example C202_case :
  assume door 20 (Fc 5 true false 1 90) = Some (Mk (Fc 4 true false (3 # 4) 70) (3 # 4) 50) /\
  assume door 80 (Fc 5 false false 1 90) = Some (Mk (Fc 4 false false (3 # 4) 70) (3 # 4) 0) /\
  assume door 20 (Fc 5 false false (1 # 2) 90) = None /\ assume door 20 (Fc 5 false true 1 90) = None.
Proof. repeat split. Qed.

(* C203.  Assumptions made of assumptions do not go on for ever: this is wrong. *)
Theorem C203_end_refuted : exists f0, forall n, exists l f,
  length l = n /\ Line f0 l f /\ fcfd f == 1 /\ (forall a, In a l -> rate (par a) == 1 /\ thr (par a) == 1 # 2).
Proof.
  exists (Fc 2 false false 1 100). intros n. destruct (circle_line n) as (L & f & I & _ & _ & C). exists (circle n), f.
  split; [exact L|split; [exact I|split; [exact C|]]]. clear. induction n as [|n IH]; intros a A; [destruct A|].
  cbn [circle] in A. apply in_app_or in A. destruct A as [A | [<- | []]]; [apply IH, A|]. destruct (Nat.even n); split; reflexivity.
Qed.
Print Assumptions C203_end_refuted.
(* Each takes its share of the confidence, and a line is only as long as what is left
   is above the lowest threshold. *)
Theorem C203_confidence_partial : forall f0 l f q, Line f0 l f -> 0 <= fcfd f0 -> 0 <= q ->
  (forall a, In a l -> 0 <= rate (par a) /\ rate (par a) <= q) -> 0 <= fcfd f /\ fcfd f <= fcfd f0 * power q (length l).
Proof. exact line_confidence. Qed.
Print Assumptions C203_confidence_partial.
Theorem C203_end_partial : forall f0 l a f q t, Line f0 (l ++ [a]) f -> 0 <= fcfd f0 -> 0 <= q ->
  (forall b, In b (l ++ [a]) -> 0 <= rate (par b) /\ rate (par b) <= q /\ t <= thr (par b)) -> t < fcfd f0 * power q (length (l ++ [a])).
Proof. exact line_bound. Qed.
Print Assumptions C203_end_partial.
(* So with rates below 1 and thresholds above 0 there is a number that none exceeds. *)
Theorem C203_length_partial : forall f0 l a f q t, Line f0 (l ++ [a]) f -> 0 <= fcfd f0 -> 0 <= q -> q <= 1 -> 0 <= t ->
  (forall b, In b (l ++ [a]) -> 0 <= rate (par b) /\ rate (par b) <= q /\ t <= thr (par b)) ->
  t * (inject_Z (Z.of_nat (length (l ++ [a]))) * (1 - q)) < fcfd f0.
Proof. exact line_length. Qed.
Print Assumptions C203_length_partial.

Example C203_case :
  Line (Fc 5 true false 1 90) [door] (Fc 4 true false (3 # 4) 70) /\ 1 # 2 < 1 * power (3 # 4) 2 /\ ~ 1 # 2 < 1 * power (3 # 4) 3.
Proof.
  split; [|split; [reflexivity|discriminate]].
  apply (LSnoc (Fc 5 true false 1 90) [] (Fc 5 true false 1 90) door 20 (Mk (Fc 4 true false (3 # 4) 70) (3 # 4) 50)); [constructor|reflexivity|].
  intros k b E. destruct k; discriminate.
Qed.
