(* Proofs on assumptions. *)
From Coq Require Import ZArith QArith List Bool Lia Lqa.
From Verif Require Import Req_model Asm_model Asm_spec.
Import ListNotations.

Lemma lhs_exact : forall a now b neg c x,
  assume_lhs a now b neg c = Some x <->
  exists b1 st b2 b3, timings a b = Some b1 /\ look a b1 = (st, b2) /\ (st = WeakEnabled \/ st = NoRequirement) /\ guards a b2 = Some b3 /\
    x = Mk (Fc (obj (lhs a b3)) (xorb neg (anti (lhs a b3))) (predicted (lhs a b3)) c (until (lhs a b3))) c (Z.max 0 (until (lhs a b3) - now)).
Proof.
  intros a now b neg c x. unfold assume_lhs.
  assert (T : forall u, (if (now <? u)%Z then u - now else 0)%Z = Z.max 0 (u - now)) by (intros u; destruct (Z.ltb_spec now u); lia).
  assert (N : forall l, (if neg then negb l else l) = xorb neg l) by (intros l; destruct neg, l; reflexivity).
  split.
  - intros H. destruct (timings a b) as [b1|] eqn:E1; [|discriminate]. destruct (look a b1) as [st b2] eqn:E2.
    destruct st; try discriminate; destruct (guards a b2) as [b3|] eqn:E3; try discriminate; injection H as <-; rewrite T, N;
    (exists b1; eexists; exists b2, b3; split; [reflexivity|split; [exact E2|split; [auto|split; [exact E3|reflexivity]]]]).
  - intros (b1 & st & b2 & b3 & -> & -> & [-> | ->] & -> & ->); rewrite T, N; reflexivity.
Qed.

Lemma exact : forall a now i x,
  assume a now i = Some x <->
  willing (par a) i /\ exists neg l, cause a i neg l /\
    x = Mk (Fc (obj l) (xorb neg (anti l)) (predicted l) (rate (par a) * fcfd i) (until l)) (rate (par a) * fcfd i) (Z.max 0 (until l - now)).
Proof.
  intros a now i x. unfold assume, willing. split.
  - intros H. destruct (is_req (par a)); [discriminate|]. destruct (is_reuse (par a)); [discriminate|]. destruct (is_cmd (par a)); [discriminate|]. cbn [orb] in H.
    destruct (Qeq_bool (strength (par a)) 0) eqn:S; [discriminate|]. destruct (predicted i); [discriminate|].
    destruct (Qle_bool _ _) eqn:L; [discriminate|].
    assert (S' : ~ strength (par a) == 0) by (intros X; apply Qeq_bool_iff in X; congruence).
    assert (L' : thr (par a) < rate (par a) * fcfd i) by (apply Qnot_le_lt; intros X; apply Qle_bool_iff in X; congruence).
    split; [repeat split; auto|].
    destruct (rhs a i) as [|b|b] eqn:R; [discriminate| |]; apply lhs_exact in H; destruct H as (b1 & st & b2 & b3 & A & B & C & D & ->).
    + exists false, (lhs a b3). split; [exists b, b1, st, b2, b3; auto 9|reflexivity].
    + exists true, (lhs a b3). split; [exists b, b1, st, b2, b3; auto 9|reflexivity].
  - intros ((-> & -> & -> & S & -> & L) & neg & l & (b & b1 & st & b2 & b3 & R & A & B & C & D & ->) & ->). cbn [orb].
    destruct (Qeq_bool (strength (par a)) 0) eqn:E; [exfalso; apply S, Qeq_bool_iff, E|].
    destruct (Qle_bool _ _) eqn:F; [exfalso; apply Qle_bool_iff in F; eapply Qlt_not_le; eassumption|].
    rewrite R. destruct neg; apply lhs_exact; exists b1, st, b2, b3; auto 9.
Qed.

Lemma power_nonneg : forall q n, 0 <= q -> 0 <= power q n.
Proof. intros q n H. induction n as [|n IH]; cbn; [discriminate|]. apply Qmult_le_0_compat; assumption. Qed.
Lemma line_confidence : forall f0 l f q, Line f0 l f -> 0 <= fcfd f0 -> 0 <= q ->
  (forall a, In a l -> 0 <= rate (par a) /\ rate (par a) <= q) -> 0 <= fcfd f /\ fcfd f <= fcfd f0 * power q (length l).
Proof.
  intros f0 l f q H C Q0. induction H as [|l f a now x L IH A N]; intros R.
  - cbn. split; [exact C|]. rewrite Qmult_1_r. apply Qle_refl.
  - destruct IH as (I1 & I2); [intros b B; apply R, in_or_app; left; exact B|]. destruct (R a) as (R1 & R2); [apply in_or_app; right; left; reflexivity|].
    apply exact in A. destruct A as (_ & neg & y & _ & ->). cbn [what fcfd]. split; [apply Qmult_le_0_compat; assumption|].
    rewrite app_length. cbn [length]. rewrite Nat.add_comm. cbn [Nat.add power].
    rewrite (Qmult_comm (rate (par a))), Qmult_assoc.
    apply Qle_trans with (fcfd f * q).
    + rewrite (Qmult_comm (fcfd f) (rate _)), (Qmult_comm (fcfd f) q). apply Qmult_le_compat_r; assumption.
    + apply Qmult_le_compat_r; assumption.
Qed.
(* Some way before the end, the last assumption was above the threshold. *)
Lemma line_bound : forall f0 l a f q t, Line f0 (l ++ [a]) f -> 0 <= fcfd f0 -> 0 <= q ->
  (forall b, In b (l ++ [a]) -> 0 <= rate (par b) /\ rate (par b) <= q /\ t <= thr (par b)) -> t < fcfd f0 * power q (length (l ++ [a])).
Proof.
  intros f0 l a f q t H C Q0 R. destruct (line_confidence _ _ _ q H C Q0) as (_ & B); [intros b X; destruct (R b X) as (? & ? & ?); auto|].
  apply Qlt_le_trans with (fcfd f); [|exact B]. inversion H as [E|l' f' a' now x L A N E F]; [destruct l; discriminate|].
  apply app_inj_tail in E. destruct E; subst. apply exact in A. destruct A as ((_ & _ & _ & _ & _ & T) & neg & y & _ & ->). cbn [what fcfd].
  apply Qle_lt_trans with (thr (par a)); [|exact T]. apply R, in_or_app. right. left. reflexivity.
Qed.

(* Powers decrease at least like 1 / (1 + n h), h = 1 - q. *)
Lemma power_small : forall q n, 0 <= q -> q <= 1 -> power q n * (1 + inject_Z (Z.of_nat n) * (1 - q)) <= 1.
Proof.
  intros q n A B. induction n as [|n IH]; [cbn [power]; change (inject_Z (Z.of_nat 0)) with 0; lra|]. cbn [power].
  rewrite Nat2Z.inj_succ, <- Z.add_1_r, inject_Z_plus. pose proof (power_nonneg q n A) as P.
  assert (N : 0 <= inject_Z (Z.of_nat n)) by (change 0 with (inject_Z 0); rewrite <- Zle_Qle; lia).
  set (k := inject_Z (Z.of_nat n)) in *. change (inject_Z 1) with 1.
  assert (H : q * (1 + (k + 1) * (1 - q)) <= 1 + k * (1 - q)).
  { assert (Z : 0 <= (1 + k) * ((1 - q) * (1 - q))) by (repeat apply Qmult_le_0_compat; lra).
    assert (E : q * (1 + (k + 1) * (1 - q)) == 1 + k * (1 - q) - (1 + k) * ((1 - q) * (1 - q))) by ring. rewrite E. lra. }
  apply Qle_trans with (power q n * (1 + k * (1 - q))); [|exact IH].
  rewrite <- Qmult_assoc, (Qmult_comm (power q n)), (Qmult_comm (power q n)). apply Qmult_le_compat_r; assumption.
Qed.
Lemma power_length : forall q n t c, 0 <= q -> q <= 1 -> 0 <= c -> t < c * power q n -> 0 <= t -> t * (inject_Z (Z.of_nat n) * (1 - q)) < c.
Proof.
  intros q n t c A B C H T. pose proof (power_small q n A B) as S.
  assert (N : 0 <= inject_Z (Z.of_nat n)) by (change 0 with (inject_Z 0); rewrite <- Zle_Qle; lia).
  set (k := inject_Z (Z.of_nat n)) in *. set (p := power q n) in *. set (m := k * (1 - q)) in *.
  assert (M : 0 <= m) by (unfold m; apply Qmult_le_0_compat; lra).
  assert (X : t * (1 + m) < c * p * (1 + m)) by (apply Qmult_lt_compat_r; [lra|exact H]).
  assert (Y : c * p * (1 + m) <= c) by (rewrite <- Qmult_assoc; setoid_replace c with (c * 1) at 2 by ring; rewrite (Qmult_comm c), (Qmult_comm c 1); apply Qmult_le_compat_r; assumption).
  lra.
Qed.
Lemma line_length : forall f0 l a f q t, Line f0 (l ++ [a]) f -> 0 <= fcfd f0 -> 0 <= q -> q <= 1 -> 0 <= t ->
  (forall b, In b (l ++ [a]) -> 0 <= rate (par b) /\ rate (par b) <= q /\ t <= thr (par b)) -> t * (inject_Z (Z.of_nat (length (l ++ [a]))) * (1 - q)) < fcfd f0.
Proof. intros f0 l a f q t H C Q0 Q1 T R. apply power_length; try assumption. eapply line_bound; eassumption. Qed.

(* Two models, each of which takes the right side of the other for its cause. *)
Definition sure := Md false false false 1 1 (1 # 2).
Definition go (x y : nat) : agent :=
  Ag sure (fun i => if Nat.eqb (obj i) y then MPos 0 else MNo) Some (fun b => (NoRequirement, b)) Some (fun _ => Fc x false false 0 100).
Definition ping := go 1 2.
Definition pong := go 2 1.
Fixpoint circle (n : nat) : list agent := match n with O => [] | S k => circle k ++ [if Nat.even k then ping else pong] end.
Lemma ping_pong : ping <> pong.
Proof. intros H. assert (E : rhs ping (Fc 2 false false 1 100) = rhs pong (Fc 2 false false 1 100)) by (rewrite H; reflexivity). discriminate E. Qed.
Lemma circle_line : forall n, length (circle n) = n /\
  exists f, Line (Fc 2 false false 1 100) (circle n) f /\ obj f = (if Nat.even n then 2 else 1)%nat /\ predicted f = false /\ fcfd f == 1.
Proof.
  induction n as [|n (L & f & I & O & P & C)]; [split; [reflexivity|]; exists (Fc 2 false false 1 100); split; [constructor|repeat split]|].
  split; [cbn; rewrite app_length, L; cbn; lia|].
  set (a := if Nat.even n then ping else pong).
  assert (A : exists x, assume a 0 f = Some x /\ obj (what x) = (if Nat.even (S n) then 2 else 1)%nat /\ predicted (what x) = false /\ fcfd (what x) == 1).
  { assert (T : Qle_bool (1 * fcfd f) (1 # 2) = false).
    { destruct (Qle_bool _ _) eqn:E; [|reflexivity]. apply Qle_bool_iff in E. exfalso. rewrite C in E. apply E. reflexivity. }
    rewrite Nat.even_succ, <- Nat.negb_even. unfold a, assume. destruct (Nat.even n); cbn [par ping pong go sure is_req is_reuse is_cmd strength rate thr orb]; rewrite P, T; cbn [rhs ping pong go]; rewrite O;
    cbn; (eexists; split; [reflexivity|]; cbn [what obj predicted fcfd]; repeat split; rewrite C; reflexivity). }
  destruct A as (x & A & O' & P' & C'). exists (what x). split; [|auto].
  cbn [circle]. eapply LSnoc; [exact I|exact A|]. intros k b E. unfold a. destruct n as [|n]; [destruct k; discriminate|]. cbn [circle] in E. apply app_inj_tail in E. destruct E as (_ & <-).
  rewrite Nat.even_succ, <- Nat.negb_even. destruct (Nat.even n); cbn [negb]; intros X; apply ping_pong; [symmetry|]; exact X.
Qed.
