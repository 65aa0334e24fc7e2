(** Values of float32 numbers as integers (scaled by 2^1000), and what rounding
    does to them: an operation never crosses a representable number. *)
From Verif Require Import Base Float32 Float32_facts Float32_round.
From Coq Require Import SpecFloat.

(** [m * 2^e], scaled. *)
Definition sc (m e : Z) : Z := m * 2 ^ (e + 1000).
(** Infinity counts as 2^128. *)
Definition mg (f : spec_float) : Z :=
  match f with S754_finite _ m e => sc (Zpos m) e | S754_infinity _ => sc 8388608 105 | _ => 0 end.
Definition sign_of (f : spec_float) : bool :=
  match f with S754_finite s _ _ | S754_infinity s | S754_zero s => s | S754_nan => false end.
Definition val (f : spec_float) : Z := if sign_of f then - mg f else mg f.
(** The values that a number can have. *)
Definition repr_pos (r : Z) : Prop :=
  r <= sc 8388608 105 /\ (r = 0 \/ exists m e, 0 < m < 16777216 /\ -149 <= e /\ r = sc m e).
Definition repr (r : Z) : Prop := repr_pos (Z.abs r).
(** [f] is the fraction [n/d] rounded. *)
Definition rounded (n d : Z) (f : spec_float) : Prop :=
  f <> S754_nan /\ forall r, repr r -> (n <= r * d -> val f <= r) /\ (r * d <= n -> r <= val f).

Lemma sc_pos m e : 0 < m -> -1000 <= e -> 0 < sc m e.
Proof. intros M E. unfold sc. apply Z.mul_pos_pos; [exact M|apply Z.pow_pos_nonneg; lia]. Qed.
Lemma sc_shift m e k : 0 <= k -> -1000 <= e -> sc (m * 2 ^ k) e = sc m (e + k).
Proof. intros K E. unfold sc. rewrite <- Z.mul_assoc, <- Z.pow_add_r by lia. f_equal. f_equal. lia. Qed.
Lemma sc_le m n e : -1000 <= e -> (m <= n <-> sc m e <= sc n e).
Proof. intros E. unfold sc. assert (0 < 2 ^ (e + 1000)) by (apply Z.pow_pos_nonneg; lia). symmetry. rewrite <- Z.mul_le_mono_pos_r by lia. reflexivity. Qed.
Lemma sc_lt m n e : -1000 <= e -> (m < n <-> sc m e < sc n e).
Proof. intros E. unfold sc. assert (0 < 2 ^ (e + 1000)) by (apply Z.pow_pos_nonneg; lia). symmetry. rewrite <- Z.mul_lt_mono_pos_r by lia. reflexivity. Qed.
Lemma mg_nonneg f : f32_valid f = true -> 0 <= mg f.
Proof.
  destruct f as [s|s| |s m e]; cbn [mg]; intros V; try lia.
  - apply Z.lt_le_incl, sc_pos; lia.
  - apply valid_digits in V. apply Z.lt_le_incl, sc_pos; lia.
Qed.
Lemma repr_opp r : repr r -> repr (- r).
Proof. unfold repr. rewrite Z.abs_opp. auto. Qed.
Lemma repr_0 : repr 0.
Proof. unfold repr. rewrite Z.abs_0. split; [apply Z.lt_le_incl, sc_pos; lia|left; reflexivity]. Qed.
Lemma repr_mg f : f32_valid f = true -> repr_pos (mg f).
Proof.
  intros V. destruct f as [s|s| |s m e]; cbn [mg]; [apply repr_0| |apply repr_0|].
  - split; [lia|]. right. exists 8388608, 105. repeat split; lia.
  - pose proof (proj1 (bounded_spec m e) V) as B. split.
    + assert (L : sc (Zpos m) e <= sc 16777216 e) by (apply sc_le; lia).
      assert (L2 : sc 16777216 e <= sc 16777216 104). { unfold sc. apply Z.mul_le_mono_nonneg_l; [lia|]. apply Z.pow_le_mono_r; lia. }
      assert (L3 : sc 16777216 104 = sc 8388608 105). { change 16777216 with (8388608 * 2 ^ 1). rewrite sc_shift by lia. reflexivity. }
      lia.
    + right. exists (Zpos m), e. repeat split; lia.
Qed.
Lemma repr_val f : f32_valid f = true -> repr (val f).
Proof.
  intros V. unfold repr, val. pose proof (mg_nonneg f V). pose proof (repr_mg f V). destruct (sign_of f); rewrite ?Z.abs_opp, Z.abs_eq by lia; assumption.
Qed.

(** ** Rounding *)
Lemma shr_1_loc r : 0 <= shr_m r -> loc_of_shr_record (shr_1 r) = loc_Exact <-> loc_of_shr_record r = loc_Exact /\ shr_m r mod 2 = 0.
Proof.
  destruct r as [m a b]. cbn [shr_m]. intros M. destruct m as [|[p|p|]|p]; try lia; destruct a, b; cbn [shr_1 loc_of_shr_record orb]; split; try (intros (H & H'); discriminate); try discriminate;
    intros; try split; try reflexivity; try (destruct H as (H & H')); try discriminate; try reflexivity;
    try (rewrite Pos2Z.inj_xI in *; exfalso; lia); try (rewrite Pos2Z.inj_xO in *; lia).
Qed.
Lemma mod_split m a b : 0 <= a -> 0 <= b -> m mod 2 ^ (a + b) = 0 <-> m mod 2 ^ a = 0 /\ (m / 2 ^ a) mod 2 ^ b = 0.
Proof.
  intros A B. assert (PA : 0 < 2 ^ a) by (apply Z.pow_pos_nonneg; lia). assert (PB : 0 < 2 ^ b) by (apply Z.pow_pos_nonneg; lia).
  rewrite Z.pow_add_r by lia. rewrite Z.rem_mul_r by lia. pose proof (Z.mod_pos_bound m (2 ^ a) PA). pose proof (Z.mod_pos_bound (m / 2 ^ a) (2 ^ b) PB). split; [intros; split; nia|intros (-> & ->); lia].
Qed.
Lemma shr_iter_loc p : forall r, 0 <= shr_m r ->
  loc_of_shr_record (iter_pos shr_1 p r) = loc_Exact <-> loc_of_shr_record r = loc_Exact /\ shr_m r mod 2 ^ Zpos p = 0.
Proof.
  assert (S : forall r, 0 <= shr_m r -> 0 <= shr_m (shr_1 r)) by (intros r R; rewrite shr_1_m by exact R; apply Z.div_pos; lia).
  assert (I : forall p r, 0 <= shr_m r -> 0 <= shr_m (iter_pos shr_1 p r)) by (intros q r R; rewrite shr_iter by exact R; apply Z.div_pos; [exact R|apply Z.pow_pos_nonneg; lia]).
  induction p as [p IH|p IH|]; intros r R; cbn [iter_pos].
  - rewrite IH by (apply I, S, R). rewrite IH by (apply S, R). rewrite shr_1_loc by exact R.
    rewrite shr_iter by (apply S, R). rewrite shr_1_m by exact R.
    assert (Q : shr_m r mod 2 ^ Zpos p~1 = 0 <-> shr_m r mod 2 ^ (1 + (Zpos p + Zpos p)) = 0) by (replace (Zpos p~1) with (1 + (Zpos p + Zpos p)) by lia; reflexivity).
    rewrite Q, (mod_split (shr_m r) 1) by lia. rewrite (mod_split (shr_m r / 2 ^ 1) (Zpos p)) by lia. change (2 ^ 1) with 2. tauto.
  - rewrite IH by (apply I, R). rewrite IH by exact R. rewrite shr_iter by exact R.
    assert (Q : shr_m r mod 2 ^ Zpos p~0 = 0 <-> shr_m r mod 2 ^ (Zpos p + Zpos p) = 0) by (replace (Zpos p~0) with (Zpos p + Zpos p) by lia; reflexivity). rewrite Q, (mod_split (shr_m r) (Zpos p)) by lia. tauto.
  - apply shr_1_loc. exact R.
Qed.
Lemma loc_of_of_loc m l : loc_of_shr_record (shr_record_of_loc m l) = l.
Proof. destruct l as [|[]]; reflexivity. Qed.
(** Alignment divides by a power of two and says whether something was lost. *)
Lemma shr_fexp_val m e l : 0 <= m -> e <= fx (Zdigits2 m + e) ->
  let (r, e') := shr_fexp prec emax m e l in
  e' = fx (Zdigits2 m + e) /\ shr_m r = m / 2 ^ (e' - e) /\ (loc_of_shr_record r = loc_Exact <-> l = loc_Exact /\ m mod 2 ^ (e' - e) = 0).
Proof.
  intros M E. unfold shr_fexp. set (n := fx (Zdigits2 m + e) - e). unfold shr. destruct n as [|p|p] eqn:N.
  - rewrite shr_of_loc, loc_of_of_loc. replace (e - e) with 0 by lia. rewrite Z.pow_0_r, Z.div_1_r, Z.mod_1_r. split; [lia|]. tauto.
  - replace (e + Zpos p - e) with (Zpos p) by lia. rewrite shr_iter by (rewrite shr_of_loc; exact M). rewrite shr_iter_loc by (rewrite shr_of_loc; exact M).
    rewrite shr_of_loc, loc_of_of_loc. split; [lia|]. split; [reflexivity|]. tauto.
  - lia.
Qed.
Lemma rne_exact m l : l = loc_Exact -> round_nearest_even m l = m.
Proof. intros ->. reflexivity. Qed.
(** What [binary_round_aux] computes: the mantissa [q] (or [q+1], when inexact)
    at exponent [e']. *)
Lemma aux_shape s mx ex lx : 0 <= mx -> ex <= fx (Zdigits2 mx + ex) -> -1000 <= ex ->
  let e' := fx (Zdigits2 mx + ex) in let q := mx / 2 ^ (e' - ex) in
  let f := binary_round_aux prec emax s mx ex lx in
  exists m', (m' = q \/ m' = q + 1 /\ ~ (lx = loc_Exact /\ mx mod 2 ^ (e' - ex) = 0)) /\
    0 <= q < 16777216 /\
    (f = S754_zero s /\ m' = 0 \/ (exists p e2, f = S754_finite s p e2 /\ sc (Zpos p) e2 = sc m' e') \/ f = S754_infinity s /\ sc 8388608 105 <= sc m' e').
Proof.
  intros M E EB e' q f. subst f. unfold binary_round_aux. pose proof (shr_fexp_val mx ex lx M E) as H. pose proof (shr_fexp_spec mx ex lx M E) as H0.
  destruct (shr_fexp prec emax mx ex lx) as [r e1]. destruct H as (-> & Q & L). destruct H0 as (_ & _ & D). fold e' in Q, L, D |- *. fold q in Q. rewrite Q in *.
  set (m' := round_nearest_even q (loc_of_shr_record r)). exists m'.
  assert (R : m' = q \/ m' = q + 1 /\ ~ (lx = loc_Exact /\ mx mod 2 ^ (e' - ex) = 0)).
  { destruct (rne_range q (loc_of_shr_record r)) as [X|X]; [left; exact X|]. destruct (loc_of_shr_record r) eqn:LL.
    - left. reflexivity.
    - right. split; [exact X|]. intros Y. apply L in Y. discriminate. }
  split; [exact R|].
  assert (Q0 : 0 <= q) by (apply Z.div_pos; [exact M|apply Z.pow_pos_nonneg; subst e'; lia]).
  assert (QD : Zdigits2 q <= 24). { destruct D as [(-> & _)|D]; [rewrite digits_0; lia|]. subst e'. rewrite fx_eq in *. lia. }
  assert (QB : q < 16777216).
  { destruct (Z.eq_dec q 0) as [->|]; [lia|]. destruct (digits_spec q) as (_ & B); [lia|]. assert (2 ^ Zdigits2 q <= 2 ^ 24) by (apply Z.pow_le_mono_r; lia). change (2 ^ 24) with 16777216 in *. lia. }
  split; [lia|].
  assert (E149 : -149 <= e') by (subst e'; rewrite fx_eq; lia).
  assert (F : 0 <= m' /\ e' <= fx (Zdigits2 m' + e')).
  { split; [lia|]. rewrite fx_eq.
    assert (RR : m' = q \/ m' = q + 1) by tauto. clear R. 
    assert (W : e' = Z.max (Zdigits2 mx + ex - 24) (-149)) by (subst e'; apply fx_eq). clearbody m'.
    destruct RR as [-> | ->]; [destruct D as [(D & D')|D]; lia|].
    destruct (succ_digits q Q0) as [S|(S & S')]; destruct D as [(D & D')|D]; lia. }
  destruct F as (M' & E'). pose proof (shr_fexp_val m' e' loc_Exact M' E') as H. pose proof (shr_fexp_spec m' e' loc_Exact M' E') as H0.
  destruct (shr_fexp prec emax m' e' loc_Exact) as [r2 e2]. destruct H as (-> & Q2 & _). destruct H0 as (R2 & _ & D2).
  set (e2 := fx (Zdigits2 m' + e')) in *.
  (* the second alignment is exact *)
  assert (X : sc (shr_m r2) e2 = sc m' e').
  { rewrite Q2. assert (C : e2 = e' \/ m' = 16777216 /\ e2 = e' + 1).
    { assert (W : e' = Z.max (Zdigits2 mx + ex - 24) (-149)) by (subst e'; apply fx_eq).
      assert (E2 : e2 = Z.max (Zdigits2 m' + e' - 24) (-149)) by (subst e2; apply fx_eq).
      assert (RR : m' = q \/ m' = q + 1) by tauto. clear R D2 Q2. clearbody m' e2 e' q.
      destruct RR as [RR|RR].
      - left. rewrite RR in E2. destruct D as [(D & D')|D]; [rewrite D, digits_0 in *; lia|lia].
      - destruct (succ_digits q Q0) as [S|(S & S')]; rewrite <- RR in *.
        + left. destruct D as [(D & D')|D]; [rewrite D, digits_0 in *; lia|lia].
        + destruct (Z.eq_dec (Zdigits2 q) 24) as [E24|N24].
          * rewrite E24 in S. change (2 ^ 24) with 16777216 in S. right. split; [exact S|]. destruct D as [(D & D')|D]; [rewrite D, digits_0 in *; lia|lia].
          * left. destruct D as [(D & D')|D]; [rewrite D, digits_0 in *; lia|lia]. }
    destruct C as [C|(C & C')].
    - rewrite C. replace (e' - e') with 0 by lia. rewrite Z.pow_0_r, Z.div_1_r. reflexivity.
    - rewrite C, C'. replace (e' + 1 - e') with 1 by lia. change (16777216 / 2 ^ 1) with 8388608. change 16777216 with (8388608 * 2 ^ 1). rewrite sc_shift by lia. reflexivity. }
  destruct (shr_m r2) as [|p|p] eqn:S2; [| |lia].
  - left. split; [reflexivity|]. unfold sc in X. assert (0 < 2 ^ (e' + 1000)) by (apply Z.pow_pos_nonneg; lia). nia.
  - destruct (e2 <=? emax - prec) eqn:LE.
    + right. left. exists p, e2. split; [reflexivity|exact X].
    + right. right. split; [reflexivity|]. apply Z.leb_gt in LE. change (emax - prec) with 104 in LE. rewrite <- X.
      assert (DP : Zdigits2 (Zpos p) = 24). { destruct D2 as [(D2 & _)|D2]; [discriminate|]. subst e2. rewrite fx_eq in *. lia. }
      destruct (digits_spec (Zpos p)) as (_ & B); [lia|]. rewrite DP in B. change (2 ^ (24 - 1)) with 8388608 in B.
      assert (sc 8388608 e2 <= sc (Zpos p) e2) by (apply sc_le; lia).
      assert (sc 8388608 105 <= sc 8388608 e2) by (unfold sc; apply Z.mul_le_mono_nonneg_l; [lia|apply Z.pow_le_mono_r; lia]). lia.
Qed.
(** [v]: any value between [mx] and [mx+1] at exponent [ex], equal to [mx] iff exact;
    given as a fraction [n/d] of scaled integers. *)
Lemma aux_round s mx ex lx n d : 0 <= mx -> ex <= fx (Zdigits2 mx + ex) -> -1000 <= ex -> 0 < d ->
  sc mx ex * d <= n < sc (mx + 1) ex * d -> (lx = loc_Exact <-> n = sc mx ex * d) ->
  let f := binary_round_aux prec emax s mx ex lx in
  f <> S754_nan /\ sign_of f = s /\
  forall r, repr_pos r -> (n <= r * d -> mg f <= r) /\ (r * d <= n -> r <= mg f).
Proof.
  intros M E EB DP N X f. destruct (aux_shape s mx ex lx M E EB) as (m' & Hm & HQ & HF).
  set (e' := fx (Zdigits2 mx + ex)) in *. set (k := e' - ex) in *. set (q := mx / 2 ^ k) in *. fold f in HF.
  assert (E149 : -149 <= e') by (subst e'; rewrite fx_eq; lia).
  assert (PK : 0 < 2 ^ k) by (apply Z.pow_pos_nonneg; lia).
  split; [destruct HF as [(-> & _)|[(p & e2 & -> & _)|(-> & _)]]; discriminate|].
  split; [destruct HF as [(-> & _)|[(p & e2 & -> & _)|(-> & _)]]; reflexivity|].
  (* the magnitude of the result, but for the overflow *)
  assert (G : mg f = sc m' e' \/ mg f = sc 8388608 105 /\ sc 8388608 105 <= sc m' e').
  { destruct HF as [(-> & ->)|[(p & e2 & -> & Y)|(-> & Y)]]; cbn [mg]; [left; reflexivity|left; exact Y|right; split; [reflexivity|exact Y]]. }
  (* n/d against multiples of 2^e' *)
  assert (QM : q * 2 ^ k <= mx < (q + 1) * 2 ^ k). { pose proof (Z.div_mod mx (2 ^ k)). pose proof (Z.mod_pos_bound mx (2 ^ k)). fold q in H. nia. }
  assert (T : forall z, sc z e' = sc (z * 2 ^ k) ex). { intros z. rewrite sc_shift by lia. f_equal. lia. }
  assert (LQ : sc q e' * d <= n). { rewrite T. assert (sc (q * 2 ^ k) ex <= sc mx ex) by (apply sc_le; lia). nia. }
  assert (UQ : forall z, n <= sc z e' * d -> m' <= z).
  { intros z Hz. destruct (Z.le_gt_cases (q + 1) z) as [|L]; [lia|].
    assert (sc z e' <= sc q e') by (apply sc_le; lia).
    assert (EQ : n = sc q e' * d) by nia. assert (ZQ : sc z e' = sc q e') by nia.
    assert (z = q). { assert (~ z < q) by (rewrite (sc_lt z q e') by lia; lia). lia. } subst z.
    destruct Hm as [->|(_ & Hm)]; [lia|]. exfalso. apply Hm.
    assert (MX : mx = q * 2 ^ k).
    { rewrite T in EQ. assert (sc mx ex * d <= sc (q * 2 ^ k) ex * d) by lia. assert (sc mx ex <= sc (q * 2 ^ k) ex) by nia. apply sc_le in H1; lia. }
    split; [apply X; rewrite EQ, T, MX; reflexivity|]. rewrite MX. apply Z.mod_mul. lia. }
  intros r (RB & R). destruct R as [->|(rm & re & RM & RE & ->)].
  { split; [|intros _; destruct G as [->|(-> & _)]; [unfold sc; assert (0 < 2 ^ (e' + 1000)) by (apply Z.pow_pos_nonneg; lia); nia|apply Z.lt_le_incl, sc_pos; lia]].
    intros Z0. assert (m' <= 0) by (apply UQ; unfold sc; lia). assert (M0 : m' = 0) by lia. rewrite M0 in G. change (sc 0 e') with 0 in G.
    destruct G as [->|(_ & Y)]; [lia|]. pose proof (sc_pos 8388608 105). lia. }
  (* is r a multiple of 2^e'? *)
  destruct (Z.le_gt_cases e' re) as [L|L].
  - assert (MU : sc rm re = sc (rm * 2 ^ (re - e')) e') by (rewrite sc_shift by lia; f_equal; lia). set (z := rm * 2 ^ (re - e')) in *. rewrite MU in *. split.
    + intros H. apply UQ in H. assert (sc m' e' <= sc z e') by (apply sc_le; lia). destruct G as [->|(-> & Y)]; [assumption|lia].
    + intros H. assert (z <= q).
      { destruct (Z.le_gt_cases z q) as [|LL]; [assumption|]. assert (sc (q + 1) e' <= sc z e') by (apply sc_le; lia).
        assert (sc (mx + 1) ex <= sc (q + 1) e'). { rewrite T. apply sc_le; lia. } nia. }
      assert (sc z e' <= sc m' e') by (apply sc_le; lia). destruct G as [->|(-> & Y)]; lia.
  - (* r is below every number of this exponent *)
    assert (B24 : 2 ^ 23 <= q).
    { assert (EE : e' = Zdigits2 mx + ex - 24) by (subst e'; rewrite fx_eq in *; lia).
      assert (MP : 0 < mx). { destruct (Z.eq_dec mx 0) as [->|]; [|lia]. rewrite digits_0 in EE. lia. }
      destruct (digits_spec mx MP) as (_ & B). apply Z.div_le_lower_bound; [lia|]. rewrite <- Z.pow_add_r by lia. replace (k + 23) with (Zdigits2 mx - 1) by lia. lia. }
    change (2 ^ 23) with 8388608 in B24.
    assert (RL : sc rm re < sc 8388608 e').
    { assert (sc rm re < sc 16777216 re) by (apply sc_lt; lia).
      assert (sc 16777216 re <= sc 16777216 (e' - 1)) by (unfold sc; apply Z.mul_le_mono_nonneg_l; [lia|apply Z.pow_le_mono_r; lia]).
      assert (sc 16777216 (e' - 1) = sc 8388608 e'). { change 16777216 with (8388608 * 2 ^ 1). rewrite sc_shift by lia. f_equal. lia. } lia. }
    assert (sc 8388608 e' <= sc q e') by (apply sc_le; lia). assert (sc q e' <= sc m' e') by (apply sc_le; lia). split.
    + intros H1. nia.
    + intros _. destruct G as [->|(-> & Y)]; lia.
Qed.

(** ** Operations *)
Lemma repr_abs_nonneg r : 0 <= r -> repr r -> repr_pos r.
Proof. unfold repr. intros R. rewrite Z.abs_eq by exact R. auto. Qed.
Lemma repr_abs_neg r : r <= 0 -> repr r -> repr_pos (- r).
Proof. unfold repr. intros R. rewrite Z.abs_neq by exact R. auto. Qed.
Lemma aux_rounded s mx ex lx n d : 0 <= mx -> ex <= fx (Zdigits2 mx + ex) -> -1000 <= ex -> 0 < d ->
  sc mx ex * d <= n < sc (mx + 1) ex * d -> (lx = loc_Exact <-> n = sc mx ex * d) ->
  rounded (cond_Zopp s n) d (binary_round_aux prec emax s mx ex lx).
Proof.
  intros M E EB DP N X. destruct (aux_round s mx ex lx n d M E EB DP N X) as (NN & S & R).
  pose proof (mg_nonneg _ (aux_valid s mx ex lx M E)) as G. set (f := binary_round_aux prec emax s mx ex lx) in *. clearbody f.
  assert (N0 : 0 <= n). { assert (0 <= sc mx ex) by (unfold sc; apply Z.mul_nonneg_nonneg; [exact M|apply Z.pow_nonneg; lia]). nia. }
  split; [exact NN|]. intros r Hr. unfold val. rewrite S. destruct s; cbn [cond_Zopp].
  - destruct (Z.le_gt_cases r 0) as [L|L].
    + destruct (R (- r) (repr_abs_neg r L Hr)) as (A & B). split; intros H.
      * assert (- r <= mg f) by (apply B; lia). lia.
      * assert (mg f <= - r) by (apply A; lia). lia.
    + split; [lia|]. intros H. nia.
  - destruct (Z.le_gt_cases 0 r) as [L|L].
    + destruct (R r (repr_abs_nonneg r L Hr)) as (A & B). split; intros H; [apply A|apply B]; lia.
    + split; [|lia]. intros H. nia.
Qed.
Lemma round_rounded s mx ex : -1000 <= ex -> rounded (cond_Zopp s (sc (Zpos mx) ex)) 1 (binary_round prec emax s mx ex).
Proof.
  intros E. unfold binary_round. set (e' := fx (Zpos (digits2_pos mx) + ex)). unfold shl_align.
  assert (S1 : forall m e, -1000 <= e -> sc m e < sc (m + 1) e) by (intros m e He; apply sc_lt; lia).
  destruct (e' - ex) as [|d|d] eqn:D.
  - apply aux_rounded; try lia; [cbn [Zdigits2]; fold e'; lia|split; [lia|]; specialize (S1 (Zpos mx) ex E); lia|split; [lia|reflexivity]].
  - apply aux_rounded; try lia; [cbn [Zdigits2]; fold e'; lia|split; [lia|]; specialize (S1 (Zpos mx) ex E); lia|split; [lia|reflexivity]].
  - assert (E149 : -149 <= e') by (subst e'; rewrite fx_eq; lia).
    assert (Q : sc (Zpos mx) ex = sc (Zpos (shift_pos d mx)) e').
    { rewrite shift_pos_correct. change (Z.pow_pos 2 d) with (2 ^ Zpos d). rewrite Z.mul_comm, sc_shift by lia. f_equal. lia. }
    rewrite Q. apply aux_rounded; try lia.
    + rewrite shift_pos_digits. cbn [Zdigits2]. replace (Zpos (digits2_pos mx) + Zpos d + e') with (Zpos (digits2_pos mx) + ex) by lia. fold e'. lia.
    + specialize (S1 (Zpos (shift_pos d mx)) e'). lia.
    + split; [lia|reflexivity].
Qed.
Lemma zero_rounded d s : 0 < d -> rounded 0 d (S754_zero s).
Proof. intros D. split; [discriminate|]. intros r _. replace (val (S754_zero s)) with 0 by (destruct s; reflexivity). split; intros; nia. Qed.
Lemma sc_opp m e : sc (- m) e = - sc m e.
Proof. unfold sc. lia. Qed.
Lemma sc_add m n e : sc (m + n) e = sc m e + sc n e.
Proof. unfold sc. lia. Qed.
Lemma normalize_rounded m e s : -1000 <= e -> rounded (sc m e) 1 (binary_normalize prec emax m e s).
Proof.
  intros E. destruct m as [|p|p]; cbn [binary_normalize].
  - apply zero_rounded. lia.
  - apply (round_rounded false). exact E.
  - change (Zneg p) with (- Zpos p). rewrite sc_opp. apply (round_rounded true). exact E.
Qed.
Lemma self_rounded f : f <> S754_nan -> rounded (val f) 1 f.
Proof. intros N. split; [exact N|]. intros r _. lia. Qed.
Lemma val_finite s m e : val (S754_finite s m e) = cond_Zopp s (sc (Zpos m) e).
Proof. reflexivity. Qed.
Lemma align_val s m e z : z <= e -> -1000 <= z -> sc (cond_Zopp s (Zpos (fst (shl_align m e z)))) z = cond_Zopp s (sc (Zpos m) e).
Proof.
  intros L Z. assert (H : sc (Zpos (fst (shl_align m e z))) z = sc (Zpos m) e).
  { unfold shl_align. destruct (z - e) as [|d|d] eqn:D; cbn [fst]; [f_equal; lia|lia|].
    rewrite shift_pos_correct. change (Z.pow_pos 2 d) with (2 ^ Zpos d). rewrite Z.mul_comm, sc_shift by lia. f_equal. lia. }
  destruct s; cbn [cond_Zopp]; rewrite ?sc_opp, H; reflexivity.
Qed.
Lemma valid_exp s m e : f32_valid (S754_finite s m e) = true -> -149 <= e <= 104.
Proof. intros V. apply valid_digits in V. lia. Qed.
Lemma fadd_rounded x y : f32_valid x = true -> f32_valid y = true -> is_finite x = true -> is_finite y = true ->
  rounded (val x + val y) 1 (fadd x y).
Proof.
  intros VX VY FX FY. destruct x as [a|a| |a m e]; try discriminate; destruct y as [b|b| |b n g]; try discriminate; unfold fadd; cbn [SFadd].
  - replace (val (S754_zero a) + val (S754_zero b)) with 0 by (destruct a, b; reflexivity). destruct (Bool.eqb a b); apply zero_rounded; lia.
  - replace (val (S754_zero a) + val (S754_finite b n g)) with (val (S754_finite b n g)) by (destruct a; cbn [val sign_of mg]; lia). apply self_rounded. discriminate.
  - replace (val (S754_finite a m e) + val (S754_zero b)) with (val (S754_finite a m e)) by (destruct b; cbn [val sign_of mg]; lia). apply self_rounded. discriminate.
  - apply valid_exp in VX, VY. rewrite !val_finite. set (z := Z.min e g). rewrite <- (align_val a m e z), <- (align_val b n g z), <- sc_add by lia.
    apply normalize_rounded. lia.
Qed.
Lemma fsub_rounded x y : f32_valid x = true -> f32_valid y = true -> is_finite x = true -> is_finite y = true ->
  rounded (val x - val y) 1 (fsub x y).
Proof.
  intros VX VY FX FY. destruct x as [a|a| |a m e]; try discriminate; destruct y as [b|b| |b n g]; try discriminate; unfold fsub; cbn [SFsub].
  - replace (val (S754_zero a) - val (S754_zero b)) with 0 by (destruct a, b; reflexivity). destruct (Bool.eqb a (negb b)); apply zero_rounded; lia.
  - replace (val (S754_zero a) - val (S754_finite b n g)) with (val (S754_finite (negb b) n g)) by (destruct a, b; cbn [val sign_of mg negb]; lia). apply self_rounded. discriminate.
  - replace (val (S754_finite a m e) - val (S754_zero b)) with (val (S754_finite a m e)) by (destruct b; cbn [val sign_of mg]; lia). apply self_rounded. discriminate.
  - apply valid_exp in VX, VY. rewrite !val_finite. set (z := Z.min e g). rewrite <- (align_val a m e z), <- (align_val b n g z) by lia.
    rewrite <- Z.add_opp_r, <- sc_opp, <- sc_add. apply normalize_rounded. lia.
Qed.
Definition unit_val : Z := 2 ^ 1000.
Lemma unit_val_pos : 0 < unit_val.
Proof. apply Z.pow_pos_nonneg; lia. Qed.
Lemma fmul_rounded x y : f32_valid x = true -> f32_valid y = true -> is_finite x = true -> is_finite y = true ->
  rounded (val x * val y) unit_val (fmul x y).
Proof.
  intros VX VY FX FY. pose proof unit_val_pos as U. destruct x as [a|a| |a m e]; try discriminate; destruct y as [b|b| |b n g]; try discriminate; unfold fmul; cbn [SFmul].
  - replace (val (S754_zero a) * val (S754_zero b)) with 0 by (destruct a, b; reflexivity). apply zero_rounded. exact U.
  - replace (val (S754_zero a) * val (S754_finite b n g)) with 0 by (destruct a; cbn [val sign_of mg]; lia). apply zero_rounded. exact U.
  - replace (val (S754_finite a m e) * val (S754_zero b)) with 0 by (destruct b; cbn [val sign_of mg]; lia). apply zero_rounded. exact U.
  - pose proof (fmul_valid (S754_finite a m e) (S754_finite b n g) VX VY) as V. pose proof VX as WX. pose proof VY as WY. apply valid_exp in VX, VY. apply valid_digits in WX, WY.
    replace (val (S754_finite a m e) * val (S754_finite b n g)) with (cond_Zopp (xorb a b) (sc (Zpos (m * n)) (e + g) * unit_val)).
    2:{ rewrite !val_finite. assert (Q : sc (Zpos m) e * sc (Zpos n) g = sc (Zpos (m * n)) (e + g) * unit_val).
        { unfold sc, unit_val. rewrite <- (Z.mul_assoc _ _ (2 ^ 1000)). rewrite <- (Z.pow_add_r 2 (e + g + 1000) 1000) by lia. replace (e + g + 1000 + 1000) with ((e + 1000) + (g + 1000)) by lia. rewrite (Z.pow_add_r 2 (e + 1000)) by lia. rewrite Pos2Z.inj_mul. ring. }
        destruct a, b; cbn [xorb cond_Zopp]; rewrite <- Q; ring. }
    apply aux_rounded; try lia.
    + rewrite Pos2Z.inj_mul. pose proof (digits_mul (Zpos m) (Zpos n)). destruct (digits_spec (Zpos m)) as (DA & _); [lia|]. destruct (digits_spec (Zpos n)) as (DB & _); [lia|]. rewrite fx_eq. lia.
    + assert (sc (Zpos (m * n)) (e + g) < sc (Zpos (m * n) + 1) (e + g)) by (apply sc_lt; lia). nia.
    + split; [lia|reflexivity].
Qed.
Lemma new_location_exact n r : 0 <= r < n -> (new_location n r = loc_Exact <-> r = 0).
Proof.
  intros R. unfold new_location, new_location_even, new_location_odd. destruct (Z.even n); destruct (Zeq_bool r 0) eqn:Q;
    try (apply Zeq_bool_eq in Q; subst r; split; reflexivity); apply Zeq_bool_neq in Q; split; try discriminate; intros; contradiction.
Qed.
Lemma fdiv_rounded x y : f32_valid x = true -> f32_valid y = true -> is_finite x = true -> is_finite y = true -> 0 < val y ->
  rounded (val x * unit_val) (val y) (fdiv x y).
Proof.
  intros VX VY FX FY YP. pose proof unit_val_pos as U. destruct y as [b|b| |b n g]; try discriminate; [destruct b; cbn [val sign_of mg] in YP; lia|].
  destruct b; [exfalso; rewrite val_finite in YP; cbn [cond_Zopp] in YP; apply valid_exp in VY; pose proof (sc_pos (Zpos n) g); lia|].
  destruct x as [a|a| |a m e]; try discriminate; unfold fdiv; cbn [SFdiv].
  - replace (val (S754_zero a) * unit_val) with 0 by (destruct a; cbn [val sign_of mg]; lia). apply zero_rounded. exact YP.
  - pose proof VX as WX. pose proof VY as WY. apply valid_exp in VX, VY. apply valid_digits in WX, WY.
    unfold SFdiv_core_binary. destruct (digits_spec (Zpos m)) as (DA & BA); [lia|]. destruct (digits_spec (Zpos n)) as (DB & BB); [lia|].
    set (x := Zdigits2 (Zpos m)) in *. set (y := Zdigits2 (Zpos n)) in *.
    set (e' := Z.min (fx (x + e - (y + g))) (e - g)). set (s := e - g - e').
    assert (S : 0 <= s) by lia.
    replace (match s with 0 => Zpos m | Zpos _ => Z.shiftl (Zpos m) s | Zneg _ => 0 end) with (Zpos m * 2 ^ s).
    2:{ destruct s as [|p|p] eqn:Q; [lia| |lia]. rewrite Z.shiftl_mul_pow2 by lia. reflexivity. }
    pose proof (Z_div_mod (Zpos m * 2 ^ s) (Zpos n) ltac:(lia)) as D.
    destruct (Z.div_eucl (Zpos m * 2 ^ s) (Zpos n)) as [q r]. destruct D as (D & R).
    assert (P : 0 < 2 ^ s) by (apply Z.pow_pos_nonneg; lia).
    assert (Q : 0 <= q) by nia.
    assert (EB : -1000 <= e') by (subst e'; rewrite fx_eq; lia).
    assert (G : x + s - y <= Zdigits2 q).
    { destruct (Z.le_gt_cases (x + s - y) (Zdigits2 q)) as [|L]; [assumption|].
      assert (UU : q < 2 ^ (x + s - y - 1)).
      { destruct (Z.eq_dec q 0) as [->|Z]; [rewrite digits_0 in L; apply Z.pow_pos_nonneg; lia|].
        destruct (digits_spec q) as (_ & BQ); [lia|]. assert (2 ^ Zdigits2 q <= 2 ^ (x + s - y - 1)) by (apply Z.pow_le_mono_r; lia). lia. }
      assert (0 <= Zdigits2 q) by (destruct q; cbn [Zdigits2]; lia).
      assert (E1 : 2 ^ (x - 1 + s) = 2 ^ (x - 1) * 2 ^ s) by (apply Z.pow_add_r; lia).
      assert (E2 : 2 ^ (x - 1 + s) = 2 ^ y * 2 ^ (x + s - y - 1)) by (rewrite <- Z.pow_add_r by lia; f_equal; lia).
      assert (L1 : 2 ^ (x - 1) * 2 ^ s <= Zpos m * 2 ^ s) by (apply Z.mul_le_mono_nonneg_r; lia).
      assert (L2 : Zpos n * (q + 1) <= Zpos n * 2 ^ (x + s - y - 1)) by (apply Z.mul_le_mono_nonneg_l; lia).
      assert (P2 : 0 < 2 ^ (x + s - y - 1)) by (apply Z.pow_pos_nonneg; lia).
      assert (L3 : Zpos n * 2 ^ (x + s - y - 1) < 2 ^ y * 2 ^ (x + s - y - 1)) by (apply Z.mul_lt_mono_pos_r; lia).
      assert (L4 : Zpos n * q + Zpos n <= 2 ^ y * 2 ^ (x + s - y - 1)) by lia. lia. }
    assert (F : e' <= fx (Zdigits2 q + e')) by (subst e' s; rewrite !fx_eq in *; lia).
    clear G.
    (* the numerator against multiples of the denominator *)
    assert (K : forall t, sc t e' * val (S754_finite false n g) = t * Zpos n * 2 ^ (e' + g + 2000)).
    { intros t. rewrite val_finite. cbn [cond_Zopp]. unfold sc. replace (e' + g + 2000) with ((e' + 1000) + (g + 1000)) by lia. rewrite (Z.pow_add_r 2 (e' + 1000)) by lia. ring. }
    assert (KN : sc (Zpos m) e * unit_val = (Zpos m * 2 ^ s) * 2 ^ (e' + g + 2000)).
    { unfold sc, unit_val. rewrite <- (Z.mul_assoc _ _ (2 ^ 1000)), <- (Z.mul_assoc _ (2 ^ s)). rewrite <- (Z.pow_add_r 2 (e + 1000) 1000), <- (Z.pow_add_r 2 s) by lia. f_equal. f_equal. lia. }
    assert (PP : 0 < 2 ^ (e' + g + 2000)) by (apply Z.pow_pos_nonneg; lia).
    replace (val (S754_finite a m e) * unit_val) with (cond_Zopp (xorb a false) (sc (Zpos m) e * unit_val)) by (rewrite val_finite; destruct a; cbn [xorb cond_Zopp]; ring).
    apply aux_rounded; try assumption.
    + rewrite !K, KN, D. set (w := 2 ^ (e' + g + 2000)) in *. clearbody w. nia.
    + rewrite (new_location_exact (Zpos n) r R), K, KN, D. set (w := 2 ^ (e' + g + 2000)) in *. clearbody w. split; [intros ->; ring|intros; nia].
Qed.

(** ** The order *)
Lemma sc_mono_exp m e m' e' : 0 < m -> m < 16777216 -> 8388608 <= m' -> e < e' -> -1000 <= e -> sc m e < sc m' e'.
Proof.
  intros M0 M M' E EB. assert (sc m e < sc 16777216 e) by (apply sc_lt; lia).
  assert (sc 16777216 e = sc 8388608 (e + 1)). { change 16777216 with (8388608 * 2 ^ 1). rewrite sc_shift by lia. reflexivity. }
  assert (sc 8388608 (e + 1) <= sc 8388608 e') by (unfold sc; apply Z.mul_le_mono_nonneg_l; [lia|apply Z.pow_le_mono_r; lia]).
  assert (sc 8388608 e' <= sc m' e') by (apply sc_le; lia). lia.
Qed.
Lemma valid_mant s m e : f32_valid (S754_finite s m e) = true -> Zpos m < 16777216 /\ (e = -149 \/ 8388608 <= Zpos m).
Proof. intros V. apply (proj1 (bounded_spec m e)) in V. lia. Qed.
Lemma mg_lt_inf s m e : f32_valid (S754_finite s m e) = true -> 0 < sc (Zpos m) e < sc 8388608 105.
Proof.
  intros V. pose proof (valid_mant s m e V). pose proof (valid_exp s m e V). split; [apply sc_pos; lia|]. apply sc_mono_exp; lia.
Qed.
Lemma finite_cmp s t m e n g : f32_valid (S754_finite s m e) = true -> f32_valid (S754_finite t n g) = true ->
  match Z.compare e g with Lt => Lt | Gt => Gt | Eq => Pcompare m n Eq end = (sc (Zpos m) e ?= sc (Zpos n) g).
Proof.
  intros V W. pose proof (valid_mant _ _ _ V). pose proof (valid_exp _ _ _ V). pose proof (valid_mant _ _ _ W). pose proof (valid_exp _ _ _ W).
  destruct (Z.compare_spec e g) as [->|L|L].
  - change (Pcompare m n Eq) with (Zpos m ?= Zpos n). symmetry. destruct (Z.compare_spec (Zpos m) (Zpos n)) as [X|X|X].
    + rewrite X. apply Z.compare_refl.
    + apply Z.compare_lt_iff. apply sc_lt; lia.
    + apply Z.compare_gt_iff. apply sc_lt; lia.
  - symmetry. apply Z.compare_lt_iff. apply sc_mono_exp; lia.
  - symmetry. apply Z.compare_gt_iff. apply sc_mono_exp; lia.
Qed.
Lemma compare_val f g : f32_valid f = true -> f32_valid g = true -> f <> S754_nan -> g <> S754_nan ->
  SFcompare f g = Some (val f ?= val g).
Proof.
  intros V W F G.
  assert (INF : 0 < sc 8388608 105) by (apply sc_pos; lia).
  destruct f as [a|a| |a m e]; try contradiction; destruct g as [b|b| |b n h]; try contradiction; unfold SFcompare; f_equal; symmetry.
  - destruct a, b; reflexivity.
  - destruct a, b; cbn [val sign_of mg]; first [apply Z.compare_lt_iff; lia|apply Z.compare_gt_iff; lia].
  - pose proof (mg_lt_inf _ _ _ W). destruct a, b; cbn [val sign_of mg]; first [apply Z.compare_lt_iff; lia|apply Z.compare_gt_iff; lia].
  - destruct a, b; cbn [val sign_of mg]; first [apply Z.compare_lt_iff; lia|apply Z.compare_gt_iff; lia].
  - destruct a, b; cbn [val sign_of mg]; first [apply Z.compare_refl|apply Z.compare_lt_iff; lia|apply Z.compare_gt_iff; lia].
  - pose proof (mg_lt_inf _ _ _ W). destruct a, b; cbn [val sign_of mg]; first [apply Z.compare_lt_iff; lia|apply Z.compare_gt_iff; lia].
  - pose proof (mg_lt_inf _ _ _ V). destruct a, b; cbn [val sign_of mg]; first [apply Z.compare_lt_iff; lia|apply Z.compare_gt_iff; lia].
  - pose proof (mg_lt_inf _ _ _ V). destruct a, b; cbn [val sign_of mg]; first [apply Z.compare_lt_iff; lia|apply Z.compare_gt_iff; lia].
  - pose proof (mg_lt_inf _ _ _ V). pose proof (mg_lt_inf _ _ _ W). pose proof (finite_cmp a b m e n h V W) as C. unfold val. cbn [sign_of mg].
    set (x := sc (Zpos m) e) in *. set (y := sc (Zpos n) h) in *. clearbody x y.
    destruct a, b.
    + change ((- x ?= - y) = match e ?= h with Eq => CompOpp (Pcompare m n Eq) | Lt => Gt | Gt => Lt end).
      rewrite Z.compare_opp, Z.compare_antisym, <- C. destruct (e ?= h); reflexivity.
    + apply Z.compare_lt_iff. lia.
    + apply Z.compare_gt_iff. lia.
    + symmetry. exact C.
Qed.
Lemma flt_val f g : f32_valid f = true -> f32_valid g = true -> f <> S754_nan -> g <> S754_nan -> (flt f g = true <-> val f < val g).
Proof. intros V W F G. unfold flt, SFltb. rewrite compare_val by assumption. destruct (Z.compare_spec (val f) (val g)); split; intros; try discriminate; try reflexivity; lia. Qed.
Lemma fle_val f g : f32_valid f = true -> f32_valid g = true -> f <> S754_nan -> g <> S754_nan -> (fle f g = true <-> val f <= val g).
Proof. intros V W F G. unfold fle, SFleb. rewrite compare_val by assumption. destruct (Z.compare_spec (val f) (val g)); split; intros; try discriminate; try reflexivity; lia. Qed.
Lemma feqb_val f g : f32_valid f = true -> f32_valid g = true -> f <> S754_nan -> g <> S754_nan -> (feqb f g = true <-> val f = val g).
Proof. intros V W F G. unfold feqb, SFeqb. rewrite compare_val by assumption. destruct (Z.compare_spec (val f) (val g)); split; intros; try discriminate; try reflexivity; lia. Qed.

(** ** Consequences *)
Lemma rounded_exact n d f r : 0 < d -> rounded n d f -> repr r -> n = r * d -> val f = r.
Proof. intros D (_ & R) Hr ->. destruct (R r Hr) as (A & B). specialize (A (Z.le_refl _)). specialize (B (Z.le_refl _)). lia. Qed.
Lemma rounded_le n d f r : rounded n d f -> repr r -> n <= r * d -> val f <= r.
Proof. intros (_ & R) Hr. apply R. exact Hr. Qed.
Lemma rounded_ge n d f r : rounded n d f -> repr r -> r * d <= n -> r <= val f.
Proof. intros (_ & R) Hr. apply R. exact Hr. Qed.
Lemma of_Z_rounded n : rounded (n * unit_val) 1 (f32_of_Z n).
Proof. unfold f32_of_Z. change (n * unit_val) with (sc n 0). apply normalize_rounded. lia. Qed.
Lemma repr_int n : Z.abs n <= 16777216 -> repr (n * unit_val).
Proof.
  intros N. pose proof unit_val_pos. unfold repr. rewrite Z.abs_mul, (Z.abs_eq unit_val) by lia. set (k := Z.abs n) in *. assert (K : 0 <= k) by (subst k; lia). clearbody k.
  destruct (Z.eq_dec k 16777216) as [->|].
  - split.
    + change (16777216 * unit_val) with (sc 16777216 0). apply Z.lt_le_incl. change 16777216 with (8388608 * 2 ^ 1). rewrite sc_shift by lia. apply sc_mono_exp; lia.
    + right. exists 8388608, 1. split; [lia|]. split; [lia|]. change (16777216 * unit_val) with (sc 16777216 0). change 16777216 with (8388608 * 2 ^ 1). rewrite sc_shift by lia. reflexivity.
  - destruct (Z.eq_dec k 0) as [->|K0].
    + split; [apply Z.lt_le_incl, sc_pos; lia|left; lia].
    + split; [|right; exists k, 0; split; [lia|split; [lia|reflexivity]]]. change (k * unit_val) with (sc k 0). apply Z.lt_le_incl, sc_mono_exp; lia.
Qed.
Lemma of_Z_exact n : Z.abs n <= 16777216 -> val (f32_of_Z n) = n * unit_val.
Proof. intros N. apply (rounded_exact (n * unit_val) 1); [lia|apply of_Z_rounded|apply repr_int; exact N|lia]. Qed.
Lemma val_finite_iff f : f32_valid f = true -> f <> S754_nan -> (is_finite f = true <-> Z.abs (val f) < sc 8388608 105).
Proof.
  intros V N. assert (INF : 0 < sc 8388608 105) by (apply sc_pos; lia). destruct f as [s|s| |s m e]; try contradiction; cbn [is_finite].
  - replace (Z.abs (val (S754_zero s))) with 0 by (destruct s; reflexivity). tauto.
  - replace (Z.abs (val (S754_infinity s))) with (sc 8388608 105) by (destruct s; cbn [val sign_of mg]; lia). split; [discriminate|lia].
  - pose proof (mg_lt_inf s m e V). split; [|reflexivity]. intros _. destruct s; cbn [val sign_of mg]; lia.
Qed.
Lemma val_fone : val fone = unit_val.
Proof. unfold fone. cbn [val sign_of mg]. unfold sc, unit_val. change (8388608) with (2 ^ 23). rewrite <- Z.pow_add_r by lia. reflexivity. Qed.
Lemma val_fzero : val fzero = 0.
Proof. reflexivity. Qed.
Lemma repr_unit : repr unit_val.
Proof. replace unit_val with (1 * unit_val) by lia. apply repr_int. lia. Qed.
