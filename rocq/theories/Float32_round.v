(** The operations on float32 give well-formed numbers. *)
From Verif Require Import Base Float32 Float32_facts.
From Coq Require Import SpecFloat.

Lemma digits_spec m : 0 < m -> 0 < Zdigits2 m /\ 2 ^ (Zdigits2 m - 1) <= m < 2 ^ Zdigits2 m.
Proof. destruct m as [|p|p]; try lia. intros _. cbn [Zdigits2]. split; [lia|apply digits2_Zdigits]. Qed.
Lemma digits_unique m d : 0 < m -> 2 ^ (d - 1) <= m < 2 ^ d -> Zdigits2 m = d.
Proof.
  intros M D. destruct (digits_spec m M) as (P & B). set (k := Zdigits2 m) in *. clearbody k.
  assert (Q : 0 < d). { destruct (Z.le_gt_cases d 0); [|assumption]. assert (2 ^ d <= 1); [|lia]. destruct (Z.eq_dec d 0) as [->|]; [reflexivity|]. rewrite Z.pow_neg_r by lia. lia. }
  destruct (Z.lt_trichotomy k d) as [L|[L|L]]; [|exact L|].
  - assert (2 ^ k <= 2 ^ (d - 1)) by (apply Z.pow_le_mono_r; lia). lia.
  - assert (2 ^ d <= 2 ^ (k - 1)) by (apply Z.pow_le_mono_r; lia). lia.
Qed.
Lemma digits_0 : Zdigits2 0 = 0.
Proof. reflexivity. Qed.
Lemma digits_div m n : 0 <= m -> 0 <= n ->
  0 <= m / 2 ^ n /\ (Zdigits2 m <= n /\ m / 2 ^ n = 0 \/ n < Zdigits2 m /\ 0 < m / 2 ^ n /\ Zdigits2 (m / 2 ^ n) = Zdigits2 m - n).
Proof.
  intros M N. assert (P : 0 < 2 ^ n) by (apply Z.pow_pos_nonneg; lia). split; [apply Z.div_pos; lia|].
  destruct (Z.eq_dec m 0) as [->|Z]; [left; cbn [Zdigits2]; rewrite Z.div_0_l by lia; lia|].
  destruct (digits_spec m) as (D & B); [lia|]. destruct (Z.le_gt_cases (Zdigits2 m) n) as [L|L].
  - left. split; [exact L|]. apply Z.div_small. assert (2 ^ Zdigits2 m <= 2 ^ n) by (apply Z.pow_le_mono_r; lia). lia.
  - right. split; [exact L|]. set (d := Zdigits2 m) in *.
    assert (E1 : 2 ^ (d - 1) = 2 ^ (d - 1 - n) * 2 ^ n) by (rewrite <- Z.pow_add_r by lia; f_equal; lia).
    assert (E2 : 2 ^ d = 2 ^ (d - n) * 2 ^ n) by (rewrite <- Z.pow_add_r by lia; f_equal; lia).
    assert (L1 : 2 ^ (d - 1 - n) <= m / 2 ^ n) by (apply Z.div_le_lower_bound; lia).
    assert (L2 : m / 2 ^ n < 2 ^ (d - n)) by (apply Z.div_lt_upper_bound; lia).
    assert (L3 : 0 < 2 ^ (d - 1 - n)) by (apply Z.pow_pos_nonneg; lia).
    split; [lia|]. apply digits_unique; [lia|]. replace (d - n - 1) with (d - 1 - n) by lia. lia.
Qed.
Lemma shr_1_m r : 0 <= shr_m r -> shr_m (shr_1 r) = shr_m r / 2.
Proof. destruct r as [m r s]. cbn [shr_m]. intros M. destruct m as [|[p|p|]|p]; cbn [shr_1 shr_m]; try lia. Qed.
Lemma shr_iter p : forall r, 0 <= shr_m r -> shr_m (iter_pos shr_1 p r) = shr_m r / 2 ^ Zpos p.
Proof.
  assert (S : forall r, 0 <= shr_m r -> 0 <= shr_m (shr_1 r)) by (intros r R; rewrite shr_1_m by exact R; apply Z.div_pos; lia).
  assert (A : forall m a b, 0 <= m -> 0 <= a -> 0 <= b -> m / 2 ^ a / 2 ^ b = m / 2 ^ (a + b)).
  { intros m a b M HA HB. rewrite Z.div_div; [|apply Z.pow_nonzero; lia|apply Z.pow_pos_nonneg; lia]. rewrite Z.pow_add_r by lia. reflexivity. }
  assert (G : forall p r, 0 <= shr_m r -> 0 <= shr_m (iter_pos shr_1 p r) /\ shr_m (iter_pos shr_1 p r) = shr_m r / 2 ^ Zpos p).
  { clear p. induction p as [p IH|p IH|]; intros r R; cbn [iter_pos].
    - destruct (IH (shr_1 r) (S r R)) as (I1 & E1). destruct (IH _ I1) as (I2 & E2). split; [exact I2|].
      rewrite E2, E1, shr_1_m by exact R. change (shr_m r / 2) with (shr_m r / 2 ^ 1). rewrite (A _ 1), A by lia. f_equal. f_equal. lia.
    - destruct (IH r R) as (I1 & E1). destruct (IH _ I1) as (I2 & E2). split; [exact I2|]. rewrite E2, E1, A by lia. f_equal. f_equal. lia.
    - split; [auto|]. rewrite shr_1_m by exact R. reflexivity. }
  intros r R. apply G. exact R.
Qed.
Lemma shr_of_loc m l : shr_m (shr_record_of_loc m l) = m.
Proof. destruct l as [|[]]; reflexivity. Qed.
Notation fx := (fexp prec emax).
Lemma fx_eq d : fx d = Z.max (d - 24) (-149).
Proof. reflexivity. Qed.
(** Aligning with the precision *)
Lemma shr_fexp_spec m e l : 0 <= m -> e <= fx (Zdigits2 m + e) ->
  let (r, e') := shr_fexp prec emax m e l in
  0 <= shr_m r /\ e' = fx (Zdigits2 m + e) /\ (shr_m r = 0 /\ e' = -149 \/ Zdigits2 (shr_m r) + e' = Zdigits2 m + e).
Proof.
  intros M E. unfold shr_fexp. set (n := fx (Zdigits2 m + e) - e). unfold shr. destruct n as [|p|p] eqn:N.
  - rewrite shr_of_loc. split; [exact M|]. split; [lia|]. right. lia.
  - rewrite shr_iter by (rewrite shr_of_loc; exact M). rewrite shr_of_loc.
    destruct (digits_div m (Zpos p) M) as (D0 & D); [lia|]. split; [exact D0|]. split; [lia|].
    destruct D as [(L & ->)|(L & P & ->)]; [left; split; [reflexivity|]|right; lia]. subst n. rewrite fx_eq in *. lia.
  - lia.
Qed.
Lemma rne_range m l : round_nearest_even m l = m \/ round_nearest_even m l = m + 1.
Proof. unfold round_nearest_even. destruct l as [|[]]; auto. destruct (Z.even m); auto. Qed.
Lemma succ_digits m : 0 <= m -> Zdigits2 (m + 1) = Zdigits2 m \/ (m + 1 = 2 ^ Zdigits2 m /\ Zdigits2 (m + 1) = Zdigits2 m + 1).
Proof.
  intros M. destruct (Z.eq_dec m 0) as [->|Z]; [right; split; reflexivity|]. destruct (digits_spec m) as (D & B); [lia|].
  destruct (Z.eq_dec (m + 1) (2 ^ Zdigits2 m)) as [E|E].
  - right. split; [exact E|]. apply digits_unique; [lia|]. rewrite Z.add_simpl_r. rewrite Z.pow_add_r by lia. lia.
  - left. apply digits_unique; lia.
Qed.
Lemma aux_valid sx mx ex lx : 0 <= mx -> ex <= fx (Zdigits2 mx + ex) ->
  f32_valid (binary_round_aux prec emax sx mx ex lx) = true.
Proof.
  intros M E. unfold binary_round_aux. pose proof (shr_fexp_spec mx ex lx M E) as H.
  destruct (shr_fexp prec emax mx ex lx) as [r e']. destruct H as (R0 & -> & D).
  set (e' := fx (Zdigits2 mx + ex)) in *.
  set (m' := round_nearest_even (shr_m r) (loc_of_shr_record r)).
  assert (F : 0 <= m' /\ e' <= fx (Zdigits2 m' + e')).
  { pose proof (rne_range (shr_m r) (loc_of_shr_record r)) as RR. fold m' in RR. clearbody m'.
    split; [lia|]. subst e'. rewrite fx_eq. rewrite !fx_eq in *.
    destruct RR as [-> | ->]; [destruct D as [(D & D')|D]; lia|].
    destruct (succ_digits (shr_m r) R0) as [S|(S & S')]; destruct D as [(D & D')|D]; lia. }
  (* after rounding, a second alignment *)
  destruct F as (M' & E'). pose proof (shr_fexp_spec m' e' loc_Exact M' E') as H.
  destruct (shr_fexp prec emax m' e' loc_Exact) as [r2 e2]. destruct H as (R2 & -> & D2).
  destruct (shr_m r2) as [|p|p] eqn:Q; try reflexivity.
  destruct (_ <=? emax - prec) eqn:L; [|reflexivity].
  unfold f32_valid, valid_binary, bounded. rewrite L, andb_true_r. unfold canonical_mantissa. apply Zeq_is_eq_bool.
  destruct D2 as [(D2 & _)|D2]; [discriminate|]. cbn [Zdigits2] in D2. rewrite D2. reflexivity.
Qed.
Lemma shift_pos_digits d mx : Zdigits2 (Zpos (shift_pos d mx)) = Zdigits2 (Zpos mx) + Zpos d.
Proof.
  rewrite shift_pos_correct. change (Z.pow_pos 2 d) with (2 ^ Zpos d). destruct (digits_spec (Zpos mx)) as (D & B); [lia|].
  set (k := Zdigits2 (Zpos mx)) in *. clearbody k. assert (P : 0 < 2 ^ Zpos d) by (apply Z.pow_pos_nonneg; lia).
  apply digits_unique; [lia|].
  replace (k + Zpos d - 1) with ((k - 1) + Zpos d) by lia. rewrite !Z.pow_add_r by lia. nia.
Qed.
Lemma round_valid sx mx ex : f32_valid (binary_round prec emax sx mx ex) = true.
Proof.
  unfold binary_round. set (e' := fx (Zpos (digits2_pos mx) + ex)). unfold shl_align.
  destruct (e' - ex) as [|d|d] eqn:D.
  - apply aux_valid; [lia|]. cbn [Zdigits2]. fold e'. lia.
  - apply aux_valid; [lia|]. cbn [Zdigits2]. fold e'. lia.
  - apply aux_valid; [lia|]. rewrite shift_pos_digits. cbn [Zdigits2].
    replace (Zpos (digits2_pos mx) + Zpos d + e') with (Zpos (digits2_pos mx) + ex) by lia. fold e'. lia.
Qed.
Lemma normalize_valid m e s : f32_valid (binary_normalize prec emax m e s) = true.
Proof. destruct m; [reflexivity|apply round_valid|apply round_valid]. Qed.

Lemma fadd_valid x y : f32_valid x = true -> f32_valid y = true -> f32_valid (fadd x y) = true.
Proof.
  intros X Y. destruct x as [a|a| |a m e]; destruct y as [b|b| |b n g]; unfold fadd; cbn [SFadd]; try assumption; try reflexivity;
    try (destruct (Bool.eqb a b); reflexivity). apply normalize_valid.
Qed.
Lemma fsub_valid x y : f32_valid x = true -> f32_valid y = true -> f32_valid (fsub x y) = true.
Proof.
  intros X Y. destruct x as [a|a| |a m e]; destruct y as [b|b| |b n g]; unfold fsub; cbn [SFsub]; try assumption; try reflexivity;
    try (destruct (Bool.eqb a (negb b)); reflexivity). apply normalize_valid.
Qed.
Lemma valid_digits s m e : f32_valid (S754_finite s m e) = true -> e <= 104 /\ (Zdigits2 (Zpos m) <= 24 /\ e = -149 \/ Zdigits2 (Zpos m) = 24 /\ -149 <= e).
Proof.
  unfold f32_valid, valid_binary, bounded, canonical_mantissa. rewrite andb_true_iff. intros (A & B). apply Zeq_bool_eq in A. apply Z.leb_le in B.
  rewrite fx_eq in A. change (emax - prec) with 104 in B. cbn [Zdigits2]. lia.
Qed.
Lemma digits_mul a b : 0 < a -> 0 < b -> Zdigits2 a + Zdigits2 b - 1 <= Zdigits2 (a * b) <= Zdigits2 a + Zdigits2 b.
Proof.
  intros A B. destruct (digits_spec a A) as (DA & BA), (digits_spec b B) as (DB & BB). destruct (digits_spec (a * b)) as (DC & BC); [nia|].
  set (x := Zdigits2 a) in *. set (y := Zdigits2 b) in *. set (z := Zdigits2 (a * b)) in *. clearbody x y z.
  assert (E1 : 2 ^ (x + y - 2) = 2 ^ (x - 1) * 2 ^ (y - 1)) by (rewrite <- Z.pow_add_r by lia; f_equal; lia).
  assert (E2 : 2 ^ (x + y) = 2 ^ x * 2 ^ y) by (apply Z.pow_add_r; lia).
  assert (P1 : 0 < 2 ^ (x - 1)) by (apply Z.pow_pos_nonneg; lia). assert (P2 : 0 < 2 ^ (y - 1)) by (apply Z.pow_pos_nonneg; lia).
  assert (L1 : 2 ^ (x + y - 2) <= a * b) by (rewrite E1; apply Z.mul_le_mono_nonneg; lia).
  assert (L2 : a * b < 2 ^ (x + y)) by (rewrite E2; apply Z.mul_lt_mono_nonneg; lia). split.
  - destruct (Z.le_gt_cases (x + y - 1) z); [assumption|]. assert (2 ^ z <= 2 ^ (x + y - 2)) by (apply Z.pow_le_mono_r; lia). lia.
  - destruct (Z.le_gt_cases z (x + y)); [assumption|]. assert (2 ^ (x + y) <= 2 ^ (z - 1)) by (apply Z.pow_le_mono_r; lia). lia.
Qed.
Lemma fmul_valid x y : f32_valid x = true -> f32_valid y = true -> f32_valid (fmul x y) = true.
Proof.
  intros X Y. destruct x as [a|a| |a m e]; destruct y as [b|b| |b n g]; unfold fmul; cbn [SFmul]; try assumption; try reflexivity.
  apply valid_digits in X, Y. apply aux_valid; [lia|]. rewrite Pos2Z.inj_mul. pose proof (digits_mul (Zpos m) (Zpos n)).
  destruct (digits_spec (Zpos m)) as (DA & _); [lia|]. destruct (digits_spec (Zpos n)) as (DB & _); [lia|]. rewrite fx_eq. lia.
Qed.
Lemma fdiv_valid x y : f32_valid x = true -> f32_valid y = true -> f32_valid (fdiv x y) = true.
Proof.
  intros X Y. destruct x as [a|a| |a m e]; destruct y as [b|b| |b n g]; unfold fdiv; cbn [SFdiv]; try assumption; try reflexivity.
  unfold SFdiv_core_binary. destruct (digits_spec (Zpos m)) as (DA & BA); [lia|]. destruct (digits_spec (Zpos n)) as (DB & BB); [lia|].
  set (x := Zdigits2 (Zpos m)) in *. set (y := Zdigits2 (Zpos n)) in *.
  set (e' := Z.min (fx (x + e - (y + g))) (e - g)). set (s := e - g - e').
  assert (S : 0 <= s) by lia.
  replace (match s with 0 => Zpos m | Zpos _ => Z.shiftl (Zpos m) s | Zneg _ => 0 end) with (Zpos m * 2 ^ s).
  2:{ destruct s as [|p|p] eqn:Q; [lia| |lia]. rewrite Z.shiftl_mul_pow2 by lia. reflexivity. }
  pose proof (Z_div_mod (Zpos m * 2 ^ s) (Zpos n) ltac:(lia)) as D.
  destruct (Z.div_eucl (Zpos m * 2 ^ s) (Zpos n)) as [q r]. destruct D as (D & R).
  assert (P : 0 < 2 ^ s) by (apply Z.pow_pos_nonneg; lia).
  assert (Q : 0 <= q) by nia. apply aux_valid; [exact Q|].
  assert (G : x + s - y <= Zdigits2 q).
  { destruct (Z.le_gt_cases (x + s - y) (Zdigits2 q)) as [|L]; [assumption|].
    assert (U : q < 2 ^ (x + s - y - 1)).
    { destruct (Z.eq_dec q 0) as [->|Z]; [rewrite digits_0 in L; apply Z.pow_pos_nonneg; lia|].
      destruct (digits_spec q) as (_ & BQ); [lia|]. assert (2 ^ Zdigits2 q <= 2 ^ (x + s - y - 1)) by (apply Z.pow_le_mono_r; lia). lia. }
    assert (0 <= Zdigits2 q) by (destruct q; cbn [Zdigits2]; lia).
    assert (E1 : 2 ^ (x - 1 + s) = 2 ^ (x - 1) * 2 ^ s) by (apply Z.pow_add_r; lia).
    assert (E2 : 2 ^ (x - 1 + s) = 2 ^ y * 2 ^ (x + s - y - 1)) by (rewrite <- Z.pow_add_r by lia; f_equal; lia).
    assert (L1 : 2 ^ (x - 1) * 2 ^ s <= Zpos m * 2 ^ s) by (apply Z.mul_le_mono_nonneg_r; lia).
    assert (L2 : Zpos n * (q + 1) <= Zpos n * 2 ^ (x + s - y - 1)) by (apply Z.mul_le_mono_nonneg_l; lia).
    assert (P2 : 0 < 2 ^ (x + s - y - 1)) by (apply Z.pow_pos_nonneg; lia).
    assert (L3 : Zpos n * 2 ^ (x + s - y - 1) < 2 ^ y * 2 ^ (x + s - y - 1)) by (apply Z.mul_lt_mono_pos_r; lia).
    assert (L4 : Zpos n * q + Zpos n <= 2 ^ y * 2 ^ (x + s - y - 1)) by lia. lia. }
  subst e' s. rewrite !fx_eq in *. lia.
Qed.
Lemma of_Z_valid n : f32_valid (f32_of_Z n) = true.
Proof. apply normalize_valid. Qed.

(** ** Where a NaN can come from *)
Lemma aux_not_nan sx mx ex lx : 0 <= mx -> ex <= fx (Zdigits2 mx + ex) -> binary_round_aux prec emax sx mx ex lx <> S754_nan.
Proof.
  intros M E. unfold binary_round_aux. pose proof (shr_fexp_spec mx ex lx M E) as H.
  destruct (shr_fexp prec emax mx ex lx) as [r e']. destruct H as (R0 & _ & _).
  set (m' := round_nearest_even (shr_m r) (loc_of_shr_record r)).
  assert (M' : 0 <= m') by (pose proof (rne_range (shr_m r) (loc_of_shr_record r)); fold m' in H; lia).
  assert (S : forall m e, 0 <= m -> 0 <= shr_m (fst (shr_fexp prec emax m e loc_Exact))).
  { intros m e P. unfold shr_fexp, shr. destruct (_ - e); cbn [fst]; rewrite ?shr_of_loc; try exact P.
    rewrite shr_iter by (rewrite shr_of_loc; exact P). rewrite shr_of_loc. apply Z.div_pos; [exact P|apply Z.pow_pos_nonneg; lia]. }
  specialize (S m' e' M'). destruct (shr_fexp prec emax m' e' loc_Exact) as [r2 e2]. cbn [fst] in S.
  destruct (shr_m r2) as [|p|p]; [discriminate| |lia]. destruct (_ <=? emax - prec); discriminate.
Qed.
Lemma round_not_nan sx mx ex : binary_round prec emax sx mx ex <> S754_nan.
Proof.
  unfold binary_round. set (e' := fx (Zpos (digits2_pos mx) + ex)). unfold shl_align.
  destruct (e' - ex) as [|d|d] eqn:D.
  - apply aux_not_nan; [lia|]. cbn [Zdigits2]. fold e'. lia.
  - apply aux_not_nan; [lia|]. cbn [Zdigits2]. fold e'. lia.
  - apply aux_not_nan; [lia|]. rewrite shift_pos_digits. cbn [Zdigits2].
    replace (Zpos (digits2_pos mx) + Zpos d + e') with (Zpos (digits2_pos mx) + ex) by lia. fold e'. lia.
Qed.
Lemma normalize_not_nan m e s : binary_normalize prec emax m e s <> S754_nan.
Proof. destruct m; [discriminate|apply round_not_nan|apply round_not_nan]. Qed.
Lemma fadd_not_nan x y : is_finite x = true -> y <> S754_nan -> fadd x y <> S754_nan.
Proof.
  intros X Y. destruct x as [a|a| |a m e]; try discriminate; destruct y as [b|b| |b n g]; try contradiction; unfold fadd; cbn [SFadd]; try discriminate.
  - destruct (Bool.eqb a b); discriminate.
  - apply normalize_not_nan.
Qed.
Lemma of_Z_not_nan n : f32_of_Z n <> S754_nan.
Proof. apply normalize_not_nan. Qed.
