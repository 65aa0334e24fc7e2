(** More facts on rounding: how far it goes, truncation, counting up. *)
From Coq Require Import Floats.SpecFloat.
From Verif Require Import Base Float32 Float32_facts Float32_round Float32_val Obj_model Obj_spec Obj_proofs View_spec View_proofs Grp_model.

(** Any fraction lies between two representable numbers at relative distance 2^-23
    (or at distance 2^-149). *)
Lemma bracket n d : 0 < d -> 0 <= n -> n <= d * 2 ^ 1100 ->
  exists lo w, repr lo /\ repr (lo + w) /\ 0 <= lo /\ lo * d <= n <= (lo + w) * d /\ 0 < w /\ (w * d * 8388608 <= n \/ w = sc 1 (-149)).
Proof.
  intros D N B. set (q := n / d).
  assert (Q : q * d <= n < (q + 1) * d) by (subst q; pose proof (Z.div_mod n d ltac:(lia)); pose proof (Z.mod_pos_bound n d ltac:(lia)); nia).
  assert (Q0 : 0 <= q) by (subst q; apply Z.div_pos; lia). assert (QB : q <= 2 ^ 1100) by nia. clearbody q.
  set (k := Z.max 851 (Z.log2 q - 23)). set (t := q / 2 ^ k).
  assert (K : 851 <= k) by (subst k; lia). assert (P : 0 < 2 ^ k) by (apply Z.pow_pos_nonneg; lia).
  assert (T : t * 2 ^ k <= q < (t + 1) * 2 ^ k) by (subst t; pose proof (Z.div_mod q (2 ^ k) ltac:(lia)); pose proof (Z.mod_pos_bound q (2 ^ k) ltac:(lia)); nia).
  assert (KB : k <= 1077). { subst k. assert (Z.log2 q <= 1100) by (rewrite <- (Z.log2_pow2 1100) by lia; apply Z.log2_le_mono; exact QB). lia. }
  assert (TB : 0 <= t < 16777216).
  { split; [subst t; apply Z.div_pos; lia|]. destruct (Z.eq_dec q 0) as [->|]; [subst t; rewrite Z.div_0_l by lia; lia|].
    assert (L : q < 2 ^ (Z.log2 q + 1)) by (apply Z.log2_spec; lia).
    assert (2 ^ (Z.log2 q + 1) <= 2 ^ (k + 24)) by (apply Z.pow_le_mono_r; lia). assert (E : 2 ^ (k + 24) = 16777216 * 2 ^ k) by (rewrite Z.pow_add_r by lia; change (2 ^ 24) with 16777216; lia). nia. }
  assert (R : forall t, 0 <= t <= 16777216 -> repr (t * 2 ^ k)).
  { clear - K KB P. intros t T. unfold repr. rewrite Z.abs_eq by nia. assert (X : 2 ^ k <= 2 ^ 1077) by (apply Z.pow_le_mono_r; lia).
    assert (Y : 2 ^ 1077 * 16777216 <= sc 8388608 105). { unfold sc. change 16777216 with (2 ^ 24). change 8388608 with (2 ^ 23). rewrite <- !Z.pow_add_r by lia. apply Z.pow_le_mono_r; lia. }
    split; [generalize dependent (sc 8388608 105); intros; nia|]. destruct (Z.eq_dec t 0) as [->|]; [left; lia|right]. destruct (Z.eq_dec t 16777216) as [->|].
    - exists 8388608, (k + 1 - 1000). split; [lia|]. split; [lia|]. unfold sc. replace (k + 1 - 1000 + 1000) with (1 + k) by lia. rewrite Z.pow_add_r by lia. change (2 ^ 1) with 2. lia.
    - exists t, (k - 1000). split; [lia|]. split; [lia|]. unfold sc. do 2 f_equal. lia. }
  exists (t * 2 ^ k), (2 ^ k). split; [apply R; lia|]. split; [replace (t * 2 ^ k + 2 ^ k) with ((t + 1) * 2 ^ k) by lia; apply R; lia|].
  split; [nia|]. split; [|split; [exact P|]].
  - assert (t * 2 ^ k * d <= q * d) by (apply Z.mul_le_mono_nonneg_r; lia). assert ((q + 1) * d <= (t * 2 ^ k + 2 ^ k) * d) by (apply Z.mul_le_mono_nonneg_r; lia). lia.
  - destruct (Z.le_gt_cases (Z.log2 q - 23) 851) as [L|L].
    + right. replace k with 851 by (subst k; lia). unfold sc. change (-149 + 1000) with 851. lia.
    + left. assert (KE : k = Z.log2 q - 23) by (subst k; lia). assert (QP : 0 < q) by (destruct (Z.eq_dec q 0) as [->|]; [cbn in L; lia|lia]).
      assert (LL : 2 ^ Z.log2 q <= q) by (apply Z.log2_spec; exact QP).
      assert (E : 2 ^ Z.log2 q = 8388608 * 2 ^ k) by (change 8388608 with (2 ^ 23); rewrite <- Z.pow_add_r by lia; f_equal; lia).
      assert (2 ^ k * 8388608 * d <= q * d) by (apply Z.mul_le_mono_nonneg_r; lia). lia.
Qed.

(** Truncation of a number that is not negative. *)
Lemma trunc_val f : f32_valid f = true -> is_finite f = true -> 0 <= val f -> f32_trunc f = val f / unit_val.
Proof.
  intros V F P. destruct f as [s|s| |s m e]; try discriminate.
  - destruct s; reflexivity.
  - pose proof (valid_exp _ _ _ V) as X. rewrite val_finite in *. destruct s; cbn [cond_Zopp] in *; [pose proof (sc_pos (Zpos m) e ltac:(lia) ltac:(lia)); lia|].
    cbn [f32_trunc cond_Zopp]. unfold sc, unit_val. destruct (0 <=? e) eqn:E.
    + apply Z.leb_le in E. rewrite Z.pow_add_r, Z.mul_assoc by lia. rewrite Z.div_mul by (apply Z.pow_nonzero; lia). reflexivity.
    + apply Z.leb_gt in E. replace (2 ^ 1000) with (2 ^ (- e) * 2 ^ (e + 1000)) by (rewrite <- Z.pow_add_r by lia; f_equal; lia).
      rewrite Z.div_mul_cancel_r; [reflexivity|apply Z.pow_nonzero; lia|apply Z.pow_nonzero; lia].
Qed.

Lemma small_lt_inf n : 0 <= n <= 16777216 -> n * unit_val < sc 8388608 105.
Proof.
  intros N. assert (LT : 16777216 * unit_val < sc 8388608 105). { change (16777216 * unit_val) with (sc (8388608 * 2 ^ 1) 0). rewrite sc_shift by lia. apply sc_mono_exp; lia. }
  pose proof unit_val_pos. generalize dependent (sc 8388608 105). intros. nia.
Qed.
Lemma finite_small f n : f32_valid f = true -> f <> S754_nan -> 0 <= n <= 16777216 -> 0 <= val f <= n * unit_val -> is_finite f = true.
Proof. intros V N B P. apply val_finite_iff; [exact V|exact N|]. pose proof (small_lt_inf n B). lia. Qed.
Lemma counts_add n f : 0 <= n < 16777216 -> counts n f -> counts (n + 1) (fadd f fone).
Proof.
  intros N (V & F & E). pose proof (fadd_rounded f fone V eq_refl F eq_refl) as R. rewrite E, val_fone in R.
  assert (VE : val (fadd f fone) = (n + 1) * unit_val) by (apply (rounded_exact _ 1 _ _ ltac:(lia) R); [apply repr_int; lia|lia]).
  assert (VV : f32_valid (fadd f fone) = true) by (apply fadd_valid; [exact V|reflexivity]).
  split; [exact VV|]. split; [|exact VE]. apply (finite_small _ (n + 1)); [exact VV|apply R|lia|]. pose proof unit_val_pos. nia.
Qed.
Lemma counts_of_feqb n f : f32_valid f = true -> 0 <= n <= 16777216 -> feqb f (f32_of_Z n) = true -> counts n f.
Proof.
  intros V N E. assert (NN : f <> S754_nan) by (intros ->; discriminate). apply feqb_val in E; try assumption; [|apply of_Z_valid|apply of_Z_not_nan].
  rewrite of_Z_exact in E by lia. split; [exact V|]. split; [|exact E]. apply (finite_small _ n); try assumption. pose proof unit_val_pos. nia.
Qed.
(** Between 0 and 1. *)
Lemma unit_iff f : f32_valid f = true -> f <> S754_nan -> (in_unit f <-> 0 <= val f <= unit_val).
Proof.
  intros V N. unfold in_unit. rewrite !fle_val by (assumption || reflexivity || discriminate). rewrite val_fzero, val_fone. tauto.
Qed.
Lemma val_key f g : f32_valid f = true -> f32_valid g = true -> f <> S754_nan -> g <> S754_nan -> (val f <= val g <-> key f <= key g).
Proof.
  intros V W N M. rewrite <- fle_val by assumption. rewrite fle_key by assumption. apply Z.leb_le.
Qed.
Lemma key_counts_top f : counts 8388609 f -> key f = 1258291201.
Proof.
  intros (V & F & E). assert (N : f <> S754_nan) by (intros ->; discriminate).
  assert (Q : feqb f (f32_of_Z 8388609) = true). { apply feqb_val; [exact V|apply of_Z_valid|exact N|apply of_Z_not_nan|]. rewrite E, of_Z_exact by lia. reflexivity. }
  rewrite feqb_key in Q by (assumption || reflexivity || discriminate). apply Z.eqb_eq in Q. rewrite Q. reflexivity.
Qed.
(** Keeping an integer count. *)
Lemma counts_kept_top f : counts 8388609 f -> counts 8388608 (kept f).
Proof.
  intros C. pose proof (key_counts_top f C) as K. destruct C as (V & F & E). assert (N : f <> S754_nan) by (intros ->; discriminate).
  destruct (kept_key f V N ltac:(lia)) as (KN & KV & KK). rewrite K in KK. change (2 * (1258291201 / 2)) with 1258291200 in KK.
  apply counts_of_feqb; [exact KV|lia|]. rewrite feqb_key by (assumption || reflexivity || discriminate). rewrite KK. reflexivity.
Qed.
Lemma kept_le f : f32_valid f = true -> in_unit f -> val (kept f) <= val f.
Proof.
  intros V U. destruct (stored f V U) as (K & U' & V'). fold (kept f) in *. apply val_key; try assumption; try (apply in_unit_not_nan; assumption). lia.
Qed.
(** Keeping a number is monotone with respect to the numbers that are kept exactly. *)
Lemma kept_ge f w : f32_valid f = true -> in_unit f -> num w <> S754_nan -> val (num w) <= val f -> val (num w) <= val (kept f).
Proof.
  intros V U N L. pose proof (in_unit_not_nan _ U) as NF. pose proof (proj1 (in_unit_key f V NF) U) as KU. destruct (kept_key f V NF ltac:(lia)) as (KN & KV & KK).
  pose proof (num_even w N) as EV. pose proof (num_valid w) as VW. apply val_key in L; try assumption. apply val_key; try assumption. rewrite KK.
  rewrite Z.even_spec in EV. destruct EV as (h & EV). rewrite EV in *. lia.
Qed.
Lemma val_inj f g : f32_valid f = true -> f32_valid g = true -> f <> S754_nan -> g <> S754_nan -> 0 < val g -> val f = val g -> f = g.
Proof.
  intros V W N M P E. assert (K : key f = key g) by (apply Z.le_antisymm; apply val_key; try assumption; lia).
  assert (G : 0 < key g). { destruct (Z.le_gt_cases (key g) 0) as [L|L]; [|exact L]. exfalso. change 0 with (key fzero) in L. apply val_key in L; try assumption; try reflexivity; try discriminate. rewrite val_fzero in L. lia. }
  destruct (key_bits_nonneg f V N ltac:(lia)) as [A|(A & B)]; [|lia]. destruct (key_bits_nonneg g W M ltac:(lia)) as [C|(C & D)]; [|lia].
  rewrite <- (of_bits_of_f32 f V), <- (of_bits_of_f32 g W). congruence.
Qed.
