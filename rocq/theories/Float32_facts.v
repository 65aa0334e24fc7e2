(** Facts about the 32-bit float format that need no real numbers. *)
From Verif Require Import Base Float32.

(** Signed integer that orders the numbers like their values. *)
Definition key (f : spec_float) : Z :=
  match f with
  | S754_zero _ => 0
  | S754_infinity s => if s then -2139095040 else 2139095040
  | S754_nan => 0
  | S754_finite s m e => if s then - magn m e else magn m e
  end.

Lemma digits2_Zdigits m : 2 ^ (Zpos (digits2_pos m) - 1) <= Zpos m < 2 ^ Zpos (digits2_pos m).
Proof.
  induction m as [m IH|m IH|]; cbn [digits2_pos].
  - rewrite Pos2Z.inj_succ. replace (Z.succ (Z.pos (digits2_pos m)) - 1) with (Z.pos (digits2_pos m) - 1 + 1) by lia.
    unfold Z.succ. rewrite !Z.pow_add_r by lia. lia.
  - rewrite Pos2Z.inj_succ. replace (Z.succ (Z.pos (digits2_pos m)) - 1) with (Z.pos (digits2_pos m) - 1 + 1) by lia.
    unfold Z.succ. rewrite !Z.pow_add_r by lia. lia.
  - cbn. lia.
Qed.

Lemma bounded_spec m e : bounded prec emax m e = true <->
  (e = -149 /\ Zpos m < 8388608) \/ (8388608 <= Zpos m < 16777216 /\ -149 <= e <= 104).
Proof.
  unfold bounded, canonical_mantissa, fexp, emin, prec, emax.
  pose proof (digits2_Zdigits m) as D. set (d := Zpos (digits2_pos m)) in *.
  assert (Hd : 1 <= d) by (unfold d; lia).
  rewrite andb_true_iff, <- Zeq_is_eq_bool, Z.leb_le.
  change 16777216 with (2^24). change 8388608 with (2^23).
  split.
  - intros [H1 H2].
    destruct (Z.lt_ge_cases d 24) as [L|L].
    + left. split; [lia|]. apply Z.lt_le_trans with (2^d); [lia|].
      apply Z.pow_le_mono_r; lia.
    + assert (d = 24) by lia. right.
      replace d with 24 in D by lia. change (24 - 1) with 23 in D. lia.
  - intros [[-> H]|[H H2]].
    + assert (d < 24).
      { apply Z.nle_gt. intros C. assert (2^23 <= 2^(d-1)) by (apply Z.pow_le_mono_r; lia). lia. }
      lia.
    + assert (d = 24).
      { destruct (Z.lt_trichotomy d 24) as [C|[C|C]]; auto.
        - assert (2^d <= 2^23) by (apply Z.pow_le_mono_r; lia). lia.
        - assert (2^24 <= 2^(d-1)) by (apply Z.pow_le_mono_r; lia). lia. }
      lia.
Qed.

Lemma magn_pos m e : bounded prec emax m e = true -> 0 < magn m e < 2139095040.
Proof. rewrite bounded_spec. unfold magn. destruct (Zpos m <? 8388608) eqn:E; lia. Qed.

Lemma magn_cmp m1 e1 m2 e2 : bounded prec emax m1 e1 = true -> bounded prec emax m2 e2 = true ->
  (match e1 ?= e2 with Eq => Pos.compare_cont Eq m1 m2 | Lt => Lt | Gt => Gt end)
  = (magn m1 e1 ?= magn m2 e2).
Proof.
  rewrite !bounded_spec. intros H1 H2.
  change (Pos.compare_cont Eq m1 m2) with (Zpos m1 ?= Zpos m2).
  unfold magn. destruct (Zpos m1 <? 8388608) eqn:E1, (Zpos m2 <? 8388608) eqn:E2;
    destruct (Z.compare_spec e1 e2); try destruct (Z.compare_spec (Zpos m1) (Zpos m2));
    try reflexivity; symmetry; rewrite ?Z.compare_eq_iff, ?Z.compare_lt_iff, ?Z.compare_gt_iff; lia.
Qed.

Lemma compare_key f g : f32_valid f = true -> f32_valid g = true ->
  f <> S754_nan -> g <> S754_nan -> SFcompare f g = Some (key f ?= key g).
Proof.
  intros Vf Vg Nf Ng. unfold f32_valid in *.
  assert (CO : forall a b, CompOpp (a ?= b) = (- a ?= - b)).
  { intros. rewrite <- Z.compare_opp. symmetry. rewrite Z.compare_antisym. reflexivity. }
  destruct f as [s1|s1| |s1 m1 e1], g as [s2|s2| |s2 m2 e2]; try congruence;
    cbn [SFcompare key valid_binary] in *; f_equal;
    try (pose proof (magn_pos _ _ Vf)); try (pose proof (magn_pos _ _ Vg));
    try (destruct s1); try (destruct s2); symmetry;
    rewrite ?Z.compare_eq_iff, ?Z.compare_lt_iff, ?Z.compare_gt_iff; try lia.
  - rewrite <- CO, <- (magn_cmp _ _ _ _ Vf Vg). destruct (e1 ?= e2); reflexivity.
  - rewrite <- (magn_cmp _ _ _ _ Vf Vg). reflexivity.
Qed.

Lemma flt_key f g : f32_valid f = true -> f32_valid g = true ->
  f <> S754_nan -> g <> S754_nan -> flt f g = (key f <? key g).
Proof.
  intros. unfold flt, SFltb. rewrite compare_key by assumption.
  unfold Z.ltb. destruct (key f ?= key g); reflexivity.
Qed.
Lemma fle_key f g : f32_valid f = true -> f32_valid g = true ->
  f <> S754_nan -> g <> S754_nan -> fle f g = (key f <=? key g).
Proof.
  intros. unfold fle, SFleb. rewrite compare_key by assumption.
  unfold Z.leb. destruct (key f ?= key g); reflexivity.
Qed.
Lemma feqb_key f g : f32_valid f = true -> f32_valid g = true ->
  f <> S754_nan -> g <> S754_nan -> feqb f g = (key f =? key g).
Proof.
  intros. unfold feqb, SFeqb. rewrite compare_key by assumption.
  destruct (Z.compare_spec (key f) (key g)); symmetry; lia.
Qed.

Lemma of_bits_valid b : is_u32 b -> f32_valid (f32_of_bits b) = true.
Proof.
  intros Hb. unfold f32_of_bits, f32_valid, is_u32 in *.
  destruct (_ =? 255) eqn:E1; [destruct (_ =? 0); reflexivity|].
  destruct (_ =? 0) eqn:E2.
  - destruct (b mod 8388608) eqn:E; try reflexivity. cbn [valid_binary].
    apply bounded_spec. lia.
  - destruct (b mod 8388608 + 8388608) eqn:E; try reflexivity. cbn [valid_binary].
    apply bounded_spec. lia.
Qed.

(** Magnitude of a pattern that is not a NaN. *)
Lemma key_of_bits b : is_u32 b -> f32_of_bits b <> S754_nan ->
  key (f32_of_bits b) = if 2147483648 <=? b then - (b - 2147483648) else b.
Proof.
  intros Hb Hn. unfold f32_of_bits, is_u32 in *.
  destruct ((b / 8388608) mod 256 =? 255) eqn:E1.
  - destruct (b mod 8388608 =? 0) eqn:E2; [|congruence]. cbn [key].
    destruct (2147483648 <=? b) eqn:S; lia.
  - destruct ((b / 8388608) mod 256 =? 0) eqn:E2.
    + destruct (b mod 8388608) eqn:E; try lia.
      * cbn [key]. destruct (2147483648 <=? b) eqn:S; lia.
      * cbn [key]. unfold magn. destruct (Z.pos p <? 8388608) eqn:L; [|lia].
        destruct (2147483648 <=? b) eqn:S; lia.
    + destruct (b mod 8388608 + 8388608) eqn:E; try lia.
      cbn [key]. unfold magn. destruct (Z.pos p <? 8388608) eqn:L; [lia|].
      destruct (2147483648 <=? b) eqn:S; lia.
Qed.

Lemma nan_bits b : is_u32 b ->
  f32_of_bits b = S754_nan <-> 2139095040 < b mod 2147483648.
Proof.
  intros Hb. unfold f32_of_bits, is_u32 in *.
  destruct (Z.eqb_spec ((b / 8388608) mod 256) 255) as [E1|E1].
  - destruct (Z.eqb_spec (b mod 8388608) 0) as [E2|E2]; split; intros; try discriminate; try reflexivity; lia.
  - destruct (Z.eqb_spec ((b / 8388608) mod 256) 0) as [E2|E2].
    + destruct (b mod 8388608) eqn:E; split; intros; try discriminate; lia.
    + destruct (b mod 8388608 + 8388608) eqn:E; split; intros; try discriminate; lia.
Qed.

Lemma finite_bits b : is_u32 b ->
  is_finite (f32_of_bits b) = true <-> b mod 2147483648 < 2139095040.
Proof.
  intros Hb. unfold f32_of_bits, is_u32 in *.
  destruct (Z.eqb_spec ((b / 8388608) mod 256) 255) as [E1|E1].
  - destruct (Z.eqb_spec (b mod 8388608) 0) as [E2|E2]; cbn; split; intros; try discriminate; lia.
  - destruct (Z.eqb_spec ((b / 8388608) mod 256) 0) as [E2|E2].
    + destruct (b mod 8388608) eqn:E; cbn; split; intros; try discriminate; try reflexivity; lia.
    + destruct (b mod 8388608 + 8388608) eqn:E; cbn; split; intros; try discriminate; try reflexivity; lia.
Qed.

Lemma bits_finite s m e :
  bits_of_f32 (S754_finite s m e) = (if s then 2147483648 else 0) + magn m e.
Proof. reflexivity. Qed.

Lemma bits_of_range f : f32_valid f = true -> is_u32 (bits_of_f32 f).
Proof.
  intros V. unfold is_u32. destruct f as [[]|[]| |s m e]; try (clear V; cbn [bits_of_f32]; lia).
  rewrite bits_finite.
  unfold f32_valid in V; cbn [valid_binary] in V. apply magn_pos in V.
  destruct s; lia.
Qed.

Lemma of_bits_of_f32 f : f32_valid f = true -> f32_of_bits (bits_of_f32 f) = f.
Proof.
  destruct f as [[]|[]| |s m e]; try reflexivity.
  intros V. unfold f32_valid in V; cbn [valid_binary] in V.
  pose proof (magn_pos _ _ V) as M. apply bounded_spec in V.
  rewrite bits_finite. unfold f32_of_bits.
  set (b := (if s then 2147483648 else 0) + magn m e).
  assert (S : (2147483648 <=? b) = s) by (unfold b; destruct s; lia).
  rewrite S.
  assert (Q : b mod 2147483648 = magn m e) by (unfold b; destruct s; lia).
  assert (Qe : (b / 8388608) mod 256 = (b mod 2147483648) / 8388608) by lia.
  assert (Qm : b mod 8388608 = (b mod 2147483648) mod 8388608) by lia.
  rewrite Qe, Qm, Q. unfold magn.
  destruct (Zpos m <? 8388608) eqn:L.
  - replace (Zpos m / 8388608) with 0 by lia. cbn [Z.eqb].
    replace (Zpos m mod 8388608) with (Zpos m) by lia. f_equal; lia.
  - replace (((e + 150) * 8388608 + (Z.pos m - 8388608)) / 8388608) with (e + 150) by lia.
    replace (((e + 150) * 8388608 + (Z.pos m - 8388608)) mod 8388608) with (Z.pos m - 8388608) by lia.
    destruct (Z.eqb_spec (e + 150) 255); [lia|]. destruct (Z.eqb_spec (e + 150) 0); [lia|].
    replace (Zpos m - 8388608 + 8388608) with (Zpos m) by lia. f_equal; lia.
Qed.

Lemma bits_of_of_bits b : is_u32 b -> f32_of_bits b <> S754_nan -> bits_of_f32 (f32_of_bits b) = b.
Proof.
  intros Hb Hn. unfold f32_of_bits, is_u32 in *.
  destruct ((b / 8388608) mod 256 =? 255) eqn:E1.
  - destruct (b mod 8388608 =? 0) eqn:E2; [|congruence]. cbn [bits_of_f32]; unfold magn.
    destruct (2147483648 <=? b) eqn:S; lia.
  - destruct ((b / 8388608) mod 256 =? 0) eqn:E2.
    + destruct (b mod 8388608) eqn:E; try lia; cbn [bits_of_f32]; unfold magn;
        destruct (2147483648 <=? b) eqn:S; try lia;
        (destruct (Z.pos p <? 8388608) eqn:L; lia).
    + destruct (b mod 8388608 + 8388608) eqn:E; try lia. cbn [bits_of_f32]; unfold magn.
      destruct (2147483648 <=? b) eqn:S; destruct (Z.pos p <? 8388608) eqn:L; lia.
Qed.
