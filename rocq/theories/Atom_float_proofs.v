From Verif Require Import Base Atom_model Atom_spec Atom_proofs Float32 Float32_facts.

Lemma store_bits b : is_u32 b -> asFloat (Float b) = b - b mod 2.
Proof. unfold asFloat, Float, is_u32, u32. rewrite shl1, shr1. lia. Qed.

Lemma store_u32 b : is_u32 b -> is_u32 (asFloat (Float b)).
Proof. intros H. rewrite store_bits by assumption. unfold is_u32 in *. lia. Qed.

Lemma store_value b : is_u32 b -> is_finite (f32_of_bits b) = true ->
  f32_of_bits (asFloat (Float b)) = clear_low (f32_of_bits b).
Proof.
  intros Hb Hfin. rewrite store_bits by assumption. apply finite_bits in Hfin; [|assumption].
  unfold is_u32 in Hb. unfold f32_of_bits.
  assert (S : (2147483648 <=? b - b mod 2) = (2147483648 <=? b)) by lia. rewrite S.
  assert (E : (b - b mod 2) / 8388608 mod 256 = b / 8388608 mod 256) by lia. rewrite E.
  destruct (Z.eqb_spec (b / 8388608 mod 256) 255); [lia|].
  assert (M : (b - b mod 2) mod 8388608 = b mod 8388608 - (b mod 8388608) mod 2) by lia.
  rewrite M. destruct (Z.eqb_spec (b / 8388608 mod 256) 0).
  - destruct (b mod 8388608) as [|p|p] eqn:P; [reflexivity| |lia].
    cbn [clear_low]. destruct (Z.pos p - Z.pos p mod 2); reflexivity.
  - destruct (b mod 8388608 + 8388608) as [|p|p] eqn:P; try lia.
    cbn [clear_low].
    replace (b mod 8388608 - (b mod 8388608) mod 2 + 8388608) with (Zpos p - Zpos p mod 2) by lia.
    destruct (Zpos p - Zpos p mod 2) eqn:Q; try lia. reflexivity.
Qed.

Lemma finite_not_nan f : is_finite f = true -> f <> S754_nan.
Proof. destruct f; cbn; congruence. Qed.

Lemma store_finite b : is_u32 b -> is_finite (f32_of_bits b) = true ->
  is_finite (f32_of_bits (asFloat (Float b))) = true.
Proof.
  intros Hb Hf. rewrite store_value by assumption.
  destruct (f32_of_bits b); cbn [is_finite clear_low] in *; auto. destruct (_ - _); reflexivity.
Qed.

Lemma store_key b : is_u32 b -> is_finite (f32_of_bits b) = true ->
  key (f32_of_bits (asFloat (Float b))) =
  let k := key (f32_of_bits b) in if k <? 0 then - (- k - (- k) mod 2) else k - k mod 2.
Proof.
  intros Hb Hf. pose proof (store_finite b Hb Hf) as Hf'.
  rewrite !key_of_bits; auto using store_u32, finite_not_nan.
  rewrite store_bits by assumption. unfold is_u32 in Hb. cbn zeta.
  destruct (2147483648 <=? b) eqn:S; destruct (2147483648 <=? b - b mod 2) eqn:T;
    try lia; match goal with |- context [?k <? 0] => destruct (k <? 0) eqn:L end; lia.
Qed.

Lemma store_monotone b1 b2 : is_u32 b1 -> is_u32 b2 ->
  is_finite (f32_of_bits b1) = true -> is_finite (f32_of_bits b2) = true ->
  fle (f32_of_bits b1) (f32_of_bits b2) = true ->
  fle (f32_of_bits (asFloat (Float b1))) (f32_of_bits (asFloat (Float b2))) = true.
Proof.
  intros H1 H2 F1 F2 L.
  rewrite fle_key in *; auto using of_bits_valid, finite_not_nan, store_u32, store_finite.
  rewrite !store_key by assumption. cbn zeta.
  destruct (key (f32_of_bits b1) <? 0) eqn:?; destruct (key (f32_of_bits b2) <? 0) eqn:?; lia.
Qed.

Lemma abs_valid f : f32_valid (SFabs f) = f32_valid f.
Proof. destruct f; reflexivity. Qed.
Lemma abs_nan f : SFabs f = S754_nan -> f = S754_nan.
Proof. destruct f; cbn; congruence. Qed.
Lemma key_abs f : f32_valid f = true -> key (SFabs f) = Z.abs (key f).
Proof.
  intros V. destruct f as [[]|[]| |s m e]; try reflexivity. cbn [SFabs key].
  unfold f32_valid in V; cbn [valid_binary] in V. apply magn_pos in V. destruct s; lia.
Qed.

Lemma store_magnitude b : is_u32 b -> is_finite (f32_of_bits b) = true ->
  fle (SFabs (f32_of_bits (asFloat (Float b)))) (SFabs (f32_of_bits b)) = true.
Proof.
  intros H F.
  assert (N1 : SFabs (f32_of_bits (asFloat (Float b))) <> S754_nan).
  { intros C. exact (finite_not_nan _ (store_finite b H F) (abs_nan _ C)). }
  assert (N2 : SFabs (f32_of_bits b) <> S754_nan).
  { intros C. exact (finite_not_nan _ F (abs_nan _ C)). }
  rewrite fle_key; rewrite ?abs_valid; auto using of_bits_valid, store_u32.
  rewrite !key_abs; auto using of_bits_valid, store_u32.
  rewrite store_key by assumption. cbn zeta. destruct (key (f32_of_bits b) <? 0) eqn:?; lia.
Qed.

Lemma store_idem b : is_u32 b -> asFloat (Float (asFloat (Float b))) = asFloat (Float b).
Proof.
  intros H. rewrite (store_bits (asFloat (Float b))) by (apply store_u32, H).
  rewrite store_bits by assumption. lia.
Qed.
