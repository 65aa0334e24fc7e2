From Verif Require Import Base Float32 Float32_facts Float32_round Float32_val Atom_float_proofs Atom_model Utils_model Utils_proofs Op_model Op_spec.
Local Ltac Zify.zify_post_hook ::= Z.div_mod_to_equations.

(** ** Kinds *)
Definition is_num k := match k with KNum => true | _ => false end.
Definition is_tm k := match k with KTime => true | _ => false end.
Definition is_du k := match k with KDur => true | _ => false end.
Lemma descriptor_div a : is_u32 a -> getDescriptor a = a / 0x1000000.
Proof. unfold is_u32, getDescriptor, u8. intros H. rewrite Z.shiftr_div_pow2 by lia. change (2 ^ 24) with 16777216. lia. Qed.
Lemma isFloat_ltb a : is_u32 a -> isFloat a = (a <? 0x80000000).
Proof. unfold is_u32, isFloat. intros H. rewrite Z.shiftr_div_pow2 by lia. change (2 ^ 31) with 2147483648. lia. Qed.
Lemma tests a rest : is_u32 a ->
  isFloat a = is_num (kind_of (a :: rest)) /\ (isFloat a = false -> is_time a = is_tm (kind_of (a :: rest)) /\ is_dur a = is_du (kind_of (a :: rest))).
Proof.
  intros H. unfold kind_of, is_time, is_dur. rewrite isFloat_ltb, descriptor_div by assumption.
  destruct (a <? 0x80000000) eqn:E.
  { split; [reflexivity|discriminate]. }
  assert (R : 128 <= a / 0x1000000 < 256) by (unfold is_u32 in H; lia).
  generalize dependent (a / 0x1000000). intros d R.
  assert (X : d = 0xC7 \/ d = 0xD0 \/ d = 0x81 \/ (d <> 0xC7 /\ d <> 0xD0 /\ d <> 0x81)) by lia.
  destruct X as [->|[->|[->|(A & B & C)]]]; try (split; [reflexivity|split; reflexivity]).
  replace (match d with 199 => KTime | 208 => KDur | 129 => KBool | _ => KOther end) with KOther.
  2:{ destruct d as [|p|p]; try lia. do 8 (try (destruct p as [p|p|]; try lia)); reflexivity. }
  split; [reflexivity|]. intros _. unfold TIMESTAMP, DURATION. split; cbn [is_tm is_du]; lia.
Qed.
Lemma num_is a : is_u32 a -> isFloat a = true -> num a = f32_of_bits (2 * a) /\ f32_valid (num a) = true.
Proof.
  intros H F. rewrite isFloat_ltb in F by assumption.
  assert (E : asFloat a = 2 * a) by (unfold asFloat, u32; rewrite Z.shiftl_mul_pow2 by lia; change (2^1) with 2; unfold is_u32 in H; lia).
  unfold num. rewrite E. split; [reflexivity|]. apply of_bits_valid. unfold is_u32 in *. lia.
Qed.
Lemma num_not_time b : is_u32 b -> isFloat b = true -> is_time b = false /\ is_dur b = false.
Proof.
  intros H F. rewrite isFloat_ltb in F by assumption. unfold is_time, is_dur, TIMESTAMP, DURATION.
  rewrite descriptor_div by assumption. unfold is_u32 in H. split; lia.
Qed.
Lemma tests' a rest : is_u32 a ->
  isFloat a = is_num (kind_of (a :: rest)) /\ is_time a = is_tm (kind_of (a :: rest)) /\ is_dur a = is_du (kind_of (a :: rest)).
Proof.
  intros H. destruct (tests a rest H) as [A B]. destruct (isFloat a) eqn:F.
  - destruct (num_not_time a H F) as [C D]. rewrite C, D. destruct (kind_of (a :: rest)); cbn in *; try discriminate; auto.
  - destruct (B eq_refl). auto.
Qed.
Lemma flt_kind f : f32_valid f = true -> kind_of (store (flt_atom f)) = KNum /\ Forall is_u32 (store (flt_atom f)).
Proof.
  intros V. apply bits_of_range in V. unfold is_u32 in V. unfold flt_atom, store, kind_of.
  assert (R : 0 <= Float (bits_of_f32 f) < 0x80000000).
  { unfold Float, u32. rewrite Z.shiftr_div_pow2 by lia. change (2 ^ 1) with 2. lia. }
  destruct (Float (bits_of_f32 f) <? 0x80000000) eqn:E; [|lia].
  split; [reflexivity|]. constructor; [unfold is_u32; lia|constructor].
Qed.

(** ** Typing *)
Lemma abs_valid' f : f32_valid f = true -> f32_valid (SFabs f) = true.
Proof. rewrite abs_valid. auto. Qed.
Lemma fmin_valid x y : f32_valid x = true -> f32_valid y = true -> f32_valid (fmin x y) = true.
Proof. unfold fmin. destruct (flt y x); auto. Qed.
Lemma fmax_valid x y : f32_valid x = true -> f32_valid y = true -> f32_valid (fmax x y) = true.
Proof. unfold fmax. destruct (flt x y); auto. Qed.

Definition typed (o : binary) (k1 k2 : kind) (x : out) : Prop :=
  match x with
  | Some (true, v) => result_kind o k1 k2 = Some (kind_of (store v))
  | Some (false, v) => store v = [failure o]
  | None => True
  end.
Lemma typed_flt o k1 k2 f : result_kind o k1 k2 = Some KNum -> f32_valid f = true -> typed o k1 k2 (ok (flt_atom f)).
Proof. intros K V. unfold typed, ok. rewrite (proj1 (flt_kind f V)). exact K. Qed.
Lemma typed_inf o k1 k2 : result_kind o k1 k2 = Some KNum -> typed o k1 k2 (ok (Atomic PlusInfinity)).
Proof. intros K. exact K. Qed.
Lemma typed_minf o k1 k2 : result_kind o k1 k2 = Some KNum -> typed o k1 k2 (ok (Atomic MinusInfinity)).
Proof. intros K. exact K. Qed.
Lemma typed_bool o k1 k2 b : result_kind o k1 k2 = Some KBool -> typed o k1 k2 (bool_res b).
Proof. intros K. destruct b; exact K. Qed.
Lemma typed_time o k1 k2 x : result_kind o k1 k2 = Some KTime -> typed o k1 k2 (time_in x).
Proof. intros K. unfold time_in. destruct (in_i64 x); cbn; auto. Qed.
Lemma typed_dur o k1 k2 x : result_kind o k1 k2 = Some KDur -> typed o k1 k2 (dur_in x).
Proof. intros K. unfold dur_in. destruct (in_i64 x); cbn; auto. Qed.
Lemma typed_tres o k1 k2 x : result_kind o k1 k2 = Some KTime -> typed o k1 k2 (ok (TimeRes x)).
Proof. intros K. exact K. Qed.
Lemma typed_dres o k1 k2 x : result_kind o k1 k2 = Some KDur -> typed o k1 k2 (ok (DurRes x)).
Proof. intros K. exact K. Qed.
Lemma typed_with1 o k1 k2 x f : (forall v, typed o k1 k2 (f v)) -> typed o k1 k2 (with1 x f).
Proof. intros H. destruct x; cbn; auto. Qed.
Lemma typed_with2 o k1 k2 x y f : (forall v w, typed o k1 k2 (f v w)) -> typed o k1 k2 (with2 x y f).
Proof. intros H. apply typed_with1. intros v. apply typed_with1. intros w. apply H. Qed.
Lemma typed_nil o k1 k2 : is_comparison o = false -> typed o k1 k2 nil_.
Proof. intros H. unfold typed, nil_, failure. rewrite H. reflexivity. Qed.
Lemma typed_undef o k1 k2 : is_comparison o = true -> typed o k1 k2 undef.
Proof. intros H. unfold typed, undef, failure. rewrite H. reflexivity. Qed.

Local Ltac ty :=
  repeat first
    [ match goal with |- typed _ _ _ (if ?c then _ else _) => destruct c end
    | apply typed_with2; intros ? ?
    | apply typed_with1; intros ?
    | apply typed_nil; reflexivity
    | apply typed_undef; reflexivity
    | apply typed_bool; reflexivity
    | apply typed_time; reflexivity
    | apply typed_dur; reflexivity
    | apply typed_tres; reflexivity
    | apply typed_dres; reflexivity
    | apply typed_inf; reflexivity
    | apply typed_minf; reflexivity
    | apply typed_flt; [reflexivity|] ];
  auto using fadd_valid, fsub_valid, fmul_valid, fdiv_valid, of_Z_valid, abs_valid', fmin_valid, fmax_valid.

Lemma eval_typed o l r : Forall is_u32 l -> Forall is_u32 r -> typed o (kind_of l) (kind_of r) (eval o l r).
Proof.
  intros HL HR. destruct l as [|a l]; [destruct o; exact Logic.I|]. destruct r as [|b r]; [destruct o; exact Logic.I|].
  assert (Ha := Forall_inv HL). assert (Hb := Forall_inv HR).
  destruct (tests' a l Ha) as (A1 & A2 & A3), (tests' b r Hb) as (B1 & B2 & B3).
  assert (VA := fun F => proj2 (num_is a Ha F)). assert (VB := fun F => proj2 (num_is b Hb F)).
  rewrite A1 in VA. rewrite B1 in VB.
  assert (Z0 : f32_valid fzero = true) by reflexivity.
  clear HL HR Ha Hb.
  destruct o; unfold eval, gtr, lsr, gte, lse, compare_with, add, sub, mul, div, dis, minimum, maximum, heads;
    rewrite ?A1, ?B1, ?A2, ?B2, ?A3, ?B3; destruct (kind_of (a :: l)), (kind_of (b :: r)); cbn [is_num is_tm is_du andb] in *; cbv zeta;
    try specialize (VA eq_refl); try specialize (VB eq_refl); ty.
Qed.

Lemma eval_untyped o l r : Forall is_u32 l -> Forall is_u32 r -> l <> [] -> r <> [] -> result_kind o (kind_of l) (kind_of r) = None ->
  exists v, eval o l r = Some (false, v) /\ store v = [failure o].
Proof.
  intros HL HR NL NR K. destruct l as [|a l]; [congruence|]. destruct r as [|b r]; [congruence|].
  assert (Ha := Forall_inv HL). assert (Hb := Forall_inv HR).
  destruct (tests' a l Ha) as (A1 & A2 & A3), (tests' b r Hb) as (B1 & B2 & B3).
  exists (Atomic (failure o)). split; [|reflexivity].
  destruct o; unfold eval, gtr, lsr, gte, lse, compare_with, add, sub, mul, div, dis, minimum, maximum, heads;
    rewrite ?A1, ?B1, ?A2, ?B2, ?A3, ?B3; destruct (kind_of (a :: l)), (kind_of (b :: r)); cbn [is_num is_tm is_du andb] in *;
    first [discriminate K | reflexivity].
Qed.

