From Verif Require Import Base Float32 Float32_facts Float32_round Float32_val Atom_float_proofs Atom_model Utils_model Utils_proofs Op_model Op_spec Op_typing.
Local Ltac Zify.zify_post_hook ::= Z.div_mod_to_equations.

(** ** Values *)
Lemma time_words hi lo : is_u32 hi -> is_u32 lo -> i64 (Z.lor (Z.shiftl hi 32) lo) = i64 (hi * 4294967296 + lo).
Proof. intros A B. rewrite lor_shift32 by (unfold is_u32 in B; lia). reflexivity. Qed.
Lemma denotes_count l v : denotes l v -> match v with Num _ => True | Time t | Dur t => count l = Some t /\ is_i64 t end.
Proof.
  intros [W D]. destruct v; [exact Logic.I| |]; destruct D as (_ & a & hi & lo & rest & -> & ->);
  assert (H1 := Forall_inv (Forall_inv_tail W)); assert (H2 := Forall_inv (Forall_inv_tail (Forall_inv_tail W)));
  unfold count, GetInt64, get; cbn [nth_error]; rewrite time_words by assumption; (split; [reflexivity|unfold is_i64, i64; lia]).
Qed.
Lemma denotes_head l v : denotes l v -> exists a rest, l = a :: rest /\
  isFloat a = match v with Num _ => true | _ => false end /\ is_time a = match v with Time _ => true | _ => false end /\
  is_dur a = match v with Dur _ => true | _ => false end /\
  match v with Num f => num a = f /\ f32_valid f = true | _ => True end.
Proof.
  intros [W D].
  destruct v; [destruct D as (K & a & rest & -> & ->)|destruct D as (K & a & hi & lo & rest & -> & ->)|destruct D as (K & a & hi & lo & rest & -> & ->)];
    assert (Ha := Forall_inv W); (match type of W with Forall _ (_ :: ?R) => destruct (tests' a R Ha) as (A1 & A2 & A3) end); rewrite K in *; cbn in A1, A2, A3;
    eexists; eexists; (split; [reflexivity|]); rewrite A1, A2, A3; repeat (split; [reflexivity|]); auto.
  destruct (num_is a Ha A1) as [E V]. rewrite <- E. auto.
Qed.
Lemma store_words t : is_i64 t ->
  is_u32 (Z.shiftr (u64 t) 32) /\ is_u32 (Z.land t 0xFFFFFFFF) /\ t = i64 (Z.shiftr (u64 t) 32 * 4294967296 + Z.land t 0xFFFFFFFF).
Proof.
  unfold is_i64, is_u32, u64, i64. intros H. change 0xFFFFFFFF with (Z.ones 32). rewrite Z.land_ones by lia. rewrite Z.shiftr_div_pow2 by lia.
  change (2 ^ 32) with 4294967296. lia.
Qed.
Lemma store_time t : is_i64 t -> denotes (store (TimeRes t)) (Time t).
Proof.
  intros H. destruct (store_words t H) as (A & B & C). split.
  - apply Forall_cons; [unfold is_u32; split; [discriminate|reflexivity]|]. apply Forall_cons; [exact A|]. apply Forall_cons; [exact B|]. apply Forall_nil.
  - split; [reflexivity|]. do 4 eexists. split; [reflexivity|exact C].
Qed.
Lemma store_dur t : is_i64 t -> denotes (store (DurRes t)) (Dur t).
Proof.
  intros H. destruct (store_words t H) as (A & B & C). split.
  - apply Forall_cons; [unfold is_u32; split; [discriminate|reflexivity]|]. apply Forall_cons; [exact A|]. apply Forall_cons; [exact B|]. apply Forall_nil.
  - split; [reflexivity|]. do 4 eexists. split; [reflexivity|exact C].
Qed.
Lemma store_flt f : f32_valid f = true -> denotes (store (flt_atom f)) (Num (stored f)).
Proof.
  intros V. destruct (flt_kind f V) as [K W]. split; [exact W|]. split; [exact K|]. do 2 eexists. split; [reflexivity|].
  apply bits_of_range in V. unfold is_u32 in V. unfold stored. f_equal. unfold Float, u32. rewrite Z.shiftr_div_pow2 by lia. change (2 ^ 1) with 2. lia.
Qed.
Lemma in_i64_some x : is_i64 x -> in_i64 x = Some x.
Proof. unfold is_i64, in_i64. intros H. replace ((-9223372036854775808 <=? x) && (x <? 9223372036854775808)) with true by lia. reflexivity. Qed.
Lemma in_i64_inv x v : in_i64 x = Some v -> x = v /\ is_i64 v.
Proof. unfold in_i64, is_i64. destruct (_ && _) eqn:E; intros H; inversion H; subst. lia. Qed.
Lemma gives_time x : is_i64 x -> gives (time_in x) (Time x).
Proof. intros H. unfold time_in. rewrite in_i64_some by assumption. eexists. split; [reflexivity|apply store_time; assumption]. Qed.
Lemma gives_dur x : is_i64 x -> gives (dur_in x) (Dur x).
Proof. intros H. unfold dur_in. rewrite in_i64_some by assumption. eexists. split; [reflexivity|apply store_dur; assumption]. Qed.
Lemma gives_flt f : f32_valid f = true -> gives (ok (flt_atom f)) (Num (stored f)).
Proof. intros V. eexists. split; [reflexivity|apply store_flt; assumption]. Qed.
Lemma bool_true b : is_true (bool_res b) <-> b = true.
Proof.
  split; [intros (r & E & S0); destruct b; [reflexivity|]|intros ->; eexists; split; reflexivity].
  unfold bool_res, ok in E. inversion E; subst r. discriminate S0.
Qed.
Lemma bool_false b : is_false (bool_res b) <-> b = false.
Proof.
  split; [intros (r & E & S0); destruct b; [|reflexivity]|intros ->; eexists; split; reflexivity].
  unfold bool_res, ok in E. inversion E; subst r. discriminate S0.
Qed.

Local Ltac ops := unfold eval, gtr, lsr, gte, lse, compare_with, add, sub, mul, div, dis, minimum, maximum, heads.
Local Ltac both A B :=
  let a := fresh "a" in let b := fresh "b" in
  destruct (denotes_head _ _ A) as (a & ? & -> & ? & ? & ? & ?); destruct (denotes_head _ _ B) as (b & ? & -> & ? & ? & ? & ?);
  generalize (denotes_count _ _ A) (denotes_count _ _ B); cbv iota; intros ? ?;
  repeat match goal with
  | H : isFloat _ = _ |- _ => rewrite ?H; clear H
  | H : is_time _ = _ |- _ => rewrite ?H; clear H
  | H : is_dur _ = _ |- _ => rewrite ?H; clear H
  | H : _ /\ is_i64 _ |- _ => destruct H as [-> ?]
  end; cbn [andb with2 with1 negb].

Lemma times_ok l r s t : denotes l (Time s) -> denotes r (Time t) ->
  (is_true (eval Lsr l r) <-> s < t) /\ (is_false (eval Lsr l r) <-> ~ s < t) /\
  (is_true (eval Gtr l r) <-> s > t) /\ (is_false (eval Gtr l r) <-> ~ s > t) /\
  (is_true (eval Lse l r) <-> s <= t) /\ (is_false (eval Lse l r) <-> ~ s <= t) /\
  (is_true (eval Gte l r) <-> s >= t) /\ (is_false (eval Gte l r) <-> ~ s >= t) /\
  gives (eval Min l r) (Time (Z.min s t)) /\ gives (eval Max l r) (Time (Z.max s t)) /\
  (is_i64 (s - t) -> gives (eval Sub l r) (Dur (s - t))) /\
  (is_i64 (s - t) -> is_i64 (t - s) -> gives (eval Dis l r) (Dur (Z.abs (s - t)))).
Proof.
  intros A B. ops. both A B. rewrite !bool_true, !bool_false.
  do 8 (split; [lia|]).
  split; [|split; [|split]].
  - eexists. split; [reflexivity|]. replace (if t <? s then t else s) with (Z.min s t) by (destruct (t <? s) eqn:?; lia). apply store_time. unfold is_i64 in *; lia.
  - eexists. split; [reflexivity|]. replace (if s <? t then t else s) with (Z.max s t) by (destruct (s <? t) eqn:?; lia). apply store_time. unfold is_i64 in *; lia.
  - apply gives_dur.
  - intros I1 I2. rewrite in_i64_some by assumption. cbn [with1]. apply gives_dur. unfold is_i64 in *; lia.
Qed.
Lemma durations_ok l r s t : denotes l (Dur s) -> denotes r (Dur t) ->
  (is_true (eval Lsr l r) <-> s < t) /\ (is_false (eval Lsr l r) <-> ~ s < t) /\
  (is_true (eval Gtr l r) <-> s > t) /\ (is_false (eval Gtr l r) <-> ~ s > t) /\
  (is_true (eval Lse l r) <-> s <= t) /\ (is_false (eval Lse l r) <-> ~ s <= t) /\
  (is_true (eval Gte l r) <-> s >= t) /\ (is_false (eval Gte l r) <-> ~ s >= t) /\
  gives (eval Min l r) (Dur (Z.min s t)) /\ gives (eval Max l r) (Dur (Z.max s t)) /\
  (is_i64 (s + t) -> gives (eval Add l r) (Dur (s + t))) /\
  (is_i64 (s - t) -> gives (eval Sub l r) (Dur (s - t))) /\
  (is_i64 (s - t) -> is_i64 (t - s) -> gives (eval Dis l r) (Dur (Z.abs (s - t)))).
Proof.
  intros A B. ops. both A B. rewrite !bool_true, !bool_false.
  do 8 (split; [lia|]).
  split; [|split; [|split; [|split]]].
  - eexists. split; [reflexivity|]. replace (if t <? s then t else s) with (Z.min s t) by (destruct (t <? s) eqn:?; lia). apply store_dur. unfold is_i64 in *; lia.
  - eexists. split; [reflexivity|]. replace (if s <? t then t else s) with (Z.max s t) by (destruct (s <? t) eqn:?; lia). apply store_dur. unfold is_i64 in *; lia.
  - apply gives_dur.
  - apply gives_dur.
  - intros I1 I2. rewrite in_i64_some by assumption. cbn [with1]. apply gives_dur. unfold is_i64 in *; lia.
Qed.
Lemma time_duration_ok l r t d : denotes l (Time t) -> denotes r (Dur d) ->
  (is_i64 (t + d) -> gives (eval Add l r) (Time (t + d)) /\ gives (eval Add r l) (Time (t + d))) /\
  (is_i64 (t - d) -> gives (eval Sub l r) (Time (t - d))).
Proof.
  intros A B. ops. both A B. split; [|apply gives_time]. intros I1. split; [apply gives_time; exact I1|].
  rewrite (Z.add_comm d t). apply gives_time. exact I1.
Qed.
(** A duration added to a time and subtracted again. *)
Lemma add_sub l r t d : denotes l (Time t) -> denotes r (Dur d) -> is_i64 (t + d) ->
  exists s, eval Add l r = Some (true, s) /\ gives (eval Sub (store s) r) (Time t).
Proof.
  intros A B I1. destruct (proj1 (time_duration_ok l r t d A B) I1) as [(s & E & D) _]. exists s. split; [exact E|].
  destruct (time_duration_ok _ _ _ _ D B) as [_ K]. replace (t + d - d) with t in K by lia. apply K.
  exact (proj2 (denotes_count _ _ A)).
Qed.
Lemma sub_add l r s t : denotes l (Time s) -> denotes r (Time t) -> is_i64 (s - t) ->
  exists d, eval Sub l r = Some (true, d) /\ gives (eval Add r (store d)) (Time s).
Proof.
  intros A B I1. destruct (times_ok l r s t A B) as (_ & _ & _ & _ & _ & _ & _ & _ & _ & _ & K & _).
  destruct (K I1) as (d & E & D). exists d. split; [exact E|].
  destruct (time_duration_ok _ _ _ _ B D) as [K2 _]. replace (t + (s - t)) with s in K2 by lia. apply K2.
  exact (proj2 (denotes_count _ _ A)).
Qed.

(** ** Numbers *)
Lemma atom_inf a : is_u32 a -> isFloat a = true -> (a = PlusInfinity <-> num a = S754_infinity false).
Proof.
  intros H F. split; [intros ->; reflexivity|]. intros E. destruct (num_is a H F) as [N V]. rewrite N in E.
  rewrite isFloat_ltb in F by assumption.
  assert (B : bits_of_f32 (f32_of_bits (2 * a)) = 2 * a) by (apply bits_of_of_bits; [unfold is_u32 in *; lia|rewrite E; discriminate]).
  rewrite E in B. change (2139095040 = 2 * a) in B. unfold PlusInfinity. lia.
Qed.
Lemma finite_no_inf a : is_finite (num a) = true -> (a =? PlusInfinity) = false.
Proof. intros F. destruct (a =? PlusInfinity) eqn:E; [|reflexivity]. replace a with PlusInfinity in F by lia. discriminate F. Qed.
Lemma compare_numbers l r x y : denotes l (Num x) -> denotes r (Num y) -> is_number x -> is_number y ->
  (is_true (eval Lsr l r) <-> val x < val y) /\ (is_false (eval Lsr l r) <-> ~ val x < val y) /\
  (is_true (eval Gtr l r) <-> val x > val y) /\ (is_false (eval Gtr l r) <-> ~ val x > val y) /\
  (is_true (eval Lse l r) <-> val x <= val y) /\ (is_false (eval Lse l r) <-> ~ val x <= val y) /\
  (is_true (eval Gte l r) <-> val x >= val y) /\ (is_false (eval Gte l r) <-> ~ val x >= val y).
Proof.
  intros A B NX NY. ops. both A B. rewrite !bool_true, !bool_false.
  match goal with H : num ?a = x /\ _, H' : num ?b = y /\ _ |- _ => destruct H as [-> VX], H' as [-> VY] end.
  assert (L1 := flt_val x y VX VY NX NY). assert (L2 := flt_val y x VY VX NY NX).
  assert (L3 := fle_val x y VX VY NX NY). assert (L4 := fle_val y x VY VX NY NX).
  clear - L1 L2 L3 L4. generalize dependent (val x). generalize dependent (val y). intros vy vx L1 L2 L3 L4.
  destruct (flt x y), (flt y x), (fle x y), (fle y x); lia.
Qed.
Lemma val_opp x : val (SFopp x) = - val x.
Proof. destruct x as [[]|[]| |[] m e]; unfold val; cbn [SFopp sign_of negb mg]; lia. Qed.
Lemma opp_valid x : f32_valid (SFopp x) = f32_valid x.
Proof. destruct x; reflexivity. Qed.
Lemma fdiv_opp x y : fdiv (SFopp x) (SFopp y) = fdiv x y.
Proof. destruct x as [[]|[]| |[] m e], y as [[]|[]| |[] n f]; reflexivity. Qed.
Lemma fdiv_rounded' x y : f32_valid x = true -> f32_valid y = true -> is_finite x = true -> is_finite y = true -> val y <> 0 ->
  rounded (Z.sgn (val y) * val x * unit_val) (Z.abs (val y)) (fdiv x y).
Proof.
  intros VX VY FX FY NZ. destruct (Z.lt_trichotomy (val y) 0) as [L|[L|L]]; [|contradiction|].
  - rewrite <- fdiv_opp. rewrite <- opp_valid in VX, VY.
    replace (Z.sgn (val y) * val x * unit_val) with (val (SFopp x) * unit_val) by (rewrite val_opp, (Z.sgn_neg _ L); lia).
    replace (Z.abs (val y)) with (val (SFopp y)) by (rewrite val_opp; lia).
    apply fdiv_rounded; auto; try (destruct x; auto; fail); try (destruct y; auto; fail). rewrite val_opp. lia.
  - rewrite (Z.sgn_pos _ L), (Z.abs_eq (val y)) by lia. rewrite Z.mul_1_l. apply fdiv_rounded; auto.
Qed.
Lemma finite_val0 y : f32_valid y = true -> is_finite y = true -> (val y <> 0 <-> feqb y fzero = false).
Proof.
  intros V F. assert (N : y <> S754_nan) by (destruct y; discriminate).
  assert (K := feqb_val y fzero V eq_refl N ltac:(discriminate)). rewrite val_fzero in K. destruct (feqb y fzero); split; intros; try congruence; intuition congruence.
Qed.
Lemma numbers_ok l r x y : denotes l (Num x) -> denotes r (Num y) -> is_finite x = true -> is_finite y = true ->
  (exists z, rounded (val x + val y) 1 z /\ gives (eval Add l r) (Num (stored z))) /\
  (exists z, rounded (val x - val y) 1 z /\ gives (eval Sub l r) (Num (stored z))) /\
  (exists z, rounded (val x * val y) unit_val z /\ gives (eval Mul l r) (Num (stored z))) /\
  (val y <> 0 -> exists z, rounded (Z.sgn (val y) * val x * unit_val) (Z.abs (val y)) z /\ gives (eval Div l r) (Num (stored z))) /\
  (val y = 0 -> exists v, eval Div l r = Some (false, v) /\ store v = [0x80000000]).
Proof.
  intros A B FX FY. ops. both A B.
  match goal with H : num ?a = x /\ _, H' : num ?b = y /\ _ |- _ => destruct H as [EX VX], H' as [EY VY];
    assert (IA := finite_no_inf a); assert (IB := finite_no_inf b) end.
  rewrite EX in IA. rewrite EY in IB. rewrite (IA FX), (IB FY), EX, EY. cbv zeta.
  split; [|split; [|split; [|split]]].
  - eexists. split; [apply fadd_rounded; auto|apply gives_flt, fadd_valid; auto].
  - eexists. split; [apply fsub_rounded; auto|apply gives_flt, fsub_valid; auto].
  - eexists. split; [apply fmul_rounded; auto|apply gives_flt, fmul_valid; auto].
  - intros NZ. eexists. split; [apply fdiv_rounded'; auto|]. apply finite_val0 in NZ; auto. rewrite NZ. cbn [negb].
    apply gives_flt, fdiv_valid; auto.
  - intros Z0. assert (E : feqb y fzero = true).
    { destruct (feqb y fzero) eqn:E; [reflexivity|]. apply (proj2 (finite_val0 y VY FY)) in E. contradiction. }
    rewrite E. cbn [negb]. eexists. split; reflexivity.
Qed.

Lemma quot_opp a b : b <> 0 -> Z.quot (- a) b = - Z.quot a b.
Proof. intros. apply Z.quot_opp_l. assumption. Qed.
Lemma trunc64_ok f : f32_valid f = true -> is_finite f = true -> is_i64 (int_part f) -> trunc64 f = Some (int_part f).
Proof.
  intros V F R. destruct f as [s|s| |s m e]; try discriminate; [destruct s; reflexivity|].
  unfold int_part in *. rewrite val_finite in *. assert (X := valid_exp _ _ _ V).
  assert (Q : Z.quot (sc (Zpos m) e) (2 ^ 1000) = if 0 <=? e then Zpos m * 2 ^ e else Zpos m / 2 ^ (- e)).
  { unfold sc. destruct (0 <=? e) eqn:E.
    - apply Z.leb_le in E. rewrite Z.pow_add_r, Z.mul_assoc by lia. apply Z.quot_mul. apply Z.pow_nonzero; lia.
    - apply Z.leb_gt in E. rewrite Z.quot_div_nonneg; [|apply Z.mul_nonneg_nonneg; [lia|apply Z.pow_nonneg; lia]|apply Z.pow_pos_nonneg; lia].
      replace (2 ^ 1000) with (2 ^ (- e) * 2 ^ (e + 1000)) by (rewrite <- Z.pow_add_r by lia; f_equal; lia).
      rewrite Z.div_mul_cancel_r; [reflexivity|apply Z.pow_nonzero; lia|apply Z.pow_nonzero; lia]. }
  unfold trunc64. rewrite <- Q.
  replace (if s then - Z.quot (sc (Zpos m) e) (2 ^ 1000) else Z.quot (sc (Zpos m) e) (2 ^ 1000)) with (Z.quot (cond_Zopp s (sc (Zpos m) e)) (2 ^ 1000)).
  - apply in_i64_some. exact R.
  - destruct s; cbn [cond_Zopp]; [|reflexivity]. apply quot_opp. apply Z.pow_nonzero; lia.
Qed.
Lemma time_number_ok l r t x : denotes l (Time t) -> denotes r (Num x) -> is_finite x = true -> is_i64 (int_part x) ->
  (is_i64 (t + int_part x) -> gives (eval Add l r) (Time (t + int_part x)) /\ gives (eval Add r l) (Time (t + int_part x))) /\
  (is_i64 (t - int_part x) -> gives (eval Sub l r) (Time (t - int_part x))).
Proof.
  intros A B FX IX. ops. both A B.
  match goal with H : num ?b = x /\ _ |- _ => destruct H as [EX VX]; assert (IB := finite_no_inf b) end.
  rewrite EX in *. rewrite (IB FX). cbn [negb]. rewrite (trunc64_ok x VX FX IX). cbn [with1 with2].
  split; [intros K; split; apply gives_time; exact K|apply gives_time].
Qed.
Lemma duration_number_ok l r t x : denotes l (Dur t) -> denotes r (Num x) -> is_finite x = true -> is_i64 (int_part x) ->
  (is_i64 (t + int_part x) -> gives (eval Add l r) (Dur (t + int_part x)) /\ gives (eval Add r l) (Dur (t + int_part x))) /\
  (is_i64 (t - int_part x) -> gives (eval Sub l r) (Dur (t - int_part x))).
Proof.
  intros A B FX IX. ops. both A B.
  match goal with H : num ?b = x /\ _ |- _ => destruct H as [EX VX]; assert (IB := finite_no_inf b) end.
  rewrite EX in *. rewrite (IB FX). cbn [negb]. rewrite (trunc64_ok x VX FX IX). cbn [with1 with2].
  split; [intros K; split; apply gives_dur; exact K|apply gives_dur].
Qed.

(** ** Symmetries *)
Lemma fadd_comm x y : fadd x y = fadd y x.
Proof.
  destruct x as [a|a| |a m e], y as [b|b| |b n f]; unfold fadd; cbn [SFadd]; try reflexivity.
  - destruct a, b; reflexivity.
  - destruct a, b; reflexivity.
  - rewrite (Z.min_comm f e). rewrite Z.add_comm. reflexivity.
Qed.
Lemma fmul_comm x y : fmul x y = fmul y x.
Proof.
  destruct x as [a|a| |a m e], y as [b|b| |b n f]; unfold fmul; cbn [SFmul]; rewrite ?(xorb_comm a b); try reflexivity.
  rewrite Pos.mul_comm, Z.add_comm. reflexivity.
Qed.
Lemma round_aux_abs s t m e l : SFabs (binary_round_aux prec emax s m e l) = SFabs (binary_round_aux prec emax t m e l).
Proof.
  unfold binary_round_aux. destruct (shr_fexp _ _ _ _ _) as [r1 e1]. destruct (shr_fexp _ _ _ _ _) as [r2 e2].
  destruct (shr_m r2); try reflexivity. destruct (e2 <=? _); reflexivity.
Qed.
Lemma normalize_opp_abs m e s t : SFabs (binary_normalize prec emax m e s) = SFabs (binary_normalize prec emax (- m) e t).
Proof.
  destruct m; cbn [Z.opp binary_normalize]; try reflexivity; unfold binary_round; destruct (shl_align _ _ _); apply round_aux_abs.
Qed.
Lemma fsub_abs x y : SFabs (fsub x y) = SFabs (fsub y x).
Proof.
  destruct x as [a|a| |a m e], y as [b|b| |b n f]; unfold fsub; cbn [SFsub]; try reflexivity.
  - destruct a, b; reflexivity.
  - destruct a, b; reflexivity.
  - rewrite (Z.min_comm f e).
    match goal with |- SFabs (binary_normalize _ _ ?u _ _) = SFabs (binary_normalize _ _ ?v _ _) => replace v with (- u) by ring end.
    apply normalize_opp_abs.
Qed.
Lemma with2_comm x y f g : (forall a b, f a b = g b a) -> with2 x y f = with2 y x g.
Proof. intros H. destruct x, y; cbn; auto. Qed.
Local Ltac comm := 
  repeat first [reflexivity | apply with2_comm; intros | match goal with |- context [if ?c then _ else _] => destruct c end].
Local Ltac kinds HL HR :=
  match type of HL with Forall _ (?a :: ?l) =>
  match type of HR with Forall _ (?b :: ?r) =>
    let A1 := fresh in let A2 := fresh in let A3 := fresh in let B1 := fresh in let B2 := fresh in let B3 := fresh in
    destruct (tests' a l (Forall_inv HL)) as (A1 & A2 & A3); destruct (tests' b r (Forall_inv HR)) as (B1 & B2 & B3);
    ops; rewrite ?A1, ?B1, ?A2, ?B2, ?A3, ?B3; destruct (kind_of (a :: l)), (kind_of (b :: r)); cbn [is_num is_tm is_du andb]
  end end.
Lemma gtr_lsr l r : Forall is_u32 l -> Forall is_u32 r -> eval Gtr l r = eval Lsr r l.
Proof.
  intros HL HR. destruct l as [|a l]; [destruct r; reflexivity|]. destruct r as [|b r]; [reflexivity|]. kinds HL HR; try reflexivity;
  apply with2_comm; intros; rewrite Z.gtb_ltb; reflexivity.
Qed.
Lemma gte_lse l r : Forall is_u32 l -> Forall is_u32 r -> eval Gte l r = eval Lse r l.
Proof.
  intros HL HR. destruct l as [|a l]; [destruct r; reflexivity|]. destruct r as [|b r]; [reflexivity|]. kinds HL HR; try reflexivity;
  apply with2_comm; intros; rewrite Z.geb_leb; reflexivity.
Qed.
Lemma add_comm l r : Forall is_u32 l -> Forall is_u32 r -> eval Add l r = eval Add r l.
Proof.
  intros HL HR. destruct l as [|a l]; [destruct r; reflexivity|]. destruct r as [|b r]; [reflexivity|]. kinds HL HR; try reflexivity;
    try (destruct (a =? PlusInfinity), (b =? PlusInfinity); cbn [negb]; try reflexivity); rewrite ?(fadd_comm (num a)); try reflexivity;
    apply with2_comm; intros; rewrite Z.add_comm; reflexivity.
Qed.
Lemma dis_comm l r : Forall is_u32 l -> Forall is_u32 r -> eval Dis l r = eval Dis r l.
Proof.
  assert (K : forall x y, with1 (in_i64 (x - y)) (fun z => dur_in (Z.abs z)) = with1 (in_i64 (y - x)) (fun z => dur_in (Z.abs z))).
  { intros x y. unfold dur_in, in_i64.
    destruct ((-9223372036854775808 <=? x - y) && (x - y <? 9223372036854775808)) eqn:E1, ((-9223372036854775808 <=? y - x) && (y - x <? 9223372036854775808)) eqn:E2; cbn [with1].
    - replace (Z.abs (x - y)) with (Z.abs (y - x)) by lia. reflexivity.
    - replace (_ && _) with false by lia. reflexivity.
    - replace ((-9223372036854775808 <=? Z.abs (y - x)) && _) with false by lia. reflexivity.
    - reflexivity. }
  intros HL HR. destruct l as [|a l]; [destruct r; reflexivity|]. destruct r as [|b r]; [reflexivity|]. kinds HL HR; try reflexivity.
  - rewrite fsub_abs. reflexivity.
  - apply with2_comm. intros. apply K.
  - apply with2_comm. intros. apply K.
Qed.
Lemma mul_comm l r : Forall is_u32 l -> Forall is_u32 r -> kind_of l = kind_of r -> eval Mul l r = eval Mul r l.
Proof.
  intros HL HR E. destruct l as [|a l]; [destruct r; reflexivity|]. destruct r as [|b r]; [reflexivity|]. revert E.
  destruct (a =? PlusInfinity) eqn:Ia; destruct (b =? PlusInfinity) eqn:Ib;
  kinds HL HR; intros E; try discriminate E; try reflexivity; rewrite ?Ia, ?Ib; cbv zeta; try reflexivity; rewrite ?(fmul_comm (num b)); try reflexivity.
  all: apply with2_comm; intros; rewrite fmul_comm; reflexivity.
Qed.

(** ** Minimum and maximum of numbers *)
Lemma stored_atom a : is_u32 a -> isFloat a = true -> num a <> S754_nan -> stored (num a) = num a.
Proof.
  intros H F N. destruct (num_is a H F) as [E V]. rewrite E in *. rewrite isFloat_ltb in F by assumption.
  unfold stored. rewrite bits_of_of_bits by (auto; unfold is_u32 in *; lia). f_equal. lia.
Qed.
Lemma denotes_atom l x : denotes l (Num x) -> exists a rest, l = a :: rest /\ is_u32 a /\ isFloat a = true /\ num a = x /\ f32_valid x = true.
Proof.
  intros D. destruct (denotes_head _ _ D) as (a & rest & -> & F & _ & _ & E & V). exists a, rest. destruct D as [W _].
  repeat (split; auto). exact (proj1 (Forall_inv W)). exact (proj2 (Forall_inv W)).
Qed.
Lemma gives_number x : f32_valid x = true -> stored x = x -> gives (ok (flt_atom x)) (Num x).
Proof. intros V E. rewrite <- E at 2. apply gives_flt. exact V. Qed.
Lemma val_le_inf x : f32_valid x = true -> - sc 8388608 105 <= val x <= sc 8388608 105.
Proof.
  intros V. destruct x as [s|s| |s m e].
  - destruct s; unfold val; cbn [sign_of mg]; unfold sc; lia.
  - destruct s; unfold val; cbn [sign_of mg]; assert (0 < sc 8388608 105) by (apply sc_pos; lia); lia.
  - unfold val; cbn [sign_of mg]. assert (0 < sc 8388608 105) by (apply sc_pos; lia); lia.
  - assert (K := mg_lt_inf _ _ _ V). rewrite val_finite. destruct s; cbn [cond_Zopp]; lia.
Qed.
Lemma val_inf s : val (S754_infinity s) = if s then - sc 8388608 105 else sc 8388608 105.
Proof. reflexivity. Qed.
Lemma minimum_ok l r x y : denotes l (Num x) -> denotes r (Num y) -> is_number x -> is_number y ->
  exists z, gives (eval Min l r) (Num z) /\ (z = x \/ z = y) /\ val z <= val x /\ val z <= val y.
Proof.
  intros A B NX NY. destruct (denotes_atom _ _ A) as (a & l' & -> & Ua & Fa & Ea & Va). destruct (denotes_atom _ _ B) as (b & r' & -> & Ub & Fb & Eb & Vb).
  ops. rewrite Fa, Fb. cbn [andb].
  assert (SA : stored x = x) by (rewrite <- Ea; apply stored_atom; auto; rewrite Ea; exact NX).
  assert (SB : stored y = y) by (rewrite <- Eb; apply stored_atom; auto; rewrite Eb; exact NY).
  assert (LX := val_le_inf x Va). assert (LY := val_le_inf y Vb).
  destruct (a =? MinusInfinity) eqn:E1; [|destruct (b =? MinusInfinity) eqn:E2]; cbn [orb].
  - replace a with MinusInfinity in * by lia. change (num MinusInfinity) with (S754_infinity true) in Ea. subst x.
    exists (S754_infinity true). rewrite val_inf in *. split; [exact (gives_number (S754_infinity true) eq_refl eq_refl)|]. split; [auto|lia].
  - replace b with MinusInfinity in * by lia. change (num MinusInfinity) with (S754_infinity true) in Eb. subst y.
    exists (S754_infinity true). rewrite val_inf in *. split; [exact (gives_number (S754_infinity true) eq_refl eq_refl)|]. split; [auto|lia].
  - rewrite Ea, Eb. destruct (a =? PlusInfinity) eqn:E3; [|destruct (b =? PlusInfinity) eqn:E4].
    + replace a with PlusInfinity in * by lia. change (num PlusInfinity) with (S754_infinity false) in Ea. subst x.
      exists y. rewrite val_inf in *. split; [apply gives_number; auto|]. split; [auto|lia].
    + replace b with PlusInfinity in * by lia. change (num PlusInfinity) with (S754_infinity false) in Eb. subst y.
      exists x. rewrite val_inf in *. split; [apply gives_number; auto|]. split; [auto|lia].
    + assert (K := flt_val y x Vb Va NY NX). unfold fmin. destruct (flt y x).
      * exists y. split; [apply gives_number; auto|]. split; [auto|]. destruct K as [K _]. specialize (K eq_refl). lia.
      * exists x. split; [apply gives_number; auto|]. split; [auto|]. split; [lia|]. destruct (Z.le_gt_cases (val x) (val y)); [assumption|].
        destruct K as [_ K]. discriminate K. lia.
Qed.
Lemma maximum_ok l r x y : denotes l (Num x) -> denotes r (Num y) -> is_number x -> is_number y ->
  exists z, gives (eval Max l r) (Num z) /\ (z = x \/ z = y) /\ val x <= val z /\ val y <= val z.
Proof.
  intros A B NX NY. destruct (denotes_atom _ _ A) as (a & l' & -> & Ua & Fa & Ea & Va). destruct (denotes_atom _ _ B) as (b & r' & -> & Ub & Fb & Eb & Vb).
  ops. rewrite Fa, Fb. cbn [andb].
  assert (SA : stored x = x) by (rewrite <- Ea; apply stored_atom; auto; rewrite Ea; exact NX).
  assert (SB : stored y = y) by (rewrite <- Eb; apply stored_atom; auto; rewrite Eb; exact NY).
  assert (LX := val_le_inf x Va). assert (LY := val_le_inf y Vb).
  destruct (a =? PlusInfinity) eqn:E1; [|destruct (b =? PlusInfinity) eqn:E2]; cbn [orb].
  - replace a with PlusInfinity in * by lia. change (num PlusInfinity) with (S754_infinity false) in Ea. subst x.
    exists (S754_infinity false). rewrite val_inf in *. split; [exact (gives_number (S754_infinity false) eq_refl eq_refl)|]. split; [auto|lia].
  - replace b with PlusInfinity in * by lia. change (num PlusInfinity) with (S754_infinity false) in Eb. subst y.
    exists (S754_infinity false). rewrite val_inf in *. split; [exact (gives_number (S754_infinity false) eq_refl eq_refl)|]. split; [auto|lia].
  - rewrite Ea, Eb. destruct (a =? MinusInfinity) eqn:E3; [|destruct (b =? MinusInfinity) eqn:E4].
    + replace a with MinusInfinity in * by lia. change (num MinusInfinity) with (S754_infinity true) in Ea. subst x.
      exists y. rewrite val_inf in *. split; [apply gives_number; auto|]. split; [auto|lia].
    + replace b with MinusInfinity in * by lia. change (num MinusInfinity) with (S754_infinity true) in Eb. subst y.
      exists x. rewrite val_inf in *. split; [apply gives_number; auto|]. split; [auto|lia].
    + assert (K := flt_val x y Va Vb NX NY). unfold fmax. destruct (flt x y).
      * exists y. split; [apply gives_number; auto|]. split; [auto|]. destruct K as [K _]. specialize (K eq_refl). lia.
      * exists x. split; [apply gives_number; auto|]. split; [auto|]. split; [lia|]. destruct (Z.le_gt_cases (val y) (val x)); [assumption|].
        destruct K as [_ K]. discriminate K. lia.
Qed.

(** ** Direct evaluation *)
Lemma direct_comparison o q0 q1 : is_u32 q0 -> is_u32 q1 -> isFloat q0 = true -> isFloat q1 = true -> is_comparison o = true -> direct o q0 q1 = by_operator o q0 q1.
Proof. intros H0 H1 F0 F1 C. unfold direct, by_operator. destruct o; try discriminate C; ops; rewrite F0, F1; reflexivity. Qed.
Lemma feqb0 f : f32_valid f = true -> feqb f fzero = true -> val f = 0.
Proof.
  intros V E. destruct f as [s|s| |s m e].
  - destruct s; reflexivity.
  - destruct s; discriminate E.
  - discriminate E.
  - apply (feqb_val (S754_finite s m e) fzero V eq_refl ltac:(discriminate) ltac:(discriminate)) in E. rewrite val_fzero in E. exact E.
Qed.
Lemma direct_ok o q0 q1 : is_u32 q0 -> is_u32 q1 -> isFloat q0 = true -> isFloat q1 = true ->
  num q0 <> S754_infinity false -> num q1 <> S754_infinity false -> (o = Div -> val (num q0) <> 0 \/ num q0 = S754_nan) -> direct o q0 q1 = by_operator o q0 q1.
Proof.
  intros H0 H1 F0 F1 I0 I1 D. rewrite <- (atom_inf q0 H0 F0) in I0. rewrite <- (atom_inf q1 H1 F1) in I1.
  assert (J0 : (q0 =? PlusInfinity) = false) by lia. assert (J1 : (q1 =? PlusInfinity) = false) by lia.
  unfold direct, by_operator. destruct o; try reflexivity; ops; rewrite ?F0, ?F1, ?J0, ?J1; try reflexivity.
  unfold build_and_evaluate. assert (E : feqb (num q0) fzero = false).
  { specialize (D eq_refl). destruct (num_is q0 H0 F0) as [_ V]. destruct (feqb (num q0) fzero) eqn:E; [|reflexivity].
    destruct D as [D|D]; [apply feqb0 in E; auto; contradiction|rewrite D in E; discriminate E]. }
  rewrite E. reflexivity.
Qed.

(** ** Contexts *)
Lemma deref_plain f m c a : atom_at m c = Some a -> is_u32 a -> ~ looks_like_pointer a -> dereference (S f) m c = Some c.
Proof.
  intros A U N. cbn [dereference]. rewrite A. cbv zeta. rewrite descriptor_div by assumption. unfold looks_like_pointer in N. revert N.
  generalize (a / 0x1000000). intros d N. cbn [In] in N.
  unfold I_PTR, R_PTR, VALUE_PTR, IN_OBJ_PTR, CODE_VL_PTR, C_PTR, THIS, VIEW, MKS, VWS, IPGM_PTR, D_IN_OBJ_PTR, PROD_PTR.
  repeat match goal with |- context [?x =? ?y] => replace (x =? y) with false by lia end. reflexivity.
Qed.
Lemma structural_iff a : is_u32 a -> isStructural a = (0xC0000000 <=? a).
Proof.
  intros U. unfold isStructural. assert (Hb : forall i, 32 <= i -> Z.testbit a i = false).
  { intros i Hi. destruct (Z.eq_dec a 0) as [->|NZ]; [apply Z.bits_0|]. apply Z.bits_above_log2; unfold is_u32 in U; [lia|].
    assert (Z.log2 a < 32) by (apply Z.log2_lt_pow2; lia). lia. }
  assert (E : a = (a / 0x10000000) * 0x10000000 + a mod 0x10000000) by lia.
  assert (L : forall k, 0 <= k < 16 -> Z.land a (k * 0x10000000) = Z.land (a / 0x10000000) k * 0x10000000).
  { intros k Hk. change 0x10000000 with (2 ^ 28). rewrite <- !Z.shiftl_mul_pow2, <- Z.shiftr_div_pow2 by lia.
    apply Z.bits_inj'. intros i Hi. rewrite Z.land_spec, !Z.shiftl_spec, Z.land_spec by lia.
    destruct (Z.ltb i 28) eqn:Q.
    - rewrite !(Z.testbit_neg_r _ (i - 28)) by lia. rewrite andb_false_r. reflexivity.
    - rewrite Z.shiftr_spec by lia. f_equal. f_equal. lia. }
  change 0xC0000000 with (12 * 0x10000000) at 1 2. change 0xD0000000 with (13 * 0x10000000). rewrite !L by lia.
  assert (R : 0 <= a / 0x10000000 < 16) by (unfold is_u32 in U; lia).
  assert (T : (0xC0000000 <=? a) = (12 <=? a / 0x10000000)) by lia. rewrite T. clear - R. generalize dependent (a / 0x10000000). intros q R.
  assert (X : q = 0 \/ q = 1 \/ q = 2 \/ q = 3 \/ q = 4 \/ q = 5 \/ q = 6 \/ q = 7 \/ q = 8 \/ q = 9 \/ q = 10 \/ q = 11 \/ q = 12 \/ q = 13 \/ q = 14 \/ q = 15) by lia.
  repeat (destruct X as [->|X]; [reflexivity|]). subst. reflexivity.
Qed.

(** The comparison of the children, one after the other. *)
Fixpoint children (f : nat) (m : mem) (l r : ctx) (i n : nat) : option bool :=
  match n with
  | O => Some true
  | S n' =>
      match dereference f m (child l i), dereference f m (child r i) with
      | Some x, Some y => match equal f m x y with Some true => children f m l r (S i) n' | z => z end
      | _, _ => None
      end
  end.
Lemma equal_unfold f m c d : equal (S f) m c d =
  match dereference (S f) m c, dereference (S f) m d with
  | Some l, Some r =>
      match at_ l, idx l, at_ r, idx r with
      | Ref i, O, Ref j, O => Some (Nat.eqb i j)
      | _, _, _, _ =>
          match atom_at m l, atom_at m r with
          | Some a, Some b => if negb (a =? b) then Some false else if isStructural a then children f m l r 1 (Z.to_nat (getAtomCount a)) else Some true
          | _, _ => None
          end
      end
  | _, _ => None
  end.
Proof.
  cbn [equal]. destruct (dereference (S f) m c) as [l|]; [|reflexivity]. destruct (dereference (S f) m d) as [r|]; [|reflexivity].
  assert (K : forall n i,
    (fix loop (i n : nat) : option bool :=
       match n with
       | O => Some true
       | S n' =>
           match dereference f m (child l i), dereference f m (child r i) with
           | Some x, Some y => match equal f m x y with Some true => loop (S i) n' | z => z end
           | _, _ => None
           end
       end) i n = children f m l r i n).
  { induction n as [|n IH]; intros i; [reflexivity|]. cbn [children]. destruct (dereference f m (child l i)); [|reflexivity].
    destruct (dereference f m (child r i)); [|reflexivity]. destruct (equal f m c0 c1) as [[]|]; [apply IH|reflexivity|reflexivity]. }
  destruct (at_ l), (idx l), (at_ r), (idx r); try reflexivity;
    (destruct (atom_at m l) as [a|]; [|reflexivity]); (destruct (atom_at m r) as [b|]; [|reflexivity]);
    (destruct (negb (a =? b)); [reflexivity|]); (destruct (isStructural a); [|reflexivity]); apply K.
Qed.
Lemma equal_sym : forall f m c d, equal f m c d = equal f m d c.
Proof.
  induction f as [|f IH]; intros m c d; [reflexivity|]. rewrite !equal_unfold.
  destruct (dereference (S f) m c) as [l|], (dereference (S f) m d) as [r|]; try reflexivity.
  assert (K : forall n i, children f m l r i n = children f m r l i n).
  { induction n as [|n IHn]; intros i; [reflexivity|]. cbn [children]. destruct (dereference f m (child l i)), (dereference f m (child r i)); try reflexivity.
    rewrite (IH m c0 c1). destruct (equal f m c1 c0) as [[]|]; auto. }
  destruct (at_ l), (idx l), (at_ r), (idx r); rewrite ?(Nat.eqb_sym k0 k); try reflexivity;
    destruct (atom_at m l) as [a|], (atom_at m r) as [b|]; try reflexivity; rewrite (Z.eqb_sym b a);
    (destruct (a =? b) eqn:E; cbn [negb]; [|reflexivity]); replace b with a by lia; (destruct (isStructural a); [apply K|reflexivity]).
Qed.
Lemma equal_refl : forall f m c, equal f m c c <> Some false.
Proof.
  induction f as [|f IH]; intros m c; [discriminate|]. rewrite !equal_unfold.
  destruct (dereference (S f) m c) as [l|]; [|discriminate].
  assert (K : forall n i, children f m l l i n <> Some false).
  { induction n as [|n IHn]; intros i; [discriminate|]. cbn [children]. destruct (dereference f m (child l i)); [|discriminate].
    specialize (IH m c0). destruct (equal f m c0 c0) as [[]|]; auto; congruence. }
  destruct (at_ l), (idx l); rewrite ?Nat.eqb_refl; try discriminate;
    (destruct (atom_at m l) as [a|]; [|discriminate]); rewrite Z.eqb_refl; cbn [negb]; (destruct (isStructural a); [apply K|discriminate]).
Qed.
Lemma atom_at_get m c a i x : array m (at_ c) = Some a -> nth_error a (idx c + i) = Some x -> atom_at m (child c i) = Some x.
Proof. intros A N. unfold atom_at, child. cbn [at_ idx]. rewrite A. exact N. Qed.
(** Comparing two data words. *)
Lemma equal_word f m c d a b : atom_at m c = Some a -> atom_at m d = Some b -> is_u32 a -> is_u32 b ->
  ~ looks_like_pointer a -> ~ looks_like_pointer b -> ~ looks_structural a -> (0 < idx c)%nat ->
  equal (S f) m c d = Some (a =? b).
Proof.
  intros A B Ua Ub Pa Pb Sa I0. rewrite equal_unfold. rewrite (deref_plain f m c a A Ua Pa), (deref_plain f m d b B Ub Pb).
  assert (K : (match atom_at m c, atom_at m d with
    | Some a, Some b => if negb (a =? b) then Some false else if isStructural a then children f m c d 1 (Z.to_nat (getAtomCount a)) else Some true
    | _, _ => None end) = Some (a =? b)).
  { rewrite A, B. destruct (a =? b) eqn:E; [|reflexivity]. cbn [negb]. rewrite structural_iff by assumption.
    destruct (0xC0000000 <=? a) eqn:S0; [|reflexivity].
    replace (getAtomCount a) with 0; [reflexivity|]. unfold getAtomCount. cbv zeta. rewrite descriptor_div by assumption.
    unfold looks_structural, is_u32 in *. unfold SET, OBJECT, MARKER, C_PTR, OPERATOR, INSTANTIATED_PROGRAM, INSTANTIATED_CPP_PROGRAM, INSTANTIATED_INPUT_LESS_PROGRAM, INSTANTIATED_ANTI_PROGRAM, COMPOSITE_STATE, MODEL, GROUP, S_SET, STRING, TIMESTAMP, DURATION.
    assert (R : 0xD0 < a / 0x1000000) by lia. generalize dependent (a / 0x1000000). intros q R1 R2.
    repeat match goal with |- context [q =? ?y] => replace (q =? y) with false by lia end. reflexivity. }
  destruct (idx c) as [|n] eqn:Q; [lia|]. destruct (at_ c); try exact K; destruct (at_ d); exact K.
Qed.
Lemma head_plain h : (h / 0x1000000 = 0xC7 \/ h / 0x1000000 = 0xD0) -> ~ looks_like_pointer h.
Proof. unfold looks_like_pointer. cbn [In]. lia. Qed.
Lemma head_count h : is_u32 h -> (h / 0x1000000 = 0xC7 \/ h / 0x1000000 = 0xD0) -> isStructural h = true /\ Z.to_nat (getAtomCount h) = 2%nat.
Proof.
  intros U H. rewrite structural_iff by assumption. split; [unfold is_u32 in U; lia|]. unfold getAtomCount. cbv zeta. rewrite descriptor_div by assumption.
  destruct H as [-> | ->]; reflexivity.
Qed.
Lemma equal_times f m c d h k s t : shows m c h s -> shows m d k t -> (2 <= f)%nat -> equal f m c d = Some ((h =? k) && (s =? t)).
Proof.
  intros (a & hi & lo & A & Ah & A1 & A2 & Hh & Uh & U1 & U2 & Es & P1 & P2 & S1 & S2 & Pl)
         (b & hi' & lo' & B & Bh & B1 & B2 & Hk & Uk & V1 & V2 & Et & Q1 & Q2 & T1 & T2 & Pm) F.
  destruct f as [|[|f]]; [lia|lia|]. rewrite equal_unfold.
  assert (Ac : atom_at m c = Some h) by (unfold atom_at; rewrite A; exact Ah).
  assert (Ad : atom_at m d = Some k) by (unfold atom_at; rewrite B; exact Bh).
  rewrite (deref_plain _ m c h Ac Uh (head_plain h Hh)), (deref_plain _ m d k Ad Uk (head_plain k Hk)).
  assert (K : (match atom_at m c, atom_at m d with
    | Some a, Some b => if negb (a =? b) then Some false else if isStructural a then children (S f) m c d 1 (Z.to_nat (getAtomCount a)) else Some true
    | _, _ => None end) = Some ((h =? k) && (s =? t))).
  { rewrite Ac, Ad. destruct (h =? k) eqn:E; [|reflexivity]. cbn [negb andb]. destruct (head_count h Uh Hh) as [-> ->].
    assert (C1 := atom_at_get m c a 1 hi A A1). assert (C2 := atom_at_get m c a 2 lo A A2).
    assert (D1 := atom_at_get m d b 1 hi' B B1). assert (D2 := atom_at_get m d b 2 lo' B B2).
    cbn [children]. rewrite (deref_plain _ m _ hi C1 U1 P1), (deref_plain _ m _ hi' D1 V1 Q1), (deref_plain _ m _ lo C2 U2 P2), (deref_plain _ m _ lo' D2 V2 Q2).
    rewrite (equal_word f m _ _ hi hi' C1 D1), (equal_word f m _ _ lo lo' C2 D2) by (auto; cbn [child idx]; lia).
    rewrite Es, Et. unfold is_u32 in *.
    replace (i64 (hi * 4294967296 + lo) =? i64 (hi' * 4294967296 + lo')) with ((hi =? hi') && (lo =? lo')).
    - destruct (hi =? hi'), (lo =? lo'); reflexivity.
    - assert (i64 (hi * 4294967296 + lo) = i64 (hi' * 4294967296 + lo') <-> hi = hi' /\ lo = lo').
      { unfold i64. split; [|intros [-> ->]; reflexivity]. intros X. lia. }
      destruct (hi =? hi') eqn:X1, (lo =? lo') eqn:X2; cbn [andb]; symmetry; lia. }
  destruct (at_ c) eqn:Ec, (idx c) eqn:Ic, (at_ d) eqn:Ed, (idx d) eqn:Id; try exact K.
  destruct Pl as [Pl|[Pl|Pl]]; [discriminate Pl|discriminate Pl|lia].
Qed.
Lemma neq_equ f m c b : equ f m c = Some (true, Atomic (Boolean b)) <-> neq f m c = Some (true, Atomic (Boolean (negb b))).
Proof.
  unfold equ, neq. destruct (dereference f m (child c 1)) as [l|]; [|split; discriminate]. destruct (dereference f m (child c 2)) as [r|]; [|split; discriminate].
  destruct (equal f m l r) as [[]|]; destruct b; split; intros H; try discriminate H; try reflexivity.
Qed.

(** ** Witnesses *)
Definition one_atom : Z := 0x1FC00000.
Definition w_dur (d : Z) : code := store (DurRes d).
Definition w_time (t : Z) : code := store (TimeRes t).
Lemma denotes_dur d : is_i64 d -> denotes (w_dur d) (Dur d).
Proof. apply store_dur. Qed.
Lemma denotes_time d : is_i64 d -> denotes (w_time d) (Time d).
Proof. apply store_time. Qed.
Lemma denotes_num a : is_u32 a -> a < 0x80000000 -> denotes [a] (Num (f32_of_bits (2 * a))).
Proof.
  intros U L. split; [apply Forall_cons; [exact U|apply Forall_nil]|]. split; [unfold kind_of; replace (a <? 0x80000000) with true by lia; reflexivity|].
  exists a, []. split; reflexivity.
Qed.
Lemma division_undefined : exists l r, denotes l (Dur 5) /\ denotes r (Num fzero) /\ eval Div l r = None.
Proof.
  exists (w_dur 5), [0]. split; [apply denotes_dur; unfold is_i64; lia|]. split; [exact (denotes_num 0 ltac:(unfold is_u32; lia) ltac:(lia))|]. reflexivity.
Qed.
(** 1e30 *)
Lemma addition_undefined : exists l r x, denotes l (Time 5) /\ denotes r (Num x) /\ is_finite x = true /\ eval Add l r = None /\ eval Sub l r = None.
Proof.
  exists (w_time 5), [0x38A4F965], (f32_of_bits (2 * 0x38A4F965)). split; [apply denotes_time; unfold is_i64; lia|].
  split; [exact (denotes_num 0x38A4F965 ltac:(unfold is_u32; lia) ltac:(lia))|]. repeat split; reflexivity.
Qed.
Lemma zero_duration_divides : exists l r, denotes l (Num fone) /\ denotes r (Dur 0) /\ gives (eval Div l r) (Num (S754_infinity false)).
Proof.
  exists [one_atom], (w_dur 0). split; [exact (denotes_num one_atom ltac:(unfold is_u32, one_atom; lia) ltac:(unfold one_atom; lia))|].
  split; [apply denotes_dur; unfold is_i64; lia|]. exact (gives_number (S754_infinity false) eq_refl eq_refl).
Qed.
Lemma infinity_divides : exists l r, denotes l (Num fone) /\ denotes r (Num (S754_infinity false)) /\ gives (eval Div l r) (Num (S754_infinity false)).
Proof.
  exists [one_atom], [PlusInfinity]. split; [exact (denotes_num one_atom ltac:(unfold is_u32, one_atom; lia) ltac:(unfold one_atom; lia))|].
  split; [exact (denotes_num PlusInfinity ltac:(unfold is_u32, PlusInfinity; lia) ltac:(unfold PlusInfinity; lia))|].
  exact (gives_number (S754_infinity false) eq_refl eq_refl).
Qed.
Lemma mul_not_symmetric : exists l r, denotes l (Num fone) /\ denotes r (Dur 5) /\ gives (eval Mul l r) (Num (f32_of_Z 5)) /\ gives (eval Mul r l) (Dur 5).
Proof.
  exists [one_atom], (w_dur 5). split; [exact (denotes_num one_atom ltac:(unfold is_u32, one_atom; lia) ltac:(unfold one_atom; lia))|].
  split; [apply denotes_dur; unfold is_i64; lia|].
  split; [exact (gives_number (f32_of_Z 5) eq_refl eq_refl)|].
  exists (DurRes 5). split; [vm_compute; reflexivity|]. apply denotes_dur. unfold is_i64; lia.
Qed.
(** (= 0 -0): the operands are atoms 0 and 0x40000000 *)
Lemma zeros_differ : exists m c l r, atom_at m (child c 1) = Some l /\ atom_at m (child c 2) = Some r /\ denotes [l] (Num (S754_zero false)) /\ denotes [r] (Num (S754_zero true)) /\
  is_false (equ 3 m c) /\ is_true (eval Lse [l] [r]) /\ is_true (eval Gte [l] [r]) /\ is_false (eval Lsr [l] [r]) /\ is_false (eval Gtr [l] [r]).
Proof.
  exists (mkmem [0xC5000002; 0; 0x40000000] [] [] [] (fun _ => []) []), (mkctx Stem 0), 0, 0x40000000.
  split; [reflexivity|]. split; [reflexivity|]. split; [exact (denotes_num 0 ltac:(unfold is_u32; lia) ltac:(lia))|].
  split; [exact (denotes_num 0x40000000 ltac:(unfold is_u32; lia) ltac:(lia))|].
  split; [exists (Atomic (Boolean false)); split; vm_compute; reflexivity|].
  split; [exists (Atomic (Boolean true)); split; vm_compute; reflexivity|]. split; [exists (Atomic (Boolean true)); split; vm_compute; reflexivity|].
  split; [exists (Atomic (Boolean false)); split; vm_compute; reflexivity|]. exists (Atomic (Boolean false)); split; vm_compute; reflexivity.
Qed.
Lemma direct_differs : exists q, num q = S754_infinity false /\
  direct Sub q one_atom = Some [MinusInfinity] /\ by_operator Sub q one_atom = Some [0] /\
  direct Div q one_atom = Some [0] /\ by_operator Div q one_atom = Some [PlusInfinity] /\
  direct Div 0 one_atom = Some [] /\ by_operator Div 0 one_atom = Some [Nil].
Proof. exists PlusInfinity. repeat split; vm_compute; reflexivity. Qed.
(** (= ts ts'): the second timestamp is in the value array. *)
Definition eq_mem (lo lo' : Z) (in_values : bool) : mem :=
  let ts w := [0xC7000000; 5; w] in
  if in_values then mkmem ([0xC5000002; 0x84000003; 0x89000000] ++ ts lo) (ts lo') [] [] (fun _ => []) []
  else mkmem ([0xC5000002; 0x84000003; 0x84000006] ++ ts lo ++ ts lo') [] [] [] (fun _ => []) [].
Lemma same_times_unequal : exists m c l r h t, dereference 3 m (child c 1) = Some l /\ dereference 3 m (child c 2) = Some r /\
  holds_time m l h t /\ holds_time m r h t /\ forall f, (4 <= f)%nat -> is_false (equ f m c).
Proof.
  exists (eq_mem 0x84000000 0x84000000 true), (mkctx Stem 0), (mkctx Stem 3), (mkctx Val 0), 0xC7000000, (i64 (5 * 4294967296 + 0x84000000)).
  split; [reflexivity|]. split; [reflexivity|].
  split; [exists (stem (eq_mem 0x84000000 0x84000000 true)), 5, 0x84000000; repeat (split; [reflexivity|]); unfold is_u32; repeat split; try lia; left; reflexivity|].
  split; [exists (values (eq_mem 0x84000000 0x84000000 true)), 5, 0x84000000; repeat (split; [reflexivity|]); unfold is_u32; repeat split; try lia; left; reflexivity|].
  intros f F. destruct f as [|[|[|[|f]]]]; try lia. eexists. split; reflexivity.
Qed.
Lemma different_times_equal : exists m c l r h s t, dereference 3 m (child c 1) = Some l /\ dereference 3 m (child c 2) = Some r /\
  holds_time m l h s /\ holds_time m r h t /\ s <> t /\ forall f, (4 <= f)%nat -> is_true (equ f m c).
Proof.
  exists (eq_mem 0x84000004 0x84000007 false), (mkctx Stem 0), (mkctx Stem 3), (mkctx Stem 6), 0xC7000000, (i64 (5 * 4294967296 + 0x84000004)), (i64 (5 * 4294967296 + 0x84000007)).
  split; [reflexivity|]. split; [reflexivity|].
  split; [exists (stem (eq_mem 0x84000004 0x84000007 false)), 5, 0x84000004; repeat (split; [reflexivity|]); unfold is_u32; repeat split; try lia; left; reflexivity|].
  split; [exists (stem (eq_mem 0x84000004 0x84000007 false)), 5, 0x84000007; repeat (split; [reflexivity|]); unfold is_u32; repeat split; try lia; left; reflexivity|].
  split; [unfold i64; lia|].
  intros f F. destruct f as [|[|[|[|f]]]]; try lia. eexists. split; reflexivity.
Qed.
(** An embedded copy of an object equals it, and a copy of it, which differ. *)
Lemma not_transitive : exists m c d e, equal 4 m c d = Some true /\ equal 4 m d e = Some true /\ equal 4 m c e = Some false.
Proof.
  exists (mkmem [0xC3000001; 7] [] [[0xC3000001; 7]; [0xC3000001; 7]] [] (fun _ => []) []), (mkctx (Ref 0) 0), (mkctx Stem 0), (mkctx (Ref 1) 0).
  repeat split; reflexivity.
Qed.
