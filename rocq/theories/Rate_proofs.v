(** Proofs about the rating of models. *)
From Coq Require Import Floats.SpecFloat.
From Verif Require Import Base Float32 Float32_facts Float32_round Float32_val Atom_model Obj_model Obj_spec Obj_proofs View_spec View_proofs Grp_model
  Rate_model Rate_spec Rate_float.

(** ** Arithmetic of one rating *)
Section Rating.
Context (sr cnt : spec_float) (n : Z) (VS : f32_valid sr = true) (US : in_unit sr) (C : counts n cnt) (N : 1 <= n <= 8388608).
Let sc := fmul sr cnt.
Let ec := fadd cnt fone.
Lemma sr_val : 0 <= val sr <= unit_val.
Proof. apply unit_iff; [exact VS|apply in_unit_not_nan; exact US|exact US]. Qed.
Lemma product_rounded : rounded (val sr * (n * unit_val)) unit_val sc.
Proof. destruct C as (V & F & E). rewrite <- E. apply fmul_rounded; [exact VS|exact V|apply in_unit_finite; exact US|exact F]. Qed.
Lemma product : f32_valid sc = true /\ is_finite sc = true /\ 0 <= val sc <= n * unit_val.
Proof.
  pose proof product_rounded as R. pose proof sr_val as S. pose proof unit_val_pos as U. destruct C as (V & F & E).
  assert (VV : f32_valid sc = true) by (apply fmul_valid; assumption).
  assert (B : 0 <= val sc <= n * unit_val).
  { split; [apply (rounded_ge _ _ _ 0 R repr_0); nia|]. apply (rounded_le _ _ _ _ R); [apply repr_int; lia|nia]. }
  split; [exact VV|]. split; [|exact B]. apply (finite_small _ n); [exact VV|apply R|lia|exact B].
Qed.
Lemma more : counts (n + 1) ec.
Proof. apply counts_add; [lia|exact C]. Qed.
Lemma successes : f32_valid (fadd sc fone) = true /\ is_finite (fadd sc fone) = true /\ unit_val <= val (fadd sc fone) <= (n + 1) * unit_val /\
  rounded (val sc + unit_val) 1 (fadd sc fone).
Proof.
  destruct product as (V & F & B). pose proof (fadd_rounded sc fone V eq_refl F eq_refl) as R. rewrite val_fone in R.
  assert (VV : f32_valid (fadd sc fone) = true) by (apply fadd_valid; [exact V|reflexivity]).
  assert (BB : unit_val <= val (fadd sc fone) <= (n + 1) * unit_val).
  { split; [apply (rounded_ge _ _ _ _ R repr_unit); lia|]. apply (rounded_le _ _ _ _ R); [apply repr_int; lia|lia]. }
  split; [exact VV|]. split; [|split; [exact BB|exact R]]. pose proof unit_val_pos. apply (finite_small _ (n + 1)); [exact VV|apply R|lia|lia].
Qed.
Lemma quotient_rounded x : f32_valid x = true -> is_finite x = true -> rounded (val x * unit_val) ((n + 1) * unit_val) (fdiv x ec).
Proof.
  intros V F. destruct more as (VE & FE & E). rewrite <- E. pose proof unit_val_pos. apply fdiv_rounded; try assumption. rewrite E. nia.
Qed.
Lemma quotient x : f32_valid x = true -> is_finite x = true -> 0 <= val x <= (n + 1) * unit_val -> f32_valid (fdiv x ec) = true /\ in_unit (fdiv x ec).
Proof.
  intros V F B. pose proof (quotient_rounded x V F) as R. destruct more as (VE & _). assert (VV : f32_valid (fdiv x ec) = true) by (apply fdiv_valid; assumption).
  split; [exact VV|]. apply unit_iff; [exact VV|apply R|]. pose proof unit_val_pos. split; [apply (rounded_ge _ _ _ 0 R repr_0); nia|].
  apply (rounded_le _ _ _ _ R repr_unit). nia.
Qed.
Lemma success_rate : f32_valid (fdiv (fadd sc fone) ec) = true /\ in_unit (fdiv (fadd sc fone) ec).
Proof. destruct successes as (V & F & B & _). apply quotient; try assumption. pose proof unit_val_pos. lia. Qed.
Lemma failure_rate : f32_valid (fdiv sc ec) = true /\ in_unit (fdiv sc ec).
Proof. destruct product as (V & F & B). apply quotient; try assumption. pose proof unit_val_pos. lia. Qed.

(** The inverse of the rate. *)
Let tiny := Float32_val.sc 1 (-23).
Lemma tiny_unit : tiny * 8388608 = unit_val.
Proof. unfold tiny, Float32_val.sc, unit_val. change 8388608 with (2 ^ 23). rewrite Z.mul_1_l, <- Z.pow_add_r by lia. reflexivity. Qed.
Lemma repr_tiny : repr tiny.
Proof.
  unfold repr. rewrite Z.abs_eq by (apply Z.lt_le_incl, sc_pos; lia). split; [apply Z.lt_le_incl, sc_mono_exp; lia|]. right. exists 1, (-23). repeat split; lia.
Qed.
Lemma inverse_low x : f32_valid x = true -> in_unit x -> tiny <= val x ->
  exists k, 1 <= k <= 8388608 /\ (forall ub, to_uint32 ub (fdiv fone x) = k) /\ floor_of (fdiv fone x) k.
Proof.
  intros V U L. pose proof (in_unit_not_nan _ U) as NX. pose proof (in_unit_finite _ U) as FX. apply unit_iff in U; try assumption. pose proof unit_val_pos as UP. pose proof tiny_unit as TU. clearbody tiny.
  assert (XP : 0 < val x) by lia. pose proof (fdiv_rounded fone x eq_refl V eq_refl FX XP) as R. rewrite val_fone in R. set (q := fdiv fone x) in *.
  assert (VQ : f32_valid q = true) by (apply fdiv_valid; [reflexivity|exact V]).
  assert (B : unit_val <= val q <= 8388608 * unit_val).
  { split; [apply (rounded_ge _ _ _ _ R repr_unit); nia|]. apply (rounded_le _ _ _ _ R); [apply repr_int; lia|]. assert (unit_val <= 8388608 * val x) by lia. nia. }
  assert (FQ : is_finite q = true) by (apply (finite_small _ 8388608); [exact VQ|apply R|lia|lia]).
  assert (T : f32_trunc q = val q / unit_val) by (apply trunc_val; [exact VQ|exact FQ|lia]).
  set (k := val q / unit_val) in *. assert (K : k * unit_val <= val q < (k + 1) * unit_val) by (subst k; pose proof (Z.div_mod (val q) unit_val ltac:(lia)); pose proof (Z.mod_pos_bound (val q) unit_val UP); lia).
  clearbody k. assert (KB : 1 <= k <= 8388608) by nia. exists k. split; [exact KB|]. split.
  - intros ub. unfold to_uint32. rewrite T, FQ. destruct (0 <=? k) eqn:A; [|lia]. destruct (k <? 4294967296) eqn:A'; [reflexivity|lia].
  - split; [apply fle_val|apply flt_val]; try assumption; try apply of_Z_valid; try apply of_Z_not_nan; try exact (proj1 R); rewrite of_Z_exact by lia; lia.
Qed.
(** A rate computed after a success is large enough, except in one case. *)
Lemma above_one y : f32_valid y = true -> y <> S754_nan -> unit_val < val y -> unit_val + tiny <= val y.
Proof.
  intros V NY L. set (g := S754_finite false 8388609 (-23)).
  assert (G : val g = unit_val + tiny).
  { pose proof tiny_unit as T. unfold g. rewrite val_finite. cbn [cond_Zopp]. unfold tiny, Float32_val.sc in *. lia. }
  rewrite <- G. apply val_key; try assumption; try reflexivity; try discriminate. change (key g) with (key fone + 1).
  destruct (Z.le_gt_cases (key y) (key fone)) as [Q|Q]; [|lia]. apply val_key in Q; try assumption; try reflexivity; try discriminate. rewrite val_fone in Q. lia.
Qed.
Lemma success_low : n < 8388608 \/ unit_val < val (fadd sc fone) -> tiny <= val (fdiv (fadd sc fone) ec).
Proof.
  intros H. destruct successes as (V & F & B & _). pose proof (quotient_rounded _ V F) as R. apply (rounded_ge _ _ _ _ R repr_tiny). pose proof tiny_unit as TU. pose proof unit_val_pos as UP.
  pose proof (above_one (fadd sc fone) V) as AB. assert (NN : fadd sc fone <> S754_nan) by (intros Q; rewrite Q in F; discriminate). specialize (AB NN).
  set (y := val (fadd sc fone)) in *. clearbody tiny y.
  assert (Y : tiny * (n + 1) <= y); [|nia]. destruct (Z.eq_dec n 8388608) as [E|E]; [|nia]. destruct H as [H|H]; [lia|]. specialize (AB H). lia.
Qed.
Lemma trimmed ub : exists k k', 1 <= k <= 8388608 /\ counts k (kept (f32_of_Z (to_uint32 ub (fdiv fone (fdiv (fadd sc fone) ec))))) /\
  to_uint32 ub (fdiv fone (fdiv (fadd sc fone) ec)) = k' /\ floor_of (fdiv fone (fdiv (fadd sc fone) ec)) k' /\ (k = k' \/ n = 8388608).
Proof.
  destruct success_rate as (V & U). destruct successes as (VY & FY & B & _).
  destruct (Z.eq_dec (val (fadd sc fone)) unit_val) as [E|E]; [destruct (Z.eq_dec n 8388608) as [EN|EN]|].
  - assert (A : fadd sc fone = fone). { apply val_inj; [exact VY|reflexivity|intros Q; rewrite Q in FY; discriminate|discriminate|rewrite val_fone; apply unit_val_pos|rewrite val_fone; exact E]. }
    assert (D : ec = f32_of_Z 8388609).
    { destruct more as (VE & FE & EE). apply val_inj; [exact VE|apply of_Z_valid|intros Q; rewrite Q in FE; discriminate|apply of_Z_not_nan|rewrite of_Z_exact by lia; pose proof unit_val_pos; lia|].
      rewrite EE, EN, of_Z_exact by lia. reflexivity. }
    rewrite A, D. exists 8388608, 8388609. split; [lia|]. assert (X : to_uint32 ub (fdiv fone (fdiv fone (f32_of_Z 8388609))) = 8388609) by (vm_compute; reflexivity). rewrite X.
    split; [apply counts_kept_top, of_Z_counts; lia|]. split; [reflexivity|]. split; [split; vm_compute; reflexivity|]. right. exact EN.
  - destruct (inverse_low _ V U) as (k & K & T & FL); [apply success_low; left; lia|]. exists k, k. rewrite T. split; [exact K|]. split; [apply counts_kept; [lia|apply of_Z_counts; lia]|]. auto.
  - destruct (inverse_low _ V U) as (k & K & T & FL); [apply success_low; right; lia|]. exists k, k. rewrite T. split; [exact K|]. split; [apply counts_kept; [lia|apply of_Z_counts; lia]|]. auto.
Qed.
Lemma kept_more : exists k, 1 <= k <= 8388608 /\ counts k (kept ec) /\ (k = n + 1 \/ n = 8388608 /\ k = n).
Proof.
  pose proof more as M. destruct (Z.eq_dec n 8388608) as [E|E].
  - exists 8388608. split; [lia|]. split; [apply counts_kept_top; rewrite E in M; exact M|lia].
  - exists (n + 1). split; [lia|]. split; [apply counts_kept; [lia|exact M]|lia].
Qed.
End Rating.

(** ** One outcome *)
Definition good (m : rated) (n : Z) : Prop := in_unit (rate m) /\ 1 <= n <= 8388608 /\ counts n (evidence m).
Lemma good_iff m : meaningful m <-> exists n, good m n.
Proof.
  unfold meaningful, counted. split.
  - intros (U & n & N & E). exists n. split; [exact U|]. split; [exact N|]. apply counts_of_feqb; [apply num_valid|lia|exact E].
  - intros (n & U & N & C). split; [exact U|]. exists n. split; [exact N|]. apply counts_eq; [lia|exact C].
Qed.
Lemma good_counted m n : meaningful m -> 0 <= n <= 16777216 -> counted m n -> good m n.
Proof.
  intros H B E. apply counts_of_feqb in E; [|apply num_valid|exact B]. apply good_iff in H. destruct H as (n' & U & N & C). destruct E as (V & F & E), C as (_ & _ & E').
  assert (n = n') by (pose proof unit_val_pos; nia). subst n'. split; [exact U|]. split; [exact N|]. split; auto.
Qed.
Lemma succeeded c thr m : p_alive m = true -> rate_primary c thr true m =
  (mkrated (if inertial c m && negb (feqb fone (num (m_strength m))) then of_num fone else m_strength m)
     (of_num (if inertial c m then f32_of_Z (to_uint32 (conv_ub c) (fdiv fone (rated_success m))) else fadd (evidence m) fone))
     (of_num (if inertial c m then fone else rated_success m)) (m_sr m) true (s_alive m), [ActPrimary (if inertial c m then fone else rated_success m)]).
Proof. intros A. unfold rate_primary. rewrite A. reflexivity. Qed.
Lemma failed c thr m : p_alive m = true -> rate_primary c thr false m =
  if flt thr (rated_failure m) then (mkrated (m_strength m) (of_num (fadd (evidence m) fone)) (of_num (rated_failure m)) (m_sr m) true (s_alive m), [ActPrimary (rated_failure m)])
  else if is_strong m then (mkrated (m_strength m) (m_cnt m) (m_sr m) (m_sr m) true (s_alive m), [ActPrimary fzero; ActSecondary (rated_failure m)])
  else (mkrated (m_strength m) (m_cnt m) (m_sr m) (m_sr m) false (s_alive m), [Deleted]).
Proof. intros A. unfold rate_primary. rewrite A. reflexivity. Qed.
Lemma woken p s m : s_alive m = true -> rate_secondary p s m =
  (mkrated (m_strength m) (of_num (fadd (evidence m) fone)) (of_num (rated_success m)) (m_sr m) (p_alive m) true,
   if flt p (rated_success m) then [ActSecondary fzero; ActPrimary (rated_success m)] else if flt s (rated_success m) then [ActSecondary (rated_success m)] else []).
Proof.
  intros A. unfold rate_secondary. rewrite A. cbn [negb]. unfold rated_success, rate, evidence.
  match goal with |- (if ?a then _ else if ?b then _ else _) = _ => destruct a; [reflexivity|destruct b; reflexivity] end.
Qed.
Lemma fone_unit : in_unit fone.
Proof. split; reflexivity. Qed.
Lemma fzero_unit : in_unit fzero.
Proof. split; reflexivity. Qed.
Lemma good_success m n : good m n -> f32_valid (rated_success m) = true /\ in_unit (rated_success m).
Proof. intros (U & N & C). apply (success_rate _ _ n); try assumption. apply num_valid. Qed.
Lemma good_failure m n : good m n -> f32_valid (rated_failure m) = true /\ in_unit (rated_failure m).
Proof. intros (U & N & C). apply (failure_rate _ _ n); try assumption. apply num_valid. Qed.
Lemma good_more m n : good m n -> exists k, 1 <= k <= 8388608 /\ counts k (num (of_num (fadd (evidence m) fone))) /\ (k = n + 1 \/ n = 8388608 /\ k = n).
Proof. intros (U & N & C). apply (kept_more (rate m) (evidence m) n); try assumption; apply num_valid. Qed.
Lemma good_trimmed ub m n : good m n -> exists k k', 1 <= k <= 8388608 /\ counts k (num (of_num (f32_of_Z (to_uint32 ub (fdiv fone (rated_success m)))))) /\
  to_uint32 ub (fdiv fone (rated_success m)) = k' /\ floor_of (fdiv fone (rated_success m)) k' /\ (k = k' \/ n = 8388608).
Proof. intros (U & N & C). apply (trimmed (rate m) (evidence m) n); try assumption. apply num_valid. Qed.
Lemma kept_in_unit f : f32_valid f = true -> in_unit f -> in_unit (num (of_num f)).
Proof. exact (kept_unit f). Qed.
Lemma primary_good c thr b m n : good m n -> (exists k, good (fst (rate_primary c thr b m)) k) /\ asked_in_range (snd (rate_primary c thr b m)).
Proof.
  intros G. destruct (p_alive m) eqn:A; [|unfold rate_primary; rewrite A; split; [exists n; exact G|constructor]]. destruct b.
  - rewrite succeeded by exact A. cbn [fst snd]. destruct (good_success m n G) as (V & U). destruct (inertial c m).
    + split; [|repeat constructor]. destruct (good_trimmed (conv_ub c) m n G) as (k & k' & K & CK & _). exists k.
      split; [apply kept_in_unit; [reflexivity|apply fone_unit]|]. split; [exact K|exact CK].
    + split; [|constructor; [exact U|constructor]]. destruct (good_more m n G) as (k & K & CK & _). exists k. split; [apply kept_in_unit; assumption|]. split; [exact K|exact CK].
  - rewrite failed by exact A. destruct (good_failure m n G) as (V & U). destruct (flt thr (rated_failure m)).
    + cbn [fst snd]. split; [|constructor; [exact U|constructor]]. destruct (good_more m n G) as (k & K & CK & _). exists k. split; [apply kept_in_unit; assumption|]. split; [exact K|exact CK].
    + destruct (is_strong m); cbn [fst snd]; (split; [exists n; exact G|]); [constructor; [apply fzero_unit|constructor; [exact U|constructor]]|repeat constructor].
Qed.
Lemma secondary_good p s m n : good m n -> (exists k, good (fst (rate_secondary p s m)) k) /\ asked_in_range (snd (rate_secondary p s m)).
Proof.
  intros G. destruct (s_alive m) eqn:A; [|unfold rate_secondary; rewrite A; split; [exists n; exact G|constructor]].
  rewrite woken by exact A. cbn [fst snd]. destruct (good_success m n G) as (V & U). split.
  - destruct (good_more m n G) as (k & K & CK & _). exists k. split; [apply kept_in_unit; assumption|]. split; [exact K|exact CK].
  - destruct (flt p (rated_success m)); [constructor; [apply fzero_unit|constructor; [exact U|constructor]]|]. destruct (flt s (rated_success m)); [constructor; [exact U|constructor]|constructor].
Qed.
Lemma register_good c m n o : good m n -> (exists k, good (fst (register c m o)) k) /\ asked_in_range (snd (register c m o)).
Proof.
  intros G. assert (D : (exists k, good (fst (m, @nil effect)) k) /\ asked_in_range (snd (m, @nil effect))) by (split; [exists n; exact G|constructor]).
  destruct o as [thr b cfd rf|p s b]; cbn [register].
  - destruct (feqb cfd fone); [|exact D]. destruct b; [apply (primary_good c thr true m n G)|]. destruct rf; [apply (primary_good c thr false m n G)|exact D].
  - destruct b; [apply (secondary_good p s m n G)|exact D].
Qed.
Lemma register_all_cons c m o os : register_all c m (o :: os) =
  (fst (register_all c (fst (register c m o)) os), snd (register c m o) ++ snd (register_all c (fst (register c m o)) os)).
Proof. cbn [register_all]. destruct (register c m o) as (m1 & l1). cbn [fst snd]. destruct (register_all c m1 os). reflexivity. Qed.
Lemma register_all_app c os1 : forall m os2, register_all c m (os1 ++ os2) =
  (fst (register_all c (fst (register_all c m os1)) os2), snd (register_all c m os1) ++ snd (register_all c (fst (register_all c m os1)) os2)).
Proof.
  induction os1 as [|o os1 IH]; intros m os2; [cbn [app register_all fst snd]; destruct (register_all c m os2); reflexivity|].
  change ((o :: os1) ++ os2) with (o :: (os1 ++ os2)). rewrite !register_all_cons, IH. cbn [fst snd]. rewrite app_assoc. reflexivity.
Qed.
Lemma stays_meaningful c os : forall m, meaningful m -> meaningful (fst (register_all c m os)) /\ asked_in_range (snd (register_all c m os)).
Proof.
  induction os as [|o os IH]; intros m M; [split; [exact M|constructor]|]. rewrite register_all_cons. cbn [fst snd].
  apply good_iff in M. destruct M as (n & G). destruct (register_good c m n o G) as ((k & G') & R).
  destruct (IH (fst (register c m o))) as (I1 & I2); [apply good_iff; exists k; exact G'|]. split; [exact I1|]. apply Forall_app. split; assumption.
Qed.

(** ** Evidence *)
Lemma counted_of m k : 0 <= k <= 16777216 -> counts k (evidence m) -> counted m k.
Proof. intros K H. apply counts_eq; assumption. Qed.
Lemma more_counted m n w m' : good m n -> n < 8388608 -> w = of_num (fadd (evidence m) fone) -> m_cnt m' = w -> counted m' (n + 1).
Proof.
  intros G L -> E. destruct (good_more m n G) as (k & K & CK & Q). assert (k = n + 1) as -> by lia. apply counted_of; [lia|]. unfold evidence. rewrite E. exact CK.
Qed.
Lemma count_rule c m n o : meaningful m -> counted m n -> n < 8388608 -> 0 <= n -> let m' := fst (register c m o) in
  (counts_as_success o -> p_alive m = true -> inertial c m = true -> exists k, floor_of (fdiv fone (rated_success m)) k /\ 1 <= k /\ counted m' k) /\
  (counts_as_success o -> p_alive m = true -> inertial c m = false -> counted m' (n + 1)) /\
  (forall thr, counts_as_failure o thr -> p_alive m = true -> counted m' (if flt thr (rated_failure m) then n + 1 else n)) /\
  (forall p s, o = Secondary p s true -> s_alive m = true -> counted m' (n + 1)) /\
  (~ counts_as_success o -> (forall thr, ~ counts_as_failure o thr) -> (forall p s, o <> Secondary p s true) -> m' = m).
Proof.
  intros M CN L N0. assert (G : good m n) by (apply good_counted; [exact M|lia|exact CN]). cbv zeta. split; [|split; [|split; [|split]]].
  - intros (thr & cfd & rf & -> & E) A I. cbn [register]. rewrite E, succeeded by exact A. cbn [fst]. rewrite I.
    destruct (good_trimmed (conv_ub c) m n G) as (k & k' & K & CK & T & FL & Q). assert (k = k') as <- by (destruct Q; [assumption|lia]). exists k. split; [exact FL|]. split; [lia|]. apply counted_of; [lia|]. exact CK.
  - intros (thr & cfd & rf & -> & E) A I. cbn [register]. rewrite E, succeeded by exact A. cbn [fst]. rewrite I. apply (more_counted m n _ _ G L eq_refl). reflexivity.
  - intros thr (cfd & -> & E) A. cbn [register]. rewrite E, failed by exact A. destruct (flt thr (rated_failure m)); [apply (more_counted m n _ _ G L eq_refl); reflexivity|].
    destruct (is_strong m); cbn [fst]; exact CN.
  - intros p s -> A. cbn [register]. rewrite woken by exact A. cbn [fst]. apply (more_counted m n _ _ G L eq_refl). reflexivity.
  - intros H1 H2 H3. destruct o as [thr b cfd rf|p s b]; cbn [register].
    + destruct (feqb cfd fone) eqn:E; [|reflexivity]. destruct b; [exfalso; apply H1; exists thr, cfd, rf; auto|]. destruct rf; [|reflexivity]. exfalso. apply (H2 thr). exists cfd. auto.
    + destruct b; [|reflexivity]. exfalso. apply (H3 p s). reflexivity.
Qed.

(** ** Strength *)
Lemma feqb_sym f g : feqb f g = feqb g f.
Proof.
  unfold feqb, SFeqb, SFcompare. destruct f as [[]|[]| |[] m e], g as [[]|[]| |[] m' e']; try reflexivity.
  all: rewrite (Z.compare_antisym e e'); destruct (e ?= e') eqn:E; cbn [CompOpp]; try reflexivity; change (Pos.compare_cont Eq m' m) with (Pos.compare_cont (CompOpp Eq) m' m); rewrite <- Pos.compare_cont_antisym; destruct (Pos.compare_cont Eq m m'); reflexivity.
Qed.
Lemma strength_step c m o : is_strong (fst (register c m o)) = is_strong m \/
  is_strong m = false /\ is_strong (fst (register c m o)) = true /\ counts_as_success o /\ p_alive m = true /\ inertial c m = true.
Proof.
  destruct o as [thr b cfd rf|p s b]; cbn [register].
  - destruct (feqb cfd fone) eqn:E; [|auto]. destruct b.
    + destruct (p_alive m) eqn:A; [|unfold rate_primary; rewrite A; auto]. rewrite succeeded by exact A. cbn [fst]. unfold is_strong at 1 3. cbn [m_strength].
      destruct (inertial c m) eqn:I; [|left; reflexivity]. unfold is_strong. destruct (feqb fone (num (m_strength m))) eqn:S; cbn [andb negb]; [left; reflexivity|].
      right. rewrite feqb_sym in S. split; [exact S|]. split; [vm_compute; reflexivity|]. split; [exists thr, cfd, rf; auto|auto].
    + destruct rf; [|auto]. left. destruct (p_alive m) eqn:A; [|unfold rate_primary; rewrite A; auto]. rewrite failed by exact A. destruct (flt thr (rated_failure m)); [reflexivity|]. destruct (is_strong m) eqn:Q; exact Q.
  - left. destruct b; [|reflexivity]. destruct (s_alive m) eqn:A; [|unfold rate_secondary; rewrite A; reflexivity]. rewrite woken by exact A. reflexivity.
Qed.
Lemma strength_history c os : forall m, is_strong m = false -> is_strong (fst (register_all c m os)) = true ->
  exists os1 o os2, os = os1 ++ o :: os2 /\ counts_as_success o /\ inertial c (fst (register_all c m os1)) = true.
Proof.
  induction os as [|o os IH]; intros m W S; [cbn in S; congruence|]. rewrite register_all_cons in S. cbn [fst] in S.
  destruct (strength_step c m o) as [E|(_ & E & K & _ & I)].
  - destruct (IH (fst (register c m o))) as (os1 & o' & os2 & -> & K & I); [congruence|exact S|]. exists (o :: os1), o', os2. split; [reflexivity|]. split; [exact K|]. rewrite register_all_cons. exact I.
  - exists [], o, os. split; [reflexivity|]. split; [exact K|exact I].
Qed.
Lemma strong_stays c os : forall m, is_strong m = true -> is_strong (fst (register_all c m os)) = true.
Proof.
  induction os as [|o os IH]; intros m W; [exact W|]. rewrite register_all_cons. cbn [fst]. apply IH. destruct (strength_step c m o) as [E|(E & _)]; congruence.
Qed.
Lemma made_strong c m o : counts_as_success o -> p_alive m = true -> inertial c m = true ->
  is_strong (fst (register c m o)) = true /\ rate (fst (register c m o)) = fone /\ snd (register c m o) = [ActPrimary fone].
Proof.
  intros (thr & cfd & rf & -> & E) A I. cbn [register]. rewrite E, succeeded by exact A. cbn [fst snd]. rewrite I. split; [|split; [vm_compute; reflexivity|reflexivity]].
  unfold is_strong. cbn [m_strength]. destruct (feqb fone (num (m_strength m))) eqn:S; cbn [andb negb]; [rewrite feqb_sym; exact S|vm_compute; reflexivity].
Qed.

(** ** Deletion *)
Lemma deleted_iff c m o : In Deleted (snd (register c m o)) <->
  p_alive m = true /\ is_strong m = false /\ exists thr, counts_as_failure o thr /\ flt thr (rated_failure m) = false.
Proof.
  destruct o as [thr b cfd rf|p s b]; cbn [register].
  - destruct (feqb cfd fone) eqn:E.
    2:{ cbn. split; [contradiction|]. intros (_ & _ & t & (cfd' & Q & E') & _). injection Q as _ _ <- _. congruence. }
    destruct b.
    { split; [|intros (_ & _ & t & (cfd' & Q & E') & _); discriminate Q]. destruct (p_alive m) eqn:A; [|unfold rate_primary; rewrite A; contradiction].
      rewrite succeeded by exact A. intros [Q|[]]. discriminate Q. }
    destruct rf; [|split; [contradiction|intros (_ & _ & t & (cfd' & Q & E') & _); discriminate Q]].
    destruct (p_alive m) eqn:A; [|unfold rate_primary; rewrite A; split; [contradiction|intros (Q & _); discriminate Q]].
    rewrite failed by exact A. destruct (flt thr (rated_failure m)) eqn:T.
    { split; [intros [Q|[]]; discriminate Q|]. intros (_ & _ & t & (cfd' & Q & _) & T'). injection Q as <- _. congruence. }
    destruct (is_strong m) eqn:S.
    { split; [intros [Q|[Q|[]]]; discriminate Q|intros (_ & Q & _); discriminate Q]. }
    split; [|left; reflexivity]. intros _. split; [reflexivity|]. split; [reflexivity|]. exists thr. split; [exists cfd; auto|exact T].
  - split; [|intros (_ & _ & t & (cfd' & Q & _) & _); discriminate Q]. destruct b; [|contradiction]. destruct (s_alive m) eqn:A; [|unfold rate_secondary; rewrite A; contradiction].
    rewrite woken by exact A. cbn [snd]. destruct (flt p (rated_success m)); [intros [Q|[Q|[]]]; discriminate Q|]. destruct (flt s (rated_success m)); [intros [Q|[]]; discriminate Q|contradiction].
Qed.
Lemma not_lt_le f g : f32_valid f = true -> f32_valid g = true -> f <> S754_nan -> g <> S754_nan -> flt f g = false <-> fle g f = true.
Proof. intros V W N M. rewrite flt_key, fle_key by assumption. destruct (key f <? key g) eqn:A, (key g <=? key f) eqn:B; split; intros; try reflexivity; try discriminate; lia. Qed.
Lemma deleted_when c m o : meaningful m -> (forall thr cfd b rf, o = Primary thr b cfd rf -> f32_valid thr = true /\ thr <> S754_nan) ->
  (In Deleted (snd (register c m o)) <-> p_alive m = true /\ is_strong m = false /\ exists thr, counts_as_failure o thr /\ fle (rated_failure m) thr = true).
Proof.
  intros M T. rewrite deleted_iff. apply good_iff in M. destruct M as (n & G). destruct (good_failure m n G) as (V & U). pose proof (in_unit_not_nan _ U) as NN.
  split; intros (A & B & thr & F & L); (split; [exact A|]; split; [exact B|]; exists thr; split; [exact F|]); destruct F as (cfd & -> & _); destruct (T _ _ _ _ eq_refl) as (TV & TN); apply not_lt_le; assumption.
Qed.
Lemma alive_step c m o : p_alive (fst (register c m o)) = true <-> p_alive m = true /\ ~ In Deleted (snd (register c m o)).
Proof.
  assert (D : p_alive (fst (m, @nil effect)) = true <-> p_alive m = true /\ ~ In Deleted (snd (m, @nil effect))) by (cbn; tauto).
  destruct o as [thr b cfd rf|p s b]; cbn [register].
  - destruct (feqb cfd fone); [|exact D]. destruct (p_alive m) eqn:A.
    2:{ unfold rate_primary. rewrite A. cbn [negb]. destruct b; [|destruct rf]; cbn [fst snd]; rewrite A; tauto. }
    destruct b; [rewrite succeeded by exact A; cbn; split; [intros _; split; [reflexivity|intros [Q|[]]; discriminate Q]|auto]|].
    destruct rf; [|cbn; rewrite A; tauto]. rewrite failed by exact A. destruct (flt thr (rated_failure m)); [cbn; split; [intros _; split; [reflexivity|intros [Q|[]]; discriminate Q]|auto]|].
    destruct (is_strong m); cbn; [split; [intros _; split; [reflexivity|intros [Q|[Q|[]]]; discriminate Q]|auto]|]. split; [discriminate|]. intros (_ & Q). exfalso. apply Q. left. reflexivity.
  - destruct b; [|exact D]. destruct (s_alive m) eqn:A; [|unfold rate_secondary; rewrite A; exact D]. rewrite woken by exact A. cbn [fst snd p_alive]. split; [|tauto]. intros P. split; [exact P|].
    destruct (flt p (rated_success m)); [intros [Q|[Q|[]]]; discriminate Q|]. destruct (flt s (rated_success m)); [intros [Q|[]]; discriminate Q|intros []].
Qed.
Lemma dead_stays c os : forall m, p_alive m = false -> p_alive (fst (register_all c m os)) = false /\ ~ In Deleted (snd (register_all c m os)).
Proof.
  induction os as [|o os IH]; intros m A; [split; [exact A|intros []]|]. rewrite register_all_cons. cbn [fst snd].
  assert (A' : p_alive (fst (register c m o)) = false). { destruct (p_alive (fst (register c m o))) eqn:Q; [|reflexivity]. apply alive_step in Q. destruct Q; congruence. }
  destruct (IH _ A') as (I1 & I2). split; [exact I1|]. rewrite in_app_iff. intros [Q|Q]; [|contradiction]. apply deleted_iff in Q. destruct Q; congruence.
Qed.
Lemma deleted_last c os1 o os2 m : In Deleted (snd (register c (fst (register_all c m os1)) o)) -> ~ In Deleted (snd (register_all c m os1)) /\
  forall os3, ~ In Deleted (snd (register_all c (fst (register_all c m (os1 ++ [o]))) (os2 ++ os3))) /\
   forall thr b cfd rf, register c (fst (register_all c m (os1 ++ o :: os2))) (Primary thr b cfd rf) = (fst (register_all c m (os1 ++ o :: os2)), []).
Proof.
  intros D. assert (P : p_alive (fst (register_all c m os1)) = true) by (apply deleted_iff in D; apply D). split.
  - revert m D P. induction os1 as [|x os1 IH]; intros m D P; [intros []|]. rewrite register_all_cons in *. cbn [fst snd] in *. rewrite in_app_iff. intros [Q|Q]; [|exact (IH _ D P Q)].
    assert (A : p_alive (fst (register c m x)) = false). { destruct (p_alive (fst (register c m x))) eqn:W; [|reflexivity]. apply alive_step in W. destruct W; contradiction. }
    destruct (dead_stays c os1 _ A). congruence.
  - intros os3. rewrite (register_all_app c os1 m [o]), register_all_cons. cbn [fst snd register_all].
    assert (A : p_alive (fst (register c (fst (register_all c m os1)) o)) = false). { destruct (p_alive (fst (register c (fst (register_all c m os1)) o))) eqn:W; [|reflexivity]. apply alive_step in W. destruct W; contradiction. }
    split; [apply (dead_stays c _ _ A)|]. intros thr b cfd rf. rewrite register_all_app, register_all_cons. cbn [fst]. destruct (dead_stays c os2 _ A) as (A2 & _).
    cbn [register]. unfold rate_primary. rewrite A2. cbn [negb]. destruct (feqb cfd fone), b, rf; reflexivity.
Qed.

(** ** A model that always succeeds *)
Lemma perfect_success m n : good m n -> rate m = fone -> rated_success m = fone.
Proof.
  intros (U & N & C) E. pose proof (product_rounded (rate m) (evidence m) n (num_valid _) U C) as R. rewrite E in R. rewrite val_fone in R.
  destruct (product (rate m) (evidence m) n (num_valid _) U C N) as (V & F & B). rewrite E in *. pose proof unit_val_pos as P.
  assert (PE : val (fmul fone (evidence m)) = n * unit_val) by (apply (rounded_exact _ _ _ _ P R); [apply repr_int; lia|lia]).
  assert (CM : counts n (fmul fone (evidence m))) by (split; [exact V|split; assumption]).
  assert (C1 : counts (n + 1) (fadd (fmul fone (evidence m)) fone)) by (apply counts_add; [lia|exact CM]). destruct C1 as (V1 & F1 & E1).
  assert (C2 : counts (n + 1) (fadd (evidence m) fone)) by (apply counts_add; [lia|exact C]). destruct C2 as (V2 & F2 & E2).
  unfold rated_success. rewrite E. assert (V3 : f32_valid (fdiv (fadd (fmul fone (evidence m)) fone) (fadd (evidence m) fone)) = true) by (apply fdiv_valid; assumption).
  assert (P2 : 0 < val (fadd (evidence m) fone)) by (rewrite E2; nia). pose proof (fdiv_rounded _ _ V1 V2 F1 F2 P2) as R3. apply val_inj; [exact V3|reflexivity|apply R3|discriminate|rewrite val_fone; exact P|].
  rewrite val_fone. apply (rounded_exact _ _ _ _ P2 R3 repr_unit). rewrite E1, E2. lia.
Qed.
Lemma perfect c os : forall m, meaningful m -> rate m = fone -> Forall is_success os -> rate (fst (register_all c m os)) = fone.
Proof.
  induction os as [|o os IH]; intros m M E H; [exact E|]. inversion H as [|? ? HO HS]; subst. rewrite register_all_cons. cbn [fst].
  destruct (proj1 (good_iff m) M) as (n & G). apply IH; [apply good_iff; apply (register_good c m n o G)| |exact HS].
  pose proof (perfect_success m n G E) as PS. assert (KO : num (of_num fone) = fone) by (vm_compute; reflexivity).
  destruct o as [thr b cfd rf|p s b]; cbn [is_success] in HO; subst b; cbn [register].
  - destruct (feqb cfd fone); [|exact E]. destruct (p_alive m) eqn:A; [|unfold rate_primary; rewrite A; exact E]. rewrite succeeded by exact A. cbn [fst]. unfold rate. cbn [m_sr]. rewrite PS. destruct (inertial c m); exact KO.
  - destruct (s_alive m) eqn:A; [|unfold rate_secondary; rewrite A; exact E]. rewrite woken by exact A. cbn [fst]. unfold rate. cbn [m_sr]. rewrite PS. exact KO.
Qed.

(** ** Rates and requests *)
Lemma requests c m o : let m' := fst (register c m o) in let l := snd (register c m o) in
  (counts_as_success o -> p_alive m = true -> inertial c m = false -> rate m' = kept (rated_success m) /\ l = [ActPrimary (rated_success m)] /\ m_dsr m' = m_sr m) /\
  (forall thr, counts_as_failure o thr -> p_alive m = true -> m_dsr m' = m_sr m /\
     (flt thr (rated_failure m) = true -> rate m' = kept (rated_failure m) /\ l = [ActPrimary (rated_failure m)]) /\
     (flt thr (rated_failure m) = false -> is_strong m = true -> rate m' = rate m /\ l = [ActPrimary fzero; ActSecondary (rated_failure m)]) /\
     (flt thr (rated_failure m) = false -> is_strong m = false -> rate m' = rate m /\ l = [Deleted])) /\
  (forall p s, o = Secondary p s true -> s_alive m = true -> rate m' = kept (rated_success m) /\ m_dsr m' = m_sr m /\
     l = if flt p (rated_success m) then [ActSecondary fzero; ActPrimary (rated_success m)] else if flt s (rated_success m) then [ActSecondary (rated_success m)] else []).
Proof.
  cbv zeta. split; [|split].
  - intros (thr & cfd & rf & -> & E) A I. cbn [register]. rewrite E, succeeded by exact A. cbn [fst snd]. rewrite I. auto.
  - intros thr (cfd & -> & E) A. cbn [register]. rewrite E, failed by exact A.
    destruct (flt thr (rated_failure m)); [cbn [fst snd m_dsr]; split; [reflexivity|]; split; [auto|]; split; discriminate|].
    destruct (is_strong m); cbn [fst snd m_dsr]; (split; [reflexivity|]; split; [discriminate|]); split; intros; try discriminate; auto.
  - intros p s -> A. cbn [register]. rewrite woken by exact A. auto.
Qed.

(** ** Direction *)
Lemma failure_lowers m n : good m n -> val (rated_failure m) <= val (rate m).
Proof.
  intros (U & N & C). pose proof (num_valid (m_sr m)) as VS. fold (rate m) in VS. pose proof (product_rounded _ _ n VS U C) as R. destruct (product _ _ n VS U C N) as (V & F & B).
  pose proof (quotient_rounded (rate m) (evidence m) n C N _ V F) as Q. pose proof (sr_val (rate m) VS U) as SV. pose proof unit_val_pos as UP.
  fold (rated_failure m) in Q. apply (rounded_le _ _ _ _ Q (repr_val _ VS)).
  assert (L : val (fmul (rate m) (evidence m)) <= val (rate m) * (n + 1)); [|nia].
  assert (VR : repr_pos (val (rate m))) by (pose proof (repr_val _ VS) as W; unfold repr in W; rewrite Z.abs_eq in W by lia; exact W).
  set (s := val (rate m)) in *. set (p := val (fmul (rate m) (evidence m))) in *.
  destruct (Z.eq_dec s 0) as [E|E]; [rewrite E in *; assert (p <= 0); [apply (rounded_le _ _ _ 0 R repr_0); lia|lia]|].
  assert (LB : sc 1 (-149) <= s).
  { destruct VR as (_ & [Z0|(m' & e & M & EE & ->)]); [lia|]. unfold sc. assert (2 ^ (-149 + 1000) <= 2 ^ (e + 1000)) by (apply Z.pow_le_mono_r; lia). assert (0 < 2 ^ (-149 + 1000)) by (apply Z.pow_pos_nonneg; lia). nia. }
  destruct (bracket (s * (n * unit_val)) unit_val UP) as (lo & w & R1 & R2 & P0 & P1 & P2 & P3).
  { nia. }
  { assert (X : unit_val * 8388608 <= 2 ^ 1100). { unfold unit_val. change 8388608 with (2 ^ 23). rewrite <- Z.pow_add_r by lia. apply Z.pow_le_mono_r; lia. }
    assert (s * n <= unit_val * 8388608) by nia. generalize dependent (2 ^ 1100). intros. nia. }
  pose proof (rounded_le _ _ _ _ R R2 ltac:(lia)) as PL. assert (WS : w <= s).
  { destruct P3 as [P3|P3]; [|lia]. assert (w * 8388608 <= s * n) by nia. nia. }
  assert (lo <= s * n) by nia. lia.
Qed.
Lemma success_raises m n : good m n -> (n + 1) * unit_val <= 4194304 * (unit_val - val (rate m)) -> val (rate m) <= val (rated_success m).
Proof.
  intros (U & N & C) H. pose proof (num_valid (m_sr m)) as VS. fold (rate m) in VS. pose proof (product_rounded _ _ n VS U C) as R. destruct (product _ _ n VS U C N) as (V & F & B).
  destruct (successes _ _ n VS U C N) as (VY & FY & BY & RY). pose proof (quotient_rounded (rate m) (evidence m) n C N _ VY FY) as Q. pose proof (sr_val (rate m) VS U) as SV. pose proof unit_val_pos as UP.
  fold (rated_success m) in Q. apply (rounded_ge _ _ _ _ Q (repr_val _ VS)).
  set (y := val (fadd (fmul (rate m) (evidence m)) fone)) in *. set (p := val (fmul (rate m) (evidence m))) in *. set (s := val (rate m)) in *.
  assert (L : s * (n + 1) <= y); [|nia].
  assert (SM : sc 1 (-149) * 8388608 <= unit_val). { unfold sc, unit_val. change 8388608 with (2 ^ 23). rewrite Z.mul_1_l, <- Z.pow_add_r by lia. apply Z.pow_le_mono_r; lia. }
  assert (X : unit_val * 16777216 <= 2 ^ 1100). { unfold unit_val. change 16777216 with (2 ^ 24). rewrite <- Z.pow_add_r by lia. apply Z.pow_le_mono_r; lia. }
  destruct (bracket (s * (n * unit_val)) unit_val UP) as (lo & w & R1 & _ & P0 & P1 & P2 & P3).
  { nia. }
  { assert (s * n <= unit_val * 16777216) by nia. generalize dependent (2 ^ 1100). intros. nia. }
  destruct (bracket (p + unit_val) 1 ltac:(lia)) as (lo' & w' & R1' & _ & P0' & P1' & P2' & P3').
  { lia. }
  { assert (p + unit_val <= unit_val * 16777216) by nia. generalize dependent (2 ^ 1100). intros. lia. }
  pose proof (rounded_ge _ _ _ _ R R1 ltac:(lia)) as PL. pose proof (rounded_ge _ _ _ _ RY R1' ltac:(lia)) as PL'. clear R RY Q R1 R1' X.
  assert (W : w * 8388608 <= n * unit_val). { destruct P3 as [P3|P3]; [assert (w * 8388608 <= s * n) by nia; nia|]. rewrite P3. nia. }
  assert (W' : w' * 8388608 <= (n + 1) * unit_val). { destruct P3' as [P3'|P3']; [lia|]. rewrite P3'. nia. }
  assert (s * n <= lo + w) by nia. assert (p + unit_val <= lo' + w') by lia. lia.
Qed.
Lemma limit_val n : 1 <= n < 4194304 -> val (fsub fone (fdiv (f32_of_Z (n + 1)) (f32_of_Z 4194304))) * 4194304 = (4194304 - (n + 1)) * unit_val /\
  f32_valid (fsub fone (fdiv (f32_of_Z (n + 1)) (f32_of_Z 4194304))) = true /\ fsub fone (fdiv (f32_of_Z (n + 1)) (f32_of_Z 4194304)) <> S754_nan.
Proof.
  intros N. pose proof unit_val_pos as UP. destruct (of_Z_counts (n + 1) ltac:(lia)) as (V1 & F1 & E1). destruct (of_Z_counts 4194304 ltac:(lia)) as (V2 & F2 & E2).
  set (t := sc 1 (-22)). assert (T : t * 4194304 = unit_val). { unfold t, sc, unit_val. change 4194304 with (2 ^ 22). rewrite Z.mul_1_l, <- Z.pow_add_r by lia. reflexivity. }
  assert (RT : forall k, 0 <= k <= 4194304 -> repr (k * t)).
  { intros k K. unfold repr. rewrite Z.abs_eq by nia. split; [pose proof (small_lt_inf 1 ltac:(lia)); nia|]. destruct (Z.eq_dec k 0) as [->|]; [left; lia|]. right. exists k, (-22). split; [lia|]. split; [lia|]. unfold t, sc. lia. }
  pose proof (fdiv_rounded _ _ V1 V2 F1 F2 ltac:(rewrite E2; lia)) as R. rewrite E1, E2 in R.
  assert (E : val (fdiv (f32_of_Z (n + 1)) (f32_of_Z 4194304)) = (n + 1) * t) by (apply (rounded_exact ((n + 1) * unit_val * unit_val) (4194304 * unit_val)); [lia|exact R|apply RT; lia|rewrite <- T; ring]).
  assert (V : f32_valid (fdiv (f32_of_Z (n + 1)) (f32_of_Z 4194304)) = true) by (apply fdiv_valid; assumption).
  assert (F : is_finite (fdiv (f32_of_Z (n + 1)) (f32_of_Z 4194304)) = true) by (apply (finite_small _ 1); [exact V|apply R|lia|rewrite E; nia]).
  pose proof (fsub_rounded fone _ eq_refl V eq_refl F) as RS. rewrite E, val_fone in RS.
  assert (ES : val (fsub fone (fdiv (f32_of_Z (n + 1)) (f32_of_Z 4194304))) = (4194304 - (n + 1)) * t) by (apply (rounded_exact _ 1 _ _ ltac:(lia) RS); [apply RT; lia|nia]).
  rewrite ES. split; [nia|]. split; [apply fsub_valid; [reflexivity|exact V]|apply RS].
Qed.

Lemma failure_direction c m o thr : meaningful m -> counts_as_failure o thr -> fle (rate (fst (register c m o))) (rate m) = true.
Proof.
  intros M (cfd & -> & E). destruct (proj1 (good_iff m) M) as (n & G). pose proof (num_valid (m_sr m)) as VS. fold (rate m) in VS. assert (NS : rate m <> S754_nan) by (apply in_unit_not_nan, G).
  cbn [register]. rewrite E. destruct (p_alive m) eqn:A; [|unfold rate_primary; rewrite A; apply fle_refl; assumption]. rewrite failed by exact A.
  destruct (flt thr (rated_failure m)); [|destruct (is_strong m); apply fle_refl; assumption]. cbn [fst]. unfold rate at 1. cbn [m_sr]. fold (kept (rated_failure m)).
  destruct (good_failure m n G) as (V & U). pose proof (kept_le _ V U) as K. pose proof (failure_lowers m n G). apply fle_val; [apply num_valid|exact VS|apply in_unit_not_nan, kept_unit; assumption|exact NS|lia].
Qed.
Lemma success_direction c m n o : meaningful m -> counted m n -> 1 <= n < 4194304 -> fle (rate m) (fsub fone (fdiv (f32_of_Z (n + 1)) (f32_of_Z 4194304))) = true ->
  is_success o -> fle (rate m) (rate (fst (register c m o))) = true.
Proof.
  intros M CN N H S. assert (G : good m n) by (apply good_counted; [exact M|lia|exact CN]). pose proof (num_valid (m_sr m)) as VS. fold (rate m) in VS. assert (NS : rate m <> S754_nan) by (apply in_unit_not_nan, G).
  destruct (limit_val n N) as (LV & LF & LN). apply fle_val in H; try assumption.
  assert (K : val (rate m) <= val (kept (rated_success m))).
  { destruct (good_success m n G) as (V & U). apply (kept_ge _ (m_sr m) V U); [exact NS|]. apply (success_raises m n G). pose proof unit_val_pos. lia. }
  destruct (good_success m n G) as (V & U).
  assert (R : fle (rate m) (kept (rated_success m)) = true) by (apply fle_val; [exact VS|apply num_valid|exact NS|apply in_unit_not_nan, kept_unit; assumption|exact K]).
  assert (R1 : fle (rate m) (num (of_num fone)) = true) by (change (num (of_num fone)) with fone; apply G).
  assert (R0 : fle (rate m) (rate m) = true) by (apply fle_refl; assumption).
  destruct o as [thr b cfd rf|p s b]; cbn [is_success] in S; subst b; cbn [register].
  - destruct (feqb cfd fone); [|exact R0]. destruct (p_alive m) eqn:A; [|unfold rate_primary; rewrite A; exact R0]. rewrite succeeded by exact A. cbn [fst]. unfold rate at 2. cbn [m_sr]. destruct (inertial c m); assumption.
  - destruct (s_alive m) eqn:A; [|unfold rate_secondary; rewrite A; exact R0]. rewrite woken by exact A. exact R.
Qed.

(** ** Witnesses *)
Definition w_high : rated := mkrated (of_num fzero) (of_num (f32_of_Z 8564)) (of_num (fdiv (f32_of_Z 8563) (f32_of_Z 8564))) (of_num fone) true true.
Definition default_inertia : inertia := mkinertia (fdiv (f32_of_Z 9) (f32_of_Z 10)) 6 0.
Definition strict : inertia := mkinertia fone 6 0.
Definition w_full : rated := mkrated (of_num fzero) (of_num (f32_of_Z 8388608)) (of_num half) (of_num half) true true.
Definition w_strong : rated := mkrated (of_num fone) (of_num fone) (of_num fone) (of_num fone) true true.
Definition certain (thr : spec_float) (b : bool) : outcome := Primary thr b fone true.
Lemma meaningful_check m n : 1 <= n <= 8388608 -> fle fzero (rate m) = true -> fle (rate m) fone = true -> counted m n -> meaningful m.
Proof. intros N A B C. split; [split; assumption|]. exists n. auto. Qed.
Lemma success_refuted : exists c m o, meaningful m /\ is_success o /\ flt (rate (fst (register c m o))) (rate m) = true.
Proof.
  exists strict, w_high, (certain half true). split; [apply (meaningful_check _ 8564); [lia| | |]; vm_compute; reflexivity|]. split; [reflexivity|]. vm_compute. reflexivity.
Qed.
Lemma count_refuted : exists c m n o, meaningful m /\ counted m n /\ counts_as_failure o half /\ flt half (rated_failure m) = false /\ p_alive m = true /\
  is_strong m = true /\ counted (fst (register c m o)) n.
Proof.
  exists default_inertia, w_strong, 1, (certain half false). split; [apply (meaningful_check _ 1); [lia| | |]; vm_compute; reflexivity|]. split; [vm_compute; reflexivity|].
  split; [exists fone; split; reflexivity|]. split; [vm_compute; reflexivity|]. split; [reflexivity|]. split; vm_compute; reflexivity.
Qed.
Lemma saturated : exists c m n o, meaningful m /\ counted m n /\ counts_as_success o /\ p_alive m = true /\ inertial c m = false /\
  counted (fst (register c m o)) n.
Proof.
  exists default_inertia, w_full, 8388608, (certain half true). split; [apply (meaningful_check _ 8388608); [lia| | |]; vm_compute; reflexivity|]. split; [vm_compute; reflexivity|].
  split; [exists half, fone, true; split; reflexivity|]. split; [reflexivity|]. split; vm_compute; reflexivity.
Qed.
