(** Proofs about change monitoring and decay in a group. *)
From Coq Require Import Floats.SpecFloat.
From Verif Require Import Base Float32 Float32_facts Float32_round Rate_float Atom_model Obj_model Obj_spec Float32_val View_model View_spec View_proofs Grp_model Grp_spec Grp_proofs Grp_more Grp_one Grp2_spec Grp2_proofs Grp3_proofs.

(** ** The counters of a group *)
Definition marks (g : group) : Z * Z * decay := (mon_sln g, mon_act g, dcy g).
Lemma mod_marks g i x : marks (group_mod g i x) = marks g.
Proof. unfold group_mod. do 32 (destruct i as [|i]; [reflexivity|]). reflexivity. Qed.
Lemma set_marks g i x : marks (group_set g i x) = marks g.
Proof.
  unfold group_set, _set_0_positive, _set_0_plus1, _set_minus1_plus1, _set_0_1.
  do 32 (destruct i as [|i]; [repeat match goal with |- context [if ?b then _ else _] => destruct b end; reflexivity|]). reflexivity.
Qed.
Lemma param_marks g p : marks (update_param g p) = marks g.
Proof. unfold update_param. destruct (changes (tal g p) =? 0); reflexivity. Qed.
Lemma change_marks g oid f : marks (change_view g oid f) = marks g.
Proof. unfold change_view. destruct (place_holding g oid); reflexivity. Qed.
Lemma salient_marks (b : bool) h l : marks (if b then with_newly h l else h) = marks h.
Proof. destruct b; reflexivity. Qed.
Lemma existing_marks g oid v t : marks (inject_existing g oid v t) = marks g.
Proof.
  unfold inject_existing. destruct (get_view g oid); [|reflexivity]. cbn zeta. rewrite salient_marks. unfold update_c_sln, update_c_act. rewrite !param_marks, change_marks. reflexivity.
Qed.
Lemma load_marks g v m : marks (load g v m) = marks g.
Proof. unfold load. cbn zeta. repeat match goal with |- context [if ?b then with_views _ _ _ else _] => destruct b end; reflexivity. Qed.
Lemma inject_marks g v m t : marks (inject g v m t) = marks g.
Proof.
  unfold inject. cbn zeta. destruct (_ =? NULL_PROGRAM); [rewrite salient_marks; reflexivity|]. destruct (_ || _ || _); [rewrite salient_marks; reflexivity|]. destruct (_ =? INSTANTIATED_CPP_PROGRAM); [destruct m; [rewrite salient_marks|]; reflexivity|].
  destruct (_ =? INSTANTIATED_ANTI_PROGRAM); [rewrite salient_marks; reflexivity|]. destruct (_ =? INSTANTIATED_INPUT_LESS_PROGRAM); [rewrite salient_marks; reflexivity|]. destruct (_ || _); rewrite salient_marks; reflexivity.
Qed.
Lemma op_marks g o g' : is_update o = false -> run_gop g o = Some g' -> marks g' = marks g.
Proof.
  intros U R. destruct o; try discriminate U; cbn [run_gop] in R; injection R as <-.
  - apply mod_marks.
  - apply set_marks.
  - apply load_marks.
  - apply inject_marks.
  - unfold inject_hlp. cbn zeta. destruct (_ || _); reflexivity.
  - reflexivity.
  - reflexivity.
  - reflexivity.
  - apply existing_marks.
  - reflexivity.
  - unfold delete_view. destruct (place_of v); reflexivity.
Qed.
Lemma execute_marks l : forall g, marks (fold_left execute l g) = marks g.
Proof. induction l as [|o l IH]; intros g; cbn [fold_left]; [reflexivity|]. rewrite IH. destruct o; cbn [execute]; apply change_marks. Qed.
Lemma executed_marks g : marks (executed g) = marks g.
Proof. unfold executed. change (marks (with_pend ?a ?b)) with (marks a). rewrite execute_marks. reflexivity. Qed.
Lemma settled_mons u g : mon_sln (settled u g) = mon_sln g /\ mon_act (settled u g) = mon_act g.
Proof.
  unfold settled, update_c_sln, update_c_act, update_vis_thr, update_act_thr. rewrite update_sln_thr_is.
  assert (E : forall h p, mon_sln (update_param h p) = mon_sln h /\ mon_act (update_param h p) = mon_act h) by (intros h p; pose proof (param_marks h p) as M; unfold marks in M; inversion M; auto).
  rewrite !(proj1 (E _ _)), !(proj2 (E _ _)). unfold before_thr. cbn zeta. destruct (_ && _); split; reflexivity.
Qed.
Lemma begin_mons e g : mon_sln (fst (update_begin e g)) = step_monitor (ub e) (mon_sln g) (gnum g GRP_SLN_CHG_THR) (gnum g GRP_SLN_CHG_PRD) /\
  mon_act (fst (update_begin e g)) = step_monitor (ub e) (mon_act g) (gnum g GRP_ACT_CHG_THR) (gnum g GRP_ACT_CHG_PRD).
Proof.
  assert (H : exists h, h = settled (ub e) (executed g) /\ fst (update_begin e g) = with_mon h (step_monitor (ub e) (mon_sln h) (gnum h GRP_SLN_CHG_THR) (gnum h GRP_SLN_CHG_PRD)) (step_monitor (ub e) (mon_act h) (gnum h GRP_ACT_CHG_THR) (gnum h GRP_ACT_CHG_PRD))).
  { eexists. split; [reflexivity|]. unfold update_begin. cbn zeta. cbn [fst]. unfold settled, executed. reflexivity. }
  destruct H as (h & E & B). rewrite B. cbn [mon_sln mon_act with_mon]. clear B.
  assert (N : forall i, (forall p, i <> gindex p) -> gnum h i = gnum g i) by (intros i Hi; rewrite E; unfold gnum; rewrite settled_word by exact Hi; rewrite executed_code; reflexivity).
  assert (M : mon_sln h = mon_sln g /\ mon_act h = mon_act g).
  { rewrite E. destruct (settled_mons (ub e) (executed g)) as (-> & ->). pose proof (executed_marks g) as X. unfold marks in X. inversion X; auto. }
  destruct M as (-> & ->). rewrite !N by (intros []; discriminate). split; reflexivity.
Qed.
Lemma update_mons e g g' out : update e g = Some (g', out) ->
  mon_sln g' = step_monitor (ub e) (mon_sln g) (gnum g GRP_SLN_CHG_THR) (gnum g GRP_SLN_CHG_PRD) /\ mon_act g' = step_monitor (ub e) (mon_act g) (gnum g GRP_ACT_CHG_THR) (gnum g GRP_ACT_CHG_PRD) /\
  mon_sln g' = mon_sln (fst (update_begin e g)) /\ mon_act g' = mon_act (fst (update_begin e g)).
Proof.
  intros U. destruct (update_split e g g' out U) as (g1 & s & g2 & p & x & l & B & V & X & S & _). clear U.
  destruct (visit_places_spec _ _ _ _ _ _ _ order_nodup V) as ((_ & _ & _ & R1 & R2 & _) & _). clear V X.
  pose proof (update_stats_spec e (with_new_ctl (with_newly g2 (p_newly p)) x) p) as T. rewrite S in T. destruct T as (_ & _ & _ & _ & _ & T1 & T2 & _). clear S. cbn [mon_sln mon_act with_new_ctl with_newly] in T1, T2.
  destruct (begin_mons e g) as (M1 & M2). rewrite B in *. cbn [fst] in *. repeat split; congruence.
Qed.

(** ** Change monitors *)
Record monitor := mkmonit { w_mon : group -> Z; w_thr : nat; w_prd : nat; w_val : view -> spec_float; w_ini : view -> spec_float; w_note : Z -> spec_float -> note }.
Definition sln_mon : monitor := mkmonit mon_sln GRP_SLN_CHG_THR GRP_SLN_CHG_PRD get_sln i_sln SlnChg.
Definition act_mon : monitor := mkmonit mon_act GRP_ACT_CHG_THR GRP_ACT_CHG_PRD get_act i_act ActChg.
Record mon_good (m : monitor) : Prop := {
  mg_update : forall e g g' out, update e g = Some (g', out) -> w_mon m g' = step_monitor (ub e) (w_mon m g) (gnum g (w_thr m)) (gnum g (w_prd m)) /\ w_mon m g' = w_mon m (fst (update_begin e g));
  mg_marks : forall g g', marks g' = marks g -> w_mon m g' = w_mon m g;
  mg_members : forall i, In i [w_thr m; w_prd m] -> (forall p, i <> gindex p) /\ ~ stat_word i;
  mg_counts : forall a b, same_counts a b -> w_ini m b = w_ini m a;
  mg_visit : forall e g s pl v u l, visit_fun e g s pl v = Some (Some u, l) -> w_ini m (vw u) = w_ini m (vw v) /\ forall o d, ~ In (w_note m o d) l;
  mg_looked : forall g v, w_ini m (vw (looked g v)) = (if w_mon m g =? 0 then w_val m (vw v) else w_ini m (vw v)) /\ w_val m (vw (looked g v)) = w_val m (vw v);
  mg_about : forall o d, about (w_note m o d) = o;
  mg_reported : forall g v o d, reported g v (w_note m o d) <-> w_mon m g = 0 /\ flt (gnum g (w_thr m)) (fabs d) = true /\ o = vid v /\ d = fsub (w_val m (vw v)) (w_ini m (vw v)) }.
Lemma note_kinds g v n : In n (res_note g v) \/ In n (sln_note g v) \/ In n (act_note g v) -> forall o d, n <> SlnChg o d /\ n <> ActChg o d.
Proof.
  unfold res_note, sln_note, act_note, g_update_res, g_update_sln, g_update_act. destruct (update_res (vw v)). destruct (update_act _ _ _). destruct (update_sln _ _ _).
  assert (F : forall (l : list note), Forall (fun n => forall o d, n <> SlnChg o d /\ n <> ActChg o d) l -> In n l -> forall o d, n <> SlnChg o d /\ n <> ActChg o d) by (intros l H; rewrite Forall_forall in H; apply H).
  assert (C : forall x, (forall o d, x <> SlnChg o d /\ x <> ActChg o d) -> Forall (fun n => forall o d, n <> SlnChg o d /\ n <> ActChg o d) [x]) by (intros; constructor; [assumption|constructor]).
  intros [H|[H|H]]; revert H; apply F; repeat match goal with |- context [if ?b then _ else _] => destruct b end; cbn; first [apply Forall_nil|apply C; intros; split; discriminate].
Qed.
Lemma visit_ini e g s pl v u l : visit_fun e g s pl v = Some (Some u, l) -> (i_sln (vw u) = i_sln (vw v) /\ i_act (vw u) = i_act (vw v)) /\ forall n o d, In n l -> n <> SlnChg o d /\ n <> ActChg o d.
Proof.
  unfold visit_fun. cbn zeta. intros H. destruct (invalid e (vid v)); [destruct (erased pl v); discriminate|]. destruct (planned e <=? ijt v); [injection H as <- <-; split; [auto|contradiction]|].
  destruct (flt fzero (res_val g v)); [|destruct (erased pl v); discriminate]. destruct (res_counts g v) as ((_ & _ & _ & _ & R1 & R2) & _). set (v1 := res_view g v) in *. destruct (sln_rest g v1) as (_ & _ & S1 & S2 & _).
  set (v2 := renewed e g s (sln_view g v1) (sln_val g v1)) in *.
  assert (W : vw v2 = vw (sln_view g v1)) by (clear; unfold v2, renewed; destruct (_ && _); reflexivity). clearbody v2.
  assert (N : forall n o d, In n (res_note g v ++ sln_note g v1) -> n <> SlnChg o d /\ n <> ActChg o d).
  { intros n o d X. apply in_app_iff in X. destruct X as [X|X]; [apply (note_kinds g v n); auto|apply (note_kinds g v1 n); auto]. }
  destruct (kind v2 =? GROUP).
  - injection H as H1 H2. rewrite <- H1, <- H2. destruct (visibility_vw g s v2) as ((_ & _ & _ & _ & A & B) & _). split; [split; congruence|exact N].
  - destruct (is_program (kind v2)); [|injection H as H1 H2; rewrite <- H1, <- H2; split; [split; congruence|exact N]].
    destruct (activated g s _ _ _) as [w|] eqn:AC; [|discriminate]. injection H as H1 H2. rewrite <- H1, <- H2. destruct (activated_vw _ _ _ _ _ _ AC) as (AW & _). destruct (act_rest g v2) as (_ & _ & B1 & B2 & _). split; [rewrite AW; split; congruence|].
    intros n o d X. apply in_app_iff in X. destruct X as [X|X]; [apply N, X|apply (note_kinds g v2 n); auto].
Qed.
Lemma sln_mon_good : mon_good sln_mon.
Proof.
  constructor; cbn [w_mon w_thr w_prd w_val w_ini w_note sln_mon].
  - intros e g g' out U. destruct (update_mons e g g' out U) as (A & _ & B & _). auto.
  - intros g g' M. unfold marks in M. congruence.
  - intros i [<-|[<-|[]]]; (split; [intros []; discriminate|unfold stat_word, GRP_SLN_CHG_THR, GRP_SLN_CHG_PRD; lia]).
  - intros a b (_ & _ & _ & _ & A & _). exact A.
  - intros e g s pl v u l H. destruct (visit_ini _ _ _ _ _ _ _ H) as ((A & _) & B). split; [exact A|]. intros o d X. destruct (B _ o d X) as (Q & _). apply Q. reflexivity.
  - intros g v. unfold looked. cbn zeta. destruct (mon_sln g =? 0), (mon_act g =? 0); split; reflexivity.
  - reflexivity.
  - intros g v o d. unfold reported, sln_change. split.
    + intros [(A & B & C)|(_ & _ & C)]; [|discriminate C]. injection C as -> ->. auto.
    + intros (A & B & -> & ->). left. auto.
Qed.
Lemma act_mon_good : mon_good act_mon.
Proof.
  constructor; cbn [w_mon w_thr w_prd w_val w_ini w_note act_mon].
  - intros e g g' out U. destruct (update_mons e g g' out U) as (_ & A & _ & B). auto.
  - intros g g' M. unfold marks in M. congruence.
  - intros i [<-|[<-|[]]]; (split; [intros []; discriminate|unfold stat_word, GRP_ACT_CHG_THR, GRP_ACT_CHG_PRD; lia]).
  - intros a b (_ & _ & _ & _ & _ & A). exact A.
  - intros e g s pl v u l H. destruct (visit_ini _ _ _ _ _ _ _ H) as ((_ & A) & B). split; [exact A|]. intros o d X. destruct (B _ o d X) as (_ & Q). apply Q. reflexivity.
  - intros g v. unfold looked. cbn zeta. destruct (mon_sln g =? 0), (mon_act g =? 0); split; reflexivity.
  - reflexivity.
  - intros g v o d. unfold reported, act_change. split.
    + intros [(_ & _ & C)|(A & B & C)]; [discriminate C|]. injection C as -> ->. auto.
    + intros (A & B & -> & ->). right. auto.
Qed.
Definition mval (m : monitor) (oid : Z) (g : group) : Z * spec_float := (w_mon m g, match get_view g oid with Some v => w_val m (vw v) | None => fzero end).
Definition WATCH (home : Z -> place) (m : monitor) (oid : Z) (r : spec_float) (g : group) : Prop :=
  INV home g /\ forall v, get_view g oid = Some v -> ntf v = false /\ w_ini m (vw v) = r.
Lemma not_ntf_home home g oid v : INV home g -> get_view g oid = Some v -> ntf v = false -> home oid <> Ntf /\ vid v = oid.
Proof.
  intros I G N. rewrite (get_view_home home) in G by exact I. apply find_key in G. destruct (I (home oid)) as (_ & F). destruct (F _ _ G) as (K & P & _). split; [|congruence]. intros E. rewrite E in P. unfold place_of in P. rewrite N in P.
  repeat match type of P with context [if ?b then _ else _] => destruct b end; discriminate.
Qed.
Lemma watch_update home m oid r e g g' out : mon_good m -> update e g = Some (g', out) -> WATCH home m oid r g ->
  WATCH home m oid (if w_mon m g' =? 0 then snd (mval m oid g') else r) g' /\
  forall u d, get_view g' oid = Some u -> (In (w_note m oid d) (o_notes out) <-> w_mon m g' = 0 /\ d = fsub (w_val m (vw u)) r /\ flt (gnum g' (w_thr m)) (fabs d) = true).
Proof.
  intros GM U (I & H). pose proof (update_inv home e g g' out I U) as I'. destruct (mg_update m GM e g g' out U) as (_ & M).
  assert (TH : gnum g' (w_thr m) = gnum (fst (update_begin e g)) (w_thr m)).
  { destruct (mg_members m GM (w_thr m)) as (NP & NS); [left; reflexivity|]. rewrite begin_num by exact NP. unfold gnum. rewrite (update_member e g g' out _ U NP NS). reflexivity. }
  destruct (update_one home e g g' out I U) as (g1 & s & B & O). specialize (O oid). rewrite B in M, TH. cbn [fst] in M, TH. clear U B.
  destruct (get_view g oid) as [v|] eqn:G.
  2:{ destruct O as (N & _). split; [split; [exact I'|intros u Hu; congruence]|intros u d Hu; congruence]. }
  destruct O as (q & l & V & GV & NT). destruct (H v eq_refl) as (H1 & H2). destruct (not_ntf_home home g oid v I G H1) as (HN & HV). rewrite place_eqb_neq in GV by exact HN.
  destruct q as [u|]; cbn [option_map] in GV; [|split; [split; [exact I'|intros u Hu; congruence]|intros u d Hu; congruence]].
  destruct (visit_kind _ _ _ _ _ _ _ V) as (KV & _ & KN). cbn [vid ntf with_vw] in KV, KN. destruct (mg_visit m GM _ _ _ _ _ _ _ V) as (E & NL). cbn [vw with_vw] in E. rewrite (mg_counts m GM _ _ (asked_counts oid (pend g) (vw v))), H2 in E.
  destruct (mg_looked m GM g1 u) as (L1 & L2). destruct (looked_core g1 u) as (_ & _ & LN & _).
  assert (X : snd (mval m oid g') = w_val m (vw u)) by (unfold mval; rewrite GV; exact L2). split.
  - split; [exact I'|]. intros y Hy. rewrite GV in Hy. assert (Y : y = looked g1 u) by congruence. rewrite Y. split; [congruence|]. rewrite L1, M, X, E. reflexivity.
  - intros y d Hy. rewrite GV in Hy. assert (Y : y = looked g1 u) by congruence. rewrite Y, L2. rewrite (NT _ (mg_about m GM oid d)), M, TH. split.
    + intros [Q|(u0 & Q1 & _ & Q2)]; [contradiction (NL _ _ Q)|]. assert (u0 = u) by congruence. subst u0. apply (mg_reported m GM) in Q2. destruct Q2 as (A1 & A2 & A3 & A4). rewrite E in A4. auto.
    + intros (A1 & A2 & A3). right. exists u. split; [reflexivity|]. split; [exact HN|]. apply (mg_reported m GM). split; [exact A1|]. split; [exact A3|]. split; [congruence|]. rewrite E. exact A2.
Qed.
Lemma absent_op home g o g' oid : proper home o -> keeps oid o -> is_update o = false -> run_gop g o = Some g' -> INV home g -> get_view g oid = None -> get_view g' oid = None.
Proof.
  intros PR (K1 & K2) U R I G. destruct o; try discriminate U.
  1-8,10-11: rewrite (op_keeps_view home g _ g' oid PR K1 K2 ltac:(discriminate) eq_refl R I); exact G.
  cbn [run_gop] in R. injection R as <-. destruct (Z.eq_dec oid0 oid) as [->|NE]; [unfold inject_existing; rewrite G; exact G|]. rewrite (existing_get home) by assumption. exact G.
Qed.
Lemma watch_runs home m oid os : mon_good m -> forall r g g', Forall (proper home) os -> Forall (keeps oid) os -> run_gops g os = Some g' -> WATCH home m oid r g ->
  WATCH home m oid (last_looked r (trace (mval m oid) g os)) g'.
Proof.
  intros GM. induction os as [|o os IH]; intros r g g' PR K R H; cbn [run_gops trace] in *; [injection R as <-; exact H|].
  inversion PR; subst. inversion K; subst. destruct (run_gop g o) as [g1|] eqn:R1; [|discriminate R]. unfold last_looked. rewrite fold_left_app. apply (IH _ g1 g'); try assumption. clear IH R.
  destruct (is_update o) eqn:U; cbn [fold_left].
  - destruct o; try discriminate U. apply run_update in R1. destruct R1 as (out & R1). apply (watch_update home m oid r e g g1 out GM R1 H).
  - destruct H as (I & H). split; [apply (op_inv home g o); assumption|]. intros u Hu. destruct (get_view g oid) as [v|] eqn:G.
    + destruct (op_counts home g o g1 oid v H2 H4 U R1 I G) as (w & GW & C & _ & _ & (_ & _ & P3)). rewrite GW in Hu. injection Hu as <-. destruct (H v eq_refl) as (A1 & A2). rewrite (mg_counts m GM _ _ C). split; congruence.
    + rewrite (absent_op home g o g1 oid H2 H4 U R1 I G) in Hu. discriminate Hu.
Qed.
Lemma change_reported m home code a b os0 g oid v os gz e g' out u d : mon_good m -> Forall (proper home) os0 -> run_gops (new_group code a b) os0 = Some g -> get_view g oid = Some v -> ntf v = false ->
  Forall (proper home) os -> Forall (keeps oid) os -> run_gops g os = Some gz -> update e gz = Some (g', out) -> get_view g' oid = Some u ->
  (In (w_note m oid d) (o_notes out) <-> w_mon m g' = 0 /\ d = fsub (w_val m (vw u)) (last_looked (w_ini m (vw v)) (trace (mval m oid) g os)) /\ flt (gnum g' (w_thr m)) (fabs d) = true).
Proof.
  intros GM P0 R0 G N PR K R U GU. pose proof (runs_inv home os0 _ _ P0 R0 (new_inv home code a b)) as I.
  assert (H : WATCH home m oid (w_ini m (vw v)) g) by (split; [exact I|]; intros w Hw; assert (w = v) by congruence; subst w; auto).
  pose proof (watch_runs home m oid os GM _ g gz PR K R H) as H'. apply (proj2 (watch_update home m oid _ e gz g' out GM U H') u d GU).
Qed.

(** The countdown *)

(** The countdown. *)
Lemma int_prd u P prd : f32_valid P = true -> feqb P (f32_of_Z prd) = true -> 0 <= prd <= 16777216 -> to_int32 u P = prd.
Proof.
  intros V E B. assert (NP : P <> S754_nan) by (intros ->; discriminate). apply feqb_val in E; [|exact V|apply of_Z_valid|exact NP|apply of_Z_not_nan]. rewrite of_Z_exact in E by lia. pose proof unit_val_pos as U.
  assert (F : is_finite P = true).
  { apply val_finite_iff; [exact V|exact NP|]. rewrite E. rewrite Z.abs_eq by nia. unfold sc, unit_val. change (105 + 1000) with (105 + 1000). rewrite (Z.pow_add_r 2 105 1000) by lia. set (z := 2 ^ 1000) in *. assert (0 < z) by (unfold z; apply Z.pow_pos_nonneg; lia). clearbody z. change (2 ^ 105) with 40564819207303340847894502572032. nia. }
  assert (T : f32_trunc P = prd) by (rewrite trunc_val by (assumption || nia); rewrite E; apply Z.div_mul; lia).
  unfold to_int32. rewrite F, T. replace (-2147483648 <=? prd) with true by (symmetry; apply Z.leb_le; lia). replace (prd <? 2147483648) with true by (symmetry; apply Z.ltb_lt; lia). reflexivity.
Qed.
Lemma countdown_next m prd n : 0 <= prd -> 0 <= n -> countdown m prd (n + 1) = if countdown m prd n <=? 0 then prd else countdown m prd n - 1.
Proof.
  intros P N. unfold countdown. destruct (Z.leb_spec n (Z.max m 0)) as [A|A].
  - destruct (Z.leb_spec (n + 1) (Z.max m 0)) as [B|B]; [destruct (Z.leb_spec (m - n) 0); lia|]. destruct (Z.leb_spec (m - n) 0); [|lia]. replace (n + 1 - Z.max m 0 - 1) with 0 by lia. rewrite Z.mod_0_l by lia. lia.
  - destruct (Z.leb_spec (n + 1) (Z.max m 0)) as [B|B]; [lia|]. set (k := n - Z.max m 0 - 1). replace (n + 1 - Z.max m 0 - 1) with (k + 1) by lia. rewrite mod_succ by lia. pose proof (Z.mod_pos_bound k (prd + 1) ltac:(lia)) as Q.
    destruct (Z.eqb_spec (k mod (prd + 1) + 1) (prd + 1)); destruct (Z.leb_spec (prd - k mod (prd + 1)) 0); lia.
Qed.
Lemma step_counts u m thr P prd : flt thr fone = true -> f32_valid P = true -> feqb P (f32_of_Z prd) = true -> 0 <= prd <= 16777216 -> step_monitor u m thr P = if m <=? 0 then prd else m - 1.
Proof.
  intros T V E B. unfold step_monitor. rewrite T, (int_prd u P prd V E B). destruct (m <=? 0); [reflexivity|]. replace (feqb thr fone) with false; [reflexivity|]. symmetry. destruct (feqb thr fone) eqn:Q; [|reflexivity]. exfalso.
  unfold flt, SFltb in T. unfold feqb, SFeqb in Q. destruct (SFcompare thr fone) as [[]|]; discriminate.
Qed.
Lemma countdown_runs m home os prd : mon_good m -> 0 <= prd <= 16777216 -> forall n g g' k, 0 <= n -> INV home g -> Forall (proper home) os -> Forall (steady [w_thr m; w_prd m]) os -> run_gops g os = Some g' ->
  flt (gnum g (w_thr m)) fone = true -> feqb (gnum g (w_prd m)) (f32_of_Z prd) = true -> w_mon m g = countdown k prd n -> w_mon m g' = countdown k prd (n + count_updates os).
Proof.
  intros GM B. induction os as [|o os IH]; intros n g g' k NN I PR S R T E M; cbn [run_gops] in R; [injection R as <-; unfold count_updates; cbn; rewrite Z.add_0_r; exact M|].
  inversion PR as [|? ? PO POS]; subst. inversion S as [|? ? SO SOS]; subst. destruct (run_gop g o) as [g1|] eqn:R1; [|discriminate R].
  assert (K : forall i, In i [w_thr m; w_prd m] -> gnum g1 i = gnum g i).
  { intros i Hi. destruct (mg_members m GM i Hi) as (NP & NS). apply (op_member_num home g o g1 i PO R1); [|exact NP|exact NS]. destruct o; cbn [steady] in *; auto; (intros [->|[]]; exact (SO Hi)). }
  assert (I1 : INV home g1) by (apply (op_inv home g o); assumption).
  replace (n + count_updates (o :: os)) with ((n + if is_update o then 1 else 0) + count_updates os) by (unfold count_updates; cbn [filter]; destruct (is_update o); cbn [length]; lia).
  apply (IH _ g1 g' k); try assumption; [destruct (is_update o); lia|rewrite K by (left; reflexivity); exact T|rewrite K by (right; left; reflexivity); exact E|].
  destruct (is_update o) eqn:U.
  - destruct o; try discriminate U. apply run_update in R1. destruct R1 as (out & R1). destruct (mg_update m GM e g g1 out R1) as (X & _). rewrite X, (step_counts _ _ _ _ prd T (num_valid _) E B), M. symmetry. apply countdown_next; lia.
  - rewrite Z.add_0_r. rewrite (mg_marks m GM g g1 (op_marks g o g1 U R1)). exact M.
Qed.
Lemma mon_counts m home code a b os0 g os g' prd : mon_good m -> 0 <= prd <= 16777216 -> Forall (proper home) os0 -> run_gops (new_group code a b) os0 = Some g ->
  Forall (proper home) os -> Forall (steady [w_thr m; w_prd m]) os -> run_gops g os = Some g' -> flt (gnum g (w_thr m)) fone = true -> feqb (gnum g (w_prd m)) (f32_of_Z prd) = true ->
  w_mon m g' = countdown (w_mon m g) prd (count_updates os).
Proof.
  intros GM B P0 R0 PR S R T E. pose proof (runs_inv home os0 _ _ P0 R0 (new_inv home code a b)) as I. apply (countdown_runs m home os prd GM B 0 g g' (w_mon m g)); try assumption; [lia|].
  unfold countdown. replace (0 <=? Z.max (w_mon m g) 0) with true by (symmetry; apply Z.leb_le; lia). lia.
Qed.
