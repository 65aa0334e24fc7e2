(** Proofs about notifications, visibility, decay and change monitoring. *)
From Coq Require Import Floats.SpecFloat.
From Verif Require Import Base Float32 Float32_facts Float32_round Atom_model Obj_model Obj_spec Float32_val View_model View_spec View_proofs Grp_model Grp_spec Grp_proofs Grp_more Grp_one Grp2_spec.

(** ** The counters of a view through a visit *)
Definition same_counts (a b : view) : Prop :=
  low_sln b = low_sln a /\ high_sln b = high_sln a /\ low_act b = low_act a /\ high_act b = high_act a /\ i_sln b = i_sln a /\ i_act b = i_act a.
Lemma counts_refl a : same_counts a a.
Proof. repeat split. Qed.
Lemma counts_trans a b c : same_counts a b -> same_counts b c -> same_counts a c.
Proof. intros (A & B & C & D & E & F) (A' & B' & C' & D' & E' & F'). repeat split; congruence. Qed.
Lemma asked_counts oid l : forall w, same_counts w (fold_left (asked_of oid) l w).
Proof.
  induction l as [|o l IH]; intros w; cbn [fold_left]; [apply counts_refl|]. apply (counts_trans _ (asked_of oid w o)); [|apply IH].
  destruct o as [j i x|j i x]; cbn [asked_of]; destruct (j =? oid); try apply counts_refl; unfold view_mod, view_set, mod_res, set_res;
  repeat match goal with |- context [if ?b then _ else _] => destruct b end; repeat split.
Qed.
Lemma res_counts g v : same_counts (vw v) (vw (res_view g v)) /\ get_sln (vw (res_view g v)) = get_sln (vw v) /\ get_act (vw (res_view g v)) = get_act (vw v) /\ ijt (res_view g v) = ijt v /\ ctl (res_view g v) = ctl v /\ seen (res_view g v) = seen v
  /\ word (vw (res_view g v)) GRP_VIEW_VIS = word (vw v) GRP_VIEW_VIS /\ word (vw (res_view g v)) VIEW_SYNC = word (vw v) VIEW_SYNC /\ word (vw (res_view g v)) GRP_VIEW_COV = word (vw v) GRP_VIEW_COV /\ t_sln (vw (res_view g v)) = t_sln (vw v) /\ t_vis (vw (res_view g v)) = t_vis (vw v).
Proof.
  unfold res_view, g_update_res, update_res. cbn zeta. destruct (feqb (get_res (vw v)) _); cbn [vw with_vw ijt ctl seen]; [repeat split|].
  unfold get_sln, get_act, word. cbn [vcode with_t_res with_word t_sln t_vis]. rewrite !put_other by (vm_compute; discriminate). repeat split.
Qed.

(** The step of a pair of counters and the notifications. *)
Definition high_hit (prd x low high : spec_float) (l h : Z) : bool := feqb (f32_of_Z (snd (count_periods x low high l h))) prd.
Definition low_hit (prd x low high : spec_float) (l h : Z) : bool :=
  negb (high_hit prd x low high l h) && feqb (f32_of_Z (fst (count_periods x low high l h))) prd.
Lemma sln_counts g v : ntf v = false ->
  let PRD := gnum g GRP_SLN_NTF_PRD in let LOW := gnum g GRP_LOW_SLN_THR in let HIGH := gnum g GRP_HIGH_SLN_THR in
  let x := get_sln (vw (sln_view g v)) in let c := count_periods x LOW HIGH (low_sln (vw v)) (high_sln (vw v)) in
  let hi := high_hit PRD x LOW HIGH (low_sln (vw v)) (high_sln (vw v)) in let lo := low_hit PRD x LOW HIGH (low_sln (vw v)) (high_sln (vw v)) in
  sln_val g v = x /\ low_sln (vw (sln_view g v)) = (if lo then 0 else fst c) /\ high_sln (vw (sln_view g v)) = (if hi then 0 else snd c) /\
  sln_note g v = (if hi then [HighSln (vid v)] else if lo then [LowSln (vid v)] else []).
Proof.
  intros N. unfold sln_view, sln_val, sln_note, g_update_sln, low_hit, high_hit. cbn zeta.
  match goal with |- context [update_sln ?x _ _] => set (w0 := x) end. assert (C : low_sln w0 = low_sln (vw v) /\ high_sln w0 = high_sln (vw v)) by (unfold w0; destruct (_ && _); split; reflexivity). clearbody w0. destruct C as (C1 & C2).
  rewrite <- C1, <- C2. unfold update_sln. cbn zeta. set (w1 := with_t_sln _ no_tally).
  assert (D : low_sln w1 = low_sln w0 /\ high_sln w1 = high_sln w0) by (unfold w1; destruct (pending _); split; reflexivity). clearbody w1. destruct D as (D1 & D2). rewrite <- D1, <- D2. clear C1 C2 D1 D2 w0.
  rewrite N. cbn [high_sln low_sln with_p_sln].
  set (c := count_periods (get_sln w1) _ _ _ _).
  match goal with |- context [feqb ?a ?b] => destruct (feqb a b) eqn:H end; cbn [vw with_vw].
  - change (get_sln (with_p_sln _ _ _)) with (get_sln w1). fold c. rewrite H. cbn [negb andb]. repeat split.
  - match goal with |- context [feqb (f32_of_Z (fst c)) ?b] => destruct (feqb (f32_of_Z (fst c)) b) eqn:L end; cbn [vw with_vw]; change (get_sln (with_p_sln _ _ _)) with (get_sln w1); fold c; rewrite ?H, ?L; cbn [negb andb]; repeat split.
Qed.
Lemma sln_rest g v : let w := sln_view g v in low_act (vw w) = low_act (vw v) /\ high_act (vw w) = high_act (vw v) /\ i_sln (vw w) = i_sln (vw v) /\ i_act (vw w) = i_act (vw v) /\ get_act (vw w) = get_act (vw v)
  /\ ijt w = ijt v /\ ctl w = ctl v /\ seen w = seen v /\ word (vw w) GRP_VIEW_VIS = word (vw v) GRP_VIEW_VIS /\ word (vw w) VIEW_SYNC = word (vw v) VIEW_SYNC /\ word (vw w) GRP_VIEW_COV = word (vw v) GRP_VIEW_COV /\ t_vis (vw w) = t_vis (vw v) /\ sln_val g v = get_sln (vw w).
Proof.
  unfold sln_view, sln_val, g_update_sln. cbn zeta. match goal with |- context [update_sln ?x _ _] => set (w0 := x) end.
  assert (C : low_act w0 = low_act (vw v) /\ high_act w0 = high_act (vw v) /\ i_sln w0 = i_sln (vw v) /\ i_act w0 = i_act (vw v) /\ vcode w0 = vcode (vw v) /\ t_vis w0 = t_vis (vw v)) by (unfold w0; destruct (_ && _); repeat split). clearbody w0.
  unfold update_sln. cbn zeta. set (w1 := with_t_sln _ no_tally).
  assert (D : low_act w1 = low_act w0 /\ high_act w1 = high_act w0 /\ i_sln w1 = i_sln w0 /\ i_act w1 = i_act w0 /\ t_vis w1 = t_vis w0 /\ forall i, i <> VIEW_SLN -> word w1 i = word w0 i).
  { unfold w1. destruct (pending _); repeat (split; [reflexivity|]); [|reflexivity]. intros i NI. unfold word. cbn [vcode with_t_sln with_word]. rewrite put_other by (intros E; apply NI; congruence). reflexivity. }
  clearbody w1. destruct C as (C1 & C2 & C3 & C4 & C5 & C6), D as (D1 & D2 & D3 & D4 & D6 & D5).
  assert (F : forall a b, low_act (with_p_sln w1 a b) = low_act w1 /\ high_act (with_p_sln w1 a b) = high_act w1 /\ i_sln (with_p_sln w1 a b) = i_sln w1 /\ i_act (with_p_sln w1 a b) = i_act w1 /\ vcode (with_p_sln w1 a b) = vcode w1 /\ t_vis (with_p_sln w1 a b) = t_vis w1) by (repeat split).
  assert (W : forall i, i <> VIEW_SLN -> nth i (vcode w1) 0 = nth i (vcode (vw v)) 0).
  { intros i NI. specialize (D5 i NI). unfold word in D5. rewrite D5, C5. reflexivity. }
  destruct (ntf v); [|match goal with |- context [feqb ?a ?b] => destruct (feqb a b) end; [|match goal with |- context [feqb ?a ?b] => destruct (feqb a b) end]];
  unfold get_act, get_sln, word in *; cbn [vw with_vw ijt ctl seen low_act high_act i_sln i_act vcode with_p_sln t_vis] in *; rewrite !W by (vm_compute; discriminate); repeat split; congruence.
Qed.
Lemma act_counts g v : ntf v = false ->
  let PRD := gnum g GRP_ACT_NTF_PRD in let LOW := gnum g GRP_LOW_ACT_THR in let HIGH := gnum g GRP_HIGH_ACT_THR in
  let x := get_act (vw (act_view g v)) in let c := count_periods x LOW HIGH (low_act (vw v)) (high_act (vw v)) in
  let hi := high_hit PRD x LOW HIGH (low_act (vw v)) (high_act (vw v)) in let lo := low_hit PRD x LOW HIGH (low_act (vw v)) (high_act (vw v)) in
  low_act (vw (act_view g v)) = (if lo then 0 else fst c) /\ high_act (vw (act_view g v)) = (if hi then 0 else snd c) /\
  act_note g v = (if hi then [HighAct (vid v)] else if lo then [LowAct (vid v)] else []).
Proof.
  intros N. unfold act_view, act_note, g_update_act, low_hit, high_hit. cbn zeta. unfold update_act. cbn zeta. set (w1 := with_t_act _ no_tally).
  assert (D : low_act w1 = low_act (vw v) /\ high_act w1 = high_act (vw v)) by (unfold w1; destruct (pending _); split; reflexivity). clearbody w1. destruct D as (D1 & D2). rewrite <- D1, <- D2. clear D1 D2.
  rewrite N. cbn [high_act low_act with_p_act].
  set (c := count_periods (get_act w1) _ _ _ _).
  match goal with |- context [feqb ?a ?b] => destruct (feqb a b) eqn:H end; cbn [vw with_vw].
  - change (get_act (with_p_act _ _ _)) with (get_act w1). fold c. rewrite H. cbn [negb andb]. repeat split.
  - match goal with |- context [feqb (f32_of_Z (fst c)) ?b] => destruct (feqb (f32_of_Z (fst c)) b) eqn:L end; cbn [vw with_vw]; change (get_act (with_p_act _ _ _)) with (get_act w1); fold c; rewrite ?H, ?L; cbn [negb andb]; repeat split.
Qed.
Lemma act_rest g v : let w := act_view g v in low_sln (vw w) = low_sln (vw v) /\ high_sln (vw w) = high_sln (vw v) /\ i_sln (vw w) = i_sln (vw v) /\ i_act (vw w) = i_act (vw v) /\ get_sln (vw w) = get_sln (vw v) /\ word (vw w) VIEW_SYNC = word (vw v) VIEW_SYNC /\ ijt w = ijt v.
Proof.
  unfold act_view, g_update_act. cbn zeta. unfold update_act. cbn zeta. set (w1 := with_t_act _ no_tally).
  assert (D : low_sln w1 = low_sln (vw v) /\ high_sln w1 = high_sln (vw v) /\ i_sln w1 = i_sln (vw v) /\ i_act w1 = i_act (vw v) /\ forall i, i <> VIEW_ACT -> word w1 i = word (vw v) i).
  { unfold w1. destruct (pending _); repeat (split; [reflexivity|]); [|reflexivity]. intros i NI. unfold word. cbn [vcode with_t_act with_word]. rewrite put_other by (intros E; apply NI; congruence). reflexivity. }
  clearbody w1. destruct D as (D1 & D2 & D3 & D4 & D5). unfold word in D5.
  destruct (ntf v); [|match goal with |- context [feqb ?a ?b] => destruct (feqb a b) end; [|match goal with |- context [feqb ?a ?b] => destruct (feqb a b) end]];
  unfold get_sln, word in *; cbn [vw with_vw ijt low_sln high_sln i_sln i_act vcode with_p_act] in *; rewrite !D5 by (vm_compute; discriminate); repeat split; congruence.
Qed.
Lemma activated_vw g s o v x w : activated g s o v x = Some w -> vw w = vw v /\ ijt w = ijt v /\ vid w = vid v /\ kind w = kind v /\ ntf w = ntf v.
Proof.
  unfold activated. cbn zeta. repeat match goal with |- context [if ?b then _ else _] => destruct b end; intros H; try (destruct (ctl v); [|discriminate H]); inversion H; subst; repeat split.
Qed.
Lemma visibility_vw g s v : same_counts (vw v) (vw (_update_visibility g s v)) /\ ijt (_update_visibility g s v) = ijt v /\ vid (_update_visibility g s v) = vid v /\ kind (_update_visibility g s v) = kind v /\ ntf (_update_visibility g s v) = ntf v /\
  get_sln (vw (_update_visibility g s v)) = get_sln (vw v) /\ word (vw (_update_visibility g s v)) VIEW_SYNC = word (vw v) VIEW_SYNC.
Proof.
  unfold _update_visibility, update_vis. cbn zeta. set (w1 := with_t_vis _ no_tally).
  assert (D : same_counts (vw v) w1 /\ get_sln w1 = get_sln (vw v) /\ word w1 VIEW_SYNC = word (vw v) VIEW_SYNC).
  { unfold w1. destruct (pending _); [|repeat split]. split; [repeat split|]. unfold get_sln, word. cbn [vcode with_t_vis with_word]. rewrite !put_other by (vm_compute; discriminate). split; reflexivity. }
  clearbody w1. destruct D as (D1 & D2 & D3).
  assert (F : forall o, same_counts (vw v) (vw (with_seen (with_vw v w1) o)) /\ ijt (with_seen (with_vw v w1) o) = ijt v /\ vid (with_seen (with_vw v w1) o) = vid v /\ kind (with_seen (with_vw v w1) o) = kind v /\ ntf (with_seen (with_vw v w1) o) = ntf v /\
    get_sln (vw (with_seen (with_vw v w1) o)) = get_sln (vw v) /\ word (vw (with_seen (with_vw v w1) o)) VIEW_SYNC = word (vw v) VIEW_SYNC) by (intros o; cbn; auto 10).
  pose proof (F (seen (with_vw v w1))) as F0. replace (with_seen (with_vw v w1) (seen (with_vw v w1))) with (with_vw v w1) in F0 by (destruct v; reflexivity).
  repeat match goal with |- context [if ?b then _ else _] => destruct b end; first [apply F|exact F0].
Qed.

(** ** One update, seen from one view *)
Definition sln_words (g : group) : spec_float * spec_float * spec_float := (gnum g GRP_SLN_NTF_PRD, gnum g GRP_LOW_SLN_THR, gnum g GRP_HIGH_SLN_THR).
Lemma visit_sln e g s pl v u l : visit_fun e g s pl v = Some (Some u, l) -> ijt v < planned e -> ntf v = false ->
  let PRD := gnum g GRP_SLN_NTF_PRD in let LOW := gnum g GRP_LOW_SLN_THR in let HIGH := gnum g GRP_HIGH_SLN_THR in
  let x := get_sln (vw u) in let c := count_periods x LOW HIGH (low_sln (vw v)) (high_sln (vw v)) in
  let hi := high_hit PRD x LOW HIGH (low_sln (vw v)) (high_sln (vw v)) in let lo := low_hit PRD x LOW HIGH (low_sln (vw v)) (high_sln (vw v)) in
  low_sln (vw u) = (if lo then 0 else fst c) /\ high_sln (vw u) = (if hi then 0 else snd c) /\
  (In (HighSln (vid v)) l <-> hi = true) /\ (In (LowSln (vid v)) l <-> lo = true) /\ ntf u = false.
Proof.
  unfold visit_fun. cbn zeta. intros H D N. destruct (invalid e (vid v)); [destruct (erased pl v); discriminate|]. replace (planned e <=? ijt v) with false in H by (symmetry; apply Z.leb_gt; exact D).
  destruct (flt fzero (res_val g v)); [|destruct (erased pl v); discriminate]. destruct (res_counts g v) as ((R1 & R2 & R3 & R4 & _) & _). destruct (res_same_place g v) as (RV & _ & RN).
  set (v1 := res_view g v) in *. assert (N1 : ntf v1 = false) by congruence. destruct (sln_counts g v1 N1) as (_ & S1 & S2 & S3). rewrite R1, R2, RV in *.
  assert (NB : forall n, In n (res_note g v) -> exists o, n = LowRes o).
  { unfold res_note, g_update_res. destruct (update_res (vw v)). destruct (_ && _ && _); cbn; [intros n [<-|[]]; eexists; reflexivity|contradiction]. }
  assert (LO : forall a, low_hit (gnum g GRP_SLN_NTF_PRD) a (gnum g GRP_LOW_SLN_THR) (gnum g GRP_HIGH_SLN_THR) (low_sln (vw v)) (high_sln (vw v)) = true -> high_hit (gnum g GRP_SLN_NTF_PRD) a (gnum g GRP_LOW_SLN_THR) (gnum g GRP_HIGH_SLN_THR) (low_sln (vw v)) (high_sln (vw v)) = false).
  { intros a. unfold low_hit. match goal with |- context [negb ?b] => destruct b end; cbn [negb andb]; intros Q; [discriminate Q|reflexivity]. }
  set (v2 := renewed e g s (sln_view g v1) (sln_val g v1)) in *. assert (V2 : vw v2 = vw (sln_view g v1) /\ vid v2 = vid v /\ ntf v2 = false).
  { destruct (sln_same_place g v1) as (A & _ & B). split; [unfold v2, renewed; destruct (_ && _); reflexivity|]. destruct (renewed_same_place e g s (sln_view g v1) (sln_val g v1)) as (A' & _ & B'). fold v2 in A', B'. split; congruence. }
  destruct V2 as (V2 & V2i & V2n).
  assert (FIN : forall w l', l = (res_note g v ++ sln_note g v1) ++ l' -> (forall n, In n l' -> exists o, n = HighAct o \/ n = LowAct o) -> u = w -> low_sln (vw w) = low_sln (vw v2) -> high_sln (vw w) = high_sln (vw v2) -> get_sln (vw w) = get_sln (vw v2) -> ntf w = false ->
    let x := get_sln (vw u) in let c := count_periods x (gnum g GRP_LOW_SLN_THR) (gnum g GRP_HIGH_SLN_THR) (low_sln (vw v)) (high_sln (vw v)) in
    let hi := high_hit (gnum g GRP_SLN_NTF_PRD) x (gnum g GRP_LOW_SLN_THR) (gnum g GRP_HIGH_SLN_THR) (low_sln (vw v)) (high_sln (vw v)) in let lo := low_hit (gnum g GRP_SLN_NTF_PRD) x (gnum g GRP_LOW_SLN_THR) (gnum g GRP_HIGH_SLN_THR) (low_sln (vw v)) (high_sln (vw v)) in
    low_sln (vw u) = (if lo then 0 else fst c) /\ high_sln (vw u) = (if hi then 0 else snd c) /\ (In (HighSln (vid v)) l <-> hi = true) /\ (In (LowSln (vid v)) l <-> lo = true) /\ ntf u = false).
  { intros w l' -> NL -> E1 E2 E3 E4. cbn zeta. rewrite E1, E2, E3, V2. split; [exact S1|]. split; [exact S2|]. rewrite !in_app_iff, S3. set (x := get_sln _) in *. specialize (LO x).
    assert (A1 : ~ In (HighSln (vid v)) (res_note g v)) by (intros Q; apply NB in Q; destruct Q; discriminate). assert (A2 : ~ In (LowSln (vid v)) (res_note g v)) by (intros Q; apply NB in Q; destruct Q; discriminate).
    assert (A3 : ~ In (HighSln (vid v)) l') by (intros Q; apply NL in Q; destruct Q as (? & [?|?]); discriminate). assert (A4 : ~ In (LowSln (vid v)) l') by (intros Q; apply NL in Q; destruct Q as (? & [?|?]); discriminate).
    set (hi := high_hit _ _ _ _ _ _) in *. set (lo := low_hit _ _ _ _ _ _) in *. clearbody hi lo. destruct hi, lo; try (specialize (LO eq_refl); discriminate); cbn; intuition congruence. }
  destruct (kind v2 =? GROUP).
  - injection H as H1 H2. destruct (visibility_vw g s v2) as ((A & B & _) & _ & _ & _ & C & D' & _). apply (FIN (_update_visibility g s v2) []); [rewrite app_nil_r; auto|contradiction|auto|exact A|exact B|exact D'|congruence].
  - destruct (is_program (kind v2)).
    + destruct (activated g s _ _ _) as [w|] eqn:AC; [|discriminate]. injection H as H1 H2. destruct (activated_vw _ _ _ _ _ _ AC) as (W & _ & _ & _ & WN). destruct (act_rest g v2) as (A & B & _ & _ & C & _). destruct (act_counts g v2 V2n) as (_ & _ & AN).
      apply (FIN w (act_note g v2)); [auto| |auto|rewrite W; exact A|rewrite W; exact B|rewrite W; exact C|].
      * intros n. rewrite AN. match goal with |- context [if ?b then _ else _] => destruct b end; [intros [<-|[]]; eauto|]. match goal with |- context [if ?b then _ else _] => destruct b end; [intros [<-|[]]; eauto|contradiction].
      * rewrite WN. unfold act_view, g_update_act. destruct (update_act _ _ _). rewrite V2n. destruct (feqb _ _); [exact V2n|]. destruct (feqb _ _); exact V2n.
    + injection H as H1 H2. apply (FIN v2 []); [rewrite app_nil_r; auto|contradiction|auto|reflexivity|reflexivity|reflexivity|exact V2n].
Qed.
Lemma not_group k : is_program k = true -> (k =? GROUP) = false.
Proof. intros H. destruct (Z.eqb_spec k GROUP) as [->|]; [discriminate|reflexivity]. Qed.
Lemma visit_act e g s pl v u l : visit_fun e g s pl v = Some (Some u, l) -> ijt v < planned e -> ntf v = false -> is_program (kind v) = true ->
  let PRD := gnum g GRP_ACT_NTF_PRD in let LOW := gnum g GRP_LOW_ACT_THR in let HIGH := gnum g GRP_HIGH_ACT_THR in
  let x := get_act (vw u) in let c := count_periods x LOW HIGH (low_act (vw v)) (high_act (vw v)) in
  let hi := high_hit PRD x LOW HIGH (low_act (vw v)) (high_act (vw v)) in let lo := low_hit PRD x LOW HIGH (low_act (vw v)) (high_act (vw v)) in
  low_act (vw u) = (if lo then 0 else fst c) /\ high_act (vw u) = (if hi then 0 else snd c) /\
  (In (HighAct (vid v)) l <-> hi = true) /\ (In (LowAct (vid v)) l <-> lo = true) /\ ntf u = false.
Proof.
  unfold visit_fun. cbn zeta. intros H D N IP. destruct (invalid e (vid v)); [destruct (erased pl v); discriminate|]. replace (planned e <=? ijt v) with false in H by (symmetry; apply Z.leb_gt; exact D).
  destruct (flt fzero (res_val g v)); [|destruct (erased pl v); discriminate]. destruct (res_counts g v) as ((_ & _ & R3 & R4 & _) & _). destruct (res_same_place g v) as (RV & RK & RN).
  set (v1 := res_view g v) in *. assert (N1 : ntf v1 = false) by congruence. destruct (sln_counts g v1 N1) as (_ & _ & _ & S3). destruct (sln_rest g v1) as (S4 & S5 & _).
  set (v2 := renewed e g s (sln_view g v1) (sln_val g v1)) in *. assert (V2 : vw v2 = vw (sln_view g v1) /\ vid v2 = vid v /\ ntf v2 = false /\ kind v2 = kind v).
  { destruct (sln_same_place g v1) as (A & A2 & B). split; [unfold v2, renewed; destruct (_ && _); reflexivity|]. destruct (renewed_same_place e g s (sln_view g v1) (sln_val g v1)) as (A' & A3 & B'). fold v2 in A', A3, B'. repeat split; congruence. }
  destruct V2 as (V2 & V2i & V2n & V2k). rewrite V2k, (not_group _ IP), IP in H. destruct (activated g s _ _ _) as [w|] eqn:AC; [|discriminate]. injection H as H1 H2. subst w l.
  destruct (activated_vw _ _ _ _ _ _ AC) as (W & _ & _ & _ & WN). destruct (act_counts g v2 V2n) as (A1 & A2 & AN). rewrite V2, S4, S5, R3, R4 in A1, A2, AN. rewrite V2i in AN. cbn zeta. rewrite W.
  split; [exact A1|]. split; [exact A2|]. rewrite !in_app_iff, AN, S3.
  assert (NB : forall n, In n (res_note g v) -> exists o, n = LowRes o).
  { unfold res_note, g_update_res. destruct (update_res (vw v)). destruct (_ && _ && _); cbn; [intros n [<-|[]]; eexists; reflexivity|contradiction]. }
  set (x' := get_act (vw (act_view g v2))) in *. set (hi := high_hit _ x' _ _ _ _) in *. set (lo := low_hit _ x' _ _ _ _) in *. assert (LO : lo = true -> hi = false) by (unfold lo, hi, low_hit; match goal with |- context [negb ?b] => destruct b end; cbn [negb andb]; intros Q; [discriminate Q|reflexivity]).
  assert (A3 : forall m, (exists o, m = HighAct o \/ m = LowAct o) -> ~ In m (res_note g v)) by (intros m (o & [->| ->]) Q; apply NB in Q; destruct Q; discriminate).
  pose proof (A3 (HighAct (vid v)) ltac:(eauto)) as B1. pose proof (A3 (LowAct (vid v)) ltac:(eauto)) as B2. clearbody hi lo.
  assert (NU : ntf u = false).
  { rewrite WN. unfold act_view, g_update_act. destruct (update_act _ _ _). rewrite V2n. destruct (feqb _ _); [exact V2n|]. destruct (feqb _ _); exact V2n. }
  match goal with |- context [if ?b then [HighSln _] else _] => destruct b end; [|match goal with |- context [if ?b then [LowSln _] else _] => destruct b end];
  destruct hi, lo; try (specialize (LO eq_refl); discriminate); cbn; intuition congruence.
Qed.

(** ** Channels: saliency and activation *)
Record channel := mkchan { ch_low : view -> Z; ch_high : view -> Z; ch_val : view -> spec_float; m_prd : nat; m_low : nat; m_high : nat; n_low : Z -> note; n_high : Z -> note; ch_ok : Z -> bool }.
Definition sln_chan : channel := mkchan low_sln high_sln get_sln GRP_SLN_NTF_PRD GRP_LOW_SLN_THR GRP_HIGH_SLN_THR LowSln HighSln (fun _ => true).
Definition act_chan : channel := mkchan low_act high_act get_act GRP_ACT_NTF_PRD GRP_LOW_ACT_THR GRP_HIGH_ACT_THR LowAct HighAct is_program.
Record chan_good (c : channel) : Prop := {
  good_counts : forall a b, same_counts a b -> ch_low c b = ch_low c a /\ ch_high c b = ch_high c a;
  good_about : forall o, about (n_low c o) = o /\ about (n_high c o) = o;
  good_looked : forall g v, ch_low c (vw (looked g v)) = ch_low c (vw v) /\ ch_high c (vw (looked g v)) = ch_high c (vw v) /\ ch_val c (vw (looked g v)) = ch_val c (vw v);
  good_notes : forall g v o, ~ reported g v (n_low c o) /\ ~ reported g v (n_high c o);
  good_members : forall i, In i [m_prd c; m_low c; m_high c] -> (forall p, i <> gindex p) /\ ~ stat_word i;
  good_visit : forall e g s pl v u l, visit_fun e g s pl v = Some (Some u, l) -> ijt v < planned e -> ntf v = false -> ch_ok c (kind v) = true ->
    let PRD := gnum g (m_prd c) in let LOW := gnum g (m_low c) in let HIGH := gnum g (m_high c) in
    let x := ch_val c (vw u) in let k := count_periods x LOW HIGH (ch_low c (vw v)) (ch_high c (vw v)) in
    let hi := high_hit PRD x LOW HIGH (ch_low c (vw v)) (ch_high c (vw v)) in let lo := low_hit PRD x LOW HIGH (ch_low c (vw v)) (ch_high c (vw v)) in
    ch_low c (vw u) = (if lo then 0 else fst k) /\ ch_high c (vw u) = (if hi then 0 else snd k) /\
    (In (n_high c (vid v)) l <-> hi = true) /\ (In (n_low c (vid v)) l <-> lo = true) /\ ntf u = false }.
Lemma looked_counts g v : low_sln (vw (looked g v)) = low_sln (vw v) /\ high_sln (vw (looked g v)) = high_sln (vw v) /\ low_act (vw (looked g v)) = low_act (vw v) /\ high_act (vw (looked g v)) = high_act (vw v).
Proof. unfold looked. cbn zeta. destruct (mon_sln g =? 0), (mon_act g =? 0); repeat split. Qed.
Lemma sln_good : chan_good sln_chan.
Proof.
  constructor; cbn [ch_low ch_high ch_val m_prd m_low m_high n_low n_high ch_ok sln_chan].
  - intros a b (A & B & _). auto.
  - intros o. split; reflexivity.
  - intros g v. destruct (looked_counts g v) as (A & B & _). destruct (looked_core g v) as (_ & _ & _ & _ & _ & _ & C). split; [exact A|]. split; [exact B|]. apply sln_of_code, C.
  - intros g v o. split; intros [(_ & _ & E)|(_ & _ & E)]; discriminate.
  - intros i [<-|[<-|[<-|[]]]]; (split; [intros []; discriminate|unfold stat_word, GRP_SLN_NTF_PRD, GRP_LOW_SLN_THR, GRP_HIGH_SLN_THR; lia]).
  - intros e g s pl v u l H D N _. apply (visit_sln e g s pl v u l H D N).
Qed.
Lemma act_good : chan_good act_chan.
Proof.
  constructor; cbn [ch_low ch_high ch_val m_prd m_low m_high n_low n_high ch_ok act_chan].
  - intros a b (_ & _ & A & B & _). auto.
  - intros o. split; reflexivity.
  - intros g v. destruct (looked_counts g v) as (_ & _ & A & B). destruct (looked_core g v) as (_ & _ & _ & _ & _ & _ & C). split; [exact A|]. split; [exact B|]. apply act_of_code, C.
  - intros g v o. split; intros [(_ & _ & E)|(_ & _ & E)]; discriminate.
  - intros i [<-|[<-|[<-|[]]]]; (split; [intros []; discriminate|unfold stat_word, GRP_ACT_NTF_PRD, GRP_LOW_ACT_THR, GRP_HIGH_ACT_THR; lia]).
  - intros e g s pl v u l H D N K. apply (visit_act e g s pl v u l H D N K).
Qed.

(** ** The members of the group that are not asked for stay *)
Lemma existing_member g oid v t i : (forall p, i <> gindex p) -> nth i (gcode (inject_existing g oid v t)) 0 = nth i (gcode g) 0.
Proof.
  intros NP. unfold inject_existing. destruct (get_view g oid) as [e|]; [|reflexivity]. cbn zeta. unfold update_c_act, update_c_sln.
  set (g1 := change_view _ _ _). assert (C : gcode g1 = gcode g) by (unfold g1, change_view; destruct (place_holding _ _); reflexivity). clearbody g1.
  match goal with |- context [if ?b then with_newly _ _ else _] => destruct b end; [unfold with_newly; cbn [gcode]|]; rewrite !update_param_word by apply NP; rewrite C; reflexivity.
Qed.
Lemma delete_member g v : gcode (delete_view g v) = gcode g.
Proof. unfold delete_view. destruct (place_of v); reflexivity. Qed.
Lemma update_member e g g' out i : update e g = Some (g', out) -> (forall p, i <> gindex p) -> ~ stat_word i -> nth i (gcode g') 0 = nth i (gcode g) 0.
Proof. intros R NP NS. destruct (update_core e g g' out R) as (_ & _ & _ & _ & W & _). rewrite W by exact NS. rewrite settled_word by exact NP. rewrite executed_code. reflexivity. Qed.
Lemma op_member home g o g' i : proper home o -> run_gop g o = Some g' -> steady [i] o -> (forall p, i <> gindex p) -> ~ stat_word i -> nth i (gcode g') 0 = nth i (gcode g) 0.
Proof.
  intros P R S NP NS. destruct (brings o) as [k|] eqn:K.
  { destruct (arrival home g o k g' P K R) as (v & _ & _ & _ & (C & _) & _). rewrite C. reflexivity. }
  destruct o; try discriminate K; cbn [steady] in S.
  - assert (E : g' = group_mod g i0 x) by (cbn [run_gop] in R; congruence). rewrite E. apply (proj1 (immediate_other g i0 x i (fun q => S (or_introl (eq_sym q))))).
  - assert (E : g' = group_set g i0 x) by (cbn [run_gop] in R; congruence). rewrite E. apply (proj2 (immediate_other g i0 x i (fun q => S (or_introl (eq_sym q))))).
  - assert (E : g' = inject_existing g oid v now) by (cbn [run_gop] in R; congruence). rewrite E. apply existing_member, NP.
  - cbn [run_gop] in R. injection R as <-. reflexivity.
  - assert (E : g' = delete_view g v) by (cbn [run_gop] in R; congruence). rewrite E, delete_member. reflexivity.
  - apply run_update in R. destruct R as (out & R). apply (update_member e g g' out i R NP NS).
Qed.
Lemma op_member_num home g o g' i : proper home o -> run_gop g o = Some g' -> steady [i] o -> (forall p, i <> gindex p) -> ~ stat_word i -> gnum g' i = gnum g i.
Proof. intros. unfold gnum. erewrite op_member by eassumption. reflexivity. Qed.
Lemma begin_num e g i : (forall p, i <> gindex p) -> gnum (fst (update_begin e g)) i = gnum g i.
Proof.
  intros N. destruct (begin_split e g) as (a & b & E). destruct (mon_core (settled (ub e) (executed g)) a b) as (M & _). rewrite <- E in M. clear E. unfold gnum. rewrite M, settled_word by exact N. rewrite executed_code. reflexivity.
Qed.
(** Operations that keep a view leave its counters. *)
Lemma op_counts home g o g' oid v : proper home o -> keeps oid o -> is_update o = false -> run_gop g o = Some g' -> INV home g -> get_view g oid = Some v ->
  exists u, get_view g' oid = Some u /\ same_counts (vw v) (vw u) /\ get_sln (vw u) = get_sln (vw v) /\ get_act (vw u) = get_act (vw v) /\ same_place v u.
Proof.
  intros P (K1 & K2) U R I G. destruct o; try discriminate.
  1-8,10-11: exists v; split; [rewrite (op_keeps_view home g _ g' oid P K1 K2 ltac:(discriminate) eq_refl R I); exact G|repeat split].
  cbn [run_gop] in R. injection R as <-. destruct (existing_views g oid0 v0 now) as (g1 & E & [->|(l & ->)]); rewrite (get_view_views _ _ oid E); [exists v; split; [exact G|repeat split]|].
  rewrite (change_get home) by (try exact I; intros w; repeat split). change (get_view (with_pend g l) oid) with (get_view g oid). rewrite G. cbn [option_map]. eexists. split; [reflexivity|].
  destruct (oid0 =? oid); [|repeat split]. cbn [vw with_ijt with_vw]. unfold get_sln, get_act, word. cbn [vcode with_word]. rewrite !put_other by (vm_compute; discriminate). repeat split.
Qed.

(** ** Counting *)
Lemma eq_prd P prd k : f32_valid P = true -> feqb P (f32_of_Z prd) = true -> 0 <= k <= 16777216 -> 0 <= prd <= 16777216 -> feqb (f32_of_Z k) P = (k =? prd).
Proof.
  intros V E K B. assert (NP : P <> S754_nan) by (intros ->; discriminate). apply feqb_val in E; [|exact V|apply of_Z_valid|exact NP|apply of_Z_not_nan].
  rewrite of_Z_exact in E by lia. pose proof unit_val_pos as U. apply eq_iff_eq_true. rewrite feqb_val by (try apply of_Z_valid; try apply of_Z_not_nan; assumption). rewrite E, of_Z_exact by lia. rewrite Z.eqb_eq. nia.
Qed.
Definition lows (low : spec_float) (l : list spec_float) : Z := trailing (fun x => flt x low) l.
Lemma stretch_snoc low high l x : stretch low high (l ++ [x]) = if flt x low then stretch low high l else if flt high x then stretch low high l + 1 else 0.
Proof. unfold stretch. rewrite fold_left_app. reflexivity. Qed.
Lemma stretch_nonneg low high l : 0 <= stretch low high l.
Proof.
  unfold stretch. assert (H : forall n, 0 <= n -> 0 <= fold_left (fun n x => if flt x low then n else if flt high x then n + 1 else 0) l n); [|apply H; lia].
  induction l as [|x l IH]; intros n N; cbn [fold_left]; [exact N|]. apply IH. destruct (flt x low); [exact N|]. destruct (flt high x); lia.
Qed.
Lemma mod_succ t prd : 0 <= t -> 1 <= prd -> (t + 1) mod prd = if t mod prd + 1 =? prd then 0 else t mod prd + 1.
Proof.
  intros T P. pose proof (Z.div_mod t prd ltac:(lia)) as D. pose proof (Z.mod_pos_bound t prd ltac:(lia)) as B. destruct (Z.eqb_spec (t mod prd + 1) prd).
  - symmetry. apply (Z.mod_unique_pos _ _ (t / prd + 1)); [lia|]. nia.
  - symmetry. apply (Z.mod_unique_pos _ _ (t / prd)); [lia|]. nia.
Qed.
Lemma count_step P prd x low high L h : f32_valid P = true -> feqb P (f32_of_Z prd) = true -> 1 <= prd <= 16777216 ->
  let c := count_periods x low high (lows low L mod prd) (h mod prd) in 0 <= h ->
  let hi := high_hit P x low high (lows low L mod prd) (h mod prd) in let lo := low_hit P x low high (lows low L mod prd) (h mod prd) in
  let h' := if flt x low then h else if flt high x then h + 1 else 0 in
  (if lo then 0 else fst c) = lows low (L ++ [x]) mod prd /\ (if hi then 0 else snd c) = h' mod prd /\
  (hi = true <-> flt x low = false /\ flt high x = true /\ h' mod prd = 0) /\
  (lo = true <-> 0 < lows low (L ++ [x]) /\ lows low (L ++ [x]) mod prd = 0).
Proof.
  intros V E B c H hi lo h'. pose proof (trailing_nonneg (fun x => flt x low) L) as T. fold (lows low L) in T. assert (T0 : 0 <= lows low L) by lia. clear T.
  pose proof (Z.mod_pos_bound (lows low L) prd ltac:(lia)) as BL. pose proof (Z.mod_pos_bound h prd ltac:(lia)) as BH.
  assert (Q : forall k, 0 <= k <= prd -> feqb (f32_of_Z k) P = (k =? prd)) by (intros k K; apply eq_prd; (assumption || lia)).
  assert (LS : lows low (L ++ [x]) = if flt x low then lows low L + 1 else 0) by (unfold lows; apply (trailing_snoc (fun x => flt x low))).
  pose proof (mod_succ (lows low L) prd T0 ltac:(lia)) as ML. pose proof (mod_succ h prd H ltac:(lia)) as MH.
  assert (U1 : u32 (lows low L mod prd + 1) = lows low L mod prd + 1) by (unfold u32; apply Z.mod_small; lia). assert (U2 : u32 (h mod prd + 1) = h mod prd + 1) by (unfold u32; apply Z.mod_small; lia).
  unfold hi, lo, low_hit, high_hit, c, count_periods, h' in *. rewrite LS. destruct (flt x low).
  - cbn [fst snd]. rewrite U1, !Q by lia. rewrite ML. replace (h mod prd =? prd) with false by (symmetry; apply Z.eqb_neq; lia). cbn [negb andb]. destruct (lows low L mod prd + 1 =? prd) eqn:Z; repeat split; try lia; try discriminate; intros (A & A2); try discriminate; apply Z.eqb_neq in Z; lia.
  - assert (Z0 : (0 =? prd) = false) by (apply Z.eqb_neq; lia). assert (M0 : 0 mod prd = 0) by (apply Z.mod_0_l; lia). destruct (flt high x); cbn [fst snd]; rewrite ?U2, !Q by lia.
    + rewrite MH. destruct (h mod prd + 1 =? prd) eqn:Z; cbn [negb andb]; rewrite ?Z0, ?M0; repeat split; try lia; try discriminate; try (intros (A & A2); try discriminate; try lia; destruct A2 as (_ & A2); apply Z.eqb_neq in Z; lia).
    + rewrite Z0. cbn [negb andb]. rewrite M0. repeat split; try lia; try discriminate; try (intros (A & A2); try discriminate; try lia; destruct A2; discriminate).
Qed.
(** ** Counters over a history *)
Lemma act_same_place g v : same_place v (act_view g v).
Proof. unfold act_view, g_update_act. destruct (update_act _ _ _). destruct (ntf v); [repeat split|]. destruct (feqb _ _); [repeat split|]. destruct (feqb _ _); repeat split. Qed.
Lemma visit_kind e g s pl v u l : visit_fun e g s pl v = Some (Some u, l) -> same_place v u.
Proof.
  unfold visit_fun. cbn zeta. intros H. destruct (invalid e (vid v)); [destruct (erased pl v); discriminate|]. destruct (planned e <=? ijt v); [injection H as <- _; repeat split|].
  destruct (flt fzero (res_val g v)); [|destruct (erased pl v); discriminate]. destruct (res_same_place g v) as (R1 & R2 & R3). set (v1 := res_view g v) in *. destruct (sln_same_place g v1) as (S1 & S2 & S3).
  destruct (renewed_same_place e g s (sln_view g v1) (sln_val g v1)) as (T1 & T2 & T3). set (v2 := renewed e g s (sln_view g v1) (sln_val g v1)) in *.
  destruct (kind v2 =? GROUP).
  - injection H as H1 H2. rewrite <- H1. destruct (visibility_vw g s v2) as (_ & _ & A & B & C & _). split; [|split]; congruence.
  - destruct (is_program (kind v2)); [|injection H as H1 H2; rewrite <- H1; split; [|split]; congruence].
    destruct (activated g s _ _ _) as [w|] eqn:AC; [|discriminate]. injection H as H1 H2. rewrite <- H1. destruct (activated_vw _ _ _ _ _ _ AC) as (_ & _ & A & B & C). destruct (act_same_place g v2) as (U1 & U2 & U3). split; [|split]; congruence.
Qed.
Definition val_of (c : channel) (oid : Z) (g : group) : spec_float := match get_view g oid with Some v => ch_val c (vw v) | None => fzero end.
Definition CNT (home : Z -> place) (c : channel) (oid prd : Z) (P low high : spec_float) (L : list spec_float) (g : group) : Prop :=
  INV home g /\ gnum g (m_prd c) = P /\ gnum g (m_low c) = low /\ gnum g (m_high c) = high /\
  forall v, get_view g oid = Some v -> ntf v = false /\ ch_ok c (kind v) = true /\ ch_low c (vw v) = lows low L mod prd /\ ch_high c (vw v) = stretch low high L mod prd.
Definition steady_for (c : channel) : gop -> Prop := steady [m_prd c; m_low c; m_high c].
Lemma steady_one c o i : steady_for c o -> In i [m_prd c; m_low c; m_high c] -> steady [i] o.
Proof. intros S N. destruct o; cbn [steady steady_for] in *; auto; (intros [->|[]]; exact (S N)). Qed.
Lemma cnt_update home c oid prd P low high L e g g' out : chan_good c -> 1 <= prd <= 16777216 -> feqb P (f32_of_Z prd) = true ->
  due oid g (Update e) -> update e g = Some (g', out) -> CNT home c oid prd P low high L g ->
  CNT home c oid prd P low high (L ++ [val_of c oid g']) g' /\
  forall u, get_view g' oid = Some u -> let x := val_of c oid g' in
    (In (n_low c oid) (o_notes out) <-> 0 < lows low (L ++ [x]) /\ lows low (L ++ [x]) mod prd = 0) /\
    (In (n_high c oid) (o_notes out) <-> flt x low = false /\ flt high x = true /\ stretch low high (L ++ [x]) mod prd = 0).
Proof.
  intros GC B E (_ & D) U (I & GP & GL & GH & H). pose proof (good_members c GC) as GM.
  assert (K : forall i, In i [m_prd c; m_low c; m_high c] -> gnum g' i = gnum g i /\ gnum (fst (update_begin e g)) i = gnum g i).
  { intros i Hi. destruct (GM i Hi) as (NP & NS). split; [unfold gnum; rewrite (update_member e g g' out i U NP NS); reflexivity|apply begin_num, NP]. }
  assert (VP : f32_valid P = true) by (rewrite <- GP; apply num_valid).
  destruct (K (m_prd c)) as (K1 & K1'); [left; reflexivity|]. destruct (K (m_low c)) as (K2 & K2'); [right; left; reflexivity|]. destruct (K (m_high c)) as (K3 & K3'); [right; right; left; reflexivity|]. clear K.
  destruct (update_one home e g g' out I U) as (g1 & s & B1 & O). specialize (O oid). rewrite B1 in K1', K2', K3'. cbn [fst] in K1', K2', K3'. clear B1. pose proof (update_inv home e g g' out I U) as I'. clear U.
  destruct (get_view g oid) as [v|] eqn:G.
  2:{ destruct O as (N & _). split; [|intros u Hu; congruence]. split; [exact I'|]. split; [congruence|]. split; [congruence|]. split; [congruence|]. intros u Hu. congruence. }
  destruct O as (r & l & V & GV & NT). specialize (H v eq_refl). destruct H as (H1 & H2 & H3 & H4). specialize (D v eq_refl).
  destruct r as [u|].
  2:{ cbn [option_map] in GV. split; [|intros u Hu; congruence]. split; [exact I'|]. split; [congruence|]. split; [congruence|]. split; [congruence|]. intros u Hu. congruence. }
  cbn [option_map] in GV. set (w := with_vw v (fold_left (asked_of oid) (pend g) (vw v))) in *.
  destruct (visit_kind _ _ _ _ _ _ _ V) as (KV & KK & KN). pose proof (good_visit c GC e g1 s (home oid) w u l V D H1 H2) as Q. cbn zeta in Q. rewrite K1', K2', K3', GP, GL, GH in Q.
  assert (SC : same_counts (vw v) (vw w)) by (unfold w; cbn [vw with_vw]; apply asked_counts). destruct (good_counts c GC _ _ SC) as (C1 & C2). rewrite C1, C2, H3, H4 in Q.
  assert (VW : vid w = oid). { rewrite (get_view_home home) in G by exact I. apply find_key in G. destruct (I (home oid)) as (_ & F). destruct (F _ _ G) as (F1 & _). cbn. congruence. }
  rewrite VW in Q. set (u' := if place_eqb (home oid) Ntf then u else looked g1 u) in *.
  assert (LU : ch_low c (vw u') = ch_low c (vw u) /\ ch_high c (vw u') = ch_high c (vw u) /\ ch_val c (vw u') = ch_val c (vw u) /\ kind u' = kind u /\ ntf u' = ntf u).
  { unfold u'. destruct (place_eqb (home oid) Ntf); [repeat split|]. destruct (good_looked c GC g1 u) as (X1 & X2 & X3). destruct (looked_core g1 u) as (Y0 & Y1 & Y2 & Y3). repeat split; try assumption; try apply Y1; try apply Y2; try apply Y0; try apply Y3. }
  destruct LU as (L1 & L2 & L3 & L4 & L5). assert (X : val_of c oid g' = ch_val c (vw u)) by (unfold val_of; rewrite GV; exact L3).
  pose proof (count_step P prd (val_of c oid g') low high L (stretch low high L) VP E B (stretch_nonneg low high L)) as CS. cbn zeta in CS. rewrite <- X in Q. rewrite <- stretch_snoc in CS.
  destruct Q as (Q1 & Q2 & Q3 & Q4 & Q5). destruct CS as (S1 & S2 & S3 & S4). split.
  - split; [exact I'|]. split; [congruence|]. split; [congruence|]. split; [congruence|]. intros y Hy. rewrite GV in Hy. assert (Y : y = u') by congruence. rewrite Y. split; [congruence|]. split; [rewrite L4, KK; exact H2|]. split; congruence.
  - intros y Hy. cbn zeta. destruct (good_about c GC oid) as (A1 & A2). destruct (good_notes c GC g1 u oid) as (N1 & N2).
    assert (R1 : ~ exists u0, Some u = Some u0 /\ home oid <> Ntf /\ reported g1 u0 (n_low c oid)) by (intros (u0 & Z1 & _ & Z2); congruence).
    assert (R2 : ~ exists u0, Some u = Some u0 /\ home oid <> Ntf /\ reported g1 u0 (n_high c oid)) by (intros (u0 & Z1 & _ & Z2); congruence).
    rewrite (NT _ A1), (NT _ A2), <- S3, <- S4. tauto.
Qed.
Lemma cnt_step home c oid prd P low high L g o g' : chan_good c -> 1 <= prd <= 16777216 -> feqb P (f32_of_Z prd) = true ->
  proper home o -> keeps oid o -> steady_for c o -> due oid g o -> run_gop g o = Some g' -> CNT home c oid prd P low high L g ->
  CNT home c oid prd P low high (L ++ (if is_update o then [val_of c oid g'] else [])) g'.
Proof.
  intros GC B E PR K S D R H. destruct (is_update o) eqn:U.
  - destruct o; try discriminate U. apply run_update in R. destruct R as (out & R). apply (cnt_update home c oid prd P low high L e g g' out GC B E D R H).
  - rewrite app_nil_r. destruct H as (I & GP & GL & GH & H). split; [apply (op_inv home g o); assumption|]. pose proof (good_members c GC) as GM.
    assert (M : forall i, In i [m_prd c; m_low c; m_high c] -> gnum g' i = gnum g i).
    { intros i Hi. destruct (GM i Hi) as (NP & NS). apply (op_member_num home g o g' i PR R); [apply (steady_one c o i S Hi)|exact NP|exact NS]. }
    split; [rewrite M by (left; reflexivity); exact GP|]. split; [rewrite M by (right; left; reflexivity); exact GL|]. split; [rewrite M by (right; right; left; reflexivity); exact GH|].
    intros u Hu. destruct (get_view g oid) as [v|] eqn:G.
    + destruct (op_counts home g o g' oid v PR K U R I G) as (w & GW & C & _ & _ & (_ & P2 & P3)). rewrite GW in Hu. injection Hu as <-. destruct (H v eq_refl) as (H1 & H2 & H3 & H4). destruct (good_counts c GC _ _ C) as (C1 & C2). split; [congruence|]. split; [congruence|]. split; congruence.
    + exfalso. destruct o; try discriminate U; destruct K as (K1 & K2).
      1-8,10-11: rewrite (op_keeps_view home g _ g' oid PR K1 K2 ltac:(discriminate) eq_refl R I), G in Hu; discriminate Hu.
      cbn [run_gop] in R. injection R as <-. destruct (Z.eq_dec oid0 oid) as [->|NE]; [unfold inject_existing in Hu; rewrite G in Hu; congruence|]. rewrite (existing_get home) in Hu by assumption. congruence.
Qed.
Lemma cnt_runs home c oid prd P low high os : chan_good c -> 1 <= prd <= 16777216 -> feqb P (f32_of_Z prd) = true -> forall L g g',
  Forall (proper home) os -> Forall (keeps oid) os -> Forall (steady_for c) os -> always_due oid g os -> run_gops g os = Some g' -> CNT home c oid prd P low high L g ->
  CNT home c oid prd P low high (L ++ trace (val_of c oid) g os) g'.
Proof.
  intros GC B E. induction os as [|o os IH]; intros L g g' PR K S D R H; cbn [run_gops always_due trace] in *; [injection R as <-; rewrite app_nil_r; exact H|].
  inversion PR; subst. inversion K; subst. inversion S; subst. destruct D as (D0 & D). destruct (run_gop g o) as [g1|] eqn:R1; [|discriminate R]. rewrite app_assoc. apply (IH _ g1 g'); try assumption. apply (cnt_step home c oid prd P low high L g o g1); assumption.
Qed.
Lemma trace_snoc {A} (f : group -> A) os : forall g gz e g', run_gops g os = Some gz -> run_gop gz (Update e) = Some g' -> trace f g (os ++ [Update e]) = trace f g os ++ [f g'].
Proof.
  induction os as [|o os IH]; intros g gz e g' R U; cbn [run_gops app trace] in *; [injection R as ->; rewrite U; reflexivity|]. destruct (run_gop g o) as [g1|]; [|discriminate R]. rewrite <- app_assoc. f_equal. apply (IH g1 gz); assumption.
Qed.
Lemma due_snoc oid os : forall g gz e, always_due oid g (os ++ [Update e]) -> run_gops g os = Some gz -> always_due oid g os /\ due oid gz (Update e).
Proof.
  induction os as [|o os IH]; intros g gz e D R; cbn [run_gops app] in *; [injection R as <-; split; [exact Logic.I|exact (proj1 D)]|]. cbn [always_due] in *. destruct D as (D0 & D). destruct (run_gop g o) as [g1|]; [|discriminate R]. destruct (IH g1 gz e D R). auto.
Qed.
Lemma run_of_update e g g' out : update e g = Some (g', out) -> run_gop g (Update e) = Some g'.
Proof. intros U. change (match update e g with Some (x, _) => Some x | None => None end = Some g'). rewrite U. reflexivity. Qed.
Lemma chan_notified c home code a b os0 g oid v prd os gz e g' out : chan_good c -> Forall (proper home) os0 -> run_gops (new_group code a b) os0 = Some g ->
  get_view g oid = Some v -> ntf v = false -> ch_ok c (kind v) = true -> ch_low c (vw v) = 0 -> ch_high c (vw v) = 0 ->
  1 <= prd <= 16777216 -> feqb (gnum g (m_prd c)) (f32_of_Z prd) = true ->
  Forall (proper home) os -> Forall (keeps oid) os -> Forall (steady_for c) os -> always_due oid g (os ++ [Update e]) -> run_gops g os = Some gz -> update e gz = Some (g', out) -> get_view g' oid <> None ->
  let low := gnum g (m_low c) in let high := gnum g (m_high c) in let L := trace (val_of c oid) g (os ++ [Update e]) in
  (In (n_low c oid) (o_notes out) <-> 0 < lows low L /\ lows low L mod prd = 0) /\
  (In (n_high c oid) (o_notes out) <-> flt (val_of c oid g') low = false /\ flt high (val_of c oid g') = true /\ stretch low high L mod prd = 0).
Proof.
  intros GC P0 R0 G N OK Z1 Z2 B E PR K S D R U SV low high L. pose proof (runs_inv home os0 _ _ P0 R0 (new_inv home code a b)) as I. destruct (due_snoc oid os g gz e D R) as (D1 & D2).
  assert (H : CNT home c oid prd (gnum g (m_prd c)) low high [] g).
  { split; [exact I|]. split; [reflexivity|]. split; [reflexivity|]. split; [reflexivity|]. intros w Hw. assert (w = v) by congruence. subst w. split; [exact N|]. split; [exact OK|]. rewrite Z1, Z2. assert (L0 : lows low [] = 0) by reflexivity. assert (S0 : stretch low high [] = 0) by reflexivity. rewrite L0, S0, Z.mod_0_l by lia. auto. }
  pose proof (cnt_runs home c oid prd _ low high os GC B E [] g gz PR K S D1 R H) as H'. cbn [app] in H'. destruct (cnt_update home c oid prd _ low high _ e gz g' out GC B E D2 U H') as (_ & F).
  unfold L. rewrite (trace_snoc _ os g gz e g' R (run_of_update e gz g' out U)). destruct (get_view g' oid) as [u|] eqn:GU; [|contradiction SV; reflexivity]. apply (F u eq_refl).
Qed.
