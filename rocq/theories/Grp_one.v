(** What an update of a group does to one view, and which notifications it emits. *)
From Coq Require Import Floats.SpecFloat.
From Verif Require Import Base Float32 Float32_facts Atom_model Obj_model Obj_spec Float32_val View_model View_spec View_proofs Grp_model Grp_spec Grp_proofs Grp_more.

Definition nothing : progress := mkprog no_stats no_stats [] [] [] [].
Definition about (n : note) : Z :=
  match n with LowRes o | HighSln o | LowSln o | HighAct o | LowAct o | SlnChg o _ | ActChg o _ => o end.

(** The steps of a visit, whatever has been gathered before. *)
Definition res_view (g : group) (v : gview) : gview := let '(w, _, _) := g_update_res g v nothing in w.
Definition res_val (g : group) (v : gview) : spec_float := let '(_, x, _) := g_update_res g v nothing in x.
Definition res_note (g : group) (v : gview) : list note := let '(_, _, q) := g_update_res g v nothing in notes q.
Lemma res_indep g v p : exists q, g_update_res g v p = (res_view g v, res_val g v, q) /\ notes q = notes p ++ res_note g v.
Proof.
  unfold res_view, res_val, res_note, g_update_res. destruct (update_res (vw v)) as (w, r). destruct (_ && _ && _); eexists; (split; [reflexivity|]); [reflexivity|].
  cbn. rewrite app_nil_r. reflexivity.
Qed.
Definition sln_view (g : group) (v : gview) : gview := let '(w, _, _) := g_update_sln g v nothing in w.
Definition sln_val (g : group) (v : gview) : spec_float := let '(_, x, _) := g_update_sln g v nothing in x.
Definition sln_note (g : group) (v : gview) : list note := let '(_, _, q) := g_update_sln g v nothing in notes q.
Lemma sln_indep g v p : exists q, g_update_sln g v p = (sln_view g v, sln_val g v, q) /\ notes q = notes p ++ sln_note g v.
Proof.
  unfold sln_view, sln_val, sln_note, g_update_sln. cbn zeta.
  match goal with |- context [update_sln ?x ?y ?z] => destruct (update_sln x y z) as (w, r) end. destruct (ntf v); [eexists; split; [reflexivity|cbn; rewrite app_nil_r; reflexivity]|].
  destruct (feqb _ _); [eexists; split; [reflexivity|reflexivity]|]. destruct (feqb _ _); [eexists; split; [reflexivity|reflexivity]|]. eexists; split; [reflexivity|cbn; rewrite app_nil_r; reflexivity].
Qed.
Definition act_view (g : group) (v : gview) : gview := let '(w, _, _) := g_update_act g v nothing in w.
Definition act_val (g : group) (v : gview) : spec_float := let '(_, x, _) := g_update_act g v nothing in x.
Definition act_note (g : group) (v : gview) : list note := let '(_, _, q) := g_update_act g v nothing in notes q.
Lemma act_indep g v p : exists q, g_update_act g v p = (act_view g v, act_val g v, q) /\ notes q = notes p ++ act_note g v.
Proof.
  unfold act_view, act_val, act_note, g_update_act. cbn zeta.
  match goal with |- context [update_act ?x ?y ?z] => destruct (update_act x y z) as (w, r) end. destruct (ntf v); [eexists; split; [reflexivity|cbn; rewrite app_nil_r; reflexivity]|].
  destruct (feqb _ _); [eexists; split; [reflexivity|reflexivity]|]. destruct (feqb _ _); [eexists; split; [reflexivity|reflexivity]|]. eexists; split; [reflexivity|cbn; rewrite app_nil_r; reflexivity].
Qed.

(** The view after the update of its saliency: the refreshed injection time. *)
Definition renewed (e : env) (g : group) (s : gstate) (v : gview) (x : spec_float) : gview :=
  if is_c_salient s && flt (get g SlnThr) x && negb (once (get_sync (ub e) v)) && holds (get_sync (ub e) v) then with_ijt v (now e) else v.
Lemma saliency_indep e g s v p : exists q, _update_saliency e g s v p = (renewed e g s (sln_view g v) (sln_val g v), q) /\ notes q = notes p ++ sln_note g v.
Proof.
  unfold _update_saliency. cbn zeta. destruct (sln_indep g v p) as (q & -> & N). unfold renewed, once, holds.
  destruct (is_c_salient s); [|exists q; auto]. destruct (flt (get g SlnThr) (sln_val g v)).
  - destruct ((_ =? SYNC_ONCE) || _ || _); cbn [negb andb].
    + destruct (flt (former_sln_thr s) _); destruct (is_c_active s); eexists; (split; [reflexivity|exact N]).
    + destruct (_ || _); destruct (is_c_active s); eexists; (split; [reflexivity|exact N]).
  - destruct (is_c_active s); eexists; (split; [reflexivity|exact N]).
Qed.
(** The controller after the update of the activation. *)
Definition activated (g : group) (s : gstate) (old : spec_float) (v : gview) (x : spec_float) : option gview :=
  let was_active := flt (get g ActThr) old in let is_active := flt (get g ActThr) x in
  let put b := match ctl v with Some _ => Some (with_ctl v (Some b)) | None => None end in
  if was_c_active s && was_c_salient s then
    if negb (is_c_active s) || negb (is_c_salient s) then put false
    else if negb was_active then if is_active then put true else Some v
    else if negb is_active then put false else Some v
  else if is_c_active s && is_c_salient s then if is_active then put true else Some v else Some v.
Lemma activation_indep g s v p : match activated g s (get_act (vw v)) (act_view g v) (act_val g v) with
  | Some w => exists q, _update_activation g s v p = Some (w, q) /\ notes q = notes p ++ act_note g v
  | None => _update_activation g s v p = None end.
Proof.
  unfold _update_activation, activated. cbn zeta. destruct (act_indep g v p) as (q & -> & N).
  destruct (was_c_active s && was_c_salient s).
  - destruct (negb (is_c_active s) || negb (is_c_salient s)); [destruct (ctl _); [eexists; split; [reflexivity|exact N]|reflexivity]|].
    destruct (negb (flt (get g ActThr) (get_act (vw v)))).
    + destruct (flt _ (act_val g v)); [|eexists; split; [reflexivity|exact N]]. destruct (ctl _); [eexists; split; [reflexivity|exact N]|reflexivity].
    + destruct (negb _); [|eexists; split; [reflexivity|exact N]]. destruct (ctl _); [eexists; split; [reflexivity|exact N]|reflexivity].
  - destruct (is_c_active s && is_c_salient s); [|eexists; split; [reflexivity|exact N]]. destruct (flt _ _); [|eexists; split; [reflexivity|exact N]].
    destruct (ctl _); [eexists; split; [reflexivity|exact N]|reflexivity].
Qed.
Definition erased (pl : place) (v : gview) : bool := match place_of v with Some q => place_eqb q pl | None => false end.
(** The whole visit: the view that remains and the notifications. *)
Definition visit_fun (e : env) (g : group) (s : gstate) (pl : place) (v : gview) : option (option gview * list note) :=
  if invalid e (vid v) then if erased pl v then Some (None, []) else None
  else if planned e <=? ijt v then Some (Some v, [])
  else
    let v1 := res_view g v in
    if flt fzero (res_val g v) then
      let v2 := renewed e g s (sln_view g v1) (sln_val g v1) in
      let l := res_note g v ++ sln_note g v1 in
      if kind v2 =? GROUP then Some (Some (_update_visibility g s v2), l)
      else if is_program (kind v2) then
        match activated g s (get_act (vw v2)) (act_view g v2) (act_val g v2) with Some w => Some (Some w, l ++ act_note g v2) | None => None end
      else Some (Some v2, l)
    else if erased pl v then Some (None, res_note g v) else None.
Lemma erased_is pl v (p : progress) : match place_of v with Some q => if place_eqb q pl then Some (@None gview, p) else None | None => None end = if erased pl v then Some (None, p) else None.
Proof. unfold erased. destruct (place_of v); reflexivity. Qed.
Lemma res_same_place g v : same_place v (res_view g v).
Proof. unfold res_view, g_update_res. destruct (update_res (vw v)). repeat split. Qed.
Lemma erased_same pl v w : same_place v w -> erased pl w = erased pl v.
Proof. intros S. unfold erased. rewrite (same_place_of _ _ S). reflexivity. Qed.
Lemma visit_indep e g s pl v p : match visit_fun e g s pl v with
  | Some (r, l) => exists q, visit e g s pl v p = Some (r, q) /\ notes q = notes p ++ l
  | None => visit e g s pl v p = None end.
Proof.
  unfold visit, visit_fun. cbn zeta. rewrite !erased_is. destruct (invalid e (vid v)); [destruct (erased pl v); [exists p; rewrite app_nil_r; auto|reflexivity]|].
  destruct (planned e <=? ijt v); [exists p; rewrite app_nil_r; auto|]. destruct (res_indep g v p) as (q & -> & N). rewrite ?erased_is.
  destruct (flt fzero (res_val g v)); [|destruct (erased pl v); [exists q; auto|reflexivity]].
  destruct (saliency_indep e g s (res_view g v) q) as (q2 & -> & N2). rewrite N, <- app_assoc in N2.
  set (v2 := renewed e g s _ _) in *. destruct (kind v2 =? GROUP); [exists q2; auto|]. destruct (is_program (kind v2)); [|exists q2; auto].
  pose proof (activation_indep g s v2 q2) as A. destruct (activated g s (get_act (vw v2)) (act_view g v2) (act_val g v2)) as [w|]; [|rewrite A; reflexivity].
  destruct A as (q3 & -> & N3). exists q3. split; [reflexivity|]. rewrite N3, N2, <- !app_assoc. reflexivity.
Qed.
Lemma visit_is e g s pl v p r q : visit e g s pl v p = Some (r, q) -> exists l, visit_fun e g s pl v = Some (r, l) /\ notes q = notes p ++ l.
Proof.
  intros V. pose proof (visit_indep e g s pl v p) as I. destruct (visit_fun e g s pl v) as [(r', l)|]; [|congruence]. destruct I as (q' & E & N). rewrite V in E. injection E as <- <-. exists l. auto.
Qed.
(** Notifications are about the view visited. *)
Lemma res_about g v n : In n (res_note g v) -> about n = vid v.
Proof. unfold res_note, g_update_res. destruct (update_res (vw v)). destruct (_ && _ && _); cbn; [intros [<-|[]]; reflexivity|tauto]. Qed.
Lemma sln_about g v n : In n (sln_note g v) -> about n = vid v.
Proof.
  unfold sln_note, g_update_sln. cbn zeta. match goal with |- context [update_sln ?x ?y ?z] => destruct (update_sln x y z) as (w, r) end.
  destruct (ntf v); [cbn; tauto|]. destruct (feqb _ _); [cbn; intros [<-|[]]; reflexivity|]. destruct (feqb _ _); [cbn; intros [<-|[]]; reflexivity|cbn; tauto].
Qed.
Lemma act_about g v n : In n (act_note g v) -> about n = vid v.
Proof.
  unfold act_note, g_update_act. cbn zeta. match goal with |- context [update_act ?x ?y ?z] => destruct (update_act x y z) as (w, r) end.
  destruct (ntf v); [cbn; tauto|]. destruct (feqb _ _); [cbn; intros [<-|[]]; reflexivity|]. destruct (feqb _ _); [cbn; intros [<-|[]]; reflexivity|cbn; tauto].
Qed.
Lemma sln_same_place g v : same_place v (sln_view g v).
Proof.
  unfold sln_view, g_update_sln. cbn zeta. match goal with |- context [update_sln ?x ?y ?z] => destruct (update_sln x y z) as (w, r) end.
  destruct (ntf v); [repeat split|]. destruct (feqb _ _); [repeat split|]. destruct (feqb _ _); repeat split.
Qed.
Lemma renewed_same_place e g s v x : same_place v (renewed e g s v x).
Proof. unfold renewed. destruct (_ && _); repeat split. Qed.
Lemma visit_about e g s pl v r l n : visit_fun e g s pl v = Some (r, l) -> In n l -> about n = vid v.
Proof.
  unfold visit_fun. cbn zeta. destruct (invalid e (vid v)); [destruct (erased pl v); [|discriminate]; intros H; injection H as <- <-; contradiction|].
  destruct (planned e <=? ijt v); [intros H; injection H as <- <-; contradiction|].
  destruct (flt fzero (res_val g v)); [|destruct (erased pl v); [|discriminate]; intros H; injection H as <- <-; apply res_about].
  assert (A : forall n, In n (res_note g v ++ sln_note g (res_view g v)) -> about n = vid v).
  { intros m M. apply in_app_or in M. destruct M as [M|M]; [apply (res_about g v m M)|rewrite (sln_about _ _ _ M); apply res_same_place]. }
  destruct (res_same_place g v) as (V1 & _). destruct (sln_same_place g (res_view g v)) as (V2 & _).
  destruct (renewed_same_place e g s (sln_view g (res_view g v)) (sln_val g (res_view g v))) as (V3 & _). set (v2 := renewed e g s _ _) in *.
  destruct (kind v2 =? GROUP); [intros H; injection H as <- <-; apply A|]. destruct (is_program (kind v2)); [|intros H; injection H as <- <-; apply A].
  destruct (activated g s _ _ _); [|discriminate]. intros H; injection H as <- <-. intros M. apply in_app_or in M. destruct M as [M|M]; [apply A, M|]. rewrite (act_about _ _ _ M). congruence.
Qed.

(** ** The loop *)
Lemma visit_all_notes e g s pl m : forall p m' p', visit_all e g s pl m p = Some (m', p') ->
  exists L, notes p' = notes p ++ L /\ forall n, In n L <-> exists k v r l, In (k, v) m /\ visit_fun e g s pl v = Some (r, l) /\ In n l.
Proof.
  induction m as [|(j, u) m IH]; intros p m' p' H; cbn [visit_all] in H.
  - injection H as <- <-. exists []. rewrite app_nil_r. split; [reflexivity|]. intros n. split; [contradiction|]. intros (k & v & r & l & [] & _).
  - destruct (visit e g s pl u p) as [(r, t)|] eqn:V; [|discriminate]. destruct (visit_all e g s pl m t) as [(m2, t2)|] eqn:A; [|discriminate]. injection H as <- <-.
    destruct (IH _ _ _ A) as (L & N & I). destruct (visit_is _ _ _ _ _ _ _ _ V) as (l & F & N'). exists (l ++ L). split; [rewrite N, N', <- app_assoc; reflexivity|].
    intros n. rewrite in_app_iff, I. split.
    + intros [X|(k & v & r' & l' & B & C)]; [exists j, u, r, l; split; [left; reflexivity|auto]|exists k, v, r', l'; split; [right; exact B|exact C]].
    + intros (k & v & r' & l' & [B|B] & C & D); [inversion B; subst; left; rewrite F in C; inversion C; subst; exact D|right; exists k, v, r', l'; auto].
Qed.
(** A visit depends on the group's words and decay only. *)
Lemma visit_fun_core e g h s pl v : gcode h = gcode g -> dcy h = dcy g -> visit_fun e h s pl v = visit_fun e g s pl v.
Proof.
  intros C D. assert (G : forall q, get h q = get g q) by (intros q; unfold get, gnum; rewrite C; reflexivity).
  assert (R1 : forall u, res_view h u = res_view g u) by (intros u; unfold res_view, g_update_res, gnum; rewrite C; reflexivity).
  assert (R2 : forall u, res_val h u = res_val g u) by (intros u; unfold res_val, g_update_res, gnum; rewrite C; reflexivity).
  assert (R3 : forall u, res_note h u = res_note g u) by (intros u; unfold res_note, g_update_res, gnum; rewrite C; reflexivity).
  assert (S1 : forall u, sln_view h u = sln_view g u) by (intros u; unfold sln_view, g_update_sln, gnum; rewrite C, D; reflexivity).
  assert (S2 : forall u, sln_val h u = sln_val g u) by (intros u; unfold sln_val, g_update_sln, gnum; rewrite C, D; reflexivity).
  assert (S3 : forall u, sln_note h u = sln_note g u) by (intros u; unfold sln_note, g_update_sln, gnum; rewrite C, D; reflexivity).
  assert (A1 : forall u, act_view h u = act_view g u) by (intros u; unfold act_view, g_update_act, gnum; rewrite C; reflexivity).
  assert (A2 : forall u, act_val h u = act_val g u) by (intros u; unfold act_val, g_update_act, gnum; rewrite C; reflexivity).
  assert (A3 : forall u, act_note h u = act_note g u) by (intros u; unfold act_note, g_update_act, gnum; rewrite C; reflexivity).
  assert (T : forall u x, renewed e h s u x = renewed e g s u x) by (intros u x; unfold renewed; rewrite G; reflexivity).
  assert (V : forall u, _update_visibility h s u = _update_visibility g s u) by (intros u; unfold _update_visibility; rewrite G; reflexivity).
  assert (K : forall o u x, activated h s o u x = activated g s o u x) by (intros o u x; unfold activated; rewrite G; reflexivity).
  unfold visit_fun. cbn zeta. rewrite !R1, !R2, !R3, !S1, !S2, !S3, !T, !A1, !A2, !A3, !V, !K. reflexivity.
Qed.
Lemma visit_fun_views e g s pl v q m : visit_fun e (with_views g q m) s pl v = visit_fun e g s pl v.
Proof. apply visit_fun_core; reflexivity. Qed.
Lemma visit_places_notes e s pls : forall g p g' p', NoDup pls -> visit_places e g s pls p = Some (g', p') ->
  exists L, notes p' = notes p ++ L /\ forall n, In n L <-> exists pl k v r l, In pl pls /\ In (k, v) (views g pl) /\ visit_fun e g s pl v = Some (r, l) /\ In n l.
Proof.
  induction pls as [|a pls IH]; intros g p g' p' N H; cbn [visit_places] in H.
  - injection H as <- <-. exists []. rewrite app_nil_r. split; [reflexivity|]. intros n. split; [contradiction|]. intros (pl & k & v & r & l & [] & _).
  - destruct (visit_all e g s a (views g a) p) as [(m, t)|] eqn:V; [|discriminate]. inversion N as [|? ? NI ND]; subst. destruct (IH _ _ _ _ ND H) as (L & N1 & I1). destruct (visit_all_notes _ _ _ _ _ _ _ _ V) as (L0 & N0 & I0).
    exists (L0 ++ L). split; [rewrite N1, N0, <- app_assoc; reflexivity|]. intros n. rewrite in_app_iff, I0, I1. split.
    + intros [(k & v & r & l & A & B)|(pl & k & v & r & l & A & B & C & D)]; [exists a, k, v, r, l; split; [left; reflexivity|auto]|].
      exists pl, k, v, r, l. split; [right; exact A|]. cbn [views with_views] in B. rewrite place_eqb_neq in B by (intros ->; contradiction). rewrite visit_fun_views in C. auto.
    + intros (pl & k & v & r & l & [->|A] & B & C & D); [left; exists k, v, r, l; auto|]. right. exists pl, k, v, r, l. split; [exact A|]. cbn [views with_views]. rewrite place_eqb_neq by (intros ->; contradiction). rewrite visit_fun_views. auto.
Qed.

(** ** The monitoring of changes *)
Definition see_sln (v : gview) : gview := with_vw v (fst (update_sln_delta (vw v))).
Definition see_act (v : gview) : gview := with_vw v (fst (update_act_delta (vw v))).
Definition on_views (f : gview -> gview) (m : vmap) : vmap := map (fun kv => (fst kv, f (snd kv))) m.
Lemma watch_is delta n thr m : fst (watch delta n thr m) = on_views (fun v => with_vw v (fst (delta (vw v)))) m /\
  forall x, In x (snd (watch delta n thr m)) <-> exists k v, In (k, v) m /\ flt thr (fabs (snd (delta (vw v)))) = true /\ x = n (vid v) (snd (delta (vw v))).
Proof.
  induction m as [|(k, v) m (IH1 & IH2)]; [split; [reflexivity|]; intros x; split; [contradiction|intros (? & ? & [] & _)]|]. unfold watch in *. cbn [fold_right fst snd on_views map].
  destruct (delta (vw v)) as (w, d) eqn:E. cbn [fst snd]. split; [f_equal; exact IH1|]. intros x. destruct (flt thr (fabs d)) eqn:F.
  - cbn [In]. rewrite IH2. split.
    + intros [<-|(j & u & A & B)]; [exists k, v; rewrite E; auto|exists j, u; auto].
    + intros (j & u & [A|A] & B & C); [inversion A; subst; rewrite E; left; reflexivity|right; exists j, u; auto].
  - rewrite IH2. split.
    + intros (j & u & A & B). exists j, u. split; [right; exact A|exact B].
    + intros (j & u & [A|A] & B & C); [inversion A; subst; rewrite E in B; cbn in B; congruence|exists j, u; auto].
Qed.
Lemma watch_places_is delta n thr pls : NoDup pls -> forall g,
  (forall p, views (fst (watch_places delta n thr g pls)) p = if existsb (place_eqb p) pls then on_views (fun v => with_vw v (fst (delta (vw v)))) (views g p) else views g p) /\
  forall x, In x (snd (watch_places delta n thr g pls)) <-> exists p k v, In p pls /\ In (k, v) (views g p) /\ flt thr (fabs (snd (delta (vw v)))) = true /\ x = n (vid v) (snd (delta (vw v))).
Proof.
  induction pls as [|a pls IH]; intros N g; cbn [watch_places]; [split; [reflexivity|]; intros x; split; [contradiction|intros (? & ? & ? & [] & _)]|].
  inversion N as [|? ? NI ND]; subst. destruct (watch_is delta n thr (views g a)) as (W1 & W2). destruct (watch delta n thr (views g a)) as (m, l). cbn [fst snd] in W1, W2.
  destruct (IH ND (with_views g a m)) as (H1 & H2). destruct (watch_places delta n thr (with_views g a m) pls) as (g', l'). cbn [fst snd] in *. split.
  - intros p. rewrite H1. cbn [existsb views with_views]. destruct (place_dec p a) as [->|D].
    + rewrite place_eqb_refl. cbn [orb]. destruct (existsb (place_eqb a) pls) eqn:X; [|exact W1]. exfalso. apply NI. apply existsb_exists in X. destruct X as (y & Y & Z). destruct (place_dec a y) as [->|E]; [exact Y|]. rewrite place_eqb_neq in Z by exact E. discriminate.
    + rewrite place_eqb_neq by exact D. reflexivity.
  - intros x. rewrite in_app_iff, W2, H2. split.
    + intros [(k & v & A & B)|(p & k & v & A & B & C)]; [exists a, k, v; split; [left; reflexivity|auto]|].
      exists p, k, v. split; [right; exact A|]. cbn [views with_views] in B. rewrite place_eqb_neq in B by (intros ->; contradiction). auto.
    + intros (p & k & v & [->|A] & B & C); [left; exists k, v; auto|]. right. exists p, k, v. split; [exact A|]. cbn [views with_views]. rewrite place_eqb_neq by (intros ->; contradiction). auto.
Qed.

(** The view once its changes have been looked at, and the notifications. *)
Definition looked (g : group) (v : gview) : gview :=
  let v := if mon_sln g =? 0 then see_sln v else v in if mon_act g =? 0 then see_act v else v.
Definition sln_change (v : gview) : spec_float := fsub (get_sln (vw v)) (i_sln (vw v)).
Definition act_change (v : gview) : spec_float := fsub (get_act (vw v)) (i_act (vw v)).
Definition reported (g : group) (v : gview) (n : note) : Prop :=
  (mon_sln g = 0 /\ flt (gnum g GRP_SLN_CHG_THR) (fabs (sln_change v)) = true /\ n = SlnChg (vid v) (sln_change v)) \/
  (mon_act g = 0 /\ flt (gnum g GRP_ACT_CHG_THR) (fabs (act_change v)) = true /\ n = ActChg (vid v) (act_change v)).
Lemma non_ntf_nodup : NoDup non_ntf.
Proof. unfold non_ntf. repeat constructor; cbn; intuition discriminate. Qed.
Lemma in_non_ntf p : In p non_ntf <-> p <> Ntf.
Proof. destruct p; cbn; split; intros H; try discriminate; try tauto; intuition discriminate. Qed.
Lemma on_views_in f m k v : In (k, v) (on_views f m) <-> exists u, v = f u /\ In (k, u) m.
Proof.
  unfold on_views. rewrite in_map_iff. split; [intros ((j, u) & E & I); cbn in E; inversion E; subst; exists u; auto|intros (u & -> & I); exists (k, u); auto].
Qed.
Lemma on_views_id f m : (forall v, f v = v) -> on_views f m = m.
Proof. intros H. unfold on_views. rewrite <- (map_id m) at 2. apply map_ext. intros (k, v). cbn. rewrite H. reflexivity. Qed.
Lemma on_views_comp f h m : on_views f (on_views h m) = on_views (fun v => f (h v)) m.
Proof. unfold on_views. rewrite map_map. reflexivity. Qed.
Lemma update_stats_is e g p : 
  (forall q, views (fst (update_stats e g p)) q = if place_eqb q Ntf then views g q else on_views (looked g) (views g q)) /\
  forall x, In x (snd (update_stats e g p)) <-> exists q k v, q <> Ntf /\ In (k, v) (views g q) /\ reported g v x.
Proof.
  unfold update_stats. cbn zeta. unfold gput.
  match goal with |- context [gnum ?x GRP_SLN_CHG_THR] => set (g0 := x) end.
  assert (H0 : views g0 = views g) by reflexivity. assert (M0 : mon_sln g0 = mon_sln g) by reflexivity. assert (M1 : mon_act g0 = mon_act g) by reflexivity.
  assert (T0 : gnum g0 GRP_SLN_CHG_THR = gnum g GRP_SLN_CHG_THR).
  { unfold g0, gnum. cbn [gcode with_code with_dcy]. rewrite !put_other by (vm_compute; discriminate). reflexivity. }
  assert (T1 : gnum g0 GRP_ACT_CHG_THR = gnum g GRP_ACT_CHG_THR).
  { unfold g0, gnum. cbn [gcode with_code with_dcy]. rewrite !put_other by (vm_compute; discriminate). reflexivity. }
  clearbody g0. 
  assert (A : exists g1 l1, (if mon_sln g0 =? 0 then watch_places update_sln_delta SlnChg (gnum g0 GRP_SLN_CHG_THR) g0 non_ntf else (g0, [])) = (g1, l1) /\ rest_same g0 g1 /\
    (forall q, views g1 q = if place_eqb q Ntf then views g q else on_views (fun v => if mon_sln g =? 0 then see_sln v else v) (views g q)) /\
    forall x, In x l1 <-> exists q k v, q <> Ntf /\ In (k, v) (views g q) /\ mon_sln g = 0 /\ flt (gnum g GRP_SLN_CHG_THR) (fabs (sln_change v)) = true /\ x = SlnChg (vid v) (sln_change v)).
  { rewrite M0, T0. destruct (Z.eqb_spec (mon_sln g) 0) as [Z|Z].
    - destruct (watch_places_is update_sln_delta SlnChg (gnum g GRP_SLN_CHG_THR) non_ntf non_ntf_nodup g0) as (W1 & W2).
      destruct (watch_places_quiet update_sln_delta SlnChg (gnum g GRP_SLN_CHG_THR) non_ntf (fun v => eq_refl) g0) as (_ & R).
      destruct (watch_places _ _ _ g0 _) as (g1, l1). exists g1, l1. split; [reflexivity|]. split; [exact R|]. cbn [fst snd] in *. split.
      + intros q. rewrite W1, H0. destruct q; reflexivity.
      + intros x. rewrite W2, H0. split; intros (q & k & v & B & C & D); exists q, k, v; (split; [apply in_non_ntf, B|]); (split; [exact C|]); [split; [exact Z|exact D]|apply D].
    - exists g0, []. split; [reflexivity|]. split; [repeat split|]. split.
      + intros q. rewrite H0. destruct (place_eqb q Ntf); [reflexivity|]. rewrite on_views_id; reflexivity.
      + intros x. split; [contradiction|]. intros (q & k & v & _ & _ & E & _). contradiction. }
  destruct A as (g1 & l1 & -> & R1 & V1 & N1).
  assert (A : exists g2 l2, (if mon_act g1 =? 0 then watch_places update_act_delta ActChg (gnum g1 GRP_ACT_CHG_THR) g1 non_ntf else (g1, [])) = (g2, l2) /\
    (forall q, views g2 q = if place_eqb q Ntf then views g q else on_views (looked g) (views g q)) /\
    forall x, In x l2 <-> exists q k v, q <> Ntf /\ In (k, v) (views g q) /\ mon_act g = 0 /\ flt (gnum g GRP_ACT_CHG_THR) (fabs (act_change v)) = true /\ x = ActChg (vid v) (act_change v)).
  { destruct R1 as (a1 & a2 & a3 & a4 & a5 & _). rewrite a5, M1. replace (gnum g1 GRP_ACT_CHG_THR) with (gnum g GRP_ACT_CHG_THR) by (rewrite <- T1; unfold gnum; rewrite a1; reflexivity).
    destruct (Z.eqb_spec (mon_act g) 0) as [Z|Z].
    - destruct (watch_places_is update_act_delta ActChg (gnum g GRP_ACT_CHG_THR) non_ntf non_ntf_nodup g1) as (W1 & W2).
      destruct (watch_places _ _ _ g1 _) as (g2, l2). exists g2, l2. split; [reflexivity|]. cbn [fst snd] in *. split.
      + intros q. rewrite W1, V1. replace (existsb (place_eqb q) non_ntf) with (negb (place_eqb q Ntf)) by (destruct q; reflexivity). destruct (place_eqb q Ntf); [reflexivity|]. cbn [negb]. rewrite on_views_comp.
        unfold on_views. apply map_ext. intros (k, v). cbn [fst snd]. unfold looked. cbn zeta. rewrite Z. reflexivity.
      + intros x. rewrite W2. split.
        * intros (q & k & v & B & C & D & E). apply in_non_ntf in B. rewrite V1, place_eqb_neq in C by exact B. apply on_views_in in C. destruct C as (u & -> & C). exists q, k, u. split; [exact B|]. split; [exact C|]. split; [exact Z|]. destruct (mon_sln g =? 0); split; [exact D|exact E|exact D|exact E].
        * intros (q & k & v & B & C & _ & D & E). exists q, k, (if mon_sln g =? 0 then see_sln v else v). split; [apply in_non_ntf, B|]. split; [rewrite V1, place_eqb_neq by exact B; apply on_views_in; exists v; auto|]. destruct (mon_sln g =? 0); split; [exact D|exact E|exact D|exact E].
    - exists g1, []. split; [reflexivity|]. split.
      + intros q. rewrite V1. destruct (place_eqb q Ntf); [reflexivity|]. unfold on_views. apply map_ext. intros (k, v). cbn [fst snd]. unfold looked. cbn zeta. destruct (Z.eqb_spec (mon_act g) 0); [contradiction|reflexivity].
      + intros x. split; [contradiction|]. intros (q & k & v & _ & _ & E & _). contradiction. }
  destruct A as (g2 & l2 & -> & V2 & N2). cbn [fst snd]. split; [exact V2|]. intros x. rewrite in_app_iff, N1, N2. split.
  - intros [(q & k & v & B & C & D)|(q & k & v & B & C & D)]; exists q, k, v; (split; [exact B|]); (split; [exact C|]); [left; exact D|right; exact D].
  - intros (q & k & v & B & C & [D|D]); [left|right]; exists q, k, v; auto.
Qed.

Lemma find_on_views f m k : map_find (on_views f m) k = option_map f (map_find m k).
Proof. induction m as [|(j, v) m IH]; cbn; [reflexivity|]. destruct (j =? k); [reflexivity|exact IH]. Qed.
Lemma looked_core g v : vid (looked g v) = vid v /\ kind (looked g v) = kind v /\ ntf (looked g v) = ntf v /\ ijt (looked g v) = ijt v /\ ctl (looked g v) = ctl v /\ seen (looked g v) = seen v /\ vcode (vw (looked g v)) = vcode (vw v).
Proof. unfold looked. cbn zeta. destruct (mon_sln g =? 0), (mon_act g =? 0); repeat split. Qed.

(** An update visits each view held once, independently of the others. *)
Lemma update_one home e g g' out : INV home g -> update e g = Some (g', out) ->
  exists g1 s, update_begin e g = (g1, s) /\ forall oid,
  match get_view g oid with
  | None => get_view g' oid = None /\ forall n, about n = oid -> ~ In n (o_notes out)
  | Some v => exists r l, visit_fun e g1 s (home oid) (with_vw v (fold_left (asked_of oid) (pend g) (vw v))) = Some (r, l) /\
      get_view g' oid = option_map (fun u => if place_eqb (home oid) Ntf then u else looked g1 u) r /\
      forall n, about n = oid -> (In n (o_notes out) <-> In n l \/ exists u, r = Some u /\ home oid <> Ntf /\ reported g1 u n)
  end.
Proof.
  intros I U. pose proof (update_inv home e g g' out I U) as I'. destruct (update_split e g g' out U) as (g1 & s & g2 & p & x & l & B & V & X & S & O). clear U. exists g1, s. split; [exact B|].
  destruct (begin_quiet home e g I) as (Q1 & I1). pose proof (fun oid => begin_get_view home e g oid I) as BG. rewrite B in Q1, I1, BG. cbn [fst] in Q1, I1, BG. clear B.
  destruct (visit_places_spec _ _ _ _ _ _ _ order_nodup V) as (R & _ & W). destruct (visit_places_notes _ _ _ _ _ _ _ order_nodup V) as (L & NL & IL). cbn [notes] in NL. cbn [app] in NL.
  destruct (update_stats_is e (with_new_ctl (with_newly g2 (p_newly p)) x) p) as (SV & SN). rewrite S in SV, SN. cbn [fst snd] in SV, SN. rewrite views_with_newly in SV, SN. clear S V.
  assert (LK : forall v, looked (with_new_ctl (with_newly g2 (p_newly p)) x) v = looked g1 v).
  { intros v. destruct R as (a1 & a2 & a3 & a4 & a5 & _). unfold looked. cbn zeta. cbn [mon_sln mon_act with_new_ctl with_newly]. rewrite a4, a5. reflexivity. }
  assert (RP : forall v n, reported (with_new_ctl (with_newly g2 (p_newly p)) x) v n <-> reported g1 v n).
  { intros v n. destruct R as (a1 & a2 & a3 & a4 & a5 & _). unfold reported, gnum. cbn [mon_sln mon_act gcode with_new_ctl with_newly]. rewrite a1, a4, a5. reflexivity. }
  subst out. cbn [o_notes]. intros oid.
  assert (IN : forall n, In n (notes p ++ l) <-> In n L \/ exists q k v, q <> Ntf /\ In (k, v) (views g2 q) /\ reported g1 v n).
  { intros n. rewrite in_app_iff, NL, SN. split; (intros [H|(q & k & v & A & A' & C)]; [left; exact H|right; exists q, k, v; split; [exact A|]; split; [exact A'|apply RP, C]]). }
  assert (AB : forall v n, reported g1 v n -> about n = vid v) by (intros v n [(_ & _ & ->)|(_ & _ & ->)]; reflexivity).
  (* the views of the second group are those of the first, visited *)
  assert (WH : forall q k u, In (k, u) (views g2 q) -> k = vid u /\ home k = q).
  { intros q k u H. destruct (W q (in_order q)) as (y & y' & VA). destruct (visit_all_in _ _ _ _ _ _ _ _ VA k u H) as (v & z & z' & A & C). apply visit_frame in C. destruct (I1 q) as (_ & F1). destruct (F1 _ _ A) as (K & _ & H1). destruct C as (C & _). split; [congruence|exact H1]. }
  assert (G' : get_view g' oid = option_map (fun u => if place_eqb (home oid) Ntf then u else looked g1 u) (map_find (views g2 (home oid)) oid)).
  { rewrite (get_view_home home) by exact I'. rewrite SV. destruct (place_eqb (home oid) Ntf); [destruct (map_find _ _); reflexivity|]. rewrite find_on_views. destruct (map_find _ _); cbn; [rewrite LK|]; reflexivity. }
  specialize (BG oid). rewrite (get_view_home home _ oid I1) in BG. destruct (get_view g oid) as [v|]; cbn [option_map] in BG.
  - set (w := with_vw v _) in *. apply find_key in BG. destruct (I1 (home oid)) as (N1 & F1). destruct (F1 _ _ BG) as (K1 & _ & _).
    destruct (W (home oid) (in_order _)) as (y & y' & VA). destruct (visit_all_out _ _ _ _ _ _ _ _ VA N1 _ _ BG) as (z & z' & r & VV & RR). destruct (visit_is _ _ _ _ _ _ _ _ VV) as (ln & FN & _).
    exists r, ln. split; [exact FN|]. pose proof (visit_all_nodup _ _ _ _ _ _ _ _ VA N1) as N2.
    assert (MF : map_find (views g2 (home oid)) oid = r).
    { destruct r as [u|]; [apply find_in; assumption|apply find_none; exact RR]. }
    split; [rewrite G', MF; reflexivity|]. intros n NO. rewrite IN, IL. split.
    + intros [(pl & k & v' & r' & l' & _ & A & C & D)|(q & k & u & NQ & A & C)].
      * left. pose proof (visit_about _ _ _ _ _ _ _ _ C D) as AA. destruct (I1 pl) as (N3 & F3). destruct (F3 _ _ A) as (K3 & _ & H3). assert (KO : k = oid) by congruence. clear K3. subst k. subst pl.
        assert (VW : v' = w) by (apply (find_in _ _ _ N1) in A, BG; congruence). rewrite VW, FN in C. injection C as _ C. rewrite C. exact D.
      * right. destruct (WH _ _ _ A) as (K3 & H3). pose proof (AB _ _ C). assert (KO : k = oid) by congruence. clear K3. subst k. subst q. exists u. split; [|split; [exact NQ|exact C]]. rewrite <- MF. apply find_in; assumption.
    + intros [D|(u & E & NQ & C)].
      * left. exists (home oid), oid, w, r, ln. split; [apply in_order|]. auto.
      * right. exists (home oid), oid, u. split; [exact NQ|]. split; [|exact C]. apply find_in; [exact N2|]. rewrite MF. exact E.
  - apply find_none in BG. assert (AB2 : forall u, ~ In (oid, u) (views g2 (home oid))).
    { intros u H. destruct (W (home oid) (in_order _)) as (y & y' & VA). destruct (visit_all_in _ _ _ _ _ _ _ _ VA oid u H) as (v & _ & _ & A & _). apply BG. apply (in_map fst) in A. exact A. }
    split.
    + rewrite G'. destruct (map_find (views g2 (home oid)) oid) as [u|] eqn:E; [|reflexivity]. apply find_key in E. destruct (AB2 _ E).
    + intros n NO H. apply IN in H. destruct H as [H|(q & k & u & NQ & A & C)].
      * apply IL in H. destruct H as (pl & k & v' & r' & l' & _ & A & C & D). pose proof (visit_about _ _ _ _ _ _ _ _ C D) as AA. destruct (I1 pl) as (_ & F3). destruct (F3 _ _ A) as (K3 & _ & H3). assert (KO : k = oid) by congruence. clear K3. subst k. subst pl. apply BG. apply (in_map fst) in A. exact A.
      * destruct (WH _ _ _ A) as (K3 & H3). pose proof (AB _ _ C). assert (KO : k = oid) by congruence. clear K3. subst k. subst q. apply (AB2 _ A).
Qed.
