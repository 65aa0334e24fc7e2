From Coq Require Import Floats.SpecFloat.
From Verif Require Import Base Float32 Float32_facts Float32_round Float32_val Atom_model Obj_model Obj_spec Obj_proofs View_model View_proofs Grp_model Sln_model Sln_spec.

Lemma on_path_iff o t : on_path o t = true <-> In o (path t).
Proof.
  unfold on_path. rewrite existsb_exists. split; [intros (x & H & E); apply Z.eqb_eq in E; subst; exact H|].
  intros H. exists o. split; [exact H|apply Z.eqb_refl].
Qed.
Lemma on_path_false o t : on_path o t = false <-> ~ In o (path t).
Proof. rewrite <- on_path_iff. destruct (on_path o t); split; congruence. Qed.

(** The second function finds the object on the path: nothing more is reached. *)
Lemma initiate_on_stops n c thr f o t : In o (path t) -> initiate_on n c thr (S f) o t = Some t.
Proof. intros H. cbn. destruct (exceeds n o c); [|reflexivity]. apply on_path_iff in H. rewrite H. reflexivity. Qed.
Lemma propagate_step n c thr f o t :
  propagate n (initiate_on n c thr (S f)) c thr o t =
  Some (if (o =? root n) || on_path o t then t else mktrail (path t ++ [o]) (jobs t ++ [mkjob o c thr])).
Proof.
  unfold propagate. destruct (o =? root n); [reflexivity|]. destruct (on_path o t); [reflexivity|]. cbn [orb].
  rewrite initiate_on_stops; [reflexivity|]. cbn. rewrite in_app_iff. right. left. reflexivity.
Qed.
(** Invariant of the loops: the path is the first object followed by the objects of
    the jobs. *)
Definition sound (o0 : Z) (n : net) (c thr : spec_float) (t : trail) : Prop :=
  path t = o0 :: map jobj (jobs t) /\ NoDup (path t) /\ (forall j, In j (jobs t) -> jobj j <> root n /\ jchange j = c /\ jthr j = thr).
Lemma each_ok n c thr f o0 l : forall t, sound o0 n c thr t ->
  exists t', each (propagate n (initiate_on n c thr (S f)) c thr) l t = Some t' /\ sound o0 n c thr t' /\
    (forall x, In x (map jobj (jobs t')) <-> In x (map jobj (jobs t)) \/ (In x l /\ x <> o0 /\ x <> root n)).
Proof.
  induction l as [|o l IH]; intros t S.
  - exists t. split; [reflexivity|]. split; [exact S|]. intros x. cbn [In]. tauto.
  - cbn [each]. rewrite propagate_step. destruct S as (P & N & J).
    destruct (Z.eqb_spec o (root n)) as [R|R]; cbn [orb].
    + destruct (IH t (conj P (conj N J))) as (t' & E & S' & X). exists t'. split; [exact E|]. split; [exact S'|].
      intros x. rewrite X. cbn [In]. split; [tauto|]. intros [Y|([Y|Y] & Z1 & Z2)]; auto. congruence.
    + destruct (on_path o t) eqn:O.
      * destruct (IH t (conj P (conj N J))) as (t' & E & S' & X). exists t'. split; [exact E|]. split; [exact S'|].
        intros x. rewrite X. cbn [In]. split; [tauto|]. intros [Y|([Y|Y] & Z1 & Z2)]; auto. subst x. left.
        apply on_path_iff in O. rewrite P in O. destruct O as [O|O]; [congruence|exact O].
      * apply on_path_false in O.
        destruct (IH (mktrail (path t ++ [o]) (jobs t ++ [mkjob o c thr]))) as (t' & E & S' & X).
        { split; [cbn; rewrite P, map_app; reflexivity|]. split; cbn.
          - apply NoDup_rev in N. rewrite <- (rev_involutive (path t ++ [o])). apply NoDup_rev. rewrite rev_app_distr. cbn.
            constructor; [rewrite <- in_rev; exact O|exact N].
          - intros j Hj. apply in_app_iff in Hj. destruct Hj as [Hj|[<-|[]]]; [apply J; exact Hj|cbn; auto]. }
        exists t'. split; [exact E|]. split; [exact S'|]. intros x. rewrite X. cbn [jobs]. rewrite map_app, in_app_iff. cbn [map In jobj].
        split; [|intros [Y|([Y|Y] & Z1 & Z2)]; auto]. intros [[Y|[Y|[]]]|Y]; [auto| |tauto]. subst x. right.
        split; [auto|]. split; [|exact R]. intros ->. apply O. rewrite P. left. reflexivity.
Qed.
Lemma initiate_ok n c thr f o : exists js, initiate n c thr (S f) o = Some js /\
  NoDup (map jobj js) /\ ~ In o (map jobj js) /\ (forall j, In j js -> jobj j <> root n /\ jchange j = c /\ jthr j = thr) /\
  (forall x, In x (map jobj js) <-> exceeds n o c = true /\ linked n o x /\ x <> o /\ x <> root n).
Proof.
  unfold initiate. destruct (exceeds n o c).
  2:{ exists []. split; [reflexivity|]. split; [constructor|]. split; [intros []|]. split; [intros j []|]. intros x. split; [intros []|intros (H & _); discriminate]. }
  assert (S0 : sound o n c thr (mktrail [o] [])).
  { split; [reflexivity|]. split; [repeat constructor; intros []|]. intros j []. }
  unfold spread_from.
  assert (A : exists t, (if marker n o then each (propagate n (initiate_on n c thr (S f)) c thr) (refs n o) (mktrail [o] []) else Some (mktrail [o] [])) = Some t /\
              sound o n c thr t /\ (forall x, In x (map jobj (jobs t)) <-> (marker n o = true /\ In x (refs n o)) /\ x <> o /\ x <> root n)).
  { destruct (marker n o).
    - destruct (each_ok n c thr f o (refs n o) _ S0) as (t & E & S & X). exists t. split; [exact E|]. split; [exact S|]. intros x. rewrite X. cbn [jobs map In]. tauto.
    - exists (mktrail [o] []). split; [reflexivity|]. split; [exact S0|]. intros x. cbn. split; [intros []|intros ((H & _) & _); discriminate]. }
  destruct A as (t & -> & S & X). destruct (each_ok n c thr f o (marks n o) t S) as (t' & E & (P & N & J) & X'). rewrite E.
  exists (jobs t'). split; [reflexivity|]. rewrite P in N. inversion N; subst. split; [assumption|]. split; [assumption|]. split; [exact J|].
  intros x. rewrite X', X. unfold linked. tauto.
Qed.
(** The result does not depend on the bound. *)
Lemma initiate_fuel n c thr f o : initiate n c thr (S f) o = initiate n c thr 1 o.
Proof.
  unfold initiate. destruct (exceeds n o c); [|reflexivity]. unfold spread_from.
  assert (E : forall l t, each (propagate n (initiate_on n c thr (S f)) c thr) l t = each (propagate n (initiate_on n c thr 1) c thr) l t).
  { induction l as [|x l IH]; intros t; [reflexivity|]. cbn [each]. rewrite !propagate_step. apply IH. }
  destruct (marker n o); [rewrite E; destruct (each _ (refs n o) _); [rewrite E|]; reflexivity|rewrite E; reflexivity].
Qed.
Lemma terminates n c thr o : exists js, forall fuel, (1 <= fuel)%nat -> initiate n c thr fuel o = Some js.
Proof.
  destruct (initiate_ok n c thr 0 o) as (js & E & _). exists js. intros fuel H. destruct fuel as [|f]; [lia|]. rewrite initiate_fuel. exact E.
Qed.
Lemma once_each n c thr fuel o js : initiate n c thr fuel o = Some js ->
  NoDup (map jobj js) /\ ~ In o (map jobj js) /\ ~ In (root n) (map jobj js) /\ Forall (fun j => jchange j = c /\ jthr j = thr) js.
Proof.
  intros H. destruct fuel as [|f].
  - (* no fuel: only when nothing is propagated *)
    destruct (initiate_ok n c thr 0 o) as (js' & E & A & B & C & D).
    assert (js = js').
    { revert H E. unfold initiate. destruct (exceeds n o c); [|congruence]. unfold spread_from.
      assert (M : forall l t t', each (propagate n (initiate_on n c thr 0) c thr) l t = Some t' -> each (propagate n (initiate_on n c thr 1) c thr) l t = Some t').
      { induction l as [|x l IH]; intros t t'; [auto|]. cbn [each]. rewrite propagate_step. unfold propagate. destruct (x =? root n); [apply IH|].
        destruct (on_path x t); [apply IH|]. cbn. discriminate. }
      destruct (marker n o).
      - destruct (each (propagate n (initiate_on n c thr 0) c thr) (refs n o) _) eqn:E1; [|discriminate]. apply M in E1. rewrite E1.
        destruct (each (propagate n (initiate_on n c thr 0) c thr) (marks n o) t) eqn:E2; [|discriminate]. apply M in E2. rewrite E2. congruence.
      - destruct (each (propagate n (initiate_on n c thr 0) c thr) (marks n o) _) eqn:E2; [|discriminate]. apply M in E2. rewrite E2. congruence. }
    subst js'. split; [exact A|]. split; [exact B|]. split.
    + intros I. apply in_map_iff in I. destruct I as (j & E' & I). apply C in I. tauto.
    + apply Forall_forall. intros j I. apply C in I. tauto.
  - destruct (initiate_ok n c thr f o) as (js' & E & A & B & C & D). rewrite E in H. injection H as <-.
    split; [exact A|]. split; [exact B|]. split.
    + intros I. apply in_map_iff in I. destruct I as (j & E' & I). apply C in I. tauto.
    + apply Forall_forall. intros j I. apply C in I. tauto.
Qed.
Lemma direct n c thr fuel o js : (1 <= fuel)%nat -> initiate n c thr fuel o = Some js ->
  forall x, In x (map jobj js) <-> passes n c o /\ linked n o x /\ x <> o /\ x <> root n.
Proof.
  intros F H. destruct fuel as [|f]; [lia|]. destruct (initiate_ok n c thr f o) as (js' & E & _ & _ & _ & D). rewrite E in H. injection H as <-. exact D.
Qed.
Lemma only_reached n c thr fuel o js : (1 <= fuel)%nat -> initiate n c thr fuel o = Some js ->
  forall x, In x (map jobj js) -> reached n c o x.
Proof. intros F H x I. apply (direct n c thr fuel o js F H) in I. destruct I as (P & L & _ & R). apply reached_direct; assumption. Qed.

(** ** Requests *)
Lemma MorphChange_carried c s d : MorphChange c s d = carried c s d.
Proof. reflexivity. Qed.
Lemma run_jobs_ops host_thr views c thr js : forall gone ops,
  Forall (fun j => jchange j = c /\ jthr j = thr) js ->
  let r := fold_left (run_job host_thr views) js (gone, ops) in
  (forall h p, In (h, p) (snd r) <-> In (h, p) ops \/ exists oid x, p = PMod oid VIEW_SLN x /\ expected host_thr views gone c thr (map jobj js) h oid x) /\
  (forall o, In o (fst r) <-> In o gone \/ (In o (map jobj js) /\ views o = [])).
Proof.
  induction js as [|j js IH]; intros gone ops F; cbn [fold_left].
  - split; [|cbn; tauto]. intros h p. cbn. split; [tauto|]. intros [H|(oid & x & _ & o & [] & _)]. exact H.
  - inversion F as [|? ? (C & T) F']; subst. cbn zeta. unfold run_job at 2 4.
    destruct (existsb (Z.eqb (jobj j)) gone) eqn:G.
    + assert (Gi : In (jobj j) gone) by (apply existsb_exists in G; destruct G as (y & Y & E); apply Z.eqb_eq in E; subst; exact Y).
      destruct (IH gone ops F') as (A & B). split.
      * intros h p. rewrite A. split; (intros [H|H]; [auto|right]); destruct H as (oid & x & E & o & I & N & R); exists oid, x; (split; [exact E|]); exists o; (split; [|split; [exact N|exact R]]); cbn in *; [auto|].
        destruct I as [<-|I]; [contradiction|exact I].
      * intros o. rewrite B. cbn [map In]. split; [tauto|]. intros [H|([<-|H] & V)]; auto.
    + assert (Gi : ~ In (jobj j) gone).
      { intros I. rewrite <- not_true_iff_false in G. apply G. apply existsb_exists. exists (jobj j). split; [exact I|apply Z.eqb_refl]. }
      destruct (views (jobj j)) as [|v vs] eqn:V.
      * cbn [propagate_sln]. destruct (IH (jobj j :: gone) ops F') as (A & B). split.
        -- intros h p. rewrite A. split; (intros [H|H]; [auto|right]); destruct H as (oid & x & E & o & I & N & W & R); exists oid, x; (split; [exact E|]); exists o.
           ++ split; [right; exact I|]. split; [intros N'; apply N; right; exact N'|]. split; assumption.
           ++ cbn in I. destruct I as [<-|I]; [rewrite V in W; destruct W|]. split; [exact I|]. split; [|split; assumption].
              intros [<-|N']; [|contradiction]. rewrite V in W. destruct W.
        -- intros o. rewrite B. cbn [map In]. split; [intros [[<-|H]|H]; auto; tauto|]. intros [H|([<-|H] & W)]; auto.
      * remember (v :: vs) as vv eqn:Ev.
        assert (PS : propagate_sln host_thr vv (jchange j) (jthr j) = Some (flat_map (fun v => let x := MorphChange (jchange j) (jthr j) (host_thr (fst v)) in if feqb x fzero then [] else [(fst v, PMod (snd v) VIEW_SLN x)]) vv)) by (subst vv; reflexivity).
        rewrite PS. match goal with |- context [(gone, ops ++ ?l)] => set (l0 := l) end.
        destruct (IH gone (ops ++ l0) F') as (A & B).
        assert (L0 : forall h p, In (h, p) l0 <-> exists oid x, p = PMod oid VIEW_SLN x /\ In (h, oid) vv /\ x = carried (jchange j) (jthr j) (host_thr h) /\ feqb x fzero = false).
        { intros h p. unfold l0. rewrite in_flat_map. split.
          - intros ((h', oid) & I & K). cbn zeta in K. cbn [fst snd] in K. rewrite MorphChange_carried in K. destruct (feqb _ fzero) eqn:Z0; [destruct K|].
            destruct K as [K|[]]. injection K as -> <-. exists oid. eexists. split; [reflexivity|]. split; [exact I|]. split; [reflexivity|exact Z0].
          - intros (oid & x & -> & I & E & Z0). exists (h, oid). split; [exact I|]. cbn zeta. cbn [fst snd]. rewrite MorphChange_carried, <- E, Z0. left. reflexivity. }
        split.
        -- intros h p. rewrite A, in_app_iff, L0. split.
           ++ intros [[H|(oid & x & E & I & X & Z0)]|(oid & x & E & o & I & N & R)]; [auto| |]; right; exists oid, x; (split; [exact E|]).
              ** exists (jobj j). split; [left; reflexivity|]. split; [exact Gi|]. rewrite V. auto.
              ** exists o. split; [right; exact I|]. split; [exact N|exact R].
           ++ intros [H|(oid & x & E & o & I & N & W & R)]; [auto|]. cbn in I. destruct I as [<-|I].
              ** left. right. exists oid, x. rewrite V in W. tauto.
              ** right. exists oid, x. split; [exact E|]. exists o. tauto.
        -- intros o. rewrite B. cbn [map In]. split; [tauto|]. intros [H|([<-|H] & W)]; auto. rewrite V, Ev in W. discriminate.
Qed.
Lemma requests host_thr views gone n c thr fuel o js gone' ops : initiate n c thr fuel o = Some js ->
  run_jobs host_thr views gone js = (gone', ops) ->
  (forall h p, In (h, p) ops <-> exists oid x, p = PMod oid VIEW_SLN x /\ expected host_thr views gone c thr (map jobj js) h oid x) /\
  (forall y, In y gone' <-> In y gone \/ (In y (map jobj js) /\ views y = [])).
Proof.
  intros H R. destruct (once_each _ _ _ _ _ _ H) as (_ & _ & _ & F). destruct (run_jobs_ops host_thr views c thr js gone [] F) as (A & B).
  unfold run_jobs in R. rewrite R in A, B. cbn [fst snd] in A, B. split; [|exact B]. intros h p. rewrite A. cbn [In]. tauto.
Qed.
(** At most one request on each view. *)
Lemma NoDup_left {A} (l m : list A) : NoDup (l ++ m) -> NoDup l.
Proof. induction l as [|a l IH]; intros H; [constructor|]. cbn in H. inversion H; subst. constructor; [intros I; apply H2; apply in_app_iff; auto|apply IH; assumption]. Qed.
Lemma NoDup_right {A} (l m : list A) : NoDup (l ++ m) -> NoDup m.
Proof. induction l as [|a l IH]; intros H; [exact H|]. cbn in H. inversion H; subst. apply IH. assumption. Qed.
Definition target (q : Z * pendop) : Z * Z := (fst q, match snd q with PMod oid _ _ | PSet oid _ _ => oid end).
Lemma one_request_ops host_thr views js : forall gone ops,
  NoDup (flat_map views (map jobj js)) -> NoDup (map target ops) ->
  (forall v, In v (map target ops) -> ~ In v (flat_map views (map jobj js))) ->
  NoDup (map target (snd (fold_left (run_job host_thr views) js (gone, ops)))).
Proof.
  induction js as [|j js IH]; intros gone ops N M D; cbn [fold_left]; [exact M|].
  cbn [map flat_map] in N, D. unfold run_job at 2.
  assert (N2 : NoDup (flat_map views (map jobj js))) by (apply NoDup_right in N; exact N).
  destruct (existsb _ gone); [apply IH; [exact N2|exact M|]; intros v I J; apply (D v I); apply in_app_iff; auto|].
  destruct (views (jobj j)) as [|v vs] eqn:V.
  { cbn [propagate_sln]. apply IH; [exact N2|exact M|]. intros x I J. apply (D x I). apply in_app_iff; auto. }
  remember (v :: vs) as vv eqn:Ev.
  assert (PS : propagate_sln host_thr vv (jchange j) (jthr j) = Some (flat_map (fun v => let x := MorphChange (jchange j) (jthr j) (host_thr (fst v)) in if feqb x fzero then [] else [(fst v, PMod (snd v) VIEW_SLN x)]) vv)) by (subst vv; reflexivity).
  rewrite PS. clear PS. match goal with |- context [(gone, ops ++ flat_map ?g vv)] => set (f := g) end.
  assert (In1 : forall w x, In x (map target (flat_map f w)) -> In x w).
  { clear. induction w as [|a w IW]; intros x; [intros []|]. cbn [flat_map]. rewrite map_app, in_app_iff. intros [H|H]; [|right; apply IW; exact H].
    left. unfold f in H. cbn zeta in H. destruct (feqb _ fzero); [destruct H|]. destruct H as [H|[]]. rewrite <- H. destruct a. reflexivity. }
  assert (Nd : forall w, NoDup w -> NoDup (map target (flat_map f w))).
  { induction w as [|a w IW]; intros Hw; [constructor|]. inversion Hw; subst. cbn [flat_map]. rewrite map_app.
    assert (K : map target (f a) = [] \/ map target (f a) = [a]) by (unfold f; cbn zeta; destruct (feqb _ fzero); [left; reflexivity|right; destruct a; reflexivity]).
    destruct K as [-> | ->]; cbn [app]; [apply IW; assumption|]. constructor; [intros I; apply In1 in I; contradiction|apply IW; assumption]. }
  apply IH; [exact N2| |].
  - rewrite map_app.
    assert (G : forall (l1 l2 : list (Z * Z)), NoDup l1 -> NoDup l2 -> (forall x, In x l1 -> ~ In x l2) -> NoDup (l1 ++ l2)).
    { clear. induction l1 as [|a l1 I]; intros l2 H1 H2 H3; [exact H2|]. inversion H1; subst. cbn. constructor.
      - rewrite in_app_iff. intros [X|X]; [contradiction|]. apply (H3 a); [left; reflexivity|exact X].
      - apply I; auto. intros x X. apply H3. right. exact X. }
    apply G; [exact M| |].
    + apply Nd. apply NoDup_left in N. exact N.
    + intros x I J. apply In1 in J. apply (D x I). apply in_app_iff. left. exact J.
  - intros x I J. rewrite map_app in I. apply in_app_iff in I. destruct I as [I|I].
    + apply (D x I). apply in_app_iff. right. exact J.
    + apply In1 in I. revert I J. clear -N. revert N. induction vv as [|a w IW]; intros N I J; [destruct I|]. cbn in N. inversion N; subst. destruct I as [<-|I].
      * apply H1. apply in_app_iff. right. exact J.
      * apply (IW H2 I J).
Qed.

Lemma one_request host_thr views gone n c thr fuel o js gone' ops : initiate n c thr fuel o = Some js ->
  run_jobs host_thr views gone js = (gone', ops) ->
  (forall x, NoDup (views x)) -> (forall x y v, In v (views x) -> In v (views y) -> x = y) ->
  NoDup (map target ops).
Proof.
  intros H R V D. destruct (once_each _ _ _ _ _ _ H) as (N & _ & _ & _).
  unfold run_jobs in R. replace ops with (snd (fold_left (run_job host_thr views) js (gone, []))) by (rewrite R; reflexivity).
  apply one_request_ops; [|constructor|intros v []].
  clear -N V D. induction (map jobj js) as [|x l IH]; [constructor|]. inversion N; subst. cbn [flat_map].
  assert (G : forall (l1 l2 : list (Z * Z)), NoDup l1 -> NoDup l2 -> (forall x, In x l1 -> ~ In x l2) -> NoDup (l1 ++ l2)).
  { clear. induction l1 as [|a l1 I]; intros l2 H1 H2 H3; [exact H2|]. inversion H1; subst. cbn. constructor.
    - rewrite in_app_iff. intros [X|X]; [contradiction|]. apply (H3 a); [left; reflexivity|exact X].
    - apply I; auto. intros x X. apply H3. right. exact X. }
  apply G; [apply V|apply IH; assumption|]. intros v I J. apply in_flat_map in J. destruct J as (y & Y & J). rewrite (D x y v I J) in H1. contradiction.
Qed.

(** ** Direction of the change *)
Lemma fmul_small c d : f32_valid c = true -> is_finite c = true -> f32_valid d = true -> in_unit d ->
  is_finite (fmul c d) = true /\ f32_valid (fmul c d) = true /\ (0 <= val c -> 0 <= val (fmul c d)) /\ (val c <= 0 -> val (fmul c d) <= 0).
Proof.
  intros VC FC VD UD. pose proof (in_unit_finite _ UD) as FD. pose proof (in_unit_not_nan _ UD) as ND.
  destruct (fmul_rounded c d VC VD FC FD) as (NN & R). pose proof (fmul_valid c d VC VD) as VM.
  destruct UD as (D0 & D1). apply fle_val in D0, D1; try assumption; try reflexivity; try discriminate. rewrite val_fzero in D0. rewrite val_fone in D1.
  pose proof unit_val_pos as U. assert (NC : c <> S754_nan) by (intros ->; discriminate).
  pose proof (repr_val c VC) as RC. pose proof (repr_opp _ RC) as RC'.
  assert (P1 : 0 <= val c -> 0 <= val (fmul c d)). { intros H. apply (R 0 repr_0). nia. }
  assert (P2 : val c <= 0 -> val (fmul c d) <= 0). { intros H. apply (R 0 repr_0). nia. }
  assert (P3 : 0 <= val c -> val (fmul c d) <= val c). { intros H. apply (R _ RC). nia. }
  assert (P4 : val c <= 0 -> val c <= val (fmul c d)). { intros H. apply (R _ RC). nia. }
  split; [|split; [exact VM|split; assumption]].
  apply val_finite_iff; [exact VM|exact NN|]. apply val_finite_iff in FC; [|exact VC|exact NC]. lia.
Qed.
Lemma direction c s d : f32_valid c = true -> is_finite c = true -> f32_valid s = true -> in_unit s -> f32_valid d = true -> in_unit d -> flt fzero s = true ->
  (fle fzero c = true -> fle fzero (carried c s d) = true) /\ (fle c fzero = true -> fle (carried c s d) fzero = true).
Proof.
  intros VC FC VS US VD UD P. unfold carried. rewrite P. destruct (flt fzero d); [|auto].
  destruct (fmul_small c d VC FC VD UD) as (FM & VM & M1 & M2). set (m := fmul c d) in *.
  pose proof (in_unit_finite _ US) as FS. pose proof (in_unit_not_nan _ US) as NS.
  apply flt_val in P; try assumption; try reflexivity; try discriminate. rewrite val_fzero in P.
  destruct (fdiv_rounded m s VM VS FM FS P) as (NQ & R). pose proof (fdiv_valid m s VM VS) as VQ. pose proof unit_val_pos as U.
  assert (NC : c <> S754_nan) by (intros ->; discriminate).
  split; intros H; apply fle_val in H; try assumption; try reflexivity; try discriminate; rewrite val_fzero in H; apply fle_val; try assumption; try reflexivity; try discriminate; rewrite val_fzero.
  - apply (R 0 repr_0). specialize (M1 H). nia.
  - apply (R 0 repr_0). specialize (M2 H). nia.
Qed.
Lemma direction_refuted : exists c s d, in_unit s /\ in_unit d /\ f32_valid c = true /\ is_finite c = true /\ flt c fzero = true /\ flt fzero (carried c s d) = true.
Proof. exists (SFopp quarter), fzero, half. repeat split; vm_compute; reflexivity. Qed.

(** ** Witness: marker 2 links 1 and 3; a change in 1 should reach 3. *)
Definition w_net : net :=
  mknet (fun o => o =? 2) (fun o => if o =? 2 then [1; 3] else []) (fun o => if (o =? 1) || (o =? 3) then [2] else []) (fun _ => fzero) 0.
Lemma reach_refuted : exists n c thr o x, reached n c o x /\ x <> o /\
  forall fuel js, initiate n c thr fuel o = Some js -> ~ In x (map jobj js).
Proof.
  exists w_net, half, fzero, 1, 3. split.
  { apply (reached_on _ _ _ 2); [apply reached_direct| | |].
    - vm_compute. reflexivity.
    - right. left. reflexivity.
    - discriminate.
    - vm_compute. reflexivity.
    - left. split; [reflexivity|]. right. left. reflexivity.
    - discriminate. }
  split; [discriminate|]. intros fuel js. destruct fuel as [|f].
  - vm_compute. discriminate.
  - rewrite initiate_fuel. vm_compute. intros H. injection H as <-. intros [H|[]]. discriminate.
Qed.
