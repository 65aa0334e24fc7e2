(** Lemmas about the runs of the auto-focus. *)
From Verif Require Import Base Af_model Af_spec Af_proofs.
Local Open Scope nat_scope.

Section Runs.
Context {B : Type} (intersect : B -> B -> bool) (full : B -> bool) (matches : nat -> B -> @view B -> option B)
  (achieved : nat -> nat -> bool) (cfg : config).
Notation dispatch := (Af_model.dispatch intersect full matches cfg).
Notation reduce := (Af_model.reduce intersect full matches achieved cfg).
Notation run := (Af_model.run intersect full matches achieved cfg).
Notation view := (@view B). Notation tpx := (@tpx B). Notation act := (@act B). Notation event := (@event B). Notation state := (@state B).
Notation agrees := (Af_proofs.agrees full cfg).
Notation empty := (mkstate (B:=B) [] [] [] []).

Lemma run_app : forall es1 es2 s, run (es1 ++ es2) s =
  (fst (run es2 (fst (run es1 s))), snd (run es1 s) ++ snd (run es2 (fst (run es1 s)))).
Proof.
  intros es1 es2. induction es1 as [|(n & e) es IH]; intro s; cbn [Af_model.run app].
  - cbn. destruct (run es2 s); reflexivity.
  - destruct (reduce n e s) as [s1 a]. rewrite IH. destruct (run es s1) as [s2 b]. cbn. rewrite app_assoc. reflexivity.
Qed.
Lemma open_app : forall es1 es2 : list (Z * event), open_after (es1 ++ es2) = fold_left (fun l e => after_event (snd e) l) es2 (open_after es1).
Proof. intros. unfold open_after. apply fold_left_app. Qed.

Lemma agrees_run : forall es s l, agrees s l -> agrees (fst (run es s)) (fold_left (fun l e => after_event (snd e) l) es l).
Proof.
  induction es as [|(n & e) es IH]; intros s l A; cbn [Af_model.run fold_left]; [exact A|].
  destruct (reduce n e s) as [s1 a] eqn:R. pose proof (IH s1 _ (agrees_step _ _ _ _ _ _ _ _ _ _ _ A R)) as Q.
  destruct (run es s1); exact Q.
Qed.
Lemma agrees_empty : agrees empty [].
Proof. split; constructor. Qed.
Lemma agrees_open : forall es, agrees (fst (run es empty)) (open_after es).
Proof. intro es. apply agrees_run. exact agrees_empty. Qed.

(** * Injection *)
Lemma incoming_app : forall es1 es2 : list (Z * event), incoming (es1 ++ es2) = incoming es1 ++ incoming es2.
Proof. intros. unfold incoming. apply flat_map_app. Qed.
Lemma notify_injects : forall t s v (m : @tmap B), injects (snd (notify cfg t s v m)) = [].
Proof.
  intros t s v m. unfold notify. destruct (find _ m) as [[id x]|]; [|reflexivity]. cbn. unfold signal.
  destruct (t_kind x); [reflexivity| |]; match goal with |- context[if ?b then _ else _] => destruct b end; reflexivity.
Qed.
Lemma acks_injects : forall t (m : @tmap B), injects (flat_map (ack achieved t) m) = [].
Proof.
  intros t m. induction m as [|e m IH]; [reflexivity|]. cbn [flat_map]. rewrite injects_app, IH, app_nil_r. unfold ack.
  destruct (t_kind (snd e)); try reflexivity. destruct (achieved (fst e) t); reflexivity.
Qed.
Lemma others_injects : forall now e s s' a, (forall v, e <> Other v /\ e <> Instance v) -> reduce now e s = (s', a) -> injects a = [].
Proof.
  intros now e s s' a N E. destruct e as [md p m w st|sc g t v|v|v|v]; [| | | |]; try (exfalso; destruct (N v); congruence); cbn in E.
  - destruct md; [destruct p|]; injection E as <- <-; reflexivity.
  - destruct g.
    + pose proof (notify_injects t sc v (goals s)) as Q. destruct (notify cfg t sc v (goals s)). injection E as <- <-. exact Q.
    + pose proof (notify_injects t sc v (predictions s)) as Q. destruct (notify cfg t sc v (predictions s)). injection E as <- <-.
      rewrite injects_app. cbn [snd] in Q. rewrite Q. destruct sc; [apply acks_injects|reflexivity].
  - injection E as <- <-. reflexivity.
Qed.

Lemma through : pass_through cfg = true -> forall es s, injects (snd (run es s)) = incoming es.
Proof.
  intro PT. induction es as [|(n & e) es IH]; intro s; [reflexivity|]. cbn [Af_model.run].
  destruct (reduce n e s) as [s1 a] eqn:R. pose proof (IH s1) as Q. destruct (run es s1) as [s2 b]. cbn [snd] in *.
  rewrite injects_app, Q. unfold incoming. cbn [flat_map snd]. f_equal.
  destruct e as [md p m w st|sc g t v|v|v|v].
  - eapply others_injects; [|exact R]. intro; split; discriminate.
  - eapply others_injects; [|exact R]. intro; split; discriminate.
  - eapply others_injects; [|exact R]. intro; split; discriminate.
  - cbn in R. rewrite PT in R. injection R as <- <-. reflexivity.
  - cbn in R. rewrite PT in R. injection R as <- <-. reflexivity.
Qed.

Lemma concerns_open : forall (s : state) l v, agrees s l ->
  (concerns intersect v (goals s) || concerns intersect v (predictions s))%bool = existsb (fun o => intersect (values o) (v_map v)) l.
Proof.
  intros s l v (A1 & A2).
  assert (H : forall m k, Forall2 (entry full cfg) m k -> concerns intersect v m = existsb (fun o => intersect (values o) (v_map v)) k).
  { intros m k F. unfold concerns. induction F as [|e o m k (_ & P & _) F IH]; [reflexivity|]. cbn. rewrite P, IH. reflexivity. }
  rewrite (H _ _ A1), (H _ _ A2). clear. induction l as [|o l IH]; [reflexivity|]. cbn.
  destruct (is_goal o); cbn; rewrite <- IH; destruct (intersect (values o) (v_map v)); cbn; rewrite ?orb_true_r; reflexivity.
Qed.
Lemma agrees_full : forall (s : state) l, agrees s l -> (forall o, In o l -> full (values o) = true) ->
  (forall e, In e (goals s) -> full (t_map (snd e)) = true) /\ (forall e, In e (predictions s) -> full (t_map (snd e)) = true).
Proof.
  intros s l (A1 & A2) F.
  assert (H : forall m k, Forall2 (entry full cfg) m k -> (forall o, In o k -> full (values o) = true) -> forall e, In e m -> full (t_map (snd e)) = true).
  { intros m k Q. induction Q as [|e o m k (_ & P & _) Q IH]; intros G x [].
    - subst x. rewrite P. apply G. left; reflexivity.
    - apply IH; [|assumption]. intros o' O. apply G. right; exact O. }
  split; [eapply H; [exact A1|]|eapply H; [exact A2|]]; intros o O; apply filter_In in O; apply F; tauto.
Qed.
Lemma dispatch_icst : forall now v m i c x a m' i' c' x' a', dispatch now true v m i (c, x, a) = (m', i', (c', x', a')) -> injects a' = injects a.
Proof.
  intros now v m; induction m as [|(id & t) m IH]; intros i c x a m' i' c' x' a' E; cbn [Af_model.dispatch] in E; [injection E as <- <- <- <- <-; reflexivity|].
  unfold take_input, Af_model.filter in E. cbn in E.
  destruct (dispatch now true v m (i || false)%bool (c, x, a ++ [Take id v])) as [[m2 i2] [[c2 x2] a2]] eqn:D. injection E as <- <- <- <- <-.
  rewrite (IH _ _ _ _ _ _ _ _ _ D), injects_app. cbn. apply app_nil_r.
Qed.
Lemma instance_injects : forall now v s s' a, reduce now (Instance v) s = (s', a) -> injects a = [].
Proof.
  intros now v s s' a R. cbn in R. destruct (pass_through cfg); [injection R as <- <-; reflexivity|].
  destruct (dispatch now true v (goals s) false (cache s, cross s, [])) as [[g i] [[c x] a1]] eqn:D1.
  destruct (dispatch now true v (predictions s) false (c, x, a1)) as [[p i2] [[c2 x2] a2]] eqn:D2. injection R as <- <-.
  rewrite (dispatch_icst _ _ _ _ _ _ _ _ _ _ _ _ D2), (dispatch_icst _ _ _ _ _ _ _ _ _ _ _ _ D1). reflexivity.
Qed.

Lemma filtered : pass_through cfg = false -> forall es s l, agrees s l -> (forall o, In o l -> full (values o) = true) -> all_full full es ->
  injects (snd (run es s)) = concerning intersect es l.
Proof.
  intro PT. induction es as [|(n & e) es IH]; intros s l A F AF; [reflexivity|]. cbn [Af_model.run concerning].
  destruct (reduce n e s) as [s1 a] eqn:R.
  assert (F2 : forall o, In o (after_event e l) -> full (values o) = true).
  { assert (AD : forall g t m w, full m = true -> forall o, In o (if existsb (same g t) l then l else l ++ [mkopen g t m w]) -> full (values o) = true).
    { intros g t m w FM o. destruct (existsb (same g t) l); [apply F|]. rewrite in_app_iff. intros [O|[<-|[]]]; [apply F; exact O|exact FM]. }
    intros o O. destruct e as [[] [t|t|] m w st|sc g t v|v|v|v]; cbn in O; try (apply F; exact O).
    - eapply AD; [|exact O]. eapply AF. left. reflexivity.
    - eapply AD; [|exact O]. eapply AF. left. reflexivity.
    - apply filter_In in O. apply F; tauto. }
  assert (AF2 : all_full full es) by (intros n0 m w st p I0; eapply AF; right; exact I0).
  pose proof (IH s1 _ (agrees_step _ _ _ _ _ _ _ _ _ _ _ A R) F2 AF2) as Q. destruct (run es s1) as [s2 b]. cbn [snd] in *.
  rewrite injects_app, Q. f_equal.
  destruct e as [md p m w st|sc g t v|v|v|v].
  - eapply others_injects; [|exact R]. intro; split; discriminate.
  - eapply others_injects; [|exact R]. intro; split; discriminate.
  - eapply others_injects; [|exact R]. intro; split; discriminate.
  - eapply instance_injects; exact R.
  - cbn in R. rewrite PT in R. destruct (agrees_full _ _ A F) as (G1 & G2). rewrite <- (concerns_open s l v A).
    destruct (dispatch n false v (goals s) false (cache s, cross s, [])) as [[g i] [[c x] a1]] eqn:D1.
    destruct (dispatch n false v (predictions s) i (c, x, a1)) as [[p i2] [[c2 x2] a2]] eqn:D2. injection R as <- <-.
    destruct (dispatch_full _ _ _ _ _ _ _ _ _ _ _ _ _ _ _ _ G1 D1) as (-> & Q1).
    destruct (dispatch_full _ _ _ _ _ _ _ _ _ _ _ _ _ _ _ _ G2 D2) as (_ & Q2). rewrite Q2, Q1. cbn.
    destruct (concerns intersect v (goals s)), (concerns intersect v (predictions s)); reflexivity.
Qed.
Lemma filtered_open : pass_through cfg = false -> forall es, all_full full es -> injects (snd (run es empty)) = concerning intersect es [].
Proof. intros PT es AF. apply filtered; [exact PT|exact agrees_empty|intros o []|exact AF]. Qed.

(** An input that shares a value with an open target is injected, whatever the other targets. *)
Lemma dispatch_mono : forall now v m i c x a m' i' c' x' a', dispatch now false v m i (c, x, a) = (m', i', (c', x', a')) ->
  forall z, In z a -> In z a'.
Proof.
  intros now v m i c x a m' i' c' x' a' E z I0. destruct (dispatch_spec _ _ _ _ _ _ _ _ _ _ _ _ _ _ _ _ _ E) as (_ & k & -> & _). apply in_or_app. left. exact I0.
Qed.
Lemma dispatch_hit : forall now v m i c x a m' i' c' x' a', dispatch now false v m i (c, x, a) = (m', i', (c', x', a')) ->
  (i = true -> In (Inject v) a) -> (i' = true -> In (Inject v) a') /\ ((concerns intersect v m || i)%bool = true -> i' = true).
Proof.
  intros now v m; induction m as [|(id & t) m IH]; intros i c x a m' i' c' x' a' E H; cbn [Af_model.dispatch] in E; [injection E as <- <- <- <- <-; auto|].
  destruct (take_input intersect full matches cfg now false id t v (c, x, a ++ [Take id v])) as [[b t1] [[c1 x1] a1]] eqn:T. cbn zeta in E.
  destruct (take_spec _ _ _ _ _ _ _ _ _ _ _ _ _ _ _ _ _ T) as (_ & k & -> & _).
  assert (HB : intersect (t_map t) (v_map v) = true -> b = true).
  { intro Q. unfold take_input, Af_model.filter in T. rewrite Q in T. apply (f_equal (fun p => fst (fst p))) in T. destruct (t_kind t); symmetry; exact T. }
  cbn [negb] in E. rewrite andb_true_r in E.
  set (go := (b && negb i)%bool) in *.
  assert (STEP : forall c0 x0 a0, (go = true -> In (Inject v) a0) -> (i = true -> In (Inject v) a0) ->
    forall m2 i2 c2 x2 a2, dispatch now false v m (i || go)%bool (c0, x0, a0) = (m2, i2, (c2, x2, a2)) ->
    (i2 = true -> In (Inject v) a2) /\ ((concerns intersect v ((id, t) :: m) || i)%bool = true -> i2 = true)).
  { intros c0 x0 a0 G1 G2 m2 i2 c2 x2 a2 D. destruct (IH _ _ _ _ _ _ _ _ _ D) as (I1 & I2).
    - intro O. apply orb_true_iff in O. tauto.
    - split; [exact I1|]. intro O. apply I2. unfold go. unfold concerns in *. cbn [existsb snd] in O.
      destruct (intersect (t_map t) (v_map v)); [rewrite (HB eq_refl); destruct i; cbn; apply orb_true_r|].
      cbn in O. apply orb_true_iff in O. destruct O as [-> | ->]; [reflexivity|apply orb_true_r]. }
  destruct go eqn:GO.
  - destruct (dispatch now false v m (i || true)%bool (c1, x1 ++ [v], ((a ++ [Take id v]) ++ k) ++ [Inject v])) as [[m2 i2] [[c2 x2] a2]] eqn:D.
    injection E as <- <- <- <- <-. refine (STEP _ _ _ _ _ _ _ _ _ _ D); intro; apply in_or_app; right; left; reflexivity.
  - destruct (dispatch now false v m (i || false)%bool (c1, x1, (a ++ [Take id v]) ++ k)) as [[m2 i2] [[c2 x2] a2]] eqn:D.
    injection E as <- <- <- <- <-. refine (STEP _ _ _ _ _ _ _ _ _ _ D); [discriminate|]. intro I0. rewrite <- app_assoc. apply in_or_app. left. apply H. exact I0.
Qed.
Lemma concerned_injected : pass_through cfg = false -> forall es now v,
  existsb (fun o => intersect (values o) (v_map v)) (open_after es) = true ->
  In (Inject v) (snd (reduce now (Other v) (fst (run es empty)))).
Proof.
  intros PT es now v H. pose proof (agrees_open es) as A. set (s := fst (run es empty)) in *. rewrite <- (concerns_open s _ v A) in H.
  cbn. rewrite PT.
  destruct (dispatch now false v (goals s) false (cache s, cross s, [])) as [[g i] [[c x] a1]] eqn:D1.
  destruct (dispatch now false v (predictions s) i (c, x, a1)) as [[p i2] [[c2 x2] a2]] eqn:D2. cbn.
  destruct (dispatch_hit _ _ _ _ _ _ _ _ _ _ _ _ D1) as (P1 & P2); [discriminate|].
  destruct (dispatch_hit _ _ _ _ _ _ _ _ _ _ _ _ D2 P1) as (Q1 & Q2). apply Q1, Q2. rewrite orb_false_r in P2.
  destruct (concerns intersect v (goals s)); [rewrite (P2 eq_refl); apply orb_true_r|]. cbn in H. rewrite H. reflexivity.
Qed.

(** * The starts of the extractors *)
Lemma no_start_dispatch : forall now icst v m i c x a m' i' c' x' a', dispatch now icst v m i (c, x, a) = (m', i', (c', x', a')) ->
  (forall z, In z a -> forall t w, z <> Start t w /\ z <> Learn t) -> forall z, In z a' -> forall t w, z <> Start t w /\ z <> Learn t.
Proof.
  intros now icst v m i c x a m' i' c' x' a' E H z I0 t w. destruct (dispatch_spec _ _ _ _ _ _ _ _ _ _ _ _ _ _ _ _ _ E) as (_ & k & -> & K).
  apply in_app_or in I0. destruct I0 as [I0|I0]; [apply H; exact I0|]. rewrite Forall_forall in K.
  destruct (K z I0) as [(u & ->)|[(id & u & -> & _)|(id & t0 & u & -> & _)]]; split; discriminate.
Qed.
Lemma start_outcome : forall now e s t v, In (Start t v) (snd (reduce now e s)) -> exists sc g, e = Outcome sc g t v.
Proof.
  intros now e s t v I0. destruct e as [md p m w st|sc g t' v'|v'|v'|v'].
  - cbn in I0. destruct md; [destruct p|]; destruct I0.
  - exists sc, g. assert (N : forall m, In (Start t v) (snd (notify cfg t' sc v' m)) -> t' = t /\ v' = v).
    { intros m Q. unfold notify in Q. destruct (find _ m) as [[id x]|]; [|destruct Q]. cbn in Q. unfold signal in Q.
      destruct (t_kind x); [destruct Q| |]; (match type of Q with context[if ?b then _ else _] => destruct b end; [destruct Q as [Q|[]]; injection Q; auto|destruct Q]). }
    cbn in I0. destruct g.
    + specialize (N (goals s)). destruct (notify cfg t' sc v' (goals s)) as [g a]. cbn in *. destruct (N I0) as (-> & ->). reflexivity.
    + specialize (N (predictions s)). destruct (notify cfg t' sc v' (predictions s)) as [g a]. cbn in *. apply in_app_or in I0. destruct I0 as [I0|I0]; [destruct (N I0) as (-> & ->); reflexivity|].
      exfalso. destruct sc; [|destruct I0]. apply in_flat_map in I0. destruct I0 as (e & _ & Q). unfold ack in Q. destruct (t_kind (snd e)); [destruct Q| |destruct Q]. destruct (achieved _ _); [destruct Q as [Q|[]]; discriminate|destruct Q].
  - cbn in I0. destruct I0 as [Q|[]]; discriminate.
  - exfalso. cbn in I0. destruct (pass_through cfg); [destruct I0|].
    destruct (dispatch now true v' (goals s) false (cache s, cross s, [])) as [[g i] [[c x] a1]] eqn:D1.
    destruct (dispatch now true v' (predictions s) false (c, x, a1)) as [[p i2] [[c2 x2] a2]] eqn:D2. cbn in I0.
    refine (proj1 (no_start_dispatch _ _ _ _ _ _ _ _ _ _ _ _ _ D2 _ _ I0 t v) eq_refl).
    apply (no_start_dispatch _ _ _ _ _ _ _ _ _ _ _ _ _ D1). intros z [].
  - exfalso. cbn in I0. destruct (pass_through cfg); [destruct I0 as [Q|[]]; discriminate|].
    destruct (dispatch now false v' (goals s) false (cache s, cross s, [])) as [[g i] [[c x] a1]] eqn:D1.
    destruct (dispatch now false v' (predictions s) i (c, x, a1)) as [[p i2] [[c2 x2] a2]] eqn:D2. cbn in I0.
    refine (proj1 (no_start_dispatch _ _ _ _ _ _ _ _ _ _ _ _ _ D2 _ _ I0 t v) eq_refl).
    apply (no_start_dispatch _ _ _ _ _ _ _ _ _ _ _ _ _ D1). intros z [].
Qed.

(** Each target is open once. *)
Definition unique (l : list (@open B)) : Prop := forall g t, length (List.filter (same g t) l) <= 1.
Lemma unique_event : forall e l, unique l -> unique (after_event e l).
Proof.
  intros e l U.
  assert (AD : forall g t m w, unique (if existsb (same g t) l then l else l ++ [mkopen g t m w])).
  { intros g t m w. destruct (existsb (same g t) l) eqn:X; [exact U|]. intros g' t'. rewrite filter_app, app_length.
    destruct (same g' t' (mkopen g t m w)) eqn:SM.
    - unfold same in SM. cbn in SM. apply andb_true_iff in SM. destruct SM as (S1 & S2). apply Bool.eqb_prop in S1. apply Nat.eqb_eq in S2. subst g' t'.
      assert (Z : List.filter (same g t) l = []).
      { destruct (List.filter (same g t) l) as [|o r] eqn:Q; [reflexivity|]. exfalso. assert (I0 : In o (List.filter (same g t) l)) by (rewrite Q; left; reflexivity). apply filter_In in I0.
        assert (X2 : existsb (same g t) l = true) by (apply existsb_exists; exists o; exact I0). congruence. }
      rewrite Z. cbn. destruct (same g t _); cbn; lia.
    - cbn. rewrite SM. cbn. rewrite Nat.add_0_r. apply U. }
  destruct e as [[] [t|t|] m w st|sc g t v|v|v|v]; cbn; try exact U; try apply AD.
  intros g' t'. etransitivity; [|apply (U g' t')]. clear. induction l as [|o l IH]; [cbn; lia|]. cbn. destruct (same g t o); cbn; destruct (same g' t' o); cbn; lia.
Qed.
Lemma unique_open : forall es, unique (open_after es).
Proof.
  intro es. unfold open_after. assert (H : forall l, unique l -> unique (fold_left (fun l e => after_event (snd e) l) es l)).
  { induction es as [|e es IH]; intros l U; [exact U|]. cbn. apply IH, unique_event, U. }
  apply H. intros g t. cbn. lia.
Qed.

Lemma find_entry : forall m l t, Forall2 (entry full cfg) m l ->
  match find (fun e => fst e =? t) m, find (fun o => target o =? t) l with
  | Some e, Some o => entry full cfg e o | None, None => True | _, _ => False end.
Proof.
  intros m l t F. induction F as [|e o m l P F IH]; [exact I|]. cbn. pose proof P as (P1 & _). rewrite P1. destruct (target o =? t); [exact P|exact IH].
Qed.
Definition started (g sc : bool) : bool := if g then (gtpx_on cfg && sc)%bool else (ptpx_on cfg && negb sc)%bool.

Lemma notify_start : forall g t sc v (m : @tmap B) l k, Forall2 (entry full cfg) m k -> k = List.filter (fun o => Bool.eqb (is_goal o) g) l ->
  unique l ->
  (In (Start t v) (snd (notify cfg t sc v m)) <-> started g sc = true /\ exists o, In o l /\ is_goal o = g /\ target o = t /\ weak o = false).
Proof.
  intros g t sc v m l k F K U. unfold notify. pose proof (find_entry _ _ t F) as H.
  destruct (find (fun e => fst e =? t) m) as [[id x]|] eqn:FM; destruct (find (fun o => target o =? t) k) as [o|] eqn:FK; try (exfalso; exact H).
  - destruct (find_some _ _ FK) as (IK & TO). apply Nat.eqb_eq in TO. rewrite K in IK. apply filter_In in IK. destruct IK as (IL & GO). apply Bool.eqb_prop in GO.
    destruct H as (_ & _ & TK & _). cbn in TK. cbn [snd].
    assert (ONE : forall o', In o' l -> is_goal o' = g -> target o' = t -> o' = o).
    { intros o' I1 G1 T1. pose proof (U g t) as L. assert (J : In o (List.filter (same g t) l)) by (apply filter_In; split; [exact IL|unfold same; rewrite GO, TO, Bool.eqb_reflx, Nat.eqb_refl; reflexivity]).
      assert (J' : In o' (List.filter (same g t) l)) by (apply filter_In; split; [exact I1|unfold same; rewrite G1, T1, Bool.eqb_reflx, Nat.eqb_refl; reflexivity]).
      destruct (List.filter (same g t) l) as [|a [|b r]]; [destruct J| |cbn in L; lia]. destruct J as [<-|[]]. destruct J' as [<-|[]]. reflexivity. }
    unfold signal. rewrite TK. unfold kind_of. rewrite GO.
    assert (E : (In (Start t v) (if started g sc then [Start t v] else []) <-> started g sc = true)).
    { destruct (started g sc); cbn; [tauto|]. split; [intros []|discriminate]. }
    assert (W : weak o = false -> (started g sc = true <-> started g sc = true /\ exists o0, In o0 l /\ is_goal o0 = g /\ target o0 = t /\ weak o0 = false)).
    { intro W. split; [intro S1; split; [exact S1|exists o; auto]|tauto]. }
    assert (WT : weak o = true -> ~ (started g sc = true /\ exists o0, In o0 l /\ is_goal o0 = g /\ target o0 = t /\ weak o0 = false)).
    { intros W' (_ & o' & I1 & G1 & T1 & W1). rewrite (ONE o' I1 G1 T1) in W1. congruence. }
    destruct (gtpx_on cfg) eqn:GT, (ptpx_on cfg) eqn:PT; cbn [negb andb];
      (destruct (weak o) eqn:WO; [try (split; [intros []|intro Q; exfalso; exact (WT eq_refl Q)])|]);
      (etransitivity; [|exact (W eq_refl)]; etransitivity; [|exact E]; unfold started; rewrite GT, PT; destruct g; cbn; tauto).
  - split; [intros []|]. intros (_ & o & I1 & G1 & T1 & _). exfalso. assert (IK : In o k) by (rewrite K; apply filter_In; split; [exact I1|rewrite G1; apply Bool.eqb_reflx]).
    apply (find_none _ _ FK) in IK. cbn in IK. rewrite T1, Nat.eqb_refl in IK. discriminate.
Qed.
Lemma starts : forall es now e t v, In (Start t v) (snd (reduce now e (fst (run es empty)))) <->
  exists sc g, e = Outcome sc g t v /\ (if g then gtpx_on cfg = true /\ sc = true else ptpx_on cfg = true /\ sc = false) /\
    exists o, In o (open_after es) /\ is_goal o = g /\ target o = t /\ weak o = false.
Proof.
  intros es now e t v. pose proof (agrees_open es) as (A1 & A2). pose proof (unique_open es) as U. set (s := fst (run es empty)) in *.
  assert (ST : forall g sc, started g sc = true <-> (if g then gtpx_on cfg = true /\ sc = true else ptpx_on cfg = true /\ sc = false)).
  { intros g sc. unfold started. destruct g; rewrite andb_true_iff; [tauto|]. rewrite negb_true_iff. tauto. }
  split.
  - intro I0. destruct (start_outcome _ _ _ _ _ I0) as (sc & g & ->). exists sc, g. split; [reflexivity|]. rewrite <- ST. cbn in I0. destruct g.
    + assert (Q : In (Start t v) (snd (notify cfg t sc v (goals s)))) by (destruct (notify cfg t sc v (goals s)); exact I0).
      eapply notify_start in Q; [exact Q|exact A1| |exact U]. exact (eq_sym (goal_filter true _)).
    + assert (Q : In (Start t v) (snd (notify cfg t sc v (predictions s)))).
      { destruct (notify cfg t sc v (predictions s)) as [p a]. cbn in *. apply in_app_or in I0. destruct I0 as [I0|I0]; [exact I0|]. exfalso.
        destruct sc; [|destruct I0]. apply in_flat_map in I0. destruct I0 as (e & _ & Q). unfold ack in Q. destruct (t_kind (snd e)); [destruct Q| |destruct Q]. destruct (achieved _ _); [destruct Q as [Q|[]]; discriminate|destruct Q]. }
      eapply notify_start in Q; [exact Q|exact A2| |exact U]. exact (eq_sym (goal_filter false _)).
  - intros (sc & g & -> & S1 & O). rewrite <- ST in S1. cbn. destruct g.
    + assert (Q : In (Start t v) (snd (notify cfg t sc v (goals s)))).
      { eapply notify_start; [exact A1|exact (eq_sym (goal_filter true _))|exact U|]. split; [exact S1|exact O]. }
      destruct (notify cfg t sc v (goals s)); exact Q.
    + assert (Q : In (Start t v) (snd (notify cfg t sc v (predictions s)))).
      { eapply notify_start; [exact A2|exact (eq_sym (goal_filter false _))|exact U|]. split; [exact S1|exact O]. }
      destruct (notify cfg t sc v (predictions s)). cbn in *. apply in_or_app. left. exact Q.
Qed.

(** * Closed targets *)
Definition absent (t : nat) (s : state) : Prop := ~ In t (map fst (goals s)) /\ ~ In t (map fst (predictions s)).
Lemma keys_same : forall m m' : @tmap B, Forall2 same_entry m m' -> map fst m' = map fst m.
Proof. intros m m' F. induction F as [|e e' m m' (Q & _) F IH]; [reflexivity|]. cbn. rewrite Q, IH. reflexivity. Qed.
Lemma notify_absent : forall t t' sc v (m : @tmap B), ~ In t (map fst m) ->
  ~ In t (map fst (fst (notify cfg t' sc v m))) /\ forall z, In z (snd (notify cfg t' sc v m)) -> ~ about t z.
Proof.
  intros t t' sc v m N. split.
  - rewrite notify_map. intro Q. apply N. apply in_map_iff in Q. destruct Q as (e & E & I0). apply filter_In in I0. apply in_map_iff. exists e. tauto.
  - unfold notify. destruct (find (fun e => fst e =? t') m) as [[id x]|] eqn:F; [|intros z []]. destruct (find_some _ _ F) as (I0 & E). cbn in E. apply Nat.eqb_eq in E. subst id.
    assert (t' <> t) by (intros ->; apply N; apply in_map_iff; exists (t, x); auto). cbn. unfold signal. intros z Z.
    destruct (t_kind x); [destruct Z| |]; (match type of Z with context[if ?b then _ else _] => destruct b end; [destruct Z as [<-|[]]; exact H|destruct Z]).
Qed.
Lemma dispatch_absent : forall t now icst v m i c x a m' i' c' x' a', dispatch now icst v m i (c, x, a) = (m', i', (c', x', a')) ->
  ~ In t (map fst m) -> (forall z, In z a -> ~ about t z) -> ~ In t (map fst m') /\ forall z, In z a' -> ~ about t z.
Proof.
  intros t now icst v m i c x a m' i' c' x' a' E N H. destruct (dispatch_spec _ _ _ _ _ _ _ _ _ _ _ _ _ _ _ _ _ E) as (F & k & -> & K).
  split; [rewrite (keys_same _ _ F); exact N|]. intros z Z. apply in_app_or in Z. destruct Z as [Z|Z]; [apply H; exact Z|].
  rewrite Forall_forall in K. destruct (K z Z) as [(u & ->)|[(id & u & -> & I0)|(id & t0 & u & -> & I0 & _)]]; cbn; [tauto| |].
  - intros ->. exact (N I0).
  - intros ->. apply N. apply in_map_iff. exists (t, t0). auto.
Qed.
Lemma absent_step : forall t now e s, absent t s -> (forall m w st p, e = Reduction true p m w st -> p <> Goal t /\ p <> Prediction t) ->
  absent t (fst (reduce now e s)) /\ forall z, In z (snd (reduce now e s)) -> ~ about t z.
Proof.
  intros t now e s (N1 & N2) NR. destruct e as [md p m w st|sc g t' v|v|v|v]; cbn.
  - assert (INS : forall id x (mp : @tmap B), id <> t -> ~ In t (map fst mp) -> ~ In t (map fst (insert id x mp))).
    { intros id x mp D N. unfold insert. destruct (existsb _ mp); [exact N|]. rewrite map_app. intro Q. apply in_app_or in Q. destruct Q as [Q|[Q|[]]]; [exact (N Q)|exact (D Q)]. }
    destruct md; [|split; [split; assumption|intros z []]]. destruct (NR m w st p eq_refl) as (D1 & D2).
    destruct p as [t'|t'|]; (split; [|intros z []]); split; cbn; try assumption; apply INS; try assumption; intros ->; congruence.
  - destruct g.
    + destruct (notify_absent t t' sc v (goals s) N1) as (Q1 & Q2). destruct (notify cfg t' sc v (goals s)). cbn in *. split; [split; assumption|exact Q2].
    + destruct (notify_absent t t' sc v (predictions s) N2) as (Q1 & Q2). destruct (notify cfg t' sc v (predictions s)). cbn in *. split; [split; assumption|].
      intros z Z. apply in_app_or in Z. destruct Z as [Z|Z]; [exact (Q2 z Z)|]. destruct sc; [|destruct Z]. apply in_flat_map in Z. destruct Z as (e & I0 & Z). unfold ack in Z.
      destruct (t_kind (snd e)); [destruct Z| |destruct Z]. destruct (achieved _ _); [|destruct Z]. destruct Z as [<-|[]]. cbn. intros <-. apply N1. apply in_map. exact I0.
  - split; [split; assumption|]. intros z [<-|[]]. exact id.
  - destruct (pass_through cfg); [split; [split; assumption|intros z []]|].
    destruct (dispatch now true v (goals s) false (cache s, cross s, [])) as [[g i] [[c x] a1]] eqn:D1.
    destruct (dispatch now true v (predictions s) false (c, x, a1)) as [[p i2] [[c2 x2] a2]] eqn:D2. cbn.
    destruct (dispatch_absent t _ _ _ _ _ _ _ _ _ _ _ _ _ D1 N1) as (Q1 & Q2); [intros z []|].
    destruct (dispatch_absent t _ _ _ _ _ _ _ _ _ _ _ _ _ D2 N2 Q2) as (Q3 & Q4). split; [split; assumption|exact Q4].
  - destruct (pass_through cfg); [split; [split; assumption|intros z [<-|[]]; exact id]|].
    destruct (dispatch now false v (goals s) false (cache s, cross s, [])) as [[g i] [[c x] a1]] eqn:D1.
    destruct (dispatch now false v (predictions s) i (c, x, a1)) as [[p i2] [[c2 x2] a2]] eqn:D2. cbn.
    destruct (dispatch_absent t _ _ _ _ _ _ _ _ _ _ _ _ _ D1 N1) as (Q1 & Q2); [intros z []|].
    destruct (dispatch_absent t _ _ _ _ _ _ _ _ _ _ _ _ _ D2 N2 Q2) as (Q3 & Q4). split; [split; assumption|exact Q4].
Qed.
Lemma absent_run : forall t es s, absent t s -> ~ reopened t es -> forall z, In z (snd (run es s)) -> ~ about t z.
Proof.
  intros t es; induction es as [|(n & e) es IH]; intros s A NR z Z; [destruct Z|]. cbn [Af_model.run] in Z.
  destruct (absent_step t n e s A) as (A2 & Q).
  { intros m w st p ->. split; intros ->; apply NR; [exists n, m, w, st, (Goal t)|exists n, m, w, st, (Prediction t)]; (split; [left; reflexivity|]); [left|right]; reflexivity. }
  destruct (reduce n e s) as [s1 a]. cbn in A2, Q. pose proof (IH s1 A2) as IH2. destruct (run es s1) as [s2 b]. cbn in *.
  apply in_app_or in Z. destruct Z as [Z|Z]; [exact (Q z Z)|]. apply IH2; [|exact Z]. intros (n0 & m & w & st & p & I0 & O). apply NR. exists n0, m, w, st, p. split; [right; exact I0|exact O].
Qed.

(** A target is open as what it is. *)
Lemma typed_open : forall goal (es : list (Z * event)), typed goal es -> forall o, In o (open_after es) -> is_goal o = goal (target o).
Proof.
  intros goal es. unfold open_after. assert (H : forall l, (forall o, In o l -> is_goal o = goal (target o)) -> typed goal es ->
    forall o, In o (fold_left (fun l e => after_event (snd e) l) es l) -> is_goal o = goal (target o)).
  { induction es as [|(n & e) es IH]; intros l P (T1 & T2 & T3) o O; [apply P; exact O|]. cbn in O. eapply IH; [| |exact O].
    - assert (AD : forall g t m w, g = goal t -> forall o, In o (if existsb (same g t) l then l else l ++ [mkopen g t m w]) -> is_goal o = goal (target o)).
      { intros g t m w E o'. destruct (existsb (same g t) l); [apply P|]. intro Q. apply in_app_or in Q. destruct Q as [Q|[<-|[]]]; [apply P; exact Q|exact E]. }
      intros o' O'. destruct e as [[] [t|t|] m w st|sc g t v|v|v|v]; cbn in O'; try (apply P; exact O').
      + eapply AD; [|exact O']. symmetry. eapply T1. left. reflexivity.
      + eapply AD; [|exact O']. symmetry. eapply T2. left. reflexivity.
      + apply filter_In in O'. apply P. tauto.
    - repeat split; intros; [eapply T1|eapply T2|eapply T3]; right; eassumption. }
  intros T. apply H; [intros o []|exact T].
Qed.
Lemma keys_entry : forall m l, Forall2 (entry full cfg) m l -> map fst m = map (fun o => target o) l.
Proof. intros m l F. induction F as [|e o m l (P & _) F IH]; [reflexivity|]. cbn. rewrite P, IH. reflexivity. Qed.
Lemma closed : forall goal es1 n sc g t v es2, typed goal (es1 ++ [(n, Outcome sc g t v)]) -> ~ reopened t es2 ->
  forall z, In z (snd (run es2 (fst (run (es1 ++ [(n, Outcome sc g t v)]) empty)))) -> ~ about t z.
Proof.
  intros goal es1 n sc g t v es2 T NR. apply absent_run; [|exact NR]. pose proof (agrees_open (es1 ++ [(n, Outcome sc g t v)])) as (A1 & A2).
  pose proof (typed_open goal _ T) as P. assert (G : g = goal t) by (destruct T as (_ & _ & T3); eapply T3; apply in_or_app; right; left; reflexivity).
  assert (N : forall o, In o (open_after (es1 ++ [(n, Outcome sc g t v)])) -> target o <> t).
  { intros o O E. pose proof (P o O) as PO. rewrite open_app in O. cbn in O. apply filter_In in O. destruct O as (_ & O). unfold same in O. rewrite PO, E, <- G, Bool.eqb_reflx, Nat.eqb_refl in O. discriminate. }
  split; [rewrite (keys_entry _ _ A1)|rewrite (keys_entry _ _ A2)]; intro Q; apply in_map_iff in Q; destruct Q as (o & E & O); apply filter_In in O; destruct O as (O & _); exact (N o O E).
Qed.

(** * Switches *)
Lemma both_off : gtpx_on cfg = false -> ptpx_on cfg = false -> forall es, forall z, In z (snd (run es empty)) -> ~ learns z.
Proof.
  intros G P. assert (K : forall o : @open B, kind_of cfg o = Idle) by (intro o; unfold kind_of; rewrite G, P; reflexivity).
  assert (H : forall es s l, agrees s l -> forall z, In z (snd (run es s)) -> ~ learns z).
  { induction es as [|(n & e) es IH]; intros s l A z Z; [destruct Z|]. cbn [Af_model.run] in Z.
    destruct (reduce n e s) as [s1 a] eqn:R. pose proof (IH s1 _ (agrees_step _ _ _ _ _ _ _ _ _ _ _ A R)) as Q. destruct (run es s1) as [s2 b]. cbn in *.
    apply in_app_or in Z. destruct Z as [Z|Z]; [|exact (Q z Z)]. destruct A as (A1 & A2).
    assert (ID : forall m k, Forall2 (entry full cfg) m k -> forall e, In e m -> t_kind (snd e) = Idle).
    { intros m k F. induction F as [|e' o m k (_ & _ & TK & _) F IHF]; intros x []; [subst x; rewrite TK; apply K|apply IHF; assumption]. }
    assert (NN : forall t sc v m k, Forall2 (entry full cfg) m k -> snd (notify cfg t sc v m) = []).
    { intros t sc v m k F. unfold notify. destruct (find _ m) as [[id x]|] eqn:FF; [|reflexivity]. destruct (find_some _ _ FF) as (I0 & _). cbn. unfold signal. rewrite (ID _ _ F _ I0 : t_kind x = Idle). reflexivity. }
    assert (NA : forall t m k, Forall2 (entry full cfg) m k -> flat_map (ack achieved t) m = []).
    { intros t m k F. pose proof (ID _ _ F) as IDF. clear F. induction m as [|e' m IHm]; [reflexivity|]. cbn. rewrite IHm; [|intros x X; apply IDF; right; exact X]. unfold ack. rewrite (IDF e' (or_introl eq_refl)). reflexivity. }
    destruct e as [md p m w st|sc g t v|v|v|v]; cbn in R.
    - destruct md; [destruct p|]; injection R as <- <-; destruct Z.
    - destruct g.
      + pose proof (NN t sc v _ _ A1) as X. destruct (notify cfg t sc v (goals s)). injection R as <- <-. cbn in X. subst. destruct Z.
      + pose proof (NN t sc v _ _ A2) as X. destruct (notify cfg t sc v (predictions s)). injection R as <- <-. cbn in X. subst. rewrite (NA t _ _ A1) in Z. destruct sc; destruct Z.
    - injection R as <- <-. destruct Z as [<-|[]]. exact id.
    - destruct (pass_through cfg); [injection R as <- <-; destruct Z|].
      destruct (dispatch n true v (goals s) false (cache s, cross s, [])) as [[g i] [[c x] a1]] eqn:D1.
      destruct (dispatch n true v (predictions s) false (c, x, a1)) as [[p i2] [[c2 x2] a2]] eqn:D2. injection R as <- <-.
      pose proof (no_start_dispatch _ _ _ _ _ _ _ _ _ _ _ _ _ D1 ltac:(intros ? [])) as Y1. pose proof (no_start_dispatch _ _ _ _ _ _ _ _ _ _ _ _ _ D2 Y1 z Z) as Y2.
      destruct z; cbn; try tauto; intros _; [exact (proj1 (Y2 t v0) eq_refl)|exact (proj2 (Y2 t v) eq_refl)].
    - destruct (pass_through cfg); [injection R as <- <-; destruct Z as [<-|[]]; exact id|].
      destruct (dispatch n false v (goals s) false (cache s, cross s, [])) as [[g i] [[c x] a1]] eqn:D1.
      destruct (dispatch n false v (predictions s) i (c, x, a1)) as [[p i2] [[c2 x2] a2]] eqn:D2. injection R as <- <-.
      pose proof (no_start_dispatch _ _ _ _ _ _ _ _ _ _ _ _ _ D1 ltac:(intros ? [])) as Y1. pose proof (no_start_dispatch _ _ _ _ _ _ _ _ _ _ _ _ _ D2 Y1 z Z) as Y2.
      destruct z; cbn; try tauto; intros _; [exact (proj1 (Y2 t v0) eq_refl)|exact (proj2 (Y2 t v) eq_refl)]. }
  intro es. exact (H es empty [] agrees_empty).
Qed.

(** * The hook *)
Lemma never_hooked : forall es z, In z (snd (run es empty)) -> forall t v, z <> Hook t v.
Proof.
  assert (H : forall es s l, agrees s l -> forall z, In z (snd (run es s)) -> forall t v, z <> Hook t v).
  { induction es as [|(n & e) es IH]; intros s l A z Z t0 v0; [destruct Z|]. cbn [Af_model.run] in Z.
    destruct (reduce n e s) as [s1 a] eqn:R. pose proof (IH s1 _ (agrees_step _ _ _ _ _ _ _ _ _ _ _ A R)) as Q. destruct (run es s1) as [s2 b]. cbn in *.
    apply in_app_or in Z. destruct Z as [Z|Z]; [|exact (Q z Z t0 v0)]. destruct A as (A1 & A2).
    assert (NN : forall t sc v (m : @tmap B), In z (snd (notify cfg t sc v m)) -> z <> Hook t0 v0).
    { intros t sc v m X. unfold notify in X. destruct (find _ m) as [[id x]|]; [|destruct X]. cbn in X. unfold signal in X.
      destruct (t_kind x); [destruct X| |]; (match type of X with context[if ?b then _ else _] => destruct b end; [destruct X as [<-|[]]; discriminate|destruct X]). }
    assert (DD : forall icst v m k i c x a m' i' c' x' a', Forall2 (entry full cfg) m k -> dispatch n icst v m i (c, x, a) = (m', i', (c', x', a')) ->
      (In z a -> z <> Hook t0 v0) -> In z a' -> z <> Hook t0 v0).
    { intros icst v m k i c x a1 m' i' c' x' a' F D HA X. destruct (dispatch_spec _ _ _ _ _ _ _ _ _ _ _ _ _ _ _ _ _ D) as (_ & kk & -> & K).
      apply in_app_or in X. destruct X as [X|X]; [exact (HA X)|]. rewrite Forall_forall in K. destruct (K z X) as [(u & ->)|[(id & u & -> & _)|(id & t & u & -> & I0 & HK & FU)]]; [discriminate|discriminate|].
      exfalso. clear - F I0 HK FU. induction F as [|e o m k (_ & _ & _ & P) F IHF]; [destruct I0|]. destruct I0 as [-> |I0]; [cbn in P; rewrite (P HK) in FU; discriminate|exact (IHF I0)]. }
    destruct e as [md p m w st|sc g t v|v|v|v]; cbn in R.
    - destruct md; [destruct p|]; injection R as <- <-; destruct Z.
    - destruct g.
      + pose proof (NN t sc v (goals s)) as X. destruct (notify cfg t sc v (goals s)). injection R as <- <-. exact (X Z).
      + pose proof (NN t sc v (predictions s)) as X. destruct (notify cfg t sc v (predictions s)). injection R as <- <-. apply in_app_or in Z. destruct Z as [Z|Z]; [exact (X Z)|].
        destruct sc; [|destruct Z]. apply in_flat_map in Z. destruct Z as (e & I0 & Z). unfold ack in Z.
        destruct (t_kind (snd e)); [destruct Z| |destruct Z]. destruct (achieved _ _); [|destruct Z]. destruct Z as [<-|[]]. discriminate.
    - injection R as <- <-. destruct Z as [<-|[]]. discriminate.
    - destruct (pass_through cfg); [injection R as <- <-; destruct Z|].
      destruct (dispatch n true v (goals s) false (cache s, cross s, [])) as [[g i] [[c x] a1]] eqn:D1.
      destruct (dispatch n true v (predictions s) false (c, x, a1)) as [[p i2] [[c2 x2] a2]] eqn:D2. injection R as <- <-.
      refine (DD _ _ _ _ _ _ _ _ _ _ _ _ _ A2 D2 _ Z). refine (DD _ _ _ _ _ _ _ _ _ _ _ _ _ A1 D1 _). intros [].
    - destruct (pass_through cfg); [injection R as <- <-; destruct Z as [<-|[]]; discriminate|].
      destruct (dispatch n false v (goals s) false (cache s, cross s, [])) as [[g i] [[c x] a1]] eqn:D1.
      destruct (dispatch n false v (predictions s) i (c, x, a1)) as [[p i2] [[c2 x2] a2]] eqn:D2. injection R as <- <-.
      refine (DD _ _ _ _ _ _ _ _ _ _ _ _ _ A2 D2 _ Z). refine (DD _ _ _ _ _ _ _ _ _ _ _ _ _ A1 D1 _). intros []. }
  intros es. exact (H es empty [] agrees_empty).
Qed.
End Runs.
