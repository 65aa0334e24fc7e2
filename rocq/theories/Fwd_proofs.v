(* Lemmas on forward chaining. *)
From Coq Require Import ZArith QArith List Bool Lia.
From Verif Require Import Req_model Fwd_model Fwd_spec.
Import ListNotations.

Section Predict.
Context (mo : nat -> nat -> bool).

Lemma choice_tried b l x : In x (choice b l) <-> tried l b x.
Proof.
  unfold choice, tried. destruct l as [|y l]; cbn.
  - split; [intros [E|[]]; right; auto|intros [[]|[_ E]]; left; auto].
  - split; [auto|intros [H|[H _]]; [exact H|discriminate]].
Qed.

(* The cases of a reduction. *)
Lemma reduce_cases now m i st rs sims req b guards :
  let e := reduce mo now m i st rs sims req b guards in
  e = (false, []) \/
  (exists l, e = predict_all mo now m i true req guards (choice b l) [] /\
     forall x, offered st (src i) rs sims b x <-> In x (choice b l)) \/
  (e = predict_all mo now m i false req guards (choice b rs) [] /\ silent m st (src i) /\
     forall x, ~ offered st (src i) rs sims b x).
Proof.
  assert (OW : forall x l, st = WeakEnabled -> l = rs -> (offered st (src i) rs sims b x <-> In x (choice b l))).
  { intros x l E ->. rewrite choice_tried. split; [intros O; destruct O; congruence|intros T; apply OWeak; auto]. }
  assert (ON : forall x, st = NoRequirement -> src i <> Simulated -> (offered st (src i) rs sims b x <-> In x (choice b rs))).
  { intros x E N. rewrite choice_tried. split; [intros O; destruct O; congruence|intros T; apply ONone; auto]. }
  assert (OS : forall x l, st <> WeakEnabled -> src i = Simulated -> sims = Some l -> (offered st (src i) rs sims b x <-> In x (choice b l))).
  { intros x l E N M. rewrite choice_tried. split; [intros O; destruct O; congruence|intros T; eapply OSim; eauto]. }
  assert (OX : forall x, st <> WeakEnabled -> st <> NoRequirement -> src i <> Simulated -> ~ offered st (src i) rs sims b x).
  { intros x A B C O. destruct O; congruence. }
  unfold reduce. cbv zeta. destruct st.
  - destruct (src i) eqn:S.
    1,2: destruct (has_tpl m) eqn:T; [left; reflexivity|]; right; right; split; [reflexivity|]; split;
      [split; [discriminate|right; split; [exact T|left; reflexivity]]|intros x; apply OX; discriminate].
    destruct sims as [l|]; [|left; reflexivity]. right; left. exists l. split; [reflexivity|]. intros x. apply OS; congruence.
  - destruct (src i) eqn:S.
    1,2: destruct (has_tpl m) eqn:T; [left; reflexivity|]; right; right; split; [reflexivity|]; split;
      [split; [discriminate|right; split; [exact T|right; reflexivity]]|intros x; apply OX; discriminate].
    destruct sims as [l|]; [|left; reflexivity]. right; left. exists l. split; [reflexivity|]. intros x. apply OS; congruence.
  - destruct (src i) eqn:S.
    1,2: right; right; split; [reflexivity|]; split; [split; [discriminate|left; reflexivity]|intros x; apply OX; discriminate].
    destruct sims as [l|]; [|left; reflexivity]. right; left. exists l. split; [reflexivity|]. intros x. apply OS; congruence.
  - right; left. exists rs. split; [reflexivity|]. intros x. apply OW; reflexivity.
  - destruct (src i) eqn:S.
    1,2: right; left; exists rs; split; [reflexivity|]; intros x; apply ON; congruence.
    destruct sims as [l|]; [|left; reflexivity]. right; left. exists l. split; [reflexivity|]. intros x. apply OS; congruence.
Qed.

(* An offer is taken. *)
Lemma reduce_offered now m i st rs sims req b guards x :
  offered st (src i) rs sims b x ->
  exists l, reduce mo now m i st rs sims req b guards = predict_all mo now m i true req guards (choice b l) [] /\ In x (choice b l).
Proof.
  intros O. unfold reduce. cbv zeta. destruct O as [x E T|x E N T|l x E S M T].
  - subst st. exists rs. split; [reflexivity|]. apply choice_tried. exact T.
  - subst st. exists rs. destruct (src i); try congruence; (split; [reflexivity|]); apply choice_tried; exact T.
  - subst sims. rewrite S. exists l. destruct st; try congruence; (split; [reflexivity|]); apply choice_tried; exact T.
Qed.

(* Effects of one result. *)
Lemma in_all now m i al req guards P : forall rs a,
  (forall x r a es a', In x rs -> guards (bm x) = Some r -> predict mo now m i al req (ground x) r a = (es, a') -> Forall P es) ->
  Forall P (snd (predict_all mo now m i al req guards rs a)).
Proof.
  induction rs as [|x rs IH]; intros a H; cbn [predict_all]; [constructor|].
  destruct (guards (bm x)) as [r|] eqn:G.
  - destruct (predict mo now m i al req (ground x) r a) as [es a'] eqn:E.
    destruct (predict_all mo now m i al req guards rs a') as [b fs] eqn:F. cbn [snd]. apply Forall_app. split.
    + eapply H; [left; reflexivity|exact G|exact E].
    + replace fs with (snd (predict_all mo now m i al req guards rs a')) by (rewrite F; reflexivity).
      apply IH. intros. eapply H; [right; eassumption|eassumption|eassumption].
  - apply IH. intros. eapply H; [right; eassumption|eassumption|eassumption].
Qed.

Lemma forall_register (P : effect -> Prop) req r : P (Track r) -> Forall P (register req r).
Proof. intros H. unfold register. destruct req; repeat constructor; exact H. Qed.

Lemma gt_spec a b : Qgt_bool a b = true <-> b < a.
Proof.
  unfold Qgt_bool. rewrite negb_true_iff. split.
  - intros H. apply Qnot_le_lt. intros L. apply Qle_bool_iff in L. congruence.
  - intros H. destruct (Qle_bool a b) eqn:E; [|reflexivity]. apply Qle_bool_iff in E. exfalso. apply (Qlt_not_le _ _ H E).
Qed.

(* What a prediction is like. *)
Definition sound (now : Z) (m : mdl) (i : input) (al : bool) (r0 : rhs) (e : effect) : Prop :=
  match e with
  | Predict r c sim gs d =>
      r = r0 /\ al = true /\ is_req m = false /\ c = icfd i * rate m /\ sln_thr m < c /\
      (sim = true <-> src i = Simulated) /\ (src i <> Simulated -> (now < until r)%Z)
  | Instance => src i = Actual /\ al = true
  | PredInstance s => (s = true <-> src i = Simulated) /\ src i <> Actual /\ al = true
  | Mark _ => is_req m = true \/ src i = Actual
  | Second _ => src i = Actual /\ is_req m = false /\ al = true
  | Watch r f => r = r0 /\ src i = Actual /\ is_req m = false /\
      (f = true <-> al = true /\ sln_thr m < icfd i * rate m) /\ (al = true -> (now < until r)%Z)
  | Need r c s a => r = r0 /\ is_req m = true /\ a = al /\ c = (if al then icfd i * rate m else 0) /\
      (s = true <-> src i = Simulated) /\ (al = false -> src i = Actual)
  | Track r => r = r0 /\ src i <> Simulated /\ is_req m = false
  end.

Ltac fin S := repeat (apply Forall_cons); try apply Forall_nil; unfold sound; rewrite ?S;
  repeat split; auto; try discriminate; try congruence; try tauto.

Lemma predict_sound now m i al req g r a es a' :
  predict mo now m i al req g r a = (es, a') -> Forall (sound now m i al r) es.
Proof.
  unfold predict. destruct (existsb _ a).
  - intros E. injection E as <- <-. constructor.
  - destruct (src i) eqn:S, al; try (intros E; injection E as <- <-; now constructor).
    + destruct (is_req m) eqn:R.
      * intros E. injection E as <- <-. fin S.
      * destruct (until r <=? now)%Z eqn:L.
        -- intros E. injection E as <- <-. apply forall_register. fin S.
        -- unfold inject. destruct (Qgt_bool (icfd i * rate m) (sln_thr m)) eqn:G; intros E; injection E as <- <-.
           all: apply Z.leb_gt in L.
           ++ apply gt_spec in G. apply Forall_app. split; [apply forall_register; fin S|].
              fin S.
           ++ assert (G' : ~ sln_thr m < icfd i * rate m) by (rewrite <- gt_spec, G; discriminate).
              apply Forall_app. split; [apply forall_register; fin S|].
              fin S.
    + destruct (is_req m) eqn:R.
      * intros E. injection E as <- <-. fin S.
      * intros E. injection E as <- <-. apply Forall_app. split; [apply forall_register; fin S|].
        fin S.
    + destruct (is_req m) eqn:R.
      * intros E. injection E as <- <-. fin S.
      * destruct (until r <=? now)%Z eqn:L.
        -- intros E. injection E as <- <-. apply forall_register. fin S.
        -- unfold inject. destruct (Qgt_bool (icfd i * rate m) (sln_thr m)) eqn:G; intros E; injection E as <- <-.
           all: apply Z.leb_gt in L.
           ++ apply gt_spec in G. apply Forall_app. split; [apply forall_register; fin S|].
              fin S.
           ++ apply forall_register; fin S.
    + destruct (is_req m) eqn:R.
      * intros E. injection E as <- <-. fin S.
      * unfold inject_sim. destruct (Qgt_bool (icfd i * rate m) (sln_thr m)) eqn:G; intros E; injection E as <- <-; [|constructor].
        apply gt_spec in G.
        cbn [app snd]. destruct (is_cmd m || is_reuse m); fin S.
Qed.

Lemma reduce_sound now m i st rs sims req b guards e :
  In e (snd (reduce mo now m i st rs sims req b guards)) ->
  exists x r al, guards (bm x) = Some r /\ sound now m i al r e /\
    ((al = true /\ offered st (src i) rs sims b x) \/
     (al = false /\ silent m st (src i) /\ tried rs b x /\ forall y, ~ offered st (src i) rs sims b y)).
Proof.
  intros I. destruct (reduce_cases now m i st rs sims req b guards) as [E|[[l [E O]]|[E [Si N]]]]; cbv zeta in E; rewrite E in I.
  - destruct I.
  - pose proof (in_all now m i true req guards
      (fun e => exists x r al, guards (bm x) = Some r /\ sound now m i al r e /\ ((al = true /\ offered st (src i) rs sims b x) \/
     (al = false /\ silent m st (src i) /\ tried rs b x /\ forall y, ~ offered st (src i) rs sims b y))) (choice b l) []) as H.
    rewrite Forall_forall in H. apply H; [|exact I]. intros x r a es a' X G P. apply predict_sound in P.
    eapply Forall_impl; [|exact P]. intros f F. exists x, r, true. split; [exact G|]. split; [exact F|].
    left. split; [reflexivity|]. apply O. exact X.
  - pose proof (in_all now m i false req guards
      (fun e => exists x r al, guards (bm x) = Some r /\ sound now m i al r e /\ ((al = true /\ offered st (src i) rs sims b x) \/
     (al = false /\ silent m st (src i) /\ tried rs b x /\ forall y, ~ offered st (src i) rs sims b y))) (choice b rs) []) as H.
    rewrite Forall_forall in H. apply H; [|exact I]. intros x r a es a' X G P. apply predict_sound in P.
    eapply Forall_impl; [|exact P]. intros f F. exists x, r, false. split; [exact G|]. split; [exact F|].
    right. split; [reflexivity|]. split; [exact Si|]. split; [apply choice_tried; exact X|exact N].
Qed.

(* Every offer leads to a prediction. *)
Lemma predict_already now m i al req g r a es a' y :
  predict mo now m i al req g r a = (es, a') -> In y a' ->
  In y a \/ exists c sim gs d, In (Predict y c sim gs d) es.
Proof.
  unfold predict. destruct (existsb _ a); [intros E; injection E as <- <-; auto|].
  destruct (src i) eqn:S, al; try (intros E; injection E as <- <-; solve [auto]);
  destruct (is_req m); try (intros E; injection E as <- <-; solve [auto]).
  - destruct (until r <=? now)%Z; [intros E; injection E as <- <-; auto|].
    destruct (inject _ _ _ _ _) as [ok fs]. intros E; injection E as <- <-; auto.
  - destruct (until r <=? now)%Z; [intros E; injection E as <- <-; auto|].
    unfold inject. destruct (Qgt_bool _ _); intros E; injection E as <- <-; [|auto].
    intros I. apply in_app_or in I. destruct I as [I|[I|[]]]; [auto|]. subst y. right.
    do 4 eexists. apply in_or_app. right. left. reflexivity.
  - unfold inject_sim. destruct (Qgt_bool _ _); intros E; injection E as <- <-; [|auto].
    intros I. apply in_app_or in I. destruct I as [I|[I|[]]]; [auto|]. subst y. right.
    do 4 eexists. left. reflexivity.
Qed.

Lemma predict_made now m i req g r a es a' :
  is_req m = false -> sln_thr m < icfd i * rate m -> (src i <> Simulated -> (now < until r)%Z) ->
  predict mo now m i true req g r a = (es, a') ->
  (exists y, In y a /\ mo (what r) (what y) = true) \/ exists sim gs d, In (Predict r (icfd i * rate m) sim gs d) es.
Proof.
  intros R C D. unfold predict. destruct (existsb (fun a => mo (what r) (what a)) a) eqn:X.
  - intros _. left. apply existsb_exists in X. exact X.
  - apply gt_spec in C. rewrite R. destruct (src i) eqn:S.
    + replace (until r <=? now)%Z with false by (symmetry; apply Z.leb_gt; apply D; discriminate).
      unfold inject. rewrite C. intros E; injection E as <- <-. right. do 3 eexists. apply in_or_app. right. left. reflexivity.
    + replace (until r <=? now)%Z with false by (symmetry; apply Z.leb_gt; apply D; discriminate).
      unfold inject. rewrite C. intros E; injection E as <- <-. right. do 3 eexists. apply in_or_app. right. left. reflexivity.
    + unfold inject_sim. rewrite C. intros E; injection E as <- <-. right. do 3 eexists. left. reflexivity.
Qed.

Lemma predict_all_made now m i req guards x r :
  is_req m = false -> sln_thr m < icfd i * rate m -> (src i <> Simulated -> (now < until r)%Z) ->
  guards (bm x) = Some r ->
  forall rs a, In x rs ->
  (exists y, In y a /\ mo (what r) (what y) = true) \/
  exists y c sim gs d, In (Predict y c sim gs d) (snd (predict_all mo now m i true req guards rs a)) /\
    (y = r \/ mo (what r) (what y) = true).
Proof.
  intros R C D G. induction rs as [|z rs IH]; intros a I; [destruct I|]. cbn [predict_all].
  destruct (guards (bm z)) as [rz|] eqn:Gz.
  - destruct (predict mo now m i true req (ground z) rz a) as [es a'] eqn:P.
    destruct (predict_all mo now m i true req guards rs a') as [b fs] eqn:F. cbn [snd].
    destruct I as [I|I].
    + subst z. rewrite G in Gz. injection Gz as <-.
      destruct (predict_made _ _ _ _ _ _ _ _ _ R C D P) as [L|[sim [gs [d L]]]]; [left; exact L|].
      right. exists r. do 4 eexists. split; [apply in_or_app; left; exact L|left; reflexivity].
    + specialize (IH a' I). rewrite F in IH. cbn [snd] in IH. destruct IH as [[y [Y M]]|[y [c [sim [gs [d [Y M]]]]]]].
      * destruct (predict_already _ _ _ _ _ _ _ _ _ _ y P Y) as [L|[c [sim [gs [d L]]]]]; [left; eauto|].
        right. exists y, c, sim, gs, d. split; [apply in_or_app; left; exact L|right; exact M].
      * right. exists y, c, sim, gs, d. split; [apply in_or_app; right; exact Y|exact M].
  - destruct I as [I|I]; [subst z; congruence|]. apply IH. exact I.
Qed.

Lemma reduce_made now m i st rs sims req b guards x r :
  is_req m = false -> sln_thr m < icfd i * rate m -> (src i <> Simulated -> (now < until r)%Z) ->
  offered st (src i) rs sims b x -> guards (bm x) = Some r ->
  exists y c sim gs d, In (Predict y c sim gs d) (snd (reduce mo now m i st rs sims req b guards)) /\
    (y = r \/ mo (what r) (what y) = true).
Proof.
  intros R C D O G. destruct (reduce_offered now m i st rs sims req b guards x O) as [l [E I]]. rewrite E.
  destruct (predict_all_made now m i req guards x r R C D G (choice b l) [] I) as [[y [[] _]]|H]. exact H.
Qed.

(* No prediction is repeated, unless from facts. *)
Lemma predictions_app a b : predictions (a ++ b) = predictions a ++ predictions b.
Proof. apply flat_map_app. Qed.
Lemma predictions_register req r : predictions (register req r) = [].
Proof. unfold register. destruct req; reflexivity. Qed.

Lemma predict_once now m i al req g r a es a' :
  src i <> Actual -> predict mo now m i al req g r a = (es, a') ->
  (predictions es = [] /\ a' = a) \/
  (predictions es = [r] /\ a' = a ++ [r] /\ forall y, In y a -> mo (what r) (what y) = false).
Proof.
  intros NA. unfold predict. destruct (existsb (fun a => mo (what r) (what a)) a) eqn:X.
  - intros E; injection E as <- <-. left. auto.
  - assert (Y : forall y, In y a -> mo (what r) (what y) = false).
    { intros y I. destruct (mo (what r) (what y)) eqn:M; [|reflexivity]. rewrite <- X. symmetry.
      apply existsb_exists. exists y. auto. }
    destruct (src i) eqn:S; [congruence| |]; (destruct al; [|intros E; injection E as <- <-; left; auto]);
    (destruct (is_req m); [intros E; injection E as <- <-; left; auto|]).
    + destruct (until r <=? now)%Z; [intros E; injection E as <- <-; left; rewrite predictions_register; auto|].
      unfold inject. destruct (Qgt_bool _ _); intros E; injection E as <- <-.
      * right. rewrite predictions_app, predictions_register. auto.
      * left. rewrite predictions_register. auto.
    + unfold inject_sim. destruct (Qgt_bool _ _); intros E; injection E as <- <-; [|left; auto].
      right. destruct (is_cmd m || is_reuse m); auto.
Qed.

Lemma predict_all_once now m i al req guards : src i <> Actual ->
  forall rs a, ForallOrdPairs (fun r1 r2 => mo (what r2) (what r1) = false)
                 (predictions (snd (predict_all mo now m i al req guards rs a))) /\
    forall y r, In y a -> In r (predictions (snd (predict_all mo now m i al req guards rs a))) -> mo (what r) (what y) = false.
Proof.
  intros NA. induction rs as [|x rs IH]; intros a; cbn [predict_all].
  - split; [constructor|intros y r _ []].
  - destruct (guards (bm x)) as [r|]; [|apply IH].
    destruct (predict mo now m i al req (ground x) r a) as [es a'] eqn:P. specialize (IH a').
    destruct (predict_all mo now m i al req guards rs a') as [b fs]. cbn [snd] in *. rewrite predictions_app.
    destruct IH as [IH1 IH2]. destruct (predict_once _ _ _ _ _ _ _ _ _ _ NA P) as [[-> ->]|[-> [-> N]]]; cbn [app].
    + split; [exact IH1|exact IH2].
    + split.
      * constructor; [|exact IH1]. apply Forall_forall. intros r2 I2. apply IH2; [|exact I2]. apply in_or_app. right. left. reflexivity.
      * intros y r2 Y [E|I2]; [subst r2; apply N; exact Y|]. apply IH2; [|exact I2]. apply in_or_app. left. exact Y.
Qed.

Lemma reduce_once now m i st rs sims req b guards :
  src i <> Actual ->
  ForallOrdPairs (fun r1 r2 => mo (what r2) (what r1) = false)
    (predictions (snd (reduce mo now m i st rs sims req b guards))).
Proof.
  intros NA. destruct (reduce_cases now m i st rs sims req b guards) as [E|[[l [E O]]|[E _]]]; cbv zeta in E; rewrite E.
  - constructor.
  - apply predict_all_once. exact NA.
  - apply predict_all_once. exact NA.
Qed.

(* Monitors. *)
Lemma watched_app a b : watched (a ++ b) = watched a ++ watched b.
Proof. apply flat_map_app. Qed.
Lemma watched_register req r : watched (register req r) = [].
Proof. unfold register. destruct req; reflexivity. Qed.

Lemma predict_watch now m i al req g r es a' :
  src i = Actual -> is_req m = false -> predict mo now m i al req g r [] = (es, a') ->
  a' = [] /\ watched es = (if al then if (now <? until r)%Z then [r] else [] else [r]).
Proof.
  intros S R. unfold predict. cbn [existsb]. rewrite S, R. destruct al.
  - rewrite Z.ltb_antisym. destruct (until r <=? now)%Z; cbn [negb].
    + intros E; injection E as <- <-. rewrite watched_register. auto.
    + unfold inject. destruct (Qgt_bool _ _); intros E; injection E as <- <-; rewrite watched_app, watched_register; auto.
  - intros E; injection E as <- <-. rewrite watched_app, watched_register. auto.
Qed.

Lemma predict_all_watch now m i al req guards : src i = Actual -> is_req m = false ->
  forall rs, watched (snd (predict_all mo now m i al req guards rs [])) =
    (if al then filter (fun r => (now <? until r)%Z) (passing guards rs) else passing guards rs).
Proof.
  intros S R. induction rs as [|x rs IH]; cbn [predict_all]; [destruct al; reflexivity|].
  unfold passing in *. cbn [flat_map]. destruct (guards (bm x)) as [r|]; [|exact IH].
  destruct (predict mo now m i al req (ground x) r []) as [es a'] eqn:P.
  destruct (predict_watch _ _ _ _ _ _ _ _ _ S R P) as [-> W].
  destruct (predict_all mo now m i al req guards rs []) as [b fs]. cbn [snd app] in *.
  rewrite watched_app, W, IH. destruct al; [|reflexivity]. cbn [filter]. destruct (now <? until r)%Z; reflexivity.
Qed.

Lemma track_watched now m i al req g r es a' :
  src i = Actual -> (al = true -> (now < until r)%Z) -> predict mo now m i al req g r [] = (es, a') ->
  a' = [] /\ forall y, In (Track y) es -> exists f, In (Watch y f) es.
Proof.
  intros S L. unfold predict. cbn [existsb]. rewrite S.
  destruct (is_req m); [destruct al; intros E; injection E as <- <-; (split; [reflexivity|]); intros y [I|[I|[]]]; discriminate|].
  destruct al.
  - replace (until r <=? now)%Z with false by (symmetry; apply Z.leb_gt; auto).
    destruct (inject _ _ _ _ _) as [ok fs] eqn:J. intros E; injection E as <- <-. split; [reflexivity|].
    intros y I. exists ok. apply in_app_or in I. destruct I as [I|I].
    + unfold register in I. destruct req; [|destruct I]. destruct I as [I|[]]. injection I as ->.
      apply in_or_app. right. apply in_or_app. right. left. reflexivity.
    + apply in_app_or in I. destruct I as [I|[I|[I|[]]]]; try discriminate.
      unfold inject in J. destruct (Qgt_bool _ _); injection J as <- <-; [|destruct I].
      destruct I as [I|[I|[I|[]]]]; discriminate.
  - intros E; injection E as <- <-. split; [reflexivity|]. intros y I. exists false. apply in_app_or in I. destruct I as [I|[I|[]]].
    + unfold register in I. destruct req; [|destruct I]. destruct I as [I|[]]. injection I as ->.
      apply in_or_app. right. left. reflexivity.
    + discriminate.
Qed.

Lemma all_track_watched now m i al req guards : src i = Actual ->
  forall rs, (forall x r, In x rs -> guards (bm x) = Some r -> (now < until r)%Z) ->
  forall y, In (Track y) (snd (predict_all mo now m i al req guards rs [])) ->
  exists f, In (Watch y f) (snd (predict_all mo now m i al req guards rs [])).
Proof.
  intros S. induction rs as [|x rs IH]; intros D y; cbn [predict_all]; [intros []|].
  destruct (guards (bm x)) as [r|] eqn:G.
  - destruct (predict mo now m i al req (ground x) r []) as [es a'] eqn:P.
    assert (L : al = true -> (now < until r)%Z) by (intros _; apply (D x r); [left; reflexivity|exact G]).
    destruct (track_watched _ _ _ _ _ _ _ _ _ S L P) as [-> W].
    assert (IH' := IH (fun x r I => D x r (or_intror I)) y).
    destruct (predict_all mo now m i al req guards rs []) as [b fs]. cbn [snd] in *.
    intros I. apply in_app_or in I. destruct I as [I|I].
    + destruct (W y I) as [f F]. exists f. apply in_or_app. left. exact F.
    + destruct (IH' I) as [f F]. exists f. apply in_or_app. right. exact F.
  - apply IH. intros x' r' I'. apply D. right. exact I'.
Qed.
End Predict.
