(** Goals and requirements: exact outcomes, and the refutations. *)
From Verif Require Import Base Mon_model Mon_spec Mon_proofs.

Lemma sim_snoc t thz bs b : still_simulating t thz (bs ++ [b]) <-> still_simulating t thz bs /\ (b = CJob -> gclock t bs < thz).
Proof.
  unfold still_simulating. split.
  - intros [A B]. split; [split; auto|].
    + intros p q ->. apply (B p (q ++ [b])). rewrite <- app_assoc. reflexivity.
    + intros ->. apply (B bs []). reflexivity.
  - intros [[A B] C]. split; auto. intros p q E. apply snoc_case in E. destruct E as [(-> & -> & ->)|[q' ->]]; [auto|eapply B; eauto].
Qed.
Definition gopen (c : gconf) (t thz : Z) (bs : list gblock) (s : gmon) : Prop :=
  exists sm o, s = mkgmon (gclock t bs) true false true sm true None None Waiting (if sm then thz else deadline c) o /\ outcomes o = [] /\
    ((sm = true /\ still_simulating t thz bs) \/ (sm = false /\ ~ still_simulating t thz bs)).
Lemma gundecided_snoc c t thz bs b : gundecided c t thz (bs ++ [b]) <-> gundecided c t thz bs /\ forall o, ~ gdecides c t thz bs b o.
Proof.
  split.
  - intro H. split.
    + intros p x q o E D. apply (H p x (q ++ [b]) o); auto. rewrite E, <- app_assoc. reflexivity.
    + intros o D. apply (H bs b [] o); auto.
  - intros [H1 H2] p x q o E D. apply snoc_case in E. destruct E as [(-> & -> & ->)|[q' ->]]; [eapply H2; eauto|eapply H1; eauto].
Qed.
Definition gdone (s : gmon) : Prop := gquiet s /\ ginvalid s = true.
Lemma gdone_block c s b : gdone s -> gdone (grun c s (gexpand b)).
Proof.
  unfold gdone, gquiet. destruct s as [n a v l sm ij ev bz k nx o]. cbn [gbusy gcore ginvalid]. intros [[-> K] ->].
  destruct b as [d|x| | |i|]; cbn; auto.
  - unfold gtake. cbn. destruct l; cbn; auto.
  - unfold gwake. cbn. destruct K as [->| ->]; cbn; auto. destruct (n <? nx); cbn; auto. rewrite andb_false_r. cbn. auto.
Qed.
Lemma gopen_same c t thz bs b sm o o' : (forall d, b <> CPass d) -> b <> CJob -> outcomes (o ++ o') = [] ->
  ((sm = true /\ still_simulating t thz bs) \/ (sm = false /\ ~ still_simulating t thz bs)) ->
  gopen c t thz (bs ++ [b]) (mkgmon (gclock t bs) true false true sm true None None Waiting (if sm then thz else deadline c) (o ++ o')).
Proof.
  intros N J O S1. exists sm, (o ++ o'). rewrite gclock_snoc, sim_snoc. assert (gpassed b = 0) by (destruct b; auto; exfalso; eapply N; reflexivity).
  rewrite H, Z.add_0_r. split; [reflexivity|]. split; [exact O|]. destruct S1 as [[-> S1]|[-> S1]]; [left|right]; (split; [reflexivity|]); tauto.
Qed.
Lemma gblock_cases c t thz bs s b : anti c = false -> b <> CController false -> gopen c t thz bs s ->
  (gopen c t thz (bs ++ [b]) (grun c s (gexpand b)) /\ forall o, ~ gdecides c t thz bs b o) \/
  exists o, gdecides c t thz bs b o /\ (forall o', gdecides c t thz bs b o' -> o' = o) /\ gdone (grun c s (gexpand b)) /\
    outcomes (out (grun c s (gexpand b))) = match o with Some r => [r] | None => [] end.
Proof.
  intros AN BC (sm & o & -> & O & S1).
  assert (On : forall o', outcomes o' = [] -> outcomes (o ++ o') = []) by (intros o' E; rewrite outcomes_app, O; exact E).
  assert (O1 : forall r, outcomes (o ++ [Outcome r]) = [r]) by (intro r; rewrite outcomes_app, O; reflexivity).
  destruct b as [d|x| | |i|].
  - left. split; [|intros ? D; inversion D]. exists sm, o. rewrite gclock_snoc, sim_snoc. split; [reflexivity|]. split; [exact O|].
    destruct S1 as [[-> S1]|[-> S1]]; [left|right]; (split; [reflexivity|]); [split; [auto|discriminate]|tauto].
  - left. split; [|intros ? D; inversion D]. destruct x; [|congruence]. rewrite <- (app_nil_r o). apply gopen_same; auto; discriminate.
  - right. exists None. split; [constructor|]. split; [intros o' D; inversion D; auto|]. split; [unfold gdone, gquiet; cbn; auto|exact O].
  - left. split; [|intros ? D; inversion D]. rewrite <- (app_nil_r o). apply gopen_same; auto; discriminate.
  - unfold gexpand, grun. cbn [fold_left gstep]. unfold gtake. cbn [gbusy glisted ginvalid negb gnow galive simulating injected evid gcore next out].
    unfold gfinish. cbn [gbusy injected evid negb andb simulating ginvalid glisted orb].
    assert (Keep : forall o', outcomes o' = [] -> gopen c t thz (bs ++ [CInput i]) (mkgmon (gclock t bs) true false true sm true None None Waiting (if sm then thz else deadline c) (o ++ o')))
      by (intros; apply gopen_same; auto; discriminate).
    assert (Done : forall l, gdone (mkgmon (gclock t bs) true true l sm true None None Waiting (if sm then thz else deadline c) o)) by (intro; unfold gdone, gquiet; cbn; auto).
    destruct (g_pred i) eqn:P.
    + destruct sm.
      * left. destruct S1 as [[_ S1]|[S1 _]]; [|discriminate]. split; [|intros ? D; inversion D; subst; congruence].
        destruct (g_sim i); [destruct (g_about i); [| |destruct (g_verdict i)]|]; apply Keep; reflexivity.
      * destruct S1 as [[S1 _]|[_ S1]]; [discriminate|]. destruct (g_verdict i) eqn:V.
        -- right. exists None. split; [apply G_predicted; auto|]. split; [intros o' D; inversion D; subst; congruence|]. split; [unfold gdone, gquiet; cbn; auto|]. cbn [gset out]. apply On. reflexivity.
        -- left. split; [apply Keep; reflexivity|intros ? D; inversion D; subst; congruence].
        -- left. split; [apply Keep; reflexivity|intros ? D; inversion D; subst; congruence].
    + destruct (g_ground i) eqn:G.
      { right. exists None. split; [apply G_ground; auto|]. split; [intros o' D; inversion D; subst; congruence|]. split; [unfold gdone, gquiet; cbn; auto|]. cbn [gset out]. apply On. reflexivity. }
      destruct (g_verdict i) eqn:V.
      * right. rewrite AN, andb_false_r. eexists. split; [apply G_reached; auto|]. split; [intros o' D; inversion D; subst; congruence|]. split; [unfold gdone, gquiet; cbn; auto|]. cbn [gset out gnow]. apply O1.
      * right. eexists. split; [apply G_failed; auto|]. split; [intros o' D; inversion D; subst; congruence|]. split; [unfold gdone, gquiet; cbn; auto|]. cbn [gset out gnow]. apply O1.
      * left. split; [apply Keep; reflexivity|intros ? D; inversion D; subst; congruence].
  - unfold gexpand, grun. cbn [fold_left gstep]. unfold gwake. cbn [gcore gnow next galive ginvalid]. destruct sm.
    + destruct S1 as [[_ S1]|[S1 _]]; [|discriminate]. destruct (gclock t bs <? thz) eqn:T.
      * left. split; [|intros ? D; inversion D; subst; contradiction]. exists true, o. rewrite gclock_snoc, sim_snoc. cbn [gpassed]. rewrite Z.add_0_r. split; [reflexivity|]. split; [exact O|]. left. split; auto. split; auto. lia.
      * left. split; [|intros ? D; inversion D; subst; contradiction]. cbn [negb andb gact gcore gtimed simulating gremove ginvalid]. exists false, ((o ++ []) ++ [Commit]). rewrite gclock_snoc, sim_snoc. cbn [gpassed]. rewrite Z.add_0_r. split; [reflexivity|]. split; [rewrite app_nil_r; apply On; reflexivity|].
        right. split; auto. intros [_ F]. specialize (F eq_refl). lia.
    + destruct S1 as [[S1 _]|[_ S1]]; [discriminate|]. destruct (gclock t bs <? deadline c) eqn:T.
      * left. split; [|intros ? D; inversion D; subst; lia]. exists false, o. rewrite gclock_snoc, sim_snoc. cbn [gpassed]. rewrite Z.add_0_r. split; [reflexivity|]. split; [exact O|]. right. split; auto. tauto.
      * right. cbn [negb andb gact gcore gtimed simulating gremove ginvalid]. eexists. split; [apply G_deadline; auto; lia|]. split; [intros o' D; inversion D; subst; auto|]. split; [unfold gdone, gquiet; cbn; auto|]. cbn [gtimed gremove gcore gbusy out gnow]. rewrite app_nil_r. apply O1.
Qed.
Lemma g_one_by_one c t thz bs : anti c = false -> always_active bs -> let s := grun c (gstart c t thz false) (g_one_at_a_time bs) in
  (gopen c t thz bs s /\ gundecided c t thz bs) \/
  (gdone s /\ exists p b q o, bs = p ++ b :: q /\ gundecided c t thz p /\ gdecides c t thz p b o /\ (forall o', gdecides c t thz p b o' -> o' = o) /\ outcomes (out s) = match o with Some r => [r] | None => [] end).
Proof.
  intro AN. induction bs as [|b bs IH] using rev_ind; intro AA.
  - left. split; [|intros [|] ? ? ? E; discriminate]. exists (t <? thz), []. split; [reflexivity|]. split; [reflexivity|]. unfold still_simulating. destruct (t <? thz) eqn:T; [left|right]; (split; [reflexivity|]).
    + split; [lia|]. intros [|] ? E; discriminate.
    + intros [F _]. lia.
  - cbn zeta. rewrite gone_snoc, grun_app. destruct IH as [[O U]|[C (p & x & q & o & E & U & D & DD & T)]].
    { intro F. apply AA. apply in_app_iff. auto. }
    + assert (BC : b <> CController false) by (intros ->; apply AA; apply in_app_iff; cbn; auto).
      destruct (gblock_cases c t thz bs _ b AN BC O) as [[O' N]|(o & D & DD & C & T)].
      * left. split; auto. apply gundecided_snoc. auto.
      * right. split; auto. exists bs, b, [], o. auto 6.
    + right. split; [apply gdone_block; auto|]. exists p, x, (q ++ [b]), o. split; [rewrite E, <- app_assoc; reflexivity|]. split; [auto|]. split; [auto|]. split; [auto|].
      destruct C as [C1 C2]. rewrite g_silent; auto.
Qed.
Lemma g_exact c t thz bs r : anti c = false -> always_active bs ->
  (outcomes (out (grun c (gstart c t thz false) (g_one_at_a_time bs))) = [r] <->
   exists p b q, bs = p ++ b :: q /\ gundecided c t thz p /\ gdecides c t thz p b (Some r)).
Proof.
  intros AN AA. destruct (g_one_by_one c t thz bs AN AA) as [[(sm & o & E & O & _) U]|[_ (p & b & q & o & E & U & D & DD & T)]].
  - rewrite E. cbn [out]. rewrite O. split; [discriminate|]. intros (p & b & q & -> & _ & D). exfalso. eapply U; eauto.
  - rewrite T. split.
    + intro H. destruct o as [r'|]; [|discriminate]. injection H as ->. exists p, b, q. auto.
    + intros (p' & b' & q' & E' & U' & D'). rewrite E in E'.
      destruct (lt_eq_lt_dec (length p) (length p')) as [[L|L]|L].
      * destruct (split_shorter _ _ _ _ _ _ E' L) as [z ->]. exfalso. eapply U'; eauto.
      * destruct (split_unique _ _ _ _ _ _ E' L) as (<- & <- & <-). apply DD in D'. rewrite <- D'. reflexivity.
      * symmetry in E'. destruct (split_shorter _ _ _ _ _ _ E' L) as [z ->]. exfalso. eapply U; eauto.
Qed.
(** Nothing else ends the goal, and its deadline came: exactly one outcome. *)
Lemma g_exactly_one c t thz bs : anti c = false -> always_active bs -> ~ In CInvalidate bs ->
  (forall i, In (CInput i) bs -> g_pred i = false -> g_ground i = false) ->
  (forall i p q, bs = p ++ CInput i :: q -> g_pred i = true -> g_verdict i = Positive -> still_simulating t thz p) ->
  (exists p q, bs = p ++ CJob :: q /\ deadline c <= gclock t p /\ ~ still_simulating t thz p) ->
  exists r, outcomes (out (grun c (gstart c t thz false) (g_one_at_a_time bs))) = [r].
Proof.
  intros AN AA NI NG NP (p0 & q0 & E0 & DL & NS).
  destruct (g_one_by_one c t thz bs AN AA) as [[(sm & o & E & O & _) U]|[_ (p & b & q & o & E & U & D & DD & T)]].
  - exfalso. eapply U; [exact E0|]. apply G_deadline; auto.
  - destruct o as [r|]; [exists r; exact T|]. exfalso. assert (Hin : In b bs) by (rewrite E; apply in_app_iff; cbn; auto).
    inversion D; subst.
    + contradiction.
    + rewrite (NG i) in *; auto; discriminate.
    + match goal with H : ~ _ |- _ => apply H end. eapply NP; eauto.
Qed.

(** *** Refutations *)
Definition gactual (v : verdict) : ginput := mkgin false false OfObject false v true false.
Definition gpredicted (v : verdict) : ginput := mkgin true false OfObject false v true false.
Lemma g_race : exists c t thz es i, outcomes (out (grun c (gstart c t thz false) es)) = [mkrep true (Some i) 10; mkrep false None 10].
Proof. exists (mkgconf 10 false), 0, 0, [GPass 10; GTake (gactual Positive); GWake; GFinish; GAct; GRemove], (gactual Positive). reflexivity. Qed.
(** Predicted success, then the goal is reached, then the deadline: no outcome. *)
Lemma g_no_outcome : exists c t thz bs, always_active bs /\ anti c = false /\ ~ In CInvalidate bs /\
  (exists p q i, bs = p ++ CInput i :: q /\ actual_evidence Positive i /\ gclock t p < deadline c) /\
  (exists p, bs = p ++ [CJob] /\ deadline c <= gclock t p) /\
  outcomes (out (grun c (gstart c t thz false) (g_one_at_a_time bs))) = [].
Proof.
  exists (mkgconf 10 false), 0, 0, [CInput (gpredicted Positive); CInput (gactual Positive); CPass 10; CJob].
  split; [intros [F|[F|[F|[F|[]]]]]; discriminate|]. split; [reflexivity|]. split; [intros [F|[F|[F|[F|[]]]]]; discriminate|].
  split; [exists [CInput (gpredicted Positive)], [CPass 10; CJob], (gactual Positive); split; [reflexivity|split; [repeat split|cbn; lia]]|].
  split; [exists [CInput (gpredicted Positive); CInput (gactual Positive); CPass 10]; split; [reflexivity|cbn; lia]|]. reflexivity.
Qed.
(** The evidence comes right after the predicted evidence turned out wrong: it is lost,
    and the goal is reported a failure. *)
Lemma g_lost : exists c t thz bs, always_active bs /\ anti c = false /\ ~ In CInvalidate bs /\
  (exists p q i, bs = p ++ CInput i :: q /\ actual_evidence Positive i /\ gclock t p < deadline c) /\
  (forall i, In (CInput i) bs -> actual_evidence Positive i) /\
  exists r, outcomes (out (grun c (gstart c t thz true) (g_one_at_a_time bs))) = [r] /\ r_success r = false.
Proof.
  exists (mkgconf 10 false), 0, 0, [CWrong; CInput (gactual Positive); CPass 10; CJob].
  split; [intros [F|[F|[F|[F|[]]]]]; discriminate|]. split; [reflexivity|]. split; [intros [F|[F|[F|[F|[]]]]]; discriminate|].
  split; [exists [CWrong], [CPass 10; CJob], (gactual Positive); split; [reflexivity|split; [repeat split|cbn; lia]]|].
  split; [intros i [F|[F|[F|[F|[]]]]]; try discriminate; injection F as <-; repeat split|]. eexists. split; reflexivity.
Qed.
(** A goal to avoid something: evidence of it is left to the pattern extractor, and the
    job reports a failure at the deadline. *)
Lemma g_anti : exists c t thz bs, always_active bs /\ anti c = true /\ ~ In CInvalidate bs /\
  (forall i, In (CInput i) bs -> actual_evidence Positive i) /\ (exists i, In (CInput i) bs) /\
  exists r, outcomes (out (grun c (gstart c t thz false) (g_one_at_a_time bs))) = [r] /\ r_success r = false.
Proof.
  exists (mkgconf 10 true), 0, 0, [CInput (gactual Positive); CPass 10; CJob].
  split; [intros [F|[F|[F|[]]]]; discriminate|]. split; [reflexivity|]. split; [intros [F|[F|[F|[]]]]; discriminate|].
  split; [intros i [F|[F|[F|[]]]]; try discriminate; injection F as <-; repeat split|].
  split; [eexists; left; reflexivity|]. eexists. split; reflexivity.
Qed.
(** The controller is not active when the job comes: no outcome, although it is active
    again later. *)
Lemma g_dropped : exists c t thz bs, anti c = false /\ ~ In CInvalidate bs /\ (forall i, ~ In (CInput i) bs) /\
  (forall more, (forall b, In b more -> b = CJob \/ exists d, b = CPass d) ->
     outcomes (out (grun c (gstart c t thz false) (g_one_at_a_time (bs ++ CController true :: more)))) = []).
Proof.
  exists (mkgconf 10 false), 0, 0, [CPass 10; CController false; CJob].
  split; [reflexivity|]. split; [intros [F|[F|[F|[]]]]; discriminate|]. split; [intros i [F|[F|[F|[]]]]; discriminate|].
  intro more. unfold g_one_at_a_time. rewrite flat_map_app, grun_app.
  assert (X : forall s, gcore s = Over -> gbusy s = None -> outcomes (out s) = [] -> (forall b, In b more -> b = CJob \/ exists d, b = CPass d) ->
    outcomes (out (grun (mkgconf 10 false) s (flat_map gexpand more))) = []).
  { induction more as [|b more IH]; intros s K B O H; [exact O|]. cbn [flat_map]. rewrite grun_app.
    assert (H' : forall b, In b more -> b = CJob \/ exists d, b = CPass d) by (intros x Hx; apply H; right; auto).
    destruct (H b (or_introl eq_refl)) as [->|[d ->]]; cbn [gexpand grun fold_left gstep].
    - unfold gwake. rewrite K. unfold gact. rewrite K. unfold gremove. rewrite K. apply IH; auto.
    - apply IH; auto. }
  intro H. cbn [flat_map]. rewrite grun_app. apply X; auto.
Qed.
(** A predicted success followed by a predicted failure: nothing is done. *)
Lemma g_not_reissued : exists c t thz bs i j, anti c = false /\ always_active bs /\ bs = [CInput i; CInput j] /\
  g_pred i = true /\ g_verdict i = Positive /\ g_pred j = true /\ g_verdict j = Negative /\
  forall more, out (grun c (gstart c t thz false) (g_one_at_a_time bs ++ more)) = [PredictedSuccess].
Proof.
  exists (mkgconf 10 false), 0, 0, [CInput (gpredicted Positive); CInput (gpredicted Negative)], (gpredicted Positive), (gpredicted Negative).
  split; [reflexivity|]. split; [intros [F|[F|[]]]; discriminate|]. split; [reflexivity|]. repeat (split; [reflexivity|]).
  intro more. rewrite grun_app, g_silent; [reflexivity| |reflexivity]. unfold gquiet. cbn. auto.
Qed.
(** A predicted failure of a goal that is injected: nothing is done. *)
Lemma g_predicted_failure_ignored c s i : gquiet s -> ginvalid s = false -> injected s = true -> glisted s = true -> simulating s = false -> g_pred i = true -> g_verdict i = Negative ->
  out (grun c s (gexpand (CInput i))) = out s.
Proof.
  intros [Q _] V I1 L S1 P N. destruct s as [n a v l sm ij ev bz k nx o]. cbn in *. subst. cbn. unfold gfinish. cbn. rewrite P, N. cbn. apply app_nil_r.
Qed.

(** ** Requirements *)
Lemma fails_app a b : fails (a ++ b) = (fails a + fails b)%nat. Proof. unfold fails. rewrite filter_app, app_length. reflexivity. Qed.
Lemma commits_app a b : commits (a ++ b) = (commits a + commits b)%nat. Proof. unfold commits. rewrite filter_app, app_length. reflexivity. Qed.
Lemma chained_app a b : chained (a ++ b) = (chained a + chained b)%nat. Proof. unfold chained. rewrite filter_app, app_length. reflexivity. Qed.
Record rinv (dl : Z) (s : rmon) : Prop := mkrinv {
  ri_fail : (fails (rout_ s) <= 1)%nat /\ (rinvalid s = false -> fails (rout_ s) = 0%nat);
  ri_commit : (commits (rout_ s) <= 1)%nat /\ (rsimulating s = true -> commits (rout_ s) = 0%nat);
  ri_chain : (chained (rout_ s) <= 1)%nat /\ (rlisted s = true -> chained (rout_ s) = 0%nat);
  ri_when : forall t, In (RFail t) (rout_ s) -> dl <= t;
  ri_j1 : forall t, job1 s = Some t -> dl <= t \/ rsimulating s = true \/ dl <= rnow s;
  ri_j2 : forall t, job2 s = Some t -> t = dl }.
Lemma rinv_start dl t thz : rinv dl (rstart dl t thz).
Proof. constructor; cbn; auto; try (intros; contradiction). - intros x E. injection E as <-. destruct (t <? thz); auto. left. lia. - intros x E. congruence. Qed.
Lemma rinv_step dl s e : rinv dl s -> rinv dl (rstep dl s e).
Proof.
  intros [[A1 A2] [B1 B2] [C1 C2] D E F]. destruct e as [d|x| |b m| |]; cbn [rstep].
  - constructor; cbn [rout_ rinvalid rsimulating rlisted job1 job2 rnow]; auto. intros t H. apply E in H. destruct H as [H|[H|H]]; auto. right. right. lia.
  - constructor; cbn [rout_ rinvalid rsimulating rlisted job1 job2 rnow]; auto.
  - constructor; cbn [rout_ rinvalid rsimulating rlisted job1 job2 rnow]; auto. split; [auto|discriminate].
  - unfold rsignal. destruct (rlisted s) eqn:L; cbn [negb]; [|constructor; rewrite ?L; auto].
    destruct (negb (ralive s && negb (rinvalid s))) eqn:Al.
    { constructor; cbn [rout_ rinvalid rsimulating rlisted job1 job2 rnow]; rewrite ?app_nil_r; auto. }
    destruct (rsimulating s && b) eqn:SB.
    { apply andb_true_iff in SB. destruct SB as [SB ->]. constructor; cbn [rout_ rinvalid rsimulating rlisted job1 job2 rnow]; rewrite ?fails_app, ?commits_app, ?chained_app; cbn; rewrite ?Nat.add_0_r; auto.
      intros t H. apply in_app_iff in H. destruct H as [H|[H|[]]]; [auto|discriminate]. }
    destruct m; [|constructor; rewrite ?L; auto].
    constructor; cbn [rout_ rinvalid rsimulating rlisted job1 job2 rnow]; rewrite ?fails_app, ?commits_app, ?chained_app; cbn; rewrite ?Nat.add_0_r; auto.
    + rewrite C2; auto. split; [lia|discriminate].
    + intros t H. apply in_app_iff in H. destruct H as [H|[H|[]]]; [auto|discriminate].
  - unfold rjob. destruct (job1 s) as [t1|] eqn:J; [|constructor; rewrite ?J; auto; discriminate]. destruct (rnow s <? t1) eqn:T; [constructor; rewrite ?J; auto|].
    destruct (ralive s && negb (rinvalid s)) eqn:Al.
    + apply andb_true_iff in Al. destruct Al as [_ Al]. apply negb_true_iff in Al. unfold rupdate. rewrite Al. destruct (rsimulating s) eqn:S1.
      * constructor; cbn [rout_ rinvalid rsimulating rlisted job1 job2 rnow]; rewrite ?fails_app, ?commits_app, ?chained_app; cbn; rewrite ?Nat.add_0_r; auto.
        -- rewrite B2; auto; split; [lia|discriminate].
        -- intros t H. apply in_app_iff in H. destruct H as [H|[H|[]]]; [auto|discriminate].
        -- intros t H. injection H as <-. left. lia.
      * constructor; cbn [rout_ rinvalid rsimulating rlisted job1 job2 rnow]; rewrite ?fails_app, ?commits_app, ?chained_app; cbn; rewrite ?Nat.add_0_r; auto; try discriminate.
        -- rewrite A2; auto. split; [lia|discriminate].
        -- split; [auto|discriminate].
        -- intros t H. apply in_app_iff in H. destruct H as [H|[H|[]]]; [auto|]. injection H as <-. destruct (E t1 eq_refl) as [H|[H|H]]; [lia|discriminate|auto].
    + constructor; cbn [rout_ rinvalid rsimulating rlisted job1 job2 rnow]; auto. discriminate.
  - unfold rjob. destruct (job2 s) as [t1|] eqn:J; [|constructor; rewrite ?J; auto; discriminate]. destruct (rnow s <? t1) eqn:T; [constructor; rewrite ?J; auto|].
    assert (t1 = dl) by auto. subst t1.
    destruct (ralive s && negb (rinvalid s)) eqn:Al.
    + apply andb_true_iff in Al. destruct Al as [_ Al]. apply negb_true_iff in Al. unfold rupdate. rewrite Al. destruct (rsimulating s) eqn:S1.
      * constructor; cbn [rout_ rinvalid rsimulating rlisted job1 job2 rnow]; rewrite ?fails_app, ?commits_app, ?chained_app; cbn; rewrite ?Nat.add_0_r; auto.
        -- rewrite B2; auto; split; [lia|discriminate].
        -- intros t H. apply in_app_iff in H. destruct H as [H|[H|[]]]; [auto|discriminate].
        -- intros t H. right. right. lia.
      * constructor; cbn [rout_ rinvalid rsimulating rlisted job1 job2 rnow]; rewrite ?fails_app, ?commits_app, ?chained_app; cbn; rewrite ?Nat.add_0_r; auto; try discriminate.
        -- rewrite A2; auto. split; [lia|discriminate].
        -- split; [auto|discriminate].
        -- intros t H. apply in_app_iff in H. destruct H as [H|[H|[]]]; [auto|]. injection H as <-. lia.
    + constructor; cbn [rout_ rinvalid rsimulating rlisted job1 job2 rnow]; auto. discriminate.
Qed.
Lemma rinv_run dl t thz es : rinv dl (rrun dl (rstart dl t thz) es).
Proof. unfold rrun. rewrite <- fold_left_rev_right. induction (rev es) as [|x r IH]; cbn; [apply rinv_start|apply rinv_step; exact IH]. Qed.
Lemma r_once dl t thz es : let os := rout_ (rrun dl (rstart dl t thz) es) in
  (fails os <= 1)%nat /\ (commits os <= 1)%nat /\ (chained os <= 1)%nat /\ forall u, In (RFail u) os -> dl <= u.
Proof. destruct (rinv_run dl t thz es) as [[A _] [B _] [C _] D _ _]. auto. Qed.
(** The requirement is met, the model fires, and the goal is reported a failure. *)
Lemma r_met_fails : exists dl t thz es, t < dl /\ rout_ (rrun dl (rstart dl t thz) es) = [RChained; RFail dl] /\ ~ In RInvalidate es.
Proof. exists 10, 0, 0, [RPass 5; RSignal false true; RPass 5; RJob1; RJob2]. split; [lia|]. split; [reflexivity|]. cbn. intuition discriminate. Qed.
(** In general: unless the goal is invalidated by something else, meeting the requirement
    changes nothing to what its jobs do. *)
Lemma r_signal_irrelevant dl s b m : ralive s = true -> let s' := rsignal s b m in
  rinvalid s' = rinvalid s /\ rsimulating s' = rsimulating s /\ job1 s' = job1 s /\ job2 s' = job2 s /\ fails (rout_ (rjob dl false s')) = fails (rout_ (rjob dl false s)) /\ fails (rout_ (rjob dl true s')) = fails (rout_ (rjob dl true s)).
Proof.
  intros A s'. unfold s', rsignal. destruct (rlisted s); cbn [negb]; [|auto 8].
  assert (X : forall lst os, fails os = 0%nat -> let s2 := mkrmon (rnow s) (ralive s) (rinvalid s) lst (rsimulating s) (job1 s) (job2 s) (rout_ s ++ os) in
    forall f, fails (rout_ (rjob dl f s2)) = fails (rout_ (rjob dl f s))).
  { intros lst os H s2 f. unfold rjob, s2. cbn [job1 job2 rnow ralive rinvalid rsimulating rlisted rout_].
    destruct (if f then job1 s else job2 s); [|cbn [rout_]; rewrite fails_app, H; lia]. destruct (rnow s <? z); [cbn [rout_]; rewrite fails_app, H; lia|].
    destruct (ralive s && negb (rinvalid s)); [|cbn [rout_]; rewrite fails_app, H; lia].
    unfold rupdate. cbn [rinvalid rsimulating rnow ralive rout_ rlisted job1 job2]. destruct (rinvalid s); [|destruct (rsimulating s)]; cbn [rout_]; rewrite !fails_app, H; lia. }
  destruct (negb (ralive s && negb (rinvalid s))); [|destruct (rsimulating s && b); [|destruct m; [|auto 8]]];
    cbn [rinvalid rsimulating job1 job2]; repeat (split; [reflexivity|]); split; apply X; reflexivity.
Qed.
