(** Proofs about invalidation. *)
From Coq Require Import Relations.
From Verif Require Import Base Inv_model Inv_spec.
Local Open Scope nat_scope.

Definition down (H : shapes) (fl : flags) (o : nat) : Prop := exists d, rests H o d /\ fl d = true.

Lemma rests_refl : forall H o, rests H o o.
Proof. intros. apply rt_refl. Qed.
Lemma rests_step : forall H o d e, rests_on H o d -> rests H d e -> rests H o e.
Proof. intros H o d e A B. eapply rt_trans; [apply rt_step; exact A|exact B]. Qed.
Lemma rests_inv : forall H o e, rests H o e -> o = e \/ exists d, rests_on H o d /\ rests H d e.
Proof.
  intros H o e R. unfold rests in R. apply clos_rt_rt1n in R. destruct R as [|d e A B]; auto. right. exists d. split; auto. now apply clos_rt1n_rt.
Qed.
Lemma down_cases : forall H fl o, down H fl o <-> fl o = true \/ exists d, rests_on H o d /\ down H fl d.
Proof.
  intros H fl o. split.
  - intros [e [R F]]. apply rests_inv in R as [->|[d [A B]]]; auto. right. exists d. split; auto. exists e. auto.
  - intros [F|[d [A [e [R F]]]]].
    + exists o. split; auto. apply rests_refl.
    + exists e. split; auto. eapply rests_step; eauto.
Qed.
Lemma raise_is : forall fl o x, raise fl o x = true <-> x = o \/ fl x = true.
Proof. intros fl o x. unfold raise. destruct (Nat.eqb_spec x o); intuition. Qed.
Lemma down_raise : forall H fl o x, down H (raise fl o) x <-> down H fl x \/ rests H x o.
Proof.
  intros H fl o x. split.
  - intros [d [R F]]. apply raise_is in F as [->|F]; auto. left. exists d. auto.
  - intros [[d [R F]]|R].
    + exists d. rewrite raise_is. auto.
    + exists o. rewrite raise_is. auto.
Qed.
Lemma rests_down : forall H fl x o, rests H x o -> down H fl o -> down H fl x.
Proof. intros H fl x o R [d [R' F]]. exists d. split; auto. eapply rt_trans; eauto. Qed.
Lemma down_raise_same : forall H fl o, down H fl o -> forall x, down H (raise fl o) x <-> down H fl x.
Proof. intros H fl o D x. rewrite down_raise. split; auto. intros [?|R]; auto. eapply rests_down; eauto. Qed.

Section Query.
Context (H : shapes) (rank : nat -> nat) (Rk : ranked rank H).

Definition good_query (q : flags -> nat -> option (flags * bool)) (o : nat) : Prop :=
  forall fl, exists fl' b, q fl o = Some (fl', b) /\ (b = true <-> down H fl o) /\ (forall x, down H fl' x <-> down H fl x) /\
    (forall x, fl x = true -> fl' x = true).

Lemma any_good : forall q l fl, (forall d, In d l -> good_query q d) ->
  exists fl' b, any q fl l = Some (fl', b) /\ (b = true <-> exists d, In d l /\ down H fl d) /\ (forall x, down H fl' x <-> down H fl x) /\
    (forall x, fl x = true -> fl' x = true).
Proof.
  intros q. induction l as [|x l IH]; intros fl G; cbn [any].
  - exists fl, false. repeat split; auto; try discriminate. intros [d [[] _]].
  - destruct (G x (or_introl eq_refl) fl) as (fl1 & b & E & B & D & K). rewrite E. destruct b.
    + exists fl1, true. split; auto. split; auto. split; auto. intros _. exists x. split; [now left|now apply B].
    + destruct (IH fl1) as (fl2 & b2 & E2 & B2 & D2 & K2); [intros d Hd; apply G; now right|]. exists fl2, b2. split; auto. split; [|split].
      * rewrite B2. split.
        -- intros [d [Hd Dd]]. exists d. split; [now right|now apply D].
        -- intros [d [[->|Hd] Dd]]; [apply B in Dd; discriminate|]. exists d. split; auto. now apply D.
      * intros y. rewrite D2. apply D.
      * auto.
Qed.

Lemma sim_invalidate_good : forall q s f fl, H s = SimOf f -> good_query q f ->
  exists fl', sim_invalidate H q fl s = Some fl' /\ (forall x, down H fl' x <-> down H fl x \/ rests H x s) /\
    (forall x, fl x = true -> fl' x = true).
Proof.
  intros q s f fl E G. unfold sim_invalidate. destruct (fl s) eqn:F.
  - exists fl. split; auto. split; auto. intros x. split; auto. intros [?|R]; auto. exists s. auto.
  - rewrite E. destruct (G fl) as (fl1 & b & -> & B & D & K). destruct b.
    + exists fl1. split; auto. split; auto. intros x. rewrite D. split; auto. intros [?|R]; auto.
      eapply rests_down; [eapply rt_trans; [exact R|apply rt_step; apply on_super; exact E]|]. now apply B.
    + exists (raise fl1 s). split; auto. split; [intros x; rewrite down_raise, D; tauto|]. intros x Fx. apply raise_is. auto.
Qed.

Lemma query_good : forall k o, rank o < k -> good_query (is_invalidated H k) o.
Proof.
  induction k as [|k IH]; intros o L; [lia|]. intros fl. cbn [is_invalidated].
  destruct (fl o) eqn:F.
  { exists fl, true. split; auto. split; [|split; [tauto|auto]]. split; auto. intros _. exists o. split; auto. apply rests_refl. }
  assert (forall d, rests_on H o d -> good_query (is_invalidated H k) d) as Q.
  { intros d A. apply IH. pose proof (proj1 Rk o d A). lia. }
  assert (forall l, (forall d, In d l <-> rests_on H o d) ->
    exists fl' b, match any (is_invalidated H k) fl l with
                  | Some (fl1, true) => Some (raise fl1 o, true)
                  | Some (fl1, false) => Some (fl1, false)
                  | None => None
                  end = Some (fl', b) /\ (b = true <-> down H fl o) /\ (forall x, down H fl' x <-> down H fl x) /\
                  (forall x, fl x = true -> fl' x = true)) as Held.
  { intros l Hl. destruct (any_good (is_invalidated H k) l fl) as (fl1 & b & -> & B & D & K).
    { intros d Hd. apply Q. now apply Hl. }
    assert (down H fl o <-> b = true) as Db.
    { rewrite B, down_cases. split.
      - intros [?|[d [A Dd]]]; [congruence|]. exists d. split; auto. now apply Hl.
      - intros [d [A Dd]]. right. exists d. split; auto. now apply Hl. }
    destruct b.
    - exists (raise fl1 o), true. split; auto. split; [tauto|]. split.
      + intros x. rewrite down_raise_same; auto. apply D. now apply Db.
      + intros x Fx. apply raise_is. auto.
    - exists fl1, false. split; auto. split; [|auto]. split; [discriminate|]. intros X. apply Db in X. discriminate. }
  destruct (H o) as [|t|ss gs vs t|[s|]|f|cs] eqn:E.
  - exists fl, false. split; auto. split; [|split; [tauto|auto]]. split; [discriminate|]. rewrite down_cases.
    intros [?|[d [A _]]]; [congruence|]. inversion A; congruence.
  - apply Held. intros d. cbn. split.
    + intros [<-|[]]. now apply on_object.
    + intros A. inversion A; subst; try congruence. left. congruence.
  - apply Held. intros d. rewrite !in_app_iff. cbn. split.
    + intros [A|[A|[A|[<-|[]]]]]; [eapply on_sim|eapply on_ground|eapply on_validity|eapply on_target]; eauto.
    + intros A. inversion A as [? ? E1|? ? ? ? ? ? E1 I|? ? ? ? ? ? E1 I|? ? ? ? ? ? E1 I|? ? ? ? ? E1|? ? E1|? ? ? E1 E2|? ? ? E1 I]; subst;
        rewrite E in E1; inversion E1; subst; auto.
  - destruct (proj2 Rk o s E) as [f Ef]. rewrite Ef.
    assert (rests_on H o f) as A by (eapply on_super_of_goal; eauto).
    destruct (Q f A fl) as (fl1 & b & -> & B & D & K).
    assert (down H fl o <-> b = true) as Db.
    { rewrite B, down_cases. split.
      - intros [?|[d [A' Dd]]]; [congruence|]. inversion A' as [? ? E1|? ? ? ? ? ? E1 I|? ? ? ? ? ? E1 I|? ? ? ? ? ? E1 I|? ? ? ? ? E1|? ? E1|? ? ? E1 E2|? ? ? E1 I]; subst;
        rewrite E in E1; inversion E1; subst. rewrite Ef in E2. inversion E2; subst. auto.
      - intros Df. right. eauto. }
    destruct b.
    + destruct (sim_invalidate_good (is_invalidated H k) s f fl1 Ef) as (fl2 & -> & D2 & K2); [now apply Q|].
      assert (forall x, down H fl2 x <-> down H fl x) as D3.
      { intros x. rewrite D2, D. split; auto. intros [?|R]; auto.
        eapply rests_down; [eapply rt_trans; [exact R|apply rt_step; apply on_super; exact Ef]|]. now apply B. }
      exists (raise fl2 o), true. split; auto. split; [tauto|]. split.
      * intros x. rewrite down_raise_same; auto. apply D3. now apply Db.
      * intros x Fx. apply raise_is. auto.
    + exists fl1, false. split; auto. split; [|auto]. split; [discriminate|]. intros X. apply Db in X. discriminate.
  - exists fl, false. split; auto. split; [|split; [tauto|auto]]. split; [discriminate|]. rewrite down_cases.
    intros [?|[d [A _]]]; [congruence|]. inversion A; congruence.
  - assert (rests_on H o f) as A by (now apply on_super).
    destruct (Q f A fl) as (fl1 & b & -> & B & D & K).
    assert (down H fl o <-> b = true) as Db.
    { rewrite B, down_cases. split.
      - intros [?|[d [A' Dd]]]; [congruence|]. inversion A' as [? ? E1|? ? ? ? ? ? E1 I|? ? ? ? ? ? E1 I|? ? ? ? ? ? E1 I|? ? ? ? ? E1|? ? E1|? ? ? E1 E2|? ? ? E1 I]; subst;
        rewrite E in E1; inversion E1; subst. auto.
      - intros Df. right. eauto. }
    destruct b.
    + destruct (sim_invalidate_good (is_invalidated H k) o f fl1 E) as (fl2 & -> & D2 & K2); [now apply Q|].
      exists fl2, true. split; auto. split; [tauto|]. split; [|auto].
      intros x. rewrite D2, D. split; auto. intros [?|R]; auto. eapply rests_down; [exact R|]. now apply Db.
    + exists fl1, false. split; auto. split; [|auto]. split; [discriminate|]. intros X. apply Db in X. discriminate.
  - apply Held. intros d. split.
    + intros A. eapply on_component; eauto.
    + intros A. inversion A as [? ? E1|? ? ? ? ? ? E1 I|? ? ? ? ? ? E1 I|? ? ? ? ? ? E1 I|? ? ? ? ? E1|? ? E1|? ? ? E1 E2|? ? ? E1 I]; subst;
        rewrite E in E1; inversion E1; subst; auto.
Qed.

Definition struck (o x : nat) : Prop := x = o \/ H o = GoalOf (Some x).
Lemma invalidate_good : forall k fl o, (forall x, rank x < k) ->
  exists fl', invalidate H k fl o = Some fl' /\ (forall x, down H fl' x <-> down H fl x \/ exists d, struck o d /\ rests H x d).
Proof.
  intros k fl o L. unfold invalidate.
  assert (forall x, (exists d, d = o /\ rests H x d) <-> rests H x o) as One.
  { intros x. split; [intros [d [-> ?]]; auto|]. intros R. exists o. auto. }
  destruct (H o) as [|t|ss gs vs t|[s|]|f|cs] eqn:E;
    try (exists (raise fl o); split; auto; intros x; rewrite down_raise; unfold struck; rewrite E;
         split; [intros [?|?]; auto; right; exists o; auto|intros [?|[d [[->|?] ?]]]; auto; discriminate]).
  - destruct (proj2 Rk o s E) as [f Ef]. destruct (sim_invalidate_good (is_invalidated H k) s f fl Ef) as (fl1 & -> & D & _).
    { now apply query_good. }
    exists (raise fl1 o). split; auto. intros x. rewrite down_raise, D. unfold struck. rewrite E. split.
    + intros [[?|?]|?]; auto; right; [exists s|exists o]; auto.
    + intros [?|[d [[->|X] ?]]]; auto. inversion X; subst. auto.
  - destruct (sim_invalidate_good (is_invalidated H k) o f fl E) as (fl1 & -> & D & _); [now apply query_good|].
    exists fl1. split; auto. intros x. rewrite D. unfold struck. rewrite E. split.
    + intros [?|?]; auto. right. exists o. auto.
    + intros [?|[d [[->|X] ?]]]; auto. discriminate.
Qed.
End Query.

Lemma rests_on_grows : forall H o x, grows (H o) x -> forall a d, rests_on H a d -> rests_on (hold H o x) a d.
Proof.
  intros H o x G a d A.
  assert (forall y, y <> o -> hold H o x y = H y) as Other. { intros y N. unfold hold. destruct (Nat.eqb_spec y o); congruence. }
  assert (hold H o x o = x) as Same. { unfold hold. now rewrite Nat.eqb_refl. }
  inversion A as [? ? E1|? ? ? ? ? ? E1 I|? ? ? ? ? ? E1 I|? ? ? ? ? ? E1 I|? ? ? ? ? E1|? ? E1|? s f E1 E2|? ? ? E1 I]; subst.
  - destruct (Nat.eq_dec a o) as [->|N]; [|apply on_object; now rewrite Other].
    rewrite E1 in G. inversion G; subst. apply on_object. auto.
  - destruct (Nat.eq_dec a o) as [->|N]; [|eapply on_sim; eauto; rewrite Other; eauto].
    rewrite E1 in G. inversion G; subst; eapply on_sim; eauto.
  - destruct (Nat.eq_dec a o) as [->|N]; [|eapply on_ground; eauto; rewrite Other; eauto].
    rewrite E1 in G. inversion G; subst; eapply on_ground; eauto.
  - destruct (Nat.eq_dec a o) as [->|N]; [|eapply on_validity; eauto; rewrite Other; eauto].
    rewrite E1 in G. inversion G; subst; eapply on_validity; eauto.
  - destruct (Nat.eq_dec a o) as [->|N]; [|eapply on_target; eauto; rewrite Other; eauto].
    rewrite E1 in G. inversion G; subst; eapply on_target; eauto.
  - destruct (Nat.eq_dec a o) as [->|N]; [|apply on_super; now rewrite Other].
    rewrite E1 in G. inversion G; subst. apply on_super. auto.
  - assert (hold H o x s = SimOf d) as Es.
    { destruct (Nat.eq_dec s o) as [->|N]; [|now rewrite Other]. rewrite E2 in G. inversion G; subst. auto. }
    destruct (Nat.eq_dec a o) as [->|N]; [|eapply on_super_of_goal; eauto; now rewrite Other].
    rewrite E1 in G. inversion G; subst. eapply on_super_of_goal; eauto.
  - destruct (Nat.eq_dec a o) as [->|N]; [|eapply on_component; eauto; rewrite Other; eauto].
    rewrite E1 in G. inversion G; subst; eapply on_component; eauto.
Qed.
Lemma rests_grows : forall H o x, grows (H o) x -> forall a d, rests H a d -> rests (hold H o x) a d.
Proof.
  intros H o x G a d R. induction R as [a d A|a|a b d R1 IH1 R2 IH2].
  - apply rt_step. now apply rests_on_grows.
  - apply rt_refl.
  - eapply rt_trans; eauto.
Qed.

(** What the flags say agrees with what was struck. *)
Definition agrees (H : shapes) (fl : flags) (m : nat -> Prop) : Prop :=
  (forall o, fl o = true -> exists d, rests H o d /\ m d) /\ (forall o, m o -> down H fl o).
Lemma agrees_down : forall H fl m, agrees H fl m -> forall o, down H fl o <-> exists d, rests H o d /\ m d.
Proof.
  intros H fl m [A1 A2] o. split.
  - intros [d [R F]]. destruct (A1 d F) as [e [R' M]]. exists e. split; auto. eapply rt_trans; eauto.
  - intros [d [R M]]. eapply rests_down; eauto.
Qed.
Lemma agrees_ext : forall H fl m m', (forall o, m o <-> m' o) -> agrees H fl m -> agrees H fl m'.
Proof.
  intros H fl m m' E [A1 A2]. split.
  - intros o F. destruct (A1 o F) as [d [R M]]. exists d. split; auto. now apply E.
  - intros o M. apply A2. now apply E.
Qed.

(** [hit], from any shapes. *)
Definition hit_from (H : shapes) (l : list op) (o : nat) : Prop :=
  exists l1 x l2, l = l1 ++ Invalidate x :: l2 /\ (o = x \/ shapes_after H l1 x = GoalOf (Some o)).
Lemma hit_hold : forall H a x r o, hit_from H (Hold a x :: r) o <-> hit_from (hold H a x) r o.
Proof.
  intros H a x r o. split.
  - intros ([|p l1] & y & l2 & E & C); [discriminate|]. inversion E; subst. exists l1, y, l2. auto.
  - intros (l1 & y & l2 & E & C). exists (Hold a x :: l1), y, l2. subst. auto.
Qed.
Lemma hit_check : forall H a r o, hit_from H (Check a :: r) o <-> hit_from H r o.
Proof.
  intros H a r o. split.
  - intros ([|p l1] & y & l2 & E & C); [discriminate|]. inversion E; subst. exists l1, y, l2. auto.
  - intros (l1 & y & l2 & E & C). exists (Check a :: l1), y, l2. subst. auto.
Qed.
Lemma hit_invalidate : forall H a r o, hit_from H (Invalidate a :: r) o <-> struck H a o \/ hit_from H r o.
Proof.
  intros H a r o. split.
  - intros ([|p l1] & y & l2 & E & C); inversion E; subst; [left; exact C|]. right. exists l1, y, l2. auto.
  - intros [C|(l1 & y & l2 & E & C)]; [exists [], a, r; auto|]. exists (Invalidate a :: l1), y, l2. subst. auto.
Qed.

Lemma run_agrees : forall rank fuel, (forall x, rank x < fuel) -> forall l H fl m, fine rank H l -> agrees H fl m ->
  exists fl', run fuel H fl l = Some (shapes_after H l, fl') /\ agrees (shapes_after H l) fl' (fun o => m o \/ hit_from H l o) /\
    ranked rank (shapes_after H l).
Proof.
  intros rank fuel L. induction l as [|[a x|a|a] l IH]; intros H fl m [Rk Fi] Ag; cbn [run shapes_after].
  - exists fl. split; auto. split; auto. eapply agrees_ext; [|exact Ag]. intros o. split; auto. intros [?|(l1 & y & l2 & E & _)]; auto.
    destruct l1; discriminate.
  - destruct Fi as [G Fi]. destruct (IH (hold H a x) fl m Fi) as (fl' & E & Ag' & Rk').
    { destruct Ag as [A1 A2]. split.
      - intros o F. destruct (A1 o F) as [d [R M]]. exists d. split; auto. now apply rests_grows.
      - intros o M. destruct (A2 o M) as [d [R F]]. exists d. split; auto. now apply rests_grows. }
    exists fl'. split; auto. split; auto. eapply agrees_ext; [|exact Ag']. intros o. cbn. rewrite hit_hold. tauto.
  - destruct (invalidate_good H rank Rk fuel fl a L) as (fl1 & -> & D).
    destruct (IH H fl1 (fun o => m o \/ struck H a o) Fi) as (fl' & E & Ag' & Rk').
    { split.
      - intros o F. assert (down H fl1 o) as X by (exists o; split; auto; apply rests_refl). apply D in X as [X|[d [S0 R]]].
        + apply (agrees_down _ _ _ Ag) in X as [d [R M]]. exists d. auto.
        + exists d. auto.
      - intros o [M|S0]; apply D; [left; now apply Ag|right; exists o; split; auto; apply rests_refl]. }
    exists fl'. split; auto. split; auto. eapply agrees_ext; [|exact Ag']. intros o. cbn. rewrite hit_invalidate. tauto.
  - destruct (query_good H rank Rk fuel a (L a) fl) as (fl1 & b & -> & _ & D & K).
    destruct (IH H fl1 m Fi) as (fl' & E & Ag' & Rk').
    { split.
      - intros o F. assert (down H fl1 o) as X by (exists o; split; auto; apply rests_refl). apply D in X.
        now apply (agrees_down _ _ _ Ag).
      - intros o M. apply D. now apply Ag. }
    exists fl'. split; auto. split; auto. eapply agrees_ext; [|exact Ag']. intros o. cbn. rewrite hit_check. tauto.
Qed.

Lemma answer_exact : forall rank fuel l, (forall x, rank x < fuel) -> fine rank start l ->
  exists H fl, run fuel start none l = Some (H, fl) /\
    forall o, exists fl' b, is_invalidated H fuel fl o = Some (fl', b) /\
      (b = true <-> exists d, rests (shapes_after start l) o d /\ hit l d).
Proof.
  intros rank fuel l L Fi. destruct (run_agrees rank fuel L l start none (fun _ => False) Fi) as (fl & E & Ag & Rk).
  { split; [discriminate|intros o []]. }
  exists (shapes_after start l), fl. split; auto. intros o.
  destruct (query_good _ rank Rk fuel o (L o) fl) as (fl' & b & Eq & B & _). exists fl', b. split; auto.
  rewrite B, (agrees_down _ _ _ Ag). split; intros [d [R M]]; exists d; split; auto. destruct M as [[]|M]; auto.
Qed.

Lemma shapes_app : forall l1 l2 H, shapes_after H (l1 ++ l2) = shapes_after (shapes_after H l1) l2.
Proof. induction l1 as [|[a x|a|a] l1 IH]; intros; cbn; auto. Qed.
Lemma rests_later : forall rank l H, fine rank H l -> forall a d, rests H a d -> rests (shapes_after H l) a d.
Proof.
  intros rank. induction l as [|[a x|a|a] l IH]; intros H [_ Fi] b d R; cbn; auto.
  destruct Fi as [G Fi]. apply IH; auto. now apply rests_grows.
Qed.
Lemma fine_app : forall rank l1 l2 H, fine rank H (l1 ++ l2) -> fine rank (shapes_after H l1) l2.
Proof.
  intros rank. induction l1 as [|[a x|a|a] l1 IH]; intros l2 H F; cbn [app] in *; cbn [shapes_after]; auto; destruct F as [_ F]; auto.
  destruct F as [_ F]. auto.
Qed.
(** Once invalidated, always invalidated. *)
Lemma stays : forall rank l1 l2 o, fine rank start (l1 ++ l2) ->
  (exists d, rests (shapes_after start l1) o d /\ hit l1 d) -> exists d, rests (shapes_after start (l1 ++ l2)) o d /\ hit (l1 ++ l2) d.
Proof.
  intros rank l1 l2 o F [d [R (a & x & b & -> & C)]]. exists d. split.
  - rewrite shapes_app. eapply rests_later; [eapply fine_app; eauto|exact R].
  - exists a, x, (b ++ l2). split; [now rewrite <- app_assoc|auto].
Qed.

(** A super-goal (1, 2), a simulation (3) for a sub-goal (4, 5), a simulated
    prediction (6, 8) of 0. *)
Definition w_history : list op :=
  [Hold 1 (GoalOf None); Hold 2 (FactOf 1); Hold 3 (SimOf 2); Hold 4 (GoalOf (Some 3)); Hold 5 (FactOf 4);
   Hold 6 (PredOf [3] [] [] 0); Hold 8 (FactOf 6); Check 8; Check 5; Invalidate 1].
Definition w_rank (x : nat) : nat := if x <? 10 then x else 0.
Lemma ranked_start : ranked w_rank start.
Proof. split; [intros o d A; inversion A; discriminate|intros o s E; discriminate]. Qed.
Lemma ranked_hold : forall H o x, ranked w_rank H -> H o = Plain -> (forall s, x = GoalOf (Some s) -> s <> o /\ exists f, H s = SimOf f /\ w_rank f < w_rank o) ->
  (forall a, H a <> GoalOf (Some o)) ->
  match x with
  | Plain => True | GoalOf _ => True
  | FactOf t => w_rank t < w_rank o
  | SimOf f => w_rank f < w_rank o
  | PredOf ss gs vs t => Forall (fun d => w_rank d < w_rank o) (ss ++ gs ++ vs ++ [t])
  | InstanceOf cs => Forall (fun d => w_rank d < w_rank o) cs
  end -> ranked w_rank (hold H o x).
Proof.
  intros H o x [R1 R2] E G N Hx.
  assert (forall y, y <> o -> hold H o x y = H y) as Other. { intros y D. unfold hold. destruct (Nat.eqb_spec y o); congruence. }
  assert (hold H o x o = x) as Same. { unfold hold. now rewrite Nat.eqb_refl. }
  split.
  - intros a d A. destruct (Nat.eq_dec a o) as [->|D].
    + inversion A as [? ? E1|? ? ? ? ? ? E1 I|? ? ? ? ? ? E1 I|? ? ? ? ? ? E1 I|? ? ? ? ? E1|? ? E1|? s f E1 E2|? ? ? E1 I]; subst;
        rewrite Same in E1; subst; try rewrite Forall_forall in Hx; auto;
        try (apply Hx; rewrite !in_app_iff; cbn; now auto).
      destruct (G s eq_refl) as [D [f [Ef L]]]. rewrite Other in E2 by auto. congruence.
    + apply R1. inversion A as [? ? E1|? ? ? ? ? ? E1 I|? ? ? ? ? ? E1 I|? ? ? ? ? ? E1 I|? ? ? ? ? E1|? ? E1|? s f E1 E2|? ? ? E1 I]; subst;
        rewrite Other in E1 by auto; [apply on_object|eapply on_sim|eapply on_ground|eapply on_validity|eapply on_target|apply on_super|eapply on_super_of_goal|eapply on_component]; eauto.
      destruct (Nat.eq_dec s o) as [->|D']; [exfalso; eapply N; eauto|]. rewrite Other in E2 by auto. auto.
  - intros a s Ea. destruct (Nat.eq_dec a o) as [->|D].
    + rewrite Same in Ea. destruct (G s Ea) as [D [f [Ef _]]]. exists f. rewrite Other by auto. auto.
    + rewrite Other in Ea by auto. destruct (R2 a s Ea) as [f Ef]. exists f. destruct (Nat.eq_dec s o) as [->|D']; [congruence|].
      rewrite Other by auto. auto.
Qed.
Ltac no_goal := let a := fresh in let X := fresh in intros a X; unfold hold, start in X;
  repeat (let b := fresh in destruct (Nat.eqb a _) eqn:b in X; [discriminate X|]); discriminate X.
Lemma w_fine : fine w_rank start w_history.
Proof.
  set (h1 := hold start 1 (GoalOf None)). set (h2 := hold h1 2 (FactOf 1)). set (h3 := hold h2 3 (SimOf 2)).
  set (h4 := hold h3 4 (GoalOf (Some 3))). set (h5 := hold h4 5 (FactOf 4)). set (h6 := hold h5 6 (PredOf [3] [] [] 0)).
  set (h8 := hold h6 8 (FactOf 6)).
  assert (ranked w_rank h1) as R1 by (apply ranked_hold; [exact ranked_start|reflexivity|discriminate|no_goal|exact Logic.I]).
  assert (ranked w_rank h2) as R2 by (apply ranked_hold; [exact R1|reflexivity|discriminate|unfold h1; no_goal|unfold w_rank; cbn; lia]).
  assert (ranked w_rank h3) as R3 by (apply ranked_hold; [exact R2|reflexivity|discriminate|unfold h2, h1; no_goal|unfold w_rank; cbn; lia]).
  assert (ranked w_rank h4) as R4.
  { apply ranked_hold; [exact R3|reflexivity| |unfold h3, h2, h1; no_goal|exact Logic.I].
    intros s E. inversion E; subst. split; [lia|]. exists 2. split; [reflexivity|unfold w_rank; cbn; lia]. }
  assert (forall a, a <> 4 -> h4 a = h3 a) as O4. { intros a D. unfold h4, hold. destruct (Nat.eqb_spec a 4); congruence. }
  assert (forall a o, o <> 3 -> h4 a <> GoalOf (Some o)) as N4.
  { intros a o D X. destruct (Nat.eq_dec a 4) as [->|Da]; [cbn in X; congruence|]. rewrite (O4 a Da) in X. revert X. unfold h3, h2, h1, hold, start.
    repeat (destruct (Nat.eqb a _); [discriminate|]). discriminate. }
  assert (forall a o, o <> 3 -> h5 a <> GoalOf (Some o)) as N5.
  { intros a o D X. unfold h5, hold in X. destruct (Nat.eqb a 5); [discriminate|]. eapply N4; eauto. }
  assert (forall a o, o <> 3 -> h6 a <> GoalOf (Some o)) as N6.
  { intros a o D X. unfold h6, hold in X. destruct (Nat.eqb a 6); [discriminate|]. eapply N5; eauto. }
  assert (ranked w_rank h5) as R5 by (apply ranked_hold; [exact R4|reflexivity|discriminate|intros a; apply N4; lia|unfold w_rank; cbn; lia]).
  assert (ranked w_rank h6) as R6.
  { apply ranked_hold; [exact R5|reflexivity|discriminate|intros a; apply N5; lia|]. cbn. repeat constructor; unfold w_rank; cbn; lia. }
  assert (ranked w_rank h8) as R8 by (apply ranked_hold; [exact R6|reflexivity|discriminate|intros a; apply N6; lia|unfold w_rank; cbn; lia]).
  cbn [fine w_history]. fold h1 h2 h3 h4 h5 h6 h8.
  split; [exact ranked_start|]. split; [apply grow_plain|]. fold h1. split; [exact R1|]. split; [apply grow_plain|]. fold h2. split; [exact R2|].
  split; [apply grow_plain|]. fold h3. split; [exact R3|]. split; [apply grow_plain|]. fold h4. split; [exact R4|].
  split; [apply grow_plain|]. fold h5. split; [exact R5|]. split; [apply grow_plain|]. fold h6. split; [exact R6|].
  split; [apply grow_plain|]. fold h8. repeat (split; [exact R8|]). exact Logic.I.
Qed.
Lemma w_ranked : forall x, w_rank x < 10.
Proof. intros x. unfold w_rank. destruct (Nat.ltb_spec x 10); lia. Qed.
Lemma w_answer : match run 10 start none w_history with
  | Some (H, fl) => option_map snd (is_invalidated H 10 fl 8) = Some true /\ option_map snd (is_invalidated H 10 fl 0) = Some false
  | None => False
  end.
Proof. vm_compute. auto. Qed.
Lemma stays_observed : forall rank fuel l1 l2, (forall x, rank x < fuel) -> fine rank start l1 -> fine rank start (l1 ++ l2) ->
  forall o H fl fl', run fuel start none l1 = Some (H, fl) -> is_invalidated H fuel fl o = Some (fl', true) ->
  exists H2 fl2 fl3, run fuel start none (l1 ++ l2) = Some (H2, fl2) /\ is_invalidated H2 fuel fl2 o = Some (fl3, true).
Proof.
  intros rank fuel l1 l2 L F1 F o H fl fl' E Q.
  destruct (answer_exact rank fuel l1 L F1) as (H' & f' & E' & A). rewrite E in E'. inversion E'; subst H' f'.
  destruct (A o) as (g & b & Q' & B). rewrite Q in Q'. inversion Q'; subst.
  destruct (answer_exact rank fuel (l1 ++ l2) L F) as (H2 & fl2 & E2 & A2). destruct (A2 o) as (fl3 & b & Q2 & B2).
  exists H2, fl2, fl3. split; auto. rewrite Q2. do 2 f_equal. apply B2. eapply stays; eauto. now apply B.
Qed.
