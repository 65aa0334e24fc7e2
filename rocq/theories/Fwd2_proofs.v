(* Further lemmas on forward chaining, and witnesses. *)
From Coq Require Import ZArith QArith List Bool Lia Lqa.
From Verif Require Import Req_model Fwd_model Fwd_spec Fwd_proofs.
Import ListNotations.

Lemma made_only mo now m i st rs sims req b guards r c sim gs d :
  In (Predict r c sim gs d) (snd (reduce mo now m i st rs sims req b guards)) ->
  is_req m = false /\ (exists x, offered st (src i) rs sims b x /\ guards (bm x) = Some r) /\
  sln_thr m < c /\ (sim = true <-> src i = Simulated) /\ (src i <> Simulated -> (now < until r)%Z).
Proof.
  intros I. destruct (reduce_sound _ _ _ _ _ _ _ _ _ _ _ I) as [x [r0 [al [G [H K]]]]].
  destruct H as [-> [-> [R [C [T [S D]]]]]]. split; [exact R|]. split; [|auto].
  exists x. split; [|exact G]. destruct K as [[_ K]|[K _]]; [exact K|discriminate].
Qed.

(* Confidence. *)
Lemma made_confidence mo now m i st rs sims req b guards r c sim gs d :
  In (Predict r c sim gs d) (snd (reduce mo now m i st rs sims req b guards)) ->
  c == icfd i * rate m /\ sln_thr m < c.
Proof.
  intros I. destruct (reduce_sound _ _ _ _ _ _ _ _ _ _ _ I) as [x [r0 [al [G [H K]]]]].
  destruct H as [_ [_ [_ [C [T _]]]]]. subst c. split; [reflexivity|exact T].
Qed.

Lemma product_snoc ms m : product (ms ++ [m]) == product ms * rate m.
Proof.
  unfold product. induction ms as [|a ms IH]; cbn [app fold_right]; [ring|]. rewrite IH. ring.
Qed.

Lemma chain_product c0 ms c : Chain c0 ms c -> c == c0 * product ms.
Proof.
  induction 1 as [|mo now m s st rs sims req b guards r c d sim gs ms c1 C IH I].
  - unfold product. cbn. ring.
  - apply made_confidence in I. destruct I as [I _]. cbn [icfd] in I. rewrite I, IH, product_snoc. ring.
Qed.

Lemma product_bound q ms : (forall m, In m ms -> 0 <= rate m /\ rate m <= q) -> 0 <= q ->
  0 <= product ms /\ product ms <= power q (length ms).
Proof.
  intros H Q0. induction ms as [|m ms IH]; unfold product in *; cbn [fold_right length power].
  - split; [discriminate|apply Qle_refl].
  - destruct IH as [A B]; [intros x X; apply H; right; exact X|]. destruct (H m (or_introl eq_refl)) as [M1 M2]. split.
    + apply Qmult_le_0_compat; assumption.
    + eapply Qle_trans; [apply Qmult_le_compat_r; [exact B|exact M1]|].
      rewrite (Qmult_comm _ (rate m)), (Qmult_comm _ q). apply Qmult_le_compat_r; [exact M2|]. exact (Qle_trans _ _ _ A B).
Qed.

Lemma chain_bound c0 ms c q : Chain c0 ms c -> 0 <= c0 -> 0 <= q ->
  (forall m, In m ms -> 0 <= rate m /\ rate m <= q) -> c <= c0 * power q (length ms).
Proof.
  intros C C0 Q0 H. rewrite (chain_product _ _ _ C). destruct (product_bound q ms H Q0) as [_ B].
  rewrite (Qmult_comm c0 (product ms)), (Qmult_comm c0). apply Qmult_le_compat_r; assumption.
Qed.

Lemma chain_threshold c0 ms m c : Chain c0 (ms ++ [m]) c -> sln_thr m < c.
Proof.
  intros C. inversion C as [E|mo now m' s st rs sims req b guards r c' d sim gs ms' c1 C1 I E]; subst.
  - destruct ms; discriminate.
  - apply app_inj_tail in E. destruct E as [_ ->]. apply made_confidence in I. apply I.
Qed.

Lemma chain_end c0 ms m c q t : Chain c0 (ms ++ [m]) c -> 0 <= c0 -> 0 <= q ->
  (forall x, In x (ms ++ [m]) -> 0 <= rate x /\ rate x <= q) -> t <= sln_thr m ->
  t < c0 * power q (length (ms ++ [m])).
Proof.
  intros C C0 Q0 H T. eapply Qle_lt_trans; [exact T|]. eapply Qlt_le_trans; [eapply chain_threshold; exact C|].
  apply chain_bound; assumption.
Qed.

Lemma power_nonneg : forall q n, 0 <= q -> 0 <= power q n.
Proof. intros q n H. induction n as [|n IH]; cbn; [discriminate|]. apply Qmult_le_0_compat; assumption. Qed.
(* Powers decrease at least like 1 / (1 + n h), h = 1 - q. *)
Lemma power_small : forall q n, 0 <= q -> q <= 1 -> power q n * (1 + inject_Z (Z.of_nat n) * (1 - q)) <= 1.
Proof.
  intros q n A B. induction n as [|n IH]; [cbn [power]; change (inject_Z (Z.of_nat 0)) with 0; lra|]. cbn [power].
  rewrite Nat2Z.inj_succ, <- Z.add_1_r, inject_Z_plus. pose proof (power_nonneg q n A) as P.
  assert (N : 0 <= inject_Z (Z.of_nat n)) by (change 0 with (inject_Z 0); rewrite <- Zle_Qle; lia).
  set (k := inject_Z (Z.of_nat n)) in *. change (inject_Z 1) with 1.
  assert (H : q * (1 + (k + 1) * (1 - q)) <= 1 + k * (1 - q)).
  { assert (Z : 0 <= (1 + k) * ((1 - q) * (1 - q))) by (repeat apply Qmult_le_0_compat; lra).
    assert (E : q * (1 + (k + 1) * (1 - q)) == 1 + k * (1 - q) - (1 + k) * ((1 - q) * (1 - q))) by ring. rewrite E. lra. }
  apply Qle_trans with (power q n * (1 + k * (1 - q))); [|exact IH].
  rewrite <- Qmult_assoc, (Qmult_comm (power q n)), (Qmult_comm (power q n)). apply Qmult_le_compat_r; assumption.
Qed.
Lemma power_length : forall q n t c, 0 <= q -> q <= 1 -> 0 <= c -> t < c * power q n -> 0 <= t -> t * (inject_Z (Z.of_nat n) * (1 - q)) < c.
Proof.
  intros q n t c A B C H T. pose proof (power_small q n A B) as S.
  assert (N : 0 <= inject_Z (Z.of_nat n)) by (change 0 with (inject_Z 0); rewrite <- Zle_Qle; lia).
  set (k := inject_Z (Z.of_nat n)) in *. set (p := power q n) in *. set (m := k * (1 - q)) in *.
  assert (M : 0 <= m) by (unfold m; apply Qmult_le_0_compat; lra).
  assert (X : t * (1 + m) < c * p * (1 + m)) by (apply Qmult_lt_compat_r; [lra|exact H]).
  assert (Y : c * p * (1 + m) <= c) by (rewrite <- Qmult_assoc; setoid_replace c with (c * 1) at 2 by ring; rewrite (Qmult_comm c), (Qmult_comm c 1); apply Qmult_le_compat_r; assumption).
  lra.
Qed.
Lemma chain_length c0 ms m c q t : Chain c0 (ms ++ [m]) c -> 0 <= c0 -> 0 <= q -> q <= 1 -> 0 <= t ->
  (forall x, In x (ms ++ [m]) -> 0 <= rate x /\ rate x <= q) -> t <= sln_thr m ->
  t * (inject_Z (Z.of_nat (length (ms ++ [m]))) * (1 - q)) < c0.
Proof. intros C C0 Q0 Q1 T H S. apply power_length; try assumption. eapply chain_end; eassumption. Qed.

(* Monitors. *)
Lemma reduce_watch mo now m i st rs sims req b guards :
  src i = Actual -> is_req m = false ->
  (st = WeakEnabled \/ st = NoRequirement ->
     watched (snd (reduce mo now m i st rs sims req b guards)) =
     filter (fun r => (now <? until r)%Z) (passing guards (choice b rs))) /\
  (silent m st (src i) ->
     watched (snd (reduce mo now m i st rs sims req b guards)) = passing guards (choice b rs)).
Proof.
  intros S R. split.
  - intros [E|E]; subst st; unfold reduce; cbv zeta; rewrite ?S;
    apply (predict_all_watch mo now m i true req guards S R (choice b rs)).
  - intros [_ [E|[T [E|E]]]]; subst st; unfold reduce; cbv zeta; rewrite S, ?T;
    apply (predict_all_watch mo now m i false req guards S R (choice b rs)).
Qed.

Lemma watched_in r es : In r (watched es) <-> exists f, In (Watch r f) es.
Proof.
  unfold watched. rewrite in_flat_map. split.
  - intros [e [I J]]. destruct e; try destruct J. subst. exists failures. exact I. contradiction.
  - intros [f I]. exists (Watch r f). split; [exact I|left; reflexivity].
Qed.

Lemma reduce_unwatched mo now m i st rs sims req b guards :
  src i <> Actual \/ is_req m = true -> watched (snd (reduce mo now m i st rs sims req b guards)) = [].
Proof.
  intros H. destruct (watched (snd (reduce mo now m i st rs sims req b guards))) as [|r l] eqn:E; [reflexivity|].
  assert (I : In r (watched (snd (reduce mo now m i st rs sims req b guards)))) by (rewrite E; left; reflexivity).
  apply watched_in in I. destruct I as [f I]. destruct (reduce_sound _ _ _ _ _ _ _ _ _ _ _ I) as [x [r0 [al [G [K _]]]]].
  destruct K as [_ [S [R _]]]. destruct H; congruence.
Qed.

Lemma predict_all_rated mo now m i al req guards : src i = Actual ->
  forall rs r, In (Watch r true) (snd (predict_all mo now m i al req guards rs [])) ->
  exists c sim gs d, In (Predict r c sim gs d) (snd (predict_all mo now m i al req guards rs [])).
Proof.
  intros S. induction rs as [|x rs IH]; intros r; cbn [predict_all]; [intros []|].
  destruct (guards (bm x)) as [rx|] eqn:G; [|apply IH].
  destruct (predict mo now m i al req (ground x) rx []) as [es a'] eqn:P.
  assert (A : a' = []).
  { revert P. unfold predict. cbn [existsb]. rewrite S. destruct al, (is_req m); try (intros E; injection E as <- <-; reflexivity).
    destruct (until rx <=? now)%Z; [intros E; injection E as <- <-; reflexivity|].
    destruct (inject _ _ _ _ _). intros E; injection E as <- <-; reflexivity. }
  subst a'. specialize (IH r). destruct (predict_all mo now m i al req guards rs []) as [bb fs]. cbn [snd] in *.
  intros I. apply in_app_or in I. destruct I as [I|I].
  - pose proof (predict_sound mo now m i al req _ _ _ _ _ P) as F. rewrite Forall_forall in F.
    specialize (F _ I). destruct F as [-> [_ [R [F D]]]]. destruct F as [F _]. destruct (F eq_refl) as [-> C].
    destruct (predict_made mo now m i req _ _ _ _ _ R C (fun _ => D eq_refl) P) as [[y [[] _]]|[sim [gs [d H]]]].
    do 4 eexists. apply in_or_app. left. exact H.
  - destruct (IH I) as [c [sim [gs [d H]]]]. exists c, sim, gs, d. apply in_or_app. right. exact H.
Qed.

Lemma reduce_rated mo now m i st rs sims req b guards r f :
  In (Watch r f) (snd (reduce mo now m i st rs sims req b guards)) ->
  (f = true <-> exists c sim gs d, In (Predict r c sim gs d) (snd (reduce mo now m i st rs sims req b guards))).
Proof.
  intros I. destruct (reduce_sound _ _ _ _ _ _ _ _ _ _ _ I) as [x [r0 [al [G [K O]]]]].
  destruct K as [_ [S [R [F D]]]]. split.
  - intros ->. destruct (reduce_cases mo now m i st rs sims req b guards) as [E|[[l [E _]]|[E _]]]; cbv zeta in E; rewrite E in *.
    + destruct I.
    + apply predict_all_rated; assumption.
    + apply predict_all_rated; assumption.
  - intros [c [sim [gs [d P]]]]. apply F. pose proof (made_only _ _ _ _ _ _ _ _ _ _ _ _ _ _ _ P) as [_ [[y [Y _]] _]].
    apply made_confidence in P. destruct P as [C T]. rewrite C in T. split; [|exact T].
    destruct O as [[O _]|[_ [_ [_ O]]]]; [exact O|]. destruct (O y Y).
Qed.

Lemma reduce_tracked mo now m i st rs sims req b guards r :
  src i = Actual -> (forall x r, guards x = Some r -> (now < until r)%Z) ->
  In (Track r) (snd (reduce mo now m i st rs sims req b guards)) ->
  exists f, In (Watch r f) (snd (reduce mo now m i st rs sims req b guards)).
Proof.
  intros S D. destruct (reduce_cases mo now m i st rs sims req b guards) as [E|[[l [E _]]|[E _]]]; cbv zeta in E; rewrite E.
  - intros [].
  - apply all_track_watched; [exact S|]. intros x y _. apply D.
  - apply all_track_watched; [exact S|]. intros x y _. apply D.
Qed.

(* Simulations. *)
Lemma simulation_effects mo now m i st rs sims req b guards e :
  src i = Simulated -> In e (snd (reduce mo now m i st rs sims req b guards)) ->
  of_simulation e \/ (is_req m = true /\ exists g, e = Mark g).
Proof.
  intros S I. destruct (reduce_sound _ _ _ _ _ _ _ _ _ _ _ I) as [x [r0 [al [G [K O]]]]].
  destruct e; cbn in K; cbn.
  - left. apply K. exact S.
  - destruct K; congruence.
  - left. apply K. exact S.
  - right. destruct K as [K|K]; [eauto|congruence].
  - destruct K; congruence.
  - destruct K as [_ [K _]]. congruence.
  - left. apply K. exact S.
  - destruct K as [_ [K _]]. congruence.
Qed.
Lemma real_effects mo now m i st rs sims req b guards e :
  src i <> Simulated -> In e (snd (reduce mo now m i st rs sims req b guards)) -> ~ of_simulation e.
Proof.
  intros S I. destruct (reduce_sound _ _ _ _ _ _ _ _ _ _ _ I) as [x [r0 [al [G [K O]]]]].
  destruct e; cbn in K; cbn; try tauto; intros E; apply S; apply K; exact E.
Qed.

(* Requirements. *)
Lemma need_allowed mo now m i st rs sims req b guards r c s a :
  In (Need r c s a) (snd (reduce mo now m i st rs sims req b guards)) ->
  is_req m = true /\ (a = true <-> exists x, offered st (src i) rs sims b x) /\
  c == (if a then icfd i * rate m else 0) /\ (a = false -> src i = Actual).
Proof.
  intros I. destruct (reduce_sound _ _ _ _ _ _ _ _ _ _ _ I) as [x [r0 [al [G [K O]]]]].
  destruct K as [_ [R [-> [C [_ A]]]]]. split; [exact R|]. split; [|split; [subst c; reflexivity|exact A]].
  destruct O as [[-> O]|[-> [_ [_ O]]]].
  - split; [eauto|auto].
  - split; [discriminate|]. intros [y Y]. destruct (O y Y).
Qed.

Lemma second_silent m st rs req b guards e :
  In e (snd (reduce2 m st rs req b guards)) ->
  (exists r, e = Track r) \/ (exists r, e = Watch r false) \/ (exists r c a, e = Need r c false a).
Proof.
  unfold reduce2. cbv zeta.
  assert (X : forall l, In e (flat_map (predict2 m req true) l) ->
    (exists r, e = Track r) \/ (exists r, e = Watch r false) \/ (exists r c a, e = Need r c false a)).
  { intros l I. apply in_flat_map in I. destruct I as [r [_ I]]. unfold predict2 in I. apply in_app_or in I. destruct I as [I|I].
    - unfold register in I. destruct req; [|destruct I]. destruct I as [I|[]]. eauto.
    - destruct (is_req m); destruct I as [I|[]]; subst e; [right; right; eauto|right; left; eauto]. }
  destruct st; try (destruct (has_tpl m); [intros []|]); cbn [snd]; apply X.
Qed.

(* Arrivals. *)
Lemma own_in o : forall l, (forall a d, In (a, d) l -> d = false) -> In (o, false) l -> fst (own o l) = true.
Proof.
  induction l as [|[a d] l IH]; intros H I; [destruct I|]. cbn [own].
  rewrite (H a d (or_introl eq_refl)). destruct (Nat.eqb a o) eqn:E; [reflexivity|].
  destruct I as [I|I]; [injection I as -> ->; rewrite Nat.eqb_refl in E; discriminate|].
  assert (X := IH (fun a d J => H a d (or_intror J)) I). destruct (own o l). exact X.
Qed.
Lemma own_live o : forall l, In (o, false) l <-> fst (own o l) = true.
Proof.
  induction l as [|[a d] l IH]; cbn [own]; [split; [intros []|discriminate]|]. destruct d.
  - rewrite <- IH. split; [intros [I|I]; [discriminate|exact I]|right; assumption].
  - destruct (Nat.eqb a o) eqn:E.
    + apply Nat.eqb_eq in E. subst. split; [reflexivity|left; reflexivity].
    + destruct (own o l) as [b q] eqn:F. cbn [fst] in *. rewrite <- IH. split.
      * intros [I|I]; [injection I as ->; rewrite Nat.eqb_refl in E; discriminate|exact I].
      * right; assumption.
Qed.
Lemma own_rest o a : forall l, a <> o -> (In (a, false) (snd (own o l)) <-> In (a, false) l).
Proof.
  induction l as [|[x d] l IH]; intros N; cbn [own]; [reflexivity|]. destruct d.
  - rewrite IH by exact N. split; [right; assumption|intros [I|I]; [discriminate|exact I]].
  - destruct (Nat.eqb x o) eqn:E.
    + apply Nat.eqb_eq in E. subst. cbn [snd]. split; [right; assumption|intros [I|I]; [congruence|exact I]].
    + destruct (own o l) as [b q] eqn:F. cbn [snd] in *. specialize (IH N). cbn [In]. rewrite IH. reflexivity.
Qed.

Lemma own_used thz c a :
  orphan c = false -> gone a = false ->
  (In (obj a, false) (assumptions c) <-> snd (arrive thz c a) = nothing).
Proof.
  intros O G. unfold arrive. rewrite O, G, (own_live (obj a)). destruct (own (obj a) (assumptions c)) as [mine l]. cbn [fst].
  destruct mine; cbn; split; auto; try discriminate.
Qed.

Lemma arrive_keeps thz c a o :
  o <> obj a -> (In (o, false) (assumptions (fst (arrive thz c a))) <-> In (o, false) (assumptions c)).
Proof.
  intros N. unfold arrive. destruct (orphan c); [reflexivity|]. destruct (gone a); [reflexivity|].
  pose proof (own_rest (obj a) o (assumptions c) N) as H. destruct (own (obj a) (assumptions c)) as [mine l]. cbn [snd] in H.
  destruct mine; [exact H|]. cbn [fst]. unfold check_last. destruct (fwd a); [exact H|].
  destruct (_ <? _)%Z; exact H.
Qed.
Lemma arrive_orphan thz c a : orphan (fst (arrive thz c a)) = orphan c.
Proof.
  unfold arrive. destruct (orphan c) eqn:O; [exact O|]. destruct (gone a); [exact O|].
  destruct (own (obj a) (assumptions c)) as [mine l]. destruct mine; [reflexivity|]. cbn [fst]. unfold check_last.
  destruct (fwd a); [reflexivity|]. destruct (_ <? _)%Z; reflexivity.
Qed.

(* The first arrival of an assumption is ignored. *)
Lemma own_first thz : forall l1 c a l2,
  orphan c = false -> In (obj a, false) (assumptions c) -> gone a = false ->
  (forall x, In x l1 -> obj x <> obj a) ->
  nth_error (snd (arrive_all thz c (l1 ++ a :: l2))) (length l1) = Some nothing.
Proof.
  induction l1 as [|x l1 IH]; intros c a l2 O I G N; cbn [app arrive_all length].
  - apply (own_used thz c a O G) in I. destruct (arrive thz c a) as [c1 u]. cbn [snd] in I. subst u.
    destruct (arrive_all thz c1 l2). reflexivity.
  - pose proof (arrive_orphan thz c x) as O1. pose proof (arrive_keeps thz c x (obj a)) as K.
    destruct (arrive thz c x) as [c1 u]. cbn [fst] in *.
    assert (H := IH c1 a l2). destruct (arrive_all thz c1 (l1 ++ a :: l2)). cbn [snd nth_error] in *. apply H; [congruence| |exact G|intros y Y; apply N; right; exact Y].
    apply K; [|exact I]. intros E. apply (N x (or_introl eq_refl)). auto.
Qed.

Lemma arrive_use thz c a :
  let u := snd (arrive thz c a) in
  u <> nothing ->
  chained u = true /\ (for_preds u = true <-> fwd a = false) /\
  (for_goals u = true <-> fwd a = true \/ pm a = false) /\
  (assumed u = true <-> fwd a = false /\ pm a = false /\ gm a = false).
Proof.
  cbv zeta. unfold arrive. destruct (orphan c); [intros H; destruct (H eq_refl)|].
  destruct (gone a); [intros H; destruct (H eq_refl)|].
  destruct (own (obj a) (assumptions c)) as [mine l]. destruct mine; [intros H; destruct (H eq_refl)|]. intros _. cbn.
  destruct (fwd a), (pm a), (gm a); cbn; intuition discriminate.
Qed.

(* Time without a match. *)
Lemma own_sub o a : forall l, In (a, false) (snd (own o l)) -> In (a, false) l.
Proof.
  induction l as [|[x d] l IH]; cbn [own]; [auto|].
  destruct d; [intros I; right; apply IH; exact I|]. destruct (Nat.eqb x o); [intros I; right; exact I|].
  destruct (own o l) as [b q]. cbn [snd] in *. intros [I|I]; [left; exact I|right; apply IH; exact I].
Qed.

Lemma arrive_times thz c a :
  orphan c = false -> ~ In (obj a, false) (assumptions c) ->
  let c' := fst (arrive thz c a) in
  orphan c' = false /\ (forall o, In (o, false) (assumptions c') -> In (o, false) (assumptions c)) /\
  last c' = (if negb (gone a) && fwd a then at_ a else last c) /\
  (act0 c' = true <-> act0 c = true \/ (gone a = false /\ fwd a = false /\ (thz < at_ a - last c)%Z)).
Proof.
  intros O A. cbv zeta. pose proof (fun o => own_sub (obj a) o (assumptions c)) as K. rewrite own_live in A.
  unfold arrive. rewrite O. destruct (gone a); cbn [fst negb andb].
  - repeat split; auto. intros [H|[H _]]; [exact H|discriminate].
  - destruct (own (obj a) (assumptions c)) as [mine l]. cbn [fst snd] in *.
    destruct mine; [destruct (A eq_refl)|]. cbn [fst]. unfold check_last. destruct (fwd a); cbn.
    + repeat split; auto. intros [H|[_ [H _]]]; [exact H|discriminate].
    + destruct (thz <? at_ a - last c)%Z eqn:L; cbn.
      * apply Z.ltb_lt in L. repeat split; auto.
      * apply Z.ltb_ge in L. repeat split; auto. intros [H|[_ [_ H]]]; [exact H|lia].
Qed.

Lemma idle thz : forall l c,
  orphan c = false -> (forall a, In a l -> ~ In (obj a, false) (assumptions c)) ->
  (act0 (fst (arrive_all thz c l)) = true <->
   act0 c = true \/
   exists l1 a l2, l = l1 ++ a :: l2 /\ gone a = false /\ fwd a = false /\ (thz < at_ a - last_match (last c) l1)%Z).
Proof.
  induction l as [|x l IH]; intros c O A; cbn [arrive_all].
  - cbn. split; [auto|]. intros [H|[l1 [a [l2 [E _]]]]]; [exact H|]. destruct l1; discriminate.
  - destruct (arrive_times thz c x O (A x (or_introl eq_refl))) as [O1 [A1 [L1 T1]]]. destruct (arrive thz c x) as [c1 u]. cbn [fst] in *.
    assert (A2 : forall a, In a l -> ~ In (obj a, false) (assumptions c1)).
    { intros a I J. apply (A a (or_intror I)). apply A1. exact J. }
    specialize (IH c1 O1 A2). destruct (arrive_all thz c1 l) as [c2 us]. cbn [fst] in *. rewrite IH, T1, L1. split.
    + intros [[H|H]|[l1 [a [l2 [E H]]]]]; [auto| |].
      * right. exists [], x, l. split; [reflexivity|exact H].
      * right. exists (x :: l1), a, l2. split; [rewrite E; reflexivity|exact H].
    + intros [H|[l1 [a [l2 [E H]]]]]; [auto|]. destruct l1 as [|y l1]; cbn [app] in E.
      * injection E as <- <-. left. right. exact H.
      * injection E as <- ->. right. exists l1, a, l2. split; [reflexivity|exact H].
Qed.

(* Witnesses. *)
Definition plain : mdl := Md (1 # 2) 0 false false false false 1 0.
Definition needing : mdl := Md (1 # 2) 0 true false false false 1 0.
Definition sure : mdl := Md 1 0 false false false false 0 0.
Definition guard1 (x : nat) : option rhs := Some (Rh 1 100).

Lemma twice_witness : exists mo now m i st rs sims req b guards r c gs d gs' d',
  (forall x, mo x x = true) /\ src i = Actual /\
  snd (reduce mo now m i st rs sims req b guards) =
    [Predict r c false gs d; Instance; Mark (Some 7%nat); Watch r true; Second c;
     Predict r c false gs' d'; Instance; Mark (Some 8%nat); Watch r true; Second c].
Proof.
  exists Nat.eqb, 0%Z, plain, (Inp Actual 1), WeakEnabled, [Rs 3 (Some 7%nat); Rs 4 (Some 8%nat)], None, false, 0%nat, guard1, (Rh 1 100), (1 * (1 # 2)), [], None, [], None.
  split; [exact Nat.eqb_refl|]. split; reflexivity.
Qed.

Lemma forever_witness : exists c0 : Q, forall n : nat, exists ms, length ms = n /\ Chain c0 ms c0.
Proof.
  exists 1. induction n as [|n [ms [L C]]].
  - exists []. split; [reflexivity|constructor].
  - exists (ms ++ [sure]). split; [rewrite app_length, L; cbn; lia|].
    eapply (CStep 1 Nat.eqb 0 sure Simulated NoRequirement [] (Some []) false 0 guard1 (Rh 1 100) 1 None true [] ms 1 C).
    left. reflexivity.
Qed.

Lemma late_witness : exists mo now m i st rs sims b guards r,
  src i = Actual /\ snd (reduce mo now m i st rs sims true b guards) = [Track r].
Proof.
  exists Nat.eqb, 200%Z, plain, (Inp Actual 1), WeakEnabled, [Rs 3 (Some 7%nat)], None, 0%nat, guard1, (Rh 1 100).
  split; reflexivity.
Qed.

Lemma trace_witness : exists mo now m i st rs sims b guards g,
  src i = Simulated /\ In (Mark g) (snd (reduce mo now m i st rs sims false b guards)).
Proof.
  exists Nat.eqb, 0%Z, needing, (Inp Simulated 1), NoRequirement, [], (Some []), 0%nat, guard1, None.
  split; [reflexivity|left; reflexivity].
Qed.

Lemma second_witness : exists m st rs b guards r c,
  (forall x, ~ offered st Actual rs None b x) /\ In (Need r c false true) (snd (reduce2 m st rs true b guards)).
Proof.
  exists needing, StrongDisabledWeak, [Rs 3 None], 0%nat, guard1, (Rh 1 100), 1. split.
  - intros x O. destruct O; discriminate.
  - right. left. reflexivity.
Qed.

Lemma own_witness : exists thz c a,
  orphan c = false /\ In (obj a, false) (assumptions c) /\
  exists u, snd (arrive_all thz c [a; a]) = [nothing; u] /\ chained u = true /\ assumed u = true.
Proof.
  exists 10%Z, (Ct false [(1%nat, false)] 0 false), (Ar 1 false false false false 5).
  split; [reflexivity|]. split; [left; reflexivity|]. eexists. split; [reflexivity|split; reflexivity].
Qed.
