(* Proofs on drives. *)
From Coq Require Import ZArith QArith List Bool Arith Lia.
From Verif Require Import Drv_model Drv_spec.
Import ListNotations.

Section Drv.
Context (w : setting).
Notation step := (step w).
Notation run := (run w).

Lemma run_snoc : forall es e, run (es ++ [e]) = step (run es) e.
Proof. intros. unfold Drv_model.run. rewrite fold_left_app. reflexivity. Qed.

Lemma outcomes_app : forall d l k, outcomes d (l ++ k) = outcomes d l ++ outcomes d k.
Proof. intros. apply flat_map_app. Qed.
Lemma outcomes_goal : forall d m ok absent, outcomes d (goal_outcome w m ok absent) = if (drv m =? d)%nat then [ok] else [].
Proof.
  intros. unfold goal_outcome. rewrite outcomes_app.
  assert (E : forall l, outcomes d (flat_map (fun k => GoalOut (ctl m) k (goal m) (drv m) ok :: (if absent then [AbsentIn (ctl m) k (goal m)] else [])) l) = []).
  { induction l as [|k l IH]; [reflexivity|]. cbn [flat_map app]. unfold outcomes in *. destruct absent; cbn; exact IH. }
  rewrite E. cbn. rewrite app_nil_r. reflexivity.
Qed.

(* What one step adds. *)
Inductive adds (s : state) (e : event) (s' : state) : Prop :=
| ANothing : dead s' = dead s -> log s' = log s -> adds s e s'
| AKill d : e = Kill d -> dead s' = d :: dead s -> log s' = log s -> adds s e s'
| AGoal c g : dead s' = dead s -> log s' = log s ++ [GoalIn c g] -> adds s e s'
| ADrive c d ok : is_dead s d = false -> dead s' = d :: dead s -> log s' = log s ++ [drive_outcome w c d ok] -> adds s e s'
| AMon m ok absent : is_dead s (drv m) = false -> dead s' = drv m :: dead s -> log s' = log s ++ goal_outcome w m ok absent -> adds s e s'.

Lemma step_adds : forall s e, adds s e (step s e).
Proof.
  intros s e. destruct e; cbn [Drv_model.step].
  - unfold arrive. destruct (is_dead s (adrv a)) eqn:D; [apply ANothing; reflexivity|]. destruct (Qle_bool _ _); [apply ANothing; reflexivity|].
    destruct (armatch a || areuse a); [|apply ANothing; reflexivity]. destruct (aguards a); [|apply ANothing; reflexivity].
    destruct (aknown a); [eapply ADrive; try reflexivity; exact D|eapply ADrive; try reflexivity; exact D|apply ANothing; reflexivity|eapply AGoal; reflexivity].
  - destruct (find _ _) as [m|]; [|apply ANothing; reflexivity]. destruct (goal_dead s m) eqn:G; [apply ANothing; reflexivity|].
    apply orb_false_iff in G. eapply AMon; try reflexivity. apply G.
  - destruct (find _ _) as [m|]; [|apply ANothing; reflexivity]. destruct (goal_dead s m); apply ANothing; reflexivity.
  - destruct (find _ _) as [m|]; [|apply ANothing; reflexivity]. destruct (goal_dead s m); [apply ANothing; reflexivity|]. destruct (_ || _); apply ANothing; reflexivity.
  - destruct (find _ _) as [m|]; [|apply ANothing; reflexivity]. destruct (goal_dead s m); [apply ANothing; reflexivity|]. destruct (sim m); [apply ANothing; reflexivity|].
    destruct (inj m); [apply ANothing; reflexivity|eapply AGoal; reflexivity].
  - destruct (find _ _) as [m|]; [|apply ANothing; reflexivity]. destruct (goal_dead s m); [apply ANothing; reflexivity|].
    destruct (inj m); [apply ANothing; reflexivity|eapply AGoal; reflexivity].
  - destruct (find _ _) as [m|]; [|apply ANothing; reflexivity]. destruct (goal_dead s m) eqn:G; [apply ANothing; reflexivity|]. destruct (sim m); [apply ANothing; reflexivity|].
    apply orb_false_iff in G. eapply AMon; try reflexivity. apply G.
  - eapply AKill; reflexivity.
Qed.

Lemma dead_iff : forall s d, is_dead s d = true <-> In d (dead s).
Proof.
  intros. unfold is_dead. rewrite existsb_exists. split; [intros (x & X & E); apply Nat.eqb_eq in E; subst; exact X|intros H; exists d; split; [exact H|apply Nat.eqb_refl]].
Qed.
Lemma dead_not : forall s d, is_dead s d = false -> ~ In d (dead s).
Proof. intros s d H X. apply dead_iff in X. congruence. Qed.

Lemma once : forall es d, outcomes d (log (run es)) = [] \/ (exists ok, outcomes d (log (run es)) = [ok]) /\ In d (dead (run es)).
Proof.
  induction es as [|e es IH] using rev_ind; intros d; [left; reflexivity|]. rewrite run_snoc. specialize (IH d).
  destruct (step_adds (run es) e) as [D L|k _ D L|c g D L|c k ok N D L|m ok absent N D L]; rewrite D, L; rewrite ?outcomes_app.
  - exact IH.
  - destruct IH as [IH|[IH I]]; [left; exact IH|right; split; [exact IH|right; exact I]].
  - cbn. rewrite app_nil_r. exact IH.
  - cbn. apply dead_not in N. destruct (Nat.eqb_spec k d) as [->|Ne]; cbn; rewrite ?app_nil_r.
    + destruct IH as [IH|[_ I]]; [|contradiction]. right. rewrite IH. split; [exists ok; reflexivity|left; reflexivity].
    + destruct IH as [IH|[IH I]]; [left; exact IH|right; split; [exact IH|right; exact I]].
  - rewrite outcomes_goal. apply dead_not in N. destruct (Nat.eqb_spec (drv m) d) as [E|Ne]; cbn; rewrite ?app_nil_r.
    + subst d. destruct IH as [IH|[_ I]]; [|contradiction]. right. rewrite IH. split; [exists ok; reflexivity|left; reflexivity].
    + destruct IH as [IH|[IH I]]; [left; exact IH|right; split; [exact IH|right; exact I]].
Qed.
Lemma at_most_once : forall es d, (length (outcomes d (log (run es))) <= 1)%nat.
Proof. intros. destruct (once es d) as [->|[(ok & ->) _]]; cbn; lia. Qed.
(* Afterwards nothing is done about the drive. *)
Lemma silent_after : forall es d e2, outcomes d (log (run es)) <> [] -> outcomes d (log (run (es ++ e2))) = outcomes d (log (run es)).
Proof.
  intros es d e2 H. assert (P : exists k, log (run (es ++ e2)) = log (run es) ++ k).
  { induction e2 as [|e e2 IH] using rev_ind; [exists []; rewrite !app_nil_r; reflexivity|]. destruct IH as (k & K). rewrite app_assoc, run_snoc.
    destruct (step_adds (run (es ++ e2)) e) as [D L|? _ D L|c g D L|c q ok N D L|m ok absent N D L]; rewrite L, K; [exists k; reflexivity|exists k; reflexivity| | | ]; rewrite <- app_assoc; eexists; reflexivity. }
  destruct P as (k & K). pose proof (at_most_once (es ++ e2) d) as L. rewrite K, outcomes_app in *. destruct (outcomes d (log (run es))); [congruence|].
  cbn [length app] in *. rewrite app_length in L. destruct (outcomes d k); [rewrite app_nil_r; reflexivity|cbn in L; lia].
Qed.

(* Where outcomes are told. *)
Definition closed (l : list out) : Prop :=
  (forall c k g d ok, In (GoalOut c k g d ok) l ->
     (k < groups w c - 1)%nat /\ (forall j, (j < groups w c - 1)%nat -> In (GoalOut c j g d ok) l) /\ In (DriveOut c (groups w c - 1) d ok) l) /\
  (forall c k d ok, In (DriveOut c k d ok) l -> k = (groups w c - 1)%nat).
Lemma closed_app : forall l k, closed l -> closed k -> closed (l ++ k).
Proof.
  intros l k (A & B) (C & D). split.
  - intros c j g d ok H. apply in_app_or in H. destruct H as [H|H]; [destruct (A _ _ _ _ _ H) as (X & Y & Z0)|destruct (C _ _ _ _ _ H) as (X & Y & Z0)];
    (split; [exact X|split; [intros i I; apply in_or_app; auto|apply in_or_app; auto]]).
  - intros c j d ok H. apply in_app_or in H. destruct H as [H|H]; [eapply B; exact H|eapply D; exact H].
Qed.
Lemma closed_goal : forall m ok absent, closed (goal_outcome w m ok absent).
Proof.
  intros m ok absent. unfold goal_outcome.
  assert (I : forall j, (j < groups w (ctl m) - 1)%nat -> In (GoalOut (ctl m) j (goal m) (drv m) ok)
    (flat_map (fun k => GoalOut (ctl m) k (goal m) (drv m) ok :: (if absent then [AbsentIn (ctl m) k (goal m)] else [])) (seq 0 (groups w (ctl m) - 1)) ++ [drive_outcome w (ctl m) (drv m) ok])).
  { intros j J. apply in_or_app. left. apply in_flat_map. exists j. split; [apply in_seq; lia|left; reflexivity]. }
  split.
  - intros c k g d ok' H. apply in_app_or in H. destruct H as [H|[H|[]]]; [|discriminate]. apply in_flat_map in H. destruct H as (x & X & [H|H]).
    + injection H as <- <- <- <- <-. split; [apply in_seq in X; lia|]. split; [exact I|]. apply in_or_app. right. left. reflexivity.
    + destruct absent; [|destruct H]. destruct H as [H|[]]. discriminate.
  - intros c k d ok' H. apply in_app_or in H. destruct H as [H|[H|[]]].
    + apply in_flat_map in H. destruct H as (x & X & [H|H]); [discriminate|]. destruct absent; [|destruct H]. destruct H as [H|[]]. discriminate.
    + unfold drive_outcome in H. injection H as <- <- <- <-. reflexivity.
Qed.
Lemma closed_run : forall es, closed (log (run es)).
Proof.
  induction es as [|e es IH] using rev_ind; [split; intros; contradiction|]. rewrite run_snoc.
  destruct (step_adds (run es) e) as [D L|? _ D L|c g D L|c k ok N D L|m ok absent N D L]; rewrite L; auto; apply closed_app; auto.
  - split; intros c' ? ? ? ? || intros c' ? ? ?; intros; repeat match goal with H : In _ [_] |- _ => destruct H as [H|[]]; discriminate end.
  - unfold drive_outcome. split.
    + intros ? ? ? ? ? [H|[]]. discriminate.
    + intros ? ? ? ? [H|[]]. injection H as <- <- <- <-. reflexivity.
  - apply closed_goal.
Qed.

(* Drives are invalidated by others or have an outcome. *)
Lemma dead_why : forall es d, In d (dead (run es)) -> In (Kill d) es \/ outcomes d (log (run es)) <> [].
Proof.
  induction es as [|e es IH] using rev_ind; intros d H; [destruct H|]. rewrite run_snoc in *.
  destruct (step_adds (run es) e) as [D L|k E D L|c g D L|c k ok N D L|m ok absent N D L]; rewrite D in H; rewrite L; rewrite ?outcomes_app.
  - destruct (IH d H) as [K|K]; [left; apply in_or_app; left; exact K|right; exact K].
  - destruct H as [<-|H]; [left; apply in_or_app; right; left; exact E|]. destruct (IH d H) as [K|K]; [left; apply in_or_app; left; exact K|right; exact K].
  - destruct (IH d H) as [K|K]; [left; apply in_or_app; left; exact K|right; cbn; rewrite app_nil_r; exact K].
  - destruct H as [<-|H].
    + right. cbn. rewrite Nat.eqb_refl. intros X. apply app_eq_nil in X. destruct X; discriminate.
    + destruct (IH d H) as [K|K]; [left; apply in_or_app; left; exact K|right]. intros X. apply app_eq_nil in X. destruct X; auto.
  - rewrite outcomes_goal. destruct H as [<-|H].
    + right. rewrite Nat.eqb_refl. intros X. apply app_eq_nil in X. destruct X; discriminate.
    + destruct (IH d H) as [K|K]; [left; apply in_or_app; left; exact K|right]. intros X. apply app_eq_nil in X. destruct X; auto.
Qed.

(* A drive that concerns a model gets its outcome or a monitor. *)
Lemma taken : forall es a, concerned w a -> is_dead (run es) (adrv a) = false ->
  let s := run (es ++ [Arrive a]) in
  outcomes (adrv a) (log s) <> [] \/ exists m, In m (ms s) /\ drv m = adrv a /\ ctl m = actl a /\ off m = false /\
    (aknown a = KUnknown -> In (GoalIn (actl a) (goal m)) (log s)).
Proof.
  intros es a (T & M & G) D. cbv zeta. rewrite run_snoc. cbn [Drv_model.step]. unfold arrive. rewrite D.
  destruct (Qle_bool _ _) eqn:Q.
  { apply Qle_bool_iff in Q. exfalso. eapply Qlt_not_le; eassumption. }
  assert (E : armatch a || areuse a = true) by (apply orb_true_iff; exact M). rewrite E, G.
  destruct (aknown a); cbn [log ms]; rewrite ?outcomes_app.
  - left. cbn. rewrite Nat.eqb_refl. intros X. apply app_eq_nil in X. destruct X; discriminate.
  - left. cbn. rewrite Nat.eqb_refl. intros X. apply app_eq_nil in X. destruct X; discriminate.
  - right. eexists. split; [left; reflexivity|]. repeat split. discriminate.
  - right. eexists. split; [left; reflexivity|]. repeat split. intros _. apply in_or_app. right. left. reflexivity.
Qed.

(* Monitors have different goals. *)
Definition wf (s : state) : Prop := NoDup (map goal (ms s)) /\ forall m, In m (ms s) -> (goal m < next s)%nat.
Lemma put_goals : forall m l, map goal (put m l) = map goal l.
Proof. intros. unfold put. rewrite map_map. apply map_ext. intros x. destruct (Nat.eqb_spec (goal x) (goal m)); auto. Qed.
Lemma wf_put : forall s m d l, wf s -> wf (St d (put m (ms s)) (next s) l).
Proof.
  intros s m d l (A & B). split; cbn [ms next]; [rewrite put_goals; exact A|]. intros x X.
  assert (In (goal x) (map goal (ms s))) by (rewrite <- (put_goals m); apply in_map; exact X). apply in_map_iff in H. destruct H as (y & <- & Y). auto.
Qed.
Lemma NoDup_filter_map : forall {A B} (f : A -> B) P l, NoDup (map f l) -> NoDup (map f (filter P l)).
Proof.
  intros A B f P. induction l as [|x l IH]; intros N; [constructor|]. inversion N; subst. cbn. destruct (P x); [|auto]. cbn. constructor; [|auto].
  intros H. apply H1. apply in_map_iff in H. destruct H as (y & E & Y). apply filter_In in Y. rewrite <- E. apply in_map, Y.
Qed.
Lemma wf_drop : forall s g d l, wf s -> wf (St d (drop g (ms s)) (next s) l).
Proof.
  intros s g d l (A & B). split; cbn [ms next]; [apply NoDup_filter_map; exact A|]. intros x X. apply filter_In in X. apply B, X.
Qed.
Lemma wf_step : forall s e, wf s -> wf (step s e).
Proof.
  intros s e W. assert (K : forall d l, wf (St d (ms s) (next s) l)) by (intros; split; apply W).
  destruct e; cbn [Drv_model.step]; try (destruct (find _ _) as [m|]; [|exact W]; destruct (goal_dead s m); [apply wf_drop, W|]).
  - unfold arrive. destruct (is_dead _ _); [exact W|]. destruct (Qle_bool _ _); [exact W|]. destruct (_ || _); [|exact W]. destruct (aguards a); [|exact W].
    assert (N : forall m d l, goal m = next s -> wf (St d (m :: ms s) (S (next s)) l)).
    { intros m d l E. split; cbn [ms next map].
      - constructor; [|apply W]. intros X. apply in_map_iff in X. destruct X as (y & Y & I). apply (proj2 W) in I. lia.
      - intros x [<-|X]; [lia|]. apply (proj2 W) in X. lia. }
    destruct (aknown a); auto.
  - apply wf_drop, W.
  - apply wf_drop, W.
  - destruct (_ || _); [exact W|apply wf_put, W].
  - destruct (sim m); [exact W|]. destruct (inj m); [exact W|apply wf_put, W].
  - destruct (inj m); [exact W|apply wf_put, W].
  - destruct (sim m); [apply wf_put, W|apply wf_drop, W].
  - apply K.
Qed.
Lemma wf_run : forall es, wf (run es).
Proof. induction es as [|e es IH] using rev_ind; [split; [constructor|intros ? []]|]. rewrite run_snoc. apply wf_step, IH. Qed.

Lemma find_goal : forall l m, NoDup (map goal l) -> In m l -> find (fun x => (goal x =? goal m)%nat) l = Some m.
Proof.
  induction l as [|x l IH]; intros m N I; [destruct I|]. inversion N; subst. cbn. destruct I as [->|I]; [rewrite Nat.eqb_refl; reflexivity|].
  destruct (Nat.eqb_spec (goal x) (goal m)) as [E|_]; [exfalso; apply H1; rewrite E; apply in_map; exact I|auto].
Qed.
Lemma find_name : forall l g m, find (fun x => (goal x =? g)%nat) l = Some m -> goal m = g /\ In m l.
Proof. intros l g m H. apply find_some in H. destruct H as (I & E). apply Nat.eqb_eq in E. auto. Qed.

(* A monitor that has its goal goes on, apart from its own events. *)
Definition lives (m : mon) (s : state) (t : nat) : Prop :=
  In (drv m) (dead s) \/ exists x, In x (ms s) /\ goal x = goal m /\ drv x = drv m /\ off x = false /\ (if sim x then 2 <= t else 1 <= t)%nat.

Lemma put_in : forall x m l, In x l -> goal x <> goal m -> In x (put m l).
Proof. intros x m l I N. unfold put. apply in_map_iff. exists x. split; [|exact I]. destruct (Nat.eqb_spec (goal x) (goal m)); [contradiction|reflexivity]. Qed.
Lemma put_self : forall m x l, In x l -> goal x = goal m -> In m (put m l).
Proof. intros m x l I E. unfold put. apply in_map_iff. exists x. split; [|exact I]. rewrite E, Nat.eqb_refl. reflexivity. Qed.
Lemma drop_in : forall x g l, In x l -> goal x <> g -> In x (drop g l).
Proof. intros x g l I N. apply filter_In. split; [exact I|]. destruct (Nat.eqb_spec (goal x) g); [contradiction|reflexivity]. Qed.
Lemma dead_grows : forall s e d, In d (dead s) -> In d (dead (step s e)).
Proof. intros s e d H. destruct (step_adds s e) as [D L|k E D L|c g D L|c k ok N D L|m ok absent N D L]; rewrite D; auto; right; exact H. Qed.

Lemma lives_step : forall m s e t, wf s -> e <> PredOk (goal m) -> e <> Left (goal m) ->
  lives m s (jobs (goal m) [e] + t) -> lives m (step s e) t.
Proof.
  intros m s e t W NP NL [D|(x & I & G & Dr & O & T)]; [left; apply dead_grows, D|].
  destruct (is_dead s (drv m)) eqn:DD; [left; apply dead_grows, dead_iff, DD|].
  assert (A : forall g, g = goal m -> find (fun y => (goal y =? g)%nat) (ms s) = Some x) by (intros g ->; rewrite <- G; apply find_goal; [apply W|exact I]).
  assert (GD : goal_dead s x = false) by (unfold goal_dead; rewrite O, Dr; exact DD).
  assert (Same : forall d l, In x l -> lives m (St d l (next s) (log s)) t -> True) by trivial. clear Same.
  assert (Keep : forall d n l lg, (jobs (goal m) [e] = 0)%nat -> In x l -> lives m (St d l n lg) t).
  { intros d n l lg J X. right. exists x. rewrite J in T. cbn [plus] in T. auto. }
  destruct e; cbn [Drv_model.step].
  - unfold arrive. assert (R : lives m s t) by (right; exists x; auto).
    destruct (is_dead s (adrv a)); [exact R|]. destruct (Qle_bool _ _); [exact R|]. destruct (_ || _); [|exact R]. destruct (aguards a); [|exact R].
    destruct (aknown a); apply Keep; auto; right; exact I.
  - destruct (Nat.eq_dec g (goal m)) as [E|N].
    + rewrite (A _ E), GD. left. left. exact Dr.
    + destruct (find _ _) as [y|] eqn:F; [|right; exists x; auto]. apply find_name in F. destruct F as (<- & F).
      destruct (goal_dead s y); apply Keep; auto; apply drop_in; congruence.
  - destruct (Nat.eq_dec g (goal m)) as [E|N]; [congruence|].
    destruct (find _ _) as [y|] eqn:F; [|right; exists x; auto]. destruct (goal_dead s y); apply Keep; auto; apply drop_in; congruence.
  - destruct (Nat.eq_dec g (goal m)) as [E|N]; [congruence|].
    destruct (find _ _) as [y|] eqn:F; [|right; exists x; auto]. apply find_name in F. destruct F as (<- & F).
    destruct (goal_dead s y); [apply Keep; auto; apply drop_in; congruence|]. destruct (_ || _); [right; exists x; auto|].
    apply Keep; auto. apply put_in; [exact I|cbn; congruence].
  - destruct (Nat.eq_dec g (goal m)) as [E|N].
    + rewrite (A _ E), GD. assert (R : lives m s t) by (right; exists x; auto). destruct (sim x) eqn:Sx; [exact R|]. destruct (inj x); [exact R|].
      right. eexists. split; [eapply put_self; [exact I|reflexivity]|]. cbn. repeat split; auto.
    + destruct (find _ _) as [y|] eqn:F; [|right; exists x; auto]. apply find_name in F. destruct F as (<- & F).
      destruct (goal_dead s y); [apply Keep; auto; apply drop_in; congruence|]. destruct (sim y); [right; exists x; auto|]. destruct (inj y); [right; exists x; auto|].
      apply Keep; auto. apply put_in; [exact I|cbn; congruence].
  - destruct (Nat.eq_dec g (goal m)) as [E|N].
    + rewrite (A _ E), GD. destruct (inj x); [right; exists x; auto|].
      right. eexists. split; [eapply put_self; [exact I|reflexivity]|]. cbn. auto.
    + destruct (find _ _) as [y|] eqn:F; [|right; exists x; auto]. apply find_name in F. destruct F as (<- & F).
      destruct (goal_dead s y); [apply Keep; auto; apply drop_in; congruence|]. destruct (inj y); [right; exists x; auto|].
      apply Keep; auto. apply put_in; [exact I|cbn; congruence].
  - unfold jobs in T, Keep. cbn [filter] in T, Keep. destruct (Nat.eqb_spec g (goal m)) as [E|N]; cbn [length] in T, Keep.
    + rewrite (A _ E), GD. destruct (sim x) eqn:Sx; [|left; left; exact Dr].
      right. eexists. split; [eapply put_self; [exact I|reflexivity]|]. cbn. repeat split; auto. lia.
    + destruct (find _ _) as [y|] eqn:F; [|right; exists x; auto]. apply find_name in F. destruct F as (<- & F).
      destruct (goal_dead s y); [apply Keep; auto; apply drop_in; congruence|]. destruct (sim y); apply Keep; auto; [apply put_in; [exact I|cbn; congruence]|apply drop_in; congruence].
  - apply Keep; auto.
Qed.

Lemma jobs_cons : forall g e es, jobs g (e :: es) = (jobs g [e] + jobs g es)%nat.
Proof. intros. unfold jobs. change (e :: es) with ([e] ++ es). rewrite filter_app, app_length. reflexivity. Qed.
Lemma settled_from : forall m e2 s, wf s -> ~ In (PredOk (goal m)) e2 -> ~ In (Left (goal m)) e2 -> lives m s (jobs (goal m) e2) ->
  In (drv m) (dead (fold_left step e2 s)).
Proof.
  intros m. induction e2 as [|e e2 IH]; intros s W NP NL L.
  - destruct L as [L|(x & _ & _ & _ & _ & T)]; [exact L|]. cbn in T. destruct (sim x); lia.
  - cbn [fold_left]. apply IH; [apply wf_step, W|intros X; apply NP; right; exact X|intros X; apply NL; right; exact X|].
    rewrite jobs_cons in L. apply lives_step; auto; intros ->; [apply NP|apply NL]; left; reflexivity.
Qed.
Lemma settled : forall es m e2, In m (ms (run es)) -> off m = false -> ~ In (PredOk (goal m)) e2 -> ~ In (Left (goal m)) e2 ->
  (2 <= jobs (goal m) e2)%nat ->
  In (Kill (drv m)) (es ++ e2) \/ exists ok, outcomes (drv m) (log (run (es ++ e2))) = [ok].
Proof.
  intros es m e2 I O NP NL J. assert (D : In (drv m) (dead (run (es ++ e2)))).
  { unfold Drv_model.run. rewrite fold_left_app. apply settled_from; auto; [apply wf_run|]. right. exists m. repeat split; auto. destruct (sim m); lia. }
  destruct (dead_why _ _ D) as [K|K]; [left; exact K|right]. destruct (once (es ++ e2) (drv m)) as [E|[E _]]; [contradiction|exact E].
Qed.
End Drv.
