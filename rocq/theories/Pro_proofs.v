(* Proofs on promoted facts. *)
From Coq Require Import ZArith QArith List Bool Arith Lia.
From Verif Require Import Pro_model Pro_spec.
Import ListNotations.

Section Pro.
Variable evidence timeless : fact -> fact -> bool.
Notation defeat := (defeat evidence).
Notation promote := (promote evidence timeless).
Notation step := (step evidence timeless).
Notation run := (run evidence timeless).

Lemma run_snoc : forall es e, run (es ++ [e]) = step (run es) e.
Proof. intros. unfold Pro_model.run. rewrite fold_left_app. reflexivity. Qed.
Lemma run_app : forall es e2, run (es ++ e2) = fold_left step e2 (run es).
Proof. intros. unfold Pro_model.run. apply fold_left_app. Qed.

(* What one saved input does. *)
Lemma promote_cases : forall e s f,
  promote e s f = s \/
  (icst f = false /\ timeless f (inp e) = false /\ (forall d, In d (entries s) -> fid (orig d) <> fid f) /\
   (forall g, In g (defeating s) -> evidence (shifted f (inp e)) g = false) /\ accepts e f = true /\
   promote e s f = St ((length (made s), f, shifted f (inp e)) :: entries s) (invalid s) (defeating s) (done s)
                      (made s ++ [(length (made s), ov e, f, shifted f (inp e))])).
Proof.
  intros e s f. unfold Pro_model.promote. destruct (icst f); [left; reflexivity|].
  destruct (existsb _ (entries s)) eqn:E; [left; reflexivity|]. destruct (timeless f (inp e)); [left; reflexivity|].
  cbv zeta. destruct (existsb _ (defeating s)) eqn:D; [left; reflexivity|]. destruct (accepts e f); [|left; reflexivity].
  right. repeat split.
  - intros d I X. assert (Y : existsb (fun d => Nat.eqb (fid (orig d)) (fid f)) (entries s) = true); [|congruence].
    apply existsb_exists. exists d. split; [exact I|]. apply Nat.eqb_eq, X.
  - intros g G. destruct (evidence (shifted f (inp e)) g) eqn:X; [|reflexivity]. assert (Y : existsb (evidence (shifted f (inp e))) (defeating s) = true); [|congruence].
    apply existsb_exists. exists g. auto.
Qed.

(* Entries are what was made and is not invalidated; numbers are positions. *)
Record good (s : state) : Prop := Gd {
  g_num : forall k x, nth_error (made s) k = Some x -> fst (fst (fst x)) = k;
  g_ent : forall n f p, In (n, f, p) (entries s) <-> stands s n f p;
  g_inv : forall n, In n (invalid s) -> (n < length (made s))%nat;
  g_dup : NoDup (map (fun d => fid (orig d)) (entries s)) }.

Lemma made_num : forall s, good s -> forall n o f p, In (n, o, f, p) (made s) -> (n < length (made s))%nat.
Proof. intros s G n o f p H. apply In_nth_error in H. destruct H as (k & K). pose proof (g_num _ G _ _ K) as E. cbn in E. subst. apply nth_error_Some. congruence. Qed.
Lemma made_fun : forall s, good s -> forall n o f p o' f' p', In (n, o, f, p) (made s) -> In (n, o', f', p') (made s) -> f = f' /\ p = p'.
Proof.
  intros s G n o f p o' f' p' A B. apply In_nth_error in A, B. destruct A as (k & K), B as (l & L).
  pose proof (g_num _ G _ _ K) as E1. pose proof (g_num _ G _ _ L) as E2. cbn in E1, E2. subst. rewrite K in L. injection L as _ <- <-. auto.
Qed.

Lemma good_init : good init.
Proof.
  constructor; cbn.
  - intros [|k] x H; discriminate.
  - intros n f p. split; [intros []|]. intros ((o & []) & _).
  - intros n [].
  - constructor.
Qed.
Lemma good_done : forall s d, good s -> good (St (entries s) (invalid s) (defeating s) d (made s)).
Proof. intros s d [A B C D]. constructor; assumption. Qed.
Lemma good_promote : forall e s f, good s -> good (promote e s f).
Proof.
  intros e s f G. destruct (promote_cases e s f) as [-> | (_ & _ & N & _ & _ & ->)]; [exact G|].
  set (p := shifted f (inp e)). constructor; cbn [made entries invalid].
  - intros k x H. destruct (Nat.lt_ge_cases k (length (made s))) as [L|L].
    + rewrite nth_error_app1 in H by exact L. apply (g_num _ G), H.
    + rewrite nth_error_app2 in H by exact L. destruct (k - length (made s))%nat as [|j] eqn:J; [|destruct j; discriminate]. injection H as <-. cbn. lia.
  - intros n g q. split.
    + intros [H|H].
      * injection H as <- <- <-. split; [exists (ov e); cbn; apply in_or_app; right; left; reflexivity|]. cbn. intros X. apply (g_inv _ G) in X. lia.
      * apply (g_ent _ G) in H. destruct H as ((o & O) & I). split; [exists o; cbn; apply in_or_app; left; exact O|exact I].
    + intros ((o & O) & I). cbn in O, I. apply in_app_or in O. destruct O as [O | [O | []]].
      * right. apply (g_ent _ G). split; [exists o; exact O|exact I].
      * injection O as <- _ <- <-. left. reflexivity.
  - intros n H. rewrite app_length. apply (g_inv _ G) in H. lia.
  - cbn [map]. constructor; [|apply G]. intros X. apply in_map_iff in X. destruct X as (d & E & I). exact (N d I E).
Qed.
Lemma good_promotes : forall e l s, good s -> good (fold_left (promote e) l s).
Proof. intros e l. induction l as [|f l IH]; intros s G; [exact G|]. apply IH, good_promote, G. Qed.
Lemma nodup_filter : forall {A B} (h : A -> B) (c : A -> bool) l, NoDup (map h l) -> NoDup (map h (filter c l)).
Proof.
  intros A B h c l. induction l as [|x l IH]; intros H; [constructor|]. cbn in *. inversion H as [|y k N M]; subst.
  destruct (c x); [|apply IH, M]. cbn. constructor; [|apply IH, M]. intros X. apply N. apply in_map_iff in X. destruct X as (z & E & I). apply filter_In in I.
  apply in_map_iff. exists z. tauto.
Qed.
Lemma good_defeat : forall i s, good s -> good (defeat i s).
Proof.
  intros i s G. constructor; cbn [made entries invalid Pro_model.defeat].
  - apply G.
  - intros n f p. rewrite filter_In. split.
    + intros (H & E). apply (g_ent _ G) in H. destruct H as ((o & O) & I). split; [exists o; exact O|]. cbn. intros X. apply in_app_or in X. destruct X as [X|X]; [|exact (I X)].
      apply in_map_iff in X. destruct X as (((m & f') & p') & M & X). cbn in M. subst m. apply filter_In in X. destruct X as (X & Y).
      apply (g_ent _ G) in X. destruct X as ((o' & O') & _). destruct (made_fun _ G _ _ _ _ _ _ _ O O') as (-> & ->). cbn in *. rewrite Y in E. discriminate.
    + intros ((o & O) & I). cbn in O, I. assert (S : In (n, f, p) (entries s)) by (apply (g_ent _ G); split; [exists o; exact O|intros X; apply I, in_or_app; right; exact X]).
      split; [exact S|]. cbn. destruct (evidence i p) eqn:E; [|reflexivity]. exfalso. apply I, in_or_app. left. apply in_map_iff. exists (n, f, p). split; [reflexivity|].
      apply filter_In. split; [exact S|exact E].
  - intros n H. apply in_app_or in H. destruct H as [H|H]; [|apply (g_inv _ G), H]. apply in_map_iff in H. destruct H as (((m & f) & p) & M & X). cbn in M. subst m.
    apply filter_In in X. destruct X as (X & _). apply (g_ent _ G) in X. destruct X as ((o & O) & _). eapply made_num; eassumption.
  - apply nodup_filter, G.
Qed.
Lemma good_step : forall s e, good s -> good (step s e).
Proof.
  intros s e G. unfold Pro_model.step. destruct (promoted e || negb (own e)); [exact G|]. cbv zeta.
  destruct (later e && _); [|apply good_defeat, G]. apply good_promotes, good_done, good_defeat, G.
Qed.
Lemma good_run : forall es, good (run es).
Proof. intros es. induction es as [|e es IH] using rev_ind; [exact good_init|]. rewrite run_snoc. apply good_step, IH. Qed.

(* Nothing is taken back. *)
Definition grows (s t : state) : Prop :=
  incl (made s) (made t) /\ incl (invalid s) (invalid t) /\ incl (defeating s) (defeating t) /\ incl (done s) (done t).
Lemma grows_refl : forall s, grows s s.
Proof. intros s. repeat split; apply incl_refl. Qed.
Lemma grows_trans : forall s t u, grows s t -> grows t u -> grows s u.
Proof. intros s t u (A & B & C & D) (A' & B' & C' & D'). repeat split; eapply incl_tran; eassumption. Qed.
Lemma grows_promote : forall e s f, grows s (promote e s f).
Proof.
  intros e s f. destruct (promote_cases e s f) as [-> | (_ & _ & _ & _ & _ & ->)]; [apply grows_refl|].
  repeat split; cbn; try apply incl_refl. apply incl_appl, incl_refl.
Qed.
Lemma grows_promotes : forall e l s, grows s (fold_left (promote e) l s).
Proof. intros e l. induction l as [|f l IH]; intros s; [apply grows_refl|]. eapply grows_trans; [apply grows_promote|apply IH]. Qed.
Lemma grows_defeat : forall i s, grows s (defeat i s).
Proof. intros i s. repeat split; cbn; try apply incl_refl; [apply incl_appr, incl_refl|apply incl_appl, incl_refl]. Qed.
Lemma grows_step : forall s e, grows s (step s e).
Proof.
  intros s e. unfold Pro_model.step. destruct (promoted e || negb (own e)); [apply grows_refl|]. cbv zeta.
  eapply grows_trans; [apply (grows_defeat (inp e))|]. destruct (later e && _); [|apply grows_refl].
  eapply grows_trans; [|apply grows_promotes]. repeat split; cbn; try apply incl_refl. apply incl_tl, incl_refl.
Qed.
Lemma grows_steps : forall e2 s, grows s (fold_left step e2 s).
Proof. intros e2. induction e2 as [|e e2 IH]; intros s; [apply grows_refl|]. eapply grows_trans; [apply grows_step|apply IH]. Qed.

Lemma step_counts : forall s e, counts e ->
  step s e = (if later e && negb (existsb (Nat.eqb (ov e)) (done s))
              then fold_left (promote e) (saved e) (St (entries (defeat (inp e) s)) (invalid (defeat (inp e) s)) (defeating (defeat (inp e) s)) (ov e :: done s) (made s))
              else defeat (inp e) s).
Proof. intros s e (P & O). unfold Pro_model.step. rewrite P, O. reflexivity. Qed.

(* An input defeats what was promoted before. *)
Lemma defeated : forall es e e2 n o f p, counts e -> In (n, o, f, p) (made (run es)) -> evidence (inp e) p = true ->
  In n (invalid (run (es ++ e :: e2))).
Proof.
  intros es e e2 n o f p C M E. rewrite run_app. cbn [fold_left]. apply (grows_steps e2).
  assert (D : In n (invalid (defeat (inp e) (run es)))).
  { cbn. destruct (in_dec Nat.eq_dec n (invalid (run es))) as [I|I]; [apply in_or_app; right; exact I|]. apply in_or_app. left. apply in_map_iff. exists (n, f, p).
    split; [reflexivity|]. apply filter_In. split; [|exact E]. apply (g_ent _ (good_run es)). split; [exists o; exact M|exact I]. }
  rewrite (step_counts _ _ C). destruct (later e && _); [|exact D]. apply grows_promotes. exact D.
Qed.
(* Where a promoted fact comes from. *)
Lemma promotes_from : forall e l s x, In x (made (fold_left (promote e) l s)) -> In x (made s) \/
  exists n f, x = (n, ov e, f, shifted f (inp e)) /\ In f l /\ icst f = false /\ timeless f (inp e) = false /\ accepts e f = true /\
    (length (made s) <= n)%nat /\ forall g, In g (defeating s) -> evidence (shifted f (inp e)) g = false.
Proof.
  intros e l. induction l as [|f l IH]; intros s x H; [left; exact H|]. cbn [fold_left] in H. apply IH in H.
  destruct H as [H | (n & g & E & I & A & B & C & N & D)].
  - destruct (promote_cases e s f) as [R | (A & B & _ & D & C & R)]; rewrite R in H; [left; exact H|]. cbn in H. apply in_app_or in H.
    destruct H as [H | [H | []]]; [left; exact H|]. right. exists (length (made s)), f. subst x. split; [reflexivity|]. split; [left; reflexivity|]. auto.
  - right. exists n, g. split; [exact E|]. split; [right; exact I|]. repeat (split; [assumption|]).
    destruct (promote_cases e s f) as [R | (_ & _ & _ & _ & _ & R)]; rewrite R in N, D; [split; [exact N|exact D]|]. cbn in N, D. rewrite app_length in N. split; [lia|exact D].
Qed.
Lemma later_iff : forall e, later e = true <-> is_later e.
Proof.
  intros e. unfold later, is_later. rewrite andb_true_iff, Z.ltb_lt. destruct (fwd_before e) as [b|].
  - rewrite Z.leb_le. split; [intros (A & B); split; [exists b; auto|exact A]|]. intros ((b' & E & B) & A). injection E as <-. auto.
  - split; [intros (_ & X); discriminate|]. intros ((b' & E & _) & _). discriminate.
Qed.
Lemma step_from : forall s e x, In x (made (step s e)) -> In x (made s) \/
  counts e /\ is_later e /\ ~ In (ov e) (done s) /\
  exists n f, x = (n, ov e, f, shifted f (inp e)) /\ In f (saved e) /\ icst f = false /\ timeless f (inp e) = false /\ accepts e f = true /\
    (length (made s) <= n)%nat /\ forall g, In g (defeating s) -> evidence (shifted f (inp e)) g = false.
Proof.
  intros s e x H. destruct (promoted e || negb (own e)) eqn:Q; [left; unfold Pro_model.step in H; rewrite Q in H; exact H|].
  assert (C : counts e) by (apply orb_false_iff in Q; destruct Q as (Q1 & Q2); split; [exact Q1|apply negb_false_iff, Q2]).
  rewrite (step_counts _ _ C) in H. destruct (later e && _) eqn:L; [|left; exact H].
  apply andb_true_iff in L. destruct L as (L & N). apply promotes_from in H. destruct H as [H | (n & f & E & I & A & B & D & M & F)]; [left; exact H|].
  right. split; [exact C|]. split; [apply later_iff, L|]. split.
  - intros X. apply negb_true_iff in N. assert (Y : existsb (Nat.eqb (ov e)) (done s) = true); [|congruence]. apply existsb_exists. exists (ov e). split; [exact X|apply Nat.eqb_refl].
  - exists n, f. repeat (split; [assumption|]). intros g G. apply F. cbn. apply in_or_app. left. exact G.
Qed.
Lemma origin : forall es n o f p, In (n, o, f, p) (made (run es)) ->
  exists e1 e e2, es = e1 ++ e :: e2 /\ counts e /\ is_later e /\ o = ov e /\ In f (saved e) /\ icst f = false /\ timeless f (inp e) = false /\
    kept_for f (inp e) p.
Proof.
  intros es. induction es as [|e es IH] using rev_ind; intros n o f p H; [destruct H|]. rewrite run_snoc in H. apply step_from in H.
  destruct H as [H | (C & L & _ & m & g & E & I & A & B & _)].
  - destruct (IH _ _ _ _ H) as (e1 & x & e2 & -> & R). exists e1, x, (e2 ++ [e]). split; [rewrite <- app_assoc; reflexivity|exact R].
  - injection E as <- -> <- ->. exists es, e, []. split; [reflexivity|]. repeat (split; [assumption|]). split; [reflexivity|]. repeat (split; [assumption|]). repeat split.
Qed.
(* What has defeated a fact is not promoted against. *)
Lemma not_against : forall es e2 n o f p g, In (n, o, f, p) (made (run (es ++ e2))) -> ~ In (n, o, f, p) (made (run es)) ->
  In g (defeating (run es)) -> evidence p g = false.
Proof.
  intros es e2. induction e2 as [|e e2 IH] using rev_ind; intros n o f p g H N G; [rewrite app_nil_r in H; contradiction|].
  rewrite app_assoc, run_snoc in H. apply step_from in H. destruct H as [H | (_ & _ & _ & m & f' & E & _ & _ & _ & _ & _ & F)]; [eapply IH; eassumption|].
  injection E as _ _ _ ->. apply F. rewrite run_app. apply (grows_steps e2), G.
Qed.
Lemma defeating_iff : forall es e n o f p, counts e -> In (n, o, f, p) (made (run es)) -> ~ In n (invalid (run es)) -> evidence (inp e) p = true ->
  In (inp e) (defeating (run (es ++ [e]))).
Proof.
  intros es e n o f p C M I E. rewrite run_snoc, (step_counts _ _ C).
  assert (D : In (inp e) (defeating (defeat (inp e) (run es)))).
  { cbn. apply in_or_app. right. apply in_map_iff. exists (n, f, p). split; [reflexivity|]. apply filter_In. split; [|exact E]. apply (g_ent _ (good_run es)). split; [exists o; exact M|exact I]. }
  destruct (later e && _); [|exact D]. apply grows_promotes. exact D.
Qed.
Lemma one_of_each : forall es n f p n' f' p', stands (run es) n f p -> stands (run es) n' f' p' -> fid f = fid f' -> n = n'.
Proof.
  intros es n f p n' f' p' A B E. pose proof (good_run es) as G. apply (g_ent _ G) in A, B. pose proof (g_dup _ G) as D.
  revert A B D. generalize (entries (run es)) as l. induction l as [|d l IH]; intros A B D; [destruct A|]. cbn in D. inversion D as [|y k N M]; subst.
  destruct A as [A|A], B as [B|B].
  - rewrite A in B. injection B as <- _ _. reflexivity.
  - subst d. exfalso. apply N. apply in_map_iff. exists (n', f', p'). split; [cbn; symmetry; exact E|exact B].
  - subst d. exfalso. apply N. apply in_map_iff. exists (n, f, p). split; [exact E|exact A].
  - apply IH; assumption.
Qed.
(* Once an overlay has promoted, it is done with. *)
Lemma done_after : forall s e, counts e -> is_later e -> In (ov e) (done (step s e)).
Proof.
  intros s e C L. apply later_iff in L. rewrite (step_counts _ _ C), L. cbn [andb]. destruct (existsb (Nat.eqb (ov e)) (done s)) eqn:X; cbn [negb].
  - apply existsb_exists in X. destruct X as (y & I & E). apply Nat.eqb_eq in E. subst y. exact I.
  - apply grows_promotes. left. reflexivity.
Qed.
Lemma made_more : forall e l s, exists x, made (fold_left (promote e) l s) = made s ++ x /\ forall y, In y x -> of_ov (ov e) y = true.
Proof.
  intros e l. induction l as [|f l IH]; intros s; [exists []; split; [symmetry; apply app_nil_r|intros y []]|]. cbn [fold_left]. destruct (IH (promote e s f)) as (x & -> & X).
  destruct (promote_cases e s f) as [-> | (_ & _ & _ & _ & _ & ->)]; [exists x; auto|]. cbn [made]. eexists. split; [rewrite <- app_assoc; reflexivity|].
  intros y [<- | Y]; [cbn; apply Nat.eqb_refl|apply X, Y].
Qed.
Lemma done_silent : forall s e o, In o (done s) -> filter (of_ov o) (made (step s e)) = filter (of_ov o) (made s).
Proof.
  intros s e o D. unfold Pro_model.step. destruct (promoted e || negb (own e)); [reflexivity|]. cbv zeta.
  destruct (later e && _) eqn:L; [|reflexivity]. apply andb_true_iff in L. destruct L as (_ & L). cbn [done Pro_model.defeat] in L.
  match goal with |- filter _ (made (fold_left _ _ ?t)) = _ => destruct (made_more e (saved e) t) as (x & -> & X) end. cbn [made Pro_model.defeat].
  rewrite filter_app. replace (filter (of_ov o) x) with (@nil (nat * nat * fact * fact)); [apply app_nil_r|]. symmetry.
  assert (N : o <> ov e). { intros ->. apply negb_true_iff in L. assert (Y : existsb (Nat.eqb (ov e)) (done s) = true); [|congruence]. apply existsb_exists. exists (ov e). split; [exact D|apply Nat.eqb_refl]. }
  induction x as [|y x IH]; [reflexivity|]. cbn. destruct (of_ov o y) eqn:E; [|apply IH; intros z Z; apply X; right; exact Z].
  exfalso. specialize (X y (or_introl eq_refl)). unfold of_ov in *. apply Nat.eqb_eq in E, X. congruence.
Qed.
Lemma overlay_once : forall es e e2, counts e -> is_later e ->
  filter (of_ov (ov e)) (made (run (es ++ e :: e2))) = filter (of_ov (ov e)) (made (run (es ++ [e]))).
Proof.
  intros es e e2 C L. replace (es ++ e :: e2) with ((es ++ [e]) ++ e2) by (rewrite <- app_assoc; reflexivity). rewrite run_app.
  assert (D : In (ov e) (done (run (es ++ [e])))) by (rewrite run_snoc; apply done_after; assumption).
  revert D. generalize (run (es ++ [e])) as s. induction e2 as [|x e2 IH]; intros s D; [reflexivity|]. cbn [fold_left]. rewrite IH; [apply done_silent, D|]. apply grows_step, D.
Qed.
(* What is promoted for sure. *)
Lemma entries_promotes : forall e l s d, In d (entries s) -> In d (entries (fold_left (promote e) l s)).
Proof.
  intros e l. induction l as [|f l IH]; intros s d H; [exact H|]. cbn [fold_left]. apply IH. destruct (promote_cases e s f) as [-> | (_ & _ & _ & _ & _ & ->)]; [exact H|right; exact H].
Qed.
Lemma promotes_all : forall e l s f, In f l -> icst f = false -> timeless f (inp e) = false -> accepts e f = true ->
  (forall g, In g (defeating s) -> evidence (shifted f (inp e)) g = false) ->
  exists d, In d (entries (fold_left (promote e) l s)) /\ fid (orig d) = fid f.
Proof.
  intros e l. induction l as [|x l IH]; intros s f I A B C D; [destruct I|]. cbn [fold_left]. destruct I as [-> | I].
  - assert (Y : exists d, In d (entries (promote e s f)) /\ fid (orig d) = fid f).
    { unfold Pro_model.promote. rewrite A, B, C. destruct (existsb _ (entries s)) eqn:X.
      - apply existsb_exists in X. destruct X as (d & E & F). exists d. split; [exact E|apply Nat.eqb_eq, F].
      - cbv zeta. destruct (existsb _ (defeating s)) eqn:Z.
        + apply existsb_exists in Z. destruct Z as (g & G & Z). rewrite (D g G) in Z. discriminate.
        + eexists. split; [left; reflexivity|reflexivity]. }
    destruct Y as (d & E & F). exists d. split; [apply entries_promotes, E|exact F].
  - apply IH; auto. destruct (promote_cases e s x) as [-> | (_ & _ & _ & _ & _ & ->)]; exact D.
Qed.
Lemma all_kept : forall es e f, counts e -> is_later e -> ~ In (ov e) (done (run es)) -> In f (saved e) -> icst f = false -> timeless f (inp e) = false ->
  accepts e f = true -> (forall g, In g (defeating (run (es ++ [e]))) -> evidence (shifted f (inp e)) g = false) ->
  exists n f' p, stands (run (es ++ [e])) n f' p /\ fid f' = fid f.
Proof.
  intros es e f C L N I A B X D. pose proof (good_run (es ++ [e])) as G. rewrite run_snoc in *. 
  assert (Y : exists d, In d (entries (step (run es) e)) /\ fid (orig d) = fid f).
  { apply later_iff in L. rewrite (step_counts _ _ C), L in *. cbn [andb] in *. destruct (existsb (Nat.eqb (ov e)) (done (run es))) eqn:Z; cbn [negb] in *.
    - exfalso. apply existsb_exists in Z. destruct Z as (y & J & E). apply Nat.eqb_eq in E. subst y. contradiction.
    - apply promotes_all; auto. intros g J. apply D. apply grows_promotes. exact J. }
  destruct Y as (((n & f') & p) & E & F). exists n, f', p. split; [apply (g_ent _ G), E|exact F].
Qed.
Lemma done_from : forall es o, In o (done (run es)) -> exists e1 e e2, es = e1 ++ e :: e2 /\ counts e /\ is_later e /\ o = ov e.
Proof.
  assert (F : forall e l s, done (fold_left (promote e) l s) = done s).
  { intros e l. induction l as [|f l IH]; intros s; [reflexivity|]. cbn [fold_left]. rewrite IH. destruct (promote_cases e s f) as [-> | (_ & _ & _ & _ & _ & ->)]; reflexivity. }
  intros es. induction es as [|e es IH] using rev_ind; intros o H; [destruct H|]. rewrite run_snoc in H.
  assert (Y : In o (done (run es)) \/ counts e /\ is_later e /\ o = ov e).
  { destruct (promoted e || negb (own e)) eqn:Q; [left; unfold Pro_model.step in H; rewrite Q in H; exact H|].
    assert (C : counts e) by (apply orb_false_iff in Q; destruct Q as (Q1 & Q2); split; [exact Q1|apply negb_false_iff, Q2]).
    rewrite (step_counts _ _ C) in H. destruct (later e && _) eqn:L; [|left; exact H]. rewrite F in H. cbn in H. apply andb_true_iff in L. destruct L as (L & _).
    destruct H as [<- | H]; [right; split; [exact C|split; [apply later_iff, L|reflexivity]]|left; exact H]. }
  destruct Y as [Y | Y].
  - destruct (IH _ Y) as (e1 & x & e2 & -> & R). exists e1, x, (e2 ++ [e]). split; [rewrite <- app_assoc; reflexivity|exact R].
  - exists es, e, []. auto.
Qed.
Lemma in_the_way : forall es g, In g (defeating (run es)) <->
  exists e1 e e2 n f p, es = e1 ++ e :: e2 /\ counts e /\ g = inp e /\ stands (run e1) n f p /\ evidence g p = true.
Proof.
  assert (F : forall e l s, defeating (fold_left (promote e) l s) = defeating s).
  { intros e l. induction l as [|f l IH]; intros s; [reflexivity|]. cbn [fold_left]. rewrite IH. destruct (promote_cases e s f) as [-> | (_ & _ & _ & _ & _ & ->)]; reflexivity. }
  intros es g. split.
  - induction es as [|e es IH] using rev_ind; intros H; [destruct H|]. rewrite run_snoc in H.
    assert (Y : In g (defeating (run es)) \/ counts e /\ g = inp e /\ exists n f p, stands (run es) n f p /\ evidence g p = true).
    { destruct (promoted e || negb (own e)) eqn:Q; [left; unfold Pro_model.step in H; rewrite Q in H; exact H|].
      assert (C : counts e) by (apply orb_false_iff in Q; destruct Q as (Q1 & Q2); split; [exact Q1|apply negb_false_iff, Q2]).
      rewrite (step_counts _ _ C) in H. assert (K : In g (defeating (defeat (inp e) (run es)))) by (destruct (later e && _); [rewrite F in H|]; exact H).
      cbn in K. apply in_app_or in K. destruct K as [K|K]; [left; exact K|]. right. apply in_map_iff in K. destruct K as (((n & f) & p) & <- & K). apply filter_In in K. destruct K as (K & E).
      split; [exact C|split; [reflexivity|]]. exists n, f, p. split; [apply (g_ent _ (good_run es)), K|exact E]. }
    destruct Y as [Y | (C & E & n & f & p & S & V)].
    + destruct (IH Y) as (e1 & x & e2 & n & f & p & -> & R). exists e1, x, (e2 ++ [e]), n, f, p. split; [rewrite <- app_assoc; reflexivity|exact R].
    + exists es, e, [], n, f, p. auto 7.
  - intros (e1 & e & e2 & n & f & p & -> & C & -> & ((o & M) & I) & E). replace (e1 ++ e :: e2) with ((e1 ++ [e]) ++ e2) by (rewrite <- app_assoc; reflexivity).
    rewrite run_app. apply (grows_steps e2). eapply defeating_iff; eassumption.
Qed.
Lemma only_defeated : forall es n, In n (invalid (run es)) ->
  exists e1 e e2 o f p, es = e1 ++ e :: e2 /\ counts e /\ In (n, o, f, p) (made (run e1)) /\ evidence (inp e) p = true.
Proof.
  assert (F : forall e l s, invalid (fold_left (promote e) l s) = invalid s).
  { intros e l. induction l as [|f l IH]; intros s; [reflexivity|]. cbn [fold_left]. rewrite IH. destruct (promote_cases e s f) as [-> | (_ & _ & _ & _ & _ & ->)]; reflexivity. }
  intros es n. induction es as [|e es IH] using rev_ind; intros H; [destruct H|]. rewrite run_snoc in H.
  assert (Y : In n (invalid (run es)) \/ counts e /\ exists o f p, In (n, o, f, p) (made (run es)) /\ evidence (inp e) p = true).
  { destruct (promoted e || negb (own e)) eqn:Q; [left; unfold Pro_model.step in H; rewrite Q in H; exact H|].
    assert (C : counts e) by (apply orb_false_iff in Q; destruct Q as (Q1 & Q2); split; [exact Q1|apply negb_false_iff, Q2]).
    rewrite (step_counts _ _ C) in H. assert (K : In n (invalid (defeat (inp e) (run es)))) by (destruct (later e && _); [rewrite F in H|]; exact H).
    cbn in K. apply in_app_or in K. destruct K as [K|K]; [|left; exact K]. right. apply in_map_iff in K. destruct K as (((m & f) & p) & E & K). cbn in E. subst m. apply filter_In in K. destruct K as (K & V).
    split; [exact C|]. apply (g_ent _ (good_run es)) in K. destruct K as ((o & O) & _). exists o, f, p. split; [exact O|exact V]. }
  destruct Y as [Y | (C & o & f & p & M & V)].
  - destruct (IH Y) as (e1 & x & e2 & o & f & p & -> & R). exists e1, x, (e2 ++ [e]), o, f, p. split; [rewrite <- app_assoc; reflexivity|exact R].
  - exists es, e, [], o, f, p. auto.
Qed.
End Pro.
