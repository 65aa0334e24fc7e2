(* Proofs on the clock, the facts kept and the requirements kept. *)
From Coq Require Import ZArith QArith List Bool Arith Lia ZifyBool.
From Verif Require Import Sto_model Sto_spec.
Import ListNotations.
Open Scope Z_scope.

Lemma snoc_split : forall {A} (es e1 e2 : list A) e x,
  es ++ [e] = e1 ++ x :: e2 -> (e2 = [] /\ e1 = es /\ x = e) \/ (exists e2', e2 = e2' ++ [e] /\ es = e1 ++ x :: e2').
Proof.
  intros A es e1 e2 e x H. destruct e2 as [|y e2] using rev_ind.
  - left. apply app_inj_tail in H. destruct H; subst; auto.
  - right. exists e2. rewrite app_comm_cons, app_assoc in H. apply app_inj_tail in H. destruct H; subst; auto.
Qed.

Lemma time_snoc : forall es e, time (es ++ [e]) = time es + match e with Pass d => Z.max 0 d | _ => 0 end.
Proof. induction es as [|x es IH]; intros e; cbn [app time]; [destruct e; cbn [time]; lia|]. destruct x; rewrite IH; lia. Qed.
Lemma kills_snoc : forall es e, kills (es ++ [e]) = kills es ++ match e with Kill i => [i] | _ => [] end.
Proof. induction es as [|x es IH]; intros e; cbn [app kills]; [destruct e; reflexivity|]. destruct x; rewrite IH; reflexivity. Qed.
Lemma mem_app : forall i l k, mem i (l ++ k) = mem i l || mem i k.
Proof. intros. unfold mem. apply existsb_app. Qed.
Lemma time_snoc_le : forall es e, time es <= time (es ++ [e]).
Proof. intros. rewrite time_snoc. destruct e; lia. Qed.
Lemma mem_snoc : forall es e i, mem i (kills es) = true -> mem i (kills (es ++ [e])) = true.
Proof. intros. rewrite kills_snoc, mem_app, H. reflexivity. Qed.

Section Run.
Context (clash chains : nat -> nat -> bool).
Notation run := (run clash chains).
Notation step := (step clash chains).

Lemma run_snoc : forall es e, run (es ++ [e]) = step (run es) e.
Proof. intros. unfold Sto_model.run. rewrite fold_left_app. reflexivity. Qed.

Lemma clock_time : forall es, now (clock (run es)) = time es.
Proof.
  induction es as [|e es IH] using rev_ind; [reflexivity|]. rewrite run_snoc, time_snoc. unfold Sto_model.step. cbn [clock].
  destruct e; cbn [step_base now]; rewrite IH; lia.
Qed.
Lemma clock_dead : forall es i, is_dead (clock (run es)) i = mem i (kills es).
Proof.
  induction es as [|e es IH] using rev_ind; intros i; [reflexivity|]. rewrite run_snoc, kills_snoc, mem_app. unfold Sto_model.step. cbn [clock].
  destruct e; cbn [step_base]; rewrite <- ?IH; cbn; rewrite ?orb_false_r; try reflexivity.
  unfold is_dead in *. cbn. rewrite IH. rewrite ?orb_false_r. apply orb_comm.
Qed.
Lemma too_old_iff : forall es i a u, too_old (clock (run es)) i a u = negb (negb (mem i (kills es)) && lasts (time es) a u).
Proof.
  intros. unfold too_old, lasts. rewrite clock_dead, clock_time. destruct (mem i (kills es)); [reflexivity|]. cbn [orb negb andb].
  destruct (a =? u) eqn:E; lia.
Qed.

Definition fresh (es : list event) (i : nat) (a u : Z) : bool := negb (mem i (kills es)) && lasts (time es) a u.
Lemma fresh_snoc : forall es e i a u, fresh (es ++ [e]) i a u = true -> fresh es i a u = true.
Proof.
  unfold fresh, lasts. intros es e i a u H. pose proof (time_snoc_le es e).
  destruct (mem i (kills es)) eqn:E; [rewrite (mem_snoc _ _ _ E) in H; cbn in H; discriminate|].
  destruct (negb (mem i (kills (es ++ [e])))); [|discriminate H]. cbn [andb negb] in *. lia.
Qed.

Lemma filter_refine : forall {A} (P Q : A -> bool) l k,
  (forall x, P x = true -> Q x = true) -> filter Q l = filter Q k -> filter P l = filter P k.
Proof.
  intros A P Q l k H E. assert (F : forall m, filter P m = filter P (filter Q m)).
  { induction m as [|x m IH]; [reflexivity|]. cbn. destruct (Q x) eqn:X; cbn; [rewrite IH; reflexivity|].
    destruct (P x) eqn:Y; [rewrite (H x Y) in X; discriminate|exact IH]. }
  rewrite (F l), (F k), E. reflexivity.
Qed.
Lemma filter_all : forall {A} (P Q : A -> bool) l, (forall x, P x = true -> Q x = true) -> filter P (filter Q l) = filter P l.
Proof.
  intros A P Q l H. induction l as [|x l IH]; [reflexivity|]. cbn. destruct (Q x) eqn:X; cbn; [rewrite IH; reflexivity|].
  destruct (P x) eqn:Y; [rewrite (H x Y) in X; discriminate|exact IH].
Qed.
Lemma filter_sweep : forall {A} (P old : A -> bool) n l, (forall x, P x = true -> old x = false) -> filter P (sweep old n l) = filter P l.
Proof.
  intros A P old n l H. revert l. induction n as [|n IH]; intros [|x l]; cbn; try reflexivity.
  destruct (old x) eqn:X; cbn; rewrite IH; [|reflexivity].
  destruct (P x) eqn:Y; [rewrite (H x Y) in X; discriminate|reflexivity].
Qed.

(* Requirements. *)
Lemma current_fresh : forall es r, current es r = fresh es (rid r) (rfrom r) (runtil r).
Proof. reflexivity. Qed.
Lemma old_req_iff : forall es r, old_req (clock (run es)) r = negb (current es r).
Proof. intros. apply too_old_iff. Qed.
Lemma current_snoc : forall es e r, current (es ++ [e]) r = true -> current es r = true.
Proof. intros es e r. apply fresh_snoc. Qed.
Lemma filter_push : forall es r l, filter (current es) (push (clock (run es)) r l) = filter (current es) (r :: l).
Proof.
  intros. unfold push. cbn [filter]. rewrite filter_all; [reflexivity|]. intros x X. rewrite old_req_iff, X. reflexivity.
Qed.
Lemma filter_look : forall es n l, filter (current es) (sweep (old_req (clock (run es))) n l) = filter (current es) l.
Proof. intros. apply filter_sweep. intros x X. rewrite old_req_iff, X. reflexivity. Qed.

Lemma stored_snoc : forall sim neg es e, stored sim neg (es ++ [e]) =
  match e with Store r => if Bool.eqb (rneg r) neg && Bool.eqb (is_sim r) sim then r :: stored sim neg es else stored sim neg es | _ => stored sim neg es end.
Proof.
  intros. unfold stored. rewrite flat_map_app, rev_app_distr. cbn. destruct e; try reflexivity. destruct (_ && _); reflexivity.
Qed.
Lemma stored2_snoc : forall neg es e, stored2 neg (es ++ [e]) =
  match e with
  | Store r => if Bool.eqb (rneg r) neg && negb (is_sim r) then r :: stored2 neg es else stored2 neg es
  | Store2 r => if Bool.eqb (rneg r) neg then r :: stored2 neg es else stored2 neg es
  | _ => stored2 neg es end.
Proof.
  intros. unfold stored2. rewrite flat_map_app, rev_app_distr. cbn. destruct e; try reflexivity; [destruct (_ && _)|destruct (Bool.eqb _ _)]; reflexivity.
Qed.

Definition all_kept (es : list event) (P : req -> bool) (s : reqs) : Prop :=
  filter P (rpos s) = filter P (stored false false es) /\ filter P (rneg_ s) = filter P (stored false true es) /\
  filter P (spos s) = filter P (stored true false es) /\ filter P (sneg s) = filter P (stored true true es) /\
  filter P (rpos2 s) = filter P (stored2 false es) /\ filter P (rneg2 s) = filter P (stored2 true es).
Lemma all_refine : forall es P Q s, (forall x, P x = true -> Q x = true) -> all_kept es Q s -> all_kept es P s.
Proof.
  intros es P Q s H (A & B & C & D & E & F). unfold all_kept.
  repeat split; eapply filter_refine; try exact H; assumption.
Qed.
Lemma push_eq : forall es r l k, filter (current es) l = filter (current es) k -> filter (current es) (push (clock (run es)) r l) = filter (current es) (r :: k).
Proof. intros. rewrite filter_push. cbn. rewrite H. reflexivity. Qed.
Lemma kept_reqs : forall es, all_kept es (current es) (demands (run es)).
Proof.
  induction es as [|e es IH] using rev_ind; [repeat split|]. rewrite run_snoc. unfold Sto_model.step. cbn [demands].
  apply all_refine with (Q := current es); [intros x; apply current_snoc|].
  destruct IH as (A & B & C & D & E & F). unfold all_kept. rewrite !stored_snoc, !stored2_snoc.
  destruct e; cbn [step_reqs]; try (repeat split; assumption).
  - destruct sim, neg; cbn [rpos rneg_ spos sneg rpos2 rneg2]; rewrite filter_look; repeat split; assumption.
  - unfold store, is_sim. destruct (rneg r), (rsims r); cbn [rpos rneg_ spos sneg rpos2 rneg2 Bool.eqb negb andb]; repeat split; try assumption; apply push_eq; assumption.
  - destruct (rneg r); cbn [rpos rneg_ spos sneg rpos2 rneg2 Bool.eqb negb andb]; repeat split; try assumption; apply push_eq; assumption.
  - destruct (_ && _); repeat split; assumption.
Qed.

(* Facts. *)
Definition fresh_fact (es : list event) (f : fact) : bool := fresh es (fid f) (start f) (finish f).
Lemma old_fact_iff : forall es f, old_fact (clock (run es)) f = negb (fresh_fact es f).
Proof. intros. apply too_old_iff. Qed.

Definition has (f : fact) (l : list fact) : bool := existsb (fun x => (fid x =? fid f)%nat) l.
Lemma keep_found : forall b f l, fst (keep b f l) = has f l.
Proof.
  intros b f. induction l as [|x l IH]; [reflexivity|]. cbn. destruct (fid x =? fid f)%nat eqn:E; [reflexivity|]. cbn.
  destruct (old_fact b x); [exact IH|]. destruct (keep b f l). exact IH.
Qed.
Lemma keep_filter : forall es P f l, (forall x, P x = true -> fresh_fact es x = true) ->
  filter P (snd (keep (clock (run es)) f l)) = filter P l.
Proof.
  intros es P f l H. induction l as [|x l IH]; [reflexivity|]. cbn. destruct (fid x =? fid f)%nat eqn:E; [reflexivity|].
  rewrite old_fact_iff. destruct (fresh_fact es x) eqn:X; cbn.
  - destruct (keep (clock (run es)) f l). cbn in *. rewrite IH. reflexivity.
  - rewrite IH. destruct (P x) eqn:Y; [rewrite (H x Y) in X; discriminate|reflexivity].
Qed.
Lemma keep_in : forall b f l x, In x (snd (keep b f l)) -> In x l.
Proof.
  intros b f. induction l as [|y l IH]; intros x H; [exact H|]. cbn in H. destruct (fid y =? fid f)%nat; [exact H|].
  destruct (old_fact b y); [right; apply IH; exact H|]. destruct (keep b f l) as [a l']. cbn in H. destruct H as [<-|H]; [left; reflexivity|right; apply IH; exact H].
Qed.
Lemma sweep_in : forall {A} (old : A -> bool) n l x, In x (sweep old n l) -> In x l.
Proof.
  intros A old. induction n as [|n IH]; intros [|y l] x H; try exact H. cbn in H. destruct (old y); [right; eapply IH; exact H|].
  destruct H as [<-|H]; [left; reflexivity|right; eapply IH; exact H].
Qed.
Lemma store_evidence_eq : forall b f l, store_evidence b f l = if has f l then snd (keep b f l) else f :: snd (keep b f l).
Proof. intros. unfold store_evidence. rewrite <- (keep_found b f l). destruct (keep b f l). reflexivity. Qed.
Lemma store_in : forall b f l x, In x (store_evidence b f l) -> x = f \/ In x l.
Proof.
  intros b f l x. rewrite store_evidence_eq. destruct (has f l); intros H; [right; eapply keep_in; exact H|].
  destruct H as [<-|H]; [left; reflexivity|right; eapply keep_in; exact H].
Qed.

Lemma inputs_snoc : forall w es e, inputs w (es ++ [e]) = inputs w es ++ match e with Input f => if w f then [f] else [] | _ => [] end.
Proof. intros. unfold inputs. rewrite flat_map_app. cbn. rewrite app_nil_r. destruct e; reflexivity. Qed.
Lemma once_snoc : forall l f, once (l ++ [f]) = if has f (once l) then once l else f :: once l.
Proof. intros. unfold once. rewrite fold_left_app. reflexivity. Qed.
Lemma once_in : forall l x, In x (once l) -> In x l.
Proof.
  induction l as [|f l IH] using rev_ind; intros x H; [exact H|]. rewrite once_snoc in H. apply in_or_app.
  destruct (has f (once l)); [left; apply IH; exact H|]. destruct H as [<-|H]; [right; left; reflexivity|left; apply IH; exact H].
Qed.
Lemma in_inputs : forall w es f, In f (inputs w es) <-> In (Input f) es /\ w f = true.
Proof.
  intros w es f. unfold inputs. rewrite in_flat_map. split.
  - intros (e & E & H). destruct e; try destruct H. destruct (w f0) eqn:W; [|destruct H]. destruct H as [<-|[]]. auto.
  - intros (E & H). exists (Input f). split; [exact E|]. rewrite H. left. reflexivity.
Qed.
Lemma has_iff : forall f l, has f l = true <-> exists x, In x l /\ fid x = fid f.
Proof.
  intros. unfold has. rewrite existsb_exists. split; intros (x & X & E); exists x; split; auto; [apply Nat.eqb_eq|apply Nat.eqb_eq]; exact E.
Qed.

(* The cache and the list of what came agree on what is fresh. *)
Lemma store_agrees : forall es w l f,
  (forall x, In x l -> In x (inputs w es)) -> w f = true -> named (es ++ [Input f]) ->
  filter (fresh_fact es) l = filter (fresh_fact es) (once (inputs w es)) ->
  filter (fresh_fact es) (store_evidence (clock (run es)) f l) = filter (fresh_fact es) (once (inputs w es ++ [f])).
Proof.
  intros es w l f Sub W N E. rewrite store_evidence_eq, once_snoc.
  assert (Nm : forall x, In x (inputs w es) -> fid x = fid f -> x = f).
  { intros x X F. apply in_inputs in X. apply N; [apply in_or_app; left; apply X|apply in_or_app; right; left; reflexivity|exact F]. }
  destruct (has f l) eqn:H1, (has f (once (inputs w es))) eqn:H2.
  - rewrite keep_filter; auto.
  - exfalso. apply has_iff in H1. destruct H1 as (x & X & F). pose proof (Nm x (Sub x X) F). subst x.
    assert (In f (once (inputs w es))); [|assert (has f (once (inputs w es)) = true) by (apply has_iff; exists f; auto); congruence].
    clear -X Sub H2 Nm. specialize (Sub f X). exfalso. revert H2. apply not_false_iff_true.
    clear X Nm. remember (inputs w es) as k. clear Heqk. induction k as [|y k IH] using rev_ind; [destruct Sub|]. rewrite once_snoc.
    apply in_app_or in Sub. destruct Sub as [S|[<-|[]]].
    + destruct (has y (once k)); [apply IH; exact S|]. apply has_iff in IH; [|exact S]. destruct IH as (x & X & F). apply has_iff. exists x. split; [right; exact X|exact F].
    + destruct (has y (once k)) eqn:Y; [exact Y|]. apply has_iff. exists y. split; [left; reflexivity|reflexivity].
  - cbn [filter]. rewrite keep_filter; auto. destruct (fresh_fact es f) eqn:Fr; [|exact E]. exfalso.
    apply has_iff in H2. destruct H2 as (x & X & F). assert (x = f) by (apply Nm; [apply once_in; exact X|exact F]). subst x.
    assert (In f (filter (fresh_fact es) l)) by (rewrite E; apply filter_In; auto).
    apply filter_In in H. assert (has f l = true) by (apply has_iff; exists f; split; [apply H|reflexivity]). congruence.
  - cbn [filter]. rewrite keep_filter; auto. rewrite E. reflexivity.
Qed.

Definition agrees (es : list event) (s : kept) : Prop :=
  (forall x, In x (facts s) -> In x (inputs actual es)) /\ (forall x, In x (predicted s) -> In x (inputs foreseen es)).
Lemma kept_in : forall es, agrees es (caches (run es)).
Proof.
  induction es as [|e es IH] using rev_ind; [split; intros x []|]. destruct IH as (A & B). rewrite run_snoc. unfold Sto_model.step. cbn [caches].
  unfold agrees. rewrite !inputs_snoc. set (s := caches (run es)) in *.
  assert (A' : forall x k, In x (facts s) -> In x (inputs actual es ++ k)) by (intros; apply in_or_app; left; auto).
  assert (B' : forall x k, In x (predicted s) -> In x (inputs foreseen es ++ k)) by (intros; apply in_or_app; left; auto).
  destruct e; cbn [step_kept]; try (split; auto; fail).
  - unfold actual at 2, foreseen at 2. destruct (target f) eqn:T; [destruct (simulated f)|]; cbn [facts predicted negb]; split; intros x H;
    first [apply A'; exact H | apply B'; exact H | apply store_in in H; destruct H as [->|H];
      [apply in_or_app; right; left; reflexivity | first [apply A'; exact H | apply B'; exact H]]].
  - cbn [facts predicted]. split; intros x H; apply sweep_in in H; auto.
  - destruct (rneg r); split; auto.
  - destruct (rneg r); split; auto.
  - destruct second; destruct (take_nth k _) as [[r q]|]; try (split; auto; fail); cbn [facts predicted].
    split; intros x H; apply filter_In in H; destruct H; auto.
Qed.

Lemma named_snoc : forall es e, named (es ++ [e]) -> named es.
Proof. intros es e N f g F G. apply N; apply in_or_app; left; assumption. Qed.
Lemma fresh_fact_snoc : forall es e f, fresh_fact (es ++ [e]) f = true -> fresh_fact es f = true.
Proof. intros es e f. apply fresh_snoc. Qed.

Lemma kept_facts : forall es, named es ->
  filter (fresh_fact es) (facts (caches (run es))) = filter (fresh_fact es) (once (inputs actual es)) /\
  filter (fresh_fact es) (predicted (caches (run es))) = filter (fresh_fact es) (once (inputs foreseen es)).
Proof.
  induction es as [|e es IH] using rev_ind; intros N; [split; reflexivity|].
  destruct (IH (named_snoc _ _ N)) as (A & B). destruct (kept_in es) as (SA & SB). rewrite run_snoc. unfold Sto_model.step. cbn [caches].
  rewrite !inputs_snoc.
  set (s := caches (run es)) in *.
  assert (R : forall l k, filter (fresh_fact es) l = filter (fresh_fact es) k -> filter (fresh_fact (es ++ [e])) l = filter (fresh_fact (es ++ [e])) k).
  { intros l k. apply filter_refine. intros x. apply fresh_fact_snoc. }
  assert (O : forall l, filter (fresh_fact es) (filter (fun f => negb (old_fact (clock (run es)) f)) l) = filter (fresh_fact es) l).
  { intros l. apply filter_all. intros x X. rewrite old_fact_iff, X. reflexivity. }
  destruct e; cbn [step_kept]; rewrite ?app_nil_r; try (split; apply R; assumption).
  - destruct (target f) eqn:T; [destruct (simulated f) eqn:Sm|]; unfold actual at 2, foreseen at 2; rewrite T, ?Sm; cbn [facts predicted negb]; rewrite ?app_nil_r; split; apply R; auto.
    + apply store_agrees; auto. unfold foreseen. rewrite T, Sm. reflexivity.
    + apply store_agrees; auto. unfold actual. rewrite T. reflexivity.
  - cbn [facts predicted]. split; apply R; rewrite filter_sweep; auto; intros x X; rewrite old_fact_iff, X; reflexivity.
  - destruct (rneg r); split; apply R; assumption.
  - destruct (rneg r); split; apply R; assumption.
  - destruct second; destruct (take_nth k _) as [[r q]|]; try (split; apply R; assumption); cbn [facts predicted].
    split; apply R; (etransitivity; [apply O|assumption]).
Qed.

(* A requirement that comes late. *)
Lemma job_done : forall es k r, nth_error (jobs (caches (run es))) k = Some r ->
  exists l1 l2, jobs (caches (run es)) = l1 ++ r :: l2 /\ length l1 = k /\ jobs (caches (run (es ++ [Batch false k]))) = l1 ++ l2.
Proof.
  intros es k r J. rewrite run_snoc. unfold Sto_model.step. cbn [caches step_kept]. unfold take_nth. rewrite J. unfold reduce_cache. cbn [jobs].
  exists (firstn k (jobs (caches (run es)))), (skipn (S k) (jobs (caches (run es)))).
  assert (L : (k < length (jobs (caches (run es))))%nat) by (apply nth_error_Some; congruence).
  split; [|split; [apply firstn_length_le; lia|reflexivity]].
  clear L. revert J. generalize (jobs (caches (run es))) as q. induction k as [|k IH]; intros [|x q] J; try discriminate J.
  - injection J as ->. reflexivity.
  - cbn [firstn skipn app]. f_equal. apply IH, J.
Qed.
Lemma late : forall es k r, named es -> nth_error (jobs (caches (run es))) k = Some r ->
  again (caches (run (es ++ [Batch false k]))) =
  again (caches (run es)) ++ map (fun f => (f, r))
    (filter (open_fact es) (once (inputs actual es)) ++
     filter (fun f => open_target es f && (time es <? until f)) (once (inputs foreseen es))).
Proof.
  intros es k r N J. destruct (kept_facts es N) as (A & B). rewrite run_snoc. unfold Sto_model.step. cbn [caches step_kept].
  unfold take_nth. rewrite J. unfold reduce_cache. cbn [again]. f_equal. f_equal. f_equal.
  - assert (E : forall l, (forall x, In x l -> actual x = true) -> filter (fun f => negb (until f <=? now (clock (run es)))) (filter (fun f => negb (old_fact (clock (run es)) f)) l)
        = filter (open_fact es) (filter (fresh_fact es) l)).
    { induction l as [|x l IHl]; intros Ac; [reflexivity|]. cbn [filter]. rewrite old_fact_iff, negb_involutive, clock_time in *.
      specialize (IHl (fun y Y => Ac y (or_intror Y))).
      destruct (fresh_fact es x) eqn:X; [|exact IHl]. cbn [filter]. rewrite IHl. unfold fresh_fact, fresh, open_fact in *.
      destruct (mem (fid x) (kills es)); [discriminate X|]. cbn [negb andb].
      replace (negb (until x <=? time es)) with (time es <? until x) by lia. reflexivity. }
    rewrite E by (intros x X; apply kept_in in X; apply in_inputs in X; apply X). rewrite A.
    assert (G : forall l, (forall x, In x l -> actual x = true) -> filter (open_fact es) (filter (fresh_fact es) l) = filter (open_fact es) l).
    { induction l as [|x l IHl]; intros Ac; [reflexivity|]. cbn [filter]. specialize (IHl (fun y Y => Ac y (or_intror Y))).
      destruct (fresh_fact es x) eqn:X; cbn [filter]; [rewrite IHl; reflexivity|].
      destruct (open_fact es x) eqn:Y; [|exact IHl]. exfalso. specialize (Ac x (or_introl eq_refl)). unfold actual in Ac.
      unfold fresh_fact, fresh, open_fact, start, finish, lasts in *. destruct (target x); [discriminate|]. destruct (mem (fid x) (kills es)); [discriminate|]. cbn in *. lia. }
    apply G. intros x X. apply once_in, in_inputs in X. apply X.
  - assert (E : forall l, (forall x, In x l -> foreseen x = true) -> filter (fun f => negb (until f <=? now (clock (run es)))) (filter (fun f => negb (old_fact (clock (run es)) f)) l)
        = filter (fun f => time es <? until f) (filter (fresh_fact es) l)).
    { induction l as [|x l IHl]; intros Ac; [reflexivity|]. cbn [filter]. rewrite old_fact_iff, negb_involutive, clock_time in *.
      specialize (IHl (fun y Y => Ac y (or_intror Y))).
      destruct (fresh_fact es x) eqn:X; [|exact IHl]. cbn [filter]. rewrite IHl.
      replace (negb (until x <=? time es)) with (time es <? until x) by lia. reflexivity. }
    rewrite E by (intros x X; apply kept_in in X; apply in_inputs in X; apply X). rewrite B.
    assert (G : forall l, (forall x, In x l -> foreseen x = true) -> filter (fun f => time es <? until f) (filter (fresh_fact es) l) = filter (fun f => open_target es f && (time es <? until f)) l).
    { induction l as [|x l IHl]; intros Ac; [reflexivity|]. cbn [filter]. specialize (IHl (fun y Y => Ac y (or_intror Y))). specialize (Ac x (or_introl eq_refl)).
      assert (F : fresh_fact es x = open_target es x).
      { unfold foreseen in Ac. unfold fresh_fact, fresh, open_target, start, finish. destruct (target x) as [[a u]|]; [reflexivity|discriminate]. }
      rewrite F. destruct (open_target es x); cbn [filter andb]; [rewrite IHl; reflexivity|exact IHl]. }
    apply G. intros x X. apply once_in, in_inputs in X. apply X.
Qed.

(* Jobs. *)
Lemma job_kept : forall es r e2, rneg r = false -> (forall k, ~ In (Batch false k) e2) ->
  In r (jobs (caches (run (es ++ Store r :: e2)))).
Proof.
  intros es r e2 R. induction e2 as [|e e2 IH] using rev_ind; intros H.
  - rewrite run_snoc. unfold Sto_model.step. cbn [caches step_kept]. rewrite R. cbn [jobs]. apply in_or_app. right. left. reflexivity.
  - rewrite app_comm_cons, app_assoc, run_snoc. unfold Sto_model.step. cbn [caches].
    assert (I : In r (jobs (caches (run (es ++ Store r :: e2))))) by (apply IH; intros k X; apply (H k), in_or_app; left; exact X).
    set (s := caches _) in *.
    destruct e; cbn [step_kept]; try exact I.
    + destruct (target f); [destruct (simulated f)|]; exact I.
    + destruct (rneg r0); [exact I|]. cbn [jobs]. apply in_or_app. left. exact I.
    + destruct (rneg r0); exact I.
    + destruct second; [destruct (take_nth k (jobs2 s)) as [[? ?]|]; exact I|]. exfalso. apply (H k), in_or_app. right. left. reflexivity.
Qed.
(* Only positive requirements make jobs; those that are simulated none in the secondary group. *)
Lemma job_from : forall es r, In r (jobs (caches (run es))) -> In (Store r) es /\ rneg r = false.
Proof.
  induction es as [|e es IH] using rev_ind; intros r H; [destruct H|]. rewrite run_snoc in H. unfold Sto_model.step in H. cbn [caches] in H.
  set (s := caches _) in *.
  assert (K : In r (jobs s) -> In (Store r) (es ++ [e]) /\ rneg r = false) by (intros X; apply IH in X; split; [apply in_or_app; left|]; apply X).
  destruct e; cbn [step_kept] in H; auto.
  - destruct (target f); [destruct (simulated f)|]; auto.
  - destruct (rneg r0) eqn:R; auto. cbn [jobs] in H. apply in_app_or in H. destruct H as [H|[<-|[]]]; auto. split; [apply in_or_app; right; left; reflexivity|exact R].
  - destruct (rneg r0); auto.
  - destruct second; unfold take_nth in H; [destruct (nth_error (jobs2 s) k); auto|]. destruct (nth_error (jobs s) k); auto. cbn [jobs reduce_cache] in H.
    apply K. apply in_app_or in H. rewrite <- (firstn_skipn k (jobs s)). apply in_or_app. destruct H as [H|H]; [left; exact H|right].
    clear -H. revert H. generalize (jobs s). intros l. revert l. induction k as [|k IHk]; intros [|x l] H; cbn in H |- *; auto; destruct H.
Qed.

(* Predictions, when a requirement comes late. *)
Lemma none_predicted : forall es,
  (forall e1 f e2, es = e1 ++ Input f :: e2 -> foreseen f = true -> until f <= time e1) ->
  (forall x, In x (predicted (caches (run es))) -> until x <= time es) /\
  (forall f r, In (f, r) (again (caches (run es))) -> target f = None).
Proof.
  induction es as [|e es IH] using rev_ind; intros H; [split; [intros x X; destruct X|intros f r X; destruct X]|].
  assert (H0 : forall e1 f e2, es = e1 ++ Input f :: e2 -> foreseen f = true -> until f <= time e1).
  { intros e1 f e2 X. apply (H e1 f (e2 ++ [e])). rewrite X. rewrite <- app_assoc. reflexivity. }
  destruct (IH H0) as (A & B). pose proof (time_snoc_le es e) as T.
  destruct (kept_in es) as (SA & _).
  rewrite run_snoc. unfold Sto_model.step. cbn [caches]. set (s := caches (run es)) in *.
  assert (A' : forall x, In x (predicted s) -> until x <= time (es ++ [e])) by (intros x X; specialize (A x X); lia).
  destruct e; cbn [step_kept]; try (split; auto; fail).
  - destruct (target f) eqn:Tf; [destruct (simulated f) eqn:Sm|]; try (split; auto; fail). cbn [predicted again]. split; [|exact B].
    intros x X. apply store_in in X. destruct X as [->|X]; auto. specialize (H es f [] eq_refl). unfold foreseen in H. rewrite Tf, Sm in H. specialize (H eq_refl). lia.
  - cbn [predicted again]. split; [|exact B]. intros x X. apply sweep_in in X. auto.
  - destruct (rneg r); split; auto.
  - destruct (rneg r); split; auto.
  - destruct second; destruct (take_nth k _) as [[r q]|]; try (split; auto; fail). cbn [predicted again reduce_cache]. split.
    + intros x X. apply filter_In in X. destruct X. auto.
    + intros f r0 X. apply in_app_or in X. destruct X as [X|X]; [eapply B; exact X|]. apply in_map_iff in X. destruct X as (y & Y & X). injection Y as -> ->.
      apply in_app_or in X. destruct X as [X|X].
      * apply filter_In in X. destruct X as (X & _). apply filter_In in X. destruct X as (X & _). apply SA, in_inputs in X. destruct X as (_ & X). unfold actual in X. destruct (target f); [discriminate|reflexivity].
      * exfalso. apply filter_In in X. destruct X as (X & Z1). apply filter_In in X. destruct X as (X & _). specialize (A f X). rewrite clock_time in Z1. lia.
Qed.

Lemma none_second : forall es, facts2 (caches (run es)) = [] /\ predicted2 (caches (run es)) = [] /\ again2 (caches (run es)) = [].
Proof.
  induction es as [|e es IH] using rev_ind; [repeat split|]. destruct IH as (A & B & C). rewrite run_snoc. unfold Sto_model.step. cbn [caches]. set (s := caches (run es)) in *.
  destruct e; cbn [step_kept]; auto.
  - destruct (target f); [destruct (simulated f)|]; auto.
  - destruct (rneg r); auto.
  - destruct (rneg r); auto.
  - destruct second; destruct (take_nth k _) as [[r q]|]; auto. cbn [reduce_cache]. rewrite A, B, C. auto.
Qed.
End Run.
