(** Lemmas about the schedulers. *)
From Verif Require Import Base Sched_model Sched_spec.
Local Open Scope nat_scope.

(** ** The ordered queue is a stable sort *)
Definition sort (w : list tjob) : list tjob := fold_left (fun q j => insert_upper j q) w [].
Lemma sort_snoc w j : sort (w ++ [j]) = insert_upper j (sort w).
Proof. unfold sort. rewrite fold_left_app. reflexivity. Qed.
Lemma sort_app w v : sort (w ++ v) = fold_left (fun q j => insert_upper j q) v (sort w).
Proof. unfold sort. apply fold_left_app. Qed.
Lemma insert_not_nil j l : insert_upper j l <> [].
Proof. destruct l; cbn; [discriminate|]. destruct (target j <? target t)%Z; discriminate. Qed.
Lemma sort_nil w : sort w = [] -> w = [].
Proof.
  induction w as [|j w _] using rev_ind; [reflexivity|]. rewrite sort_snoc. intros H. apply insert_not_nil in H. contradiction.
Qed.
Lemma earliest_min w j rest x : earliest w j rest -> In x w -> (target j <= target x)%Z.
Proof.
  intros (a & b & -> & _ & A & B) I. apply in_app_or in I. destruct I as [I|[<-|I]]; [specialize (A _ I); lia|lia|auto].
Qed.
Lemma sort_first w : forall j r, sort w = j :: r -> exists rest, earliest w j rest /\ sort rest = r.
Proof.
  induction w as [|x w IH] using rev_ind; intros j r H; [discriminate|].
  rewrite sort_snoc in H. destruct (sort w) as [|y r'] eqn:Q.
  - apply sort_nil in Q. subst w. cbn in H. injection H as <- <-. exists []. split; [|reflexivity].
    exists [], []. repeat split; intros ? [].
  - destruct (IH _ _ eq_refl) as (rest & P & R). cbn in H. destruct (target x <? target y)%Z eqn:L.
    + injection H as <- <-. exists w. split; [|exact Q]. exists w, []. split; [reflexivity|]. split; [now rewrite app_nil_r|].
      split; [|intros ? []]. intros z Z. pose proof (earliest_min _ _ _ _ P Z). lia.
    + injection H as <- <-. exists (rest ++ [x]). split; [|rewrite sort_snoc, R; reflexivity].
      destruct P as (a & b & -> & -> & A & B). exists a, (b ++ [x]). rewrite <- !app_assoc. repeat split; auto.
      intros z Z. apply in_app_or in Z. destruct Z as [Z|[<-|[]]]; [auto|lia].
Qed.

(** ** Diagnostic time *)
Section Diagnostic.
Context (limit passes : nat) (period : Z) (P : (0 < period)%Z).
Notation step := (step limit passes period).
Notation steps := (steps limit passes period).
Notation reductions := (reductions limit passes).

(** The waiting jobs, in the order they were queued. *)
Definition holds (w : list tjob) (s : state) : Prop := exists w0, w = w0 ++ tq s /\ ordered s = sort w0.
Record sane (start : Z) (k : nat) (s : state) : Prop := {
  sane_now : (tick s <= now s <= start + Z.of_nat k * period)%Z;
  sane_tick : tick s = (start + (Z.of_nat k - if need s then 0 else 1) * period)%Z }.

Lemma perform_holds w s a : holds w s -> holds (w ++ pushed_t a) (perform a s).
Proof. intros (w0 & -> & O). exists w0. cbn. rewrite app_assoc. auto. Qed.
Lemma perform_sane start k s a : sane start k s -> sane start k (perform a s).
Proof. intros []. split; assumption. Qed.

(** The reduction phase touches neither the clock nor the time jobs. *)
Definition same_times (s s' : state) : Prop :=
  now s' = now s /\ tick s' = tick s /\ need s' = need s /\ ordered s' = ordered s /\ tq s' = tq s /\ ends s' = ends s.
Lemma same_holds w s s' : same_times s s' -> holds w s -> holds w s'.
Proof. intros (_ & _ & _ & O & T & _) (w0 & W & Q). exists w0. rewrite O, T. auto. Qed.
Lemma same_sane start k s s' : same_times s s' -> sane start k s -> sane start k s'.
Proof. intros (N & T & Ne & _) []. split; rewrite ?N, ?T, ?Ne; assumption. Qed.
Lemma reductions_cases s h :
  match reductions s h with
  | inl (s', e) => (exists r s1, same_times s s1 /\ s' = perform (does h) s1 /\ e = [RanR r (now s) (does h)]) \/ (same_times s s' /\ e = [])
  | inr s' => same_times s s'
  end.
Proof.
  assert (R : same_times s s) by (repeat split).
  unfold Sched_model.reductions. destruct (pass s <=? passes); [|exact R].
  set (s1 := if idx s =? 0 then _ else s).
  assert (R1 : same_times s s1) by (unfold s1; destruct (idx s =? 0); [repeat split|exact R]).
  assert (N : now s1 = now s) by apply R1.
  clearbody s1. destruct (0 <? _); [|exact R1].
  destruct (idx s1 <? _).
  - left. rewrite N. do 2 eexists. split; [|split; reflexivity]. exact R1.
  - destruct (_ <? limit); [right; split; [exact R1|reflexivity]|exact R1].
Qed.
Lemma transfer_holds w s : holds w s -> holds w (transfer s) /\ tq (transfer s) = [] /\ ordered (transfer s) = sort w.
Proof.
  intros (w0 & -> & O). assert (Q : ordered (transfer s) = sort (w0 ++ tq s)) by (cbn; rewrite O, sort_app; reflexivity).
  split; [|split; [reflexivity|exact Q]]. exists (w0 ++ tq s). cbn [tq transfer]. rewrite app_nil_r. auto.
Qed.

Lemma next_period_cases s :
  next_period period s = s /\ (need s = true \/ exists j r, ordered s = j :: r /\ (target j < tick s + period)%Z) \/
  need s = false /\ (forall j r, ordered s = j :: r -> (tick s + period <= target j)%Z) /\
  now (next_period period s) = (tick s + period)%Z /\ tick (next_period period s) = (tick s + period)%Z /\
  need (next_period period s) = true /\ ordered (next_period period s) = ordered s /\ tq (next_period period s) = tq s /\
  ends (next_period period s) = ends s.
Proof.
  unfold next_period. destruct (need s) eqn:N; cbn [negb andb].
  - left. auto.
  - destruct (ordered s) as [|j r] eqn:O.
    + right. split; [reflexivity|]. split; [discriminate|]. repeat split; auto.
    + destruct (tick s + period <=? target j)%Z eqn:L.
      * right. split; [reflexivity|]. split; [intros ? ? [= <- <-]; lia|]. repeat split; auto.
      * left. split; [reflexivity|]. right. exists j, r. split; [reflexivity|lia].
Qed.

(** One step: at most one event, which is orderly and on schedule. *)
Lemma step_good s h s' es b start k w : step s h = (s', es, b) -> sane start k s -> holds w s ->
  (es = [] /\ holds w s' /\ sane start k s' /\ now s' = now s) \/
  (exists e w', es = [e] /\ waits w e w' /\ (now s <= clock e)%Z /\ due e /\ now s' = clock e /\ holds w' s' /\
    if is_tick e then sane start (S k) s' /\ clock e = (start + Z.of_nat k * period)%Z /\ (forall j, In j w -> (clock e < target j)%Z)
    else sane start k s' /\ (clock e <= start + Z.of_nat k * period)%Z).
Proof.
  intros H S W. unfold Sched_model.step in H. destruct (stopped s); [injection H as <- <- <-; left; auto|].
  pose proof (reductions_cases s h) as C. destruct (reductions s h) as [[s1 e1]|s1].
  - injection H as <- <- <-. destruct C as [(r & s2 & T & -> & ->)|(T & ->)].
    + right. do 2 eexists. split; [reflexivity|]. split; [apply w_red|]. split; [cbn; lia|]. split; [exact I|].
      split; [apply T|]. split; [apply perform_holds; eapply same_holds; eauto|].
      cbn. split; [apply perform_sane; eapply same_sane; eauto|apply S].
    + left. split; [reflexivity|]. split; [eapply same_holds; eauto|]. split; [eapply same_sane; eauto|apply T].
  - assert (S1 : sane start k s1) by (eapply same_sane; eauto).
    assert (W1 : holds w s1) by (eapply same_holds; eauto).
    assert (N1 : now s1 = now s) by apply C. clear C. revert H.
    destruct (transfer_holds _ _ W1) as (W2 & T2 & O2).
    assert (S2 : sane start k (transfer s1)) by (destruct S1; split; assumption).
    assert (N2 : now (transfer s1) = now s) by exact N1.
    set (s2 := transfer s1) in *. clearbody s2. clear s1 S1 W1 N1.
    destruct (ends s2 <=? now s2)%Z; [intros H; injection H as <- <- <-; left; auto|].
    destruct (time_jobs (next_period period s2) h) as [s3 e3] eqn:TJ. intros H. injection H as <- <- <-. right.
    destruct S2 as [NO TI].
    assert (K : (start + (Z.of_nat k - 1) * period + period = start + Z.of_nat k * period)%Z) by lia.
    revert TJ. unfold time_jobs.
    destruct (next_period_cases s2) as [(E & D)|(Ne & LE & NN & NT & NNe & NO' & NTQ & _)].
    + rewrite E. destruct (need s2) eqn:Ne.
      * assert (NW : now s2 = (start + Z.of_nat k * period)%Z) by lia.
        assert (TW : tick s2 = (start + Z.of_nat k * period)%Z) by lia.
        destruct (ordered s2) as [|j r] eqn:O.
        { cbn [andb negb]. intros Q. injection Q as <- <-. symmetry in O2. apply sort_nil in O2. subst w.
          do 2 eexists. split; [reflexivity|]. split; [apply w_tick|]. cbn. split; [lia|]. split; [exact I|]. split; [reflexivity|].
          split. { exists []. cbn. rewrite T2, ?O. auto. }
          split; [|split; [exact NW|intros ? []]]. split; cbn -[Z.of_nat]; lia. }
        destruct (target j <=? tick s2)%Z eqn:L; cbn [andb negb].
        { destruct (sort_first _ _ _ (eq_sym O2)) as (rest & EA & SR).
          assert (NX : (now s2 <? target j)%Z = false) by lia. rewrite NX.
          destruct (alive h); cbn [negb]; intros Q; injection Q as <- <-.
          - do 2 eexists. split; [reflexivity|]. split; [apply w_time; exact EA|]. cbn [clock due now perform set_now is_tick].
            split; [lia|]. split; [lia|]. split; [reflexivity|]. split.
            { exists (rest ++ requeued j (if goes_on h && negb (next h =? 0)%Z then Some (next h) else None)). cbn. rewrite T2. split; [rewrite <- app_assoc; reflexivity|].
              destruct (goes_on h && negb (next h =? 0)%Z); cbn [requeued]; [rewrite sort_snoc, SR; reflexivity|rewrite app_nil_r; auto]. }
            split; [|lia]. split; cbn -[Z.of_nat]; rewrite ?Ne; lia.
          - do 2 eexists. split; [reflexivity|]. split; [apply w_dead; exact EA|]. cbn [clock due now perform set_now is_tick].
            split; [lia|]. split; [lia|]. split; [reflexivity|]. split.
            { exists rest. cbn. rewrite T2, app_nil_r. auto. }
            split; [|lia]. split; cbn -[Z.of_nat]; rewrite ?Ne; lia. }
        { intros Q. injection Q as <- <-. destruct (sort_first _ _ _ (eq_sym O2)) as (rest & EA & SR).
          do 2 eexists. split; [reflexivity|]. split; [apply w_tick|]. cbn [clock due now perform is_tick]. split; [lia|]. split; [exact I|].
          split; [reflexivity|]. split. { exists w. cbn. rewrite T2, ?O. auto. }
          split; [split; cbn -[Z.of_nat]; lia|]. split; [exact NW|]. intros x X. pose proof (earliest_min _ _ _ _ EA X). lia. }
      * destruct D as [D|(j & r & O & L)]; [discriminate|]. rewrite O. cbn [andb].
        rewrite O2 in O. destruct (sort_first _ _ _ O) as (rest & EA & SR).
        set (n := if (now s2 <? target j)%Z then target j else now s2).
        assert (NN : (now s2 <= n /\ target j <= n /\ n <= start + Z.of_nat k * period)%Z)
          by (unfold n; destruct (now s2 <? target j)%Z eqn:X; lia).
        destruct (alive h); cbn [negb]; intros Q; injection Q as <- <-.
        { do 2 eexists. split; [reflexivity|]. split; [apply w_time; exact EA|]. cbn [clock due now perform set_now is_tick].
          split; [lia|]. split; [lia|]. split; [reflexivity|]. split.
          { exists (rest ++ requeued j (if goes_on h && negb (next h =? 0)%Z then Some (next h) else None)). cbn. rewrite T2. split; [rewrite <- app_assoc; reflexivity|].
            destruct (goes_on h && negb (next h =? 0)%Z); cbn [requeued]; [rewrite sort_snoc, SR; reflexivity|rewrite app_nil_r; auto]. }
          split; [|lia]. split; cbn -[Z.of_nat]; rewrite ?Ne; lia. }
        { do 2 eexists. split; [reflexivity|]. split; [apply w_dead; exact EA|]. cbn [clock due now perform set_now is_tick].
          split; [lia|]. split; [lia|]. split; [reflexivity|]. split.
          { exists rest. cbn. rewrite T2, app_nil_r. auto. }
          split; [|lia]. split; cbn -[Z.of_nat]; rewrite ?Ne; lia. }
    + set (s4 := next_period period s2) in *. clearbody s4. rewrite NNe, NO'. rewrite Ne in TI.
      destruct (ordered s2) as [|j r] eqn:O.
      * cbn [andb negb]. intros Q. injection Q as <- <-. symmetry in O2. apply sort_nil in O2. subst w.
        do 2 eexists. split; [reflexivity|]. split; [apply w_tick|]. cbn [clock due now perform is_tick]. split; [lia|]. split; [exact I|]. split; [reflexivity|].
        split. { exists []. cbn. rewrite NTQ, T2. auto. }
        split; [split; cbn -[Z.of_nat]; lia|]. split; [lia|intros ? []].
      * specialize (LE _ _ eq_refl). destruct (sort_first _ _ _ (eq_sym O2)) as (rest & EA & SR).
        destruct (target j <=? tick s4)%Z eqn:L; cbn [andb negb].
        { assert (NX : (now s4 <? target j)%Z = false) by lia. rewrite NX.
          destruct (alive h); cbn [negb]; intros Q; injection Q as <- <-.
          - do 2 eexists. split; [reflexivity|]. split; [apply w_time; exact EA|]. cbn [clock due now perform set_now is_tick].
            split; [lia|]. split; [lia|]. split; [reflexivity|]. split.
            { exists (rest ++ requeued j (if goes_on h && negb (next h =? 0)%Z then Some (next h) else None)). cbn. rewrite NTQ, T2. split; [rewrite <- app_assoc; reflexivity|].
              destruct (goes_on h && negb (next h =? 0)%Z); cbn [requeued]; [rewrite sort_snoc, SR; reflexivity|rewrite app_nil_r; auto]. }
            split; [|lia]. split; cbn -[Z.of_nat]; rewrite ?NNe; lia.
          - do 2 eexists. split; [reflexivity|]. split; [apply w_dead; exact EA|]. cbn [clock due now perform set_now is_tick].
            split; [lia|]. split; [lia|]. split; [reflexivity|]. split.
            { exists rest. cbn. rewrite NTQ, T2, app_nil_r. auto. }
            split; [|lia]. split; cbn -[Z.of_nat]; rewrite ?NNe; lia. }
        { intros Q. injection Q as <- <-.
          do 2 eexists. split; [reflexivity|]. split; [apply w_tick|]. cbn [clock due now perform is_tick]. split; [lia|]. split; [exact I|].
          split; [reflexivity|]. split. { exists w. cbn. rewrite NTQ, T2, ?NO'. auto. }
          split; [split; cbn -[Z.of_nat]; lia|]. split; [lia|]. intros x X. pose proof (earliest_min _ _ _ _ EA X). lia. }
Qed.

Lemma steps_good hs : forall s s' es start k w, steps s hs = (s', es) -> sane start k s -> holds w s ->
  orderly w (now s) es /\ sampled start period k w es.
Proof.
  induction hs as [|h hs IH]; intros s s' es start k w H S W; cbn in H.
  - injection H as <- <-. split; constructor.
  - destruct (step s h) as [[s1 e1] b] eqn:ST. destruct (step_good _ _ _ _ _ _ _ _ ST S W) as [(-> & W1 & S1 & N1)|(e & w' & -> & WA & C & D & N1 & W1 & TK)].
    + destruct b; [|injection H as <- <-; split; constructor].
      destruct (steps s1 hs) as [s2 e2] eqn:SS. injection H as <- <-. rewrite <- N1. eapply IH; eauto.
    + assert (IHR : forall s2 e2 k', steps s1 hs = (s2, e2) -> sane start k' s1 ->
                orderly w' (clock e) e2 /\ sampled start period k' w' e2) by (intros; rewrite <- N1; eapply IH; eauto).
      assert (R : exists e2, es = e :: e2 /\ forall k', sane start k' s1 -> orderly w' (clock e) e2 /\ sampled start period k' w' e2).
      { destruct b.
        - destruct (steps s1 hs) as [s2 e2] eqn:SS. injection H as <- <-. exists e2. split; [reflexivity|]. intros. eapply IHR; eauto.
        - injection H as <- <-. exists []. split; [reflexivity|]. intros. split; constructor. }
      destruct R as (e2 & -> & R). destruct (is_tick e) eqn:IT.
      * destruct TK as (S1 & CK & NJ). destruct (R _ S1). split; [eapply orderly_cons; eauto|].
        destruct e; try discriminate. inversion WA; subst. apply sampled_tick; auto.
      * destruct TK as (S1 & CK). destruct (R _ S1). split; [eapply orderly_cons; eauto|]. eapply sampled_other; eauto.
Qed.

Notation run := (run_in_diagnostic_time limit passes period).
Lemma run_shape start rt r t h hs : exists s es,
  steps (fst (init start rt r t h)) hs = (s, es) /\ run start rt r t h hs = (s, Ticked start (does h) :: es).
Proof.
  unfold run_in_diagnostic_time. cbn [init fst]. destruct (steps _ hs) as [s es]. exists s, es. split; reflexivity.
Qed.
Lemma init_good start rt r t h : sane start 1 (fst (init start rt r t h)) /\ holds (t ++ pushed_t (does h)) (fst (init start rt r t h)) /\
  now (fst (init start rt r t h)) = start.
Proof. split; [split; cbn -[Z.mul Z.of_nat]; lia|]. split; [|reflexivity]. exists []. split; reflexivity. Qed.
Lemma run_orderly start rt r t h hs : orderly t start (snd (run start rt r t h hs)).
Proof.
  destruct (run_shape start rt r t h hs) as (s & es & E & ->). destruct (init_good start rt r t h) as (S & W & N).
  destruct (steps_good _ _ _ _ _ _ _ E S W) as (O & _). cbn [snd]. eapply orderly_cons; [apply w_tick|cbn; lia|exact I|].
  cbn [clock]. rewrite <- N. exact O.
Qed.
Lemma run_sampled start rt r t h hs : exists es, snd (run start rt r t h hs) = Ticked start (does h) :: es /\
  sampled start period 1 (t ++ pushed_t (does h)) es.
Proof.
  destruct (run_shape start rt r t h hs) as (s & es & E & ->). destruct (init_good start rt r t h) as (S & W & N).
  exists es. split; [reflexivity|]. apply (steps_good _ _ _ _ _ _ _ E S W).
Qed.
Lemma sampled_times start k w es : sampled start period k w es ->
  tick_times es = map (fun i => (start + Z.of_nat i * period)%Z) (seq k (length (tick_times es))).
Proof.
  induction 1 as [k w|k w e w' es T _ _ _ IH|k w t a es -> _ _ IH]; [reflexivity| |].
  - destruct e; try discriminate; exact IH.
  - cbn [tick_times flat_map app length seq map]. f_equal. exact IH.
Qed.
Lemma run_ticks start rt r t h hs : let ts := tick_times (snd (run start rt r t h hs)) in
  ts = map (fun i => (start + Z.of_nat i * period)%Z) (seq 0 (length ts)).
Proof.
  destruct (run_sampled start rt r t h hs) as (es & -> & S). apply sampled_times in S.
  cbn [tick_times flat_map app length seq map] in *. f_equal; [symmetry; apply Z.add_0_r|exact S].
Qed.

(** ** Reduction jobs *)
Definition queued (s : state) : list nat := skipn (idx s) (local s) ++ rq s.
Definition bounded (s : state) : Prop := idx s <= length (local s) /\ idx s <= limit.
Lemma nth_skipn {A} (l : list A) i d : i < length l -> skipn i l = nth i l d :: skipn (S i) l.
Proof. revert i. induction l as [|x l IH]; intros [|i] H; cbn in *; try lia; [reflexivity|]. apply IH. lia. Qed.
Lemma perform_queued a s : queued (perform a s) = queued s ++ pushed_r a.
Proof. unfold queued. cbn. now rewrite app_assoc. Qed.
Lemma reductions_fifo s h : bounded s ->
  match reductions s h with
  | inl (s', e) => bounded s' /\ queued s ++ reductions_pushed e = reductions_run e ++ queued s'
  | inr s' => bounded s' /\ queued s = queued s' /\ (pass s <= passes -> idx s' = 0)
  end.
Proof.
  intros B. unfold Sched_model.reductions. destruct (pass s <=? passes) eqn:PS; [|split; [exact B|split; [reflexivity|lia]]].
  set (s1 := if idx s =? 0 then _ else s).
  assert (Q1 : queued s1 = queued s /\ bounded s1).
  { unfold s1. destruct (idx s =? 0) eqn:I; [|auto]. apply Nat.eqb_eq in I. unfold queued, bounded. rewrite I. cbn. rewrite app_nil_r. split; [reflexivity|lia]. }
  destruct Q1 as (Q1 & B1). rewrite <- Q1. clearbody s1. clear Q1 B. destruct B1 as (B1 & B2).
  destruct (0 <? _) eqn:Z.
  - destruct (idx s1 <? Nat.min (length (local s1)) limit) eqn:L; cbn [fst snd].
    + split; [split; cbn; lia|]. rewrite perform_queued. cbn [reductions_pushed reductions_run flat_map app]. rewrite app_nil_r.
      unfold queued. cbn [idx local rq set_red]. rewrite (nth_skipn (local s1) (idx s1) 0) by lia. reflexivity.
    + assert (Q : queued s1 = skipn limit (local s1) ++ rq s1).
      { unfold queued. f_equal. assert (idx s1 = Nat.min (length (local s1)) limit) as -> by lia.
        destruct (Nat.min_spec (length (local s1)) limit) as [[M ->]|[M ->]]; [|reflexivity]. rewrite !skipn_all2 by lia. reflexivity. }
      cbn [n_red set_red]. destruct (_ <? limit).
      * split; [split; cbn; lia|]. cbn [reductions_pushed reductions_run flat_map app]. rewrite app_nil_r, Q. reflexivity.
      * split; [split; cbn; lia|]. split; [rewrite Q; reflexivity|]. intros _. reflexivity.
  - split; [split; assumption|]. split; [reflexivity|]. intros _. lia.
Qed.
Lemma time_jobs_fifo s h : let (s', e) := time_jobs s h in
  (bounded s -> bounded s') /\ queued s ++ reductions_pushed e = reductions_run e ++ queued s'.
Proof.
  unfold time_jobs. destruct (need s && _).
  - split; [auto|]. rewrite perform_queued. cbn. rewrite app_nil_r. reflexivity.
  - destruct (ordered s) as [|j r]; [split; [auto|]; cbn; now rewrite app_nil_r|]. destruct (alive h); cbn [negb].
    + split; [auto|]. rewrite perform_queued. cbn. rewrite app_nil_r. reflexivity.
    + split; [auto|]. cbn. now rewrite app_nil_r.
Qed.
Lemma next_period_queued s : queued (next_period period s) = queued s /\ (bounded s -> bounded (next_period period s)).
Proof. unfold next_period. destruct (negb _ && _); split; auto. Qed.
Lemma step_fifo s h s' e b : step s h = (s', e, b) -> bounded s ->
  bounded s' /\ queued s ++ reductions_pushed e = reductions_run e ++ queued s'.
Proof.
  intros H B. unfold Sched_model.step in H. destruct (stopped s); [injection H as <- <- <-; split; [exact B|cbn; now rewrite app_nil_r]|].
  pose proof (reductions_fifo s h B) as R. destruct (reductions s h) as [[s1 e1]|s1].
  - injection H as <- <- <-. exact R.
  - destruct R as (B1 & -> & _). revert H. destruct (ends _ <=? _)%Z.
    + intros H. injection H as <- <- <-. split; [exact B1|]. cbn. now rewrite app_nil_r.
    + pose proof (time_jobs_fifo (next_period period (transfer s1)) h) as T. destruct (time_jobs _ h) as [s2 e2].
      intros H. injection H as <- <- <-. destruct T as (T1 & T2). destruct (next_period_queued (transfer s1)) as (Q & B2).
      rewrite Q in T2. split; [apply T1, B2, B1|exact T2].
Qed.
Lemma reductions_run_app a b : reductions_run (a ++ b) = reductions_run a ++ reductions_run b.
Proof. apply flat_map_app. Qed.
Lemma reductions_pushed_app a b : reductions_pushed (a ++ b) = reductions_pushed a ++ reductions_pushed b.
Proof. apply flat_map_app. Qed.
Lemma steps_fifo hs : forall s s' e, steps s hs = (s', e) -> bounded s ->
  queued s ++ reductions_pushed e = reductions_run e ++ queued s'.
Proof.
  induction hs as [|h hs IH]; intros s s' e H B; cbn in H.
  - injection H as <- <-. cbn. now rewrite app_nil_r.
  - destruct (step s h) as [[s1 e1] b] eqn:ST. destruct (step_fifo _ _ _ _ _ ST B) as (B1 & Q). destruct b.
    + destruct (steps s1 hs) as [s2 e2] eqn:SS. injection H as <- <-. specialize (IH _ _ _ SS B1).
      rewrite reductions_run_app, reductions_pushed_app, app_assoc, Q, <- !app_assoc. f_equal. exact IH.
    + injection H as <- <-. exact Q.
Qed.
Lemma run_fifo start rt r t h hs s es : run start rt r t h hs = (s, es) ->
  r ++ reductions_pushed es = reductions_run es ++ skipn (idx s) (local s) ++ rq s.
Proof.
  destruct (run_shape start rt r t h hs) as (s1 & es1 & E & ->). intros H. injection H as <- <-.
  apply steps_fifo in E; [|split; cbn; lia]. cbn [reductions_pushed reductions_run flat_map app] in *.
  rewrite app_assoc. exact E.
Qed.

(** Reduction jobs run in a row *)
Inductive bursts : nat -> list event -> Prop :=
| bursts_nil n : bursts n []
| bursts_red n r t a es : n < 2 * limit - 1 -> bursts (S n) es -> bursts n (RanR r t a :: es)
| bursts_other n e es : is_reduction e = false -> bursts 0 es -> bursts n (e :: es).
Definition burst_inv (n : nat) (s : state) : Prop :=
  bounded s /\ (n = idx s \/ (idx s <= n /\ n - idx s <= n_red s /\ n_red s < limit)) /\ (idx s > 0 -> pass s <= passes).
Lemma steps_bursts (L : 1 <= limit) hs : forall s s' e n, steps s hs = (s', e) -> burst_inv n s -> bursts n e.
Proof.
  induction hs as [|h hs IH]; intros s s' e n H B; cbn in H; [injection H as <- <-; constructor|].
  destruct (step s h) as [[s1 e1] b] eqn:ST.
  assert (K : forall n' , burst_inv n' s1 -> bursts n' (if b then snd (steps s1 hs) else [])).
  { intros n' B'. destruct b; [|constructor]. destruct (steps s1 hs) as [s2 e2] eqn:SS. eapply IH; eauto. }
  assert (E : e = e1 ++ if b then snd (steps s1 hs) else []).
  { destruct b; [destruct (steps s1 hs)|]; injection H as <- <-; [reflexivity|now rewrite app_nil_r]. }
  subst e. clear H IH. set (es := if b then _ else _) in *.
  assert (EN : b = false -> es = []) by (unfold es; intros ->; reflexivity). clearbody es.
  unfold Sched_model.step in ST. destruct (stopped s); [injection ST as <- <- <-; apply K; exact B|].
  destruct B as (B & I & PS).
  pose proof (reductions_fifo s h B) as F.
  destruct (reductions s h) as [[s2 e2]|s2] eqn:R.
  - injection ST as -> -> <-. destruct F as (B1 & _). revert R. unfold Sched_model.reductions.
    destruct (pass s <=? passes) eqn:PP; [|discriminate].
    set (s3 := if idx s =? 0 then _ else s).
    assert (I3 : idx s3 = idx s /\ n_red s3 = n_red s /\ pass s3 = pass s /\ length (local s) <= length (local s3)) by
      (unfold s3; destruct (idx s =? 0) eqn:X; cbn; [apply Nat.eqb_eq in X; rewrite app_length; repeat split; lia|auto]).
    destruct I3 as (I3 & N3 & P3 & L3). clearbody s3. destruct (0 <? _) eqn:Z; [|discriminate].
    destruct (idx s3 <? _) eqn:LT.
    + intros R. injection R as <- <-. cbn [app]. apply bursts_red; [destruct B; lia|]. apply K. split; [exact B1|].
      cbn. split; [|lia]. destruct B as (X & Y). destruct I as [I|I]; [left; lia|]. right. lia.
    + cbn [n_red set_red]. destruct (_ <? limit) eqn:NL; [|discriminate]. intros R. injection R as <- <-. cbn [app]. apply K.
      split; [exact B1|]. cbn. split; [|lia]. right. destruct B. lia.
  - destruct F as (B1 & _ & Z). assert (Z0 : idx s2 = 0).
    { destruct (Nat.le_gt_cases (pass s) passes); [auto|]. revert R. unfold Sched_model.reductions.
      destruct (pass s <=? passes) eqn:PP; [apply Nat.leb_le in PP; lia|]. intros [= <-]. destruct (idx s); [reflexivity|]. specialize (PS ltac:(lia)). lia. }
    assert (B3 : burst_inv 0 (next_period period (transfer s2))).
    { unfold next_period. split; [|split].
      - destruct (negb _ && _); split; cbn; rewrite Z0; lia.
      - left. destruct (negb _ && _); cbn; auto.
      - destruct (negb _ && _); cbn; lia. }
    revert ST. destruct (ends _ <=? _)%Z.
    + intros H. injection H as <- <- <-. rewrite EN by reflexivity. constructor.
    + assert (NX : ordered (next_period period (transfer s2)) = [] -> need (next_period period (transfer s2)) = true).
      { unfold next_period. destruct (need (transfer s2)) eqn:N; cbn [negb andb]; [auto|].
        destruct (ordered (transfer s2)) eqn:O; [reflexivity|]. destruct (_ <=? _)%Z; [reflexivity|congruence]. }
      destruct B3 as (B3 & I3 & P3). set (s4 := next_period period (transfer s2)) in *. clearbody s4. clear Z R PS I B Z0 B1.
      assert (I4 : idx s4 = 0) by (destruct I3 as [<-|I3]; lia).
      unfold time_jobs. destruct (need s4 && _) eqn:ND.
      * intros H. injection H as <- <- <-. cbn [app]. apply bursts_other; [reflexivity|]. apply K. split; [exact B3|]. cbn. auto.
      * destruct (ordered s4) as [|j r] eqn:O.
        { rewrite NX in ND by reflexivity. discriminate. }
        destruct (alive h); cbn [negb]; intros H; injection H as <- <- <-; cbn [app];
          (apply bursts_other; [reflexivity|]; apply K; split; [exact B3|]; cbn; auto).
Qed.
Lemma bursts_bound n es : bursts n es -> forall a b c, es = a ++ b ++ c -> forallb is_reduction b = true ->
  length b <= 2 * limit - 1 - (if a then n else 0).
Proof.
  intros B a. revert n es B. induction a as [|x a IH]; intros n es B b c E F.
  - cbn [app] in E. revert n es B c E F. induction b as [|y b IHb]; intros n es B c E F; cbn; [lia|].
    subst es. cbn in F. apply andb_prop in F. destruct F as (F1 & F2). inversion B; subst; [|congruence].
    specialize (IHb _ _ H3 c eq_refl F2). lia.
  - subst es. cbn [app] in B. inversion B; subst.
    + specialize (IH _ _ H3 b c eq_refl F). destruct a; lia.
    + specialize (IH _ _ H3 b c eq_refl F). destruct a; lia.
Qed.
Lemma run_bursts start rt r t h hs : 1 <= limit -> forall a b c, snd (run start rt r t h hs) = a ++ b ++ c ->
  forallb is_reduction b = true -> length b <= 2 * limit - 1.
Proof.
  intros L a b c E F. destruct (run_shape start rt r t h hs) as (s1 & es1 & ES & R). rewrite R in E. cbn [snd] in E.
  assert (B : bursts 0 (Ticked start (does h) :: es1)).
  { apply bursts_other; [reflexivity|]. eapply (steps_bursts L); [exact ES|]. split; [split; cbn; lia|]. cbn. split; [auto|lia]. }
  pose proof (bursts_bound _ _ B a b c E F). destruct a; lia.
Qed.

(** ** The end of the run *)
Lemma time_jobs_ends s h : ends (fst (time_jobs s h)) = ends s.
Proof.
  unfold time_jobs. destruct (need s && _); [reflexivity|]. destruct (ordered s); [reflexivity|]. destruct (alive h); reflexivity.
Qed.
Lemma steps_end hs : forall s s' es start k w E, steps s hs = (s', es) -> sane start k s -> holds w s -> ends s = E ->
  (now s < E + period)%Z -> Forall (fun e => (clock e < E + period)%Z) es.
Proof.
  induction hs as [|h hs IH]; intros s s' es start k w E H S W EE N; cbn in H; [injection H as <- <-; constructor|].
  destruct (step s h) as [[s1 e1] b] eqn:ST. pose proof (step_good _ _ _ _ _ _ _ _ ST S W) as G.
  assert (X : ends s1 = E /\ (now s1 < E + period)%Z).
  { revert ST. unfold Sched_model.step. destruct (stopped s); [intros Q; injection Q as <- <- <-; auto|].
    pose proof (reductions_cases s h) as C. destruct (reductions s h) as [[s2 e2]|s2].
    - intros Q. injection Q as <- <- <-. destruct C as [(r & s3 & T & -> & ->)|(T & ->)];
        (destruct T as (TN & _ & _ & _ & _ & TE); cbn; split; [congruence|rewrite TN; exact N]).
    - destruct C as (TN & TT & TNe & _ & _ & TE). destruct (ends (transfer s2) <=? now (transfer s2))%Z eqn:EN; cbn in EN.
      + intros Q. injection Q as <- <- <-. cbn. split; [congruence|rewrite TN; exact N].
      + destruct (time_jobs (next_period period (transfer s2)) h) as [s3 e3] eqn:TJ. intros Q. injection Q as <- <- <-.
        pose proof (time_jobs_ends (next_period period (transfer s2)) h) as TE2. rewrite TJ in TE2. cbn [fst] in TE2.
        assert (NP : ends (next_period period (transfer s2)) = ends s2) by (unfold next_period; destruct (negb _ && _); reflexivity).
        split; [congruence|].
        assert (ND : (now s3 <= start + Z.of_nat k * period)%Z).
        { destruct G as [(_ & _ & G & _)|(e & w' & _ & _ & _ & _ & CE & _ & G)]; [apply G|].
          rewrite CE. destruct (is_tick e); [destruct G as (_ & -> & _); lia|apply G]. }
        destruct S as [S1 S2]. destruct (need s) eqn:NE; [|lia].
        (* need: the clock already shows the tick time *) lia. }
  destruct X as (E1 & N1). destruct G as [(-> & W1 & S1 & _)|(e & w' & -> & _ & _ & _ & CE & W1 & TK)].
  - destruct b; [|injection H as <- <-; constructor]. destruct (steps s1 hs) as [s2 e2] eqn:SS. injection H as <- <-. eapply IH; eauto.
  - assert (C : (clock e < E + period)%Z) by (rewrite <- CE; exact N1).
    assert (SK : exists k', sane start k' s1) by (destruct (is_tick e); destruct TK; eauto). destruct SK as (k' & SK).
    destruct b.
    + destruct (steps s1 hs) as [s2 e2] eqn:SS. injection H as <- <-. cbn [app]. apply Forall_cons; [exact C|]. eapply IH; eauto.
    + injection H as <- <-. apply Forall_cons; [exact C|constructor].
Qed.
Lemma run_end start rt r t h hs : (0 <= rt)%Z -> Forall (fun e => (clock e < start + rt + period)%Z) (snd (run start rt r t h hs)).
Proof.
  intros R. destruct (run_shape start rt r t h hs) as (s & es & E & ->). destruct (init_good start rt r t h) as (S & W & N).
  cbn [snd]. apply Forall_cons; [cbn; lia|]. eapply steps_end; eauto. rewrite N. lia.
Qed.
End Diagnostic.

(** ** The limit can be exceeded between two ticks *)
Definition idle : reply := mkreply [] true true 0.
Section Exceed.
Context (limit : nat) (L : 1 <= limit).
Definition at_job (m : nat) : state :=
  mkstate 0 false [] [mktjob 0 0] (repeat 0 limit) m 0 [] 0 1000 1 false.
Notation step := (step limit 100 100).
Notation steps := (steps limit 100 100).
Lemma nth_repeat_0 n m : nth m (repeat 0 n) 0 = 0.
Proof. revert m. induction n as [|n IH]; intros [|m]; cbn; auto. Qed.
Lemma one_job m : 1 <= m < limit -> step (at_job m) idle = (at_job (S m), [RanR 0 0 []], true).
Proof.
  intros M. unfold Sched_model.step, reductions. cbn [stopped at_job pass idx local Nat.leb].
  destruct (m =? 0) eqn:Z; [apply Nat.eqb_eq in Z; lia|]. cbn [at_job local idx]. rewrite repeat_length, Nat.min_id.
  destruct (0 <? limit) eqn:L1; [|apply Nat.ltb_ge in L1; lia]. destruct (m <? limit) eqn:L2; [|apply Nat.ltb_ge in L2; lia].
  rewrite nth_repeat_0. reflexivity.
Qed.
Lemma many_jobs n : forall m rest, 1 <= m -> m + n = limit ->
  steps (at_job m) (repeat idle n ++ rest) = (let (s, e) := steps (at_job limit) rest in (s, repeat (RanR 0 0 []) n ++ e)).
Proof.
  induction n as [|n IH]; intros m rest M E.
  - cbn [repeat app]. replace m with limit by lia. destruct (steps _ rest). reflexivity.
  - cbn [repeat app Sched_model.steps]. rewrite one_job by lia. rewrite IH by lia. destruct (steps (at_job limit) rest). reflexivity.
Qed.
Definition pushes_one : reply := mkreply [PushR 1] true true 0.
Definition after_time (n : nat) (i : nat) : state := mkstate 0 false (if i then [1] else []) [] (if i then [] else [1]) i n [] 0 1000 1 false.
Lemma exceed_steps : snd (run_in_diagnostic_time limit 100 100 0 1000 (repeat 0 limit) [mktjob 0 0] idle
    (repeat idle limit ++ [pushes_one; idle; idle])) =
  Ticked 0 [] :: (repeat (RanR 0 0 []) limit ++ [RanT (mktjob 0 0) 0 None [PushR 1]; RanR 1 0 []]) ++ [Ticked 100 []].
Proof.
  set (i0 := fst (init 0 1000 (repeat 0 limit) [mktjob 0 0] idle)).
  assert (F : step i0 idle = (at_job 1, [RanR 0 0 []], true)).
  { unfold i0, Sched_model.step, reductions. cbn [init fst perform does idle now tq n_red ordered tick ends need stopped stops existsb orb pass Nat.leb idx Nat.eqb local rq pushed_r pushed_t effective flat_map app set_red].
    rewrite app_nil_r, repeat_length, Nat.min_id. destruct (0 <? limit) eqn:L1; [|apply Nat.ltb_ge in L1; lia].
    rewrite nth_repeat_0. reflexivity. }
  destruct (run_shape limit 100 100 0 1000 (repeat 0 limit) [mktjob 0 0] idle (repeat idle limit ++ [pushes_one; idle; idle])) as (s & es & E & ->).
  fold i0 in E. clearbody i0. cbn [snd does idle].
  assert (EL : exists n, limit = S n) by (destruct limit; [lia|eauto]). destruct EL as (n & EL).
  assert (RE : repeat idle limit = idle :: repeat idle n) by (rewrite EL; reflexivity). rewrite RE in E.
  cbn [app Sched_model.steps] in E. rewrite F in E. rewrite many_jobs in E by lia.
  assert (T : step (at_job limit) pushes_one = (after_time limit 0, [RanT (mktjob 0 0) 0 None [PushR 1]], true)).
  { unfold Sched_model.step, reductions. cbn [stopped at_job pass idx local Nat.leb].
    destruct (limit =? 0) eqn:Z; [apply Nat.eqb_eq in Z; lia|]. cbn [at_job local idx]. rewrite repeat_length, Nat.min_id, Nat.ltb_irrefl.
    destruct (0 <? limit) eqn:L1; [|apply Nat.ltb_ge in L1; lia]. cbn [n_red set_red at_job Nat.add]. rewrite Nat.ltb_irrefl.
    rewrite skipn_all2 by (rewrite repeat_length; lia). reflexivity. }
  cbn [Sched_model.steps] in E. rewrite T in E.
  assert (U : step (after_time limit 0) idle = (after_time limit 1, [RanR 1 0 []], true)).
  { unfold Sched_model.step, reductions. cbn -[Nat.min Nat.ltb]. destruct limit as [|n'] eqn:Q; [lia|]. cbn. reflexivity. }
  rewrite U in E.
  assert (V : snd (fst (step (after_time limit 1) idle)) = [Ticked 100 []] /\ snd (step (after_time limit 1) idle) = true).
  { unfold Sched_model.step, reductions. cbn [stopped after_time pass idx local Nat.leb Nat.eqb length].
    rewrite Nat.min_l by lia. change (0 <? 1) with true. change (1 <? 1) with false. cbn iota. cbn [n_red set_red after_time].
    destruct (limit + 1 <? limit) eqn:Q; [apply Nat.ltb_lt in Q; lia|]. split; reflexivity. }
  destruct (step (after_time limit 1) idle) as [[s3 e3] b3]. cbn [fst snd] in V. destruct V as (-> & ->).
  cbn [fst snd app Sched_model.steps] in E. injection E as _ <-. rewrite EL. cbn [repeat app]. rewrite <- !app_assoc. reflexivity.
Qed.
Lemma exceed : exists r t h hs a b c, forallb (fun e => negb (is_tick e)) b = true /\
  snd (run_in_diagnostic_time limit 100 100 0 1000 r t h hs) = Ticked 0 a :: b ++ [Ticked 100 c] /\
  limit < length (filter is_reduction b).
Proof.
  exists (repeat 0 limit), [mktjob 0 0], idle, (repeat idle limit ++ [pushes_one; idle; idle]), [],
    (repeat (RanR 0 0 []) limit ++ [RanT (mktjob 0 0) 0 None [PushR 1]; RanR 1 0 []]), [].
  split; [|split; [exact exceed_steps|]].
  - rewrite forallb_app. apply andb_true_intro. split; [|reflexivity]. clear L. induction limit; cbn; auto.
  - assert (F : forall n, length (filter is_reduction (repeat (RanR 0 0 []) n ++ [RanT (mktjob 0 0) 0 None [PushR 1]; RanR 1 0 []])) = S n)
      by (induction n; cbn; auto). rewrite F. lia.
Qed.
End Exceed.
Lemma overrun limit : exists e, In e (snd (run_in_diagnostic_time limit 100 100 0 50 [] [mktjob 7 70] idle [idle; idle])) /\ (0 + 50 < clock e)%Z.
Proof. exists (RanT (mktjob 7 70) 70 None []). split; [vm_compute; auto|reflexivity]. Qed.

(** ** Real time *)
(** The last event, if it asks. *)
Definition pending (es : list rt_event) : option Z :=
  match rev es with Asked d :: _ => Some d | _ => None end.
Lemma never_early_snoc es e : never_early es ->
  (forall t d, e = Ran t -> pending es = Some d -> (d <= t)%Z) -> never_early (es ++ [e]).
Proof.
  intros H K i d t A R. destruct (Nat.lt_ge_cases (S i) (length es)).
  - rewrite nth_error_app1 in A, R by lia. eapply H; eauto.
  - destruct (Nat.eq_dec (S i) (length es)) as [Q|Q].
    + rewrite nth_error_app2 in R by lia. replace (S i - length es) with 0 in R by lia. cbn in R. injection R as ->.
      rewrite nth_error_app1 in A by lia. apply (K t d eq_refl). unfold pending.
      destruct es as [|x es'] using rev_ind; [destruct i; discriminate|]. rewrite rev_unit.
      rewrite app_length in Q. cbn in Q. rewrite nth_error_app2 in A by lia. replace (i - length es') with 0 in A by lia. cbn in A. injection A as ->. reflexivity.
    + rewrite nth_error_app2 in R by lia. destruct (S i - length es) as [|n] eqn:X; [lia|]. cbn in R. destruct n; discriminate.
Qed.
Lemma pending_snoc es e : pending (es ++ [e]) = match e with Asked d => Some d | _ => None end.
Proof. unfold pending. rewrite rev_unit. destruct e; reflexivity. Qed.

Definition exact_inv (s : rt_state) (d : Z) : Prop :=
  match rt_place s with
  | CoreFirst | CoreLoop => rt_target s = d
  | DelegateWait => (d <= rt_now s + rt_wait s)%Z /\ (rt_target s = d \/ rt_target s = 0%Z)
  | DelegateRedo => rt_target s = d \/ rt_target s = 0%Z
  | Finished => True
  end.
Definition any_inv (s : rt_state) (d : Z) : Prop :=
  match rt_place s with DelegateWait | DelegateRedo => rt_target s = d | Finished => True | _ => False end.
Definition good (inv : rt_state -> Z -> Prop) (s : rt_state) (es : list rt_event) : Prop :=
  never_early es /\ (forall d, pending es = Some d -> d <> 0%Z /\ inv s d).
(** A run at [n], then what update() answers *)
Lemma good_run (inv : rt_state -> Z -> Prop) es n i old s' : never_early es -> (forall d, pending es = Some d -> (d <= n)%Z) ->
  (forall d, d <> 0%Z -> fst (update i old) = d -> inv s' d) -> good inv s' (es ++ Ran n :: snd (update i old)).
Proof.
  intros N D V. assert (R : never_early (es ++ [Ran n])) by (apply never_early_snoc; [exact N|]; intros t d [= <-] Q; auto).
  unfold update in *. destruct (writes i) as [d|]; [destruct (d =? 0)%Z eqn:Z|].
  - split; [exact R|]. intros d'. cbn [snd]. rewrite pending_snoc. discriminate.
  - cbn [snd fst] in *. replace (es ++ [Ran n; Asked d]) with ((es ++ [Ran n]) ++ [Asked d]) by (rewrite <- app_assoc; reflexivity).
    split; [apply never_early_snoc; [exact R|]; discriminate|]. intros d'. rewrite pending_snoc. intros [= <-]. apply Z.eqb_neq in Z. auto.
  - split; [exact R|]. intros d'. cbn [snd]. rewrite pending_snoc. discriminate.
Qed.
Lemma good_silent (inv : rt_state -> Z -> Prop) s s' es : good inv s es -> (forall d, d <> 0%Z -> pending es = Some d -> inv s d -> inv s' d) -> good inv s' (es ++ []).
Proof. rewrite app_nil_r. intros (N & I) K. split; [exact N|]. intros d P. destruct (I d P). auto. Qed.
Ltac run_case := match goal with |- context [update ?i ?o] => pose proof (fun inv es n s' => good_run inv es n i o s') as GR; destruct (update i o) as [d e]; cbn [fst snd] in * end.

Lemma exact_step s i es : good exact_inv s es -> (rt_place s = DelegateWait -> (rt_wait s <= passes_ i)%Z) ->
  good exact_inv (fst (rt_step s i)) (es ++ snd (rt_step s i)).
Proof.
  intros G X. unfold rt_step. destruct G as (N & I) eqn:GE. assert (G' : good exact_inv s es) by exact G. clear GE.
  unfold exact_inv in I. destruct (rt_place s) eqn:PL.
  - destruct (is_alive i); cbn [negb fst snd]; [|eapply good_silent; [exact G'|]; intros; exact Logic.I].
    destruct (negb (rt_target s =? 0)%Z && (rt_now s + passes_ i <? rt_target s)%Z) eqn:E.
    + cbn [fst snd]. eapply good_silent; [exact G'|]. unfold exact_inv. rewrite PL. cbn. intros. lia.
    + run_case. apply GR; [exact N| |].
      * intros d' P. destruct (I _ P). lia.
      * intros d' _ <-. unfold exact_inv. cbn. destruct (result i); cbn; auto.
  - destruct ((rt_target s =? 0)%Z || negb (is_alive i)) eqn:E; cbn [fst snd]; [eapply good_silent; [exact G'|]; intros; exact Logic.I|].
    destruct (rt_now s + passes_ i <? rt_target s)%Z eqn:E2.
    + cbn [fst snd]. eapply good_silent; [exact G'|]. unfold exact_inv. rewrite PL. cbn. intros. lia.
    + run_case. apply GR; [exact N| |].
      * intros d' P. destruct (I _ P). lia.
      * intros d' _ <-. unfold exact_inv. cbn. destruct (result i); cbn; auto.
  - destruct (is_alive i); cbn [negb fst snd]; [|eapply good_silent; [exact G'|]; intros; exact Logic.I].
    destruct (running i); cbn [negb].
    + run_case. apply GR; [exact N| |].
      * intros d' P. destruct (I _ P). specialize (X eq_refl). destruct (_ <? _)%Z eqn:E; lia.
      * intros d' _ <-. unfold exact_inv. cbn. auto.
    + cbn [fst snd]. eapply good_silent; [exact G'|]. unfold exact_inv. rewrite PL. cbn. intros. tauto.
  - destruct ((rt_target s =? 0)%Z || negb (is_alive i) || negb (running i)) eqn:E; cbn [fst snd]; [eapply good_silent; [exact G'|]; intros; exact Logic.I|].
    destruct (rt_now s + passes_ i <? rt_target s)%Z eqn:E2.
    + cbn [fst snd]. eapply good_silent; [exact G'|]. unfold exact_inv. rewrite PL. cbn. intros. lia.
    + run_case. apply GR; [exact N| |].
      * intros d' P. destruct (I _ P). lia.
      * intros d' _ <-. unfold exact_inv. cbn. auto.
  - cbn [fst snd]. eapply good_silent; [exact G'|]. unfold exact_inv. rewrite PL. auto.
Qed.
Lemma rt_steps_cons s i r : rt_steps s (i :: r) =
  (fst (rt_steps (fst (rt_step s i)) r), snd (rt_step s i) ++ snd (rt_steps (fst (rt_step s i)) r)).
Proof. cbn [rt_steps]. destruct (rt_step s i) as [s' e]. cbn [fst snd]. destruct (rt_steps s' r). reflexivity. Qed.
Lemma exact_steps is : forall s es, good exact_inv s es -> exact_timer s is -> never_early (es ++ snd (rt_steps s is)).
Proof.
  induction is as [|i r IH]; intros s es G X; [cbn; rewrite app_nil_r; apply G|]. destruct X as (X1 & X2).
  rewrite rt_steps_cons. cbn [snd]. rewrite app_assoc. apply IH; [|exact X2]. apply exact_step; assumption.
Qed.
Lemma never_early_one e : never_early [e].
Proof. intros i d t A R. destruct i; cbn in R; [discriminate|destruct i; discriminate]. Qed.
Lemma rt_exact n t is : exact_timer (mkrt n t 0 CoreFirst) is -> never_early (rt_run n t is).
Proof.
  intros X. unfold rt_run. apply exact_steps; [|exact X]. destruct (t =? 0)%Z eqn:Z.
  - split; [intros i d t' A; destruct i; discriminate|]. discriminate.
  - split; [apply never_early_one|]. intros d. cbn. intros [= <-]. split; [lia|reflexivity].
Qed.

Lemma any_step s i es : good any_inv s es -> rt_place s = DelegateWait \/ rt_place s = DelegateRedo \/ rt_place s = Finished ->
  good any_inv (fst (rt_step s i)) (es ++ snd (rt_step s i)) /\
  (rt_place (fst (rt_step s i)) = DelegateWait \/ rt_place (fst (rt_step s i)) = DelegateRedo \/ rt_place (fst (rt_step s i)) = Finished).
Proof.
  intros G PP. unfold rt_step. assert (G' : good any_inv s es) by exact G. destruct G as (N & I).
  unfold any_inv in I. destruct (rt_place s) eqn:PL; [destruct PP as [?|[?|?]]; discriminate..| | |].
  - destruct (is_alive i); cbn [negb fst snd]; [|split; [eapply good_silent; [exact G'|]; intros; exact Logic.I|auto]].
    destruct (running i); cbn [negb].
    + run_case. split; [|auto]. apply GR; [exact N| |].
      * intros d' P. destruct (I _ P). destruct (_ <? _)%Z eqn:E; lia.
      * intros d' _ <-. unfold any_inv. cbn. auto.
    + cbn [fst snd]. split; [|auto]. eapply good_silent; [exact G'|]. unfold any_inv. rewrite PL. cbn. intros. tauto.
  - destruct ((rt_target s =? 0)%Z || negb (is_alive i) || negb (running i)) eqn:E; cbn [fst snd]; [split; [eapply good_silent; [exact G'|]; intros; exact Logic.I|auto]|].
    destruct (rt_now s + passes_ i <? rt_target s)%Z eqn:E2.
    + cbn [fst snd]. split; [|auto]. eapply good_silent; [exact G'|]. unfold any_inv. rewrite PL. cbn. intros. lia.
    + run_case. split; [|auto]. apply GR; [exact N| |].
      * intros d' P. destruct (I _ P). lia.
      * intros d' _ <-. unfold any_inv. cbn. auto.
  - cbn [fst snd]. split; [|auto]. eapply good_silent; [exact G'|]. unfold any_inv. rewrite PL. auto.
Qed.
Lemma any_steps is : forall s es, good any_inv s es -> rt_place s = DelegateWait \/ rt_place s = DelegateRedo \/ rt_place s = Finished ->
  never_early (es ++ snd (rt_steps s is)).
Proof.
  induction is as [|i r IH]; intros s es G X; [cbn; rewrite app_nil_r; apply G|].
  rewrite rt_steps_cons. cbn [snd]. rewrite app_assoc. destruct (any_step s i es G X). apply IH; assumption.
Qed.
Lemma rt_delegate n t is : t <> 0%Z -> (n + passes_ (hd (mkin 0 true true None true) is) < t)%Z -> never_early (rt_run n t is).
Proof.
  intros T E. unfold rt_run. destruct (t =? 0)%Z eqn:Z; [lia|]. destruct is as [|i r]; [cbn; apply never_early_one|].
  rewrite rt_steps_cons. cbn [hd] in E.
  assert (L : (n + passes_ i <? t)%Z = true) by lia.
  assert (R : rt_step (mkrt n t 0 CoreFirst) i = if is_alive i then (mkrt (n + passes_ i) t (t - (n + passes_ i)) DelegateWait, [])
                                                 else (mkrt (n + passes_ i) 0 0 Finished, [])).
  { unfold rt_step. cbn [rt_place rt_target rt_now]. rewrite Z, L. destruct (is_alive i); reflexivity. }
  rewrite R. destruct (is_alive i); cbn [fst snd app].
  - apply (any_steps r (mkrt (n + passes_ i) t (t - (n + passes_ i)) DelegateWait) [Asked t]); [|auto].
    split; [apply never_early_one|]. intros d [= <-]. split; [lia|reflexivity].
  - apply (any_steps r (mkrt (n + passes_ i) 0 0 Finished) [Asked t]); [|auto].
    split; [apply never_early_one|]. intros d [= <-]. split; [lia|exact Logic.I].
Qed.
(** The job runs late at 12, asks for 20; the core hands it over with target 0;
    the timer fires 1 us early and the job runs at 19. *)
Lemma rt_early : exists n t is, (forall i, In i is -> 0 <= passes_ i)%Z /\ ~ never_early (rt_run n t is).
Proof.
  exists 0%Z, 10%Z, [mkin 12 true true (Some 20%Z) true; mkin 0 true true None true; mkin 7 true true (Some 0%Z) true].
  split; [intros i [<-|[<-|[<-|[]]]]; cbn; lia|]. intros H. specialize (H 2 20%Z 19%Z). cbv in H.
  specialize (H eq_refl eq_refl). apply H. reflexivity.
Qed.
(** Runs are asked for *)
Definition is_asked (es : list rt_event) : Prop := exists d, pending es = Some d.
Lemma only_asked_snoc es e : only_asked es -> (forall t, e = Ran t -> is_asked es) -> only_asked (es ++ [e]).
Proof.
  intros H K i t R. destruct (Nat.lt_ge_cases i (length es)).
  - rewrite nth_error_app1 in R by lia. destruct (H _ _ R) as (k & d & -> & E). exists k, d. split; [reflexivity|].
    rewrite nth_error_app1 by lia. exact E.
  - rewrite nth_error_app2 in R by lia. destruct (i - length es) as [|n] eqn:X; [|cbn in R; destruct n; discriminate].
    cbn in R. injection R as ->. destruct (K t eq_refl) as (d & P). unfold pending in P.
    destruct es as [|x es'] using rev_ind; [discriminate|]. rewrite rev_unit in P. destruct x; [discriminate|]. injection P as <-.
    exists (length es'), t0. rewrite app_length in X, H0. cbn in X, H0. split; [lia|]. rewrite <- app_assoc, nth_error_app2, Nat.sub_diag by lia. reflexivity.
Qed.
Lemma asked_run es n i old : only_asked es -> is_asked es -> writes i <> None ->
  only_asked (es ++ Ran n :: snd (update i old)) /\ (fst (update i old) <> 0%Z -> is_asked (es ++ Ran n :: snd (update i old))).
Proof.
  intros O A W. assert (R : only_asked (es ++ [Ran n])) by (apply only_asked_snoc; auto).
  unfold update. destruct (writes i) as [d|]; [|congruence]. destruct (d =? 0)%Z eqn:Z; cbn [fst snd].
  - split; [exact R|lia].
  - replace (es ++ [Ran n; Asked d]) with ((es ++ [Ran n]) ++ [Asked d]) by (rewrite <- app_assoc; reflexivity).
    split; [apply only_asked_snoc; [exact R|discriminate]|]. intros _. exists d. rewrite pending_snoc. reflexivity.
Qed.
Definition asked_inv (s : rt_state) (es : list rt_event) : Prop :=
  only_asked es /\ (rt_place s <> Finished -> rt_target s <> 0%Z \/ rt_place s = DelegateWait -> is_asked es).
Lemma asked_step s i es : asked_inv s es -> (rt_place s = CoreFirst -> rt_target s <> 0%Z) -> writes i <> None ->
  asked_inv (fst (rt_step s i)) (es ++ snd (rt_step s i)) /\ rt_place (fst (rt_step s i)) <> CoreFirst.
Proof.
  intros (O & A) T W. unfold rt_step.
  assert (F : forall n, asked_inv (mkrt n 0 0 Finished) (es ++ [])) by (intros n; rewrite app_nil_r; split; [exact O|]; cbn; congruence).
  assert (S : forall s', is_asked es -> asked_inv s' (es ++ [])) by (intros s' X; rewrite app_nil_r; split; auto).
  destruct (rt_place s) eqn:PL.
  - assert (AS : is_asked es) by (apply A; [discriminate|]; auto).
    destruct (is_alive i); cbn [negb fst snd]; [|split; [apply F|discriminate]].
    destruct (negb _ && _); cbn [fst snd]; [split; [apply S, AS|discriminate]|].
    pose proof (fun n => asked_run es n i 0 O AS W) as R. destruct (update i 0) as [d e]. cbn [fst snd] in *.
    split; [split; [apply R|]|cbn; destruct (result i); discriminate]. cbn. intros _ [D|D]; [apply R, D|destruct (result i); discriminate].
  - destruct ((rt_target s =? 0)%Z || negb (is_alive i)) eqn:E; cbn [fst snd]; [split; [apply F|discriminate]|].
    assert (AS : is_asked es) by (apply A; [discriminate|]; left; lia).
    destruct (_ <? _)%Z; cbn [fst snd]; [split; [apply S, AS|discriminate]|].
    pose proof (fun n => asked_run es n i 0 O AS W) as R. destruct (update i 0) as [d e]. cbn [fst snd] in *.
    split; [split; [apply R|]|cbn; destruct (result i); discriminate]. cbn. intros _ [D|D]; [apply R, D|destruct (result i); discriminate].
  - assert (AS : is_asked es) by (apply A; [discriminate|]; auto).
    destruct (is_alive i); cbn [negb fst snd]; [|split; [apply F|discriminate]].
    destruct (running i); cbn [negb fst snd]; [|split; [apply S, AS|discriminate]].
    pose proof (fun n => asked_run es n i 0 O AS W) as R. destruct (update i 0) as [d e]. cbn [fst snd] in *.
    split; [split; [apply R|]|discriminate]. cbn. intros _ [D|D]; [apply R, D|discriminate].
  - destruct ((rt_target s =? 0)%Z || negb (is_alive i) || negb (running i)) eqn:E; cbn [fst snd]; [split; [apply F|discriminate]|].
    assert (AS : is_asked es) by (apply A; [discriminate|]; left; lia).
    destruct (_ <? _)%Z; cbn [fst snd]; [split; [apply S, AS|discriminate]|].
    pose proof (fun n => asked_run es n i (rt_target s) O AS W) as R. destruct (update i (rt_target s)) as [d e]. cbn [fst snd] in *.
    split; [split; [apply R|]|discriminate]. cbn. intros _ [D|D]; [apply R, D|discriminate].
  - cbn [fst snd]. rewrite PL. split; [|discriminate]. rewrite app_nil_r. split; [exact O|]. rewrite PL. congruence.
Qed.
Lemma asked_steps is : forall s es, asked_inv s es -> (rt_place s = CoreFirst -> rt_target s <> 0%Z) ->
  (forall i, In i is -> writes i <> None) -> only_asked (es ++ snd (rt_steps s is)).
Proof.
  induction is as [|i r IH]; intros s es A T W; [cbn; rewrite app_nil_r; apply A|].
  rewrite rt_steps_cons. cbn [snd]. rewrite app_assoc. destruct (asked_step s i es A T (W i (or_introl eq_refl))) as (A' & T').
  apply IH; [exact A'|congruence|]. intros j J. apply W. right. exact J.
Qed.
Lemma rt_asked n t is : t <> 0%Z -> (forall i, In i is -> writes i <> None) -> only_asked (rt_run n t is).
Proof.
  intros T W. unfold rt_run. destruct (t =? 0)%Z eqn:Z; [lia|]. apply asked_steps; [|auto|exact W].
  split; [|intros; eexists; reflexivity]. intros i t' A. destruct i as [|[|i]]; discriminate.
Qed.
(** Handed over for 10, run, asks for 20, run late at 25 asking nothing: the
    delegate's variable still holds 20 and the job is run again. *)
Lemma rt_unasked : exists n t is, t <> 0%Z /\ (forall i, In i is -> 0 <= passes_ i)%Z /\ ~ only_asked (rt_run n t is).
Proof.
  exists 0%Z, 10%Z, [mkin 1 true true None true; mkin 9 true true (Some 20%Z) true; mkin 15 true true None true; mkin 5 true true None true].
  split; [discriminate|]. split; [intros i [<-|[<-|[<-|[<-|[]]]]]; cbn; lia|]. intros H. destruct (H 4 30%Z eq_refl) as (k & d & [= <-] & E). discriminate E.
Qed.
Lemma first_tick_early limit : exists start run_time r t h hs j es,
  In j t /\ (target j <= start)%Z /\
  snd (run_in_diagnostic_time limit 100 100 start run_time r t h hs) = Ticked start [] :: RanT j start None [] :: es.
Proof.
  exists 0%Z, 1000%Z, [], [mktjob 1 0], idle, [idle], (mktjob 1 0), []. split; [left; reflexivity|]. split; [cbn; lia|].
  unfold run_in_diagnostic_time. cbn [init]. cbn [steps]. unfold step, reductions. reflexivity.
Qed.
