(** C40: outcomes of monitored goals; C41: outcomes of monitored predictions; C69: goals
    that are predicted to succeed or fail; C70: monitored requirements. *)
From Verif Require Import Base Mon_model Mon_spec Mon_proofs Mon_goals.

(** An interleaving of a reduction core and a time core reports a prediction twice, as a
    success and as a failure. *)
Theorem C41_once_refuted : exists c t es, let s := prun c (pstart t) es in
  exists i, told s = [mkrep true (Some i) (now s); mkrep false None (now s)].
Proof. exact race. Qed.
Print Assumptions C41_once_refuted.
(** Never more than twice, in any interleaving. *)
Theorem C41_twice : forall c t es, (length (told (prun c (pstart t) es)) <= 2)%nat.
Proof. exact at_most_two. Qed.
Print Assumptions C41_twice.
(** Any report, in any interleaving: without evidence it is a failure, at the time of the
    job or later, of a predicted fact, and failures are rated; with evidence, the input was
    actual and it is a success exactly when it is evidence for the prediction. *)
Theorem C41_reports : forall c t es r, In r (told (prun c (pstart t) es)) ->
  match r_evidence r with
  | None => r_success r = false /\ due c <= r_when r /\ rate c = true /\ of_fact c = true
  | Some i => in_pred i = false /\ (r_success r = true /\ in_verdict i = Positive \/ r_success r = false /\ in_verdict i = Negative /\ rate c = true)
  end.
Proof. exact report_kinds. Qed.
Print Assumptions C41_reports.
(** After a report, once no handler is running, the monitor is gone and reports nothing,
    whatever happens. *)
Theorem C41_gone : forall c t es, let s := prun c (pstart t) es in told s <> [] -> quiet s ->
  listed s = false /\ forall more, told (prun c s more) = told s.
Proof. exact told_gone. Qed.
Print Assumptions C41_gone.
(** If handlers do not overlap: at most one report. *)
Theorem C41_once_partial : forall c t bs, (length (told (prun c (pstart t) (one_at_a_time bs))) <= 1)%nat.
Proof. exact at_most_one. Qed.
Print Assumptions C41_once_partial.
(** And exactly which: the one made by the first event that decides. *)
Theorem C41_exact_partial : forall c t bs r, told (prun c (pstart t) (one_at_a_time bs)) = [r] <->
  exists p b q, bs = p ++ b :: q /\ undecided c t p /\ decides c t p b (Some r).
Proof. exact exact_outcome. Qed.
Print Assumptions C41_exact_partial.
(** A failure for lack of evidence: no confirming evidence came before. *)
Theorem C41_deadline_partial : forall c t bs r, In r (told (prun c (pstart t) (one_at_a_time bs))) -> r_evidence r = None ->
  exists p q, bs = p ++ BJob :: q /\ due c <= clock t p /\ r_when r = clock t p /\ rate c = true /\
  forall i, In (BInput i) p -> ~ (in_pred i = false /\ in_verdict i = Positive).
Proof. exact no_confirmation. Qed.
Print Assumptions C41_deadline_partial.
Example C41_case : told (prun (mkpconf true true 10) (pstart 0) (one_at_a_time [BJob; BInput (actual NoMatch); BPass 12; BJob; BInput (actual Positive)])) = [mkrep false None 12] /\
  told (prun (mkpconf true true 10) (pstart 0) (one_at_a_time [BPass 5; BInput (mkpin true false false Negative false); BInput (actual Positive); BPass 12; BJob])) = [mkrep true (Some (actual Positive)) 5] /\
  undecided (mkpconf true true 10) 0 [BJob; BPass 5].
Proof.
  split; [reflexivity|]. split; [reflexivity|]. intros [|x [|y [|z p]]] b q o E D; try discriminate; inversion E; subst; inversion D; cbn in *; lia.
Qed.

(** The same race for goals. *)
Theorem C40_once_refuted : exists c t thz es i, outcomes (out (grun c (gstart c t thz false) es)) = [mkrep true (Some i) 10; mkrep false None 10].
Proof. exact g_race. Qed.
Print Assumptions C40_once_refuted.
(** Not even one: a goal that was predicted to succeed gets no outcome, although evidence
    came before the deadline. *)
Theorem C40_some_refuted : exists c t thz bs, always_active bs /\ anti c = false /\ ~ In CInvalidate bs /\
  (exists p q i, bs = p ++ CInput i :: q /\ actual_evidence Positive i /\ gclock t p < deadline c) /\
  (exists p, bs = p ++ [CJob] /\ deadline c <= gclock t p) /\
  outcomes (out (grun c (gstart c t thz false) (g_one_at_a_time bs))) = [].
Proof. exact g_no_outcome. Qed.
Print Assumptions C40_some_refuted.
(** The wrong one: the evidence that comes right after the predicted evidence was found
    wrong is not looked at, and the goal is reported a failure. *)
Theorem C40_lost_refuted : exists c t thz bs, always_active bs /\ anti c = false /\ ~ In CInvalidate bs /\
  (exists p q i, bs = p ++ CInput i :: q /\ actual_evidence Positive i /\ gclock t p < deadline c) /\
  (forall i, In (CInput i) bs -> actual_evidence Positive i) /\
  exists r, outcomes (out (grun c (gstart c t thz true) (g_one_at_a_time bs))) = [r] /\ r_success r = false.
Proof. exact g_lost. Qed.
Print Assumptions C40_lost_refuted.
(** The wrong one, for goals whose target is an anti-fact. *)
Theorem C40_anti_refuted : exists c t thz bs, always_active bs /\ anti c = true /\ ~ In CInvalidate bs /\
  (forall i, In (CInput i) bs -> actual_evidence Positive i) /\ (exists i, In (CInput i) bs) /\
  exists r, outcomes (out (grun c (gstart c t thz false) (g_one_at_a_time bs))) = [r] /\ r_success r = false.
Proof. exact g_anti. Qed.
Print Assumptions C40_anti_refuted.
(** None, if the controller is not active when the job comes. *)
Theorem C40_dropped_refuted : exists c t thz bs, anti c = false /\ ~ In CInvalidate bs /\ (forall i, ~ In (CInput i) bs) /\
  (forall more, (forall b, In b more -> b = CJob \/ exists d, b = CPass d) ->
     outcomes (out (grun c (gstart c t thz false) (g_one_at_a_time (bs ++ CController true :: more)))) = []).
Proof. exact g_dropped. Qed.
Print Assumptions C40_dropped_refuted.
Theorem C40_twice : forall c t thz e es, (length (outcomes (out (grun c (gstart c t thz e) es))) <= 2)%nat.
Proof. exact g_at_most_two. Qed.
Print Assumptions C40_twice.
Theorem C40_outcomes : forall c t thz e es r, In r (outcomes (out (grun c (gstart c t thz e) es))) ->
  match r_evidence r with
  | None => r_success r = false /\ deadline c <= r_when r
  | Some i => (r_success r = true /\ actual_evidence Positive i) \/ (r_success r = false /\ actual_evidence Negative i)
  end.
Proof. exact g_kinds. Qed.
Print Assumptions C40_outcomes.
Theorem C40_gone : forall c t thz e es, let s := grun c (gstart c t thz e) es in outcomes (out s) <> [] -> gquiet s ->
  glisted s = false /\ forall more, out (grun c s more) = out s.
Proof. exact g_gone. Qed.
Print Assumptions C40_gone.
Theorem C40_once_partial : forall c t thz e bs, (length (outcomes (out (grun c (gstart c t thz e) (g_one_at_a_time bs)))) <= 1)%nat.
Proof. exact g_at_most_one. Qed.
Print Assumptions C40_once_partial.
(** If the goal's target is a fact, no evidence was predicted when it was set, and the
    controller stays active: exactly which outcome there is. *)
Theorem C40_exact_partial : forall c t thz bs r, anti c = false -> always_active bs ->
  (outcomes (out (grun c (gstart c t thz false) (g_one_at_a_time bs))) = [r] <->
   exists p b q, bs = p ++ b :: q /\ gundecided c t thz p /\ gdecides c t thz p b (Some r)).
Proof. exact g_exact. Qed.
Print Assumptions C40_exact_partial.
(** If moreover nothing else ends the goal, there is exactly one once the job came at the
    deadline. *)
Theorem C40_exactly_one_partial : forall c t thz bs, anti c = false -> always_active bs -> ~ In CInvalidate bs ->
  (forall i, In (CInput i) bs -> g_pred i = false -> g_ground i = false) ->
  (forall i p q, bs = p ++ CInput i :: q -> g_pred i = true -> g_verdict i = Positive -> still_simulating t thz p) ->
  (exists p q, bs = p ++ CJob :: q /\ deadline c <= gclock t p /\ ~ still_simulating t thz p) ->
  exists r, outcomes (out (grun c (gstart c t thz false) (g_one_at_a_time bs))) = [r].
Proof. exact g_exactly_one. Qed.
Print Assumptions C40_exactly_one_partial.
(** A goal simulated until 3, due at 10; the job comes at 3 and at 11. *)
Definition scenario : list gblock := [CInput (mkgin true true OfObject false Positive true false); CPass 3; CJob; CInput (gpredicted NoMatch); CPass 8; CJob].
Example C40_case : out (grun (mkgconf 10 false) (gstart (mkgconf 10 false) 0 3 false) (g_one_at_a_time scenario)) =
    [Simulated true (mkgin true true OfObject false Positive true false); Commit; Outcome (mkrep false None 11)] /\
  always_active scenario /\ ~ In CInvalidate scenario /\
  (exists p q, scenario = p ++ CJob :: q /\ 10 <= gclock 0 p /\ ~ still_simulating 0 3 p).
Proof.
  split; [reflexivity|]. split; [intros [F|[F|[F|[F|[F|[F|[]]]]]]]; discriminate|]. split; [intros [F|[F|[F|[F|[F|[F|[]]]]]]]; discriminate|].
  exists (firstn 5 scenario), []. split; [reflexivity|]. split; [vm_compute; discriminate|]. intros [_ F]. specialize (F (firstn 2 scenario) (firstn 2 (skipn 3 scenario)) eq_refl). vm_compute in F. discriminate.
Qed.

(** A goal predicted to succeed and then to fail is not pursued again: nothing ever
    happens to it. *)
Theorem C69_reissued_refuted : exists c t thz bs i j, anti c = false /\ always_active bs /\ bs = [CInput i; CInput j] /\
  g_pred i = true /\ g_verdict i = Positive /\ g_pred j = true /\ g_verdict j = Negative /\
  forall more, out (grun c (gstart c t thz false) (g_one_at_a_time bs ++ more)) = [PredictedSuccess].
Proof. exact g_not_reissued. Qed.
Print Assumptions C69_reissued_refuted.
(** After a predicted success the monitor does nothing anymore, in any interleaving. *)
Theorem C69_silent : forall c t thz e es, let s := grun c (gstart c t thz e) es in In PredictedSuccess (out s) -> gquiet s ->
  forall more, out (grun c s more) = out s.
Proof. exact g_predicted_silent. Qed.
Print Assumptions C69_silent.
(** If handlers do not overlap, a goal is never replaced by a new one. *)
Theorem C69_never_new : forall c t thz e bs, ~ In NewGoal (out (grun c (gstart c t thz e) (g_one_at_a_time bs))).
Proof. exact never_new_goal. Qed.
Print Assumptions C69_never_new.
(** The predicted failure of a goal that is pursued is ignored. *)
Theorem C69_ignored : forall c s i, gquiet s -> ginvalid s = false -> injected s = true -> glisted s = true -> simulating s = false -> g_pred i = true -> g_verdict i = Negative ->
  out (grun c s (gexpand (CInput i))) = out s.
Proof. exact g_predicted_failure_ignored. Qed.
Print Assumptions C69_ignored.
(** A goal is injected at most once by its monitor, in any interleaving. *)
Theorem C69_inject_once_partial : forall c t thz e es, (injections (out (grun c (gstart c t thz e) es)) <= 1)%nat.
Proof. exact injected_once. Qed.
Print Assumptions C69_inject_once_partial.
Example C69_case : out (grun (mkgconf 10 false) (gstart (mkgconf 10 false) 0 0 true) (g_one_at_a_time [CInput (gpredicted Negative); CInput (gpredicted Negative); CInput (gpredicted Positive); CPass 10; CJob])) = [InjectGoal; PredictedSuccess] /\
  out (grun (mkgconf 10 false) (gstart (mkgconf 10 false) 0 0 false) [GTake (gpredicted Negative); GInvalidate; GFinish]) = [NewGoal].
Proof. split; reflexivity. Qed.

(** A requirement that was met in time is reported a failure at the deadline. *)
Theorem C70_met_refuted : exists dl t thz es, t < dl /\ rout_ (rrun dl (rstart dl t thz) es) = [RChained; RFail dl] /\ ~ In RInvalidate es.
Proof. exact r_met_fails. Qed.
Print Assumptions C70_met_refuted.
(** In general, meeting the requirement does not change what the jobs report. *)
Theorem C70_irrelevant : forall dl s b m, ralive s = true -> let s' := rsignal s b m in
  rinvalid s' = rinvalid s /\ rsimulating s' = rsimulating s /\ job1 s' = job1 s /\ job2 s' = job2 s /\ fails (rout_ (rjob dl false s')) = fails (rout_ (rjob dl false s)) /\ fails (rout_ (rjob dl true s')) = fails (rout_ (rjob dl true s)).
Proof. exact r_signal_irrelevant. Qed.
Print Assumptions C70_irrelevant.
(** At most one failure, not before the deadline; one commitment; one firing. *)
Theorem C70_once_partial : forall dl t thz es, let os := rout_ (rrun dl (rstart dl t thz) es) in
  (fails os <= 1)%nat /\ (commits os <= 1)%nat /\ (chained os <= 1)%nat /\ forall u, In (RFail u) os -> dl <= u.
Proof. exact r_once. Qed.
Print Assumptions C70_once_partial.
Example C70_case : rout_ (rrun 10 (rstart 10 0 3) [RPass 2; RSignal true true; RPass 2; RJob1; RJob1; RSignal false false; RPass 7; RJob2; RJob1; RJob2]) = [RSimulated true; RCommit; RFail 11].
Proof. reflexivity. Qed.
