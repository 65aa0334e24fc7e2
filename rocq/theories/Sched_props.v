(** C27-C30, C48: the schedulers. *)
From Verif Require Import Base Sched_model Sched_spec Sched_proofs.
Local Open Scope nat_scope.

(** A run used as example: sampling period 100, a job due at 30 that asks to run
    again at 60 and pushes a reduction job, a job due at 60 queued after it, one
    due at 20 that is dead. *)
Definition ex_jobs := [mktjob 1 30; mktjob 2 60; mktjob 3 20].
Definition ex_replies : list reply :=
  [mkreply [] false true 0; mkreply [PushR 5; PushT (mktjob 4 60)] true true 60; mkreply [] true true 0; idle; idle; idle; idle; idle; idle].
Definition ex_run := run_in_diagnostic_time 80 100 100 0 1000 [9] ex_jobs idle (idle :: idle :: ex_replies).
Example ex_run_trace : snd ex_run =
  [Ticked 0 []; RanR 9 0 []; Dead (mktjob 3 20) 20; RanT (mktjob 1 30) 30 (Some 60%Z) [PushR 5; PushT (mktjob 4 60)];
   RanR 5 30 []; RanT (mktjob 2 60) 60 None []; RanT (mktjob 1 60) 60 None []; RanT (mktjob 4 60) 60 None []; Ticked 100 []; Ticked 200 []].
Proof. vm_compute. reflexivity. Qed.

(** ** C27 The clock never decreases, no time job runs early, jobs run in order of
    target time and among equal targets in the order they were queued. *)
Theorem C27_time_jobs_in_order : forall limit passes period, (0 < period)%Z ->
  forall start run_time r t h hs, orderly t start (snd (run_in_diagnostic_time limit passes period start run_time r t h hs)).
Proof. exact run_orderly. Qed.
Print Assumptions C27_time_jobs_in_order.
Example C27_case : orderly ex_jobs 0 (snd ex_run).
Proof. apply C27_time_jobs_in_order. reflexivity. Qed.

(** ** C28 Sampling.  The tick times are start, start + period, ... without gaps. *)
Theorem C28_tick_times : forall limit passes period, (0 < period)%Z ->
  forall start run_time r t h hs,
  let ts := tick_times (snd (run_in_diagnostic_time limit passes period start run_time r t h hs)) in
  ts = map (fun i => (start + Z.of_nat i * period)%Z) (seq 0 (length ts)).
Proof. exact run_ticks. Qed.
Print Assumptions C28_tick_times.
(** The clock does not pass a sampling time before its tick, and the tick is made
    when no waiting job is due any more ... *)
Theorem C28_ticks_on_schedule_partial : forall limit passes period, (0 < period)%Z ->
  forall start run_time r t h hs, exists es,
  snd (run_in_diagnostic_time limit passes period start run_time r t h hs) = Ticked start (does h) :: es /\
  sampled start period 1 (t ++ pushed_t (does h)) es.
Proof. exact run_sampled. Qed.
Print Assumptions C28_ticks_on_schedule_partial.
Example C28_case : tick_times (snd ex_run) = [0; 100; 200]%Z.
Proof. vm_compute. reflexivity. Qed.
(** ... except the first one, made before the jobs that are already due. *)
Theorem C28_first_tick_refuted : forall limit, exists start run_time r t h hs j es,
  In j t /\ (target j <= start)%Z /\
  snd (run_in_diagnostic_time limit 100 100 start run_time r t h hs) = Ticked start [] :: RanT j start None [] :: es.
Proof. exact first_tick_early. Qed.
Print Assumptions C28_first_tick_refuted.

(** ** C29 Reduction jobs run in the order they were pushed, each once: what was
    pushed is what has run followed by what is still queued. *)
Theorem C29_fifo_exactly_once : forall limit passes period start run_time r t h hs s es,
  run_in_diagnostic_time limit passes period start run_time r t h hs = (s, es) ->
  r ++ reductions_pushed es = reductions_run es ++ skipn (idx s) (local s) ++ rq s.
Proof. exact run_fifo. Qed.
Print Assumptions C29_fifo_exactly_once.
Example C29_case : reductions_run (snd ex_run) = [9; 5] /\ reductions_pushed (snd ex_run) = [5].
Proof. vm_compute. split; reflexivity. Qed.
(** At most twice the limit minus one run without a time job or a tick ... *)
Theorem C29_bounded_bursts_partial : forall limit passes period start run_time r t h hs, 1 <= limit ->
  forall a b c, snd (run_in_diagnostic_time limit passes period start run_time r t h hs) = a ++ b ++ c ->
  forallb is_reduction b = true -> length b <= 2 * limit - 1.
Proof. exact run_bursts. Qed.
Print Assumptions C29_bounded_bursts_partial.
(** ... but more than the limit can run between two ticks, whatever the limit. *)
Theorem C29_limit_refuted : forall limit, 1 <= limit -> exists r t h hs a b c,
  forallb (fun e => negb (is_tick e)) b = true /\
  snd (run_in_diagnostic_time limit 100 100 0 1000 r t h hs) = Ticked 0 a :: b ++ [Ticked 100 c] /\
  limit < length (filter is_reduction b).
Proof. exact exceed. Qed.
Print Assumptions C29_limit_refuted.

(** ** C30 Real time.  A job does not run before the time it asked for, if the
    timer never fires early, or if the job was early when first taken ... *)
Theorem C30_exact_timer_partial : forall n t is, exact_timer (mkrt n t 0 CoreFirst) is -> never_early (rt_run n t is).
Proof. exact rt_exact. Qed.
Print Assumptions C30_exact_timer_partial.
Theorem C30_delegated_partial : forall n t is, t <> 0%Z ->
  (n + passes_ (hd (mkin 0 true true None true) is) < t)%Z -> never_early (rt_run n t is).
Proof. exact rt_delegate. Qed.
Print Assumptions C30_delegated_partial.
Example C30_case : rt_run 0 10 [mkin 1 true true None true; mkin 5 true true (Some 20%Z) true; mkin 3 true true None true; mkin 9 true true (Some 0%Z) true] =
  [Asked 10; Ran 10; Asked 20; Ran 22].
Proof. vm_compute. reflexivity. Qed.
(** ... but not otherwise: a job run on time or late by the time core that asks to
    run again is handed over with target time 0, and an early timer runs it early. *)
Theorem C30_early_timer_refuted : exists n t is, (forall i, In i is -> 0 <= passes_ i)%Z /\ ~ never_early (rt_run n t is).
Proof. exact rt_early. Qed.
Print Assumptions C30_early_timer_refuted.
(** A job runs again only if it asked, provided update() always writes its argument ... *)
Theorem C30_runs_are_asked_partial : forall n t is, t <> 0%Z -> (forall i, In i is -> writes i <> None) -> only_asked (rt_run n t is).
Proof. exact rt_asked. Qed.
Print Assumptions C30_runs_are_asked_partial.
(** ... otherwise the delegate runs it again on the old target. *)
Theorem C30_unasked_run_refuted : exists n t is, t <> 0%Z /\ (forall i, In i is -> 0 <= passes_ i)%Z /\ ~ only_asked (rt_run n t is).
Proof. exact rt_unasked. Qed.
Print Assumptions C30_unasked_run_refuted.

(** ** C48 The run ends.  Nothing happens one period or more after the end ... *)
Theorem C48_end_partial : forall limit passes period, (0 < period)%Z ->
  forall start run_time r t h hs, (0 <= run_time)%Z ->
  Forall (fun e => (clock e < start + run_time + period)%Z) (snd (run_in_diagnostic_time limit passes period start run_time r t h hs)).
Proof. exact run_end. Qed.
Print Assumptions C48_end_partial.
(** ... but a job due after the end can run. *)
Theorem C48_end_refuted : forall limit, exists e,
  In e (snd (run_in_diagnostic_time limit 100 100 0 50 [] [mktjob 7 70] idle [idle; idle])) /\ (0 + 50 < clock e)%Z.
Proof. exact overrun. Qed.
Print Assumptions C48_end_refuted.
