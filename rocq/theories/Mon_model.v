(** Monitors of predictions and of goals: r_exec/p_monitor.cpp, r_exec/g_monitor.cpp,
    r_exec/monitor.cpp, the parts of r_exec/mdl_controller.cpp that call them, and the
    jobs that call them from the time cores (time_job.h, time_core.cpp).

    One monitor and the object it watches. Two threads call it: a reduction core, with
    each input, inside the critical section of the list of monitors; a time core, when its
    job is due. A handler is split where the other thread can come between the test of the
    invalidation of the target and the report. *)
From Verif Require Import Base.

(** MatchResult, factory.h: what is_evidence returns for an input and the target. *)
Inductive verdict := Positive | Negative | NoMatch.

(** State of the time core's side: the job waits; it passed its tests and will act; it
    acted and will remove the monitor from the list; the job is gone. *)
Inductive core := Waiting | Acting | Removing | Over.

(** * Monitors of predictions *)

(** What an input is for a given prediction monitor; the results of the functions called
    on it are its fields, so nothing is assumed about them.
    - [in_pred]: input->get_pred() is not NULL (p_monitor.cpp:123);
    - [in_sim]: pred->is_simulation() (mdl_controller.cpp:373);
    - [in_grounds]: grounds_invalidated(input) (p_monitor.cpp:117, factory.cpp:612-624);
    - [in_verdict]: is_evidence, of the prediction's target or of the input
      (p_monitor.cpp:126, 141);
    - [in_stronger]: the comparison of confidences (p_monitor.cpp:130). *)
Record pinput := mkpin { in_pred : bool; in_sim : bool; in_grounds : bool; in_verdict : verdict; in_stronger : bool }.

(** A call of register_pred_outcome (mdl_controller.cpp:2359-2404): the kind of outcome,
    the evidence (None for NULL) and the time. The rating of models and the objects that
    are injected are not modelled here. *)
Record report (I : Type) := mkrep { r_success : bool; r_evidence : option I; r_when : Z }.
Arguments mkrep {I}. Arguments r_success {I}. Arguments r_evidence {I}. Arguments r_when {I}.

(** rate_failures_, whether the predicted target is a fact (not an anti-fact), and the
    time of the job: prediction_target_->get_before() + GetTimeTolerance()
    (p_monitor.cpp:94-107). *)
Record pconf := mkpconf { rate : bool; of_fact : bool; due : Z }.

(** - [alive]: the controller is not invalidated and is activated (monitor.cpp:103-106);
    - [invalid]: target_->is_invalidated();
    - [listed]: the monitor is in p_monitors_;
    - [busy]: the reduction core is in PMonitor::reduce, after the first test, with this
      input; it holds p_monitorsCS_. *)
Record pmon := mkpmon { now : Z; alive : bool; invalid : bool; listed : bool; busy : option pinput; tcore : core; told : list (report pinput) }.
Definition pstart (t : Z) : pmon := mkpmon t true false true None Waiting [].

Inductive pevent :=
| Pass (d : Z)            (* time passes *)
| Controller (b : bool)   (* the controller is (de)activated or invalidated *)
| Invalidate              (* the target is invalidated by something else *)
| Take (i : pinput)       (* the reduction core starts on an input *)
| Finish                  (* and finishes *)
| Wake                    (* the time core pops the job when due: the tests *)
| Act                     (* the rest of update *)
| Remove.                 (* remove_monitor *)

(** MDLController::monitor_predictions (mdl_controller.cpp:370-391) for one monitor, and
    the first test of PMonitor::reduce (p_monitor.cpp:114-115). The event does nothing
    while the critical section is taken. *)
Definition ptake (s : pmon) (i : pinput) : pmon :=
  match busy s with
  | Some _ => s
  | None =>
      if in_pred i && in_sim i then s
      else if negb (listed s) then s
      else if invalid s then mkpmon (now s) (alive s) (invalid s) false None (tcore s) (told s)
      else mkpmon (now s) (alive s) (invalid s) true (Some i) (tcore s) (told s)
  end.
(** PMonitor::reduce after its first test (p_monitor.cpp:117-155): whether the target is
    invalidated, the report, and the value returned. register_pred_outcome invalidates
    the target whatever its state (mdl_controller.cpp:2361). *)
Definition preduce (c : pconf) (t : Z) (i : pinput) : bool * list (report pinput) * bool :=
  if in_grounds i then (true, [], true)
  else if in_pred i then
    match in_verdict i with
    | Positive => (false, [], false)
    | Negative => if in_stronger i then (true, [], true) else (false, [], false)
    | NoMatch => (false, [], false)
    end
  else match in_verdict i with
       | Positive => (true, [mkrep true (Some i) t], true)
       | Negative => if rate c then (true, [mkrep false (Some i) t], true) else (false, [], true)
       | NoMatch => (false, [], false)
       end.
Definition pfinish (c : pconf) (s : pmon) : pmon :=
  match busy s with
  | None => s
  | Some i =>
      let '(inv, rs, gone) := preduce c (now s) i in
      mkpmon (now s) (alive s) (invalid s || inv) (listed s && negb gone) None (tcore s) (told s ++ rs)
  end.
(** TimeCore::Run (time_core.cpp:100-128) or DelegatedCore::Wait (166-185), up to the
    test of PMonitor::update (p_monitor.cpp:159): the job is dropped if it is not alive.
    Simplified: the test of is_alive and the test of update are one step. The job is
    never updated before its time. *)
Definition pwake (c : pconf) (s : pmon) : pmon :=
  match tcore s with
  | Waiting =>
      if now s <? due c then s
      else mkpmon (now s) (alive s) (invalid s) (listed s) (busy s) (if alive s && negb (invalid s) then Acting else Over) (told s)
  | _ => s
  end.
(** PMonitor::update, the report (p_monitor.cpp:159-168). *)
Definition pact (c : pconf) (s : pmon) : pmon :=
  match tcore s with
  | Acting =>
      if rate c && of_fact c
      then mkpmon (now s) (alive s) true (listed s) (busy s) Removing (told s ++ [mkrep false None (now s)])
      else mkpmon (now s) (alive s) (invalid s) (listed s) (busy s) Removing (told s)
  | _ => s
  end.
(** MDLController::remove_monitor (mdl_controller.cpp:400-405), called by
    PMonitor::update (p_monitor.cpp:169); waits for the critical section. The next target
    is 0, so the job is not scheduled again. *)
Definition premove (s : pmon) : pmon :=
  match tcore s, busy s with
  | Removing, None => mkpmon (now s) (alive s) (invalid s) false None Over (told s)
  | _, _ => s
  end.
Definition pstep (c : pconf) (s : pmon) (e : pevent) : pmon :=
  match e with
  | Pass d => mkpmon (now s + Z.max 0 d) (alive s) (invalid s) (listed s) (busy s) (tcore s) (told s)
  | Controller b => mkpmon (now s) b (invalid s) (listed s) (busy s) (tcore s) (told s)
  | Invalidate => mkpmon (now s) (alive s) true (listed s) (busy s) (tcore s) (told s)
  | Take i => ptake s i
  | Finish => pfinish c s
  | Wake => pwake c s
  | Act => pact c s
  | Remove => premove s
  end.
Definition prun (c : pconf) (s : pmon) (es : list pevent) : pmon := fold_left (pstep c) es s.

(** * Monitors of goals *)

(** The object of a prediction's target: a success or failure of a goal, of something
    else, or any other object (g_monitor.cpp:290-300). *)
Inductive about := OfGoal | OfOther | OfObject.
(** - [g_pred]: the input is a prediction; [g_sim]: it is a simulation of the controller
      (g_monitor.cpp:281-287);
    - [g_ground]: ground_invalidated (336); [g_fact]: input->is_fact() (346);
    - [g_better]: the comparison of confidences with the predicted evidence (321). *)
Record ginput := mkgin { g_pred : bool; g_sim : bool; g_about : about; g_ground : bool; g_verdict : verdict; g_fact : bool; g_better : bool }.

(** What the monitor does that can be seen from outside. *)
Inductive gout :=
| Outcome (r : report ginput)                    (* register_goal_outcome *)
| PredictedSuccess                               (* register_predicted_goal_outcome, which invalidates the goal *)
| InjectGoal                                     (* inject_goal of the goal itself *)
| NewGoal                                        (* a copy of the goal, with its monitor, is injected *)
| Simulated (success : bool) (i : ginput)        (* register_simulated_goal_outcome *)
| Store (i : ginput)                             (* store_simulated_outcome *)
| Commit                                         (* commit *)
| Abduce.                                        (* abduce from the super-goal *)

(** deadline_, and whether goal_target_ is an anti-fact. *)
Record gconf := mkgconf { deadline : Z; anti : bool }.

(** - [evid]: predicted_evidence_: None for NULL, otherwise whether it is invalidated;
    - [injected]: injected_goal_; [next]: the time of the job. *)
Record gmon := mkgmon { gnow : Z; galive : bool; ginvalid : bool; glisted : bool; simulating : bool; injected : bool; evid : option bool;
                        gbusy : option ginput; gcore : core; next : Z; out : list gout }.
(** GMonitor::GMonitor (g_monitor.cpp:95-111, 169-186). *)
Definition gstart (c : gconf) (t sim_thz : Z) (evidence : bool) : gmon :=
  let sim := t <? sim_thz in
  mkgmon t true false true sim (negb evidence) (if evidence then Some false else None) None Waiting (if sim then sim_thz else deadline c) [].

Inductive gevent :=
| GPass (d : Z) | GController (b : bool) | GInvalidate
| GWrong                  (* the predicted evidence is invalidated *)
| GTake (i : ginput) | GFinish | GWake | GAct | GRemove.

Definition gset (s : gmon) (inv lst inj : bool) (ev : option bool) (os : list gout) : gmon :=
  mkgmon (gnow s) (galive s) inv lst (simulating s) inj ev None (gcore s) (next s) (out s ++ os).
(** PMDLController::monitor_goals (mdl_controller.cpp:1193-1209) for one monitor, and the
    first test of GMonitor::reduce (g_monitor.cpp:267-268). *)
Definition gtake (s : gmon) (i : ginput) : gmon :=
  match gbusy s with
  | Some _ => s
  | None =>
      if negb (glisted s) then s
      else if ginvalid s then gset s true false (injected s) (evid s) []
      else mkgmon (gnow s) (galive s) false true (simulating s) (injected s) (evid s) (Some i) (gcore s) (next s) (out s)
  end.
(** PMDLController::register_predicted_goal_outcome (mdl_controller.cpp:1211-1239). *)
Definition predicted_failure (s : gmon) : list gout :=
  if negb (injected s) then [InjectGoal] else if ginvalid s then [NewGoal] else [].
(** GMonitor::reduce after its first test (g_monitor.cpp:270-360). Simplified: what it
    reads of the state is read at once. *)
Definition gfinish (c : gconf) (s : gmon) : gmon :=
  match gbusy s with
  | None => s
  | Some i =>
      let keep os := gset s (ginvalid s) (glisted s) (injected s) (evid s) os in
      if negb (injected s) && (match evid s with Some w => w | None => false end)
      then gset s (ginvalid s) (glisted s) true None (predicted_failure s)
      else if g_pred i then
        if simulating s then
          if g_sim i then
            match g_about i with
            | OfGoal => keep [Store i]
            | OfOther => keep []
            | OfObject => match g_verdict i with Positive => keep [Simulated true i] | Negative => keep [Simulated false i] | NoMatch => keep [] end
            end
          else keep []
        else match g_verdict i with
             | Positive =>
                 gset s (ginvalid s || injected s) (glisted s) (injected s)
                      (match evid s with Some w => Some (if g_better i then false else w) | None => None end)
                      (if injected s then [PredictedSuccess] else [])
             | Negative => gset s (ginvalid s) (glisted s && negb (ginvalid s)) true None (predicted_failure s)
             | NoMatch => keep []
             end
      else if g_ground i then gset s true false (injected s) (evid s) [Abduce]
      else match g_verdict i with
           | Positive => if g_fact i && anti c then gset s (ginvalid s) false (injected s) (evid s) []
                         else gset s true false (injected s) (evid s) [Outcome (mkrep true (Some i) (gnow s))]
           | Negative => gset s true false (injected s) (evid s) [Outcome (mkrep false (Some i) (gnow s))]
           | NoMatch => keep []
           end
  end.
Definition gtimed (s : gmon) (inv sim : bool) (k : core) (n : Z) (os : list gout) : gmon :=
  mkgmon (gnow s) (galive s) inv (glisted s) sim (injected s) (evid s) (gbusy s) k n (out s ++ os).
(** As [pwake]; the job is at sim_thz or at the deadline. *)
Definition gwake (s : gmon) : gmon :=
  match gcore s with
  | Waiting => if gnow s <? next s then s
               else gtimed s (ginvalid s) (simulating s) (if galive s && negb (ginvalid s) then Acting else Over) (next s) []
  | _ => s
  end.
(** GMonitor::update after its first test (g_monitor.cpp:368-378). *)
Definition gact (c : gconf) (s : gmon) : gmon :=
  match gcore s with
  | Acting => if simulating s then gtimed s (ginvalid s) false Waiting (deadline c) [Commit]
              else gtimed s true false Removing (next s) [Outcome (mkrep false None (gnow s))]
  | _ => s
  end.
(** PMDLController::remove_g_monitor (mdl_controller.cpp:1144-1149). *)
Definition gremove (s : gmon) : gmon :=
  match gcore s, gbusy s with
  | Removing, None => mkgmon (gnow s) (galive s) (ginvalid s) false (simulating s) (injected s) (evid s) None Over (next s) (out s)
  | _, _ => s
  end.
Definition gstep (c : gconf) (s : gmon) (e : gevent) : gmon :=
  match e with
  | GPass d => mkgmon (gnow s + Z.max 0 d) (galive s) (ginvalid s) (glisted s) (simulating s) (injected s) (evid s) (gbusy s) (gcore s) (next s) (out s)
  | GController b => mkgmon (gnow s) b (ginvalid s) (glisted s) (simulating s) (injected s) (evid s) (gbusy s) (gcore s) (next s) (out s)
  | GInvalidate => mkgmon (gnow s) (galive s) true (glisted s) (simulating s) (injected s) (evid s) (gbusy s) (gcore s) (next s) (out s)
  | GWrong => mkgmon (gnow s) (galive s) (ginvalid s) (glisted s) (simulating s) (injected s) (match evid s with Some _ => Some true | None => None end) (gbusy s) (gcore s) (next s) (out s)
  | GTake i => gtake s i
  | GFinish => gfinish c s
  | GWake => gwake s
  | GAct => gact c s
  | GRemove => gremove s
  end.
Definition grun (c : gconf) (s : gmon) (es : list gevent) : gmon := fold_left (gstep c) es s.
Definition outcomes (os : list gout) : list (report ginput) := flat_map (fun o => match o with Outcome r => [r] | _ => [] end) os.

(** * Monitors of requirements *)

(** RMonitor (g_monitor.cpp:383-469): the constructor of its base class creates a job at
    the simulation horizon (or the deadline), its own creates another one at the deadline;
    update is virtual, so both call RMonitor::update. Handlers are one step each here. *)
Inductive rout := RFail (t : Z) | RSimulated (success : bool) | RCommit | RChained.
Record rmon := mkrmon { rnow : Z; ralive : bool; rinvalid : bool; rlisted : bool; rsimulating : bool; job1 : option Z; job2 : option Z; rout_ : list rout }.
Definition rstart (dl t sim_thz : Z) : rmon :=
  let sim := t <? sim_thz in mkrmon t true false true sim (Some (if sim then sim_thz else dl)) (Some dl) [].
Inductive revent :=
| RPass (d : Z) | RController (b : bool) | RInvalidate
| RSignal (simulated met : bool)   (* a new prediction of the requirement; [met]: what check_imdl or check_simulated_imdl returns *)
| RJob1 | RJob2.
(** RMonitor::signal (g_monitor.cpp:400-418) called by store_requirement
    (mdl_controller.cpp:1550-1565). check_imdl abduces the bound sub-goal when it returns
    true (2261-2283) and does not invalidate the goal of the monitor. *)
Definition rsignal (s : rmon) (simulated met : bool) : rmon :=
  let set lst os := mkrmon (rnow s) (ralive s) (rinvalid s) lst (rsimulating s) (job1 s) (job2 s) (rout_ s ++ os) in
  if negb (rlisted s) then s
  else if negb (ralive s && negb (rinvalid s)) then set false []
  else if rsimulating s && simulated then set true [RSimulated met]
  else if met then set false [RChained] else s.
(** RMonitor::update (452-469): the new state and the time of the next update. *)
Definition rupdate (dl : Z) (s : rmon) : rmon * option Z :=
  let set inv lst sim os := mkrmon (rnow s) (ralive s) inv lst sim (job1 s) (job2 s) (rout_ s ++ os) in
  if rinvalid s then (set true false (rsimulating s) [], None)
  else if rsimulating s then (set false (rlisted s) false [RCommit], Some dl)
  else (set true false false [RFail (rnow s)], None).
Definition rjob (dl : Z) (first : bool) (s : rmon) : rmon :=
  match (if first then job1 s else job2 s) with
  | None => s
  | Some t =>
      if rnow s <? t then s
      else let '(s', n) := if ralive s && negb (rinvalid s) then rupdate dl s else (s, None) in
           mkrmon (rnow s') (ralive s') (rinvalid s') (rlisted s') (rsimulating s')
                  (if first then n else job1 s') (if first then job2 s' else n) (rout_ s')
  end.
Definition rstep (dl : Z) (s : rmon) (e : revent) : rmon :=
  match e with
  | RPass d => mkrmon (rnow s + Z.max 0 d) (ralive s) (rinvalid s) (rlisted s) (rsimulating s) (job1 s) (job2 s) (rout_ s)
  | RController b => mkrmon (rnow s) b (rinvalid s) (rlisted s) (rsimulating s) (job1 s) (job2 s) (rout_ s)
  | RInvalidate => mkrmon (rnow s) (ralive s) true (rlisted s) (rsimulating s) (job1 s) (job2 s) (rout_ s)
  | RSignal b m => rsignal s b m
  | RJob1 => rjob dl true s
  | RJob2 => rjob dl false s
  end.
Definition rrun (dl : Z) (s : rmon) (es : list revent) : rmon := fold_left (rstep dl) es s.
