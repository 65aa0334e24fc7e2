(** Vocabulary for the statements about monitors. *)
From Verif Require Import Base Mon_model.

(** ** Predictions *)

(** Executions in which no handler comes between the steps of another: each input is
    dealt with at once, and so is the job. *)
Inductive pblock := BPass (d : Z) | BController (b : bool) | BInvalidate | BInput (i : pinput) | BJob.
Definition pexpand (b : pblock) : list pevent :=
  match b with
  | BPass d => [Pass d] | BController b => [Controller b] | BInvalidate => [Invalidate]
  | BInput i => [Take i; Finish] | BJob => [Wake; Act; Remove]
  end.
Definition one_at_a_time (bs : list pblock) : list pevent := flat_map pexpand bs.
(** The time after [bs], and whether the controller is active. *)
Definition passed (b : pblock) : Z := match b with BPass d => Z.max 0 d | _ => 0 end.
Fixpoint clock (t : Z) (bs : list pblock) : Z := match bs with [] => t | b :: r => clock (t + passed b) r end.
Fixpoint active (on : bool) (bs : list pblock) : bool := match bs with [] => on | b :: r => active (match b with BController b => b | _ => on end) r end.
(** The job came when the controller was not active: it is dropped. *)
Definition missed (c : pconf) (t : Z) (bs : list pblock) : Prop :=
  exists p q, bs = p ++ BJob :: q /\ due c <= clock t p /\ active true p = false.
(** What [b], happening after [p], decides about a prediction that is not decided yet:
    [Some r] is an outcome, [None] means that it will get none. *)
Inductive decides (c : pconf) (t : Z) (p : list pblock) : pblock -> option (report pinput) -> Prop :=
| D_invalid : decides c t p BInvalidate None
| D_grounds i : in_pred i && in_sim i = false -> in_grounds i = true -> decides c t p (BInput i) None
| D_stronger i : in_pred i = true -> in_sim i = false -> in_grounds i = false -> in_verdict i = Negative -> in_stronger i = true -> decides c t p (BInput i) None
| D_confirmed i : in_pred i = false -> in_grounds i = false -> in_verdict i = Positive -> decides c t p (BInput i) (Some (mkrep true (Some i) (clock t p)))
| D_refuted i : in_pred i = false -> in_grounds i = false -> in_verdict i = Negative -> rate c = true -> decides c t p (BInput i) (Some (mkrep false (Some i) (clock t p)))
| D_unrated i : in_pred i = false -> in_grounds i = false -> in_verdict i = Negative -> rate c = false -> decides c t p (BInput i) None
| D_deadline : due c <= clock t p -> active true p = true -> ~ missed c t p -> rate c = true -> of_fact c = true -> decides c t p BJob (Some (mkrep false None (clock t p)))
| D_forgotten : due c <= clock t p -> active true p = true -> ~ missed c t p -> rate c && of_fact c = false -> decides c t p BJob None.
Definition undecided (c : pconf) (t : Z) (bs : list pblock) : Prop := forall p b q o, bs = p ++ b :: q -> ~ decides c t p b o.
(** No handler is running. *)
Definition quiet (s : pmon) : Prop := busy s = None /\ (tcore s = Waiting \/ tcore s = Over).

(** ** Goals *)

Inductive gblock := CPass (d : Z) | CController (b : bool) | CInvalidate | CWrong | CInput (i : ginput) | CJob.
Definition gexpand (b : gblock) : list gevent :=
  match b with
  | CPass d => [GPass d] | CController b => [GController b] | CInvalidate => [GInvalidate] | CWrong => [GWrong]
  | CInput i => [GTake i; GFinish] | CJob => [GWake; GAct; GRemove]
  end.
Definition g_one_at_a_time (bs : list gblock) : list gevent := flat_map gexpand bs.
Definition gpassed (b : gblock) : Z := match b with CPass d => Z.max 0 d | _ => 0 end.
Fixpoint gclock (t : Z) (bs : list gblock) : Z := match bs with [] => t | b :: r => gclock (t + gpassed b) r end.
Definition always_active (bs : list gblock) : Prop := ~ In (CController false) bs.
(** The simulation goes on until a job comes at its horizon or later. *)
Definition still_simulating (t thz : Z) (bs : list gblock) : Prop :=
  t < thz /\ forall p q, bs = p ++ CJob :: q -> gclock t p < thz.
(** What decides a goal, when the controller stays active and the goal's target is a
    fact. *)
Inductive gdecides (c : gconf) (t thz : Z) (p : list gblock) : gblock -> option (report ginput) -> Prop :=
| G_invalid : gdecides c t thz p CInvalidate None
| G_ground i : g_pred i = false -> g_ground i = true -> gdecides c t thz p (CInput i) None
| G_predicted i : g_pred i = true -> g_verdict i = Positive -> ~ still_simulating t thz p -> gdecides c t thz p (CInput i) None
| G_reached i : g_pred i = false -> g_ground i = false -> g_verdict i = Positive -> gdecides c t thz p (CInput i) (Some (mkrep true (Some i) (gclock t p)))
| G_failed i : g_pred i = false -> g_ground i = false -> g_verdict i = Negative -> gdecides c t thz p (CInput i) (Some (mkrep false (Some i) (gclock t p)))
| G_deadline : deadline c <= gclock t p -> ~ still_simulating t thz p -> gdecides c t thz p CJob (Some (mkrep false None (gclock t p))).
Definition gundecided (c : gconf) (t thz : Z) (bs : list gblock) : Prop := forall p b q o, bs = p ++ b :: q -> ~ gdecides c t thz p b o.
Definition gquiet (s : gmon) : Prop := gbusy s = None /\ (gcore s = Waiting \/ gcore s = Over).
(** An input that is, in fact, evidence for or against the goal's target. *)
Definition actual_evidence (v : verdict) (i : ginput) : Prop := g_pred i = false /\ g_ground i = false /\ g_verdict i = v.
(** How many times the goal was injected. *)
Definition injections (os : list gout) : nat := length (filter (fun o => match o with InjectGoal => true | _ => false end) os).

(** ** Requirements: how many failures, commitments and firings were reported *)

Definition fails (os : list rout) : nat := length (filter (fun o => match o with RFail _ => true | _ => false end) os).
Definition commits (os : list rout) : nat := length (filter (fun o => match o with RCommit => true | _ => false end) os).
Definition chained (os : list rout) : nat := length (filter (fun o => match o with RChained => true | _ => false end) os).
