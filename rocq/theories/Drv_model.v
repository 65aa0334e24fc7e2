(* Drives and top-level models: what becomes of the drives that programs inject. *)
From Coq Require Import ZArith QArith List Bool Arith.
Import ListNotations.

(* The success rate of a top-level model, the saliency threshold of its group,
   and the number of its output groups, of which there is at least one
   (mdl_controller.cpp:1412, where it is decremented). *)
Record setting := Se { rate : nat -> Q; thr : nat -> Q; groups : nat -> nat }.

(* What check_evidences and check_predicted_evidences say of the bound left side
   (1325-1345). *)
Inductive known := KYes | KNo | KExpected | KUnknown.

(* A drive comes to a model: the confidence of its target, whether the target
   matches the right side (1287), whether it is an instance of the model that is
   not a requirement (1294-1297), whether the guards are met (1319), what is known,
   and whether there is time to simulate (1355). *)
Record arrival := Ar { actl : nat; adrv : nat; acfd : Q; armatch : bool; areuse : bool; aguards : bool; aknown : known; atime : bool }.

(* Goal monitors of top-level models, named by their goals: the model, the drive
   (the super-goal of the simulation), simulating_, injected_goal_, and whether the
   goal itself is invalidated. *)
Record mon := Mn { goal : nat; ctl : nat; drv : nat; sim : bool; inj : bool; off : bool }.

(* What is injected: a goal; a success (or its anti-fact) of a goal, and the absence
   of its target, into the k-th output group; a success of a drive into the k-th. *)
Inductive out :=
| GoalIn (c g : nat)
| GoalOut (c k g d : nat) (ok : bool)
| AbsentIn (c k g : nat)
| DriveOut (c k d : nat) (ok : bool).

Inductive event :=
| Arrive (a : arrival)
| Evidence (g : nat) (ok : bool)    (* an actual fact is evidence or counter-evidence of the target *)
| Left (g : nat)                    (* a fact for an anti-fact as target: left to another *)
| PredOk (g : nat) | PredNo (g : nat) (* a prediction, not simulated, of the target or against it *)
| Wrong (g : nat)                   (* the predicted evidence is invalidated *)
| Timer (g : nat)                   (* the monitoring job *)
| Kill (d : nat).                   (* the drive is invalidated by another *)

Record state := St { dead : list nat; ms : list mon; next : nat; log : list out }.
Definition init : state := St [] [] 0 [].

Section Drv.
Context (w : setting).

(* Fact and Goal::is_invalidated, factory.cpp:223-233, 676-686: so is the goal of a
   drive that is invalidated. *)
Definition is_dead (s : state) (d : nat) : bool := existsb (Nat.eqb d) (dead s).
Definition goal_dead (s : state) (m : mon) : bool := off m || is_dead s (drv m).

Definition drop (g : nat) (l : list mon) : list mon := filter (fun m => negb (goal m =? g)%nat) l.
Definition put (m : mon) (l : list mon) : list mon := map (fun x => if (goal x =? goal m)%nat then m else x) l.

(* TopLevelMDLController::register_drive_outcome, mdl_controller.cpp:1429-1446. *)
Definition drive_outcome (c d : nat) (ok : bool) : out := DriveOut c (groups w c - 1) d ok.
(* TopLevelMDLController::register_goal_outcome, 1380-1427. *)
Definition goal_outcome (m : mon) (ok absent : bool) : list out :=
  flat_map (fun k => GoalOut (ctl m) k (goal m) (drv m) ok :: if absent then [AbsentIn (ctl m) k (goal m)] else [])
           (seq 0 (groups w (ctl m) - 1))
  ++ [drive_outcome (ctl m) (drv m) ok].

(* TopLevelMDLController::reduce 1271-1303 (for drives), abduce 1317-1347, abduce_lhs
   1349-1370. *)
Definition arrive (a : arrival) (s : state) : state :=
  if is_dead s (adrv a) then s
  else if Qle_bool (rate w (actl a) * acfd a) (thr w (actl a)) then s
  else if armatch a || areuse a then
    if aguards a then
      match aknown a with
      | KYes => St (adrv a :: dead s) (ms s) (next s) (log s ++ [drive_outcome (actl a) (adrv a) true])
      | KNo => St (adrv a :: dead s) (ms s) (next s) (log s ++ [drive_outcome (actl a) (adrv a) false])
      | KExpected => St (dead s) (Mn (next s) (actl a) (adrv a) (atime a) false false :: ms s) (S (next s)) (log s)
      | KUnknown => St (dead s) (Mn (next s) (actl a) (adrv a) (atime a) true false :: ms s) (S (next s)) (log s ++ [GoalIn (actl a) (next s)])
      end
    else s
  else s.

(* GMonitor::reduce and update, g_monitor.cpp; register_predicted_goal_outcome,
   mdl_controller.cpp:1211-1238 (1222-1236 is not reached: the goal is not
   invalidated then).  The sub-goals that follow from commit are not modelled. *)
Definition step (s : state) (e : event) : state :=
  let on g (f : mon -> state) :=
    match find (fun m => (goal m =? g)%nat) (ms s) with
    | None => s
    | Some m => if goal_dead s m then St (dead s) (drop g (ms s)) (next s) (log s) else f m
    end in
  let finish m ok absent := St (drv m :: dead s) (drop (goal m) (ms s)) (next s) (log s ++ goal_outcome m ok absent) in
  let inject m := if inj m then s
    else St (dead s) (put (Mn (goal m) (ctl m) (drv m) (sim m) true (off m)) (ms s)) (next s) (log s ++ [GoalIn (ctl m) (goal m)]) in
  match e with
  | Arrive a => arrive a s
  | Evidence g ok => on g (fun m => finish m ok false)
  | Left g => on g (fun m => St (dead s) (drop g (ms s)) (next s) (log s))
  | PredOk g => on g (fun m => if sim m || negb (inj m) then s
      else St (dead s) (put (Mn (goal m) (ctl m) (drv m) (sim m) (inj m) true) (ms s)) (next s) (log s))
  | PredNo g => on g (fun m => if sim m then s else inject m)
  | Wrong g => on g inject
  | Timer g => on g (fun m =>
      if sim m then St (dead s) (put (Mn (goal m) (ctl m) (drv m) false (inj m) (off m)) (ms s)) (next s) (log s)
      else finish m false true)
  | Kill d => St (d :: dead s) (ms s) (next s) (log s)
  end.
Definition run (es : list event) : state := fold_left step es init.
End Drv.
