(** The choice between simulated solutions: GMonitor::commit and SGMonitor::commit
    (r_exec/g_monitor.cpp:188-263, 488-522), and the jobs of simulated requirement
    monitors (578-590, 642-648). *)
From Verif Require Import Base Float32.

(** One pair of a list of solutions (g_monitor.h:107-131): the simulated prediction of a
    success or failure of a goal (its identity and whether it is invalidated), the
    simulation (by its identity), and the goal that is affected: the confidence and the
    latest time of its target; [None] when get_solution_goal returns NULL
    (g_monitor.h:114-122). *)
Record solution := mksol { s_pred : nat; s_gone : bool; s_sim : nat; s_goal : option (spec_float * Z) }.
(** The confidence and latest time that a simulation records for its solution
    (factory.h:277, 282). *)
Definition sims := nat -> spec_float * Z.
(** Which simulations are invalidated. *)
Definition dead := nat -> bool.
Definition kill (d : dead) (n : nat) : dead := fun m => Nat.eqb m n || d m.
Definition kill_all (d : dead) (l : list solution) : dead := fold_left (fun d s => kill d (s_sim s)) l d.

(** cfd / (before - now) in microseconds: Goal::get_strength (factory.h:581-584) and the
    score of a solution (g_monitor.cpp:242-243). The int64 count is converted to float32. *)
Definition per_time (now : Z) (g : spec_float * Z) : spec_float := fdiv (fst g) (f32_of_Z (i64 (snd g - now))).
(** goal->get_strength(now) > monitored_goal->get_strength(now) (206, 223, 504, 519);
    false when there is no goal. *)
Definition stronger (now : Z) (mine : spec_float * Z) (s : solution) : bool :=
  match s_goal s with None => false | Some g => flt (per_time now mine) (per_time now g) end.

(** sim_failures_ and sim_successes_. *)
Record stored := mkstored { fail_m : list solution; fail_o : list solution; good_m : list solution; good_o : list solution }.
(** _GMonitor::invalidate_sim_outcomes (150-165). *)
Definition invalidate_all (d : dead) (st : stored) : dead := kill_all (kill_all (kill_all (kill_all d (fail_m st)) (fail_o st)) (good_m st)) (good_o st).
(** g_monitor.cpp:196-211: a mandatory solution makes a more important goal fail. *)
Definition caves (now : Z) (mine : spec_float * Z) (d : dead) (st : stored) : bool :=
  existsb (fun s => negb (s_gone s) && negb (d (s_sim s)) && stronger now mine s) (fail_m st).
(** 213-225. *)
Fixpoint cull (now : Z) (mine : spec_float * Z) (d : dead) (l : list solution) : dead :=
  match l with
  | [] => d
  | s :: r => if s_gone s then cull now mine d r else if d (s_sim s) then cull now mine d r
              else cull now mine (if stronger now mine s then kill d (s_sim s) else d) r
  end.
(** 227-249. *)
Fixpoint best (now : Z) (sm : sims) (d : dead) (b : option solution) (l : list solution) : option solution :=
  match l with
  | [] => b
  | s :: r =>
      if s_gone s then best now sm d b r else if d (s_sim s) then best now sm d b r
      else match b with
           | None => best now sm d (Some s) r
           | Some b' => best now sm d (if flt (per_time now (sm (s_sim b'))) (per_time now (sm (s_sim s))) then Some s else b) r
           end
  end.
(** GMonitor::commit (188-263): the simulations that are invalidated, and the solutions
    that are committed to (abduce_no_simulation), in order. *)
Definition commit (now : Z) (mine : spec_float * Z) (sm : sims) (d : dead) (st : stored) : dead * list solution :=
  if caves now mine d st then (invalidate_all d st, [])
  else let d1 := cull now mine d (fail_o st) in
       match best now sm d1 None (good_o st) with
       | None => (invalidate_all d1 st, [])
       | Some b => (invalidate_all d1 st, b :: good_m st)
       end.

(** SGMonitor::commit (488-522): the loop over the mandatory failures stops at the first
    damaging one, after invalidating it. *)
Fixpoint cave_in (now : Z) (mine : spec_float * Z) (d : dead) (l : list solution) : option dead :=
  match l with
  | [] => None
  | s :: r => if d (s_sim s) then cave_in now mine d r
              else if stronger now mine s then Some (kill d (s_sim s)) else cave_in now mine d r
  end.
Fixpoint scull (now : Z) (mine : spec_float * Z) (d : dead) (l : list solution) : dead :=
  match l with
  | [] => d
  | s :: r => if d (s_sim s) then scull now mine d r else scull now mine (if stronger now mine s then kill d (s_sim s) else d) r
  end.
Definition scommit (now : Z) (mine : spec_float * Z) (d : dead) (st : stored) : dead :=
  match cave_in now mine d (fail_m st) with
  | Some d' => d'
  | None => scull now mine d (fail_o st)
  end.

(** An SRMonitor has two jobs at the simulation horizon: one made by the constructor of
    SGMonitor (484), which calls SGMonitor::update since update is not virtual there
    (g_monitor.h:244, 259; time_job.h:210, 224), and its own (588). The first one removes
    the monitor from the list of goal monitors, where it is not (572). *)
Record srmon := mksr { sr_dead : dead; sr_invalid : bool; sr_listed : bool }.
(** SGMonitor::update (568-574). *)
Definition sg_update (now : Z) (mine : spec_float * Z) (st : stored) (s : srmon) : srmon :=
  mksr (if sr_invalid s then sr_dead s else scommit now mine (sr_dead s) st) (sr_invalid s) (sr_listed s).
(** SRMonitor::update (642-648). *)
Definition sr_update (now : Z) (mine : spec_float * Z) (st : stored) (s : srmon) : srmon :=
  mksr (if sr_invalid s then sr_dead s else scommit now mine (sr_dead s) st) (sr_invalid s) false.
(** Both jobs, at the horizon; each is dropped when the target is invalidated
    (Monitor::is_alive; the controller is assumed active here). *)
Definition sr_horizon (now : Z) (mine : spec_float * Z) (st : stored) (s : srmon) : srmon :=
  let s1 := if sr_invalid s then s else sg_update now mine st s in
  if sr_invalid s1 then s1 else sr_update now mine st s1.
