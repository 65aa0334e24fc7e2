(* Planning: simulated and real backward chaining of goals through models.

   Everything that depends on the contents of models and memory (whether the
   goal may be abduced, which requirements apply, what the premise is once
   bound, whether it is known or predicted) is given by a record for each
   call; what is modelled is what is decided from it. *)
From Coq Require Import ZArith List Bool.
Import ListNotations.
Local Open Scope Z_scope.

(* r_exec/factory.h, SimMode. *)
Inductive Mode := MRoot | MOptional | MMandatory.

(* r_exec/factory.h:247-307, class Sim, and the constructor factory.cpp:715-747:
   mode, time horizon, opposite, root controller, solution controller,
   confidence and deadline of the solution, is_requirement_, and the Sim of the
   super goal (None if that goal has none).  Confidences are numbers that are
   only copied; microseconds are integers without overflow. *)
Inductive sim :=
| Sm (mode : Mode) (thz : Z) (opp : bool) (root : nat) (ctl : option nat)
     (cfd before : Z) (req : bool) (up : option sim).

(* r_exec/factory.h, the accessors of Sim. *)
Definition mode (s : sim) : Mode := match s with Sm m _ _ _ _ _ _ _ _ => m end.
Definition thz (s : sim) : Z := match s with Sm _ t _ _ _ _ _ _ _ => t end.
Definition opp (s : sim) : bool := match s with Sm _ _ o _ _ _ _ _ _ => o end.
Definition root (s : sim) : nat := match s with Sm _ _ _ r _ _ _ _ _ => r end.
Definition ctl (s : sim) : option nat := match s with Sm _ _ _ _ c _ _ _ _ => c end.
Definition cfd (s : sim) : Z := match s with Sm _ _ _ _ _ c _ _ _ => c end.
Definition before (s : sim) : Z := match s with Sm _ _ _ _ _ _ b _ _ => b end.
Definition req (s : sim) : bool := match s with Sm _ _ _ _ _ _ _ r _ => r end.
Definition up (s : sim) : option sim := match s with Sm _ _ _ _ _ _ _ _ u => u end.

(* r_exec/factory.cpp:709-714, the copy of a Sim: all but is_requirement_. *)
Definition copy (s : sim) : sim :=
  Sm (mode s) (thz s) (opp s) (root s) (ctl s) (cfd s) (before s) false (up s).

(* r_exec/mdl_controller.cpp:1938, is_requirement_ = true. *)
Definition set_req (s : sim) : sim :=
  Sm (mode s) (thz s) (opp s) (root s) (ctl s) (cfd s) (before s) true (up s).

(* r_exec/factory.h:287, Sim::set_solution_before. *)
Definition set_before (b : Z) (s : sim) : sim :=
  Sm (mode s) (thz s) (opp s) (root s) (ctl s) (cfd s) b (req s) (up s).

(* r_exec/factory.cpp:770-782, Sim::get_root_sim. *)
Fixpoint root_sim (s : sim) : option sim :=
  match s with
  | Sm m _ _ _ _ _ _ _ u =>
      match m with
      | MRoot => Some s
      | _ => match u with Some v => root_sim v | None => None end
      end
  end.

(* The target of a goal: a fact or an anti-fact of an object, with its times. *)
Record target := Tg { anti : bool; obj : nat; from : Z; till : Z }.

(* r_exec/factory.h:178, _Fact::set_opposite. *)
Definition flip (o : bool) (t : target) : target :=
  Tg (if o then negb (anti t) else anti t) (obj t) (from t) (till t).

(* r_exec/factory.cpp:784-804, Sim::register_goal_target; [mo] is
   _Fact::MatchObject, [l] the targets held by the root Sim. *)
Definition same (mo : nat -> nat -> bool) (t u : target) : bool :=
  Bool.eqb (anti t) (anti u) && mo (obj t) (obj u).

Definition register (mo : nat -> nat -> bool) (s : sim) (t : target)
    (l : list target) : bool * list target :=
  match root_sim s with
  | None => (true, l)
  | Some _ => if existsb (same mo t) l then (false, l) else (true, l ++ [t])
  end.

(* r_exec/mdl_controller.h, ChainingStatus. *)
Inductive status := WeakDisabled | WeakEnabled | StrongDisabledWeak | NoReq | StrongNoWeak.

(* r_exec/binding_map.h, MatchResult. *)
Inductive result := Pos | Neg | Fail.

(* What one call finds: abduction_allowed, retrieve_imdl_bwd,
   retrieve_simulated_imdl_bwd, evaluate_bwd_guards, check_evidences,
   check_predicted_evidences, is_cmd, the bound premise (before it is turned
   into its opposite) and the instance of the model. *)
Record env := Env {
  allowed : bool; c_s : status; sim_c_s : status; guards : bool;
  ev : result; pev : result; cmd : bool; lhs : target; imdl : target }.

(* What a call does.
   Goal: a real goal, monitored until its deadline, injected unless it is
   predicted already; Need: a real goal on the instance of the model, monitored
   and injected; SimCmd: a simulated prediction of the command, injected at the
   given time; SimGoal, SimNeed: the simulated counterparts of Goal and Need,
   with the deadline of their monitors; SimStop: a simulated prediction of the
   premise. *)
Inductive effect :=
| Goal (t : target) (s : sim) (deadline : Z) (injected : bool)
| Need (t : target) (s : sim)
| SimCmd (t : target) (s : sim) (at_ : Z)
| SimGoal (t : target) (s : sim) (deadline : Z)
| SimNeed (t : target) (s : sim) (deadline : Z)
| SimStop (t : target) (s : sim)
| Told (success : bool).

(* r_exec/mdl_controller.cpp:2481-2499, register_simulated_goal_outcome: builds
   a marker, a prediction and a view, and leaves it at that. *)
Definition simulated_outcome (success : bool) : list effect := [].

(* r_exec/mdl_controller.cpp:2018-2063, abduce_lhs. *)
Definition abduce_lhs (e : env) (opposite : bool) (s : sim) (sb : bool) : list effect :=
  if guards e then
    match ev e with
    | Pos => []
    | Neg => []
    | Fail =>
        let t := flip opposite (lhs e) in
        let s' := if sb then set_before (till t) s else s in
        match pev e with
        | Pos => [Goal t s' (till t) false]
        | _ => [Goal t s' (till t) true]
        end
    end
  else [].

(* r_exec/mdl_controller.cpp:2065-2096, abduce_imdl; the timings of the template
   parameters are taken as given with the instance. *)
Definition abduce_imdl (e : env) (s : sim) : list effect := [Need (imdl e) s].

(* r_exec/mdl_controller.cpp:2099-2225, abduce_simulated_lhs with a Sim given;
   [g] is the Sim of the super goal, [self] the controller. *)
Definition abduce_simulated_lhs (mo : nat -> nat -> bool) (e : env) (now : Z) (self : nat)
    (g : option sim) (opposite : bool) (s : sim) (l : list target)
    : list effect * list target :=
  if guards e then
    let t := flip opposite (lhs e) in
    match ev e with
    | Pos => (simulated_outcome true, l)
    | Neg => (simulated_outcome false, l)
    | Fail =>
        match pev e with
        | Pos => (simulated_outcome true, l)
        | Neg => (simulated_outcome false, l)
        | Fail =>
            if cmd e then
              let sub := Sm (mode s) (thz s) opposite (root s) (Some self) (cfd s) (before s) false g in
              ([SimCmd t sub (Z.max now (before s - Z.quot (thz s) 2))], l)
            else
              let '(fresh, l') := register mo s t l in
              if fresh then ([SimGoal t s (now + thz s)], l') else ([], l')
        end
    end
  else ([], l).

(* r_exec/mdl_controller.cpp:2227-2259, abduce_simulated_imdl. *)
Definition abduce_simulated_imdl (mo : nat -> nat -> bool) (e : env) (now : Z)
    (s : sim) (l : list target) : list effect * list target :=
  if req s then ([SimNeed (imdl e) s (now + thz s)], l)
  else
    let '(fresh, l') := register mo s (imdl e) l in
    if fresh then ([SimNeed (imdl e) s (now + thz s)], l') else ([], l').

(* r_exec/mdl_controller.cpp:1857, half of min_sim_time_horizon. *)
Definition allowance (h : Z) : Z := Z.quot h 2.

(* r_exec/mdl_controller.cpp:1866-1879, the Sim of the sub-goals; [None] for
   "return". *)
Definition sub_sim (now : Z) (self : nat) (s : sim) (t : Z) (opposite : bool) (confidence : Z) : option sim :=
  match mode s with
  | MRoot =>
      Some (Sm (if opposite then MMandatory else MOptional) t opposite (root s) (Some self)
               confidence (now + t) false (Some s))
  | MOptional =>
      Some (Sm (if opposite then MMandatory else MOptional) t opposite (root s) (Some self)
               (cfd s) (before s) false (Some s))
  | MMandatory =>
      if opposite then None
      else Some (Sm (mode s) t opposite (root s) (Some self) (cfd s) (before s) false (Some s))
  end.

(* r_exec/mdl_controller.cpp:1848-1975, abduce; [h] is min_sim_time_horizon, [g]
   the Sim of the super goal, [l] the targets held by its root Sim.  All readings
   of the clock in one call are taken to be the same.  A super goal without a
   Sim would be dereferenced for negative [h] (1866); that outcome is [([], l)]
   here, and the theorems have [0 <= h]. *)
Definition abduce (mo : nat -> nat -> bool) (h : Z) (e : env) (now : Z) (self : nat)
    (g : option sim) (opposite : bool) (confidence : Z) (l : list target)
    : list effect * list target :=
  if negb (allowed e) then ([], l)
  else
    let t := match g with Some s => thz s | None => 0 end in
    if allowance h <? t then
      match g with
      | None => ([], l)
      | Some s =>
          match sub_sim now self s (t - allowance h) opposite confidence with
          | None => ([], l)
          | Some sub =>
              match c_s e with
              | WeakEnabled | NoReq =>
                  match mode sub with
                  | MRoot => (abduce_lhs e opposite sub true, l)
                  | _ =>
                      let '(a, l1) := abduce_simulated_lhs mo e now self g opposite sub l in
                      if cmd e then
                        let '(b, l2) := abduce_simulated_imdl mo e now sub l1 in (a ++ b, l2)
                      else (a, l1)
                  end
              | _ =>
                  let sc := match c_s e, sim_c_s e with
                            | StrongNoWeak, NoReq => StrongNoWeak
                            | _, x => x
                            end in
                  match sc with
                  | WeakEnabled | NoReq =>
                      match mode sub with
                      | MRoot => (abduce_lhs e opposite sub true, l)
                      | _ => abduce_simulated_lhs mo e now self g opposite sub l
                      end
                  | _ =>
                      match mode sub with
                      | MRoot => (abduce_imdl e (set_req sub), l)
                      | _ => abduce_simulated_imdl mo e now (set_req sub) l
                      end
                  end
              end
          end
      end
    else
      match (match g with Some s => mode s | None => MRoot end) with
      | MRoot =>
          let sub := Sm MRoot 0 opposite self None 0 0 false g in
          match c_s e with
          | WeakEnabled | NoReq => (abduce_lhs e opposite sub false, l)
          | _ => (abduce_imdl e (set_req sub), l)
          end
      | _ =>
          match g with
          | Some s => ([SimStop (flip opposite (lhs e)) s], l)
          | None => ([], l)
          end
      end.

(* r_exec/mdl_controller.cpp:2261-2283, check_imdl, for the monitor of a Need;
   [s] is its Sim. *)
Definition check_imdl (e : env) (self : nat) (s : sim) : list effect :=
  match c_s e with
  | WeakEnabled | NoReq =>
      if guards e then abduce_lhs e (opp s) (Sm MRoot 0 (opp s) self None 0 0 false (up s)) false
      else []
  | _ => []
  end.

(* r_exec/mdl_controller.cpp:2286-2316, check_simulated_imdl without a prediction,
   for the monitor of a SimNeed. *)
Definition check_simulated (mo : nat -> nat -> bool) (e : env) (now : Z) (self : nat) (s : sim)
    (l : list target) : list effect * list target :=
  match c_s e with
  | WeakEnabled | NoReq =>
      if guards e then abduce_simulated_lhs mo e now self (up s) (opp s) (copy s) l
      else ([], l)
  | _ => ([], l)
  end.

(* r_exec/mdl_controller.cpp:1977-2016, abduce_no_simulation: the call after the
   goal has been matched again; the copy of the goal has the Sim of the super
   goal above. *)
Definition abduce_no_simulation (mo : nat -> nat -> bool) (h : Z) (e : env) (now : Z) (self : nat)
    (s : sim) (opposite : bool) (confidence : Z) (l : list target) : list effect * list target :=
  abduce mo h e now self (Some (Sm MRoot 0 false self None 0 0 false (up s))) opposite confidence l.

(* r_exec/cst_controller.cpp:634-648, the Sim of the sub-goals of a goal on a
   composite state; [opposite]: the goal is an anti-fact. *)
Definition cst_sim (now : Z) (s : sim) (opposite : bool) : sim :=
  match mode s with
  | MRoot =>
      Sm (if opposite then MMandatory else MOptional) (thz s) opposite (root s) (ctl s)
         (cfd s) (now + thz s) false (Some s)
  | m => Sm m (thz s) opposite (root s) (ctl s) (cfd s) (before s) false (Some s)
  end.

(* r_exec/cst_controller.cpp:650-692 and 694-706, the sub-goals, one for each
   missing member; [members] are the bound members with what is known of them. *)
Fixpoint cst_goals (mo : nat -> nat -> bool) (s : sim) (opposite : bool)
    (members : list (target * result * result)) (l : list target) : list (target * sim) * list target :=
  match members with
  | [] => ([], l)
  | (t, k, p) :: r =>
      match k, p with
      | Fail, Neg | Fail, Fail =>
          let u := flip opposite t in
          let '(fresh, l1) := register mo s u l in
          let '(a, l2) := cst_goals mo s opposite r l1 in
          (if fresh then (u, s) :: a else a, l2)
      | _, _ => cst_goals mo s opposite r l
      end
  end.

Definition cst_abduce (mo : nat -> nat -> bool) (now : Z) (s : sim) (opposite : bool)
    (members : list (target * result * result)) (l : list target) : list (target * sim) * list target :=
  cst_goals mo (cst_sim now s opposite) opposite members l.

(* r_exec/mdl_controller.cpp:1241-1254, get_sim_thz; [x] is
   get_sim_time_horizon(deadline - now), [h] the minimum, [m] the maximum. *)
Definition get_sim_thz (h m x : Z) : Z :=
  if h <? x then (if m <? x - h then m else x - h) else 0.

(* r_exec/mdl_controller.cpp:2131-2171, abduce_simulated_lhs for a prediction in
   one simulation: what was signalled in it, each with its validities; [t] is the
   bound premise, [ds] the validities of the ground.  The second component tells
   whether a new prediction is injected. *)
Fixpoint signal (mo : nat -> nat -> bool) (t : nat) (ds : list nat) (l : list (nat * list nat))
    : list (nat * list nat) * bool :=
  match l with
  | [] => ([(t, ds)], true)
  | (u, vs) :: r =>
      if mo t u then ((u, filter (fun d => existsb (Nat.eqb d) ds) vs) :: r, false)
      else let '(r', b) := signal mo t ds r in ((u, vs) :: r', b)
  end.

(* r_exec/mdl_controller.cpp:2360-2437, register_pred_outcome and
   register_req_outcome: the controllers of weak and strong requirements that
   controlled a prediction (with whether each is invalidated), by prediction. *)
Record reqs := Reqs { weak : list (nat * bool); weak_allowed : bool;
                      strong : list (nat * bool); strong_allowed : bool }.

(* What an outcome does: the model is rated; a requirement is told an outcome,
   with whether its failure counts; a marker of the outcome, or the absence of
   the target, is injected in an output group. *)
Inductive act :=
| Rate (success : bool)
| Tell (c : nat) (success rate_failures : bool)
| Mark (group : nat) (success : bool)
| Absent (group : nat).

Definition alive (l : list (nat * bool)) : list nat :=
  map fst (filter (fun c => negb (snd c)) l).

Fixpoint lookup (p : nat) (m : list (nat * reqs)) : option reqs :=
  match m with
  | [] => None
  | (q, r) :: m' => if Nat.eqb q p then Some r else lookup p m'
  end.

Fixpoint erase (p : nat) (m : list (nat * reqs)) : list (nat * reqs) :=
  match m with
  | [] => []
  | (q, r) :: m' => if Nat.eqb q p then m' else (q, r) :: erase p m'
  end.

Definition req_outcome (m : list (nat * reqs)) (p : nat) (success rate_failures : bool)
    : list act * list (nat * reqs) :=
  let a := if success then [Rate true] else if rate_failures then [Rate false] else [] in
  match lookup p m with
  | None => (a, m)
  | Some r =>
      (a ++ map (fun c => Tell c success (weak_allowed r)) (alive (weak r))
         ++ map (fun c => Tell c (negb success) (strong_allowed r)) (alive (strong r)),
       erase p m)
  end.

Definition pred_outcome (groups : list nat) (requirement : bool) (m : list (nat * reqs)) (p : nat)
    (success evidence full rate_failures : bool) : list act * list (nat * reqs) :=
  let '(a, m') := if full then req_outcome m p success rate_failures else ([], m) in
  if requirement then (a, m')
  else (a ++ flat_map (fun g => Mark g success :: (if evidence then [] else [Absent g])) groups, m').
