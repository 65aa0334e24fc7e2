(* Vocabulary for statements on planning. *)
From Coq Require Import ZArith List Bool.
From Verif Require Import Pln_model.
Import ListNotations.
Local Open Scope Z_scope.

(* One step of backward chaining in a simulation: through a model, through a
   composite state, or from a requirement that is found to be met; with whether
   the opposite of the premise is pursued. *)
Inductive step := Through (opposite : bool) | Composite (opposite : bool) | Met.

(* The simulated goal an effect makes, and whether it is on an instance of a
   model. *)
Definition simulated (x : effect) : option (bool * sim) :=
  match x with
  | SimGoal _ s _ => Some (false, s)
  | SimNeed _ s _ => Some (true, s)
  | _ => None
  end.

(* The simulation that goes with what a call makes. *)
Definition sim_of (x : effect) : option sim :=
  match x with
  | Goal _ s _ _ => Some s | Need _ s => Some s | SimCmd _ s _ => Some s
  | SimGoal _ s _ => Some s | SimNeed _ s _ => Some s | SimStop _ s => Some s | Told _ => None
  end.

(* Real goals. *)
Definition real (x : effect) : bool :=
  match x with Goal _ _ _ _ => true | Need _ _ => true | _ => false end.

(* Goals and commands for the premise of a model. *)
Definition premise (x : effect) : bool :=
  match x with Goal _ _ _ _ => true | SimCmd _ _ _ => true | SimGoal _ _ _ => true | _ => false end.

(* [Branch mo h s0 w k s]: the steps [w] (last first) lead from a goal with
   simulation [s0] to a simulated goal with simulation [s]; [k] tells whether that
   is a goal on an instance of a model.  Whatever is known and registered may
   change at every step. *)
Inductive Branch (mo : nat -> nat -> bool) (h : Z) (s0 : sim) : list step -> bool -> sim -> Prop :=
| Start : Branch mo h s0 [] false s0
| Model w k s e now self o c l x k' s' :
    Branch mo h s0 w k s ->
    In x (fst (abduce mo h e now self (Some s) o c l)) ->
    simulated x = Some (k', s') ->
    Branch mo h s0 (Through o :: w) k' s'
| State w s now o members l t s' :
    Branch mo h s0 w false s ->
    In (t, s') (fst (cst_abduce mo now s o members l)) ->
    Branch mo h s0 (Composite o :: w) false s'
| Recheck w s e now self l x k' s' :
    Branch mo h s0 w true s ->
    In x (fst (check_simulated mo e now self s l)) ->
    simulated x = Some (k', s') ->
    Branch mo h s0 (Met :: w) k' s'.

(* How many steps are through models, and how many are requirements met. *)
Fixpoint models (w : list step) : Z :=
  match w with [] => 0 | Through _ :: r => 1 + models r | _ :: r => models r end.
Fixpoint mets (w : list step) : Z :=
  match w with [] => 0 | Met :: r => 1 + mets r | _ :: r => mets r end.

(* How many times the opposite was taken. *)
Fixpoint opposites (w : list step) : Z :=
  match w with
  | [] => 0
  | Through true :: r | Composite true :: r => 1 + opposites r
  | _ :: r => opposites r
  end.

(* No step through a composite state. *)
Definition plain (w : list step) : Prop := forall o, ~ In (Composite o) w.

(* A sequence of calls for goals that share the targets of one root. *)
Record call := Call { cenv : env; cnow : Z; cself : nat; cgoal : sim; copp : bool; ccfd : Z }.

Fixpoint calls (mo : nat -> nat -> bool) (h : Z) (cs : list call) (l : list target) : list effect :=
  match cs with
  | [] => []
  | c :: r =>
      let '(a, l') := abduce mo h (cenv c) (cnow c) (cself c) (Some (cgoal c)) (copp c) (ccfd c) l in
      a ++ calls mo h r l'
  end.

(* The target of a simulated goal that is not a requirement. *)
Definition pursued (x : effect) : option target :=
  match x with
  | SimGoal t _ _ => Some t
  | SimNeed t s _ => if req s then None else Some t
  | _ => None
  end.

(* A prediction is defeated if one of its validities is among those withdrawn. *)
Definition defeated (withdrawn ds : list nat) : Prop := exists d, In d ds /\ In d withdrawn.

(* A sequence of outcomes of predictions of one model. *)
Record report := Report { rpred : nat; rsuccess : bool; revidence : bool; rfull : bool; rrate : bool }.

Fixpoint reports (groups : list nat) (requirement : bool) (m : list (nat * reqs)) (rs : list report)
    : list act * list (nat * reqs) :=
  match rs with
  | [] => ([], m)
  | r :: q =>
      let '(a, m1) := pred_outcome groups requirement m (rpred r) (rsuccess r) (revidence r) (rfull r) (rrate r) in
      let '(b, m2) := reports groups requirement m1 q in
      (a ++ b, m2)
  end.

(* A controller of a requirement is in what is kept for a prediction. *)
Definition weakly (r : reqs) (c : nat) : Prop := In (c, false) (weak r).
Definition strongly (r : reqs) (c : nat) : Prop := In (c, false) (strong r).

(* Kinds of what an outcome does. *)
Definition is_mark (a : act) : bool := match a with Mark _ _ => true | _ => false end.
Definition is_absent (a : act) : bool := match a with Absent _ => true | _ => false end.
Definition is_rate (a : act) : bool := match a with Rate _ => true | _ => false end.
