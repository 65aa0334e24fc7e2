(** Vocabulary of the statements about invalidation. *)
From Coq Require Import Relations.
From Verif Require Import Base Inv_model.
Local Open Scope nat_scope.

(** What an object rests on: a fact on what it states; a prediction on its target,
    its simulations, its grounds and its validities; a goal and a simulation on the
    super-goal; an instance on its components. *)
Inductive rests_on (H : shapes) : nat -> nat -> Prop :=
| on_object o t : H o = FactOf t -> rests_on H o t
| on_sim o ss gs vs t d : H o = PredOf ss gs vs t -> In d ss -> rests_on H o d
| on_ground o ss gs vs t d : H o = PredOf ss gs vs t -> In d gs -> rests_on H o d
| on_validity o ss gs vs t d : H o = PredOf ss gs vs t -> In d vs -> rests_on H o d
| on_target o ss gs vs t : H o = PredOf ss gs vs t -> rests_on H o t
| on_super o f : H o = SimOf f -> rests_on H o f
| on_super_of_goal o s f : H o = GoalOf (Some s) -> H s = SimOf f -> rests_on H o f
| on_component o cs d : H o = InstanceOf cs -> In d cs -> rests_on H o d.
Definition rests (H : shapes) : nat -> nat -> Prop := clos_refl_trans _ (rests_on H).

(** The shapes after a history. *)
Fixpoint shapes_after (H : shapes) (l : list op) : shapes :=
  match l with [] => H | Hold o x :: r => shapes_after (hold H o x) r | _ :: r => shapes_after H r end.
(** [o] was invalidated: itself, or as the simulation of a goal that was. *)
Definition hit (l : list op) (o : nat) : Prop :=
  exists l1 x l2, l = l1 ++ Invalidate x :: l2 /\ (o = x \/ shapes_after start l1 x = GoalOf (Some o)).

(** Objects are only given more to hold. *)
Inductive grows : shape -> shape -> Prop :=
| grow_same x : grows x x
| grow_plain x : grows Plain x
| grow_pred ss gs vs t ss' gs' vs' : incl ss ss' -> incl gs gs' -> incl vs vs' -> grows (PredOf ss gs vs t) (PredOf ss' gs' vs' t)
| grow_goal s : grows (GoalOf None) (GoalOf (Some s))
| grow_instance cs cs' : incl cs cs' -> grows (InstanceOf cs) (InstanceOf cs').
(** No object rests on itself, however indirectly: each has a rank above those it
    rests on; the simulation of a goal is one. *)
Definition ranked (rank : nat -> nat) (H : shapes) : Prop :=
  (forall o d, rests_on H o d -> rank d < rank o) /\ (forall o s, H o = GoalOf (Some s) -> exists f, H s = SimOf f).
Fixpoint fine (rank : nat -> nat) (H : shapes) (l : list op) : Prop :=
  ranked rank H /\
  match l with
  | [] => True
  | Hold o x :: r => grows (H o) x /\ fine rank (hold H o x) r
  | _ :: r => fine rank H r
  end.
