(** Model of the invalidation of objects: r_exec/factory.cpp:223-233 (facts),
    576-610 (predictions), 669-686 (goals), 749-769 (simulations), 915-928
    (instances of composite states), r_exec/object.tpl.cpp:100-111 (others).

    Objects are [nat].  An object has a flag ([invalidated_]) and holds other
    objects.  The checks set flags as they go.  Recursion is bounded by a fuel; the
    result [None] stands for a check that does not end or that reads a simulation
    where there is none. *)
From Verif Require Import Base.
Local Open Scope nat_scope.

(** What an object holds, as far as invalidation reads it. *)
Inductive shape :=
| Plain                                           (* any other object *)
| FactOf (object : nat)                           (* get_reference(0) *)
| PredOf (sims grounds validities : list nat) (target : nat)
| GoalOf (sim : option nat)
| SimOf (super_goal : nat)
| InstanceOf (components : list nat).

Definition shapes := nat -> shape.
Definition flags := nat -> bool.
Definition raise (fl : flags) (o : nat) : flags := fun x => if x =? o then true else fl x.

(** The loops over held objects: stop at the first that is invalidated. *)
Fixpoint any (query : flags -> nat -> option (flags * bool)) (fl : flags) (l : list nat) : option (flags * bool) :=
  match l with
  | [] => Some (fl, false)
  | x :: r =>
      match query fl x with
      | None => None
      | Some (fl1, true) => Some (fl1, true)
      | Some (fl1, false) => any query fl1 r
      end
  end.

Section Checks.
Context (H : shapes).

(** factory.cpp:749-757; [query] is [is_invalidated] of the super-goal. *)
Definition sim_invalidate (query : flags -> nat -> option (flags * bool)) (fl : flags) (s : nat) : option flags :=
  if fl s then Some fl
  else match H s with
       | SimOf f =>
           match query fl f with
           | None => None
           | Some (fl1, true) => Some fl1
           | Some (fl1, false) => Some (raise fl1 s)
           end
       | _ => None
       end.

(** factory.cpp:223-233, 576-610, 676-686, 759-769, 915-928. *)
Fixpoint is_invalidated (fuel : nat) (fl : flags) (o : nat) : option (flags * bool) :=
  match fuel with
  | 0 => None
  | S k =>
      if fl o then Some (fl, true)
      else
        let held (l : list nat) :=
          match any (is_invalidated k) fl l with
          | None => None
          | Some (fl1, true) => Some (raise fl1 o, true)
          | Some (fl1, false) => Some (fl1, false)
          end in
        match H o with
        | Plain => Some (fl, false)
        | FactOf t => held [t]
        | PredOf ss gs vs t => held (ss ++ gs ++ vs ++ [t])
        | InstanceOf cs => held cs
        | SimOf f =>
            match is_invalidated k fl f with
            | None => None
            | Some (fl1, true) =>
                match sim_invalidate (is_invalidated k) fl1 o with Some fl2 => Some (fl2, true) | None => None end
            | Some (fl1, false) => Some (fl1, false)
            end
        | GoalOf None => Some (fl, false)
        | GoalOf (Some s) =>
            match H s with
            | SimOf f =>
                match is_invalidated k fl f with
                | None => None
                | Some (fl1, true) =>
                    match sim_invalidate (is_invalidated k) fl1 s with Some fl2 => Some (raise fl2 o, true) | None => None end
                | Some (fl1, false) => Some (fl1, false)
                end
            | _ => None
            end
        end
  end.

(** object.tpl.cpp:105-111, factory.cpp:669-674, 749-757. *)
Definition invalidate (fuel : nat) (fl : flags) (o : nat) : option flags :=
  match H o with
  | GoalOf (Some s) =>
      match sim_invalidate (is_invalidated fuel) fl s with Some fl1 => Some (raise fl1 o) | None => None end
  | SimOf _ => sim_invalidate (is_invalidated fuel) fl o
  | _ => Some (raise fl o)
  end.
End Checks.

(** What happens: an object is made or is given more to hold (factory.h:446-448,
    558-566: [grounds_], [defeasible_validities_], [set_sim]); it is invalidated; it
    is checked. *)
Inductive op := Hold (o : nat) (x : shape) | Invalidate (o : nat) | Check (o : nat).
Definition hold (H : shapes) (o : nat) (x : shape) : shapes := fun y => if y =? o then x else H y.

Fixpoint run (fuel : nat) (H : shapes) (fl : flags) (l : list op) : option (shapes * flags) :=
  match l with
  | [] => Some (H, fl)
  | Hold o x :: r => run fuel (hold H o x) fl r
  | Invalidate o :: r => match invalidate H fuel fl o with Some fl1 => run fuel H fl1 r | None => None end
  | Check o :: r => match is_invalidated H fuel fl o with Some (fl1, _) => run fuel H fl1 r | None => None end
  end.
Definition start : shapes := fun _ => Plain.
Definition none : flags := fun _ => false.
