(* Models that are built on other models and states: how they disappear. *)
From Coq Require Import List Bool Arith.
Import ListNotations.

(* MDLController::MDLController, r_exec/mdl_controller.cpp:318-361: controllers_, the
   controllers of the left side and of the right side if these are instances of models or
   states that are in the group.  Controllers are numbers.  [top]: the controller of a
   top-level model. *)
Record sides := Sd { lhs : option nat; rhs : option nat; top : bool }.
Definition controllers (s : sides) : list (option nat) := [lhs s; rhs s].

(* A controller is invalidated by itself (kill_views, 2651-2666, 2890-2897, for any
   reason), or an input comes to it (take_input, 1264-1269, 1574-1582, 2751-2759). *)
Inductive event := Kill (n : nat) | Offer (n : nat).

(* The invalidated controllers, and the inputs that are taken. *)
Record state := St { gone : list nat; taken : list nat }.
Definition is_gone (s : state) (n : nat) : bool := existsb (Nat.eqb n) (gone s).

(* HLPController::become_invalidated, hlp_controller.cpp:261-286, without template
   arguments; invalidate (108-112) clears controllers_, which are not looked at any more
   then. *)
Definition become (net : nat -> sides) (s : state) (n : nat) : bool * state :=
  if is_gone s n then (true, s)
  else if existsb (fun c => match c with Some m => is_gone s m | None => false end) (controllers (net n))
       then (true, St (n :: gone s) (taken s))
       else (false, s).

Definition step (net : nat -> sides) (s : state) (e : event) : state :=
  match e with
  | Kill n => St (n :: gone s) (taken s)
  | Offer n =>
      if top (net n) then St (gone s) (taken s ++ [n])
      else let (b, s') := become net s n in if b then s' else St (gone s') (taken s' ++ [n])
  end.
Definition run (net : nat -> sides) (es : list event) : state := fold_left (step net) es (St [] []).
