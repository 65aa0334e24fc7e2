(** Vocabulary of the statements about sub-goals and the life of composite states. *)
From Verif Require Import Base Csg_model.
Local Open Scope nat_scope.

(** What a component should become when the composite state is wished, or wished
    not to be. *)
Definition wish_of (opposite : bool) (c : part) : wish := mkwish (states c) (xorb (negated c) opposite).
(** A wish that nothing says to be met, to be contradicted, or predicted to be met. *)
Definition open_wish (evidence predicted : wish -> result) (w : wish) : Prop :=
  evidence w = Failure /\ predicted w <> Positive.
(** Two wishes for the same thing. *)
Definition alike (same : nat -> nat -> bool) (w w' : wish) : Prop :=
  wneg w = wneg w' /\ same (wobj w) (wobj w') = true.

(** The last time, in a history that starts at [t0], when an input matched. *)
Fixpoint matched_at (t0 : Z) (l : list happening) : Z :=
  match l with
  | [] => t0
  | Reduced now true :: r => matched_at now r
  | _ :: r => matched_at t0 r
  end.
(** An input came too long after the last match, without matching. *)
Definition starved (thz t0 : Z) (l : list happening) : Prop :=
  exists l1 now l2, l = l1 ++ Reduced now false :: l2 /\ (thz < now - matched_at t0 l1)%Z.
(** An input was offered while the controller [c] was invalidated. *)
Definition seen_gone (c : nat) (l : list happening) : Prop :=
  exists gone, In (Offered gone) l /\ gone c = true.
