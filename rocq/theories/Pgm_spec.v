(** Vocabulary of the statements about programs. *)
From Verif Require Import Base Pgm_model.

Section Spec.
Variable pats : list nat.
Variable pmatch : history -> nat -> nat -> bool.
(** Combinations of inputs: each one matched a pattern not used before, given those that
    came before it in the stream. *)
Inductive combination : history -> Prop :=
| no_input : combination []
| one_more : forall h p k, combination h -> In p pats -> ~ In p (map fst h) -> (forall x, In x h -> (snd x < k)%nat) ->
    pmatch h p k = true -> combination (h ++ [(p, k)]).
(** All patterns are matched. *)
Definition complete (h : history) : Prop := length h = length pats.
(** No input matches two of the patterns that are still to be matched. *)
Definition unambiguous : Prop := forall h p q k, combination h -> In p pats -> In q pats -> ~ In p (map fst h) -> ~ In q (map fst h) ->
  pmatch h p k = true -> pmatch h q k = true -> p = q.

(** The time of the k-th input and what is invalidated then. *)
Definition when (s : list moment) (k : nat) : Z := fst (nth k s (0, fun _ => false)).
Definition gone_at (s : list moment) (k : nat) : nat -> bool := snd (nth k s (0, fun _ => false)).
(** Streams: time is positive and does not go back; objects stay invalidated. *)
Definition stream (s : list moment) : Prop :=
  (forall i, (i < length s)%nat -> 0 < when s i) /\
  (forall i j, (i <= j < length s)%nat -> when s i <= when s j) /\
  (forall i j x, (i <= j < length s)%nat -> gone_at s i x = true -> gone_at s j x = true).
(** The combination is made of inputs of the stream within the time scope, none of them
    invalidated, for volatile programs, before the last one came. *)
Definition in_scope (cf : config) (s : list moment) (h : history) : Prop :=
  (forall x, In x h -> (snd x < length s)%nat) /\
  (0 < tsc cf -> forall x y, In x h -> In y h -> when s (snd y) - when s (snd x) <= tsc cf) /\
  (volatile cf = true -> forall x y, In x h -> In y h -> (snd x < snd y)%nat -> gone_at s (snd y) (snd x) = false).
(** The combinations on which a program must fire. *)
Definition must_fire (guards : history -> bool) (cf : config) (s : list moment) (h : history) : Prop :=
  combination h /\ complete h /\ guards h = true /\ in_scope cf s h.
(** What a program fires on. *)
Definition fired (guards : history -> bool) (cf : config) (s : list moment) : list history := snd (run pmatch guards cf (start pats) 0 s).

(** The last input of a combination. *)
Definition ends_at (h : history) (k : nat) : Prop := exists h' p, h = h' ++ [(p, k)].
(** Every input of the combination came at position k or later. *)
Definition from (k : nat) (h : history) : Prop := forall x, In x h -> (k <= snd x)%nat.
End Spec.

(** Anti-programs: the times of the inputs of a sequence of events; feeding inputs. *)
Fixpoint arrivals (es : list event) : list Z := match es with [] => [] | Input t _ :: r => t :: arrivals r | _ :: r => arrivals r end.
Definition arrival (es : list event) (k : nat) : Z := nth k (arrivals es) 0.
Definition feed (pats : list nat) (pmatch : history -> nat -> nat -> bool) (guards : history -> bool) (scope : Z) (ro : bool) (a : anti) (k : nat) (ts : list Z) : anti :=
  fst (arun pats pmatch guards scope ro a k (map (fun t => Input t true) ts)).
(** An occurrence of what the anti-program watches. *)
Definition occurrence (pats : list nat) (pmatch : history -> nat -> nat -> bool) (guards : history -> bool) (h : history) : Prop :=
  combination pats pmatch h /\ complete pats h /\ guards h = true.
(** The times in a list are all at least [d] apart, from [t] on. *)
Fixpoint apart (d t : Z) (l : list Z) : Prop := match l with [] => True | u :: r => t + d <= u /\ apart d u r end.
(** The program is not deactivated. *)
Definition stays_on (es : list ievent) : Prop := Forall (fun e => e <> Deactivate) es.
