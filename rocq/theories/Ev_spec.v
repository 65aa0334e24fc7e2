(** Vocabulary of the statements about evidence caches and requirement counters. *)
From Verif Require Import Base Ev_model.

(** The first list is obtained from the second by leaving elements out. *)
Inductive subseq {A} : list A -> list A -> Prop :=
| sub_nil l : subseq [] l
| sub_take x l l' : subseq l l' -> subseq (x :: l) (x :: l')
| sub_skip x l l' : subseq l l' -> subseq l (x :: l').
(** The evidence stored in a history, oldest first; that invalidated; the times. *)
Definition stored (l : list op) : list Z := flat_map (fun o => match o with StoreEv e _ => [e] | _ => [] end) l.
Definition invalidated (l : list op) : list Z := flat_map (fun o => match o with Invalidate e => [e] | _ => [] end) l.
Definition times (l : list op) : list Z := flat_map (fun o => match o with StoreEv _ t => [t] | CheckEv _ t => [t] | CheckPred _ _ t => [t] | Invalidate _ => [] end) l.
(** A fact about an interval is usable until before the end of the interval; an
    instantaneous one, until and including its time. *)
Definition usable (after before : Z -> Z) (gone : list Z) (now e : Z) : Prop := ~ In e gone /\ (now < before e \/ now = before e /\ after e = before e).
(** Additions minus removals of strong (true) or weak (false) requirements. *)
Definition balance (s : bool) (l : list count_op) : Z :=
  fold_right (fun o n => match o with Add b => if eqb b s then n + 1 else n | Remove b => if eqb b s then n - 1 else n end) 0 l.
(** A controller that exists, and counters within the range of their type. *)
Definition normal (c : counts) : Prop := 0 <= strong c < 2 ^ 32 /\ 0 <= weak c < 2 ^ 32 /\ 0 <= total c < 2 ^ 32.
Definition points_to (h : half) (n : nat) : Prop := forall i, h_rhs h = Some i -> (i < n)%nat.
(** A pair just created. *)
Record fresh (p : pair) : Prop := {
  fresh_primary : h_dead (primary p) = false /\ points_to (primary p) (length (others p));
  fresh_secondary : h_dead (secondary p) = false /\ points_to (secondary p) (length (others p));
  fresh_counts : Forall normal (others p) }.
(** The number (0 or 1) of strong (true) or weak (false) requirements that a
    controller puts on controller [i]. *)
Definition claim (h : half) (i : nat) (s : bool) : Z :=
  match h_kind h, h_rhs h with
  | NotARequirement, _ => 0
  | k, Some j => if (j =? i)%nat && eqb (is_strong k) s then 1 else 0
  | _, None => 0
  end.
(** The counters with [s] strong and [w] weak requirements more. *)
Definition increased (s w : Z) (c : counts) : counts := mkcounts (u32 (strong c + s)) (u32 (weak c + w)) (u32 (total c + (s + w))).
