(** Vocabulary of the statements about requirement look-ups. *)
From Verif Require Import Base Req_model CellList_model.
From Coq Require Import SpecFloat.

(** An instance of a requirement that can still be used: its prediction is not
    invalidated, and the end of its interval is not reached (not passed, if it is
    instantaneous). *)
Definition usable (dead : Z -> bool) (now : Z) (e : entry) : Prop := dead (ev e) = false /\ (now < before e \/ now = before e /\ after e = before e).
Definition in_range (now : Z) (e : entry) : Prop := after e <= now <= before e.
(** A usable entry of a cache that satisfies [ok] and matches. *)
Definition candidate {B} (dead : Z -> bool) (now : Z) (ok : entry -> Prop) (m : Z -> option B) (l : list entry) (e : entry) : Prop :=
  In e l /\ usable dead now e /\ ok e /\ m (ev e) <> None.
(** The youngest entry such that [P]: caches have the most recent first. *)
Definition youngest (P : entry -> Prop) (l : list entry) (e : entry) : Prop := exists l1 l2, l = l1 ++ e :: l2 /\ P e /\ forall x, In x l1 -> ~ P x.
(** The weak requirement [w] wins over the strong one [s]: it is not about the same, or
    has a greater confidence. *)
Definition wins (clash : Z -> Z -> bool) (s w : entry) : Prop := clash (ev w) (ev s) = false \/ SFltb (cfd s) (cfd w) = true.
(** What the status must be, from the weak requirements [W] that apply, the strong one
    [S] to consider, if any, and whether the former win over the latter. *)
Definition verdict (W : entry -> Prop) (S : entry -> Prop) (win : entry -> entry -> Prop) (r : status) : Prop :=
  match r with
  | WeakEnabled => exists w, W w /\ forall s, S s -> win s w
  | StrongDisabledWeak => exists s, S s /\ (exists w, W w) /\ forall w, W w -> ~ win s w
  | StrongNoWeak => exists s, S s /\ forall w, ~ W w
  | WeakDisabled => (forall s, ~ S s) /\ forall w, ~ W w
  | NoRequirement => False
  end.
(** What the results of a look-up must be, given the same and the status: all the weak
    requirements that win, with their bindings; or the strong one's bindings alone. *)
Definition right_results {B} (strict lenient : Z -> option B) (W : entry -> Prop) (S : entry -> Prop) (win : entry -> entry -> Prop) (r : status) (res : list (B * option Z)) : Prop :=
  match r with
  | WeakEnabled => forall b g, In (b, g) res <-> exists w, W w /\ (forall s, S s -> win s w) /\ g = Some (ev w) /\ strict (ev w) = Some b
  | StrongDisabledWeak => exists s w b, S s /\ W w /\ lenient (ev s) = Some b /\ res = [(b, Some (ev w))]
  | StrongNoWeak => exists s b, S s /\ lenient (ev s) = Some b /\ res = [(b, None)]
  | WeakDisabled | NoRequirement => res = []
  end.
(** In a backward simulation ([bwin] below), a weak requirement also wins over a strong
    one that is over when it starts, and is not considered if it does not win and is over
    when the strong one starts. *)
Definition concerned (S : entry -> Prop) (win : entry -> entry -> Prop) (w : entry) : Prop := forall s, S s -> win s w \/ after s < before w.
(** No entry is lost that can still be used, and none is added. *)
Definition retained (dead : Z -> bool) (now : Z) (l l' : list entry) : Prop := (forall e, In e l' -> In e l) /\ forall e, In e l -> usable dead now e -> In e l'.
(** *** What applies *)
Section Applies.
Context {B : Type} (strict lenient : Z -> option B) (clash : Z -> Z -> bool) (dead sim : Z -> bool).
(** Forward: the weak requirements that apply are the usable ones in range, matching, and
    made while chaining was allowed; the strong one is the youngest such. *)
Definition weak_at (now : Z) (l : list entry) : entry -> Prop := candidate dead now (fun e => in_range now e /\ allowed e = true) strict l.
Definition strong_at (now : Z) (l : list entry) : entry -> Prop := youngest (fun e => usable dead now e /\ (in_range now e /\ allowed e = true) /\ lenient (ev e) <> None) l.
(** Forward, simulated: those of the simulation. *)
Definition weak_sim (now : Z) (l : list entry) : entry -> Prop := candidate dead now (fun e => sim (ev e) = true) strict l.
Definition strong_sim (now : Z) (l : list entry) : entry -> Prop := youngest (fun e => usable dead now e /\ sim (ev e) = true /\ lenient (ev e) <> None) l.
(** Backward: all the usable ones that match; simulated: of the simulation. *)
Definition bok (is_sim : bool) (e : entry) : Prop := is_sim = true -> sim (ev e) = true.
Definition bwin (is_sim : bool) (s w : entry) : Prop := wins clash s w \/ is_sim = true /\ before s <= after w.
Definition weak_b (is_sim : bool) (now : Z) (l : list entry) : entry -> Prop := candidate dead now (bok is_sim) strict l.
Definition strong_b (is_sim : bool) (now : Z) (l : list entry) : entry -> Prop := youngest (fun e => usable dead now e /\ bok is_sim e /\ lenient (ev e) <> None) l.
Definition weak_c (is_sim : bool) (now : Z) (l : list entry) (S : entry -> Prop) (w : entry) : Prop := weak_b is_sim now l w /\ (is_sim = true -> concerned S (bwin is_sim) w).
Definition strong_s (is_sim : bool) (sr now : Z) (k : caches) (e : entry) : Prop := sr <> 0 /\ strong_b is_sim now (neg k) e.
End Applies.
(** A list of entries in cells, without damage: walking it from its head gives [l]. *)
Definition holds (s : @cells_list entry) (l : list entry) : Prop := option_map (map snd) (iterate s) = Some l.
