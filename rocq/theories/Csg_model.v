(** Model of r_exec/cst_controller.cpp: sub-goals made from a goal on a composite
    state (634-716), and when a composite state is dropped (514-538, 543-562,
    583-609, 784-797; hlp_controller.cpp:108-112, 261-299).

    Objects and controllers are [nat], times [Z].  The caches of evidence are
    the subject of [Ev_model]; here they answer through [evidence] and
    [predicted]. *)
From Verif Require Import Base.
Local Open Scope nat_scope.

(** r_exec/factory.h:144-148 *)
Inductive result := Failure | Positive | Negative.

(** A component of the composite state: the fact, whether binding makes a copy of
    it ([need_binding], binding_map.cpp:1230-1261), the object it states once
    bound, whether it is an anti-fact, whether the bound object is an axiom. *)
Record part := mkpart { copied : bool; states : nat; negated : bool; axiom : bool }.
(** A goal target: the object and the polarity of its fact. *)
Record wish := mkwish { wobj : nat; wneg : bool }.

Section Goals.
(** hlp_controller.cpp:205-259 and factory.cpp:797 ([MatchObject] with timings ignored). *)
Context (evidence predicted : wish -> result) (same : nat -> nat -> bool).

(** factory.cpp:785-804; the root simulation exists. *)
Definition registered (l : list wish) (w : wish) : bool :=
  existsb (fun r => Bool.eqb (wneg w) (wneg r) && same (wobj w) (wobj r)) l.

(** cst_controller.cpp:658-685: whether a sub-goal is injected for the bound
    component, before looking at the registered ones. *)
Definition lacking (w : wish) : bool :=
  match evidence w with
  | Positive | Negative => false
  | Failure => match predicted w with Positive => false | _ => true end
  end.

(** cst_controller.cpp:654-686 with 697-699: the registered targets grow; the
    result is the components as they are left, the registered targets, the
    sub-goals injected. *)
Fixpoint abduce (opposite : bool) (parts : list part) (reg : list wish) : list part * list wish * list wish :=
  match parts with
  | [] => ([], reg, [])
  | c :: r =>
      if axiom c then let '(r', reg', new) := abduce opposite r reg in (c :: r', reg', new)
      else
        let w := mkwish (states c) (xorb (negated c) opposite) in
        (* set_opposite (factory.cpp) writes the fact itself; if binding made no copy this is the component *)
        let c' := if copied c then c else mkpart false (states c) (wneg w) (axiom c) in
        if lacking w && negb (registered reg w)
        then let '(r', reg', new) := abduce opposite r (reg ++ [w]) in (c' :: r', reg', w :: new)
        else let '(r', reg', new) := abduce opposite r reg in (c' :: r', reg', new)
  end.
End Goals.

(** ** Dropping a composite state *)

(** A component seen by the constructor (cst_controller.cpp:524-537): the
    controller of the composite state or model that it instantiates, if any. *)
Definition component := option nat.
(** cst_controller.cpp:520-537: the loop reads place [obj_set_index + 1] every time. *)
Definition watched (l : list component) : list nat :=
  match l with
  | [] => []
  | first :: _ => flat_map (fun _ => match first with Some c => [c] | None => [] end) l
  end.

(** [invalidated_], [last_match_time_], [controllers_]. *)
Record life := mklife { killed : bool; last_match : Z; ctrls : list nat }.
Definition create (now : Z) (l : list component) : life := mklife false now (watched l).
(** cst_controller.cpp:784-788, hlp_controller.cpp:108-112 *)
Definition kill (s : life) : life := mklife true (last_match s) [].

(** What happens to it: an input is offered while some controllers are
    invalidated (543-554, 261-286; no template arguments); a reduction that
    handles a goal (564-582); a reduction of another input, which matched or not
    (583-609, 790-797). *)
Inductive happening :=
| Offered (gone : nat -> bool)
| GoalReduced
| Reduced (now : Z) (matched : bool).

Definition live_step (thz : Z) (s : life) (h : happening) : life :=
  match h with
  | Offered gone => if killed s then s else if existsb gone (ctrls s) then kill s else s
  | GoalReduced => s
  | Reduced now m =>
      if m then mklife (killed s) now (ctrls s)
      else if (thz <? now - last_match s)%Z then kill s else s
  end.
Definition live_run (thz : Z) (s : life) (l : list happening) : life := fold_left (live_step thz) l s.
