(** Model of the evidence caches and of the requirement counters of the controllers of
    models and composite states: r_exec/hlp_controller.h, hlp_controller.cpp, and the
    functions of r_exec/mdl_controller.cpp that count requirements.

    Simplifications: a piece of evidence is its address; the times and the confidence
    that an EvidenceEntry copies from the fact (hlp_controller.cpp:316-331 and 338-339)
    are functions of the address (facts are not changed once stored); r_code::list is a
    list (as C09 proves); critical sections are not modelled: each
    operation is atomic; Now() is an argument. *)
From Verif Require Import Base.
From Coq Require Import SpecFloat.

(** ** Evidence caches *)
(** MatchResult, r_exec/binding_map.h. *)
Inductive result := Failure | Positive | Negative.
Section Cache.
(** get_after(), get_before() of the evidence (of its payload, for predicted
    evidence). *)
Context (after before : Z -> Z).
(** hlp_controller.h:125-130; [dead]: is_invalidated() of the evidence. *)
Definition too_old (dead : Z -> bool) (now e : Z) : bool := dead e || (if after e =? before e then before e <? now else before e <=? now).
(** The loop of _store_evidence, hlp_controller.h:148-160; true: already stored, the
    loop stops there. *)
Fixpoint scan (dead : Z -> bool) (now e : Z) (l : list Z) : list Z * bool :=
  match l with
  | [] => ([], false)
  | x :: l' =>
      if x =? e then (l, true)
      else let (l2, b) := scan dead now e l' in if too_old dead now x then (l2, b) else (x :: l2, b)
  end.
(** hlp_controller.h:143-163 *)
Definition store (dead : Z -> bool) (now e : Z) (l : list Z) : list Z := let (l2, b) := scan dead now e l in if b then l2 else e :: l2.
(** hlp_controller.cpp:205-229; [is_evidence e]: the evidence compared to the
    target. *)
Fixpoint check_evidences (is_evidence : Z -> result) (dead : Z -> bool) (now : Z) (l : list Z) : list Z * option (Z * result) :=
  match l with
  | [] => ([], None)
  | x :: l' =>
      if too_old dead now x then check_evidences is_evidence dead now l'
      else match is_evidence x with
           | Failure => let (l2, a) := check_evidences is_evidence dead now l' in (x :: l2, a)
           | r => (l, Some (x, r))
           end
  end.
(** hlp_controller.cpp:231-259; [above e]: the confidence of the target is lower than
    that of the evidence. *)
Fixpoint check_predicted_evidences (is_evidence : Z -> result) (above : Z -> bool) (dead : Z -> bool) (now : Z) (l : list Z) : list Z * option (Z * result) :=
  match l with
  | [] => ([], None)
  | x :: l' =>
      if too_old dead now x then check_predicted_evidences is_evidence above dead now l'
      else match is_evidence x with
           | Failure => let (l2, a) := check_predicted_evidences is_evidence above dead now l' in (x :: l2, a)
           | r => if above x then (l, Some (x, r)) else let (l2, a) := check_predicted_evidences is_evidence above dead now l' in (x :: l2, a)
           end
  end.
(** A cache and the evidence invalidated so far. *)
Record memo := mkmemo { cache : list Z; gone : list Z }.
Definition dead_in (m : memo) (e : Z) : bool := existsb (Z.eqb e) (gone m).
Inductive op :=
| StoreEv (e now : Z)
| CheckEv (is_evidence : Z -> result) (now : Z)
| CheckPred (is_evidence : Z -> result) (above : Z -> bool) (now : Z)
| Invalidate (e : Z).
Definition step (m : memo) (o : op) : memo :=
  match o with
  | StoreEv e now => mkmemo (store (dead_in m) now e (cache m)) (gone m)
  | CheckEv f now => mkmemo (fst (check_evidences f (dead_in m) now (cache m))) (gone m)
  | CheckPred f g now => mkmemo (fst (check_predicted_evidences f g (dead_in m) now (cache m))) (gone m)
  | Invalidate e => mkmemo (cache m) (e :: gone m)
  end.
Definition run (m : memo) (l : list op) : memo := fold_left step l m.
End Cache.
Definition no_evidence : memo := mkmemo [] [].

(** ** Requirement counters *)
(** hlp_controller.h:108-110 *)
Record counts := mkcounts { strong : Z; weak : Z; total : Z }.
(** hlp_controller.cpp:93 *)
Definition no_requirement : counts := mkcounts 0 0 0.
(** hlp_controller.cpp:114-123 *)
Definition add_requirement (s : bool) (c : counts) : counts :=
  if s then mkcounts (u32 (strong c + 1)) (weak c) (u32 (total c + 1)) else mkcounts (strong c) (u32 (weak c + 1)) (u32 (total c + 1)).
(** hlp_controller.cpp:125-134 *)
Definition remove_requirement (s : bool) (c : counts) : counts :=
  if s then mkcounts (u32 (strong c - 1)) (weak c) (u32 (total c - 1)) else mkcounts (strong c) (u32 (weak c - 1)) (u32 (total c - 1)).
Inductive count_op := Add (s : bool) | Remove (s : bool).
Definition count_step (c : counts) (o : count_op) : counts := match o with Add s => add_requirement s c | Remove s => remove_requirement s c end.

(** ** Pairs of controllers *)
(** RequirementType, mdl_controller.h:231-235. *)
Inductive kind := NotARequirement | WeakRequirement | StrongRequirement.
(** What matters of a primary or secondary controller: its type, the controller at
    controllers_[RHSController] (a position in the list of controllers; None: NULL),
    and invalidated_. *)
Record half := mkhalf { h_kind : kind; h_rhs : option nat; h_dead : bool }.
Definition is_strong (k : kind) : bool := match k with StrongRequirement => true | _ => false end.
(** add_requirement_to_rhs and remove_requirement_from_rhs, mdl_controller.cpp:407-425.
    None: the element read does not exist, as controllers_ was cleared by invalidate()
    (hlp_controller.cpp:108-112). *)
Definition on_rhs (f : bool -> counts -> counts) (h : half) (cs : list counts) : option (list counts) :=
  match h_kind h with
  | NotARequirement => Some cs
  | k => if h_dead h then None
         else match h_rhs h with
              | None => Some cs
              | Some i => match nth_error cs i with None => None | Some c => upd cs i (f (is_strong k) c) end
              end
  end.
Record pair := mkpair { primary : half; secondary : half; others : list counts }.
Definition bury (h : half) : half := mkhalf (h_kind h) (h_rhs h) true.
Definition both (f : bool -> counts -> counts) (first second : half) (cs : list counts) : option (list counts) :=
  match on_rhs f first cs with None => None | Some cs => on_rhs f second cs end.
(** PrimaryMDLController::set_secondary, mdl_controller.cpp:1485-1490. *)
Definition set_secondary (p : pair) : option pair :=
  match both add_requirement (primary p) (secondary p) (others p) with None => None | Some cs => Some (mkpair (primary p) (secondary p) cs) end.
(** PrimaryMDLController::kill_views, mdl_controller.cpp:2651-2666. *)
Definition kill_primary (p : pair) : option pair :=
  if h_dead (primary p) then Some p
  else match both remove_requirement (primary p) (secondary p) (others p) with None => None | Some cs => Some (mkpair (bury (primary p)) (secondary p) cs) end.
(** SecondaryMDLController::kill_views, mdl_controller.cpp:2890-2897. *)
Definition kill_secondary (p : pair) : option pair :=
  match both remove_requirement (secondary p) (primary p) (others p) with None => None | Some cs => Some (mkpair (primary p) (bury (secondary p)) cs) end.
(** The deletion of a view invalidates its controller, r_exec/view.cpp:105-109. *)
Definition delete_primary (p : pair) : option pair := Some (mkpair (bury (primary p)) (secondary p) (others p)).
Definition delete_secondary (p : pair) : option pair := Some (mkpair (primary p) (bury (secondary p)) (others p)).
Inductive pair_op := KillPrimary | KillSecondary | DeletePrimary | DeleteSecondary.
Definition pair_step (p : pair) (o : pair_op) : option pair :=
  match o with KillPrimary => kill_primary p | KillSecondary => kill_secondary p | DeletePrimary => delete_primary p | DeleteSecondary => delete_secondary p end.
Fixpoint pair_run (p : pair) (l : list pair_op) : option pair :=
  match l with [] => Some p | o :: l' => match pair_step p o with None => None | Some p => pair_run p l' end end.
