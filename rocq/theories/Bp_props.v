(** Properties C106 and C107 (copies of structures, binding of patterns). *)
From Verif Require Import Base Atom_model Bp_model Bp_spec Bp_proofs Bp2_proofs Bp3_proofs.
Local Open Scope nat_scope.

(** ** C106 A copied structure is the original *)

(** Full statement: copying a structure to the end of a code gives, there, the same
    structure.  It is false if a word of a time, of a duration or of a string looks
    like an internal pointer: the copy has another word ... *)
Theorem C106_copy_refuted : exists src w t fuel ext dst' e, shows anywhere anywhere src w t /\ getDescriptor w = I_PTR /\
  height t <= fuel /\ ext + tsize t <= limit /\
  copy_structure fuel src (fun _ => UndefinedAtom) ext (place w) = Some (dst', e) /\
  ~ shows anywhere anywhere dst' (ptr ext) t.
Proof. exact copy_refuted. Qed.
Print Assumptions C106_copy_refuted.
(** ... or the copy does not end, however deep the recursion may go. *)
Theorem C106_ends_refuted : exists src w t, shows anywhere anywhere src w t /\ getDescriptor w = I_PTR /\
  height t = 1 /\ tsize t = 3 /\
  forall fuel dst ext, copy_structure fuel src dst ext (place w) = None.
Proof. exact ends_refuted. Qed.
Print Assumptions C106_ends_refuted.
(** Proved for the other structures: the copy ends, shows the same structure in words
    of its own, just after the old end, and leaves the other words as they were. *)
Theorem C106_copy_partial : forall t fuel src dst ext w,
  shows anywhere anywhere src w t -> getDescriptor w = I_PTR -> tame t -> height t <= fuel -> ext + tsize t <= limit ->
  exists dst', copy_structure fuel src dst ext (place w) = Some (dst', ext + tsize t) /\
    shows (within ext (ext + tsize t)) (within ext (ext + tsize t)) dst' (ptr ext) t /\
    forall k, k < ext \/ ext + tsize t <= k -> dst' k = dst k.
Proof. exact copy_tree. Qed.
Print Assumptions C106_copy_partial.
Theorem C106_hold_partial : forall fuel src w t, shows anywhere anywhere src w t -> getDescriptor w = I_PTR ->
  tame t -> height t <= fuel -> tsize t <= limit ->
  exists m, hold fuel src w = Some m /\ shows anywhere anywhere m (ptr 0) t.
Proof. exact hold_spec. Qed.
Print Assumptions C106_hold_partial.
Example C106_example : shows anywhere anywhere x_set (ptr 0) x_tree /\ tame x_tree /\ height x_tree = 2 /\ tsize x_tree = 6 /\
  match copy_structure 2 x_set (fun _ => UndefinedAtom) 3 0 with
  | Some (m, e) => e = 9 /\ words m 3 6 = [ASet 2; ptr 6; 44%Z; ATimestamp; 1%Z; 2%Z]
  | None => False
  end.
Proof. exact (conj x_shows (conj x_tame (conj eq_refl (conj eq_refl (conj eq_refl eq_refl))))). Qed.

(** ** C107 A bound pattern *)

(** Full statement: the object made from a pattern says what the pattern says, each
    variable being replaced by its value.  False for a value that is a structure with
    a reference: in the result it refers to another object. *)
Theorem C107_bind_refuted : exists fuel src w tr v m o T r kept,
  shows anywhere anywhere (word src) w tr /\ getDescriptor w = I_PTR /\ tame tr /\ means free (refs src) tr v /\
  hold fuel (word src) w = Some m /\
  whole o /\ says starts o T /\ fits r /\
  bind_pattern fuel kept (fun _ => StructureV m) o = Some r /\
  ~ says free r (subst kept (fun _ => v) T).
Proof. exact bind_refuted. Qed.
Print Assumptions C107_bind_refuted.
(** Proved for the other values, for all patterns, through all the objects they refer
    to; [kept] are the classes of objects that are never bound. *)
Theorem C107_bind_partial : forall fuel kept values sigma,
  (forall x, x < limit -> stands fuel x (values x) (sigma x)) ->
  forall o r T, bind_pattern fuel kept values o = Some r -> whole o -> says starts o T -> fits r ->
  says free r (subst kept sigma T).
Proof. exact bind_pattern_spec. Qed.
Print Assumptions C107_bind_partial.
Example C107_example : (forall x, x < limit -> stands 2 x (x_values x) (x_terms x)) /\
  whole w_pat /\ says starts w_pat w_says /\
  match bind_pattern 2 (fun _ => false) x_values w_pat with
  | Some r => size r = 9 /\ words (word r) 0 9 = [AObject 9 2; RPointer 0; ptr 3; ASet 2; ptr 6; 44%Z; ATimestamp; 1%Z; 2%Z]
  | None => False
  end.
Proof. exact (conj x_stands (conj w_pat_whole (conj w_pat_says (conj eq_refl eq_refl)))). Qed.
