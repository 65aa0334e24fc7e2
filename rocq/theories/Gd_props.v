(** Properties of the guards of models and composite states: what evaluating them
    establishes, what the scan before an abduction says, and the forward timings
    computed from the backward guards. *)

From Coq Require Import List ZArith Bool Arith Lia.
From Verif Require Import Gd_model Gd_spec Gd_proofs Gd2_proofs Gd3_proofs Gd4_proofs.
Import ListNotations.

(** ** C98 Guards hold of the bindings they leave *)

(** Refuted: the guards (> v0 0) and v0:(+ -1 0) succeed with v0 = 5, and leave
    v0 = -1. *)
Theorem C98_guards_hold_refuted : exists ops first s gs s',
  eval_guards ops first s gs = Some s' /\ exists g, In g gs /\ ~ satisfied ops s' g.
Proof. exact (ex_intro _ w_ops (ex_intro _ 0 (ex_intro _ _ (ex_intro _ w_spoiled spoiled)))). Qed.
Print Assumptions C98_guards_hold_refuted.

(** Holds if each variable is assigned once, is not bound before, and is assigned a
    number, a structure made by an operator, or a literal object whose parts are
    literals or operators that give one-word values:
    then no binding is lost, every test holds and every assignment is an equation
    that holds, all under the bindings at the end.  Missing: variables assigned
    twice or already bound, and other values, for which it is false. *)
Theorem C98_guards_hold_partial : forall ops first gs s s',
  eval_guards ops first s gs = Some s' ->
  NoDup (targets gs) -> (forall x, In x (targets gs) -> ~ given first s x) ->
  definite_assignments ops gs ->
  (forall x v, s x = Some v -> s' x = Some v) /\ forall g, In g gs -> satisfied ops s' g.
Proof. exact guards_satisfied. Qed.
Print Assumptions C98_guards_hold_partial.
Example C98_example : definite_assignments w_ops w_good /\ NoDup (targets w_good) /\
  exists s', eval_guards w_ops 0 w_start w_good = Some s' /\
    s' 1 = Some (VTime 5) /\ s' 2 = Some (VTime 6) /\ s' 3 = Some (VFloat 6).
Proof. exact (conj good_definite (conj (proj1 good_fresh) good_runs)). Qed.

(** ** C99 An assignment binds its variable to the value of its expression *)

(** Refuted: v0:(> v1 0) succeeds and leaves v0 unbound, as booleans are not bound. *)
Theorem C99_assignment_binds_refuted : exists ops s x e s' v,
  s x = None /\ eval_guard ops 0 s (Assign x e) = Some s' /\ denotes ops s e v /\ s' x = None.
Proof.
  destruct not_bound as (s' & H1 & H2 & H3).
  exact (ex_intro _ w_ops (ex_intro _ _ (ex_intro _ 0 (ex_intro _ _ (ex_intro _ s' (ex_intro _ _
    (conj eq_refl (conj H1 (conj H2 H3))))))))).
Qed.
Print Assumptions C99_assignment_binds_refuted.

(** Refuted also when it binds: v0:(vec2 v1 0) with v1 = 5 leaves in v0 a structure
    that refers to the variable v1 instead of holding 5. *)
Theorem C99_assignment_value_refuted : exists ops s x e s' v,
  s x = None /\ eval_guard ops 0 s (Assign x e) = Some s' /\ denotes ops s e v /\
  s' x <> None /\ s' x <> Some v.
Proof.
  destruct hole_bound as (s' & H1 & H2 & H3).
  exists w_ops, (set no_bindings 1 (VFloat 5)), 0, (Str KObject [Var 1; num 0]), s',
    (VStr KObject [VFloat 5; VFloat 0]).
  rewrite H3. repeat split; [exact H1|exact H2|discriminate|discriminate].
Qed.
Print Assumptions C99_assignment_value_refuted.

(** Refuted for a template argument: it may be left unbound, although the expression
    has no value. *)
Theorem C99_template_refuted : exists ops s x e s',
  s x = None /\ eval ops s e = None /\ eval_guard ops 1 s (Assign x e) = Some s' /\ s' x = None.
Proof.
  destruct template_unbound as (s' & H1 & H2).
  exists w_ops, no_bindings, 0, (Op 0 [Var 1; num 0]), s'. repeat split; assumption.
Qed.
Print Assumptions C99_template_refuted.

(** Holds for a variable that is neither bound nor a template argument, and an
    expression whose value is a number, a structure made by an operator, or a
    literal object without variables or operators. *)
Theorem C99_assignment_binds_partial : forall ops first s x e s',
  definite ops e -> ~ given first s x ->
  eval_guard ops first s (Assign x e) = Some s' ->
  exists v, denotes ops s e v /\ s' x = Some v.
Proof. exact assignment_binds. Qed.
Print Assumptions C99_assignment_binds_partial.
Example C99_literal_example : definite w_ops (Str KObject [Op 1 [Var 0; num 3]; num 0]) /\
  exists s', eval_guard w_ops 0 w_start (Assign 1 (Str KObject [Op 1 [Var 0; num 3]; num 0])) = Some s' /\
    s' 1 = Some (VStr KObject [VBool true; VFloat 0]).
Proof. exact literal_definite. Qed.
Example C99_example : definite w_ops (Op 2 [Var 0]) /\ ~ given 0 w_start 1 /\
  exists s', eval_guard w_ops 0 w_start (Assign 1 (Op 2 [Var 0])) = Some s' /\ s' 1 = Some (VTime 5).
Proof.
  exact (conj (good_definite 1 _ (or_introl eq_refl))
        (conj (proj2 good_fresh 1 (or_introl eq_refl)) (ex_intro _ _ (conj eq_refl eq_refl)))).
Qed.

(** ** C100 Guards do not change what matching bound *)

(** Refuted: v0 = 5 is silently replaced by 6, by the guard v0:(+ 6 0). *)
Theorem C100_matched_kept_refuted : exists ops s gs s' x v,
  s x = Some v /\ eval_guards ops 0 s gs = Some s' /\ s' x <> Some v.
Proof.
  destruct overwritten as (s' & H1 & H2).
  exists w_ops, (set no_bindings 0 (VFloat 5)), [Assign 0 (Op 0 [num 6; num 0])], s', 0, (VFloat 5).
  rewrite H2. repeat split; [exact H1|discriminate].
Qed.
Print Assumptions C100_matched_kept_refuted.

(** What is not assigned is not changed, and what is bound stays bound.  Missing:
    the value of a bound variable that a guard assigns. *)
Theorem C100_matched_kept_partial : forall ops first gs s s',
  eval_guards ops first s gs = Some s' ->
  (forall y, ~ In y (targets gs) -> s' y = s y) /\
  (forall y, s y <> None -> s' y <> None).
Proof.
  exact (fun ops first gs s s' E =>
    conj (fun y => guards_elsewhere ops first gs s s' y E) (fun y => guards_stay ops first gs s s' y E)).
Qed.
Print Assumptions C100_matched_kept_partial.
Example C100_example : ~ In 0 (targets w_good) /\ w_start 0 <> None /\
  exists s', eval_guards w_ops 0 w_start w_good = Some s' /\ s' 0 = Some (VFloat 5).
Proof.
  split; [cbn; lia|]. split; [discriminate|]. eexists; split; [vm_compute; reflexivity|reflexivity].
Qed.

(** ** C101 The scan does not reject guards that can be evaluated *)

(** Refuted: v0:(+ 1 2) v0:(+ v1 2) succeeds, the second guard being let through as
    v0 is bound by then; the scan answers no. *)
Theorem C101_scan_keeps_refuted : exists ops s gs, as_written gs /\
  (exists s', eval_guards ops 0 s gs = Some s') /\ scan_answers 0 s gs false.
Proof. exact (ex_intro _ w_ops (ex_intro _ no_bindings (ex_intro _ w_twice twice))). Qed.
Print Assumptions C101_scan_keeps_refuted.

(** Holds if no variable is assigned twice: whenever the guards succeed, the scan
    ends and answers yes.  Missing: variables assigned twice. *)
Theorem C101_scan_keeps_partial : forall ops first gs s s',
  as_written gs -> NoDup (targets gs) -> eval_guards ops first s gs = Some s' ->
  scan_answers first s gs true.
Proof. exact success_scanned. Qed.
Print Assumptions C101_scan_keeps_partial.
Example C101_example : as_written w_good /\ NoDup (targets w_good) /\
  (exists s', eval_guards w_ops 0 w_start w_good = Some s') /\ scan_guards 0 w_start 3 w_good = Some true.
Proof.
  destruct good_runs as (s' & H & _).
  exact (conj good_written (conj (proj1 good_fresh) (conj (ex_intro _ s' H) eq_refl))).
Qed.

(** ** C102 Guards that the scan accepts can be evaluated *)

(** Refuted: a variable may be used before the guard that assigns it; the scan
    accepts it, the evaluation fails, though it succeeds in the other order. *)
Theorem C102_scan_order_refuted : exists ops s gs,
  scan_answers 0 s gs true /\ eval_guards ops 0 s gs = None /\
  exists s', eval_guards ops 0 s (rev gs) = Some s'.
Proof. exact (ex_intro _ w_ops (ex_intro _ _ (ex_intro _ w_late late))). Qed.
Print Assumptions C102_scan_order_refuted.

(** Refuted: a variable that nothing binds is overlooked inside a literal. *)
Theorem C102_scan_literal_refuted : exists s gs,
  scan_answers 0 s gs true /\ forall ops, eval_guards ops 0 s gs = None.
Proof. exact (ex_intro _ no_bindings (ex_intro _ w_literal literal)). Qed.
Print Assumptions C102_scan_literal_refuted.

(** What the scan does establish, exactly: the operands of the guards can be obtained
    from what is given through first assignments, save in the assignments of given
    variables. *)
Theorem C102_scan_exact_partial : forall first s gs r, ranked first s gs r ->
  (scan_answers first s gs true <-> operands_obtainable first s gs) /\
  (scan_answers first s gs false <-> ~ operands_obtainable first s gs).
Proof. exact scan_exact. Qed.
Print Assumptions C102_scan_exact_partial.

(** Guards that the scan accepts can be evaluated if each variable is assigned before
    it is used, the variables in literals and the template arguments are bound, and
    the operators never fail. *)
Theorem C102_scan_evaluates_partial : forall ops first gs s n,
  scan_guards first s n gs = Some true ->
  (forall x, x < first -> s x <> None) ->
  in_order s gs -> literals_bound s gs -> tests_apply_operators gs ->
  definite_assignments ops gs -> never_failing ops ->
  exists s', eval_guards ops first s gs = Some s'.
Proof. exact scanned_success. Qed.
Print Assumptions C102_scan_evaluates_partial.
Example C102_example : ranked 0 w_start w_good (fun x => x) /\
  scan_guards 0 w_start 3 w_good = Some true /\ (forall x, x < 0 -> w_start x <> None) /\
  in_order w_start w_good /\ literals_bound w_start w_good /\ tests_apply_operators w_good /\
  definite_assignments w_total w_good /\ never_failing w_total.
Proof. exact (conj good_ranked total_case). Qed.

(** ** C103 The scan ends *)

(** Refuted: not on v0:(+ v1 1) v1:(+ v0 -1), if neither variable is bound. *)
Theorem C103_scan_ends_refuted : exists s gs, scan_endless 0 s gs.
Proof. exact (ex_intro _ no_bindings (ex_intro _ w_mutual mutual)). Qed.
Print Assumptions C103_scan_ends_refuted.

(** Ends if the variables that are not given can be ranked so that first assignments
    go up.  Missing: cycles of two variables or more. *)
Theorem C103_scan_ends_partial : forall first s gs r, ranked first s gs r ->
  exists b, scan_answers first s gs b.
Proof. exact scan_ends. Qed.
Print Assumptions C103_scan_ends_partial.
Example C103_example : ranked 0 w_start w_good (fun x => x).
Proof. exact good_ranked. Qed.

(** ** C104 When the forward timings are evaluated, they are times *)

(** Refuted: guards that give numbers are accepted. *)
Theorem C104_timings_are_times_refuted : exists ops s gs a b s',
  fwd_timings ops 0 s gs a b = Some s' /\ ~ time_bound s' a /\ ~ time_bound s' b.
Proof. exact (ex_intro _ w_ops (ex_intro _ _ (ex_intro _ w_numbers (ex_intro _ 1 (ex_intro _ 2 numbers))))). Qed.
Print Assumptions C104_timings_are_times_refuted.

(** Holds if the guards that assign them apply operators that make times, if they are
    not template arguments, and if what they are bound to, if anything, is a time. *)
Theorem C104_timings_are_times_partial : forall ops first s gs a b s',
  a <> b -> first <= a -> first <= b ->
  (s a <> None -> time_bound s a) -> (s b <> None -> time_bound s b) ->
  assigned_times ops gs a -> assigned_times ops gs b ->
  fwd_timings ops first s gs a b = Some s' ->
  time_bound s' a /\ time_bound s' b.
Proof. exact fwd_timings_sound. Qed.
Print Assumptions C104_timings_are_times_partial.
Example C104_example : assigned_times w_ops w_good 1 /\ assigned_times w_ops w_good 2 /\
  exists s', fwd_timings w_ops 0 w_start w_good 1 2 = Some s' /\ s' 2 = Some (VTime 6).
Proof. exact (conj (proj1 good_times) (conj (proj2 good_times) (ex_intro _ _ (conj eq_refl eq_refl)))). Qed.

(** ** C105 The forward timings are those that all the backward guards would give *)

(** Refuted: with v3:(+ v0 1) after:(f v0) before:(f v3), all the guards succeed and
    give both times; the evaluation of the forward timings fails. *)
Theorem C105_timings_found_refuted : exists ops s gs a b,
  (exists s', eval_guards ops 0 s gs = Some s' /\ time_bound s' a /\ time_bound s' b) /\
  fwd_timings ops 0 s gs a b = None.
Proof. exact (ex_intro _ w_ops (ex_intro _ _ (ex_intro _ w_chain (ex_intro _ 1 (ex_intro _ 2 chain))))). Qed.
Print Assumptions C105_timings_found_refuted.

(** Holds if the two guards use nothing but bound variables and each other's variable,
    each variable being assigned once and not bound before: then the evaluation of the
    forward timings succeeds with the same values, in whichever order the guards are
    written.  Missing: guards that need further variables. *)
Theorem C105_timings_found_partial : forall ops first s gs a b s',
  as_written gs -> definite_assignments ops gs ->
  NoDup (targets gs) -> (forall x, In x (targets gs) -> ~ given first s x) ->
  In a (targets gs) -> In b (targets gs) -> a <> b ->
  uses_only s gs a b -> uses_only s gs b a ->
  eval_guards ops first s gs = Some s' ->
  exists s'', fwd_timings ops first s gs a b = Some s'' /\ s'' a = s' a /\ s'' b = s' b.
Proof. exact fwd_timings_complete. Qed.
Print Assumptions C105_timings_found_partial.
Example C105_example : as_written w_good /\ definite_assignments w_ops w_good /\
  uses_only w_start w_good 1 2 /\ uses_only w_start w_good 2 1 /\
  exists s', eval_guards w_ops 0 w_start w_good = Some s' /\
    s' 1 = Some (VTime 5) /\ s' 2 = Some (VTime 6) /\ s' 3 = Some (VFloat 6).
Proof. exact (conj good_written (conj good_definite (conj (proj1 good_uses) (conj (proj2 good_uses) good_runs)))). Qed.
