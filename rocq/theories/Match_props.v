(** C13-C16, C46: matching and binding maps. *)
From Verif Require Import Base Float32 Atom_model Utils_model Match_model Match_spec Match_proofs.
Local Open Scope nat_scope.

(** ** C13 Merging time intervals.  The full statement (for all bounds, success
    exactly when some instant belongs to both intervals) is false when the input
    interval is empty, see the refutation; it holds for non-empty intervals. *)
Theorem C13_merge_partial : forall E m a b ai bi sa sb,
  ai <> bi -> is_i64 a -> is_i64 b -> time_of m ai sa -> time_of m bi sb -> (sa < sb)%Z -> (a < b)%Z ->
  exists r m', match_timings E m a b ai bi = Ok (r, m') /\
    (r = true <-> exists t, (sa <= t < sb /\ a <= t < b)%Z) /\
    (r = true -> exists a' b', time_of m' ai a' /\ time_of m' bi b' /\
                 forall t, (a' <= t < b' <-> sa <= t < sb /\ a <= t < b)%Z) /\
    (r = false -> m' = m) /\
    (forall k, k <> ai -> k <> bi -> nth_error (vals m') k = nth_error (vals m) k).
Proof. exact match_timings_nonempty. Qed.
Print Assumptions C13_merge_partial.

(** What happens for all bounds. *)
Theorem C13_merge_all_bounds : forall E m a b ai bi sa sb,
  ai <> bi -> is_i64 a -> is_i64 b -> time_of m ai sa -> time_of m bi sb ->
  exists r m', match_timings E m a b ai bi = Ok (r, m') /\
    (r = true <-> (Z.max sa a < Z.min sb b \/ (sa <= a /\ b <= sb) \/ (a < sa /\ sb <= b))%Z) /\
    (r = true -> time_of m' ai (Z.max sa a) /\ time_of m' bi (Z.min sb b)) /\
    (r = false -> m' = m) /\
    length (vals m') = length (vals m) /\
    (forall k, k <> ai -> k <> bi -> nth_error (vals m') k = nth_error (vals m) k).
Proof. exact match_timings_exact. Qed.
Print Assumptions C13_merge_all_bounds.

Theorem C13_merge_refuted : exists E m a b,
  time_of m 0 0 /\ time_of m 1 10 /\ (b <= a)%Z /\
  exists m', match_timings E m a b 0 1 = Ok (true, m') /\ time_of m' 0 5 /\ time_of m' 1 5.
Proof. exact match_timings_empty. Qed.
Print Assumptions C13_merge_refuted.

(** [1,9) and [4,20) meet in [4,9). *)
Example C13_example : time_of (ex_times 1 9) 0 1 /\ time_of (ex_times 1 9) 1 9 /\
  match_timings ex_env (ex_times 1 9) 4 20 0 1 = Ok (true, ex_times 4 9).
Proof. split; [|split; [|vm_compute; reflexivity]]; eexists; eexists; repeat split. Qed.

(** ** C14 A successful match makes the pattern equal to the object under the
    resulting bindings, and keeps the earlier ones.  Not covered (and false, see
    the refutations): members for which a variable has been bound to an object
    are compared without checking that they are references, a structure bound to
    a variable loses its references, and a member the object leaves open does not
    bind anything.  Patterns with (ti : :) are matched by interval (C13) and
    structures of more than 4096 words overflow inner pointers, hence the
    hypotheses. *)
Theorem C14_match_partial : forall E, heap_no_ti E -> structures_fit E ->
  forall fuel m object pattern m', own m -> map_no_ti E m ->
  match_object E (match_ E fuel) m object pattern = Ok (true, m') ->
  same_object E m' object pattern /\ keeps m m'.
Proof. exact match_object_sound. Qed.
Print Assumptions C14_match_partial.

Theorem C14_object_value_refuted : exists E m r r' m' o p,
  own m /\ heap E r = Some o /\ heap E r' = Some p /\
  match_object E (match_ E 20) m r r' = Ok (true, m') /\
  nth_error (code_of p) 1 = Some (VLPointer 0) /\ value_at m' 0 (ObjV 2) /\ nth_error (code_of o) 1 = Some (Boolean false).
Proof. exact object_value_any_atom. Qed.
Print Assumptions C14_object_value_refuted.

Theorem C14_all_bound_refuted : exists E m r r' m' p,
  own m /\ heap E r' = Some p /\ match_object E (match_ E 20) m r r' = Ok (true, m') /\
  nth_error (code_of p) 3 = Some (VLPointer 1) /\ value_at m' 1 (Unbound 1).
Proof. exact wildcard_leaves_unbound. Qed.
Print Assumptions C14_all_bound_refuted.

(** The object matches the pattern, but no longer does under the bindings obtained. *)
Theorem C14_references_in_structures_refuted : exists E m m' s,
  own m /\ match_object E (match_ E 20) m 5 1 = Ok (true, m') /\ value_at m' 0 (StructV s) /\
  nth_error s 1 = Some (RPointer 1) /\ match_object E (match_ E 20) m' 5 1 = UB.
Proof. exact set_of_references_lost. Qed.
Print Assumptions C14_references_in_structures_refuted.

Example C14_example : heap_no_ti ex_env /\ structures_fit ex_env /\ own ex_map /\ map_no_ti ex_env ex_map /\
  match_object ex_env (match_ ex_env 20) ex_map 0 1 = Ok (true, mkmap [Some (ObjV 2); Some (AtomV (Boolean true))] 0).
Proof.
  split; [exact ex_no_ti|]. split; [exact ex_fit|]. split; [exact ex_own|]. split; [exact ex_map_no_ti|]. vm_compute. reflexivity.
Qed.

(** ** C15 Bound variables never change: over every history of matches of objects.
    Matching facts, or (ti : :) patterns, may narrow bound times (C13), so the
    full statement is false; nothing but times ever changes. *)
Theorem C15_bound_never_changes_partial : forall E fuel l m m',
  heap_no_ti E -> map_no_ti E m -> own m -> Forall object_op l -> run E fuel m l = Ok m' -> keeps m m'.
Proof. exact bound_never_changes. Qed.
Print Assumptions C15_bound_never_changes_partial.

Theorem C15_only_times_change : forall E fuel l m m',
  own m -> run E fuel m l = Ok m' -> keeps_but_times m m' /\ own m'.
Proof. exact only_times_change. Qed.
Print Assumptions C15_only_times_change.

Theorem C15_bound_never_changes_refuted : exists E m l m',
  own m /\ run E 20 m l = Ok m' /\ time_of m 0 1 /\ time_of m' 0 5.
Proof. exact fact_changes_times. Qed.
Print Assumptions C15_bound_never_changes_refuted.

(** A first match binds both variables, a second one, against another object, fails and changes nothing. *)
Example C15_example : Forall object_op [MatchObject 0 1; MatchObject 8 1] /\
  run ex_env 20 ex_map [MatchObject 0 1; MatchObject 8 1] = Ok (mkmap [Some (ObjV 2); Some (AtomV (Boolean true))] 0).
Proof. split; [apply Forall_cons; [exact I|apply Forall_cons; [exact I|apply Forall_nil]]|vm_compute; reflexivity]. Qed.

(** ** C16 Abstraction. *)
(** An atom gets the first variable whose atom equals it, and the map does not
    change; if there is none, it gets a new variable, at the end. *)
Theorem C16_atom : forall E m a, full m ->
  exists k m', get_atom_variable E m a = Ok (VLPointer (Z.of_nat k), m') /\ first_with m' (holds_atom E a) k /\
    ((first_with m (holds_atom E a) k /\ m' = m) \/
     (none_with m (holds_atom E a) /\ k = length (vals m) /\ m' = push m (AtomV a))).
Proof. exact get_atom_ok. Qed.
Print Assumptions C16_atom.

Theorem C16_object : forall m o, full m ->
  exists k m', get_object_variable m o = Ok (VLPointer (Z.of_nat k), m') /\ first_with m' (holds_object o) k /\
    ((first_with m (holds_object o) k /\ m' = m) \/
     (none_with m (holds_object o) /\ k = length (vals m) /\ m' = push m (ObjV o))).
Proof. exact get_object_ok. Qed.
Print Assumptions C16_object.

(** The variable designates its position, for maps of at most 4096 values. *)
Theorem C16_variable_partial : forall k, (Z.of_nat k < 4096)%Z ->
  getDescriptor (VLPointer (Z.of_nat k)) = VL_PTR /\ index (VLPointer (Z.of_nat k)) = k.
Proof. exact variable_index. Qed.
Print Assumptions C16_variable_partial.

(** Whatever is abstracted in between, the same value gets the same variable. *)
Theorem C16_atom_stable : forall E fuel m a w m1 l m2, full m -> get_atom_variable E m a = Ok (w, m1) ->
  abs_run E fuel m1 l = Ok m2 -> get_atom_variable E m2 a = Ok (w, m2).
Proof. exact atom_stable. Qed.
Print Assumptions C16_atom_stable.

Theorem C16_object_stable : forall E fuel m o w m1 l m2, full m -> get_object_variable m o = Ok (w, m1) ->
  abs_run E fuel m1 l = Ok m2 -> get_object_variable m2 o = Ok (w, m2).
Proof. exact object_stable. Qed.
Print Assumptions C16_object_stable.

(** Starting from an empty map, different variables have different values. *)
Theorem C16_variables_distinct : forall E fuel l m, abs_run E fuel empty_map l = Ok m ->
  full m /\
  (forall i j a b, i < j -> value_at m i (AtomV a) -> value_at m j (AtomV b) -> ~ atoms_equal E a b) /\
  (forall i j o, value_at m i (ObjV o) -> value_at m j (ObjV o) -> i = j).
Proof. exact abs_from_empty. Qed.
Print Assumptions C16_variables_distinct.

(** Structures: the search, started inside the map, meets every variable; what it
    recognises is [contains_structure], which is false of structures with inner
    structures (refutation below). *)
Theorem C16_structure_partial : forall E fuel m c i f w m', (0 <= f < Z.of_nat (length (vals m)))%Z ->
  get_structure_variable E fuel m c i f = Ok (w, m') ->
  (exists k v, w = VLPointer (Z.of_nat k) /\ m' = m /\ value_at m k v /\ contains_structure E v (skipn i c) = Ok true) \/
  (exists s, (forall k, k < length (vals m) -> exists v, value_at m k v /\ contains_structure E v (skipn i c) = Ok false) /\
     structure_value fuel c i = Ok s /\ w = VLPointer (Z.of_nat (length (vals m))) /\ m' = push m (StructV s)).
Proof. exact get_structure_ok. Qed.
Print Assumptions C16_structure_partial.

Theorem C16_nested_structure_refuted : exists E c i m1 m2 w1 w2,
  get_structure_variable E 20 empty_map c i 0 = Ok (w1, m1) /\ get_structure_variable E 20 m1 c i 0 = Ok (w2, m2) /\
  index w1 <> index w2 /\ value_at m2 (index w1) (StructV [ASet 1; IPointer 2; ASet 1; Boolean true]) /\
  value_at m2 (index w2) (StructV [ASet 1; IPointer 2; ASet 1; Boolean true]).
Proof. exact nested_not_found. Qed.
Print Assumptions C16_nested_structure_refuted.

Theorem C16_search_start_refuted : exists E m c i f,
  full m /\ (f = Z.of_nat (length (vals m)))%Z /\ get_structure_variable E 20 m c i f = UB.
Proof. exact search_start_out_of_bounds. Qed.
Print Assumptions C16_search_start_refuted.

Theorem C16_output_argument_refuted : exists E c i m1 m2 w1 w2,
  get_structure_variable E 20 empty_map c i (-1) = Ok (w1, m1) /\ get_structure_variable E 20 m1 c i (-1) = Ok (w2, m2) /\
  index w1 <> index w2 /\ value_at m2 (index w1) (StructV c) /\ value_at m2 (index w2) (StructV c).
Proof. exact no_search_duplicates. Qed.
Print Assumptions C16_output_argument_refuted.

(** The 4097th object gets the variable of the first one. *)
Theorem C16_many_variables_refuted : exists E l m w m',
  abs_run E 20 empty_map l = Ok m /\ get_object_variable m 4096 = Ok (w, m') /\ value_at m' (index w) (ObjV 0).
Proof. exact many_variables_wrap. Qed.
Print Assumptions C16_many_variables_refuted.

Example C16_example :
  abs_run ex_env 20 empty_map [AbsAtom (Boolean true); AbsObject 2; AbsStructure [ASet 1; Boolean false] 0 0; AbsObject 3; AbsObject 2; AbsAtom (Boolean true); AbsStructure [ASet 1; Boolean false] 0 3] =
  Ok (mkmap [Some (AtomV (Boolean true)); Some (ObjV 2); Some (StructV [ASet 1; Boolean false]); Some (ObjV 3)] 0).
Proof. vm_compute. reflexivity. Qed.

(** ** C46 A map is reported as fully specified exactly when every variable has a
    value, in every state reached by adding variables, matching and abstracting;
    a copy has the same values. *)
Theorem C46_fully_specified : forall m, counted m ->
  (is_fully_specified m = true <-> forall k id, ~ value_at m k (Unbound id)).
Proof. exact fully_specified_iff. Qed.
Print Assumptions C46_fully_specified.

Theorem C46_counted_matching : forall E fuel l m m',
  small m -> counted m -> run E fuel m l = Ok m' -> counted m' /\ small m'.
Proof. exact run_counted. Qed.
Print Assumptions C46_counted_matching.

Theorem C46_counted_new_variable : forall m id m',
  (Z.of_nat id < 2 ^ 32 - 1)%Z -> small m -> counted m -> add_unbound_value m id = Ok m' -> counted m' /\ small m'.
Proof. exact add_unbound_counted. Qed.
Print Assumptions C46_counted_new_variable.

Theorem C46_counted_abstraction : forall E fuel l m m', full m -> counted m -> abs_run E fuel m l = Ok m' -> counted m'.
Proof. exact abs_run_counted. Qed.
Print Assumptions C46_counted_abstraction.

Theorem C46_copy_partial : forall m, (Z.of_nat (length (vals m)) < 256)%Z -> exists m', assign m = Some m' /\ m' = m.
Proof. exact copy_exact. Qed.
Print Assumptions C46_copy_partial.

(** Copying a map of 256 values does not return. *)
Theorem C46_copy_refuted : exists m, full m /\ counted m /\ assign m = None.
Proof. exact copy_endless. Qed.
Print Assumptions C46_copy_refuted.

Example C46_example : counted ex_map /\ small ex_map /\ is_fully_specified ex_map = false /\
  exists m', run ex_env 20 ex_map [MatchObject 0 1] = Ok m' /\ is_fully_specified m' = true.
Proof. split; [reflexivity|]. split; [reflexivity|]. split; [reflexivity|]. eexists. split; [vm_compute; reflexivity|reflexivity]. Qed.
