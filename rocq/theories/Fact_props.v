(** C17-C19, C47: facts, matching of facts, evidence. *)
From Verif Require Import Base Float32 Atom_model Atom_spec Utils_model Match_model Match_spec Match_proofs Fact_model Fact_spec Fact_proofs.
Local Open Scope nat_scope.

(** ** C17 Matching of structured values.  The full statement (strings match only
    if equal, durations only if they differ by less than the time tolerance) is
    false, see the two refutations: payload words are compared as if they were
    floating point atoms. *)
Theorem C17_durations_refuted : exists E l r d d',
  short_duration_at l 0 d /\ short_duration_at r 0 d' /\ (ttol E < Z.abs (d - d'))%Z /\
  MatchStructure E (Match E 10 false) l 0 0 r 0 = Ok true.
Proof. exact durations_confused. Qed.
Print Assumptions C17_durations_refuted.
Theorem C17_strings_refuted : exists E s s' c c',
  s <> s' /\ SetString [IPointer 1] 0 s = Some c /\ SetString [IPointer 1] 0 s' = Some c' /\
  MatchStructure E (Match E 10 false) (mkcobj c []) 1 0 (mkcobj c' []) 1 = Ok true.
Proof. exact strings_confused. Qed.
Print Assumptions C17_strings_refuted.

(** What holds: timestamps match exactly when they differ by less than the time
    tolerance. *)
Theorem C17_timestamps_partial : forall E fuel same l i r j t t' b,
  nth_error (code_of l) i = Some ATimestamp -> nth_error (code_of r) j = Some ATimestamp ->
  GetInt64 (code_of l) (i + 1) = Some t -> GetInt64 (code_of r) (j + 1) = Some t' ->
  MatchStructure E (Match E fuel same) l i 0 r j = Ok b -> (b = true <-> (Z.abs (t - t') < ttol E)%Z).
Proof. exact timestamps_match. Qed.
Print Assumptions C17_timestamps_partial.
Example C17_timestamps_example :
  MatchStructure ex_facts (Match ex_facts 3 false) (mkcobj [ATimestamp; 0; 5000]%Z []) 0 0 (mkcobj [ATimestamp; 0; 14999]%Z []) 0 = Ok true /\
  MatchStructure ex_facts (Match ex_facts 3 false) (mkcobj [ATimestamp; 0; 5000]%Z []) 0 0 (mkcobj [ATimestamp; 0; 15000]%Z []) 0 = Ok false.
Proof. split; vm_compute; reflexivity. Qed.

(** Strings of different lengths never match. *)
Theorem C17_string_lengths_partial : forall E fuel same l i r j n m b,
  (0 <= n < 256)%Z -> (0 <= m < 256)%Z -> n <> m ->
  nth_error (code_of l) i = Some (AString n) -> nth_error (code_of r) j = Some (AString m) ->
  MatchStructure E (Match E fuel same) l i 0 r j = Ok b -> b = false.
Proof.
  exact (fun E fuel same l i r j n m b Hn Hm N A B =>
           heads_differ E fuel same l i r j _ _ b A B (fun Q => N (string_heads n m Hn Hm Q))).
Qed.
Print Assumptions C17_string_lengths_partial.
Example C17_string_lengths_example :
  MatchStructure ex_facts (Match ex_facts 3 false) (mkcobj [AString 1; 97]%Z []) 0 0 (mkcobj [AString 2; 24929]%Z []) 0 = Ok false.
Proof. vm_compute. reflexivity. Qed.

(** Durations below 2^31 us match exactly when they are equal or when the floats
    with the same bits are. *)
Theorem C17_short_durations_partial : forall E f same l i r j d d',
  short_duration_at l i d -> short_duration_at r j d' ->
  exists b, MatchStructure E (Match E (S (S f)) same) l i 0 r j = Ok b /\
  (b = true <-> d = d' \/ (isFloat d = true /\ isFloat d' = true /\ close E (f32_of_bits (asFloat d)) (f32_of_bits (asFloat d')))).
Proof. exact short_durations_agree. Qed.
Print Assumptions C17_short_durations_partial.
Example C17_short_durations_example :
  short_duration_at (mkcobj [ADuration; 0; 1000000]%Z []) 0 1000000 /\ short_duration_at (mkcobj [ADuration; 0; 1065353216]%Z []) 0 1065353216 /\
  MatchStructure ex_facts (Match ex_facts 3 false) (mkcobj [ADuration; 0; 1000000]%Z []) 0 0 (mkcobj [ADuration; 0; 1065353216]%Z []) 0 = Ok false.
Proof. split; [split; [lia|repeat split]|]. split; [split; [lia|repeat split]|]. vm_compute. reflexivity. Qed.

(** Matching of objects decides agreement up to wildcards, variables and
    tolerances, whatever the objects and the sharing between them. *)
Theorem C17_match_decides_agreement : forall E same fuel x y b,
  MatchObject E (Match E fuel same) x y = Ok b -> (b = true <-> agree_object E same x y).
Proof. exact match_object_decides. Qed.
Print Assumptions C17_match_decides_agreement.
Example C17_match_example : MatchObject ex_facts (Match ex_facts 20 false) 4 4 = Ok true /\
  MatchObject ex_facts (Match ex_facts 20 false) 4 5 = Ok false.
Proof. split; vm_compute; reflexivity. Qed.

(** ** C18 Temporal relations.  [timings_overlap after before e_after e_before]
    and so on are the comparisons made by the three functions. *)
Theorem C18_overlap_symmetric : forall a b a' b', timings_overlap a b a' b' = timings_overlap a' b' a b.
Proof. exact overlap_sym. Qed.
Print Assumptions C18_overlap_symmetric.
Example C18_overlap_symmetric_case : timings_overlap 0 10 5 20 = true.
Proof. reflexivity. Qed.
(** Overlap is non-empty intersection, for non-empty intervals ... *)
Theorem C18_overlap_partial : forall a b a' b', (a < b)%Z -> (a' < b')%Z ->
  (timings_overlap a b a' b' = true <-> exists t, (a <= t < b /\ a' <= t < b')%Z).
Proof. exact overlap_intersect. Qed.
Print Assumptions C18_overlap_partial.
Example C18_overlap_case : timings_overlap 0 10 10 20 = false /\ timings_overlap 0 10 9 20 = true.
Proof. split; reflexivity. Qed.
(** ... but not for an instantaneous fact. *)
Theorem C18_overlap_refuted :
  exists a b a' b', timings_overlap a b a' b' = true /\ ~ exists t, (a <= t < b /\ a' <= t < b')%Z.
Proof. exact overlap_empty. Qed.
Print Assumptions C18_overlap_refuted.
Theorem C18_inclusion_is_subset : forall a b a' b', (a < b)%Z ->
  (timings_inclusive a b a' b' = true <-> forall t, (a <= t < b -> a' <= t < b')%Z).
Proof. exact inclusive_subset. Qed.
Print Assumptions C18_inclusion_is_subset.
Theorem C18_inclusion_order :
  (forall a b, timings_inclusive a b a b = true) /\
  (forall a b a' b', timings_inclusive a b a' b' = true -> timings_inclusive a' b' a b = true -> a = a' /\ b = b') /\
  (forall a b a' b' a'' b'', timings_inclusive a b a' b' = true -> timings_inclusive a' b' a'' b'' = true ->
     timings_inclusive a b a'' b'' = true) /\
  (forall a b a' b', (a < b)%Z -> timings_inclusive a b a' b' = true -> timings_overlap a b a' b' = true).
Proof. exact inclusive_order. Qed.
Print Assumptions C18_inclusion_order.
Example C18_inclusion_case : timings_inclusive 3 5 1 9 = true /\ timings_inclusive 1 9 3 5 = false.
Proof. split; reflexivity. Qed.
(** Equal bounds are synchronous, for non-empty intervals ... *)
Theorem C18_sync_partial : forall E a b, (0 <= ttol E)%Z -> (a < b)%Z -> timings_sync E a a b = true.
Proof. exact sync_equal. Qed.
Print Assumptions C18_sync_partial.
Example C18_sync_case : timings_sync ex_facts 7 7 8 = true.
Proof. vm_compute. reflexivity. Qed.
(** ... but an instantaneous fact is not synchronous with itself. *)
Theorem C18_sync_refuted : exists E a, (0 <= ttol E)%Z /\ timings_sync E a a a = false.
Proof. exact sync_instant. Qed.
Print Assumptions C18_sync_refuted.
(** The functions apply these comparisons to the bounds of the two facts. *)
Theorem C18_functions_read_bounds : forall E F f t fo to p q x y fa fb ta tb,
  fact_of E F f fo p x fa fb -> fact_of E F t to q y ta tb ->
  match_timings_overlap to fo = Ok (timings_overlap ta tb fa fb) /\
  match_timings_inclusive to fo = Ok (timings_inclusive ta tb fa fb) /\
  match_timings_sync E to fo = Ok (timings_sync E ta fa fb).
Proof. exact timings_read. Qed.
Print Assumptions C18_functions_read_bounds.
Example C18_functions_case : exists o o', new_fact 20 7 0 10 fl_1 fl_1 = Ok o /\ new_fact 21 7 9 20 fl_1 fl_1 = Ok o' /\
  match_timings_overlap o o' = Ok true /\ match_timings_inclusive o o' = Ok false.
Proof. do 2 eexists. repeat split; vm_compute; reflexivity. Qed.

(** ** C19 Evidence.  [contradicts x y]: the same attribute of the same object has
    different values. *)
Theorem C19_evidence : forall E F components, distinct_ops E F -> components_are_facts E F components ->
  forall fuel f t fo to fp tp x y fa fb ta tb r,
  fact_of E F f fo fp x fa fb -> fact_of E F t to tp y ta tb -> is_evidence E F components fuel f t = Ok r ->
  (r = Positive <->
    (agree_object E false x y /\ (fa < tb /\ ta < fb)%Z /\ fp = tp) \/
    (~ agree_object E false x y /\ (fa <= ta /\ tb <= fb)%Z /\ fp = true /\ tp = false /\ contradicts E F x y)) /\
  (r = Negative <->
    (agree_object E false x y /\ (fa < tb /\ ta < fb)%Z /\ fp <> tp) \/
    (~ agree_object E false x y /\ (fa <= ta /\ tb <= fb)%Z /\ fp = true /\ tp = true /\ contradicts E F x y)).
Proof. exact evidence_polarity. Qed.
Print Assumptions C19_evidence.
Theorem C19_evidence_swap : forall E F components, distinct_ops E F ->
  forall fuel f t t' fo to to' fp tp x y fa fb ta tb r,
  fact_of E F f fo fp x fa fb -> fact_of E F t to tp y ta tb -> fact_of E F t' to' (negb tp) y ta tb ->
  is_evidence E F components fuel f t = Ok r -> is_evidence E F components fuel f t' = Ok (opposite r).
Proof. exact evidence_swap. Qed.
Print Assumptions C19_evidence_swap.
(** 4 and 5 give different values, 6 denies the first. *)
Example C19_evidence_case : distinct_ops ex_facts ex_fops /\ components_are_facts ex_facts ex_fops no_components /\
  is_evidence ex_facts ex_fops no_components 20 4 4 = Ok Positive /\
  is_evidence ex_facts ex_fops no_components 20 4 6 = Ok Negative /\
  is_evidence ex_facts ex_fops no_components 20 5 4 = Ok Negative /\
  is_evidence ex_facts ex_fops no_components 20 5 6 = Ok Positive.
Proof. split; [exact ex_distinct|]. split; [exact ex_components|]. repeat split; vm_compute; reflexivity. Qed.

(** The variant that ignores times agrees on matching objects and never invents a
    contradiction ... *)
Theorem C19_timeless_partial : forall E F components, distinct_ops E F -> components_are_facts E F components ->
  forall fuel f t fo to fp tp x y fa fb ta tb r,
  fact_of E F f fo fp x fa fb -> fact_of E F t to tp y ta tb -> is_timeless_evidence E F components fuel f t = Ok r ->
  (agree_object E false x y -> r = if Bool.eqb tp fp then Positive else Negative) /\
  (~ agree_object E false x y -> r <> Failure -> tp = fp /\ contradicts E F x y).
Proof. exact timeless_polarity. Qed.
Print Assumptions C19_timeless_partial.
(** ... but swapping the target's polarity does not swap its answer, *)
Theorem C19_timeless_swap_refuted : exists E F comps f t t' fo to to' x y,
  distinct_ops E F /\ components_are_facts E F comps /\
  fact_of E F f fo true x 0 100 /\ fact_of E F t to true y 0 100 /\ fact_of E F t' to' false y 0 100 /\
  is_timeless_evidence E F comps 20 f t = Ok Negative /\ is_timeless_evidence E F comps 20 f t' = Ok Failure.
Proof. exact timeless_no_swap. Qed.
Print Assumptions C19_timeless_swap_refuted.
(** and denying one value is taken as positive evidence for denying another. *)
Theorem C19_timeless_denial_refuted : exists E F comps f t fo to x y,
  distinct_ops E F /\ components_are_facts E F comps /\
  fact_of E F f fo false x 0 100 /\ fact_of E F t to false y 0 100 /\ contradicts E F x y /\
  is_timeless_evidence E F comps 20 f t = Ok Positive /\ is_evidence E F comps 20 f t = Ok Failure.
Proof. exact timeless_anti. Qed.
Print Assumptions C19_timeless_denial_refuted.

(** ** C47 Facts are built as asked.  [reads o pos object after before]: what the
    accessors read from [o]. *)
Theorem C47_new_fact : forall F (pos : bool) object after before cfd psln, is_i64 after -> is_i64 before ->
  exists o, new_fact (if pos then op_fact F else op_antifact F) object after before cfd psln = Ok o /\ reads F o pos object after before /\
    nth_error (code_of o) 4 = Some cfd /\ nth_error (code_of o) 5 = Some psln.
Proof. exact new_fact_ok. Qed.
Print Assumptions C47_new_fact.
Theorem C47_absentee : forall E F, distinct_ops E F -> forall one o pos object after before,
  reads F o pos object after before -> is_i64 after -> is_i64 before ->
  exists o', get_absentee F one o = Ok o' /\ reads F o' (negb pos) object after before.
Proof. exact absentee_ok. Qed.
Print Assumptions C47_absentee.
Theorem C47_opposite : forall E F, distinct_ops E F -> forall o pos object after before,
  reads F o pos object after before ->
  exists o', set_opposite F o = Ok o' /\ reads F o' (negb pos) object after before /\ refs_of o' = refs_of o /\
    length (code_of o') = length (code_of o) /\ forall k, k <> 0 -> nth_error (code_of o') k = nth_error (code_of o) k.
Proof. exact opposite_ok. Qed.
Print Assumptions C47_opposite.
Example C47_case : exists o o', new_fact 20 7 (-3) (2 ^ 40) fl_1 fl_1 = Ok o /\ reads ex_fops o true 7 (-3) (2 ^ 40) /\
  get_absentee ex_fops fl_1 o = Ok o' /\ reads ex_fops o' false 7 (-3) (2 ^ 40).
Proof. do 2 eexists. split; [vm_compute; reflexivity|]. split; [repeat split|]. split; [vm_compute; reflexivity|]. repeat split. Qed.
