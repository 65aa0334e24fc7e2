(** Properties of the auto-focus. *)
From Verif Require Import Base Utils_model Af_model Af_spec Af_proofs Af2_proofs Af3_proofs Af4_proofs Af5_proofs.
Local Open Scope nat_scope.

(** ** C140 An input that concerns a target is injected once, any other one not *)

(** Full statement: every fact that comes while it shares a value with the target of an open
    goal or prediction is injected in the output groups exactly once, and no other one is.
    Refuted: an input put aside for a target with variables is injected for another
    target, and once more when the first target gets a value. *)
Theorem C140_once_refuted : exists (B : Type) intersect full matches achieved cfg (es : list (Z * @event B)) (v : @view B),
  pass_through cfg = false /\ length (List.filter (fun u => v_id u =? v_id v) (incoming es)) = 1 /\
  2 <= length (List.filter (fun u => v_id u =? v_id v) (injects (snd (run intersect full matches achieved cfg es empty_focus)))).
Proof. exact twice_refuted. Qed.
Print Assumptions C140_once_refuted.
(** Proved without targets that have variables. *)
Theorem C140_once_partial : forall (B : Type) intersect full matches achieved cfg (es : list (Z * @event B)),
  pass_through cfg = false -> all_full full es ->
  injects (snd (run intersect full matches achieved cfg es empty_focus)) = concerning intersect es [].
Proof. intros B i f m a c es P F. exact (filtered_open i f m a c P es F). Qed.
Print Assumptions C140_once_partial.
(** With them: at least once. *)
Theorem C140_least_partial : forall (B : Type) intersect full matches achieved cfg (es : list (Z * @event B)) now v,
  pass_through cfg = false -> existsb (fun o => intersect (values o) (v_map v)) (open_after es) = true ->
  In (Inject v) (snd (reduce intersect full matches achieved cfg now (Other v) (fst (run intersect full matches achieved cfg es empty_focus)))).
Proof. intros B i f m a c es now v P. exact (concerned_injected i f m a c P es now v). Qed.
Print Assumptions C140_least_partial.
(** When everything passes through: each once, in order. *)
Theorem C140_through_partial : forall (B : Type) intersect full matches achieved cfg (es : list (Z * @event B)) s,
  pass_through cfg = true -> injects (snd (run intersect full matches achieved cfg es s)) = incoming es.
Proof. intros B i f m a c es s P. exact (through i f m a c P es s). Qed.
Print Assumptions C140_through_partial.
(** An input that gives the variables of a target values: those put aside for it, that share a
    value, are injected and marked, and the values are remembered. *)
Theorem C140_aside_partial : forall (B : Type) intersect full matches cfg now id t (v : @view B) c x a m,
  intersect (t_map t) (v_map v) = false -> full (t_map t) = false -> existsb (fun m => intersect m (v_map v)) (t_maps t) = false ->
  matches id (t_map t) v = Some m ->
  exists t', filter intersect full matches cfg now false id t v (c, x, a) =
    (true, t', (map (marked intersect m) (left_in (old_cached cfg) now c), x ++ due intersect m (left_in (old_cached cfg) now c),
                a ++ map (@Inject B) (due intersect m (left_in (old_cached cfg) now c)))) /\
    t_maps t' = t_maps t ++ [m] /\ due intersect m (map (marked intersect m) (left_in (old_cached cfg) now c)) = [].
Proof.
  intros B intersect full matches cfg now id t v c x a m H1 H2 H3 H4.
  destruct (filter_matched intersect full matches cfg now id t v c x a m H1 H2 H3 H4) as (t' & c' & E1 & E2 & ->).
  exists t'. split; [exact E1|]. split; [exact E2|]. apply due_marked.
Qed.
Print Assumptions C140_aside_partial.
(** One that does not match is put aside, once. *)
Theorem C140_missed_partial : forall (B : Type) intersect full matches cfg now id t (v : @view B) c x a,
  intersect (t_map t) (v_map v) = false -> full (t_map t) = false -> existsb (fun m => intersect m (v_map v)) (t_maps t) = false ->
  matches id (t_map t) v = None -> NoDup (ids c) ->
  exists c' a', filter intersect full matches cfg now false id t v (c, x, a) = (false, t, (c', x, a')) /\ NoDup (ids c') /\ In (v_id v) (ids c').
Proof. exact @filter_missed. Qed.
Print Assumptions C140_missed_partial.
(** The extractor of a goal keeps exactly the inputs that concern it. *)
Theorem C140_kept_partial : forall (B : Type) intersect full matches cfg now icst id t (v : @view B) sh b t' sh',
  take_input intersect full matches cfg now icst id t v sh = (b, t', sh') ->
  t_inputs t' = t_inputs t ++ (if b then match t_kind t with OnGoal => [v] | _ => [] end else []).
Proof. exact @take_kept. Qed.
Print Assumptions C140_kept_partial.
(** Instances of composite states are kept with the inputs that were injected. *)
Theorem C140_instance_partial : forall (B : Type) intersect full matches cfg achieved now (v : @view B) s,
  pass_through cfg = false -> In v (cross (fst (reduce intersect full matches achieved cfg now (Instance v) s))).
Proof. exact @instance_crossed. Qed.
Print Assumptions C140_instance_partial.
Definition e_events : list (Z * @event w_map) :=
  [(0%Z, Reduction true (Goal 2) ([2], true) false false); (1%Z, Other w_v); (2%Z, Other w_u); (3%Z, Outcome true true 2 w_v); (4%Z, Other w_v)].
Example C140_example : all_full w_full e_events /\
  injects (snd (run w_intersect w_full w_matches (fun _ _ => false) w_cfg e_events empty_focus)) = [w_v] /\
  incoming e_events = [w_v; w_u; w_v] /\ existsb (fun o => w_intersect (values o) (v_map w_v)) (open_after [(0%Z, Reduction true (Goal 2) ([2], true) false false)]) = true.
Proof.
  split; [|vm_compute; auto]. intros n m w st p I0. repeat (destruct I0 as [E|I0]; [injection E; intros; subst; try discriminate; reflexivity|]). destruct I0.
Qed.

Example C140_example_aside :
  let t := mktpx OnGoal ([1], false) false [] [] in
  let c := [mkcached (mkview 7 90%Z ([2], true)) 90%Z false; mkcached (mkview 8 90%Z ([5], true)) 90%Z false] in
  let v := mkview 9 95%Z ([2], true) in
  let f m := filter w_intersect w_full m w_cfg 100 false 1 t v (c, [], []) in
  fst (fst (f (fun _ _ _ => Some ([2], true)))) = true /\ map c_done (fst (fst (snd (f (fun _ _ _ => Some ([2], true)))))) = [true; false] /\
  ids (fst (fst (snd (f (fun _ _ _ => None))))) = [7; 8; 9].
Proof. vm_compute. auto. Qed.

(** ** C141 Extraction starts exactly at the outcome of an open target *)

Theorem C141_start : forall (B : Type) intersect full matches achieved cfg (es : list (Z * @event B)) now e t v,
  In (Start t v) (snd (reduce intersect full matches achieved cfg now e (fst (run intersect full matches achieved cfg es empty_focus)))) <->
  exists sc g, e = Outcome sc g t v /\ (if g then gtpx_on cfg = true /\ sc = true else ptpx_on cfg = true /\ sc = false) /\
    exists o, In o (open_after es) /\ is_goal o = g /\ target o = t /\ weak o = false.
Proof. intros B i f m a c. exact (starts i f m a c). Qed.
Print Assumptions C141_start.
(** After its outcome nothing more is done for a target. *)
Theorem C141_closed : forall (B : Type) intersect full matches achieved cfg goal (es1 : list (Z * @event B)) n sc g t v es2,
  typed goal (es1 ++ [(n, Outcome sc g t v)]) -> ~ reopened t es2 ->
  forall z, In z (snd (run intersect full matches achieved cfg es2 (fst (run intersect full matches achieved cfg (es1 ++ [(n, Outcome sc g t v)]) empty_focus)))) -> ~ about t z.
Proof. intros B i f m a c. exact (closed i f m a c). Qed.
Print Assumptions C141_closed.
Definition e_open : list (Z * @event w_map) := [(0%Z, Reduction true (Goal 2) ([2], true) false false); (1%Z, Reduction true (Prediction 3) ([3], true) false false)].
Example C141_example : typed (fun t => t =? 2) (e_open ++ [(5%Z, Outcome true true 2 w_v)]) /\ ~ reopened 2 [(6%Z, Other w_v); (7%Z, Outcome false true 2 w_v)] /\
  snd (run w_intersect w_full w_matches (fun _ _ => false) w_cfg (e_open ++ [(5%Z, Outcome true true 2 w_v); (6%Z, Outcome false false 3 w_u)]) empty_focus) = [Start 2 w_v; Start 3 w_u].
Proof.
  split; [|split; [|reflexivity]].
  - split; [|split].
    + intros n t m w st I0. cbn in I0. repeat (destruct I0 as [E|I0]; [try discriminate; injection E; intros; subst; reflexivity|]). destruct I0.
    + intros n t m w st I0. cbn in I0. repeat (destruct I0 as [E|I0]; [try discriminate; injection E; intros; subst; reflexivity|]). destruct I0.
    + intros n s g t v I0. cbn in I0. repeat (destruct I0 as [E|I0]; [try discriminate; injection E; intros; subst; reflexivity|]). destruct I0.
  - intros (n & m & w & st & p & I0 & _). cbn in I0. repeat (destruct I0 as [E|I0]; [discriminate|]). destruct I0.
Qed.

(** ** C142 What is switched off learns nothing *)

(** Full statement: with the extraction from goals switched off, nothing is learned from
    goals; with that from predictions switched off, nothing from predictions.  Refuted: the
    success of a prediction makes the extractors of the goals build a model although they
    are off. *)
Theorem C142_off_refuted : exists (B : Type) intersect full matches achieved cfg (es : list (Z * @event B)) t,
  gtpx_on cfg = false /\ (forall o, In o (open_after es) -> is_goal o = true -> target o = t) /\
  In (Learn t) (snd (run intersect full matches achieved cfg es empty_focus)).
Proof. exact switch_refuted. Qed.
Print Assumptions C142_off_refuted.
(** Proved when both are off; for one alone, C141 says that no extractor starts. *)
Theorem C142_off_partial : forall (B : Type) intersect full matches achieved cfg (es : list (Z * @event B)) z,
  gtpx_on cfg = false -> ptpx_on cfg = false -> In z (snd (run intersect full matches achieved cfg es empty_focus)) -> ~ learns z.
Proof. intros B i f m a c es z G P. exact (both_off i f m a c G P es z). Qed.
Print Assumptions C142_off_partial.
Example C142_example :
  snd (run w_intersect w_full w_matches (fun _ _ => true) (mkconfig true false false 1000 1000) (e_open ++ [(5%Z, Other w_v); (6%Z, Outcome true false 3 w_u)]) empty_focus) = [Inject w_v] /\
  snd (run w_intersect w_full w_matches (fun _ _ => true) (mkconfig true true true 1000 1000) (e_open ++ [(5%Z, Other w_v); (6%Z, Outcome true false 3 w_u)]) empty_focus) = [Inject w_v; Learn 2].
Proof. split; reflexivity. Qed.

(** ** C143 Inputs that do not match a state with variables go to its controller *)

(** Full statement: when the target is an instance of a composite state and has variables,
    an input that does not match is given to the controller of the state.  Refuted. *)
Theorem C143_hook_refuted : exists (B : Type) intersect full matches achieved cfg (es : list (Z * @event B)) n t v m,
  pass_through cfg = false /\ es = [(n, Reduction true (Goal t) m false true); (n, Other v)] /\ full m = false /\
  intersect m (v_map v) = false /\ matches t m v = None /\
  ~ In (Hook t v) (snd (run intersect full matches achieved cfg es empty_focus)).
Proof. exact hook_refuted. Qed.
Print Assumptions C143_hook_refuted.
(** No input is ever given to such a controller: the test is the wrong way round. *)
Theorem C143_never_partial : forall (B : Type) intersect full matches achieved cfg (es : list (Z * @event B)) z,
  In z (snd (run intersect full matches achieved cfg es empty_focus)) -> forall t v, z <> Hook t v.
Proof. intros B i f m a c. exact (never_hooked i f m a c). Qed.
Print Assumptions C143_never_partial.
Example C143_example :
  snd (run w_intersect w_full w_matches (fun _ _ => false) w_cfg [(0%Z, Reduction true (Goal 1) ([1], false) false true); (1%Z, Other w_v)] empty_focus) = [Take 1 w_v].
Proof. reflexivity. Qed.

(** ** C144 A buffer gives what is not too old *)

(** Full statement: reading a time-limited buffer gives exactly what was pushed and is not
    older than its horizon.  Refuted: the first element is given whatever its age. *)
Theorem C144_read_refuted : exists (A : Type) (old : Z -> A -> bool) l now x, In x (snd (read_all old now l)) /\ old now x = true.
Proof. exact buffer_refuted. Qed.
Print Assumptions C144_read_refuted.
(** Proved for all but the first element; the others that are too old are removed. *)
Theorem C144_read_partial : forall (A : Type) (old : Z -> A -> bool) now x l,
  snd (read_all old now (x :: l)) = x :: recent old now l /\ fst (read_all old now (x :: l)) = x :: recent old now l.
Proof. intros A old now x l. rewrite read_spec. split; reflexivity. Qed.
Print Assumptions C144_read_partial.
(** What was pushed first stays for ever. *)
Theorem C144_first_partial : forall (A : Type) (old : Z -> A -> bool) now x us,
  In x (snd (read_all old now (fold_left (used old) (Push x :: us) []))).
Proof. intros A old. exact (first_stays old). Qed.
Print Assumptions C144_first_partial.
(** What is looked for is found behind the first element only if it is not too old. *)
Theorem C144_find_partial : forall (A : Type) (old : Z -> A -> bool) is now y l k f, find_first old is now (y :: l) = (k, f) ->
  match f with
  | Some (x, r) =>
      (is y = true /\ x = y /\ r = l /\ k = []) \/
      (is y = false /\ exists pre, l = pre ++ x :: r /\ k = y :: recent old now pre /\ (forall z, In z (recent old now pre) -> is z = false) /\
         is x = true /\ old now x = false)
  | None => is y = false /\ k = y :: recent old now l /\ forall z, In z (recent old now l) -> is z = false
  end.
Proof. exact @find_first_ok. Qed.
Print Assumptions C144_find_partial.
Example C144_example : snd (read_all (fun now x => too_late 10 now x) 100 [0; 95; 20; 90; 89]%Z) = [0; 95; 90]%Z.
Proof. reflexivity. Qed.

(** ** C145 An input is injected once in every output group *)

(** Full statement: every input is injected once in each output group, there with its
    salience, its payload and polarity, with a resilience for the periods of the group.
    Refuted for axioms that are injected again. *)
Theorem C145_group_refuted : exists morph base ref tol now c origin v g gs, inject_input morph base ref tol now c origin v (g :: gs) = None.
Proof. exact group_refuted. Qed.
Print Assumptions C145_group_refuted.
(** Proved for all other modes; only the first view has a controller of changes. *)
Theorem C145_group_partial : forall morph base ref tol now c origin v g gs, i_sync v <> GrantedOnce ->
  exists l, inject_input morph base ref tol now c origin v (g :: gs) = Some l /\ Forall2 (right_view morph origin v) (g :: gs) l /\
    map snd l = watched c v :: map (fun _ => false) gs.
Proof. exact injected_right. Qed.
Print Assumptions C145_group_partial.
(** Reports of performance: in each group from the one given on. *)
Theorem C145_report_partial : forall morph origin v gs start,
  length (inject_from morph origin v gs start) = length gs - start /\
  forall k g, nth_error gs (start + k) = Some g -> exists x, nth_error (inject_from morph origin v gs start) k = Some x /\
    i_host x = g_id g /\ i_fact x = i_fact v /\ i_sync x = i_sync v /\ i_sln x = i_sln v /\ i_res x = morph (i_res v) (g_upr origin) (g_upr g).
Proof. exact inject_from_ok. Qed.
Print Assumptions C145_report_partial.
Example C145_example : match inject_input (fun r _ _ => r) 100 0 5 150 true (mkogroup 4 1) (w_view Periodic) w_groups with
  | Some l => map (fun x => i_host (fst x)) l = [20; 21] /\ map snd l = [true; false]
  | None => False
  end.
Proof. vm_compute. split; reflexivity. Qed.

(** ** C146 The copy of an input holds when it should *)

(** Full statement: what is injected has the confidence of the input and the times: those of
    the input if it is injected once, the period of the first group that holds the present
    if it is periodic or granted, what is left of a period if it holds on.  Refuted: the
    confidence of copies is 1; what holds on may end before it begins. *)
Theorem C146_confidence_refuted : exists morph base ref tol now c origin v gs l x, inject_input morph base ref tol now c origin v gs = Some l /\ In x l /\
  i_sync v = Periodic /\ cfd (i_fact v) <> unit_float /\ cfd (i_fact (fst x)) = unit_float.
Proof. exact confidence_refuted. Qed.
Print Assumptions C146_confidence_refuted.
Theorem C146_hold_refuted : exists morph base ref tol now c origin v gs l x, inject_input morph base ref tol now c origin v gs = Some l /\ In x l /\
  (forall g, In g gs -> 0 < g_upr g)%Z /\ (0 < base)%Z /\ (0 < tol)%Z /\ (ref <= now)%Z /\ i_sync v = Hold /\ (before (i_fact (fst x)) < after (i_fact (fst x)))%Z.
Proof. exact hold_refuted. Qed.
Print Assumptions C146_hold_refuted.
Theorem C146_times_partial : forall morph base ref tol now c origin v g gs l x, (0 < g_upr g)%Z -> (0 < base)%Z -> (ref <= now)%Z ->
  inject_input morph base ref tol now c origin v (g :: gs) = Some l -> In x l ->
  match i_sync v with
  | Once => i_fact (fst x) = i_fact v /\ i_sync (fst x) = Once
  | Periodic | Granted =>
      (after (i_fact (fst x)) <= now < before (i_fact (fst x)))%Z /\ (before (i_fact (fst x)) = after (i_fact (fst x)) + g_upr g * base)%Z /\
      (exists k, after (i_fact (fst x)) = ref + k * (g_upr g * base))%Z
  | Hold =>
      (after (i_fact (fst x)) = now + 2 * tol)%Z /\ (before (i_fact (fst x)) = now + g_upr g * base)%Z /\ i_sync (fst x) = Once
  | GrantedOnce => False
  end.
Proof. exact injected_times. Qed.
Print Assumptions C146_times_partial.
Example C146_example : match inject_input (fun r _ _ => r) 100 0 5 150 true (mkogroup 4 1) (w_view Periodic) w_groups with
  | Some l => map (fun x => (after (i_fact (fst x)), before (i_fact (fst x)))) l = [(100, 200); (100, 200)]%Z
  | None => False
  end.
Proof. vm_compute. reflexivity. Qed.

(** ** C147 The change of an atomic state is reported once *)

(** Full statement: after the first input that confirms or contradicts the state watched,
    nothing is stored nor reported any more; so a change is reported at most once.  Refuted
    with two threads: both find the controller alive before one of them ends it. *)
Theorem C147_once_refuted : exists hold ps s w, threads hold ps (watching, []) = Some (s, w) /\ 2 <= length (signalled s).
Proof. exact signals_refuted. Qed.
Print Assumptions C147_once_refuted.
(** Proved when the jobs run one after the other. *)
Theorem C147_jobs_partial : forall hold l, let (k, d) := until l in
  stored (jobs hold l watching) = rev (List.filter kept k) /\
  signalled (jobs hold l watching) = match d with Some i => match a_sort i with Fresh Contradicts => [i] | _ => [] end | None => [] end /\
  killed (jobs hold l watching) = match d with Some _ => true | None => false end /\
  dead (jobs hold l watching) = match d with Some i => match a_sort i with Fresh Contradicts => hold | Fresh Confirms => negb hold | _ => false end | None => false end /\
  source_dead (jobs hold l watching) = match d with Some i => match a_sort i with Fresh Contradicts => hold | _ => false end | None => false end.
Proof.
  intros hold l. pose proof (jobs_until hold l watching eq_refl) as Q. destruct (until l) as [k d]. cbn in Q. rewrite app_nil_r in Q. exact Q.
Qed.
Print Assumptions C147_jobs_partial.
(** With several threads: after the end, at most the jobs that already waited report. *)
Theorem C147_threads_partial : forall hold ps s w s' w', killed s = true -> threads hold ps (s, w) = Some (s', w') ->
  killed s' = true /\ length (signalled s') + length w' <= length (signalled s) + length w.
Proof. exact killed_threads. Qed.
Print Assumptions C147_threads_partial.
Example C147_example :
  signalled (jobs false [mkainput 5 Target; mkainput 6 (Predicted false Contradicts); mkainput 7 (Fresh Neither); w_a; w_b] watching) = [w_a] /\
  threads true [Check w_a; Check w_b; Body w_a; Check (mkainput 3 (Fresh Contradicts))] (watching, []) = Some (mkastate true [] [w_a] true true, [w_b]).
Proof. split; reflexivity. Qed.

(** ** C148 Nothing is in a new composite state twice *)

(** Full statement: of the inputs taken for a new composite state, those that are in an
    instance among them are left out, and so are the instances that share no input with
    them; nothing else is.  Refuted: instead of the instance the input at another place is
    left out; memory beyond an array is written if an input comes twice. *)
Theorem C148_tidy_refuted : exists before after, NoDup (map o_id before) /\ (forall c, In c before -> discarded c = false) /\
  assemble before = Some after /\ ~ tidy before after.
Proof. exact tidy_refuted. Qed.
Print Assumptions C148_tidy_refuted.
Theorem C148_overflow_refuted : exists before, (forall c, In c before -> discarded c = false) /\ assemble before = None.
Proof. exact overflow_refuted. Qed.
Print Assumptions C148_overflow_refuted.
(** Proved when the instances come first and no input comes twice. *)
Theorem C148_tidy_partial : forall is rest, (forall c, In c is -> o_parts c <> None) -> (forall c, In c rest -> o_parts c = None) ->
  NoDup (map o_id (is ++ rest)) -> (forall c, In c (is ++ rest) -> discarded c = false) ->
  exists cs, assemble (is ++ rest) = Some cs /\ map o_id cs = map o_id (is ++ rest) /\ map o_parts cs = map o_parts (is ++ rest) /\ tidy (is ++ rest) cs.
Proof. exact assemble_tidy. Qed.
Print Assumptions C148_tidy_partial.
Example C148_example :
  assemble [mkcomp 10 (Some [1; 2]) false; mkcomp 11 (Some [8; 9]) false; mkcomp 1 None false; mkcomp 2 None false; mkcomp 3 None false] =
  Some [mkcomp 10 (Some [1; 2]) false; mkcomp 11 (Some [8; 9]) true; mkcomp 1 None true; mkcomp 2 None true; mkcomp 3 None false].
Proof. reflexivity. Qed.

(** ** C149 The success rate of a pattern *)

(** Full statement: the success rate is the fraction of the positive ones among all
    evidences.  Refuted: the division is one of integers. *)
Theorem C149_rate_refuted : exists l r, rated l unrated = Some r /\ (evidences r = Z.of_nat (length l) /\ rate r * evidences r <> Z.of_nat (length (List.filter (fun b => b) l)))%Z.
Proof. exact rate_refuted. Qed.
Print Assumptions C149_rate_refuted.
Theorem C149_whole_partial : forall l, 0 < length l -> (Z.of_nat (length l) < 4294967296)%Z ->
  exists r, rated l unrated = Some r /\ rate r = (if forallb (fun b => b) l then 1 else 0)%Z.
Proof. exact rate_whole. Qed.
Print Assumptions C149_whole_partial.
Example C149_example : rated [true; true; true] unrated = Some (mkrating 3 3 1) /\ rated [true; false; true] unrated = Some (mkrating 3 2 0).
Proof. split; reflexivity. Qed.
