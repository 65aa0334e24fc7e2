(** Properties C22 to C25 (groups) and C52 to C54. *)
From Verif Require Import Base Float32 Atom_model Obj_model Obj_spec View_model View_spec View_proofs Grp_model Grp_spec Grp_proofs Grp_more.

(** ** C22 Parameters of groups *)

(** Full statement: each update settles the requests on all the parameters: each
    gets its old value plus the mean of the requests, clamped, and the requests are
    forgotten ([gabs_ops all_params] is that specification).  Proved for five of the
    seven parameters, for histories without injection of existing objects, fewer
    than 2^32 pending requests and, for the saliency threshold, no decay. *)
Theorem C22_requests_settled_partial : forall home code a b os p g',
  length code = 32%nat -> Forall (proper home) os -> Forall no_existing os ->
  (p = SlnThr -> feqb (gnum (new_group code a b) GRP_DCY_PER) fzero = true /\ Forall no_decay_asked os) ->
  gfew five (gstart (new_group code a b)) os ->
  run_gops (new_group code a b) os = Some g' ->
  get g' p = g_value (gabs_ops five (gstart (new_group code a b)) os) p.
Proof. exact (fun home code a b os p g' L P X D F R => proj1 (settles_requests home code a b os p g' L P X D F R)). Qed.
Print Assumptions C22_requests_settled_partial.

Theorem C22_in_range_partial : forall home code a b os p g',
  length code = 32%nat -> Forall (proper home) os -> Forall no_existing os ->
  (p = SlnThr -> feqb (gnum (new_group code a b) GRP_DCY_PER) fzero = true /\ Forall no_decay_asked os) ->
  Forall tame os -> in_unit (get (new_group code a b) p) ->
  run_gops (new_group code a b) os = Some g' -> in_unit (get g' p).
Proof. exact parameters_in_range. Qed.
Print Assumptions C22_in_range_partial.

(** Requests on the other members act at once, within range, and on nothing
    else. *)
Theorem C22_immediate_members : forall g i x s,
  length (gcode g) = 32%nat -> span_of i = Some s ->
  gnum (group_mod g i x) i = kept (into_span s (fadd (gnum g i) x)) /\ gnum (group_set g i x) i = kept (into_span s x).
Proof. exact immediate. Qed.
Print Assumptions C22_immediate_members.
Theorem C22_immediate_in_range : forall g i x s,
  length (gcode g) = 32%nat -> span_of i = Some s -> f32_valid x = true ->
  (fadd (gnum g i) x <> S754_nan -> in_span s (gnum (group_mod g i x) i)) /\
  (x <> S754_nan -> in_span s (gnum (group_set g i x) i)).
Proof. exact immediate_range. Qed.
Print Assumptions C22_immediate_in_range.
Theorem C22_other_members_untouched : forall g i x j, i <> j ->
  nth j (gcode (group_mod g i x)) 0 = nth j (gcode g) 0 /\ nth j (gcode (group_set g i x)) 0 = nth j (gcode g) 0.
Proof. exact immediate_other. Qed.
Print Assumptions C22_other_members_untouched.

(** The thresholds of c-saliency and c-activation are never settled. *)
Theorem C22_all_parameters_refuted : exists home code os p g',
  length code = 32%nat /\ Forall (proper home) os /\ Forall no_existing os /\ Forall tame os /\
  gfew all_params (gstart (new_group code 0 0)) os /\ run_gops (new_group code 0 0) os = Some g' /\
  get g' p <> g_value (gabs_ops all_params (gstart (new_group code 0 0)) os) p.
Proof. exact all_parameters_refuted. Qed.
Print Assumptions C22_all_parameters_refuted.
(** The injection of an existing object settles requests before the update. *)
Theorem C22_only_at_updates_refuted : exists home code os p g',
  length code = 32%nat /\ Forall (proper home) os /\ Forall tame os /\ Forall (fun o => is_update o = false) os /\ In p five /\
  run_gops (new_group code 0 0) os = Some g' /\ get g' p <> get (new_group code 0 0) p.
Proof. exact early_refuted. Qed.
Print Assumptions C22_only_at_updates_refuted.
(** Opposite infinite requests. *)
Theorem C22_in_range_refuted : exists home code os p g',
  length code = 32%nat /\ Forall (proper home) os /\ Forall no_existing os /\ Forall gvalid os /\
  in_unit (get (new_group code 0 0) p) /\ run_gops (new_group code 0 0) os = Some g' /\ ~ in_unit (get g' p).
Proof. exact set_value_range_refuted. Qed.
Print Assumptions C22_in_range_refuted.

Example C22_example :
  let g := new_group (w_code fzero quarter fone fone) 0 0 in
  exists g', run_gops g [AskMod 3 half; AskMod 3 fzero; Update (w_env 10); Update (w_env 20)] = Some g' /\
             feqb (get g' ActThr) half = true /\
             feqb (g_value (gabs_ops five (gstart g) [AskMod 3 half; AskMod 3 fzero; Update (w_env 10); Update (w_env 20)]) ActThr) half = true.
Proof. eexists. split; [vm_compute; reflexivity|]. split; vm_compute; reflexivity. Qed.
Example C22_immediate_example :
  feqb (gnum (group_mod (new_group (w_code fzero quarter fone fone) 0 0) 23 (f32_of_Z 5)) 23) fone = true.
Proof. vm_compute. reflexivity. Qed.

(** ** C23 One place for each view *)

(** [home] says which collection each identifier is meant for: operations are
    [proper] when they bring views of the kinds they are used for, and an
    identifier is not used for views of two kinds. *)
Theorem C23_stored_once : forall home os code a b g,
  Forall (proper home) os -> run_gops (new_group code a b) os = Some g ->
  NoDup (map vid (all_views g)) /\
  (forall v, In v (all_views g) -> get_view g (vid v) = Some v /\
     exists p, belongs (ntf v) (kind v) p /\ In (vid v, v) (views g p) /\ forall q, In (vid v) (ids g q) -> q = p) /\
  (forall oid, (exists v, get_view g oid = Some v /\ vid v = oid /\ In v (all_views g)) <-> held g oid).
Proof. exact stored_once. Qed.
Print Assumptions C23_stored_once.
Theorem C23_what_is_held : forall home os code a b g o g',
  Forall (proper home) os -> run_gops (new_group code a b) os = Some g -> proper home o -> run_gop g o = Some g' ->
  (forall k, brings o = Some k -> forall j, held g' j <-> j = k \/ held g j) /\
  (forall k, takes o = Some k -> forall j, held g' j <-> j <> k /\ held g j) /\
  (brings o = None -> takes o = None -> is_update o = false -> forall j, held g' j <-> held g j) /\
  (is_update o = true -> forall j, held g' j -> held g j).
Proof. exact holding. Qed.
Print Assumptions C23_what_is_held.
Theorem C23_never_undefined : forall home os code a b,
  Forall (proper home) os -> Forall equipped os -> exists g, run_gops (new_group code a b) os = Some g.
Proof. exact never_undefined. Qed.
Print Assumptions C23_never_undefined.
(** A view of an existing group injected in a second group is not stored. *)
Theorem C23_group_stored_refuted : exists g v t, kind v = GROUP /\ ~ held (inject g v true t) (vid v).
Proof. exact group_not_stored. Qed.
Print Assumptions C23_group_stored_refuted.
(** A program written in C++ that is not known leaves a view without controller,
    which an update then uses. *)
Theorem C23_unknown_program_refuted : exists home code os,
  length code = 32%nat /\ Forall (proper home) os /\ run_gops (new_group code 0 0) os = None.
Proof. exact missing_program. Qed.
Print Assumptions C23_unknown_program_refuted.

Example C23_example :
  let os := [Inject (w_prog 1 half) true 0; Inject (w_obj 2 half) true 0; Inject (w_obj 3 half) true 0; Delete (w_obj 2 half); Update (w_env 10)] in
  Forall (proper w_home) os /\ Forall equipped os /\
  exists g, run_gops (new_group (w_code fzero quarter fone fone) 0 0) os = Some g /\ map vid (all_views g) = [1; 3].
Proof.
  split; [repeat (constructor; [cbn; unfold injectable, w_home; cbn; tauto|]); constructor|].
  split; [repeat (constructor; [cbn; try split; discriminate|]); repeat constructor|].
  eexists. split; vm_compute; reflexivity.
Qed.

(** ** C24 Activation *)

(** Full statement: after every history, a program is active if and only if its
    view and its group are above the thresholds.  Proved for calm histories: no
    request on the activation threshold, no injection of existing objects, updates
    that evaluate the arguments of GroupState from left to right, and that skip no
    view. *)
Theorem C24_active_iff_above_partial : forall code a b os home,
  flt (get (new_group code a b) ActThr) fzero = false -> Forall (proper home) os -> Forall equipped os -> calm (new_group code a b) os ->
  exists g, run_gops (new_group code a b) os = Some g /\ activity_right g.
Proof. exact activity. Qed.
Print Assumptions C24_active_iff_above_partial.
(** The programs signalled by an update are those that become active, each once. *)
Theorem C24_signalled_once_partial : forall code a b os home g e g' out,
  flt (get (new_group code a b) ActThr) fzero = false -> Forall (proper home) os -> Forall equipped os -> calm (new_group code a b) os ->
  run_gops (new_group code a b) os = Some g -> calm_op g (Update e) -> update e g = Some (g', out) ->
  NoDup (o_signal out) /\
  forall k, In k (o_signal out) <-> exists v w, get_view g k = Some v /\ get_view g' k = Some w /\
    is_program (kind v) = true /\ ctl v = Some false /\ ctl w = Some true.
Proof. exact signals. Qed.
Print Assumptions C24_signalled_once_partial.
(** A program stays active when the threshold is raised above it. *)
Theorem C24_threshold_refuted : exists home code os g,
  Forall (proper home) os /\ Forall equipped os /\ Forall no_existing os /\ flt (get (new_group code 0 0) ActThr) fzero = false /\
  run_gops (new_group code 0 0) os = Some g /\ ~ activity_right g.
Proof. exact threshold_refuted. Qed.
Print Assumptions C24_threshold_refuted.
(** With the other order of evaluation, a group that becomes c-active activates
    none of its programs. *)
Theorem C24_evaluation_order_refuted : exists home code os g,
  Forall (proper home) os /\ Forall equipped os /\ Forall no_existing os /\ flt (get (new_group code 0 0) ActThr) fzero = false /\
  Forall (fun o => match o with AskMod i _ | AskSet i _ => i <> GRP_ACT_THR | _ => True end) os /\
  run_gops (new_group code 0 0) os = Some g /\ ~ activity_right g.
Proof. exact order_refuted. Qed.
Print Assumptions C24_evaluation_order_refuted.
(** Likewise when an existing object is injected before the update. *)
Theorem C24_existing_object_refuted : exists home code os g,
  Forall (proper home) os /\ Forall equipped os /\ flt (get (new_group code 0 0) ActThr) fzero = false /\
  Forall (fun o => match o with AskMod i _ | AskSet i _ => i <> GRP_ACT_THR | Update e => act_in_order e = true /\ sln_in_order e = true | _ => True end) os /\
  run_gops (new_group code 0 0) os = Some g /\ ~ activity_right g.
Proof. exact existing_refuted. Qed.
Print Assumptions C24_existing_object_refuted.

Example C24_example :
  let g0 := new_group (w_code fzero quarter fone fone) 0 0 in
  let os := [Inject (w_prog 1 fzero) true 0; AskView (PMod 1 VIEW_ACT half)] in
  Forall (proper w_home) (os ++ [Update (w_env 10)]) /\ Forall equipped (os ++ [Update (w_env 10)]) /\ calm g0 (os ++ [Update (w_env 10)]) /\
  exists g g' out, run_gops g0 os = Some g /\ update (w_env 10) g = Some (g', out) /\
    map ctl (all_views g) = [Some false] /\ map ctl (all_views g') = [Some true] /\ o_signal out = [1].
Proof.
  split; [repeat (constructor; [cbn; unfold injectable, w_home; cbn; tauto|]); constructor|].
  split; [repeat (constructor; [cbn; try split; trivial; discriminate|]); repeat constructor|].
  split; [cbn [app calm calm_op run_gop]; split; [exact Logic.I|]; split; [exact Logic.I|]; split; [|vm_compute; exact Logic.I];
          split; [reflexivity|]; split; [reflexivity|]; intros v H; vm_compute in H; destruct H as [<-|[]]; vm_compute; reflexivity|].
  eexists. eexists. eexists. split; [vm_compute; reflexivity|]. split; [vm_compute; reflexivity|]. vm_compute. repeat split.
Qed.

(** ** C25 Resilience *)

(** A view with resilience n <= 2^23 stays for n updates and is removed at the
    n-th, whatever else happens to the group, if no request acts on its resilience
    and no update comes before its injection time. *)
Theorem C25_countdown_partial : forall home code a b os0 g oid v n os g',
  Forall (proper home) os0 -> run_gops (new_group code a b) os0 = Some g ->
  get_view g oid = Some v -> length (vcode (vw v)) = 13%nat -> t_res (vw v) = no_tally -> word (vw v) VIEW_RES = init_res n -> 1 <= n <= 8388608 ->
  Forall (fun o => leaves_alone oid (AskView o)) (pend g) ->
  Forall (proper home) os -> Forall (leaves_alone oid) os -> always_due oid g os -> run_gops g os = Some g' ->
  (count_updates os < n -> exists u, get_view g' oid = Some u /\ feqb (get_res (vw u)) (f32_of_Z (n - count_updates os)) = true) /\
  (n <= count_updates os -> get_view g' oid = None).
Proof. exact group_countdown. Qed.
Print Assumptions C25_countdown_partial.
Theorem C25_unlimited : forall home code a b os0 g oid v n os g',
  Forall (proper home) os0 -> run_gops (new_group code a b) os0 = Some g ->
  get_view g oid = Some v -> word (vw v) VIEW_RES = init_res n -> n < 0 ->
  Forall (proper home) os -> Forall (keeps oid) os -> Forall (never_invalid oid) os -> run_gops g os = Some g' ->
  exists u, get_view g' oid = Some u.
Proof. exact group_unlimited. Qed.
Print Assumptions C25_unlimited.
(** An update removes a view if and only if its object is invalidated or its
    resilience, after the requests, is exhausted. *)
Theorem C25_removed_iff : forall home os code a b g e g' out oid v,
  Forall (proper home) os -> run_gops (new_group code a b) os = Some g -> update e g = Some (g', out) -> get_view g oid = Some v ->
  (get_view g' oid = None <->
   invalid e oid = true \/
   (ijt v < planned e /\ flt fzero (snd (update_res (fold_left (asked_of oid) (pend g) (vw v)))) = false)).
Proof. exact fate. Qed.
Print Assumptions C25_removed_iff.

Example C25_group_example :
  let v := mkgv 2 OBJECT false 0 (w_view half (f32_of_Z 2) fzero fzero) None None in
  let g0 := new_group (w_code fzero quarter fone fone) 0 0 in
  exists g g1 g2, run_gops g0 [Inject v true 0] = Some g /\ word (vw v) VIEW_RES = init_res 2 /\ always_due 2 g [Update (w_env 10); Update (w_env 20)] /\
    run_gops g [Update (w_env 10)] = Some g1 /\ get_view g1 2 <> None /\
    run_gops g [Update (w_env 10); Update (w_env 20)] = Some g2 /\ get_view g2 2 = None.
Proof.
  eexists. eexists. eexists. split; [vm_compute; reflexivity|]. split; [vm_compute; reflexivity|]. split.
  - cbn [always_due due]. split; [split; [reflexivity|]; intros v H; vm_compute in H; injection H as <-; vm_compute; reflexivity|]. match goal with |- context [run_gop ?x ?y] => let r := eval vm_compute in (run_gop x y) in replace (run_gop x y) with r by (vm_compute; reflexivity) end. split; [|match goal with |- context [run_gop ?x ?y] => let r := eval vm_compute in (run_gop x y) in replace (run_gop x y) with r by (vm_compute; reflexivity) end; exact Logic.I].
    split; [reflexivity|]. intros v H. vm_compute in H. injection H as <-. vm_compute. reflexivity.
  - split; [vm_compute; reflexivity|]. split; [vm_compute; discriminate|]. split; vm_compute; reflexivity.
Qed.

(** ** C52 Times of updates *)

(** The updates of a group with a constant period [upr] (in base periods) are planned
    one per period, all at multiples of the period from the reference time, the
    first one in the period that follows [now]. *)
Theorem C52_regular_partial : forall upr base ref now n i t,
  0 < upr -> 0 < base -> ref <= now ->
  nth_error (planned_times (repeat upr n) base (first_update upr base ref now)) i = Some t ->
  exists k, t = ref + k * (upr * base) /\ now + Z.of_nat i * (upr * base) < t <= now + (Z.of_nat i + 1) * (upr * base).
Proof. exact grid. Qed.
Print Assumptions C52_regular_partial.
Theorem C52_none_missing : forall upr base ref now n,
  0 < upr -> length (planned_times (repeat upr n) base (first_update upr base ref now)) = S n.
Proof. exact grid_count. Qed.
Print Assumptions C52_none_missing.
Theorem C52_surrounding_updates : forall upr base ref now,
  0 < upr -> 0 < base -> ref <= now ->
  exists t k, get_prev_upr_time upr base ref now = Some t /\ now - upr * base < t <= now /\ t = ref + k * (upr * base) /\
              get_next_upr_time upr base ref now = Some (t + upr * base).
Proof. exact prev_time. Qed.
Print Assumptions C52_surrounding_updates.
(** Once an update has read a period of zero, no later period matters: updates
    never resume. *)
Theorem C52_resumes_refuted : forall base t a b, planned_times (a ++ 0 :: b) base t = planned_times (a ++ [0]) base t.
Proof. exact stops. Qed.
Print Assumptions C52_resumes_refuted.
Example C52_example : planned_times (repeat 2 3) 50 (first_update 2 50 1000 1234) = [1300; 1400; 1500; 1600].
Proof. reflexivity. Qed.

(** ** C53 Statistics *)

(** Full statement: after an update the six statistics are the average, greatest
    and least saliency of the views, and activation of the programs.  Proved for the
    averages and the greatest values, when the update skips no view. *)
Theorem C53_average_and_high_partial : forall home os code a b g e g' out,
  length code = 32%nat -> Forall (proper home) os -> run_gops (new_group code a b) os = Some g -> all_due e g -> update e g = Some (g', out) ->
  Z.of_nat (length (all_views g')) < 4294967296 ->
  gnum g' GRP_AVG_SLN = kept (average (slns (all_views g'))) /\ gnum g' GRP_AVG_ACT = kept (average (acts (all_views g'))) /\
  (Forall (fun x => fle fzero x = true) (slns (all_views g')) ->
     Forall (fun x => fle x (gnum g' GRP_HIGH_SLN) = true) (slns (all_views g')) /\
     (slns (all_views g') = [] -> feqb (gnum g' GRP_HIGH_SLN) fzero = true) /\
     (slns (all_views g') <> [] -> Exists (fun x => feqb x (gnum g' GRP_HIGH_SLN) = true) (slns (all_views g')))) /\
  (Forall (fun x => fle fzero x = true) (acts (all_views g')) ->
     Forall (fun x => fle x (gnum g' GRP_HIGH_ACT) = true) (acts (all_views g')) /\
     (acts (all_views g') = [] -> feqb (gnum g' GRP_HIGH_ACT) fzero = true) /\
     (acts (all_views g') <> [] -> Exists (fun x => feqb x (gnum g' GRP_HIGH_ACT) = true) (acts (all_views g')))).
Proof. exact statistics. Qed.
Print Assumptions C53_average_and_high_partial.
(** The least saliency is wrong: 1 for a group with a single view at 0.5. *)
Theorem C53_low_refuted : exists home code os g v,
  Forall (proper home) os /\ run_gops (new_group code 0 0) os = Some g /\ all_due (w_env 10) g /\ all_views g = [v] /\
  exists g' out w, update (w_env 10) g = Some (g', out) /\ all_views g' = [w] /\
    feqb (get_sln (vw w)) half = true /\ feqb (gnum g' GRP_LOW_SLN) fone = true.
Proof. exact low_refuted. Qed.
Print Assumptions C53_low_refuted.
Example C53_example :
  let os := [Inject (w_obj 2 half) true 0; Inject (w_obj 3 fone) true 0; Inject (w_prog 1 quarter) true 0; Update (w_env 10)] in
  exists g, run_gops (new_group (w_code fzero fzero fone fone) 0 0) os = Some g /\
    map (fun x => feqb x half || feqb x fone) (slns (all_views g)) = [true; true; true] /\
    feqb (gnum g GRP_HIGH_SLN) fone = true /\ feqb (gnum g GRP_AVG_ACT) quarter = true /\
    flt half (gnum g GRP_AVG_SLN) = true /\ flt (gnum g GRP_AVG_SLN) three_quarters = true.
Proof. eexists. split; [vm_compute; reflexivity|]. vm_compute. repeat split. Qed.

(** ** C54 Newly salient views *)

(** Full statement: an update hands to the programs exactly the views that become
    salient (for the modes once and periodic), or that are salient (for the modes
    hold and axiom).  Proved when the update does not change the saliency threshold
    and skips no view. *)
Theorem C54_newly_salient_partial : forall home os code a b g e g' out,
  Forall (proper home) os -> run_gops (new_group code a b) os = Some g -> all_due e g -> update e g = Some (g', out) -> get g' SlnThr = get g SlnThr ->
  forall k v w, get_view g k = Some v -> get_view g' k = Some w ->
  (once (get_sync (ub e) w) = true -> (In k (o_newly out) <-> c_salient g' = true /\ salient g v = false /\ salient g' w = true)) /\
  (holds (get_sync (ub e) w) = true -> (In k (o_newly out) <-> c_salient g' = true /\ salient g' w = true)).
Proof. exact crossing. Qed.
Print Assumptions C54_newly_salient_partial.
Theorem C54_only_views_held : forall home os code a b g e g' out k,
  Forall (proper home) os -> run_gops (new_group code a b) os = Some g -> all_due e g -> update e g = Some (g', out) ->
  In k (o_newly out) -> held g k /\ held g' k.
Proof. exact only_present. Qed.
Print Assumptions C54_only_views_held.
(** A view that becomes salient because the threshold is lowered is missed. *)
Theorem C54_newly_salient_refuted : exists home code os g e g' out v w,
  Forall (proper home) os /\ run_gops (new_group code 0 0) os = Some g /\ all_due e g /\ update e g = Some (g', out) /\
  get_view g 2 = Some v /\ get_view g' 2 = Some w /\ get_sync 0 w = SYNC_ONCE /\ c_salient g = true /\ c_salient g' = true /\
  flt (get g SlnThr) (get_sln (vw v)) = false /\ flt (get g' SlnThr) (get_sln (vw w)) = true /\ ~ In 2 (o_newly out).
Proof. exact newly_refuted. Qed.
Print Assumptions C54_newly_salient_refuted.
Example C54_example :
  let os := [Inject (w_obj 2 quarter) true 0; AskView (PMod 2 VIEW_SLN half)] in
  exists g g' out, run_gops (new_group (w_code half fzero fone fone) 0 0) os = Some g /\ update (w_env 10) g = Some (g', out) /\ o_newly out = [2] /\
    exists g'' out', update (w_env 20) g' = Some (g'', out') /\ o_newly out' = [].
Proof. eexists. eexists. eexists. split; [vm_compute; reflexivity|]. split; [vm_compute; reflexivity|]. split; [reflexivity|]. eexists. eexists. split; vm_compute; reflexivity. Qed.
