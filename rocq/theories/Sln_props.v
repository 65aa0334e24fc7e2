(** C26, C55: propagation of saliency changes. *)
From Coq Require Import Floats.SpecFloat.
From Verif Require Import Base Float32 Atom_model Obj_model Obj_spec View_model View_proofs Grp_model Sln_model Sln_spec Sln_proofs.

(** ** C26 Propagation over the graph of markers and references *)

(** Full statement: it terminates, makes at most one job for each object, and makes
    one for each object that is [reached].  The last part is false: only the objects
    linked to the first one are reached (C26_all_reached_refuted). *)

(** Whatever the graph, the nesting of the calls is bounded (by 2): with any larger
    bound the result is the same. *)
Theorem C26_terminates : forall n c thr o,
  exists js, forall fuel, (1 <= fuel)%nat -> initiate n c thr fuel o = Some js.
Proof. exact terminates. Qed.
Print Assumptions C26_terminates.
(** At most one job for each object, none for the first object nor for the root,
    and all carry the same change. *)
Theorem C26_each_object_once : forall n c thr fuel o js, initiate n c thr fuel o = Some js ->
  NoDup (map jobj js) /\ ~ In o (map jobj js) /\ ~ In (root n) (map jobj js) /\ Forall (fun j => jchange j = c /\ jthr j = thr) js.
Proof. exact once_each. Qed.
Print Assumptions C26_each_object_once.
(** The objects linked to the first one are reached, and no others. *)
Theorem C26_linked_reached_partial : forall n c thr fuel o js, (1 <= fuel)%nat -> initiate n c thr fuel o = Some js ->
  forall x, In x (map jobj js) <-> passes n c o /\ linked n o x /\ x <> o /\ x <> root n.
Proof. exact direct. Qed.
Print Assumptions C26_linked_reached_partial.
Theorem C26_only_reached : forall n c thr fuel o js, (1 <= fuel)%nat -> initiate n c thr fuel o = Some js ->
  forall x, In x (map jobj js) -> reached n c o x.
Proof. exact only_reached. Qed.
Print Assumptions C26_only_reached.
(** A change of the first of two objects linked by a marker does not reach the
    second. *)
Theorem C26_all_reached_refuted : exists n c thr o x, reached n c o x /\ x <> o /\
  forall fuel js, initiate n c thr fuel o = Some js -> ~ In x (map jobj js).
Proof. exact reach_refuted. Qed.
Print Assumptions C26_all_reached_refuted.
(** The jobs ask for the change, scaled to the threshold of the host, in every view
    of every object reached, and for nothing else; objects without views are
    invalidated. *)
Theorem C26_requests : forall host_thr views gone n c thr fuel o js gone' ops, initiate n c thr fuel o = Some js ->
  run_jobs host_thr views gone js = (gone', ops) ->
  (forall h p, In (h, p) ops <-> exists oid x, p = PMod oid VIEW_SLN x /\ expected host_thr views gone c thr (map jobj js) h oid x) /\
  (forall y, In y gone' <-> In y gone \/ (In y (map jobj js) /\ views y = [])).
Proof. exact requests. Qed.
Print Assumptions C26_requests.
(** Each view is asked at most once. *)
Theorem C26_one_request_per_view : forall host_thr views gone n c thr fuel o js gone' ops, initiate n c thr fuel o = Some js ->
  run_jobs host_thr views gone js = (gone', ops) ->
  (forall x, NoDup (views x)) -> (forall x y v, In v (views x) -> In v (views y) -> x = y) ->
  NoDup (map target ops).
Proof. exact one_request. Qed.
Print Assumptions C26_one_request_per_view.
(** Marker 2 refers to 1 and 3 and is listed by both: from the marker, both are
    reached; from 1, only the marker. *)
Example C26_example :
  initiate w_net half fzero 1 2 = Some [mkjob 1 half fzero; mkjob 3 half fzero] /\
  initiate w_net half fzero 7 1 = Some [mkjob 2 half fzero] /\
  run_jobs (fun h => if h =? 10 then half else fzero) (fun o => if o =? 1 then [(10, 100); (11, 101)] else []) []
    [mkjob 1 half half; mkjob 3 half half] = ([3], [(10, PMod 100 VIEW_SLN half); (11, PMod 101 VIEW_SLN half)]).
Proof. repeat split; vm_compute; reflexivity. Qed.

(** ** C55 Direction of a propagated change *)

(** Full statement: an increase of saliency is never carried to another group as a
    decrease, nor a decrease as an increase.  Proved when the threshold of the group
    it comes from is not 0. *)
Theorem C55_direction_kept_partial : forall c s d,
  f32_valid c = true -> is_finite c = true -> f32_valid s = true -> in_unit s -> f32_valid d = true -> in_unit d -> flt fzero s = true ->
  (fle fzero c = true -> fle fzero (MorphChange c s d) = true) /\ (fle c fzero = true -> fle (MorphChange c s d) fzero = true).
Proof. exact direction. Qed.
Print Assumptions C55_direction_kept_partial.
Example C55_example : let c := SFopp quarter in flt (MorphChange c half fone) fzero = true /\ feqb (MorphChange c half fone) (SFopp half) = true.
Proof. split; vm_compute; reflexivity. Qed.
(** When it is 0, a decrease by 0.25 becomes an increase by 0.25 in a group whose
    threshold is 0.5. *)
Theorem C55_direction_kept_refuted : exists c s d,
  in_unit s /\ in_unit d /\ f32_valid c = true /\ is_finite c = true /\ flt c fzero = true /\ flt fzero (MorphChange c s d) = true.
Proof. exact direction_refuted. Qed.
Print Assumptions C55_direction_kept_refuted.
