(** Model of the propagation of saliency changes along markers and references:
    Group::_initiate_sln_propagation, Group::_propagate_sln (r_exec/group.cpp),
    SaliencyPropagationJob (r_exec/time_job.cpp) and _Mem::propagate_sln
    (r_exec/mem.cpp). *)
From Coq Require Import Floats.SpecFloat.
From Verif Require Import Base Float32 Atom_model Obj_model View_model Grp_model.

(** What the propagation reads of the objects: whether the descriptor of code(0) is
    MARKER, the references, the list markers_ and the propagation threshold
    (get_psln_thr, object.tpl.cpp:134-140); and the root group.  Objects are
    compared by address: here a number.  The lists do not change meanwhile (the
    markers are locked, group.cpp:787-791). *)
Record net := mknet { marker : Z -> bool; refs : Z -> list Z; marks : Z -> list Z; psln : Z -> spec_float; root : Z }.
(** SaliencyPropagationJob, time_job.h:189-200, time_job.cpp:239-242. *)
Record job := mkjob { jobj : Z; jchange : spec_float; jthr : spec_float }.
(** The vector [path] (passed by reference) and the jobs pushed so far. *)
Record trail := mktrail { path : list Z; jobs : list job }.
(** path[i] == object for some i: group.cpp:800-802, 824-826. *)
Definition on_path (o : Z) (t : trail) : bool := existsb (Z.eqb o) (path t).
Definition push (o : Z) (t : trail) : trail := mktrail (path t ++ [o]) (jobs t).
Definition push_job (j : job) (t : trail) : trail := mktrail (path t) (jobs t ++ [j]).
(** fabs(change) > object->get_psln_thr(): computed in double, exact on float32. *)
Definition exceeds (n : net) (o : Z) (c : spec_float) : bool := flt (psln n o) (SFabs c).

Fixpoint each (f : Z -> trail -> option trail) (l : list Z) (t : trail) : option trail :=
  match l with [] => Some t | o :: l' => match f o t with Some t => each f l' t | None => None end end.
(** The two loops: over the references of a marker, then over the markers,
    group.cpp:780-791 and 805-814. *)
Definition spread_from (n : net) (f : Z -> trail -> option trail) (o : Z) (t : trail) : option trail :=
  match (if marker n o then each f (refs n o) t else Some t) with Some t => each f (marks n o) t | None => None end.
(** Group::_propagate_sln, group.cpp:818-833; [rec] is the call of
    _initiate_sln_propagation with the path. *)
Definition propagate (n : net) (rec : Z -> trail -> option trail) (c thr : spec_float) (o : Z) (t : trail) : option trail :=
  if o =? root n then Some t
  else if on_path o t then Some t
  else rec o (push_job (mkjob o c thr) (push o t)).
(** Group::_initiate_sln_propagation with the path, group.cpp:795-816.  The
    recursion has no syntactic bound: [fuel] is a bound on its depth, None means
    that it is not enough. *)
Fixpoint initiate_on (n : net) (c thr : spec_float) (fuel : nat) (o : Z) (t : trail) : option trail :=
  match fuel with
  | O => None
  | S f =>
      if exceeds n o c then
        if on_path o t then Some t
        else spread_from n (propagate n (initiate_on n c thr f) c thr) o (push o t)
      else Some t
  end.
(** Group::_initiate_sln_propagation, group.cpp:773-793: the jobs pushed. *)
Definition initiate (n : net) (c thr : spec_float) (fuel : nat) (o : Z) : option (list job) :=
  if exceeds n o c then
    match spread_from n (propagate n (initiate_on n c thr fuel) c thr) o (mktrail [o] []) with
    | Some t => Some (jobs t) | None => None end
  else Some [].

(** _Mem::propagate_sln, mem.cpp:1129-1152: [views] are the views of the object,
    each given by its host group and its OID; [host_thr] gives the saliency
    threshold of each group.  The result: the operations added to
    pending_operations_ of each group, in order, or None when the object has no view
    and is invalidated. *)
Definition propagate_sln (host_thr : Z -> spec_float) (views : list (Z * Z)) (c thr : spec_float) : option (list (Z * pendop)) :=
  match views with
  | [] => None
  | _ => Some (flat_map (fun v => let x := MorphChange c thr (host_thr (fst v)) in
                                  if feqb x fzero then [] else [(fst v, PMod (snd v) VIEW_SLN x)]) views)
  end.
(** SaliencyPropagationJob::update, time_job.cpp:244-253, for jobs run one after
    the other: the objects invalidated and the operations added. *)
Definition run_job (host_thr : Z -> spec_float) (views : Z -> list (Z * Z)) (s : list Z * list (Z * pendop)) (j : job) : list Z * list (Z * pendop) :=
  let (gone, ops) := s in
  if existsb (Z.eqb (jobj j)) gone then s
  else match propagate_sln host_thr (views (jobj j)) (jchange j) (jthr j) with
       | None => (jobj j :: gone, ops)
       | Some l => (gone, ops ++ l)
       end.
Definition run_jobs (host_thr : Z -> spec_float) (views : Z -> list (Z * Z)) (gone : list Z) (js : list job) : list Z * list (Z * pendop) :=
  fold_left (run_job host_thr views) js (gone, []).
