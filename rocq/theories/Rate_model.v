(** Model of the rating of models: PrimaryMDLController::rate_model,
    SecondaryMDLController::rate_model, and the decision to rate in
    register_pred_outcome and register_req_outcome (r_exec/mdl_controller.cpp). *)
From Coq Require Import Floats.SpecFloat.
From Verif Require Import Base Float32 Atom_model Obj_model Grp_model.

(** The members of a model used for its rating: code(MDL_STRENGTH), code(MDL_CNT),
    code(MDL_SR), code(MDL_DSR) (r_code/replicode_defs.h:211-214); [p_alive] and
    [s_alive] tell that the primary (secondary) controller is not invalidated. *)
Record rated := mkrated { m_strength : Z; m_cnt : Z; m_sr : Z; m_dsr : Z; p_alive : bool; s_alive : bool }.
(** The system settings: get_mdl_inertia_sr_thr() and get_mdl_inertia_cnt_thr()
    (uint32), mem.h:246-247; [ub] is the value of undefined conversions. *)
Record inertia := mkinertia { sr_thr : spec_float; cnt_thr : Z; conv_ub : Z }.
(** What a rating does besides: the requests on the activation of the view of the
    primary (secondary) controller, and the deletion of the model (registered as a
    failure, then both views killed). *)
Inductive effect := ActPrimary (x : spec_float) | ActSecondary (x : spec_float) | Deleted.

(** PrimaryMDLController::rate_model, mdl_controller.cpp:2501-2574; [act_thr] is
    the activation threshold of the host.  kill_views (2651-2666) invalidates the
    primary controller (not the secondary) and ends both views. *)
Definition rate_primary (c : inertia) (act_thr : spec_float) (success : bool) (m : rated) : rated * list effect :=
  if negb (p_alive m) then (m, [])
  else
    let strength := num (m_strength m) in
    let evidence_count := num (m_cnt m) in
    let success_count := fmul (num (m_sr m)) evidence_count in
    let evidence_count := fadd evidence_count fone in
    let m := mkrated (m_strength m) (m_cnt m) (m_sr m) (m_sr m) (p_alive m) (s_alive m) in
    if success then
      let success_count := fadd success_count fone in
      let success_rate := fdiv success_count evidence_count in
      let strong := fle (sr_thr c) success_rate && fle (f32_of_Z (cnt_thr c)) evidence_count in
      let cnt := if strong then f32_of_Z (to_uint32 (conv_ub c) (fdiv fone success_rate)) else evidence_count in
      let sr := if strong then fone else success_rate in
      let st := if strong && negb (feqb fone strength) then of_num fone else m_strength m in
      (mkrated st (of_num cnt) (of_num sr) (m_dsr m) (p_alive m) (s_alive m), [ActPrimary sr])
    else
      let success_rate := fdiv success_count evidence_count in
      if flt act_thr success_rate then
        (mkrated (m_strength m) (of_num evidence_count) (of_num success_rate) (m_dsr m) (p_alive m) (s_alive m), [ActPrimary success_rate])
      else if feqb strength fone then (m, [ActPrimary fzero; ActSecondary success_rate])
      else (mkrated (m_strength m) (m_cnt m) (m_sr m) (m_dsr m) false (s_alive m), [Deleted]).

(** SecondaryMDLController::rate_model, mdl_controller.cpp:2821-2861; [p_thr] and
    [s_thr] are the activation thresholds of the hosts of the primary and secondary
    views. *)
Definition rate_secondary (p_thr s_thr : spec_float) (m : rated) : rated * list effect :=
  if negb (s_alive m) then (m, [])
  else
    let evidence_count := num (m_cnt m) in
    let success_count := fmul (num (m_sr m)) evidence_count in
    let evidence_count := fadd evidence_count fone in
    let success_count := fadd success_count fone in
    let success_rate := fdiv success_count evidence_count in
    let m := mkrated (m_strength m) (of_num evidence_count) (of_num success_rate) (m_sr m) (p_alive m) (s_alive m) in
    if flt p_thr success_rate then (m, [ActSecondary fzero; ActPrimary success_rate])
    else if flt s_thr success_rate then (m, [ActSecondary success_rate]) else (m, []).

(** The outcomes given to the two controllers: register_pred_outcome and
    register_req_outcome, mdl_controller.cpp:2363-2364, 2406-2411 and 2863-2872.
    [cfd] is the confidence of the evidence, [rate_failures] whether failures count.
    The feedback to the controllers of requirements (2413-2429) is not modelled: it
    is an outcome for other models. *)
Inductive outcome := Primary (act_thr : spec_float) (success : bool) (cfd : spec_float) (rate_failures : bool)
  | Secondary (p_thr s_thr : spec_float) (success : bool).
Definition register (c : inertia) (m : rated) (o : outcome) : rated * list effect :=
  match o with
  | Primary thr success cfd rf =>
      if feqb cfd fone then if success then rate_primary c thr true m else if rf then rate_primary c thr false m else (m, []) else (m, [])
  | Secondary p s success => if success then rate_secondary p s m else (m, [])
  end.
Fixpoint register_all (c : inertia) (m : rated) (os : list outcome) : rated * list effect :=
  match os with
  | [] => (m, [])
  | o :: os' => let (m, l) := register c m o in let (m, l') := register_all c m os' in (m, l ++ l')
  end.
