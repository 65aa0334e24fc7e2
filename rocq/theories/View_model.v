(** Model of the control values of a view: saliency, resilience, activation,
    visibility, the requests pending on them and what an update makes of them
    (r_exec/view.h, view.inline.cpp, view.cpp). *)
From Verif Require Import Base Float32 Atom_model Obj_model.

(** Indices of the members, r_code/replicode_defs.h:94-106. *)
Definition VIEW_SYNC : nat := 1.
Definition VIEW_SLN : nat := 3.
Definition VIEW_RES : nat := 4.
Definition VIEW_ACT : nat := 7.
Definition GRP_VIEW_COV : nat := 7.
Definition GRP_VIEW_VIS : nat := 8.
Definition VIEW_CODE_MAX_SIZE : nat := 13.

(** A float32 accumulator and the uint32 count of the requests, view.h:108-115
    (e.g. acc_sln_ and sln_changes_). *)
Record tally := mktally { acc : spec_float; changes : Z }.
(** View::reset_ctrl_values, view.cpp:186-195, for one value. *)
Definition no_tally : tally := mktally fzero 0.
(** acc += value; ++changes: e.g. View::mod_sln, view.inline.cpp:237-241. *)
Definition tally_mod (t : tally) (value : spec_float) : tally :=
  mktally (fadd (acc t) value) (u32 (changes t + 1)).
(** acc += value - current; ++changes: e.g. View::set_sln, view.inline.cpp:243-247. *)
Definition tally_set (t : tally) (current value : spec_float) : tally :=
  tally_mod t (fsub value current).

(** The fields of View that the control values use; [vcode] is the array code_
    (13 words, r_code/object.h:166), the last four are periods_at_low_sln_ and
    so on (view.h:140-143).  initial_sln_ and initial_act_ are in [i_sln] and
    [i_act]. *)
Record view := mkview {
  vcode : list Z;
  t_sln : tally; t_act : tally; t_vis : tally; t_res : tally;
  low_sln : Z; high_sln : Z; low_act : Z; high_act : Z;
  i_sln : spec_float; i_act : spec_float
}.
(** code(i): an access to an array of fixed size at a constant index. *)
Definition word (v : view) (i : nat) : Z := nth i (vcode v) 0.
Fixpoint put (l : list Z) (i : nat) (x : Z) : list Z :=
  match l, i with
  | [], _ => []
  | _ :: t, O => x :: t
  | h :: t, S j => h :: put t j x
  end.
Definition with_word (v : view) (i : nat) (x : Z) : view :=
  mkview (put (vcode v) i x) (t_sln v) (t_act v) (t_vis v) (t_res v)
    (low_sln v) (high_sln v) (low_act v) (high_act v) (i_sln v) (i_act v).
Definition with_t_sln (v : view) (t : tally) : view :=
  mkview (vcode v) t (t_act v) (t_vis v) (t_res v) (low_sln v) (high_sln v) (low_act v) (high_act v) (i_sln v) (i_act v).
Definition with_t_act (v : view) (t : tally) : view :=
  mkview (vcode v) (t_sln v) t (t_vis v) (t_res v) (low_sln v) (high_sln v) (low_act v) (high_act v) (i_sln v) (i_act v).
Definition with_t_vis (v : view) (t : tally) : view :=
  mkview (vcode v) (t_sln v) (t_act v) t (t_res v) (low_sln v) (high_sln v) (low_act v) (high_act v) (i_sln v) (i_act v).
Definition with_t_res (v : view) (t : tally) : view :=
  mkview (vcode v) (t_sln v) (t_act v) (t_vis v) t (low_sln v) (high_sln v) (low_act v) (high_act v) (i_sln v) (i_act v).
Definition with_p_sln (v : view) (l h : Z) : view :=
  mkview (vcode v) (t_sln v) (t_act v) (t_vis v) (t_res v) l h (low_act v) (high_act v) (i_sln v) (i_act v).
Definition with_p_act (v : view) (l h : Z) : view :=
  mkview (vcode v) (t_sln v) (t_act v) (t_vis v) (t_res v) (low_sln v) (high_sln v) l h (i_sln v) (i_act v).

(** View::get_res, get_sln, get_act, get_vis, view.inline.cpp:194-212. *)
Definition get_res (v : view) := num (word v VIEW_RES).
Definition get_sln (v : view) := num (word v VIEW_SLN).
Definition get_act (v : view) := num (word v VIEW_ACT).
Definition get_vis (v : view) := num (word v GRP_VIEW_VIS).

(** View::reset, view.inline.cpp:166-171 and view.cpp:186-214, for a view that
    has an object. *)
Definition reset (v : view) : view :=
  mkview (vcode v) no_tally no_tally no_tally no_tally 0 0 0 0 (get_sln v) (get_act v).

(** VIEW_RES as View::init writes it, view.inline.cpp:156: unlimited when the
    argument is negative. *)
Definition init_res (res : Z) : Z := if res <? 0 then PlusInfinity else of_num (f32_of_Z res).

(** View::mod_res, view.inline.cpp:221-227. *)
Definition mod_res (v : view) (x : spec_float) : view :=
  if word v VIEW_RES =? PlusInfinity then v else with_t_res v (tally_mod (t_res v) x).
(** View::set_res, view.inline.cpp:229-235. *)
Definition set_res (v : view) (x : spec_float) : view :=
  if word v VIEW_RES =? PlusInfinity then v else with_t_res v (tally_set (t_res v) (get_res v) x).
(** View::mod_sln ... set_vis, view.inline.cpp:237-271. *)
Definition mod_sln (v : view) (x : spec_float) : view := with_t_sln v (tally_mod (t_sln v) x).
Definition set_sln (v : view) (x : spec_float) : view := with_t_sln v (tally_set (t_sln v) (get_sln v) x).
Definition mod_act (v : view) (x : spec_float) : view := with_t_act v (tally_mod (t_act v) x).
Definition set_act (v : view) (x : spec_float) : view := with_t_act v (tally_set (t_act v) (get_act v) x).
Definition mod_vis (v : view) (x : spec_float) : view := with_t_vis v (tally_mod (t_vis v) x).
Definition set_vis (v : view) (x : spec_float) : view := with_t_vis v (tally_set (t_vis v) (get_vis v) x).

(** View::mod, view.inline.cpp:293-309. *)
Definition view_mod (v : view) (member : nat) (x : spec_float) : view :=
  if Nat.eqb member VIEW_SLN then mod_sln v x
  else if Nat.eqb member VIEW_RES then mod_res v x
  else if Nat.eqb member VIEW_ACT then mod_act v x
  else if Nat.eqb member GRP_VIEW_VIS then mod_vis v x
  else v.
(** View::set, view.inline.cpp:311-327. *)
Definition view_set (v : view) (member : nat) (x : spec_float) : view :=
  if Nat.eqb member VIEW_SLN then set_sln v x
  else if Nat.eqb member VIEW_RES then set_res v x
  else if Nat.eqb member VIEW_ACT then set_act v x
  else if Nat.eqb member GRP_VIEW_VIS then set_vis v x
  else v.

(** changes > 0 && acc != 0. *)
Definition pending (t : tally) : bool := (0 <? changes t) && negb (feqb (acc t) fzero).
(** acc / changes: the count is converted to float32. *)
Definition tally_mean (t : tally) : spec_float := fdiv (acc t) (f32_of_Z (changes t)).
(** The clamping of View::update_sln, view.cpp:236-239. *)
Definition clamp01 (x : spec_float) : spec_float :=
  if flt x fzero then fzero else if flt fone x then fone else x.

(** View::update_res, view.cpp:216-229: the new view and the result. *)
Definition update_res (v : view) : view * spec_float :=
  let r := get_res v in
  if feqb r (S754_infinity false) then (v, r)
  else
    let r := if pending (t_res v) then fadd r (tally_mean (t_res v)) else r in
    let r := fsub r fone in
    let r := if flt r fzero then fzero else r in
    let v := with_t_res (with_word v VIEW_RES (of_num r)) no_tally in
    (v, get_res v).

(** The counting of View::update_sln, view.cpp:245-255: low and high counters. *)
Definition count_periods (x low high : spec_float) (l h : Z) : Z * Z :=
  if flt x low then (u32 (l + 1), h)
  else (0, if flt high x then u32 (h + 1) else 0).

(** View::update_sln, view.cpp:231-257. *)
Definition update_sln (v : view) (low high : spec_float) : view * spec_float :=
  let v := if pending (t_sln v)
           then with_word v VIEW_SLN (of_num (clamp01 (fadd (get_sln v) (tally_mean (t_sln v)))))
           else v in
  let v := with_t_sln v no_tally in
  let p := count_periods (get_sln v) low high (low_sln v) (high_sln v) in
  (with_p_sln v (fst p) (snd p), get_sln v).

(** View::update_act, view.cpp:259-285. *)
Definition update_act (v : view) (low high : spec_float) : view * spec_float :=
  let v := if pending (t_act v)
           then with_word v VIEW_ACT (of_num (clamp01 (fadd (get_act v) (tally_mean (t_act v)))))
           else v in
  let v := with_t_act v no_tally in
  let p := count_periods (get_act v) low high (low_act v) (high_act v) in
  (with_p_act v (fst p) (snd p), get_act v).

(** View::update_vis, view.cpp:287-301. *)
Definition update_vis (v : view) : view * spec_float :=
  let v := if pending (t_vis v)
           then with_word v GRP_VIEW_VIS (of_num (clamp01 (fadd (get_vis v) (tally_mean (t_vis v)))))
           else v in
  let v := with_t_vis v no_tally in
  (v, get_vis v).

(** View::update_sln_delta, view.inline.cpp:273-278. *)
Definition update_sln_delta (v : view) : view * spec_float :=
  (mkview (vcode v) (t_sln v) (t_act v) (t_vis v) (t_res v) (low_sln v) (high_sln v) (low_act v) (high_act v) (get_sln v) (i_act v),
   fsub (get_sln v) (i_sln v)).

(** View::MorphValue, view.cpp:120-137. *)
Definition MorphValue (value source_thr destination_thr : spec_float) : spec_float :=
  if feqb value fzero then destination_thr
  else if flt fzero source_thr then
    if flt fzero destination_thr then
      let r := fdiv (fmul value destination_thr) source_thr in
      if flt fone r then fone else r
    else value
  else fadd destination_thr value.

(** View::MorphChange, view.cpp:139-149. *)
Definition MorphChange (change source_thr destination_thr : spec_float) : spec_float :=
  if flt fzero source_thr then
    if flt fzero destination_thr then fdiv (fmul change destination_thr) source_thr
    else change
  else fadd destination_thr change.
