(** Model of r_exec/group.cpp, group.inline.cpp and group.h: the control
    parameters of a group, its six collections of views, and its update. *)
From Coq Require Import Floats.SpecFloat.
From Verif Require Import Base Float32 Atom_model Obj_model View_model.

(** ** Numbers *)

(** Truncation of a finite float32. *)
Definition f32_trunc (f : spec_float) : Z :=
  match f with
  | S754_finite s m e => cond_Zopp s (if 0 <=? e then Zpos m * 2 ^ e else Zpos m / 2 ^ (- e))
  | _ => 0
  end.
(** Conversion of a float32 to int32 and to uint32.  It is undefined in C++ when
    the truncated value does not fit; [ub] is then the value the machine happens
    to produce. *)
Definition to_int32 (ub : Z) (f : spec_float) : Z :=
  if is_finite f && (-2147483648 <=? f32_trunc f) && (f32_trunc f <? 2147483648) then f32_trunc f else ub.
Definition to_uint32 (ub : Z) (f : spec_float) : Z :=
  if is_finite f && (0 <=? f32_trunc f) && (f32_trunc f <? 4294967296) then f32_trunc f else ub.

(** ** Members, r_code/replicode_defs.h:115-145 *)
Definition GRP_UPR : nat := 1.
Definition GRP_SLN_THR : nat := 2.
Definition GRP_ACT_THR : nat := 3.
Definition GRP_VIS_THR : nat := 4.
Definition GRP_C_SLN : nat := 5.
Definition GRP_C_SLN_THR : nat := 6.
Definition GRP_C_ACT : nat := 7.
Definition GRP_C_ACT_THR : nat := 8.
Definition GRP_DCY_PER : nat := 9.
Definition GRP_DCY_TGT : nat := 10.
Definition GRP_DCY_PRD : nat := 11.
Definition GRP_DCY_AUTO : nat := 12.
Definition GRP_SLN_CHG_THR : nat := 13.
Definition GRP_SLN_CHG_PRD : nat := 14.
Definition GRP_ACT_CHG_THR : nat := 15.
Definition GRP_ACT_CHG_PRD : nat := 16.
Definition GRP_AVG_SLN : nat := 17.
Definition GRP_HIGH_SLN : nat := 18.
Definition GRP_LOW_SLN : nat := 19.
Definition GRP_AVG_ACT : nat := 20.
Definition GRP_HIGH_ACT : nat := 21.
Definition GRP_LOW_ACT : nat := 22.
Definition GRP_HIGH_SLN_THR : nat := 23.
Definition GRP_LOW_SLN_THR : nat := 24.
Definition GRP_SLN_NTF_PRD : nat := 25.
Definition GRP_HIGH_ACT_THR : nat := 26.
Definition GRP_LOW_ACT_THR : nat := 27.
Definition GRP_ACT_NTF_PRD : nat := 28.
Definition GRP_NTF_NEW : nat := 29.
Definition GRP_LOW_RES_THR : nat := 30.

(** The seven parameters with an accumulator (group.h:111-124). *)
Inductive gparam := SlnThr | ActThr | VisThr | CSln | CAct | CSlnThr | CActThr.
Definition gparam_eqb (a b : gparam) : bool :=
  match a, b with
  | SlnThr, SlnThr | ActThr, ActThr | VisThr, VisThr | CSln, CSln | CAct, CAct
  | CSlnThr, CSlnThr | CActThr, CActThr => true
  | _, _ => false
  end.
Definition gindex (p : gparam) : nat :=
  match p with
  | SlnThr => GRP_SLN_THR | ActThr => GRP_ACT_THR | VisThr => GRP_VIS_THR | CSln => GRP_C_SLN
  | CAct => GRP_C_ACT | CSlnThr => GRP_C_SLN_THR | CActThr => GRP_C_ACT_THR
  end.

(** ** Views held by a group *)

(** A view: its OID, the descriptor of its object, whether it is a
    NotificationView, its injection time (the timestamp at code(VIEW_IJT), kept
    apart here), its control values, its controller if it has one (with the
    controller's activated_ flag, controller.h:137), and, for a view of a group,
    the entry for the host in the viewed group's viewing_groups_ (group.h:200). *)
Record gview := mkgv {
  vid : Z; kind : Z; ntf : bool; ijt : Z; vw : view; ctl : option bool; seen : option bool
}.
Definition with_vw (v : gview) (w : view) : gview := mkgv (vid v) (kind v) (ntf v) (ijt v) w (ctl v) (seen v).
Definition with_ijt (v : gview) (t : Z) : gview := mkgv (vid v) (kind v) (ntf v) t (vw v) (ctl v) (seen v).
Definition with_ctl (v : gview) (c : option bool) : gview := mkgv (vid v) (kind v) (ntf v) (ijt v) (vw v) c (seen v).
Definition with_seen (v : gview) (s : option bool) : gview := mkgv (vid v) (kind v) (ntf v) (ijt v) (vw v) (ctl v) s.
(** View::get_cov, view.inline.cpp:214-219. *)
Definition get_cov (v : gview) : bool := if kind v =? GROUP then asBoolean (word (vw v) GRP_VIEW_COV) else false.
(** View::get_sync, view.inline.cpp:189-192, and the modes, r_code/object.h:189-195. *)
Definition get_sync (ub : Z) (v : gview) : Z := to_uint32 ub (num (word (vw v) VIEW_SYNC)).
Definition SYNC_ONCE : Z := 0.
Definition SYNC_PERIODIC : Z := 1.
Definition SYNC_HOLD : Z := 2.
Definition SYNC_AXIOM : Z := 3.
Definition SYNC_ONCE_AXIOM : Z := 4.

(** The six collections, group.h:189-194. *)
Inductive place := Ipgm | Anti | InputLess | Ntf | Grp | Other.
Definition place_eqb (a b : place) : bool :=
  match a, b with
  | Ipgm, Ipgm | Anti, Anti | InputLess, InputLess | Ntf, Ntf | Grp, Grp | Other, Other => true
  | _, _ => false
  end.

(** An unordered_map from OIDs to views: an association list.  The order of
    iteration of an unordered_map is not specified; here it is the order of the
    list, and the theorems hold for lists in any order. *)
Definition vmap := list (Z * gview).
Fixpoint map_find (m : vmap) (k : Z) : option gview :=
  match m with [] => None | (j, v) :: m' => if j =? k then Some v else map_find m' k end.
Fixpoint map_set (m : vmap) (k : Z) (v : gview) : vmap :=
  match m with [] => [(k, v)] | (j, w) :: m' => if j =? k then (k, v) :: m' else (j, w) :: map_set m' k v end.
Fixpoint map_erase (m : vmap) (k : Z) : vmap :=
  match m with [] => [] | (j, w) :: m' => if j =? k then m' else (j, w) :: map_erase m' k end.

(** ** Groups *)

(** Decay (group.h:138-142) and the pending operations on views
    (group.h:208-249). *)
Record decay := mkdecay { sln_decay : spec_float; thr_decay : spec_float; to_go : Z; percentage : spec_float; target : spec_float }.
Inductive pendop := PMod (oid : Z) (i : nat) (x : spec_float) | PSet (oid : Z) (i : nat) (x : spec_float).

(** [newly] is newly_salient_views_, by OID, in order of insertion (the multiset
    orders them by injection time); [new_ctl] is new_controllers_, by OID of the
    view.  The counters of the change monitoring are [mon_sln] and [mon_act]. *)
Record group := mkgroup {
  gcode : list Z;
  tal : gparam -> tally;
  dcy : decay;
  mon_sln : Z; mon_act : Z;
  views : place -> vmap;
  pend : list pendop;
  newly : list Z;
  new_ctl : list Z
}.
Definition with_code (g : group) (c : list Z) : group :=
  mkgroup c (tal g) (dcy g) (mon_sln g) (mon_act g) (views g) (pend g) (newly g) (new_ctl g).
Definition with_tal (g : group) (p : gparam) (t : tally) : group :=
  mkgroup (gcode g) (fun q => if gparam_eqb q p then t else tal g q) (dcy g) (mon_sln g) (mon_act g) (views g) (pend g) (newly g) (new_ctl g).
Definition with_dcy (g : group) (d : decay) : group :=
  mkgroup (gcode g) (tal g) d (mon_sln g) (mon_act g) (views g) (pend g) (newly g) (new_ctl g).
Definition with_mon (g : group) (s a : Z) : group :=
  mkgroup (gcode g) (tal g) (dcy g) s a (views g) (pend g) (newly g) (new_ctl g).
Definition with_views (g : group) (p : place) (m : vmap) : group :=
  mkgroup (gcode g) (tal g) (dcy g) (mon_sln g) (mon_act g) (fun q => if place_eqb q p then m else views g q) (pend g) (newly g) (new_ctl g).
Definition with_pend (g : group) (l : list pendop) : group :=
  mkgroup (gcode g) (tal g) (dcy g) (mon_sln g) (mon_act g) (views g) l (newly g) (new_ctl g).
Definition with_newly (g : group) (l : list Z) : group :=
  mkgroup (gcode g) (tal g) (dcy g) (mon_sln g) (mon_act g) (views g) (pend g) l (new_ctl g).
Definition with_new_ctl (g : group) (l : list Z) : group :=
  mkgroup (gcode g) (tal g) (dcy g) (mon_sln g) (mon_act g) (views g) (pend g) (newly g) l.

(** code(i).asFloat(), and code(i) = Atom::Float(x). *)
Definition gnum (g : group) (i : nat) : spec_float := num (nth i (gcode g) 0).
Definition gput (g : group) (i : nat) (x : spec_float) : group := with_code g (put (gcode g) i (of_num x)).
(** Group::get_sln_thr ... get_c_act, group.inline.cpp:144-177. *)
Definition get (g : group) (p : gparam) : spec_float := gnum g (gindex p).

(** Group::mod_sln_thr ... set_c_act_thr, group.inline.cpp:179-261. *)
Definition mod_param (g : group) (p : gparam) (x : spec_float) : group := with_tal g p (tally_mod (tal g p) x).
Definition set_param (g : group) (p : gparam) (x : spec_float) : group := with_tal g p (tally_set (tal g p) (get g p) x).

(** Group::_mod_0_positive ... _set_0_1, group.inline.cpp:367-427. *)
Definition fminus1 : spec_float := SFopp fone.
Definition _mod_0_positive (g : group) (i : nat) (x : spec_float) : group :=
  let v := fadd (gnum g i) x in gput g i (if flt v fzero then fzero else v).
Definition _mod_0_plus1 (g : group) (i : nat) (x : spec_float) : group :=
  let v := fadd (gnum g i) x in gput g i (if flt v fzero then fzero else if flt fone v then fone else v).
Definition _mod_minus1_plus1 (g : group) (i : nat) (x : spec_float) : group :=
  let v := fadd (gnum g i) x in gput g i (if flt v fminus1 then fminus1 else if flt fone v then fone else v).
Definition _set_0_positive (g : group) (i : nat) (x : spec_float) : group :=
  if flt x fzero then gput g i fzero else gput g i x.
Definition _set_0_plus1 (g : group) (i : nat) (x : spec_float) : group :=
  if flt x fzero then gput g i fzero else if flt fone x then gput g i fone else gput g i x.
Definition _set_minus1_plus1 (g : group) (i : nat) (x : spec_float) : group :=
  if flt x fminus1 then gput g i fminus1 else if flt fone x then gput g i fone else gput g i x.
Definition _set_0_1 (g : group) (i : nat) (x : spec_float) : group :=
  if feqb x fzero || feqb x fone then gput g i x else g.

(** Group::mod, group.inline.cpp:429-474. *)
Definition group_mod (g : group) (i : nat) (x : spec_float) : group :=
  match i with
  | 1 | 11 | 14 | 16 | 25 | 28 => _mod_0_positive g i x
  | 2 => mod_param g SlnThr x
  | 3 => mod_param g ActThr x
  | 4 => mod_param g VisThr x
  | 5 => mod_param g CSln x
  | 6 => mod_param g CSlnThr x
  | 7 => mod_param g CAct x
  | 8 => mod_param g CActThr x
  | 9 => _mod_minus1_plus1 g i x
  | 13 | 15 | 23 | 24 | 26 | 27 | 30 => _mod_0_plus1 g i x
  | _ => g
  end%nat.
(** Group::set, group.inline.cpp:476-526. *)
Definition group_set (g : group) (i : nat) (x : spec_float) : group :=
  match i with
  | 1 | 11 | 14 | 16 | 25 | 28 => _set_0_positive g i x
  | 2 => set_param g SlnThr x
  | 3 => set_param g ActThr x
  | 4 => set_param g VisThr x
  | 5 => set_param g CSln x
  | 6 => set_param g CSlnThr x
  | 7 => set_param g CAct x
  | 8 => set_param g CActThr x
  | 9 => _set_minus1_plus1 g i x
  | 13 | 15 | 23 | 24 | 26 | 27 | 30 => _set_0_plus1 g i x
  | 29 | 10 | 12 => _set_0_1 g i x
  | _ => g
  end%nat.

(** The body shared by Group::update_act_thr and the like, e.g. group.cpp:297-311:
    if (changes) value += acc / changes, clamped to [0,1]; the accumulator is
    cleared. *)
Definition update_param (g : group) (p : gparam) : group :=
  let g := if changes (tal g p) =? 0 then g
           else gput g (gindex p) (clamp01 (fadd (get g p) (tally_mean (tal g p)))) in
  with_tal g p no_tally.
Definition update_act_thr (g : group) : group := update_param g ActThr. (** group.cpp:297-311. *)
Definition update_vis_thr (g : group) : group := update_param g VisThr. (** group.cpp:313-327. *)
Definition update_c_sln (g : group) : group := update_param g CSln. (** group.cpp:329-343. *)
Definition update_c_act (g : group) : group := update_param g CAct. (** group.cpp:345-359. *)

(** Group::reset_decay_values, group.cpp:241-248. *)
Definition no_decay : decay := mkdecay fzero fzero (-1) fzero fminus1.
(** The recomputation of the decay in Group::update_sln_thr, group.cpp:252-275. *)
Definition compute_decay (ub : Z) (g : group) : decay :=
  let per := gnum g GRP_DCY_PER in
  let prd := gnum g GRP_DCY_PRD in
  if feqb per fzero || feqb prd fzero then no_decay
  else
    let ppp := fdiv per prd in
    if negb (feqb ppp (percentage (dcy g))) || negb (feqb (gnum g GRP_DCY_TGT) (target (dcy g))) then
      if feqb (gnum g GRP_DCY_TGT) fzero
      then mkdecay ppp fzero (to_int32 ub prd) ppp (gnum g GRP_DCY_TGT)
      else mkdecay fzero ppp (to_int32 ub prd) ppp (gnum g GRP_DCY_TGT)
    else dcy g.
(** Group::update_sln_thr, group.cpp:250-295. *)
Definition update_sln_thr (ub : Z) (g : group) : group :=
  let g := with_dcy g (compute_decay ub g) in
  let g := if (0 <? to_go (dcy g)) && negb (feqb (thr_decay (dcy g)) fzero)
           then mod_param g SlnThr (fmul (get g SlnThr) (thr_decay (dcy g))) else g in
  update_param g SlnThr.

(** get_c_act() > get_c_act_thr() and get_c_sln() > get_c_sln_thr(). *)
Definition c_active (g : group) : bool := flt (get g CActThr) (get g CAct).
Definition c_salient (g : group) : bool := flt (get g CSlnThr) (get g CSln).
(** Group::is_active_pgm, group.cpp:99-104. *)
Definition is_active_pgm (g : group) (v : view) : bool :=
  flt (get g ActThr) (get_act v) && c_salient g && c_active g.
(** Group::is_eligible_input, group.cpp:106-111. *)
Definition is_eligible_input (g : group) (v : view) : bool :=
  flt (get g SlnThr) (get_sln v) && c_salient g && c_active g.

(** Group::reset_stats, group.cpp:166-182, for one of the two monitors. *)
Definition step_monitor (ub : Z) (n : Z) (thr prd : spec_float) : Z :=
  if n <=? 0 then if flt thr fone then to_int32 ub prd else n
  else if feqb thr fone then -1 else n - 1.

(** ** Views of a group *)

(** Where each kind of view is stored: Group::delete_view, group.cpp:1212-1238. *)
Definition place_of (v : gview) : option place :=
  if ntf v then Some Ntf
  else
    let k := kind v in
    if (k =? NULL_PROGRAM) || (k =? INSTANTIATED_PROGRAM) || (k =? INSTANTIATED_CPP_PROGRAM)
       || (k =? COMPOSITE_STATE) || (k =? MODEL) then Some Ipgm
    else if k =? INSTANTIATED_ANTI_PROGRAM then Some Anti
    else if k =? INSTANTIATED_INPUT_LESS_PROGRAM then Some InputLess
    else if (k =? OBJECT) || (k =? MARKER) then Some Other
    else if k =? GROUP then Some Grp
    else None.
(** Group::delete_view of a view, group.cpp:1212-1238. *)
Definition delete_view (g : group) (v : gview) : group :=
  match place_of v with
  | Some p => with_views g p (map_erase (views g p) (vid v))
  | None => g
  end.

(** Group::get_view, group.cpp:113-134. *)
Definition get_view (g : group) (oid : Z) : option gview :=
  match map_find (views g Other) oid with Some v => Some v | None =>
  match map_find (views g Grp) oid with Some v => Some v | None =>
  match map_find (views g Ipgm) oid with Some v => Some v | None =>
  match map_find (views g Anti) oid with Some v => Some v | None =>
  match map_find (views g InputLess) oid with Some v => Some v | None =>
  map_find (views g Ntf) oid end end end end end.
(** The views are shared by pointer: a change to a view found by get_view is seen
    in the collection that holds it (and a view of that OID in another
    collection would be another object). *)
Definition place_holding (g : group) (oid : Z) : option place :=
  let has p := match map_find (views g p) oid with Some _ => true | None => false end in
  if has Other then Some Other else if has Grp then Some Grp else if has Ipgm then Some Ipgm
  else if has Anti then Some Anti else if has InputLess then Some InputLess else if has Ntf then Some Ntf else None.
Definition change_view (g : group) (oid : Z) (f : gview -> gview) : group :=
  match place_holding g oid with
  | Some p => with_views g p (map (fun kv => if fst kv =? oid then (fst kv, f (snd kv)) else kv) (views g p))
  | None => g
  end.
(** The iteration of FOR_ALL_VIEWS, group.h:257-301, and of
    FOR_ALL_NON_NTF_VIEWS, group.h:327-361. *)
Definition all_views (g : group) : list gview :=
  map snd (views g Ipgm ++ views g Anti ++ views g InputLess ++ views g Ntf ++ views g Grp ++ views g Other).

(** Group::Mod::execute and Group::Set::execute, group.h:228-245. *)
Definition execute (g : group) (o : pendop) : group :=
  match o with
  | PMod oid i x => change_view g oid (fun v => with_vw v (view_mod (vw v) i x))
  | PSet oid i x => change_view g oid (fun v => with_vw v (view_set (vw v) i x))
  end.

Definition is_program (k : Z) : bool :=
  (k =? NULL_PROGRAM) || (k =? INSTANTIATED_PROGRAM) || (k =? INSTANTIATED_ANTI_PROGRAM)
  || (k =? INSTANTIATED_INPUT_LESS_PROGRAM) || (k =? INSTANTIATED_CPP_PROGRAM) || (k =? COMPOSITE_STATE) || (k =? MODEL).

(** Group::load, group.cpp:468-554.  [made] tells whether CPPPrograms::New finds
    the program (group.cpp:504-506); the secondary controller of a model is a
    separate insertion in another group ([load_secondary]); markers also enter the
    marker sets of their references, not modelled here. *)
Definition load (g : group) (v : gview) (made : bool) : group :=
  let k := kind v in
  let program := with_ctl v (Some (is_active_pgm g (vw v))) in
  if k =? GROUP then
    let v := if c_active g && c_salient g && flt (get g VisThr) (get_vis (vw v)) then with_seen v (Some (get_cov v)) else v in
    with_views g Grp (map_set (views g Grp) (vid v) v)
  else if (k =? INSTANTIATED_PROGRAM) || (k =? COMPOSITE_STATE) || (k =? MODEL)
    then with_views g Ipgm (map_set (views g Ipgm) (vid v) program)
  else if k =? INSTANTIATED_INPUT_LESS_PROGRAM then with_views g InputLess (map_set (views g InputLess) (vid v) program)
  else if k =? INSTANTIATED_ANTI_PROGRAM then with_views g Anti (map_set (views g Anti) (vid v) program)
  else if k =? INSTANTIATED_CPP_PROGRAM
    then with_views g Ipgm (map_set (views g Ipgm) (vid v) (if made then program else v))
  else if (k =? MARKER) || (k =? OBJECT) then with_views g Other (map_set (views g Other) (vid v) v)
  else g.

(** Group::inject, group.cpp:892-1010, for the views and the newly salient views;
    the inputs given to the controllers and the signaling jobs are not modelled.
    A view of a NULL_PROGRAM comes with its controller.  When the C++ program is
    unknown the function returns early (928-929), without releasing the lock. *)
Definition inject (g : group) (v : gview) (made : bool) (now : Z) : group :=
  let v := with_ijt v now in
  let k := kind v in
  let program := with_ctl v (Some (is_active_pgm g (vw v))) in
  let salient g := if is_eligible_input g (vw v) then with_newly g (newly g ++ [vid v]) else g in
  if k =? NULL_PROGRAM
    then salient (with_views g Ipgm (map_set (views g Ipgm) (vid v)
           (if is_active_pgm g (vw v) then with_ctl v (match ctl v with Some _ => Some true | None => None end) else v)))
  else if (k =? INSTANTIATED_PROGRAM) || (k =? COMPOSITE_STATE) || (k =? MODEL)
    then salient (with_views g Ipgm (map_set (views g Ipgm) (vid v) program))
  else if k =? INSTANTIATED_CPP_PROGRAM
    then if made then salient (with_views g Ipgm (map_set (views g Ipgm) (vid v) program))
         else with_views g Ipgm (map_set (views g Ipgm) (vid v) v)
  else if k =? INSTANTIATED_ANTI_PROGRAM then salient (with_views g Anti (map_set (views g Anti) (vid v) program))
  else if k =? INSTANTIATED_INPUT_LESS_PROGRAM then salient (with_views g InputLess (map_set (views g InputLess) (vid v) program))
  else if (k =? MARKER) || (k =? OBJECT) then salient (with_views g Other (map_set (views g Other) (vid v) v))
  else salient g.

(** Group::inject_hlps, group.cpp:837-890, for one of the views. *)
Definition inject_hlp (g : group) (v : gview) (now : Z) : group :=
  let v := with_ijt v now in
  if (kind v =? COMPOSITE_STATE) || (kind v =? MODEL)
  then with_views g Ipgm (map_set (views g Ipgm) (vid v) (with_ctl v (Some (is_active_pgm g (vw v)))))
  else g.
(** Group::inject_group, group.cpp:1082-1102. *)
Definition inject_group (g : group) (v : gview) : group :=
  let v := if c_salient g && flt (get g SlnThr) (get_sln (vw v)) && flt (get g VisThr) (get_vis (vw v))
           then with_seen v (Some (get_cov v)) else v in
  with_views g Grp (map_set (views g Grp) (vid v) v).
(** Group::inject_notification, group.cpp:1104-1126. *)
Definition inject_notification (g : group) (v : gview) (now : Z) : group :=
  with_views g Ntf (map_set (views g Ntf) (vid v) (with_ijt v now)).
(** Group::load_secondary_mdl_controller and inject_secondary_mdl_controller,
    group.cpp:1288-1314: [v] is the view of the model in the primary group and
    [oid] the new OID of its copy. *)
Definition load_secondary (g : group) (v : gview) (oid : Z) : group :=
  with_views g Ipgm (map_set (views g Ipgm) oid
    (mkgv oid (kind v) (ntf v) (ijt v) (reset (with_word (vw v) VIEW_ACT (of_num fzero))) (Some false) None)).
(** Group::inject_existing_object, group.cpp:1044-1079, when the object has a view
    [oid] in the group already; [v] is the new view. *)
Definition inject_existing (g : group) (oid : Z) (v : gview) (now : Z) : group :=
  match get_view g oid with
  | None => g
  | Some e =>
      let ops := [PSet oid VIEW_RES (get_res (vw v)); PSet oid VIEW_SLN (get_sln (vw v))]
                 ++ (if is_program (kind v) && negb (kind v =? NULL_PROGRAM) then [PSet oid VIEW_ACT (get_act (vw v))] else []) in
      let g := with_pend g (pend g ++ ops) in
      let g := change_view g oid (fun e => with_ijt (with_vw e (with_word (vw e) VIEW_SYNC (word (vw v) VIEW_SYNC))) now) in
      let is_salient := flt (get g SlnThr) (get_sln (vw v)) in
      let was_salient := flt (get g SlnThr) (get_sln (vw e)) in
      let g := update_c_act g in
      let active := c_active g in
      let g := update_c_sln g in
      let salient := c_salient g in
      if active && salient && negb was_salient && is_salient then with_newly g (newly g ++ [vid v]) else g
  end.

(** ** Update *)

(** What an update depends on besides the group: the planned time, the clock,
    which objects are invalidated (by OID of the view), the value produced by
    undefined conversions, and, because the order of evaluation of the arguments of
    the constructor at group.cpp:583 is unspecified, whether get_c_act() (and
    get_c_sln()) is read before update_c_act() (update_c_sln()). *)
Record env := mkenv { planned : Z; now : Z; invalid : Z -> bool; ub : Z; act_in_order : bool; sln_in_order : bool }.

(** GroupState, group.h:165-177. *)
Record gstate := mkstate { former_sln_thr : spec_float; was_c_active : bool; is_c_active : bool; was_c_salient : bool; is_c_salient : bool }.

(** Notifications emitted by an update (one for each notification group), and the
    calls of _initiate_sln_propagation: the view, the change and the threshold. *)
Inductive note := LowRes (oid : Z) | HighSln (oid : Z) | LowSln (oid : Z) | HighAct (oid : Z) | LowAct (oid : Z)
  | SlnChg (oid : Z) (change : spec_float) | ActChg (oid : Z) (change : spec_float).
(** The statistics (group.h:128-135) and what else the loop over the views
    changes. *)
Record stats := mkstats { avg : spec_float; high : spec_float; low : spec_float; updates : Z }.
Definition no_stats : stats := mkstats fzero fzero fone 0. (** reset_stats, group.cpp:156-164. *)
(** group.cpp:413-418 and 441-446. *)
Definition count (s : stats) (x : spec_float) : stats :=
  let a := fadd (avg s) x in
  let n := u32 (updates s + 1) in
  if flt (high s) x then mkstats a x (low s) n
  else if flt x (low s) then mkstats a (high s) x n
  else mkstats a (high s) (low s) n.
Record progress := mkprog { st_sln : stats; st_act : stats; p_newly : list Z; p_new_ctl : list Z; notes : list note; spread : list (Z * spec_float) }.
Definition note_it (p : progress) (n : note) : progress := mkprog (st_sln p) (st_act p) (p_newly p) (p_new_ctl p) (notes p ++ [n]) (spread p).

(** Group::update_res, group.cpp:393-405 (the invalidated case is dealt with
    before). *)
Definition g_update_res (g : group) (v : gview) (p : progress) : gview * spec_float * progress :=
  let (w, res) := update_res (vw v) in
  let p := if negb (ntf v) && flt fzero res && flt res (gnum g GRP_LOW_RES_THR) then note_it p (LowRes (vid v)) else p in
  (with_vw v w, res, p).

(** Group::update_sln, group.cpp:407-436.  The comparison of the counters with
    the period is made in float32. *)
Definition g_update_sln (g : group) (v : gview) (p : progress) : gview * spec_float * progress :=
  let w := if (0 <? to_go (dcy g)) && negb (feqb (sln_decay (dcy g)) fzero)
           then mod_sln (vw v) (fmul (get_sln (vw v)) (sln_decay (dcy g))) else vw v in
  let (w, sln) := update_sln w (gnum g GRP_LOW_SLN_THR) (gnum g GRP_HIGH_SLN_THR) in
  let p := mkprog (count (st_sln p) sln) (st_act p) (p_newly p) (p_new_ctl p) (notes p) (spread p) in
  let prd := gnum g GRP_SLN_NTF_PRD in
  if ntf v then (with_vw v w, sln, p)
  else if feqb (f32_of_Z (high_sln w)) prd then (with_vw v (with_p_sln w (low_sln w) 0), sln, note_it p (HighSln (vid v)))
  else if feqb (f32_of_Z (low_sln w)) prd then (with_vw v (with_p_sln w 0 (high_sln w)), sln, note_it p (LowSln (vid v)))
  else (with_vw v w, sln, p).

(** Group::update_act, group.cpp:438-464. *)
Definition g_update_act (g : group) (v : gview) (p : progress) : gview * spec_float * progress :=
  let (w, act) := update_act (vw v) (gnum g GRP_LOW_ACT_THR) (gnum g GRP_HIGH_ACT_THR) in
  let p := mkprog (st_sln p) (count (st_act p) act) (p_newly p) (p_new_ctl p) (notes p) (spread p) in
  let prd := gnum g GRP_ACT_NTF_PRD in
  if ntf v then (with_vw v w, act, p)
  else if feqb (f32_of_Z (high_act w)) prd then (with_vw v (with_p_act w (low_act w) 0), act, note_it p (HighAct (vid v)))
  else if feqb (f32_of_Z (low_act w)) prd then (with_vw v (with_p_act w 0 (high_act w)), act, note_it p (LowAct (vid v)))
  else (with_vw v w, act, p).

(** Group::_update_saliency, group.cpp:668-702. *)
Definition _update_saliency (e : env) (g : group) (s : gstate) (v : gview) (p : progress) : gview * progress :=
  let old := get_sln (vw v) in
  let was_salient := flt (former_sln_thr s) old in
  let '(v, new, p) := g_update_sln g v p in
  let is_salient := flt (get g SlnThr) new in
  if is_c_salient s then
    let sync := get_sync (ub e) v in
    let add (p : progress) := mkprog (st_sln p) (st_act p) (p_newly p ++ [vid v]) (p_new_ctl p) (notes p) (spread p) in
    let '(v, p) :=
      if is_salient then
        if (sync =? SYNC_ONCE) || (sync =? SYNC_ONCE_AXIOM) || (sync =? SYNC_PERIODIC)
        then if was_salient then (v, p) else (v, add p)
        else if (sync =? SYNC_HOLD) || (sync =? SYNC_AXIOM) then (with_ijt v (now e), add p)
        else (v, p)
      else (v, p) in
    if is_c_active s
    then (v, mkprog (st_sln p) (st_act p) (p_newly p) (p_new_ctl p) (notes p) (spread p ++ [(vid v, fsub new old)]))
    else (v, p)
  else (v, p).

(** Group::_update_visibility, group.cpp:704-734. *)
Definition _update_visibility (g : group) (s : gstate) (v : gview) : gview :=
  let was_visible := flt (get g VisThr) (get_vis (vw v)) in
  let (w, vis) := update_vis (vw v) in
  let v := with_vw v w in
  let is_visible := flt (get g VisThr) vis in
  let cov := get_cov v in
  if was_c_active s && was_c_salient s then
    if negb (is_c_active s) || negb (is_c_salient s) then with_seen v None
    else if negb was_visible then if is_visible then with_seen v (Some cov) else v
    else if negb is_visible then with_seen v None else with_seen v (Some cov)
  else if is_c_active s && is_c_salient s then if is_visible then with_seen v (Some cov) else v
  else v.

(** Group::_update_activation, group.cpp:736-769.  None: a view without
    controller. *)
Definition _update_activation (g : group) (s : gstate) (v : gview) (p : progress) : option (gview * progress) :=
  let was_active := flt (get g ActThr) (get_act (vw v)) in
  let '(v, act, p) := g_update_act g v p in
  let is_active := flt (get g ActThr) act in
  let gain := match ctl v with
              | Some _ => Some (with_ctl v (Some true), mkprog (st_sln p) (st_act p) (p_newly p) (p_new_ctl p ++ [vid v]) (notes p) (spread p))
              | None => None end in
  let lose := match ctl v with Some _ => Some (with_ctl v (Some false), p) | None => None end in
  if was_c_active s && was_c_salient s then
    if negb (is_c_active s) || negb (is_c_salient s) then lose
    else if negb was_active then if is_active then gain else Some (v, p)
    else if negb is_active then lose else Some (v, p)
  else if is_c_active s && is_c_salient s then if is_active then gain else Some (v, p)
  else Some (v, p).

(** The body of the loop of Group::update, group.cpp:587-626, on one view of the
    collection [pl]: what remains of the view.  None: undefined behaviour (a
    missing controller, or erasing from a collection other than the one being
    iterated). *)
Definition visit (e : env) (g : group) (s : gstate) (pl : place) (v : gview) (p : progress) : option (option gview * progress) :=
  let erase (p : progress) := match place_of v with Some q => if place_eqb q pl then Some (None, p) else None | None => None end in
  if invalid e (vid v) then erase p
  else if planned e <=? ijt v then Some (Some v, p)
  else
    let '(v, res, p) := g_update_res g v p in
    if flt fzero res then
      let '(v, p) := _update_saliency e g s v p in
      if kind v =? GROUP then Some (Some (_update_visibility g s v), p)
      else if is_program (kind v) then
        match _update_activation g s v p with Some (v, p) => Some (Some v, p) | None => None end
      else Some (Some v, p)
    else erase p.

Fixpoint visit_all (e : env) (g : group) (s : gstate) (pl : place) (m : vmap) (p : progress) : option (vmap * progress) :=
  match m with
  | [] => Some ([], p)
  | (k, v) :: m' =>
      match visit e g s pl v p with
      | None => None
      | Some (r, p) =>
          match visit_all e g s pl m' p with
          | None => None
          | Some (m', p) => Some (match r with Some v => (k, v) :: m' | None => m' end, p)
          end
      end
  end.
Fixpoint visit_places (e : env) (g : group) (s : gstate) (pls : list place) (p : progress) : option (group * progress) :=
  match pls with
  | [] => Some (g, p)
  | pl :: pls' =>
      match visit_all e g s pl (views g pl) p with
      | None => None
      | Some (m, p) => visit_places e (with_views g pl m) s pls' p
      end
  end.

(** Group::update_stats, group.cpp:185-239.  The monitored changes are those of
    the views that are not notifications. *)
Definition update_act_delta (v : view) : view * spec_float :=
  (mkview (vcode v) (t_sln v) (t_act v) (t_vis v) (t_res v) (low_sln v) (high_sln v) (low_act v) (high_act v) (i_sln v) (get_act v),
   fsub (get_act v) (i_act v)). (** View::update_act_delta, view.inline.cpp:280-286. *)
Definition fabs (f : spec_float) : spec_float := SFabs f.
Definition watch (delta : view -> view * spec_float) (n : Z -> spec_float -> note) (thr : spec_float) (m : vmap) : vmap * list note :=
  fold_right (fun kv r => let (w, d) := delta (vw (snd kv)) in
                          ((fst kv, with_vw (snd kv) w) :: fst r,
                           if flt thr (fabs d) then n (vid (snd kv)) d :: snd r else snd r)) ([], []) m.
Definition non_ntf : list place := [Ipgm; Anti; InputLess; Grp; Other].
Fixpoint watch_places (delta : view -> view * spec_float) (n : Z -> spec_float -> note) (thr : spec_float) (g : group) (pls : list place) : group * list note :=
  match pls with
  | [] => (g, [])
  | pl :: pls' => let (m, l) := watch delta n thr (views g pl) in
                  let (g, l') := watch_places delta n thr (with_views g pl m) pls' in (g, l ++ l')
  end.
Definition mean_stat (s : stats) : spec_float := if updates s =? 0 then avg s else fdiv (avg s) (f32_of_Z (updates s)).
Definition step_decay (ub : Z) (g : group) : Z :=
  let n := if 0 <? to_go (dcy g) then to_go (dcy g) - 1 else to_go (dcy g) in
  if negb (feqb (gnum g GRP_DCY_AUTO) fzero) && ((n <=? 0) && flt fzero (gnum g GRP_DCY_PRD))
  then to_int32 ub (gnum g GRP_DCY_PRD) else n.
Definition update_stats (e : env) (g : group) (p : progress) : group * list note :=
  let d := dcy g in
  let g := with_dcy g (mkdecay (sln_decay d) (thr_decay d) (step_decay (ub e) g) (percentage d) (target d)) in
  let g := gput g GRP_AVG_SLN (mean_stat (st_sln p)) in
  let g := gput g GRP_AVG_ACT (mean_stat (st_act p)) in
  let g := gput g GRP_HIGH_SLN (high (st_sln p)) in
  let g := gput g GRP_LOW_SLN (low (st_sln p)) in
  let g := gput g GRP_HIGH_ACT (high (st_act p)) in
  let g := gput g GRP_LOW_ACT (low (st_act p)) in
  let (g, l1) := if mon_sln g =? 0 then watch_places update_sln_delta SlnChg (gnum g GRP_SLN_CHG_THR) g non_ntf else (g, []) in
  let (g, l2) := if mon_act g =? 0 then watch_places update_act_delta ActChg (gnum g GRP_ACT_CHG_THR) g non_ntf else (g, []) in
  (g, l1 ++ l2).

(** The part of Group::update that precedes the loop, group.cpp:567-585. *)
Definition update_begin (e : env) (g : group) : group * gstate :=
  let g := with_newly g [] in
  let g := with_pend (fold_left execute (pend g) g) [] in
  let g := update_sln_thr (ub e) g in
  let g := update_act_thr g in
  let g := update_vis_thr g in
  let was_a := c_active g in let was_s := c_salient g in
  let g := update_c_act g in
  let is_a := c_active g in
  let g := update_c_sln g in
  let is_s := c_salient g in
  let s := mkstate (get g SlnThr) (if act_in_order e then was_a else is_a) is_a (if sln_in_order e then was_s else is_s) is_s in
  (with_mon g (step_monitor (ub e) (mon_sln g) (gnum g GRP_SLN_CHG_THR) (gnum g GRP_SLN_CHG_PRD))
              (step_monitor (ub e) (mon_act g) (gnum g GRP_ACT_CHG_THR) (gnum g GRP_ACT_CHG_PRD)), s).

(** Group::update, group.cpp:556-666, for a group that still has a view of its
    own (otherwise, 560-565, it is invalidated and not updated any more).  The
    result: the group, the notifications, the propagations of saliency, the views
    whose controllers are to be signaled (636-655), and the newly salient views,
    which are given to the controllers (632-634, not modelled further).
    Notifications meant for the group itself enter it during the loop; here they
    are outputs, and enter the group by [inject_notification] afterwards: their
    injection time is not before the planned time, so the loop leaves them as they
    are. *)
Record output := mkout { o_notes : list note; o_spread : list (Z * spec_float); o_signal : list Z; o_newly : list Z }.
Definition order : list place := [Ipgm; Anti; InputLess; Ntf; Grp; Other].
Definition update (e : env) (g : group) : option (group * output) :=
  let (g, s) := update_begin e g in
  match visit_places e g s order (mkprog no_stats no_stats (newly g) (new_ctl g) [] []) with
  | None => None
  | Some (g, p) =>
      let g := with_newly g (p_newly p) in
      let both := is_c_active s && is_c_salient s in
      let g := with_new_ctl g (if both then [] else p_new_ctl p) in
      let (g, l) := update_stats e g p in
      Some (g, mkout (notes p ++ l) (spread p) (if both then p_new_ctl p else []) (p_newly p))
  end.

(** Group::get_next_upr_time and get_prev_upr_time, group.cpp:1316-1334: [base] is
    the base period and [ref] the time reference, in microseconds; None stands for
    Utils_MaxTime.  % truncates towards zero. *)
Definition get_upr (ub : Z) (g : group) : Z := to_uint32 ub (gnum g GRP_UPR).
Definition get_next_upr_time (upr base ref now : Z) : option Z :=
  if upr =? 0 then None else Some (now - Z.rem (now - ref) (upr * base) + upr * base).
Definition get_prev_upr_time (upr base ref now : Z) : option Z :=
  if upr =? 0 then None else Some (now - Z.rem (now - ref) (upr * base)).

(** The planned times of the updates of a group: the first is given by
    get_next_upr_time (mem.cpp:500-504, group.cpp:1098-1099), and every update plans
    the next one (group.cpp:659-663) with the period read then; [uprs] are the
    periods read by the successive updates. *)
Definition next_planned (upr base planned : Z) : option Z := if 0 <? upr then Some (planned + upr * base) else None.
Fixpoint planned_times (uprs : list Z) (base : Z) (t : option Z) : list Z :=
  match t, uprs with
  | Some t, upr :: uprs' => t :: planned_times uprs' base (next_planned upr base t)
  | Some t, [] => [t]
  | None, _ => []
  end.
(** The updates planned when a group enters memory. *)
Definition first_update (upr base ref now : Z) : option Z := if 0 <? upr then get_next_upr_time upr base ref now else None.
