(** Notifications, flags, visibility, decay and change monitoring of groups. *)
From Coq Require Import Floats.SpecFloat.
From Verif Require Import Base Float32 Atom_model Obj_model View_model View_spec View_proofs Grp_model Grp_spec Grp_more Grp2_spec Grp3_proofs Grp5_proofs.

(** ** C50 Notifications of low and high saliency and activation *)

(** With an integer period of at most 2^24, a view held across updates is notified
    as low at exactly the updates that bring the number of consecutive low
    saliencies to a multiple of the period, and as high at exactly those that leave
    it high after a multiple of the period of high saliencies since it was last
    neither high nor low. *)
Theorem C50_low_and_high_notified : forall home code a b os0 g oid v prd os gz e g' out,
  Forall (proper home) os0 -> run_gops (new_group code a b) os0 = Some g ->
  get_view g oid = Some v -> ntf v = false -> low_sln (vw v) = 0 -> high_sln (vw v) = 0 -> 1 <= prd <= 16777216 -> feqb (gnum g GRP_SLN_NTF_PRD) (f32_of_Z prd) = true ->
  Forall (proper home) os -> Forall (keeps oid) os -> Forall (steady [GRP_SLN_NTF_PRD; GRP_LOW_SLN_THR; GRP_HIGH_SLN_THR]) os ->
  always_due oid g (os ++ [Update e]) -> run_gops g os = Some gz -> update e gz = Some (g', out) -> get_view g' oid <> None ->
  let low := gnum g GRP_LOW_SLN_THR in let high := gnum g GRP_HIGH_SLN_THR in let l := trace (sln_of oid) g (os ++ [Update e]) in
  (In (LowSln oid) (o_notes out) <-> 0 < trailing (fun x => flt x low) l /\ trailing (fun x => flt x low) l mod prd = 0) /\
  (In (HighSln oid) (o_notes out) <-> flt (sln_of oid g') low = false /\ flt high (sln_of oid g') = true /\ stretch low high l mod prd = 0).
Proof. exact sln_notified. Qed.
Print Assumptions C50_low_and_high_notified.
(** The same for the activations of programs. *)
Theorem C50_activation_notified : forall home code a b os0 g oid v prd os gz e g' out,
  Forall (proper home) os0 -> run_gops (new_group code a b) os0 = Some g ->
  get_view g oid = Some v -> ntf v = false -> is_program (kind v) = true -> low_act (vw v) = 0 -> high_act (vw v) = 0 -> 1 <= prd <= 16777216 -> feqb (gnum g GRP_ACT_NTF_PRD) (f32_of_Z prd) = true ->
  Forall (proper home) os -> Forall (keeps oid) os -> Forall (steady [GRP_ACT_NTF_PRD; GRP_LOW_ACT_THR; GRP_HIGH_ACT_THR]) os ->
  always_due oid g (os ++ [Update e]) -> run_gops g os = Some gz -> update e gz = Some (g', out) -> get_view g' oid <> None ->
  let low := gnum g GRP_LOW_ACT_THR in let high := gnum g GRP_HIGH_ACT_THR in let l := trace (act_of oid) g (os ++ [Update e]) in
  (In (LowAct oid) (o_notes out) <-> 0 < trailing (fun x => flt x low) l /\ trailing (fun x => flt x low) l mod prd = 0) /\
  (In (HighAct oid) (o_notes out) <-> flt (act_of oid g') low = false /\ flt high (act_of oid g') = true /\ stretch low high l mod prd = 0).
Proof. exact act_notified. Qed.
Print Assumptions C50_activation_notified.
(** With the period 0 a view is notified as high although its saliency is low. *)
Theorem C50_period_zero_refuted : exists home code os g e g' out v,
  Forall (proper home) os /\ run_gops (new_group code 0 0) os = Some g /\ gnum g GRP_SLN_NTF_PRD = fzero /\ update e g = Some (g', out) /\ get_view g' 2 = Some v /\
  flt (get_sln (vw v)) (gnum g GRP_LOW_SLN_THR) = true /\ flt (gnum g GRP_LOW_SLN_THR) (gnum g GRP_HIGH_SLN_THR) = true /\ In (HighSln 2) (o_notes out).
Proof. exact period_zero_refuted. Qed.
Print Assumptions C50_period_zero_refuted.
Example C50_notified_example :
  let v := w_obj 2 quarter in
  exists g g1 g2 o1 o2, run_gops (new_group (w_code half fzero fone fone) 0 0) (configured [(GRP_LOW_SLN_THR, half); (GRP_HIGH_SLN_THR, three_quarters); (GRP_SLN_NTF_PRD, f32_of_Z 2)] ++ [Inject v true 0]) = Some g /\
    get_view g 2 = Some v /\ low_sln (vw v) = 0 /\ high_sln (vw v) = 0 /\ feqb (gnum g GRP_SLN_NTF_PRD) (f32_of_Z 2) = true /\
    update (w_env 10) g = Some (g1, o1) /\ o_notes o1 = [] /\ update (w_env 20) g1 = Some (g2, o2) /\ In (LowSln 2) (o_notes o2) /\
    trailing (fun x => flt x half) (trace (sln_of 2) g [Update (w_env 10); Update (w_env 20)]) = 2.
Proof. do 5 eexists. split; [vm_compute; reflexivity|]. repeat (split; [vm_compute; reflexivity|]). split; [vm_compute; auto|]. vm_compute. reflexivity. Qed.

(** ** C54 Views injected, and the injection time of views held *)

(** An injection hands the new view to the programs exactly when it is above the
    saliency threshold of a c-salient and c-active group. *)
Theorem C54_injected : forall g v made t,
  injectable (kind v) -> (kind v = INSTANTIATED_CPP_PROGRAM -> made = true) ->
  newly (inject g v made t) = newly g ++ (if flt (get g SlnThr) (get_sln (vw v)) && c_salient g && c_active g then [vid v] else []).
Proof. exact injected_newly. Qed.
Print Assumptions C54_injected.
(** The views that are above the threshold in the modes hold and axiom are injected
    anew at each update; the others keep their injection time. *)
Theorem C54_renewed : forall home code a b os g e g' out k v w,
  Forall (proper home) os -> run_gops (new_group code a b) os = Some g -> update e g = Some (g', out) ->
  get_view g k = Some v -> ijt v < planned e -> get_view g' k = Some w ->
  ijt w = (if c_salient g' && salient g' w && holds (get_sync (ub e) w) then now e else ijt v).
Proof. exact renewed_injection. Qed.
Print Assumptions C54_renewed.
Example C54_injected_example :
  newly (inject (new_group (w_code half fzero fone fone) 0 0) (w_obj 2 three_quarters) true 0) = [2] /\
  newly (inject (new_group (w_code half fzero fone fone) 0 0) (w_obj 2 half) true 0) = [].
Proof. split; vm_compute; reflexivity. Qed.

(** ** C22 Flags *)

(** A flag (decay target, automatic decay, notification of new views) takes the
    value it is set to, at once, if this is 0 or 1, and cannot be changed
    otherwise. *)
Theorem C22_flags : forall g i x,
  length (gcode g) = 32%nat -> In i [GRP_DCY_TGT; GRP_DCY_AUTO; GRP_NTF_NEW] ->
  gnum (group_set g i x) i = (if feqb x fzero || feqb x fone then kept x else gnum g i) /\ group_mod g i x = g.
Proof. exact flags. Qed.
Print Assumptions C22_flags.
Example C22_flags_example : let g := new_group (w_code half fzero fone fone) 0 0 in
  gnum (group_set g GRP_DCY_AUTO fone) GRP_DCY_AUTO = fone /\ gnum (group_set g GRP_DCY_AUTO half) GRP_DCY_AUTO = fzero.
Proof. split; vm_compute; reflexivity. Qed.

(** ** C78 Visibility of groups *)

(** Full statement: the same for all histories.  Missing here: histories with requests
    on the visibility threshold, injections of groups or of existing objects, and
    updates before the injection time of a view. *)
Theorem C78_visibility_partial : forall home code a b os g,
  Forall (proper home) os -> clear (new_group code a b) os -> run_gops (new_group code a b) os = Some g -> sight_right g.
Proof. exact visibility. Qed.
Print Assumptions C78_visibility_partial.
(** A group injected in a group that is not c-active is seen. *)
Theorem C78_injected_group_refuted : exists home code os g, Forall (proper home) os /\ run_gops (new_group code 0 0) os = Some g /\ c_active g = false /\ ~ sight_right g.
Proof. exact sight_refuted. Qed.
Print Assumptions C78_injected_group_refuted.
Example C78_example :
  let os := [LoadView (w_group 7 half half) false; Update (w_env 10)] in
  exists g, Forall (proper g_home) os /\ clear (new_group (w_code fzero fzero fone fone) 0 0) os /\ run_gops (new_group (w_code fzero fzero fone fone) 0 0) os = Some g /\ map seen (all_views g) = [Some false].
Proof.
  eexists. split; [repeat (constructor; [cbn; unfold g_home; cbn; tauto|]); constructor|].
  split; [|split; vm_compute; reflexivity]. cbn [clear clear_op run_gop]. split; [intros _; reflexivity|]. split; [|vm_compute; exact Logic.I]. split; [reflexivity|]. split; [reflexivity|].
  intros v H; vm_compute in H; destruct H as [<-|[]]; vm_compute; reflexivity.
Qed.

(** ** C79 Notifications of changes *)

(** A change is reported at exactly the updates at which the countdown is at 0 and the
    value differs by more than the threshold from what it was when last looked at. *)
Theorem C79_saliency_change_reported : forall home code a b os0 g oid v os gz e g' out u d,
  Forall (proper home) os0 -> run_gops (new_group code a b) os0 = Some g -> get_view g oid = Some v -> ntf v = false ->
  Forall (proper home) os -> Forall (keeps oid) os -> run_gops g os = Some gz -> update e gz = Some (g', out) -> get_view g' oid = Some u ->
  (In (SlnChg oid d) (o_notes out) <-> mon_sln g' = 0 /\ d = fsub (get_sln (vw u)) (last_looked (i_sln (vw v)) (trace (fun h => (mon_sln h, sln_of oid h)) g os)) /\ flt (gnum g' GRP_SLN_CHG_THR) (fabs d) = true).
Proof. exact sln_change_reported. Qed.
Print Assumptions C79_saliency_change_reported.
Theorem C79_activation_change_reported : forall home code a b os0 g oid v os gz e g' out u d,
  Forall (proper home) os0 -> run_gops (new_group code a b) os0 = Some g -> get_view g oid = Some v -> ntf v = false ->
  Forall (proper home) os -> Forall (keeps oid) os -> run_gops g os = Some gz -> update e gz = Some (g', out) -> get_view g' oid = Some u ->
  (In (ActChg oid d) (o_notes out) <-> mon_act g' = 0 /\ d = fsub (get_act (vw u)) (last_looked (i_act (vw v)) (trace (fun h => (mon_act h, act_of oid h)) g os)) /\ flt (gnum g' GRP_ACT_CHG_THR) (fabs d) = true).
Proof. exact act_change_reported. Qed.
Print Assumptions C79_activation_change_reported.
(** Full statement: changes are looked at every period.  They are looked at every
    period plus one updates, after the initial value of the countdown has run out. *)
Theorem C79_saliency_countdown_partial : forall home code a b os0 g os g' prd,
  0 <= prd <= 16777216 -> Forall (proper home) os0 -> run_gops (new_group code a b) os0 = Some g ->
  Forall (proper home) os -> Forall (steady [GRP_SLN_CHG_THR; GRP_SLN_CHG_PRD]) os -> run_gops g os = Some g' -> flt (gnum g GRP_SLN_CHG_THR) fone = true -> feqb (gnum g GRP_SLN_CHG_PRD) (f32_of_Z prd) = true ->
  mon_sln g' = countdown (mon_sln g) prd (count_updates os).
Proof. exact sln_countdown. Qed.
Print Assumptions C79_saliency_countdown_partial.
Theorem C79_activation_countdown_partial : forall home code a b os0 g os g' prd,
  0 <= prd <= 16777216 -> Forall (proper home) os0 -> run_gops (new_group code a b) os0 = Some g ->
  Forall (proper home) os -> Forall (steady [GRP_ACT_CHG_THR; GRP_ACT_CHG_PRD]) os -> run_gops g os = Some g' -> flt (gnum g GRP_ACT_CHG_THR) fone = true -> feqb (gnum g GRP_ACT_CHG_PRD) (f32_of_Z prd) = true ->
  mon_act g' = countdown (mon_act g) prd (count_updates os).
Proof. exact act_countdown. Qed.
Print Assumptions C79_activation_countdown_partial.
(** With the threshold 1 a countdown under way is stopped, and none is started. *)
Theorem C79_stopped : forall e g g' out, update e g = Some (g', out) ->
  (feqb (gnum g GRP_SLN_CHG_THR) fone = true -> mon_sln g' = if 0 <? mon_sln g then -1 else mon_sln g) /\
  (feqb (gnum g GRP_ACT_CHG_THR) fone = true -> mon_act g' = if 0 <? mon_act g then -1 else mon_act g).
Proof. exact stopped. Qed.
Print Assumptions C79_stopped.
Theorem C79_every_period_refuted : exists home code os g g1 g2,
  Forall (proper home) os /\ run_gops (new_group code 0 0) os = Some g /\ gnum g GRP_SLN_CHG_PRD = fone /\ flt (gnum g GRP_SLN_CHG_THR) fone = true /\ mon_sln g = 0 /\
  run_gops g [Update (w_env 20)] = Some g1 /\ mon_sln g1 <> 0 /\ run_gops g1 [Update (w_env 30)] = Some g2 /\ mon_sln g2 = 0.
Proof. exact every_period_refuted. Qed.
Print Assumptions C79_every_period_refuted.
Example C79_example :
  let v := w_obj 2 quarter in
  exists g g1 o1, run_gops (new_group (w_code half fzero fone fone) 1 0) (configured [(GRP_SLN_CHG_THR, quarter); (GRP_SLN_CHG_PRD, fone)] ++ [Inject v true 0; AskView (PMod 2 VIEW_SLN half)]) = Some g /\
    update (w_env 10) g = Some (g1, o1) /\ mon_sln g1 = 0 /\ i_sln (vw v) = fzero /\ In (SlnChg 2 three_quarters) (o_notes o1).
Proof. do 3 eexists. repeat (split; [vm_compute; reflexivity|]). vm_compute. auto. Qed.

(** ** C80 Decay *)

(** From a new group on, with a decay of the percentage [per] over [p] updates, each
    of the first [p] updates (each update, with automatic decay) changes the
    saliency by the fraction per/p of its current value if the target is 0, and
    leaves it if the target is 1. *)
Theorem C80_saliency_decays : forall home code a b os0 g oid v os g' u p,
  Forall (proper home) os0 -> Forall (fun o => is_update o = false) os0 -> run_gops (new_group code a b) os0 = Some g ->
  get_view g oid = Some v -> length (vcode (vw v)) = 13%nat -> t_sln (vw v) = no_tally -> Forall (fun o => spares oid (AskView o)) (pend g) ->
  1 <= p <= 16777216 -> feqb (gnum g GRP_DCY_PRD) (f32_of_Z p) = true ->
  let per := gnum g GRP_DCY_PER in let tgt := gnum g GRP_DCY_TGT in let ppp := fdiv per (gnum g GRP_DCY_PRD) in
  feqb per fzero = false -> feqb ppp fzero = false -> ppp <> S754_nan -> feqb tgt fzero = true \/ feqb tgt fone = true ->
  Forall (proper home) os -> Forall (spares oid) os -> Forall (steady dcy_members) os -> always_due oid g os -> run_gops g os = Some g' -> get_view g' oid = Some u ->
  get_sln (vw u) = if feqb tgt fzero then times (Z.to_nat (if feqb (gnum g GRP_DCY_AUTO) fzero then Z.min (count_updates os) p else count_updates os)) (fun x => updated Sln x [fmul x ppp]) (get_sln (vw v)) else get_sln (vw v).
Proof. exact saliency_decays. Qed.
Print Assumptions C80_saliency_decays.
(** The same for the saliency threshold when the target is 1. *)
Theorem C80_threshold_decays : forall home code a b os0 g os g' p,
  Forall (proper home) os0 -> Forall (fun o => is_update o = false) os0 -> run_gops (new_group code a b) os0 = Some g ->
  length (gcode g) = 32%nat -> tal g SlnThr = no_tally ->
  1 <= p <= 16777216 -> feqb (gnum g GRP_DCY_PRD) (f32_of_Z p) = true ->
  let per := gnum g GRP_DCY_PER in let tgt := gnum g GRP_DCY_TGT in let ppp := fdiv per (gnum g GRP_DCY_PRD) in
  feqb per fzero = false -> feqb ppp fzero = false -> ppp <> S754_nan -> feqb tgt fzero = true \/ feqb tgt fone = true ->
  Forall (proper home) os -> Forall (steady (GRP_SLN_THR :: dcy_members)) os -> run_gops g os = Some g' ->
  get g' SlnThr = if feqb tgt fzero then get g SlnThr else times (Z.to_nat (if feqb (gnum g GRP_DCY_AUTO) fzero then Z.min (count_updates os) p else count_updates os)) (fun x => gupdated x [fmul x ppp]) (get g SlnThr).
Proof. exact threshold_decays. Qed.
Print Assumptions C80_threshold_decays.
(** The change over the whole period is not the percentage: a decay of one half over
    two updates leaves more than half. *)
Theorem C80_percentage_refuted : exists home code os g v us g' u,
  Forall (proper home) os /\ run_gops (new_group code 0 0) os = Some g /\ get_view g 2 = Some v /\
  feqb (gnum g GRP_DCY_PER) (SFopp half) = true /\ feqb (gnum g GRP_DCY_PRD) (f32_of_Z 2) = true /\ gnum g GRP_DCY_TGT = fzero /\
  us = [Update (w_env 10); Update (w_env 20)] /\ run_gops g us = Some g' /\ get_view g' 2 = Some u /\
  feqb (get_sln (vw u)) (fadd (get_sln (vw v)) (fmul (get_sln (vw v)) (SFopp half))) = false.
Proof. exact percentage_refuted. Qed.
Print Assumptions C80_percentage_refuted.
Example C80_example :
  let v := w_obj 2 fone in
  exists g g' u, run_gops (new_group (w_code half fzero fone fone) 0 0) (configured [(GRP_DCY_PER, SFopp half); (GRP_DCY_PRD, f32_of_Z 2)] ++ [Inject v true 0]) = Some g /\ get_view g 2 = Some v /\
    run_gops g [Update (w_env 10); Update (w_env 20); Update (w_env 30)] = Some g' /\ get_view g' 2 = Some u /\ feqb (get_sln (vw u)) (fmul three_quarters three_quarters) = true /\ pend g = [].
Proof. do 3 eexists. repeat (split; [vm_compute; reflexivity|]). vm_compute. reflexivity. Qed.
