(** Properties C21, C25 (views), C50 and C51. *)
From Verif Require Import Base Float32 Atom_model Obj_model Obj_spec View_model View_spec View_proofs.

(** ** C21 Control values of views *)

(** Full statement: for every history, each value is in range and is the one
    computed from the requests, each counted once (the mean of the requests since
    the last update, added to the old value, clamped, and the requests then
    forgotten).  [abs_ops] is that specification; the code agrees with it as long
    as fewer than 2^32 requests are pending on one value. *)
Theorem C21_requests_counted_once_partial : forall v os,
  fresh v -> Forall valid_vop os -> few (start v) os ->
  forall k, value (run_vops v os) k = a_value (abs_ops (start v) os) k.
Proof. exact refines. Qed.
Print Assumptions C21_requests_counted_once_partial.

(** Spelled out for one update after any requests. *)
Theorem C21_one_update_partial : forall v os k low high,
  fresh v -> Forall valid_vop os -> few (start v) os -> Forall no_update os ->
  value (run_vops v (os ++ [Update k low high])) k = updated k (value v k) (a_asked (abs_ops (start v) os) k).
Proof. exact one_update. Qed.
Print Assumptions C21_one_update_partial.

(** Range, after any history of finite requests. *)
Theorem C21_in_range_partial : forall v os,
  fresh v -> (forall k, in_range k (value v k)) -> Forall sensible_vop os ->
  forall k, in_range k (value (run_vops v os) k).
Proof. exact stays_in_range. Qed.
Print Assumptions C21_in_range_partial.

(** Requests that only raise (or only lower) a value never lower (raise) it. *)
Theorem C21_raising_requests_raise : forall v os k low high,
  fresh v -> Forall valid_vop os -> few (start v) os -> Forall no_update os -> k <> Res -> in_range k (value v k) ->
  Forall nonneg (a_asked (abs_ops (start v) os) k) ->
  fle (value v k) (value (run_vops v (os ++ [Update k low high])) k) = true.
Proof. exact moves_up. Qed.
Print Assumptions C21_raising_requests_raise.
Theorem C21_lowering_requests_lower : forall v os k low high,
  fresh v -> Forall valid_vop os -> few (start v) os -> Forall no_update os -> k <> Res -> in_range k (value v k) ->
  Forall nonpos (a_asked (abs_ops (start v) os) k) ->
  fle (value (run_vops v (os ++ [Update k low high])) k) (value v k) = true.
Proof. exact moves_down. Qed.
Print Assumptions C21_lowering_requests_lower.

(** The full range statement fails: two opposite infinite requests make the
    value a NaN. *)
Theorem C21_in_range_refuted : exists v os,
  fresh v /\ (forall k, in_range k (value v k)) /\ Forall valid_vop os /\ ~ in_range Sln (value (run_vops v os) Sln).
Proof. exact range_refuted. Qed.
Print Assumptions C21_in_range_refuted.

(** The count of requests wraps: 2^32 requests are all lost. *)
Theorem C21_requests_counted_once_refuted : exists v os,
  fresh v /\ (forall k, in_range k (value v k)) /\ Forall sensible_vop os /\ Forall no_update os /\
  value (run_vops v (os ++ [Update Sln fzero fone])) Sln <> updated Sln (value v Sln) (a_asked (abs_ops (start v) os) Sln).
Proof. exact lost_requests. Qed.
Print Assumptions C21_requests_counted_once_refuted.

Example C21_example :
  let v := w_view quarter (f32_of_Z 3) half fone in
  let os := [AskAdd 3 half; AskSet 3 fone; AskAdd 7 (f32_of_Z 4); AskSet 4 (f32_of_Z 9); AskAdd 5 fone; Update Sln fzero fone; Update Act fzero fone; Update Res fzero fone; Update Sln fzero fone] in
  fresh v /\ Forall valid_vop os /\ Forall sensible_vop os /\ few (start v) os /\ (forall k, in_range k (value v k)) /\
  (* 1/4 + (1/2 + 3/4) / 2 = 7/8, 1/2 + 4 clamped to 1, 3 + 6 - 1 = 8 *)
  value (run_vops v os) Sln = fdiv (f32_of_Z 7) (f32_of_Z 8) /\ value (run_vops v os) Act = fone /\
  value (run_vops v os) Res = f32_of_Z 8 /\ value (run_vops v os) Vis = fone.
Proof.
  split; [split; [reflexivity|]; split; [intros []; vm_compute; split; congruence|]; repeat split|].
  split; [repeat constructor|]. split; [repeat constructor|].
  split; [cbn [few]; repeat (split; [intros []; vm_compute; reflexivity|]); exact Logic.I|].
  split; [intros []; vm_compute; split; trivial|]. repeat split; vm_compute; reflexivity.
Qed.

(** ** C25 Resilience of one view *)

(** Full statement, for a view: with initial resilience n it survives n - 1
    updates and is exhausted at the n-th.  Proved for n up to 2^23; the
    resilience after k updates is exactly n - k. *)
Theorem C25_view_countdown_partial : forall v n,
  length (vcode v) = 13%nat -> t_res v = no_tally -> word v VIEW_RES = init_res n -> 0 <= n <= 8388608 ->
  forall k, Z.of_nat k <= n ->
    feqb (get_res (res_updates k v)) (f32_of_Z (n - Z.of_nat k)) = true /\
    flt fzero (get_res (res_updates k v)) = (Z.of_nat k <? n).
Proof. exact countdown. Qed.
Print Assumptions C25_view_countdown_partial.

(** Unlimited resilience (a negative argument) never changes. *)
Theorem C25_view_unlimited : forall v n, n < 0 -> word v VIEW_RES = init_res n -> forall k, res_updates k v = v.
Proof. exact unlimited_init. Qed.
Print Assumptions C25_view_unlimited.

(** Beyond 2^23 the count is wrong: from 2^23 + 2 the first update takes two
    off, and from 2^25 on the view never expires. *)
Theorem C25_view_countdown_refuted : exists v n,
  length (vcode v) = 13%nat /\ t_res v = no_tally /\ word v VIEW_RES = init_res n /\ 0 <= n < 2147483648 /\
  get_res (res_updates 1 v) = f32_of_Z (n - 2) /\ feqb (f32_of_Z (n - 2)) (f32_of_Z (n - 1)) = false.
Proof. exact too_fast. Qed.
Print Assumptions C25_view_countdown_refuted.
Theorem C25_view_expires_refuted : exists v n,
  length (vcode v) = 13%nat /\ t_res v = no_tally /\ word v VIEW_RES = init_res n /\ 0 <= n < 2147483648 /\
  forall k, flt fzero (get_res (res_updates k v)) = true.
Proof. exact immortal. Qed.
Print Assumptions C25_view_expires_refuted.

Example C25_view_example : let v := mkview (put (repeat 0 13) 4%nat (init_res 3)) no_tally no_tally no_tally no_tally 0 0 0 0 fzero fzero in
  map (fun k => flt fzero (get_res (res_updates k v))) [0; 1; 2; 3]%nat = [true; true; true; false].
Proof. vm_compute. reflexivity. Qed.

(** ** C50 Notification periods *)

(** The count of periods at low saliency is the number of updates, up to the last
    one, that left the saliency below the low threshold. *)
Theorem C50_low_periods : forall v low high steps,
  low_sln v = 0 -> Forall (Forall no_update) steps -> Z.of_nat (length steps) < 4294967296 ->
  let h := sln_history v low high steps in
  low_sln (fst h) = trailing (fun x => flt x low) (snd h) /\ length (snd h) = length steps.
Proof. exact low_counted. Qed.
Print Assumptions C50_low_periods.

(** Full statement: the same for the count at high saliency.  Proved when the
    saliency never falls below the low threshold. *)
Theorem C50_high_periods_partial : forall v low high steps,
  high_sln v = 0 -> Forall (Forall no_update) steps -> Z.of_nat (length steps) < 4294967296 ->
  let h := sln_history v low high steps in
  Forall (fun x => flt x low = false) (snd h) ->
  high_sln (fst h) = trailing (fun x => flt high x) (snd h) /\ length (snd h) = length steps.
Proof. exact high_counted. Qed.
Print Assumptions C50_high_periods_partial.

(** High, low, high counts two consecutive high periods: falling below the low
    threshold does not clear the high count. *)
Theorem C50_high_periods_refuted : exists v low high steps,
  fresh v /\ high_sln v = 0 /\ Forall (Forall no_update) steps /\
  snd (sln_history v low high steps) = [fone; fzero; fone] /\ high_sln (fst (sln_history v low high steps)) = 2 /\
  trailing (fun x => flt high x) (snd (sln_history v low high steps)) = 1 /\ flt fzero low = true /\ flt low high = true /\ flt high fone = true.
Proof. exact high_refuted. Qed.
Print Assumptions C50_high_periods_refuted.

Example C50_example : let v := w_view fone fone half fone in
  let h := sln_history v half (fadd half quarter) [[]; [AskAdd 3 quarter]; [AskSet 3 quarter]; []] in
  snd h = [fone; fone; quarter; quarter] /\ low_sln (fst h) = 2 /\ high_sln (fst (sln_history v half (fadd half quarter) [[]; []])) = 2.
Proof. vm_compute. repeat split. Qed.

(** ** C51 Copying a view to another group *)

(** Full statement: the copied value is in [0,1] and is above the destination's
    threshold exactly when the original is above the source's.  Proved: the range,
    when the source threshold is not 0. *)
Theorem C51_copied_value_in_range_partial : forall v s d,
  f32_valid v = true -> f32_valid s = true -> f32_valid d = true -> in_unit v -> in_unit s -> in_unit d -> flt fzero s = true ->
  in_unit (MorphValue v s d).
Proof. exact morph_unit. Qed.
Print Assumptions C51_copied_value_in_range_partial.
Theorem C51_copied_value_in_range_refuted : exists v s d,
  in_unit v /\ in_unit s /\ in_unit d /\ flt fone (MorphValue v s d) = true.
Proof. exact morph_range_refuted. Qed.
Print Assumptions C51_copied_value_in_range_refuted.
(** A value below the source threshold can come out above the destination's... *)
Theorem C51_stays_hidden_refuted : exists v s d,
  in_unit v /\ in_unit s /\ in_unit d /\ flt fzero s = true /\ flt s v = false /\ flt d (MorphValue v s d) = true.
Proof. exact morph_hidden_refuted. Qed.
Print Assumptions C51_stays_hidden_refuted.
(** ... and one above it not above the destination's. *)
Theorem C51_stays_visible_refuted : exists v s d,
  in_unit v /\ in_unit s /\ in_unit d /\ flt fzero s = true /\ flt s v = true /\ flt d (MorphValue v s d) = false.
Proof. exact morph_side_refuted. Qed.
Print Assumptions C51_stays_visible_refuted.

Example C51_example : MorphValue half quarter half = fone /\ MorphValue quarter half half = quarter /\ MorphValue fzero quarter half = half.
Proof. vm_compute. repeat split. Qed.
