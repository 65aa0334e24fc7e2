(** C126 to C130: the guards of learned models. *)
From Verif Require Import Base Float32 Atom_model Utils_model Op_model Gd_model Gb_model Gb_spec.
From Verif Require Gb2_proofs Gb4_proofs Gb5_proofs.

(** * C126: the guards written for a learned model are those documented *)

(** False of four builders, whose backward guards give the time of the cause otherwise; and
    when the argument of a command is neither a float nor an object, the backward guards
    cannot be read at all. *)
Theorem C126_documented_refuted : forall b, In b [Speed 200 150; NoArg 200 150 10; Arg Sum 200 150; Cst Sum 200 Gb5_proofs.f1 150] ->
  setting Gb5_proofs.codes b Gb5_proofs.m1 Gb5_proofs.head1 10 /\
  exists c', finish Gb5_proofs.codes b Gb5_proofs.m1 Gb5_proofs.head1 10 = Some c' /\
    (forall F B, documented Gb5_proofs.codes b Gb5_proofs.m1 = Some (F, B) -> guards c' 3 = Some F /\ guards c' 4 <> Some B).
Proof. exact Gb5_proofs.documented_refuted. Qed.
Print Assumptions C126_documented_refuted.
Theorem C126_unreadable_refuted : exists c', finish Gb5_proofs.codes (CstArg 200 150 AOther) Gb5_proofs.m1 Gb5_proofs.head1 10 = Some c' /\ guards c' 4 = None.
Proof. exact Gb5_proofs.unreadable. Qed.
Print Assumptions C126_unreadable_refuted.

(** What is true of all: the model that is built is read as the guards [written]; the rest of its head is kept. *)
Theorem C126_written_partial : forall o b m c w F B, opcodes_ok o -> mdl_ok m -> builder_ok b m -> head_ok c w -> written o b m = Some (F, B) ->
  exists c', finish o b m c w = Some c' /\ guards c' 3 = Some F /\ guards c' 4 = Some B /\
  (forall j x, (j <= w)%nat -> ~ (3 <= j <= 10)%nat -> nth_error c j = Some x -> nth_error c' j = Some x).
Proof. exact Gb2_proofs.builder_reads. Qed.
Print Assumptions C126_written_partial.
Theorem C126_documented_partial : forall o b m, match b with Plain | Timing _ | CstArg _ _ (AFloat _) | CstArg _ _ (AObj _ _) => True | _ => False end ->
  documented o b m = written o b m.
Proof. exact Gb5_proofs.documented_holds. Qed.
Print Assumptions C126_documented_partial.

Example C126_case : opcodes_ok Gb5_proofs.codes /\ mdl_ok Gb5_proofs.m1 /\ builder_ok (Speed 200 150) Gb5_proofs.m1 /\ head_ok Gb5_proofs.head1 10 /\
  exists F B, written Gb5_proofs.codes (Speed 200 150) Gb5_proofs.m1 = Some (F, B) /\ length F = 3%nat /\ length B = 5%nat.
Proof.
  destruct (Gb5_proofs.setting1 (Speed 200 150)) as (A & B & C & D & _); [Gb5_proofs.good_b..|].
  repeat (split; [assumption|]). do 2 eexists. split; [reflexivity|]. split; reflexivity.
Qed.

(** * C127: a learned model predicts its consequent one period after its premise *)
Theorem C127_forward : forall o b m c w c' first s p a e, setting o b m c w -> finish o b m c w = Some c' -> period b = Some p ->
  is s (t0 m) (VTime a) -> is s (t1 m) (VTime e) -> is_i64 a -> is_i64 e -> is_i64 (a + p) -> is_i64 (e + p) ->
  (valued b = true -> exists x, prediction o b m s = Some x /\ bindable x) ->
  exists s', forward o first c' s = Some s' /\ is s' (after (rhs m)) (VTime (a + p)) /\ is s' (before (rhs m)) (VTime (e + p)) /\
    (valued b = true -> at_ s' (member (rhs m)) = prediction o b m s) /\
    (forall y, y <> Z.to_nat (after (rhs m)) -> y <> Z.to_nat (before (rhs m)) -> (valued b = true -> y <> Z.to_nat (member (rhs m))) -> s' y = s y).
Proof. exact Gb4_proofs.forward_ok. Qed.
Print Assumptions C127_forward.

Example C127_case : let b := Speed 2 1 in let s := Gb5_proofs.env_of [(0%nat, VFloat Gb5_proofs.f2); (1%nat, VTime 10); (2%nat, VTime 20); (5%nat, VFloat Gb5_proofs.f1)] in
  setting Gb5_proofs.codes b Gb5_proofs.m1 Gb5_proofs.head1 10 /\ is s (t0 Gb5_proofs.m1) (VTime 10) /\ is s (t1 Gb5_proofs.m1) (VTime 20) /\
  prediction Gb5_proofs.codes b Gb5_proofs.m1 s = Some (VFloat 0x20400000). (* 2 + 1 * 2 = 4 *)
Proof.
  cbv zeta. split; [apply Gb5_proofs.setting1; Gb5_proofs.good_b|]. split; [reflexivity|]. split; [reflexivity|]. vm_compute. reflexivity.
Qed.

(** * C128: backward, a learned model infers the premise, the time and the argument of the
    cause, and leaves the goal as it is *)

(** False of the builders with a constant: the times of the goal are changed. *)
Theorem C128_goal_refuted : let b := Cst Sum 200 Gb5_proofs.f1 50 in setting Gb5_proofs.codes b Gb5_proofs.m1 Gb5_proofs.head1 10 /\
  exists c' s s', finish Gb5_proofs.codes b Gb5_proofs.m1 Gb5_proofs.head1 10 = Some c' /\
  is s (after (rhs Gb5_proofs.m1)) (VTime 200) /\ backward Gb5_proofs.codes 3 c' s = Some s' /\ ~ same s s' (after (rhs Gb5_proofs.m1)).
Proof. exact Gb5_proofs.goal_refuted. Qed.
Print Assumptions C128_goal_refuted.

(** True of the others. *)
Theorem C128_backward_partial : forall o b m c w c' first s p a e, setting o b m c w -> finish o b m c w = Some c' -> period b = Some p -> constant b = false ->
  is s (after (rhs m)) (VTime a) -> is s (before (rhs m)) (VTime e) -> is_i64 a -> is_i64 e -> is_i64 (a - p) -> is_i64 (e - p) ->
  (forall d, delay b = Some d -> is_i64 (a - d)) ->
  (infers b = true -> exists x, inference o b m s = Some x /\ bindable x) ->
  exists s', backward o first c' s = Some s' /\ is s' (t0 m) (VTime (a - p)) /\ is s' (t1 m) (VTime (e - p)) /\
    (forall d, delay b = Some d -> is s' (after (lhs m)) (VTime (a - d)) /\ is s' (before (lhs m)) (VTime (e - p))) /\
    (infers b = true -> at_ s' (member (lhs m)) = inference o b m s) /\
    (forall y, ~ In y (map Z.to_nat ([t0 m; t1 m] ++ match delay b with Some _ => [after (lhs m); before (lhs m)] | None => [] end ++
                                     if infers b then [member (lhs m)] else [])) -> s' y = s y).
Proof. exact Gb4_proofs.backward_ok. Qed.
Print Assumptions C128_backward_partial.
(** What the builders with a constant do. *)
Theorem C128_constant_partial : forall o ar p k d m c w c' first s a e x, setting o (Cst ar p k d) m c w -> finish o (Cst ar p k d) m c w = Some c' ->
  is s (after (rhs m)) (VTime a) -> is s (before (rhs m)) (VTime e) -> is_i64 a -> is_i64 e -> is_i64 (a - p) -> is_i64 (e - p) -> is_i64 (a - d) ->
  two o (match ar with Sum => o_sub o | Product => o_div o end) (at_ s (member (rhs m))) (Some (VFloat k)) = Some x -> bindable x ->
  exists s', backward o first c' s = Some s' /\ is s' (t0 m) (VTime (a - p)) /\ is s' (t1 m) (VTime (e - p)) /\ at_ s' q0 = Some x /\
    is s' (after (rhs m)) (VTime (a - d)) /\ is s' (before (rhs m)) (VTime (e - p)) /\
    (forall y, ~ In y (map Z.to_nat [q0; t0 m; t1 m; after (rhs m); before (rhs m)]) -> s' y = s y).
Proof. exact Gb5_proofs.constant_backward. Qed.
Print Assumptions C128_constant_partial.
(** Forward, then backward: the premise is found again, by all builders. *)
Theorem C128_round_trip_partial : forall o b m c w c' first s s1 s2 p a e, setting o b m c w -> finish o b m c w = Some c' -> period b = Some p ->
  is s (t0 m) (VTime a) -> is s (t1 m) (VTime e) -> is_i64 a -> is_i64 e -> is_i64 (a + p) -> is_i64 (e + p) ->
  forward o first c' s = Some s1 -> backward o first c' s1 = Some s2 -> is s2 (t0 m) (VTime a) /\ is s2 (t1 m) (VTime e).
Proof. exact Gb4_proofs.round_trip. Qed.
Print Assumptions C128_round_trip_partial.

Example C128_case : let b := Arg Sum 20 5 in
  let s := Gb5_proofs.env_of [(0%nat, VFloat Gb5_proofs.f2); (6%nat, VTime 100); (7%nat, VTime 120); (8%nat, VFloat Gb5_proofs.f3)] in
  setting Gb5_proofs.codes b Gb5_proofs.m1 Gb5_proofs.head1 10 /\ constant b = false /\ is s (after (rhs Gb5_proofs.m1)) (VTime 100) /\ is s (before (rhs Gb5_proofs.m1)) (VTime 120) /\
  inference Gb5_proofs.codes b Gb5_proofs.m1 s = Some (VFloat Gb5_proofs.f1).
Proof.
  cbv zeta. split; [apply Gb5_proofs.setting1; Gb5_proofs.good_b|]. repeat (split; [reflexivity|]). vm_compute. reflexivity.
Qed.

(** * C129: a learned model reproduces what it was learned from *)

(** False in general: the end of the prediction and the end of the cause are others. *)
Theorem C129_observation_refuted :
  let b := default_builder true Gb5_proofs.observed_target Gb5_proofs.observed_cause Gb5_proofs.observed_consequent in
  setting Gb5_proofs.codes b Gb5_proofs.m1 Gb5_proofs.head1 10 /\ exists c', finish Gb5_proofs.codes b Gb5_proofs.m1 Gb5_proofs.head1 10 = Some c' /\
  (exists s s', is s (t0 Gb5_proofs.m1) (VTime 0) /\ is s (t1 Gb5_proofs.m1) (VTime 100) /\ forward Gb5_proofs.codes 3 c' s = Some s' /\
     is s' (before (rhs Gb5_proofs.m1)) (VTime 300)) /\
  (exists s s', is s (after (rhs Gb5_proofs.m1)) (VTime 200) /\ is s (before (rhs Gb5_proofs.m1)) (VTime 250) /\ backward Gb5_proofs.codes 3 c' s = Some s' /\
     is s' (before (lhs Gb5_proofs.m1)) (VTime 50)).
Proof. exact Gb5_proofs.observation_refuted. Qed.
Print Assumptions C129_observation_refuted.

(** True of the start of the prediction; and of its end when and only when the target and
    the consequent lasted as long as each other. *)
Theorem C129_prediction_partial : forall o b m c w c' first s s' target cause consequent, setting o b m c w -> finish o b m c w = Some c' ->
  chosen target cause consequent b -> is s (t0 m) (VTime (t_after target)) -> is s (t1 m) (VTime (t_before target)) ->
  within target -> within consequent -> is_i64 (t_before target + period_of target consequent) -> forward o first c' s = Some s' ->
  is s' (after (rhs m)) (VTime (t_after consequent)) /\
  (is s' (before (rhs m)) (VTime (t_before consequent)) <-> t_before consequent - t_after consequent = t_before target - t_after target).
Proof. exact Gb4_proofs.predicts_observation. Qed.
Print Assumptions C129_prediction_partial.
(** And of the start of the target and of the cause, inferred from the consequent, without a constant. *)
Theorem C129_inference_partial : forall o b m c w c' first s target cause consequent, setting o b m c w -> finish o b m c w = Some c' ->
  chosen target cause consequent b -> constant b = false ->
  is s (after (rhs m)) (VTime (t_after consequent)) -> is s (before (rhs m)) (VTime (t_before consequent)) ->
  within target -> within cause -> within consequent -> is_i64 (t_before consequent - period_of target consequent) ->
  (infers b = true -> exists x, inference o b m s = Some x /\ bindable x) ->
  exists s', backward o first c' s = Some s' /\ is s' (t0 m) (VTime (t_after target)) /\
    (delay b <> None -> is s' (after (lhs m)) (VTime (t_after cause))) /\
    (infers b = true -> at_ s' (member (lhs m)) = inference o b m s).
Proof. exact Gb4_proofs.infers_observation. Qed.
Print Assumptions C129_inference_partial.

Example C129_case : chosen Gb5_proofs.observed_target Gb5_proofs.observed_cause Gb5_proofs.observed_consequent (Arg Sum 200 150) /\
  chosen Gb5_proofs.observed_target Gb5_proofs.observed_cause Gb5_proofs.observed_consequent (NoArg 200 150 10).
Proof.
  split; [apply (by_argument _ _ _ Gb5_proofs.tolerance [ASet 1; Gb5_proofs.f1] 0 Gb5_proofs.f2 Gb5_proofs.f3 _ 1); vm_compute; reflexivity|].
  exact (by_default Gb5_proofs.observed_target Gb5_proofs.observed_cause Gb5_proofs.observed_consequent true).
Qed.

(** * C130: a change is attributed to a cause that explains it *)

(** False: an argument that explains it as a product is not found; and a value is taken as
    the cause whatever it is. *)
Theorem C130_product_refuted : exposes Gb5_proofs.instance 4 1 /\
  shows Gb5_proofs.tolerance Gb5_proofs.instance 4 1 (fdiv (num Gb5_proofs.f6) (num Gb5_proofs.f2)) /\
  find_imdl Gb5_proofs.tolerance Gb5_proofs.instance 4 Gb5_proofs.f2 Gb5_proofs.f6 Gb5_proofs.observed_target Gb5_proofs.observed_cause Gb5_proofs.observed_consequent = None.
Proof. exact Gb5_proofs.product_refuted. Qed.
Print Assumptions C130_product_refuted.
Theorem C130_any_value_refuted : forall tol q0 q1 target cause consequent s, isFloat s = true -> find_mk_val tol s q0 q1 target cause consequent <> None.
Proof. exact Gb5_proofs.value_accepted. Qed.
Print Assumptions C130_any_value_refuted.

(** True: an argument of a model that is taken explains the change, as a sum or as a product... *)
Theorem C130_found_partial : forall tol imdl k q0 q1 target cause consequent b i, find_imdl tol imdl k q0 q1 target cause consequent = Some (b, i) ->
  exists p d, (b = Arg Sum p d /\ shows tol imdl k i (fsub (num q1) (num q0))) \/ (b = Arg Product p d /\ shows tol imdl k i (fdiv (num q1) (num q0))).
Proof. exact Gb5_proofs.found_right. Qed.
Print Assumptions C130_found_partial.
(** ... one that explains it as a sum is found, or another one before it... *)
Theorem C130_sum_partial : forall tol imdl k q0 q1 target cause consequent n i, exposes imdl k n -> (1 <= i <= n)%nat ->
  shows tol imdl k i (fsub (num q1) (num q0)) ->
  exists j p d, (1 <= j <= i)%nat /\ find_imdl tol imdl k q0 q1 target cause consequent = Some (Arg Sum p d, j).
Proof. exact Gb5_proofs.sum_found. Qed.
Print Assumptions C130_sum_partial.
(** ... and one that explains it as a product never is, unless there are more arguments than words before them. *)
Theorem C130_product_partial : forall tol imdl k q0 q1 target cause consequent n i p d, exposes imdl k n -> (n <= k)%nat ->
  find_imdl tol imdl k q0 q1 target cause consequent <> Some (Arg Product p d, i).
Proof. exact Gb5_proofs.product_never. Qed.
Print Assumptions C130_product_partial.

Example C130_case : let imdl := [0; ASet 2; Gb5_proofs.f2; Gb5_proofs.f1] in exposes imdl 1 2 /\
  shows Gb5_proofs.tolerance imdl 1 2 (fsub (num Gb5_proofs.f3) (num Gb5_proofs.f2)) /\
  exists b, find_imdl Gb5_proofs.tolerance imdl 1 Gb5_proofs.f2 Gb5_proofs.f3 Gb5_proofs.observed_target Gb5_proofs.observed_cause Gb5_proofs.observed_consequent = Some (b, 2%nat).
Proof.
  cbv zeta. split; [|split].
  - exists (ASet 2). split; [reflexivity|]. split; [vm_compute; reflexivity|]. intros i B. destruct i as [|[|[|i]]]; try lia; discriminate.
  - exists Gb5_proofs.f1. split; [reflexivity|]. split; vm_compute; reflexivity.
  - eexists. vm_compute. reflexivity.
Qed.
