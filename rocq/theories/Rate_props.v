(** C39, C56: rating of models. *)
From Coq Require Import Floats.SpecFloat.
From Verif Require Import Base Float32 Atom_model Obj_model Obj_spec View_spec View_proofs Grp_model Rate_model Rate_spec Rate_proofs.

(** ** C39 Ratings stay meaningful *)

(** Whatever the outcomes, thresholds and inertia settings: the rate stays in [0,1],
    the evidence stays a positive integer, and so are the activations asked for. *)
Theorem C39_stays_meaningful : forall c os m, meaningful m ->
  meaningful (fst (register_all c m os)) /\ asked_in_range (snd (register_all c m os)).
Proof. exact stays_meaningful. Qed.
Print Assumptions C39_stays_meaningful.
(** The evidence count, below 2^23.  A success adds one, unless the inertia rule
    applies: then the count becomes the inverse of the rate, rounded down.  A failure
    adds one if the rate stays above the threshold of the group.  A success of the
    secondary controller adds one.  Anything else changes nothing.
    Full statement: every outcome that counts adds one, without limit; it is false at
    2^23 and for the failures of strong models (the two theorems below). *)
Theorem C39_count_rule_partial : forall c m n o, meaningful m -> counted m n -> n < 8388608 -> 0 <= n -> let m' := fst (register c m o) in
  (counts_as_success o -> p_alive m = true -> inertial c m = true -> exists k, floor_of (fdiv fone (rated_success m)) k /\ 1 <= k /\ counted m' k) /\
  (counts_as_success o -> p_alive m = true -> inertial c m = false -> counted m' (n + 1)) /\
  (forall thr, counts_as_failure o thr -> p_alive m = true -> counted m' (if flt thr (rated_failure m) then n + 1 else n)) /\
  (forall p s, o = Secondary p s true -> s_alive m = true -> counted m' (n + 1)) /\
  (~ counts_as_success o -> (forall thr, ~ counts_as_failure o thr) -> (forall p s, o <> Secondary p s true) -> m' = m).
Proof. exact count_rule. Qed.
Print Assumptions C39_count_rule_partial.
(** The rate that is recorded, the previous rate that is remembered, and the
    activations asked for, in each case. *)
Theorem C39_rates_and_requests : forall c m o, let m' := fst (register c m o) in let l := snd (register c m o) in
  (counts_as_success o -> p_alive m = true -> inertial c m = false -> rate m' = kept (rated_success m) /\ l = [ActPrimary (rated_success m)] /\ m_dsr m' = m_sr m) /\
  (forall thr, counts_as_failure o thr -> p_alive m = true -> m_dsr m' = m_sr m /\
     (flt thr (rated_failure m) = true -> rate m' = kept (rated_failure m) /\ l = [ActPrimary (rated_failure m)]) /\
     (flt thr (rated_failure m) = false -> is_strong m = true -> rate m' = rate m /\ l = [ActPrimary fzero; ActSecondary (rated_failure m)]) /\
     (flt thr (rated_failure m) = false -> is_strong m = false -> rate m' = rate m /\ l = [Deleted])) /\
  (forall p s, o = Secondary p s true -> s_alive m = true -> rate m' = kept (rated_success m) /\ m_dsr m' = m_sr m /\
     l = if flt p (rated_success m) then [ActSecondary fzero; ActPrimary (rated_success m)] else if flt s (rated_success m) then [ActSecondary (rated_success m)] else []).
Proof. exact requests. Qed.
Print Assumptions C39_rates_and_requests.
(** At 2^23 the count is stuck. *)
Theorem C39_count_saturates_refuted : exists c m n o, meaningful m /\ counted m n /\ counts_as_success o /\ p_alive m = true /\ inertial c m = false /\
  counted (fst (register c m o)) n.
Proof. exact saturated. Qed.
Print Assumptions C39_count_saturates_refuted.
(** The failure that sends a strong model out of its group is not counted. *)
Theorem C39_strong_failure_counted_refuted : exists c m n o, meaningful m /\ counted m n /\ counts_as_failure o half /\ flt half (rated_failure m) = false /\ p_alive m = true /\
  is_strong m = true /\ counted (fst (register c m o)) n.
Proof. exact count_refuted. Qed.
Print Assumptions C39_strong_failure_counted_refuted.
(** A model that becomes strong does so by a success that meets the inertia rule;
    such a success makes any model strong, with rate 1; and strong models stay so. *)
Theorem C39_strong_only_by_inertia : forall c os m, is_strong m = false -> is_strong (fst (register_all c m os)) = true ->
  exists os1 o os2, os = os1 ++ o :: os2 /\ counts_as_success o /\ inertial c (fst (register_all c m os1)) = true.
Proof. exact strength_history. Qed.
Print Assumptions C39_strong_only_by_inertia.
Theorem C39_inertia_makes_strong : forall c m o, counts_as_success o -> p_alive m = true -> inertial c m = true ->
  is_strong (fst (register c m o)) = true /\ rate (fst (register c m o)) = fone /\ snd (register c m o) = [ActPrimary fone].
Proof. exact made_strong. Qed.
Print Assumptions C39_inertia_makes_strong.
Theorem C39_strong_stays_strong : forall c os m, is_strong m = true -> is_strong (fst (register_all c m os)) = true.
Proof. exact strong_stays. Qed.
Print Assumptions C39_strong_stays_strong.
(** A model is deleted exactly when it is weak and a failure that counts brings its
    rate to or below the threshold of its group; and at most once: afterwards the
    outcomes given to its primary controller have no effect. *)
Theorem C39_deleted_when : forall c m o, meaningful m -> (forall thr cfd b rf, o = Primary thr b cfd rf -> f32_valid thr = true /\ thr <> S754_nan) ->
  (In Deleted (snd (register c m o)) <-> p_alive m = true /\ is_strong m = false /\ exists thr, counts_as_failure o thr /\ fle (rated_failure m) thr = true).
Proof. exact deleted_when. Qed.
Print Assumptions C39_deleted_when.
Theorem C39_deleted_once : forall c os1 o os2 m, In Deleted (snd (register c (fst (register_all c m os1)) o)) -> ~ In Deleted (snd (register_all c m os1)) /\
  forall os3, ~ In Deleted (snd (register_all c (fst (register_all c m (os1 ++ [o]))) (os2 ++ os3))) /\
   forall thr b cfd rf, register c (fst (register_all c m (os1 ++ o :: os2))) (Primary thr b cfd rf) = (fst (register_all c m (os1 ++ o :: os2)), []).
Proof. exact deleted_last. Qed.
Print Assumptions C39_deleted_once.

(** A new model (strength 0, count 1, rate 1) in a group with threshold 0.7: one
    failure deletes it; five successes make it strong with the default settings, and
    then one failure phases it out. *)
Definition new_model : rated := mkrated (of_num fzero) (of_num fone) (of_num fone) (of_num fone) true true.
Definition thr7 : spec_float := fdiv (f32_of_Z 7) (f32_of_Z 10).
Example C39_ex_meaningful : meaningful new_model.
Proof. apply (meaningful_check _ 1); [lia| | |]; vm_compute; reflexivity. Qed.
Example C39_ex_deleted : snd (register_all default_inertia new_model [certain thr7 false; certain thr7 false]) = [Deleted].
Proof. vm_compute. reflexivity. Qed.
Example C39_ex_strong : is_strong new_model = false /\ is_strong (fst (register_all default_inertia new_model (repeat (certain thr7 true) 4))) = false /\
  is_strong (fst (register_all default_inertia new_model (repeat (certain thr7 true) 5))) = true /\
  snd (register_all default_inertia new_model (repeat (certain thr7 true) 5 ++ [certain thr7 false])) = repeat (ActPrimary fone) 5 ++ [ActPrimary fzero; ActSecondary half].
Proof. vm_compute. auto. Qed.

(** ** C56 Failures never raise the rate, successes never lower it *)

(** A failure never raises the rate. *)
Theorem C56_failure_lowers_partial : forall c m o thr, meaningful m -> counts_as_failure o thr -> fle (rate (fst (register c m o))) (rate m) = true.
Proof. exact failure_direction. Qed.
Print Assumptions C56_failure_lowers_partial.
(** A success does not lower the rate as long as it is not too close to 1: at most
    1 - (n+1)/2^22, where n is the evidence; or if it is 1. *)
Theorem C56_success_raises_partial : forall c m n o, meaningful m -> counted m n -> 1 <= n < 4194304 ->
  fle (rate m) (fsub fone (fdiv (f32_of_Z (n + 1)) (f32_of_Z 4194304))) = true -> is_success o -> fle (rate m) (rate (fst (register c m o))) = true.
Proof. exact success_direction. Qed.
Print Assumptions C56_success_raises_partial.
Theorem C56_perfect_stays : forall c os m, meaningful m -> rate m = fone -> Forall is_success os -> rate (fst (register_all c m os)) = fone.
Proof. exact perfect. Qed.
Print Assumptions C56_perfect_stays.
(** In general it can: after 8563 successes out of 8564, one more success. *)
Theorem C56_success_raises_refuted : exists c m o, meaningful m /\ is_success o /\ flt (rate (fst (register c m o))) (rate m) = true.
Proof. exact success_refuted. Qed.
Print Assumptions C56_success_raises_refuted.
Example C56_ex : let m := mkrated (of_num fzero) (of_num (f32_of_Z 100)) (of_num half) (of_num half) true true in
  fle (rate m) (fsub fone (fdiv (f32_of_Z 101) (f32_of_Z 4194304))) = true /\
  flt (rate m) (rate (fst (register default_inertia m (certain thr7 true)))) = true /\
  flt (rate (fst (register default_inertia m (certain fzero false)))) (rate m) = true.
Proof. vm_compute. auto. Qed.
