(** C05-C08: times, strings, resilience and update times. *)
From Verif Require Import Base Float32 Atom_model Utils_model Utils_spec Utils_proofs.

(** ** C05 Times and durations of 64 bits round trip; other atoms are untouched. *)

Theorem C05_timestamp_struct : forall (c : code) (i : nat) (t : Z), is_i64 t ->
  exists c', SetTimestampStruct c i t = Some c' /\
    nth_error c' i = Some ATimestamp /\ GetInt64 c' (S i) = Some t /\
    length c' = Nat.max (length c) (i + 3) /\ only_changes i 3 c c'.
Proof. exact set_timestamp_struct. Qed.
Print Assumptions C05_timestamp_struct.

Theorem C05_timestamp_through_pointer : forall (c : code) (index : nat) (p t : Z),
  is_i64 t -> other_index c index p ->
  exists c', SetTimestamp c index t = Some c' /\ GetTimestamp c' index = Some t /\
    HasTimestamp c' index = true /\ only_changes (Z.to_nat (asIndex p)) 3 c c'.
Proof. exact set_timestamp. Qed.
Print Assumptions C05_timestamp_through_pointer.

Theorem C05_duration_through_pointer : forall (c : code) (index : nat) (p d : Z),
  is_i64 d -> other_index c index p ->
  exists c', SetDuration c index d = Some c' /\ GetDuration c' index = Some d /\
    only_changes (Z.to_nat (asIndex p)) 3 c c'.
Proof. exact set_duration. Qed.
Print Assumptions C05_duration_through_pointer.

(** For the structure form of a duration the value round trips and the atoms
    before it are kept; the atoms after it are not (next theorem). *)
Theorem C05_duration_struct_partial : forall (c : code) (i : nat) (d : Z), is_i64 d ->
  exists c', SetDurationStruct c i d = Some c' /\
    nth_error c' i = Some ADuration /\ GetInt64 c' (S i) = Some d /\
    length c' = (i + 3)%nat /\
    (forall j, (j < i)%nat -> (j < length c)%nat -> nth_error c' j = nth_error c j).
Proof. exact set_duration_struct. Qed.
Print Assumptions C05_duration_struct_partial.

Theorem C05_duration_struct_frame_refuted : exists c i d c' j,
  is_i64 d /\ SetDurationStruct c i d = Some c' /\
  (i + 3 <= j < length c)%nat /\ nth_error c' j <> nth_error c j.
Proof. exact duration_struct_drops. Qed.
Print Assumptions C05_duration_struct_frame_refuted.

(** A negative time written through a pointer into a five-atom code. *)
Example C05_example : exists c',
  other_index [IPointer 2; Nil; Nil; Nil; Nil; Nil] 0 (IPointer 2) /\
  SetTimestamp [IPointer 2; Nil; Nil; Nil; Nil; Nil] 0 (-123456789012345) = Some c' /\
  GetTimestamp c' 0 = Some (-123456789012345) /\ nth_error c' 5 = Some Nil.
Proof.
  eexists. split; [|split; [vm_compute; reflexivity|split; vm_compute; reflexivity]].
  split; [reflexivity|]. split; [reflexivity|]. left. vm_compute. lia.
Qed.

(** ** C06 Strings round trip. *)

(** Missing from the full statement: strings with bytes outside 1..127 or of
    more than 254 characters, for which the claim is false (below). *)
Theorem C06_string_round_trip_partial : forall (c : code) (index : nat) (p : Z) (s : list Z),
  get c index = Some p -> getDescriptor p = I_PTR -> storable s ->
  (index < Z.to_nat (asIndex p) \/ Z.to_nat (asIndex p) + 1 + (length s + 3) / 4 <= index)%nat ->
  exists c', SetString c index s = Some c' /\ GetString c' index = Some s /\
    only_changes (Z.to_nat (asIndex p)) (1 + (length s + 3) / 4) c c'.
Proof. exact set_get_string. Qed.
Print Assumptions C06_string_round_trip_partial.

Theorem C06_non_ascii_refuted : exists c index s c',
  Forall is_u8 s /\ SetString c index s = Some c' /\ exists s', GetString c' index = Some s' /\ s' <> s.
Proof. exact string_refuted. Qed.
Print Assumptions C06_non_ascii_refuted.

Theorem C06_length_255_refuted : exists c index s c',
  Forall (fun ch => 1 <= ch <= 127) s /\ SetString c index s = Some c' /\ GetString c' index = None.
Proof. exact string_255_refuted. Qed.
Print Assumptions C06_length_255_refuted.

Theorem C06_length_300_refuted : exists c index s c' s',
  Forall (fun ch => 1 <= ch <= 127) s /\ SetString c index s = Some c' /\
  GetString c' index = Some s' /\ s' <> s.
Proof. exact string_300_refuted. Qed.
Print Assumptions C06_length_300_refuted.

(** "hello" across two words. *)
Example C06_example : exists c',
  storable [104; 101; 108; 108; 111] /\
  SetString [IPointer 1; Nil; Nil; Nil; Nil] 0 [104; 101; 108; 108; 111] = Some c' /\
  GetString c' 0 = Some [104; 101; 108; 108; 111] /\ nth_error c' 4 = Some Nil.
Proof.
  eexists. split; [|split; [vm_compute; reflexivity|split; vm_compute; reflexivity]].
  split; [cbn; lia|]. repeat constructor; lia.
Qed.

(** ** C07 Resilience is the number of updates that covers the time to live. *)

(** The instant of the [n]-th update after [now] is the first update instant at
    or after the deadline. *)
Theorem C07_resilience_covers_time_to_live : forall ref now ttl upr k : Z,
  0 < upr -> 0 < ttl -> ref <= now -> now + ttl - ref < 2^63 -> ttl / upr < 2^30 ->
  last_update ref upr now k ->
  let n := GetResilience ref now ttl upr in
  1 <= n /\ now + ttl <= ref + (k + n) * upr < now + ttl + upr.
Proof. exact resilience_spec. Qed.
Print Assumptions C07_resilience_covers_time_to_live.

Theorem C07_resilience_monotone : forall ref now ttl1 ttl2 upr : Z,
  0 < upr -> 0 < ttl1 <= ttl2 -> ref <= now -> now + ttl2 - ref < 2^63 -> ttl2 / upr < 2^30 ->
  GetResilience ref now ttl1 upr <= GetResilience ref now ttl2 upr.
Proof. exact resilience_mono. Qed.
Print Assumptions C07_resilience_monotone.

Theorem C07_resilience_no_period : forall ref now ttl upr : Z,
  ttl = 0 \/ upr = 0 -> GetResilience ref now ttl upr = 1.
Proof. exact resilience_trivial. Qed.
Print Assumptions C07_resilience_no_period.

Theorem C07_past_deadline_refuted : exists ref now ttl upr,
  ref <= now + ttl /\ ttl < 0 /\ 0 < upr /\ GetResilience ref now ttl upr < 1.
Proof. exact resilience_negative_refuted. Qed.
Print Assumptions C07_past_deadline_refuted.

(** Conversion between groups: never below one update ... *)
Theorem C07_conversion_at_least_one_partial : forall res o d n,
  f32_valid (fmul res (fdiv o d)) = true -> GetResilience_conv res o d = Some n -> 1 <= n.
Proof. exact resilience_conv_ge1. Qed.
Print Assumptions C07_conversion_at_least_one_partial.

(** ... but the remaining life (updates times period) is not preserved. *)
Theorem C07_conversion_refuted : exists res o d n,
  (0 < res /\ 0 < o /\ 0 < d) /\
  GetResilience_conv (f32_of_Z res) (f32_of_Z o) (f32_of_Z d) = Some n /\ n * d < res * o.
Proof. exact resilience_conv_refuted. Qed.
Print Assumptions C07_conversion_refuted.

(** Goals and predictions: the group's update period is [upr] base periods, but
    the base period is left out, so the resilience is right only when it is 1. *)
Theorem C07_goal_resilience_partial : forall ref now ttl upr : Z,
  0 < upr -> 0 <= ttl -> ref <= now -> now + ttl - ref < 2^63 -> ttl / upr < 2^30 ->
  get_goal_pred_success_res ref now ttl upr = GetResilience ref now ttl (upr * 1).
Proof. exact goal_res_base1. Qed.
Print Assumptions C07_goal_resilience_partial.

Theorem C07_goal_resilience_refuted : exists ref now ttl upr base,
  0 < upr /\ 1 < base /\ 0 < ttl /\ ref <= now /\
  get_goal_pred_success_res ref now ttl upr <> GetResilience ref now ttl (upr * base).
Proof. exact goal_res_refuted. Qed.
Print Assumptions C07_goal_resilience_refuted.

(** Started at 0, period 50 ms, now 120 ms, 100 ms to live: two more updates
    (150, 200) come before the deadline 220, so the third covers it. *)
Example C07_example : last_update 0 50000 120000 2 /\ GetResilience 0 120000 100000 50000 = 3.
Proof. split; [unfold last_update; lia|vm_compute; reflexivity]. Qed.

(** ** C08 Update times. *)

Theorem C08_next_update : forall upr base ref now : Z,
  0 < upr -> 0 < base -> ref <= now ->
  let t := get_next_upr_time upr base ref now in
  now < t <= now + upr * base /\ (exists k, t = ref + k * (upr * base)) /\
  (forall k, now < ref + k * (upr * base) -> t <= ref + k * (upr * base)).
Proof. exact next_upr. Qed.
Print Assumptions C08_next_update.

Theorem C08_previous_update : forall upr base ref now : Z,
  0 < upr -> 0 < base -> ref <= now ->
  let t := get_prev_upr_time upr base ref now in
  now - upr * base < t <= now /\ (exists k, t = ref + k * (upr * base)) /\
  (forall k, ref + k * (upr * base) <= now -> ref + k * (upr * base) <= t).
Proof. exact prev_upr. Qed.
Print Assumptions C08_previous_update.

Theorem C08_never_updated : forall base ref now : Z,
  get_next_upr_time 0 base ref now = Utils_MaxTime /\ get_prev_upr_time 0 base ref now = Utils_MaxTime.
Proof. exact never_upr. Qed.
Print Assumptions C08_never_updated.

Example C08_example :
  get_next_upr_time 2 50000 1000 230000 = 301000 /\ get_prev_upr_time 2 50000 1000 230000 = 201000.
Proof. split; vm_compute; reflexivity. Qed.
