(** Theorems on operators (C20), on the direct evaluation of expressions (C61), and on
    the equality of times (C62). *)
From Verif Require Import Base Float32 Float32_val Atom_model Utils_model Op_model Op_spec Op_typing Op_proofs.

(** C20: an operator that succeeds gives a value of the documented type; one that fails
    gives nil (an undefined Boolean, for a comparison). *)
Theorem C20_typed : forall o l r, Forall is_u32 l -> Forall is_u32 r ->
  match eval o l r with
  | Some (true, v) => result_kind o (kind_of l) (kind_of r) = Some (kind_of (store v))
  | Some (false, v) => store v = [failure o]
  | None => True
  end.
Proof. exact eval_typed. Qed.
Print Assumptions C20_typed.

Theorem C20_other_types_fail : forall o l r, Forall is_u32 l -> Forall is_u32 r -> l <> [] -> r <> [] -> result_kind o (kind_of l) (kind_of r) = None ->
  exists v, eval o l r = Some (false, v) /\ store v = [failure o].
Proof. exact eval_untyped. Qed.
Print Assumptions C20_other_types_fail.
(** A time is not multiplied by a number. *)
Example C20_ex_types : result_kind Mul (kind_of (w_time 5)) (kind_of [one_atom]) = None /\ result_kind Mul (kind_of (w_dur 5)) (kind_of [one_atom]) = Some KDur /\
  Forall is_u32 (w_time 5) /\ Forall is_u32 [one_atom].
Proof.
  split; [reflexivity|]. split; [reflexivity|]. split; [apply (proj1 (denotes_time 5 ltac:(unfold is_i64; lia)))|].
  apply (proj1 (denotes_num one_atom ltac:(unfold is_u32, one_atom; lia) ltac:(unfold one_atom; lia))).
Qed.

(** Times: the comparisons are those of the times; minimum, maximum, difference and
    distance are exact as long as they can be represented. *)
Theorem C20_times : forall l r s t, denotes l (Time s) -> denotes r (Time t) ->
  (is_true (eval Lsr l r) <-> s < t) /\ (is_false (eval Lsr l r) <-> ~ s < t) /\
  (is_true (eval Gtr l r) <-> s > t) /\ (is_false (eval Gtr l r) <-> ~ s > t) /\
  (is_true (eval Lse l r) <-> s <= t) /\ (is_false (eval Lse l r) <-> ~ s <= t) /\
  (is_true (eval Gte l r) <-> s >= t) /\ (is_false (eval Gte l r) <-> ~ s >= t) /\
  gives (eval Min l r) (Time (Z.min s t)) /\ gives (eval Max l r) (Time (Z.max s t)) /\
  (is_i64 (s - t) -> gives (eval Sub l r) (Dur (s - t))) /\
  (is_i64 (s - t) -> is_i64 (t - s) -> gives (eval Dis l r) (Dur (Z.abs (s - t)))).
Proof. exact times_ok. Qed.
Print Assumptions C20_times.

Theorem C20_durations : forall l r s t, denotes l (Dur s) -> denotes r (Dur t) ->
  (is_true (eval Lsr l r) <-> s < t) /\ (is_false (eval Lsr l r) <-> ~ s < t) /\
  (is_true (eval Gtr l r) <-> s > t) /\ (is_false (eval Gtr l r) <-> ~ s > t) /\
  (is_true (eval Lse l r) <-> s <= t) /\ (is_false (eval Lse l r) <-> ~ s <= t) /\
  (is_true (eval Gte l r) <-> s >= t) /\ (is_false (eval Gte l r) <-> ~ s >= t) /\
  gives (eval Min l r) (Dur (Z.min s t)) /\ gives (eval Max l r) (Dur (Z.max s t)) /\
  (is_i64 (s + t) -> gives (eval Add l r) (Dur (s + t))) /\
  (is_i64 (s - t) -> gives (eval Sub l r) (Dur (s - t))) /\
  (is_i64 (s - t) -> is_i64 (t - s) -> gives (eval Dis l r) (Dur (Z.abs (s - t)))).
Proof. exact durations_ok. Qed.
Print Assumptions C20_durations.

Theorem C20_time_duration : forall l r t d, denotes l (Time t) -> denotes r (Dur d) ->
  (is_i64 (t + d) -> gives (eval Add l r) (Time (t + d)) /\ gives (eval Add r l) (Time (t + d))) /\
  (is_i64 (t - d) -> gives (eval Sub l r) (Time (t - d))).
Proof. exact time_duration_ok. Qed.
Print Assumptions C20_time_duration.

(** A duration added to a time and subtracted again gives the time back. *)
Theorem C20_add_sub : forall l r t d, denotes l (Time t) -> denotes r (Dur d) -> is_i64 (t + d) ->
  exists s, eval Add l r = Some (true, s) /\ gives (eval Sub (store s) r) (Time t).
Proof. exact add_sub. Qed.
Print Assumptions C20_add_sub.
(** The duration between two times added to the earlier gives the later. *)
Theorem C20_sub_add : forall l r s t, denotes l (Time s) -> denotes r (Time t) -> is_i64 (s - t) ->
  exists d, eval Sub l r = Some (true, d) /\ gives (eval Add r (store d)) (Time s).
Proof. exact sub_add. Qed.
Print Assumptions C20_sub_add.
Example C20_ex_times : denotes (w_time 1700000000000000) (Time 1700000000000000) /\ denotes (w_dur (-25)) (Dur (-25)) /\ is_i64 (1700000000000000 + -25).
Proof. split; [apply denotes_time; unfold is_i64; lia|]. split; [apply denotes_dur; unfold is_i64; lia|unfold is_i64; lia]. Qed.

(** Numbers: comparisons are those of the values (infinities included). *)
Theorem C20_number_order : forall l r x y, denotes l (Num x) -> denotes r (Num y) -> is_number x -> is_number y ->
  (is_true (eval Lsr l r) <-> val x < val y) /\ (is_false (eval Lsr l r) <-> ~ val x < val y) /\
  (is_true (eval Gtr l r) <-> val x > val y) /\ (is_false (eval Gtr l r) <-> ~ val x > val y) /\
  (is_true (eval Lse l r) <-> val x <= val y) /\ (is_false (eval Lse l r) <-> ~ val x <= val y) /\
  (is_true (eval Gte l r) <-> val x >= val y) /\ (is_false (eval Gte l r) <-> ~ val x >= val y).
Proof. exact compare_numbers. Qed.
Print Assumptions C20_number_order.

(** Arithmetic on finite numbers is that of the values, rounded, less the last bit; a
    division by zero fails. *)
Theorem C20_numbers : forall l r x y, denotes l (Num x) -> denotes r (Num y) -> is_finite x = true -> is_finite y = true ->
  (exists z, rounded (val x + val y) 1 z /\ gives (eval Add l r) (Num (stored z))) /\
  (exists z, rounded (val x - val y) 1 z /\ gives (eval Sub l r) (Num (stored z))) /\
  (exists z, rounded (val x * val y) unit_val z /\ gives (eval Mul l r) (Num (stored z))) /\
  (val y <> 0 -> exists z, rounded (Z.sgn (val y) * val x * unit_val) (Z.abs (val y)) z /\ gives (eval Div l r) (Num (stored z))) /\
  (val y = 0 -> exists v, eval Div l r = Some (false, v) /\ store v = [0x80000000]).
Proof. exact numbers_ok. Qed.
Print Assumptions C20_numbers.

Theorem C20_minimum : forall l r x y, denotes l (Num x) -> denotes r (Num y) -> is_number x -> is_number y ->
  exists z, gives (eval Min l r) (Num z) /\ (z = x \/ z = y) /\ val z <= val x /\ val z <= val y.
Proof. exact minimum_ok. Qed.
Print Assumptions C20_minimum.
Theorem C20_maximum : forall l r x y, denotes l (Num x) -> denotes r (Num y) -> is_number x -> is_number y ->
  exists z, gives (eval Max l r) (Num z) /\ (z = x \/ z = y) /\ val x <= val z /\ val y <= val z.
Proof. exact maximum_ok. Qed.
Print Assumptions C20_maximum.
Example C20_ex_numbers : denotes [one_atom] (Num fone) /\ denotes [0x20600000] (Num (f32_of_Z 6 )) /\ is_finite fone = true /\ is_finite (f32_of_Z 6) = true /\ val (f32_of_Z 6) = 6 * val fone.
Proof.
  split; [exact (denotes_num one_atom ltac:(unfold is_u32, one_atom; lia) ltac:(unfold one_atom; lia))|].
  split; [exact (denotes_num 0x20600000 ltac:(unfold is_u32; lia) ltac:(lia))|]. repeat split; vm_compute; reflexivity.
Qed.

(** A number of microseconds added to (subtracted from) a time or a duration. *)
Theorem C20_time_number : forall l r t x, denotes l (Time t) -> denotes r (Num x) -> is_finite x = true -> is_i64 (int_part x) ->
  (is_i64 (t + int_part x) -> gives (eval Add l r) (Time (t + int_part x)) /\ gives (eval Add r l) (Time (t + int_part x))) /\
  (is_i64 (t - int_part x) -> gives (eval Sub l r) (Time (t - int_part x))).
Proof. exact time_number_ok. Qed.
Print Assumptions C20_time_number.
Theorem C20_duration_number : forall l r t x, denotes l (Dur t) -> denotes r (Num x) -> is_finite x = true -> is_i64 (int_part x) ->
  (is_i64 (t + int_part x) -> gives (eval Add l r) (Dur (t + int_part x)) /\ gives (eval Add r l) (Dur (t + int_part x))) /\
  (is_i64 (t - int_part x) -> gives (eval Sub l r) (Dur (t - int_part x))).
Proof. exact duration_number_ok. Qed.
Print Assumptions C20_duration_number.

(** Symmetries, for operands of any types. *)
Theorem C20_converse : forall l r, Forall is_u32 l -> Forall is_u32 r -> eval Gtr l r = eval Lsr r l /\ eval Gte l r = eval Lse r l.
Proof. intros l r HL HR. exact (conj (gtr_lsr l r HL HR) (gte_lse l r HL HR)). Qed.
Print Assumptions C20_converse.
Theorem C20_add_symmetric : forall l r, Forall is_u32 l -> Forall is_u32 r -> eval Add l r = eval Add r l.
Proof. exact add_comm. Qed.
Print Assumptions C20_add_symmetric.
Theorem C20_distance_symmetric : forall l r, Forall is_u32 l -> Forall is_u32 r -> eval Dis l r = eval Dis r l.
Proof. exact dis_comm. Qed.
Print Assumptions C20_distance_symmetric.
(** Multiplication is symmetric for operands of the same type. *)
Theorem C20_mul_symmetric_partial : forall l r, Forall is_u32 l -> Forall is_u32 r -> kind_of l = kind_of r -> eval Mul l r = eval Mul r l.
Proof. exact mul_comm. Qed.
Print Assumptions C20_mul_symmetric_partial.

(** Not total: a duration divided by the number zero, or a large number added to a time,
    is undefined behaviour. *)
Theorem C20_total_refuted :
  (exists l r, denotes l (Dur 5) /\ denotes r (Num fzero) /\ eval Div l r = None) /\
  (exists l r x, denotes l (Time 5) /\ denotes r (Num x) /\ is_finite x = true /\ eval Add l r = None /\ eval Sub l r = None).
Proof. exact (conj division_undefined addition_undefined). Qed.
Print Assumptions C20_total_refuted.
(** One divided by infinity, and by the empty duration, are infinity. *)
Theorem C20_division_refuted :
  (exists l r, denotes l (Num fone) /\ denotes r (Num (S754_infinity false)) /\ gives (eval Div l r) (Num (S754_infinity false))) /\
  (exists l r, denotes l (Num fone) /\ denotes r (Dur 0) /\ gives (eval Div l r) (Num (S754_infinity false))).
Proof. exact (conj infinity_divides zero_duration_divides). Qed.
Print Assumptions C20_division_refuted.
(** 1 * 5us is the number 5; 5us * 1 is the duration 5us. *)
Theorem C20_mul_symmetric_refuted : exists l r, denotes l (Num fone) /\ denotes r (Dur 5) /\ gives (eval Mul l r) (Num (f32_of_Z 5)) /\ gives (eval Mul r l) (Dur 5).
Proof. exact mul_not_symmetric. Qed.
Print Assumptions C20_mul_symmetric_refuted.
(** 0 and -0: neither less, nor greater, nor equal. *)
Theorem C20_trichotomy_refuted : exists m c l r, atom_at m (child c 1) = Some l /\ atom_at m (child c 2) = Some r /\ denotes [l] (Num (S754_zero false)) /\ denotes [r] (Num (S754_zero true)) /\
  is_false (equ 3 m c) /\ is_true (eval Lse [l] [r]) /\ is_true (eval Gte [l] [r]) /\ is_false (eval Lsr [l] [r]) /\ is_false (eval Gtr [l] [r]).
Proof. exact zeros_differ. Qed.
Print Assumptions C20_trichotomy_refuted.

(** C61: computing the value of an expression directly or by its operator. *)
Theorem C61_comparisons : forall o q0 q1, is_u32 q0 -> is_u32 q1 -> isFloat q0 = true -> isFloat q1 = true -> is_comparison o = true -> direct o q0 q1 = by_operator o q0 q1.
Proof. exact direct_comparison. Qed.
Print Assumptions C61_comparisons.
Theorem C61_agrees_partial : forall o q0 q1, is_u32 q0 -> is_u32 q1 -> isFloat q0 = true -> isFloat q1 = true ->
  num q0 <> S754_infinity false -> num q1 <> S754_infinity false -> (o = Div -> val (num q0) <> 0 \/ num q0 = S754_nan) -> direct o q0 q1 = by_operator o q0 q1.
Proof. exact direct_ok. Qed.
Print Assumptions C61_agrees_partial.
Example C61_ex : is_u32 one_atom /\ isFloat one_atom = true /\ num one_atom <> S754_infinity false /\ num one_atom = fone /\ direct Div one_atom 0x20600000 = Some [0x20600000].
Proof. unfold is_u32, one_atom. split; [lia|]. split; [reflexivity|]. split; [discriminate|]. split; reflexivity. Qed.
(** 1 - infinity is -infinity or 0; 1 / infinity is 0 or infinity; 1 / 0 is no value or nil. *)
Theorem C61_agrees_refuted : exists q, num q = S754_infinity false /\
  direct Sub q one_atom = Some [MinusInfinity] /\ by_operator Sub q one_atom = Some [0] /\
  direct Div q one_atom = Some [0] /\ by_operator Div q one_atom = Some [PlusInfinity] /\
  direct Div 0 one_atom = Some [] /\ by_operator Div 0 one_atom = Some [Nil].
Proof. exact direct_differs. Qed.
Print Assumptions C61_agrees_refuted.

(** C62: two times are equal iff their heads and values are, if no word of them can be
    taken for a pointer or a structure. *)
Theorem C62_times_partial : forall f m c d h k s t, shows m c h s -> shows m d k t -> (2 <= f)%nat -> equal f m c d = Some ((h =? k) && (s =? t)).
Proof. exact equal_times. Qed.
Print Assumptions C62_times_partial.
Example C62_ex : shows (eq_mem 1000 1001 true) (mkctx Stem 3) 0xC7000000 (i64 (5 * 4294967296 + 1000)) /\ shows (eq_mem 1000 1001 true) (mkctx Val 0) 0xC7000000 (i64 (5 * 4294967296 + 1001)).
Proof.
  split.
  - exists (stem (eq_mem 1000 1001 true)), 5, 1000. repeat (split; [reflexivity|]). unfold is_u32, looks_like_pointer, looks_structural. cbn [In].
    split; [left; reflexivity|]. repeat (split; [lia|]). left. reflexivity.
  - exists (values (eq_mem 1000 1001 true)), 5, 1001. repeat (split; [reflexivity|]). unfold is_u32, looks_like_pointer, looks_structural. cbn [In].
    split; [left; reflexivity|]. repeat (split; [lia|]). right. left. reflexivity.
Qed.
(** The comparison is symmetric, never denies that something equals itself, and the two
    operators are opposite. *)
Theorem C62_symmetric : forall f m c d, equal f m c d = equal f m d c.
Proof. exact equal_sym. Qed.
Print Assumptions C62_symmetric.
Theorem C62_reflexive : forall f m c, equal f m c c <> Some false.
Proof. exact equal_refl. Qed.
Print Assumptions C62_reflexive.
Theorem C62_opposite : forall f m c b, equ f m c = Some (true, Atomic (Boolean b)) <-> neq f m c = Some (true, Atomic (Boolean (negb b))).
Proof. exact neq_equ. Qed.
Print Assumptions C62_opposite.
Example C62_ex_equal : equal 3 (eq_mem 1000 1000 true) (mkctx Stem 3) (mkctx Val 0) = Some true /\ equal 3 (eq_mem 1000 1001 true) (mkctx Stem 3) (mkctx Val 0) = Some false.
Proof. split; reflexivity. Qed.
(** The same time twice compares different, and two times compare equal, because the
    low word of the count of microseconds is followed as a pointer. *)
Theorem C62_same_refuted : exists m c l r h t, dereference 3 m (child c 1) = Some l /\ dereference 3 m (child c 2) = Some r /\
  holds_time m l h t /\ holds_time m r h t /\ forall f, (4 <= f)%nat -> is_false (equ f m c).
Proof. exact same_times_unequal. Qed.
Print Assumptions C62_same_refuted.
Theorem C62_different_refuted : exists m c l r h s t, dereference 3 m (child c 1) = Some l /\ dereference 3 m (child c 2) = Some r /\
  holds_time m l h s /\ holds_time m r h t /\ s <> t /\ forall f, (4 <= f)%nat -> is_true (equ f m c).
Proof. exact different_times_equal. Qed.
Print Assumptions C62_different_refuted.
(** An embedded object equals two objects that differ. *)
Theorem C62_transitive_refuted : exists m c d e, equal 4 m c d = Some true /\ equal 4 m d e = Some true /\ equal 4 m c e = Some false.
Proof. exact not_transitive. Qed.
Print Assumptions C62_transitive_refuted.
