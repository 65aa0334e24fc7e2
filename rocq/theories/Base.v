(** Common vocabulary: machine words as [Z] with explicit wrap-around, and
    array access with an explicit out-of-bounds outcome. *)
From Coq Require Export ZArith List Bool Lia.
From Coq Require Export ZifyBool ZifyNat ZifyN.
Export ListNotations.
Open Scope Z_scope.
Ltac Zify.zify_post_hook ::= Z.div_mod_to_equations.

(** Conversion of an integer to uint8 / uint16 / uint32 / uint64 (C++ modular
    conversion). *)
Definition u8 (x : Z) : Z := x mod 256.
Definition u16 (x : Z) : Z := x mod 65536.
Definition u32 (x : Z) : Z := x mod 4294967296.
Definition u64 (x : Z) : Z := x mod 18446744073709551616.
(** Conversion to int64 (two's complement). *)
Definition i64 (x : Z) : Z :=
  (x + 9223372036854775808) mod 18446744073709551616 - 9223372036854775808.

Definition is_u8 (x : Z) : Prop := 0 <= x < 256.
Definition is_u16 (x : Z) : Prop := 0 <= x < 65536.
Definition is_u32 (x : Z) : Prop := 0 <= x < 4294967296.
Definition is_i64 (x : Z) : Prop :=
  -9223372036854775808 <= x < 9223372036854775808.

(** Replacement of the element at index [i]; [None] when out of bounds. *)
Fixpoint upd {A} (l : list A) (i : nat) (x : A) : option (list A) :=
  match l, i with
  | [], _ => None
  | _ :: t, O => Some (x :: t)
  | h :: t, S j => match upd t j x with Some t' => Some (h :: t') | None => None end
  end.

Lemma upd_length {A} (l : list A) i x l' :
  upd l i x = Some l' -> length l' = length l.
Proof.
  revert i l'; induction l as [|h t IH]; intros [|j] l' H; cbn in H; try discriminate.
  - inversion H; reflexivity.
  - destruct (upd t j x) as [t'|] eqn:E; inversion H; subst; cbn; f_equal; eauto.
Qed.

Lemma upd_some {A} (l : list A) i x :
  (i < length l)%nat -> exists l', upd l i x = Some l'.
Proof.
  revert i; induction l as [|h t IH]; intros [|j] H; cbn in *; try lia; eauto.
  destruct (IH j) as [t' E]; [lia|]. rewrite E; eauto.
Qed.

Lemma upd_none {A} (l : list A) i x :
  (length l <= i)%nat -> upd l i x = None.
Proof.
  revert i; induction l as [|h t IH]; intros [|j] H; cbn in *; try lia; auto.
  rewrite IH; [reflexivity|lia].
Qed.

Lemma upd_same {A} (l : list A) i x l' :
  upd l i x = Some l' -> nth_error l' i = Some x.
Proof.
  revert i l'; induction l as [|h t IH]; intros [|j] l' H; cbn in H; try discriminate.
  - inversion H; reflexivity.
  - destruct (upd t j x) as [t'|] eqn:E; inversion H; subst; cbn; eauto.
Qed.

Lemma upd_other {A} (l : list A) i j x l' :
  upd l i x = Some l' -> i <> j -> nth_error l' j = nth_error l j.
Proof.
  revert i j l'; induction l as [|h t IH]; intros [|i] [|j] l' H Hne; cbn in H;
    try discriminate; try congruence.
  - inversion H; reflexivity.
  - destruct (upd t i x) as [t'|] eqn:E; inversion H; reflexivity.
  - destruct (upd t i x) as [t'|] eqn:E; inversion H; subst; cbn; eauto.
Qed.

Lemma upd_lt {A} (l : list A) i x l' : upd l i x = Some l' -> (i < length l)%nat.
Proof.
  intros H. destruct (Nat.lt_ge_cases i (length l)) as [|Hge]; auto.
  rewrite upd_none in H by assumption; discriminate.
Qed.

Lemma nth_error_ext {A} (l1 l2 : list A) :
  (forall i, nth_error l1 i = nth_error l2 i) -> l1 = l2.
Proof.
  revert l2; induction l1 as [|a l1 IH]; intros [|b l2] H; auto.
  - specialize (H 0%nat); discriminate.
  - specialize (H 0%nat); discriminate.
  - pose proof (H 0%nat) as H0; cbn in H0; inversion H0; f_equal.
    apply IH; intros i; exact (H (S i)).
Qed.

(** Bit masks as arithmetic. *)
Lemma land_255 x : Z.land x 255 = x mod 256.
Proof. exact (Z.land_ones x 8 ltac:(lia)). Qed.
Lemma land_4095 x : Z.land x 4095 = x mod 4096.
Proof. exact (Z.land_ones x 12 ltac:(lia)). Qed.
Lemma land_1 x : Z.land x 1 = x mod 2.
Proof. exact (Z.land_ones x 1 ltac:(lia)). Qed.
Lemma shiftr_div x n : 0 <= n -> Z.shiftr x n = x / 2 ^ n.
Proof. intros; apply Z.shiftr_div_pow2; assumption. Qed.
Lemma shiftl_mul x n : 0 <= n -> Z.shiftl x n = x * 2 ^ n.
Proof. intros; apply Z.shiftl_mul_pow2; assumption. Qed.
