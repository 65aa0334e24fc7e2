(** The words written by the guard builders, and how they read. *)
From Verif Require Import Base Float32 Atom_model Utils_model Op_model Gd_model Gb_model Gb_spec Atom_proofs Utils_proofs.

(** ** Atoms *)
Lemma assign_atom : forall l i, var_ok l -> 0 <= i < 4096 ->
  getDescriptor (AssignmentPointer l i) = ASSIGN_PTR /\ asAssignmentIndex (AssignmentPointer l i) = l /\ asIndex (AssignmentPointer l i) = i.
Proof.
  unfold var_ok. intros l i H H'. unfold AssignmentPointer, asAssignmentIndex. rewrite land_4095, idx_arith, desc_arith, mask_ff0000, shiftl_mul by lia.
  unfold u32, u8. change (desc ASSIGN_PTR) with (0x8D * 16777216). change ASSIGN_PTR with 0x8D. change (2 ^ 16) with 65536.
  assert (0 <= 0x8D * 16777216 + l * 65536 + i mod 4096 < 4294967296) by lia. rewrite Z.mod_small by lia. repeat split; lia.
Qed.
Lemma operator_atom : forall f n, op_ok f -> 0 <= n < 256 ->
  getDescriptor (Operator f n) = OPERATOR /\ asOpcode (Operator f n) = f /\ getAtomCount (Operator f n) = n.
Proof.
  unfold op_ok. intros f n H H'.
  assert (E : Operator f n = 0xC5 * 16777216 + f * 256 + n).
  { unfold Operator. rewrite land_4095, shl8. unfold u32. change (desc OPERATOR) with (0xC5 * 16777216). lia. }
  assert (D : getDescriptor (Operator f n) = OPERATOR) by (rewrite E, desc_arith; change OPERATOR with 0xC5; lia).
  split; [exact D|]. split.
  - unfold asOpcode. rewrite land_4095, shiftr_div, E by lia. lia.
  - unfold getAtomCount. rewrite D. cbn. rewrite land_255, E. lia.
Qed.
Lemma set_atom : forall n, 0 <= n < 256 -> getDescriptor (ASet n) = SET /\ getAtomCount (ASet n) = n.
Proof.
  intros n H. assert (E : ASet n = 0xC1 * 16777216 + n) by (unfold ASet, u32; change (desc SET) with (0xC1 * 16777216); lia).
  assert (D : getDescriptor (ASet n) = SET) by (rewrite E, desc_arith; change SET with 0xC1; lia).
  split; [exact D|]. unfold getAtomCount. rewrite D. cbn. rewrite land_255, E. lia.
Qed.
Lemma vl_atom : forall x, var_ok x -> isFloat (VLPointer x) = false /\ getDescriptor (VLPointer x) = VL_PTR /\ asIndex (VLPointer x) = x.
Proof.
  unfold var_ok. intros x H. assert (E : VLPointer x = 0x86 * 16777216 + x).
  { unfold VLPointer. rewrite land_4095. unfold u32. change (desc VL_PTR) with (0x86 * 16777216). lia. }
  rewrite E. unfold isFloat. rewrite idx_arith, desc_arith, shiftr_div by lia. change VL_PTR with 0x86.
  repeat split; [apply Z.eqb_neq; lia|lia|lia].
Qed.
Lemma ptr_atom : forall i, Z.of_nat i < 4096 -> isFloat (ptr i) = false /\ getDescriptor (ptr i) = I_PTR /\ asIndex (ptr i) = Z.of_nat i.
Proof.
  intros i H. assert (E : ptr i = 0x84 * 16777216 + Z.of_nat i).
  { unfold ptr, IPointer. rewrite land_4095. unfold u32. change (desc I_PTR) with (0x84 * 16777216). lia. }
  rewrite E. unfold isFloat. rewrite idx_arith, desc_arith, shiftr_div by lia. change I_PTR with 0x84.
  repeat split; [apply Z.eqb_neq; lia|lia|lia].
Qed.
Lemma float_atom : forall a, float_word a -> isFloat a = true.
Proof. unfold float_word, isFloat. intros a H. rewrite shiftr_div by lia. apply Z.eqb_eq. change (2 ^ 31) with 0x80000000. lia. Qed.

(** ** Writing *)
Lemma put_keep : forall c i a j x, nth_error c j = Some x -> j <> i -> nth_error (put c i a) j = Some x.
Proof. intros c i a j x H N. rewrite put_other; auto. apply nth_error_Some. congruence. Qed.
Definition hi (d : Z) : Z := Z.shiftr (u64 d) 32.
Definition lo (d : Z) : Z := Z.land d 0xFFFFFFFF.
Lemma duration_written : forall c i d, (length c <= i + 3)%nat ->
  exists c', SetDurationStruct c i d = Some c' /\ length c' = (i + 3)%nat /\
  nth_error c' i = Some ADuration /\ nth_error c' (S i) = Some (hi d) /\ nth_error c' (S (S i)) = Some (lo d) /\
  (forall j x, (j < i)%nat -> nth_error c j = Some x -> nth_error c' j = Some x).
Proof.
  intros c i d L. unfold SetDurationStruct.
  assert (Lp : length (put (resize c (i + 3)) i ADuration) = (i + 3)%nat) by (rewrite put_length, resize_length; lia).
  destruct (set_int64_total (put (resize c (i + 3)) i ADuration) (S i) d) as [c' E]; [lia|].
  exists c'. split; [exact E|]. split; [rewrite (set_int64_length _ _ _ _ E); exact Lp|].
  pose proof E as E'. unfold SetInt64 in E'. destruct (upd _ (S i) _) as [c1|] eqn:E1; [|discriminate].
  split; [rewrite (set_int64_frame _ _ _ _ i E) by lia; apply put_same|].
  split; [rewrite (upd_other _ _ _ _ _ E') by lia; apply (upd_same _ _ _ _ E1)|].
  split; [apply (upd_same _ _ _ _ E')|].
  intros j x Hj Hx. assert (j < length c)%nat by (apply nth_error_Some; congruence).
  rewrite (set_int64_frame _ _ _ _ j E) by lia. rewrite put_other by (rewrite ?resize_length; lia). rewrite resize_nth by lia. exact Hx.
Qed.
Lemma duration_read : forall c i d, is_i64 d -> nth_error c i = Some (hi d) -> nth_error c (S i) = Some (lo d) -> GetInt64 c i = Some d.
Proof.
  intros c i d H A B. unfold GetInt64, get. rewrite A, B. f_equal. unfold hi, lo.
  rewrite shiftr_div by lia. change (2^32) with 4294967296.
  change 0xFFFFFFFF with (Z.ones 32). rewrite Z.land_ones by lia. change (2^32) with 4294967296.
  unfold is_i64 in H. rewrite lor_shift32 by lia. unfold u64, i64. lia.
Qed.

(** A piece of the code. *)
Definition seg (c : code) (i : nat) (ws : list Z) : Prop := forall k x, nth_error ws k = Some x -> nth_error c (i + k) = Some x.
Lemma seg_cons : forall c i a ws, seg c i (a :: ws) <-> nth_error c i = Some a /\ seg c (S i) ws.
Proof.
  intros c i a ws. split.
  - intros H. split; [rewrite <- (Nat.add_0_r i); apply H; reflexivity|]. intros k x E. replace (S i + k)%nat with (i + S k)%nat by lia. apply H. exact E.
  - intros [A B] [|k] x E; [rewrite Nat.add_0_r; cbn in E; congruence|]. replace (i + S k)%nat with (S i + k)%nat by lia. apply B. exact E.
Qed.
Lemma seg_nil : forall c i, seg c i [].
Proof. intros c i [|k] x E; discriminate. Qed.
Lemma seg_keep : forall c c' i ws, seg c i ws -> (forall j x, (i <= j < i + length ws)%nat -> nth_error c j = Some x -> nth_error c' j = Some x) -> seg c' i ws.
Proof.
  intros c c' i ws H K k x E. apply K; [|apply H; exact E].
  assert (k < length ws)%nat by (apply nth_error_Some; congruence). lia.
Qed.

(** A writer of one guard: it adds the guard at the next word of the set, and [size]
    words after the extent, that start with [body]. *)
Record writer := { code_of : list step; size : nat; target : Z; body : nat -> list Z; means : guard }.
Definition good (W : writer) : Prop :=
  (forall e, (length (body W e) <= size W)%nat) /\
  (forall (c : code) (w e : nat), (length c <= S e)%nat -> (w < e)%nat ->
    exists c', run (code_of W) (c, w, e) = Some (c', S w, (e + size W)%nat) /\ (length c' <= S (e + size W))%nat /\
    (forall j x, (j <= e)%nat -> j <> S w -> nth_error c j = Some x -> nth_error c' j = Some x) /\
    nth_error c' (S w) = Some (AssignmentPointer (target W) (Z.of_nat (S e))) /\ seg c' (S e) (body W e)) /\
  (forall c w e, Z.of_nat (e + size W) < 4096 ->
    nth_error c (S w) = Some (AssignmentPointer (target W) (Z.of_nat (S e))) -> seg c (S e) (body W e) ->
    guard_at c (S w) = Some (means W)).

Ltac segs := repeat (apply seg_cons; split); try apply seg_nil.
Ltac keep := first [ apply put_same | apply put_keep; [keep|lia] | eassumption ].

Lemma write_guard_good : forall l r f d, var_ok l -> var_ok r -> op_ok f -> is_i64 d ->
  good {| code_of := write_guard l r f d; size := 6; target := l;
          body := fun e => [Operator f 2; VLPointer r; ptr (e + 4); ADuration; hi d; lo d];
          means := gets l (op2 f (v r) (dur d)) |}.
Proof.
  intros l r f d Hl Hr Hf Hd. split; [|split]; cbn [code_of size target body means].
  - intros e. cbn. lia.
  - intros c w e L W. unfold write_guard, run, assign, emit, emit_ptr, emit_duration.
    match goal with |- context [SetDurationStruct ?c ?i d] => set (c0 := c); destruct (duration_written c0 i d) as (c' & -> & L' & A & B & C & K) end.
    { subst c0. rewrite !put_length. lia. }
    exists c'. split; [do 2 f_equal; lia|]. split; [lia|].
    split; [intros j x J N E; apply K; [lia|]; subst c0; keep|].
    split; [apply K; [lia|]; subst c0; keep|].
    segs.
    + apply K; [lia|]. subst c0. keep.
    + apply K; [lia|]. subst c0. keep.
    + apply K; [lia|]. subst c0. replace (e + 4)%nat with (S (S e) + 2)%nat by lia. keep.
    + exact A.
    + exact B.
    + exact C.
  - intros c w e L A S0. rewrite !seg_cons in S0. destruct S0 as (W0 & W1 & W2 & W3 & W4 & W5 & _).
    unfold guard_at. rewrite A. destruct (assign_atom l (Z.of_nat (S e)) Hl) as (-> & -> & ->); [lia|].
    rewrite Z.eqb_refl, Nat2Z.id. unfold depth. cbn [place].
    rewrite W0. destruct (operator_atom f 2 Hf) as (-> & -> & ->); [lia|].
    change (OPERATOR =? DURATION) with false. rewrite Z.eqb_refl. cbv iota zeta. change (Z.to_nat 2) with 2%nat.
    cbn [seq map]. replace (S e + 1)%nat with (S (S e)) by lia. replace (S e + 2)%nat with (S (S (S e))) by lia. rewrite W1, W2.
    cbn [expr_at]. destruct (vl_atom r Hr) as (-> & -> & ->). rewrite Z.eqb_refl.
    destruct (ptr_atom (e + 4)) as (-> & -> & ->); [lia|]. change (I_PTR =? VL_PTR) with false. rewrite Z.eqb_refl, Nat2Z.id. cbv iota.
    cbn [place]. replace (e + 4)%nat with (S (S (S (S e)))) by lia. rewrite W3. change (getDescriptor ADuration =? DURATION) with true. cbv iota.
    rewrite (duration_read _ _ d Hd W4 W5). reflexivity.
Qed.

Lemma speed_fwd_good : forall o q1 q0 s p, var_ok q1 -> var_ok q0 -> var_ok s -> op_ok (o_add o) -> op_ok (o_mul o) -> is_i64 p ->
  good {| code_of := speed_fwd o q1 q0 s p; size := 9; target := q1;
          body := fun e => [Operator (o_add o) 2; VLPointer q0; ptr (e + 4); Operator (o_mul o) 2; VLPointer s; ptr (e + 7); ADuration; hi p; lo p];
          means := gets q1 (plus o (v q0) (op2 (o_mul o) (v s) (dur p))) |}.
Proof.
  intros o q1 q0 s p H1 H0 Hs Ha Hm Hd. split; [|split]; cbn [code_of size target body means].
  - intros e. cbn. lia.
  - intros c w e L W. unfold speed_fwd, run, assign, emit, emit_ptr, emit_duration.
    match goal with |- context [SetDurationStruct ?c ?i p] => set (c0 := c); destruct (duration_written c0 i p) as (c' & -> & L' & A & B & C & K) end.
    { subst c0. rewrite !put_length. lia. }
    exists c'. split; [do 2 f_equal; lia|]. split; [lia|].
    split; [intros j x J N E; apply K; [lia|]; subst c0; keep|].
    split; [apply K; [lia|]; subst c0; keep|].
    segs; try (apply K; [lia|]; subst c0).
    + keep.
    + keep.
    + replace (e + 4)%nat with (S (S e) + 2)%nat by lia. keep.
    + keep.
    + keep.
    + replace (e + 7)%nat with (S (S (S (S (S e)))) + 2)%nat by lia. keep.
    + exact A.
    + exact B.
    + exact C.
  - intros c w e L A S0. rewrite !seg_cons in S0. destruct S0 as (W0 & W1 & W2 & W3 & W4 & W5 & W6 & W7 & W8 & _).
    unfold guard_at. rewrite A. destruct (assign_atom q1 (Z.of_nat (S e)) H1) as (-> & -> & ->); [lia|].
    rewrite Z.eqb_refl, Nat2Z.id. unfold depth. cbn [place].
    rewrite W0. destruct (operator_atom (o_add o) 2 Ha) as (-> & -> & ->); [lia|].
    change (OPERATOR =? DURATION) with false. rewrite Z.eqb_refl. cbv iota zeta. change (Z.to_nat 2) with 2%nat.
    cbn [seq map]. replace (S e + 1)%nat with (S (S e)) by lia. replace (S e + 2)%nat with (S (S (S e))) by lia. rewrite W1, W2.
    cbn [expr_at]. destruct (vl_atom q0 H0) as (-> & -> & ->). rewrite Z.eqb_refl.
    destruct (ptr_atom (e + 4)) as (-> & -> & ->); [lia|]. change (I_PTR =? VL_PTR) with false. rewrite Z.eqb_refl, Nat2Z.id. cbv iota.
    cbn [place]. replace (e + 4)%nat with (S (S (S (S e)))) by lia. rewrite W3.
    destruct (operator_atom (o_mul o) 2 Hm) as (-> & -> & ->); [lia|]. change (OPERATOR =? DURATION) with false. rewrite Z.eqb_refl. cbv iota zeta. change (Z.to_nat 2) with 2%nat.
    cbn [seq map]. replace (S (S (S (S e))) + 1)%nat with (S (S (S (S (S e))))) by lia. replace (S (S (S (S e))) + 2)%nat with (S (S (S (S (S (S e)))))) by lia.
    rewrite W4, W5. cbn [expr_at]. destruct (vl_atom s Hs) as (-> & -> & ->). rewrite Z.eqb_refl.
    destruct (ptr_atom (e + 7)) as (-> & -> & ->); [lia|]. change (I_PTR =? VL_PTR) with false. rewrite Z.eqb_refl, Nat2Z.id. cbv iota.
    cbn [place]. replace (e + 7)%nat with (S (S (S (S (S (S (S e))))))) by lia. rewrite W6. change (getDescriptor ADuration =? DURATION) with true. cbv iota.
    rewrite (duration_read _ _ p Hd W7 W8). reflexivity.
Qed.

Lemma speed_bwd_good : forall o s q1 q0 p, var_ok q1 -> var_ok q0 -> var_ok s -> op_ok (o_div o) -> op_ok (o_sub o) -> is_i64 p ->
  good {| code_of := speed_bwd o s q1 q0 p; size := 9; target := s;
          body := fun e => [Operator (o_div o) 2; ptr (e + 4); ptr (e + 7); Operator (o_sub o) 2; VLPointer q1; VLPointer q0; ADuration; hi p; lo p];
          means := gets s (op2 (o_div o) (minus o (v q1) (v q0)) (dur p)) |}.
Proof.
  intros o s q1 q0 p H1 H0 Hs Ha Hm Hd. split; [|split]; cbn [code_of size target body means].
  - intros e. cbn. lia.
  - intros c w e L W. unfold speed_bwd, run, assign, emit, emit_ptr, emit_duration.
    match goal with |- context [SetDurationStruct ?c ?i p] => set (c0 := c); destruct (duration_written c0 i p) as (c' & -> & L' & A & B & C & K) end.
    { subst c0. rewrite !put_length. lia. }
    exists c'. split; [do 2 f_equal; lia|]. split; [lia|].
    split; [intros j x J N E; apply K; [lia|]; subst c0; keep|].
    split; [apply K; [lia|]; subst c0; keep|].
    segs; try (apply K; [lia|]; subst c0).
    + keep.
    + replace (e + 4)%nat with (S e + 3)%nat by lia. keep.
    + replace (e + 7)%nat with (S (S e) + 5)%nat by lia. keep.
    + keep.
    + keep.
    + keep.
    + exact A.
    + exact B.
    + exact C.
  - intros c w e L A S0. rewrite !seg_cons in S0. destruct S0 as (W0 & W1 & W2 & W3 & W4 & W5 & W6 & W7 & W8 & _).
    unfold guard_at. rewrite A. destruct (assign_atom s (Z.of_nat (S e)) Hs) as (-> & -> & ->); [lia|].
    rewrite Z.eqb_refl, Nat2Z.id. unfold depth. cbn [place].
    rewrite W0. destruct (operator_atom (o_div o) 2 Ha) as (-> & -> & ->); [lia|].
    change (OPERATOR =? DURATION) with false. rewrite Z.eqb_refl. cbv iota zeta. change (Z.to_nat 2) with 2%nat.
    cbn [seq map]. replace (S e + 1)%nat with (S (S e)) by lia. replace (S e + 2)%nat with (S (S (S e))) by lia. rewrite W1, W2.
    cbn [expr_at]. destruct (ptr_atom (e + 4)) as (-> & -> & ->); [lia|]. destruct (ptr_atom (e + 7)) as (-> & -> & ->); [lia|].
    change (I_PTR =? VL_PTR) with false. rewrite Z.eqb_refl, !Nat2Z.id. cbv iota.
    cbn [place]. replace (e + 4)%nat with (S (S (S (S e)))) by lia. rewrite W3.
    destruct (operator_atom (o_sub o) 2 Hm) as (-> & -> & ->); [lia|]. change (OPERATOR =? DURATION) with false. rewrite Z.eqb_refl. cbv iota zeta. change (Z.to_nat 2) with 2%nat.
    cbn [seq map]. replace (S (S (S (S e))) + 1)%nat with (S (S (S (S (S e))))) by lia. replace (S (S (S (S e))) + 2)%nat with (S (S (S (S (S (S e)))))) by lia.
    rewrite W4, W5. cbn [expr_at]. destruct (vl_atom q1 H1) as (-> & -> & ->). destruct (vl_atom q0 H0) as (-> & -> & ->). rewrite Z.eqb_refl.
    replace (e + 7)%nat with (S (S (S (S (S (S (S e))))))) by lia. rewrite W6. change (getDescriptor ADuration =? DURATION) with true. cbv iota.
    rewrite (duration_read _ _ p Hd W7 W8). reflexivity.
Qed.

(** A word that stands for itself: a variable or a float. *)
Definition simple (a : Z) (e : expr) : Prop := (exists x, var_ok x /\ a = VLPointer x /\ e = v x) \/ (float_word a /\ e = Lit (VFloat a)).
Lemma simple_reads : forall a e fuel c, simple a e -> expr_at (S fuel) c a = Some e.
Proof.
  intros a e fuel c [(x & H & -> & ->)|(H & ->)]; cbn [expr_at].
  - destruct (vl_atom x H) as (-> & -> & ->). reflexivity.
  - rewrite float_atom by assumption. reflexivity.
Qed.
Lemma binary_good : forall l f a b ea eb, var_ok l -> op_ok f -> simple a ea -> simple b eb ->
  good {| code_of := binary_guard l f a b; size := 4; target := l; body := fun _ => [Operator f 2; a; b]; means := gets l (op2 f ea eb) |}.
Proof.
  intros l f a b ea eb Hl Hf Ha Hb. split; [|split]; cbn [code_of size target body means].
  - intros e. cbn. lia.
  - intros c w e L W. unfold binary_guard, run, assign, emit, skip. eexists. split; [do 2 f_equal; lia|]. split; [rewrite !put_length; lia|].
    split; [intros j x J N E; keep|]. split; [keep|]. segs; keep.
  - intros c w e L A S0. rewrite !seg_cons in S0. destruct S0 as (W0 & W1 & W2 & _).
    unfold guard_at. rewrite A. destruct (assign_atom l (Z.of_nat (S e)) Hl) as (-> & -> & ->); [lia|].
    rewrite Z.eqb_refl, Nat2Z.id. unfold depth. cbn [place]. rewrite W0. destruct (operator_atom f 2 Hf) as (-> & -> & ->); [lia|].
    change (OPERATOR =? DURATION) with false. rewrite Z.eqb_refl. cbv iota zeta. change (Z.to_nat 2) with 2%nat.
    cbn [seq map]. replace (S e + 1)%nat with (S (S e)) by lia. replace (S e + 2)%nat with (S (S (S e))) by lia. rewrite W1, W2.
    rewrite !(simple_reads _ _ _ _ Ha), !(simple_reads _ _ _ _ Hb). reflexivity.
Qed.
Lemma id_good : forall o l a, var_ok l -> op_ok (o_id o) -> float_word a ->
  good {| code_of := const_guard o l (AFloat a); size := 3; target := l; body := fun _ => [Operator (o_id o) 1; a]; means := gets l (Op (Z.to_nat (o_id o)) [Lit (VFloat a)]) |}.
Proof.
  intros o l a Hl Hf Ha. split; [|split]; cbn [code_of size target body means].
  - intros e. cbn. lia.
  - intros c w e L W. unfold const_guard, run, assign, emit, skip. eexists. split; [do 2 f_equal; lia|]. split; [rewrite !put_length; lia|].
    split; [intros j x J N E; keep|]. split; [keep|]. segs; keep.
  - intros c w e L A S0. rewrite !seg_cons in S0. destruct S0 as (W0 & W1 & _).
    unfold guard_at. rewrite A. destruct (assign_atom l (Z.of_nat (S e)) Hl) as (-> & -> & ->); [lia|].
    rewrite Z.eqb_refl, Nat2Z.id. unfold depth. cbn [place]. rewrite W0. destruct (operator_atom (o_id o) 1 Hf) as (-> & -> & ->); [lia|].
    change (OPERATOR =? DURATION) with false. rewrite Z.eqb_refl. cbv iota zeta. change (Z.to_nat 1) with 1%nat.
    cbn [seq map]. replace (S e + 1)%nat with (S (S e)) by lia. rewrite W1. cbn [expr_at]. rewrite (float_atom a Ha). reflexivity.
Qed.
Lemma object_args : forall c fuel args i, Forall float_word args -> seg c i args ->
  all_some (map (fun j => match nth_error c (i + j) with Some a => expr_at (S fuel) c a | None => None end) (seq 0 (length args))) = Some (map (fun x => Lit (VFloat x)) args).
Proof.
  intros c fuel args. induction args as [|a args IH]; intros i F S0; [reflexivity|].
  apply seg_cons in S0. destruct S0 as [A B]. cbn [length seq map]. rewrite Nat.add_0_r, A. inversion F as [|? ? F1 F2]; subst.
  cbn [expr_at] in *. rewrite (float_atom a F1). cbn [all_some]. rewrite <- seq_shift, map_map.
  specialize (IH (S i) F2 B).
  assert (E : forall l1 l2 : list (option expr), l1 = l2 -> match all_some l1 with Some r => Some (Lit (VFloat a) :: r) | None => None end = match all_some l2 with Some r => Some (Lit (VFloat a) :: r) | None => None end) by (intros ? ? ->; reflexivity).
  erewrite E; [rewrite IH; reflexivity|]. apply map_ext. intros j. replace (i + S j)%nat with (S i + j)%nat by lia. reflexivity.
Qed.
Lemma object_good : forall o l h args, var_ok l -> getDescriptor h = OBJECT -> getAtomCount h = Z.of_nat (length args) -> Forall float_word args ->
  good {| code_of := const_guard o l (AObj h args); size := 2 + length args; target := l; body := fun _ => h :: args;
          means := gets l (Str KObject (map (fun x => Lit (VFloat x)) args)) |}.
Proof.
  intros o l h args Hl Hd Hn F. split; [|split]; cbn [code_of size target body means].
  - intros e. cbn [length]. lia.
  - intros c w e L W. unfold const_guard, run.
    destruct (put_words_spec (h :: args) (put c (S w) (AssignmentPointer l (Z.of_nat (S e)))) (S e)) as (A & B & C).
    set (c' := put_words _ _ _) in *. exists c'. split; [do 2 f_equal; lia|].
    cbn [length Nat.eqb] in A. rewrite put_length in A. split; [lia|].
    split. { intros j x J N E. rewrite C; [|lia|rewrite put_length; assert (j < length c)%nat by (apply nth_error_Some; congruence); lia]. keep. }
    split. { rewrite C; [keep|lia|rewrite put_length; lia]. }
    intros k x E. rewrite B; [exact E|]. apply nth_error_Some. congruence.
  - intros c w e L A S0. pose proof S0 as S1. apply seg_cons in S1. destruct S1 as [W0 W1].
    unfold guard_at. rewrite A. destruct (assign_atom l (Z.of_nat (S e)) Hl) as (-> & -> & ->); [lia|].
    rewrite Z.eqb_refl, Nat2Z.id. unfold depth. cbn [place]. rewrite W0, Hd, Hn, Nat2Z.id.
    change (OBJECT =? DURATION) with false. change (OBJECT =? OPERATOR) with false. rewrite Z.eqb_refl. cbv iota zeta.
    rewrite <- seq_shift, map_map.
    assert (E := object_args c 4 args (S (S e)) F W1).
    erewrite map_ext; [rewrite E; reflexivity|]. intros j. cbv beta. replace (S e + S j)%nat with (S (S e) + j)%nat by lia. reflexivity.
Qed.

(** ** Sets of guards *)
Fixpoint total (Ws : list writer) : nat := match Ws with [] => 0 | W :: Ws => size W + total Ws end.
Fixpoint holds (c : code) (w e : nat) (Ws : list writer) : Prop :=
  match Ws with
  | [] => True
  | W :: Ws => nth_error c (S w) = Some (AssignmentPointer (target W) (Z.of_nat (S e))) /\ seg c (S e) (body W e) /\ holds c (S w) (e + size W) Ws
  end.
Definition codes (Ws : list writer) : list step := concat (map code_of Ws).
Lemma run_app : forall l1 l2 s, run (l1 ++ l2) s = match run l1 s with Some s => run l2 s | None => None end.
Proof. induction l1 as [|f l1 IH]; intros l2 s; cbn; [reflexivity|]. destruct (f s); auto. Qed.
Lemma run_then : forall l1 l2 s s', run l1 s = Some s' -> run (l1 ++ l2) s = run l2 s'.
Proof. intros l1 l2 s s' E. rewrite run_app, E. reflexivity. Qed.
Lemma holds_keep : forall Ws c c' w e,
  Forall good Ws -> holds c w e Ws -> (w + length Ws <= e)%nat -> (forall j x, (w < j <= e + total Ws)%nat -> nth_error c j = Some x -> nth_error c' j = Some x) -> holds c' w e Ws.
Proof.
  induction Ws as [|W Ws IH]; intros c c' w e G H L K; [exact Logic.I|].
  inversion G as [|? ? [G0 _] G2]; subst. specialize (G0 e).
  cbn [holds total length] in *. destruct H as (A & B & C). split; [apply K; [lia|exact A]|].
  split; [apply seg_keep with c; [exact B|]; intros j x J E; apply K; [lia|exact E]|].
  apply IH with c; auto; [lia|]. intros j x J E. apply K; [lia|exact E].
Qed.
Lemma codes_run : forall Ws (c : code) (w e : nat), Forall good Ws -> (length c <= S e)%nat -> (w + length Ws <= e)%nat ->
  exists c', run (codes Ws) (c, w, e) = Some (c', (w + length Ws)%nat, (e + total Ws)%nat) /\ (length c' <= S (e + total Ws))%nat /\
  (forall j x, (j <= e)%nat -> ~ (w < j <= w + length Ws)%nat -> nth_error c j = Some x -> nth_error c' j = Some x) /\
  holds c' w e Ws.
Proof.
  induction Ws as [|W Ws IH]; intros c w e G L B.
  - exists c. cbn. rewrite !Nat.add_0_r. auto.
  - inversion G as [|? ? G1 G2]; subst. pose proof G1 as (G0 & Gr & _). cbn [length total] in *.
    destruct (Gr c w e L) as (c1 & R1 & L1 & K1 & A1 & S1); [lia|].
    destruct (IH c1 (S w) (e + size W)%nat G2) as (c2 & R2 & L2 & K2 & H2); [lia|lia|].
    exists c2. unfold codes in *. cbn [map concat]. rewrite run_app, R1. cbv iota.
    split; [etransitivity; [exact R2|f_equal; f_equal; [f_equal; lia|lia]]|]. split; [lia|].
    split; [intros j x J N E; apply K2; [lia|lia|]; apply K1; [lia|lia|exact E]|].
    cbn [holds]. split; [apply K2; [lia|lia|exact A1]|].
    split; [|exact H2]. apply seg_keep with c1; [exact S1|]. intros j x J E. specialize (G0 e). apply K2; [lia|lia|exact E].
Qed.
Lemma holds_reads : forall Ws c w e, Forall good Ws -> Z.of_nat (e + total Ws) < 4096 -> holds c w e Ws ->
  all_some (map (guard_at c) (seq (S w) (length Ws))) = Some (map means Ws).
Proof.
  induction Ws as [|W Ws IH]; intros c w e G L H; [reflexivity|].
  inversion G as [|? ? (G0 & _ & Gd) G2]; subst. cbn [holds total length seq map all_some] in *. destruct H as (A & B & C).
  rewrite (Gd c w e) by (auto; lia). rewrite (IH c (S w) (e + size W)%nat) by (auto; lia). reflexivity.
Qed.
Definition both (F B : list writer) : list step :=
  [open_set 3 (length F)] ++ codes F ++ [close_set] ++ [open_set 4 (length B)] ++ codes B ++ [close_set].
Lemma set_reads : forall Ws c slot w, Forall good Ws -> Z.of_nat (S w + length Ws + total Ws) < 4096 -> (length Ws < 256)%nat ->
  nth_error c slot = Some (ptr (S w)) -> nth_error c (S w) = Some (ASet (Z.of_nat (length Ws))) -> holds c (S w) (S w + length Ws) Ws ->
  guards c slot = Some (map means Ws).
Proof.
  intros Ws c slot w G L N A B H. unfold guards. rewrite A. destruct (ptr_atom (S w)) as (_ & -> & ->); [lia|].
  rewrite Z.eqb_refl, Nat2Z.id. unfold set_at. rewrite B. destruct (set_atom (Z.of_nat (length Ws))) as (-> & ->); [lia|].
  rewrite Z.eqb_refl, Nat2Z.id. apply holds_reads with (S w + length Ws)%nat; auto.
Qed.
(** The words of the head that a builder leaves: those before the guards, but the two
    words that point to them. *)
Lemma both_build : forall F B (c : code) (w : nat), Forall good F -> Forall good B -> (length F < 256)%nat -> (length B < 256)%nat ->
  length c = S w -> (4 <= w)%nat ->
  let w1 := (S w + length F + total F)%nat in let w2 := (S w1 + length B + total B)%nat in
  exists c', run (both F B) (c, w, w) = Some (c', w2, w2) /\ (length c' <= S w2)%nat /\
  (forall j x, (j <= w)%nat -> j <> 3%nat -> j <> 4%nat -> nth_error c j = Some x -> nth_error c' j = Some x) /\
  nth_error c' 3 = Some (ptr (S w)) /\ nth_error c' (S w) = Some (ASet (Z.of_nat (length F))) /\ holds c' (S w) (S w + length F) F /\
  nth_error c' 4 = Some (ptr (S w1)) /\ nth_error c' (S w1) = Some (ASet (Z.of_nat (length B))) /\ holds c' (S w1) (S w1 + length B) B.
Proof.
  intros F B c w GF GB NF NB L W w1 w2. unfold both.
  set (c1 := put (put c 3 (ptr (S w))) (S w) (ASet (Z.of_nat (length F)))).
  assert (L1 : length c1 = S (S w)) by (subst c1; rewrite !put_length; lia).
  destruct (codes_run F c1 (S w) (S w + length F)%nat GF) as (c2 & R2 & L2 & K2 & H2); [lia|lia|].
  fold w1 in R2, L2.
  set (c3 := put (put c2 4 (ptr (S w1))) (S w1) (ASet (Z.of_nat (length B)))).
  assert (Q : forall j x, j <> 4%nat -> nth_error c2 j = Some x -> nth_error c3 j = Some x).
  { intros j x J E. subst c3. assert (j < length c2)%nat by (apply nth_error_Some; congruence). assert (j <> S w1) by (subst w1; lia). keep. }
  assert (L3 : (length c3 <= S (S w1))%nat) by (subst c3; rewrite !put_length; subst w1; lia).
  destruct (codes_run B c3 (S w1) (S w1 + length B)%nat GB) as (c4 & R4 & L4 & K4 & H4); [lia|lia|].
  fold w2 in R4, L4. exists c4.
  split. { erewrite (run_then [open_set 3 (length F)]) by reflexivity. erewrite run_then by exact R2. erewrite (run_then [close_set]) by reflexivity.
    erewrite (run_then [open_set 4 (length B)]) by reflexivity. erewrite run_then by exact R4. reflexivity. } split; [exact L4|].
  assert (Q' : forall j x, (j <= w1)%nat -> j <> 4%nat -> nth_error c2 j = Some x -> nth_error c4 j = Some x).
  { intros j x J N E. apply K4; [lia|lia|]. apply Q; auto. }
  split. { intros j x J N3 N4 E. apply Q'; [subst w1; lia|exact N4|]. apply K2; [lia|lia|]. subst c1. assert (j <> S w) by lia. keep. }
  split. { apply Q'; [subst w1; lia|lia|]. apply K2; [lia|lia|]. subst c1. keep. }
  split. { apply Q'; [subst w1; lia|lia|]. apply K2; [lia|lia|]. subst c1. keep. }
  split. { apply holds_keep with c2; auto. intros j x J E. apply Q'; [subst w1; lia|lia|exact E]. }
  split. { apply K4; [subst w1; lia|subst w1; lia|]. subst c3. assert (4%nat <> S w1) by (subst w1; lia). keep. }
  split. { apply K4; [lia|lia|]. subst c3. keep. }
  exact H4.
Qed.

(** ** The tail *)
Lemma tail_keep : forall c w j x, (length c <= S w)%nat -> (10 <= w)%nat -> nth_error c j = Some x -> ~ (5 <= j <= 10)%nat -> nth_error (tail c w) j = Some x.
Proof.
  intros c w j x L W E N. assert (j < length c)%nat by (apply nth_error_Some; congruence). unfold tail.
  assert (j <> S w /\ j <> S (S w) /\ j <> 5 /\ j <> 6 /\ j <> 7 /\ j <> 8 /\ j <> 9 /\ j <> 10)%nat as (? & ? & ? & ? & ? & ? & ? & ?) by lia. keep.
Qed.
Lemma both_finish : forall o b m F B (c : code) (w : nat) l, steps o b m = Some l -> run l (c, w, w) = run (both F B) (c, w, w) -> Forall good F -> Forall good B -> (length F < 256)%nat -> (length B < 256)%nat ->
  head_ok c w -> (length F + length B + total F + total B < 1000)%nat ->
  exists c', finish o b m c w = Some c' /\ guards c' 3 = Some (map means F) /\ guards c' 4 = Some (map means B) /\
  (forall j x, (j <= w)%nat -> ~ (3 <= j <= 10)%nat -> nth_error c j = Some x -> nth_error c' j = Some x).
Proof.
  intros o b m F B c w l E E' GF GB NF NB (L & W & M) T. unfold finish, build. rewrite E, E'.
  destruct (both_build F B c w GF GB NF NB L) as (c1 & R & L1 & K & A3 & S3 & H3 & A4 & S4 & H4); [lia|]. rewrite R.
  eexists. split; [reflexivity|].
  set (w1 := (S w + length F + total F)%nat) in *. set (w2 := (S w1 + length B + total B)%nat) in *.
  assert (Q : forall j x, ~ (5 <= j <= 10)%nat -> nth_error c1 j = Some x -> nth_error (tail c1 w2) j = Some x) by (intros j x N Ej; apply tail_keep; auto; subst w2 w1; lia).
  split. { apply set_reads with w; auto; try (apply Q; [lia|assumption]); [lia|]. apply holds_keep with c1; auto. intros j x J Ej. apply Q; [lia|exact Ej]. }
  split. { apply set_reads with w1; auto; try (apply Q; [lia|assumption]); [subst w1; lia|]. apply holds_keep with c1; auto. intros j x J Ej. apply Q; [subst w1; lia|exact Ej]. }
  intros j x J N Ej. apply Q; [lia|]. apply K; auto; lia.
Qed.
