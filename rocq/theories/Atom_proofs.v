From Verif Require Import Base Float32 Atom_model Atom_spec.

Ltac bits :=
  unfold u8, u16, u32, desc in *;
  repeat rewrite ?land_4095, ?land_255, ?land_1, ?Z.shiftr_land in *;
  repeat rewrite ?shiftl_mul, ?shiftr_div in * by lia;
  cbn [Z.pow Z.pow_pos Pos.iter Z.mul Pos.mul] in *.

Lemma mask_ff000 a : Z.shiftr (Z.land a 0x000FF000) 12 = (a / 4096) mod 256.
Proof. rewrite Z.shiftr_land, shiftr_div by lia. change (Z.shiftr 0xFF000 12) with 255.
  rewrite land_255. reflexivity. Qed.
Lemma mask_fff000 a : Z.shiftr (Z.land a 0x00FFF000) 12 = (a / 4096) mod 4096.
Proof. rewrite Z.shiftr_land, shiftr_div by lia. change (Z.shiftr 0xFFF000 12) with 4095.
  rewrite land_4095. reflexivity. Qed.
Lemma mask_ff0000 a : Z.shiftr (Z.land a 0x00FF0000) 16 = (a / 65536) mod 256.
Proof. rewrite Z.shiftr_land, shiftr_div by lia. change (Z.shiftr 0xFF0000 16) with 255.
  rewrite land_255. reflexivity. Qed.
Lemma mask_ff00 a : Z.shiftr (Z.land a 0x0000FF00) 8 = (a / 256) mod 256.
Proof. rewrite Z.shiftr_land, shiftr_div by lia. change (Z.shiftr 0xFF00 8) with 255.
  rewrite land_255. reflexivity. Qed.
Lemma op_arith a : asOpcode a = (a / 256) mod 4096.
Proof. unfold asOpcode. rewrite land_4095, shiftr_div by lia. reflexivity. Qed.
Lemma idx_arith a : asIndex a = a mod 4096.
Proof. unfold asIndex. apply land_4095. Qed.
Lemma desc_arith a : getDescriptor a = (a / 16777216) mod 256.
Proof. unfold getDescriptor, u8. rewrite shiftr_div by lia. reflexivity. Qed.
Lemma shl24 d : desc d = d * 16777216.
Proof. unfold desc. rewrite shiftl_mul by lia. reflexivity. Qed.
Lemma shl8 d : Z.shiftl d 8 = d * 256.
Proof. rewrite shiftl_mul by lia. reflexivity. Qed.
Lemma shl12 d : Z.shiftl d 12 = d * 4096.
Proof. rewrite shiftl_mul by lia. reflexivity. Qed.
Lemma shl16 d : Z.shiftl d 16 = d * 65536.
Proof. rewrite shiftl_mul by lia. reflexivity. Qed.
Lemma shl1 d : Z.shiftl d 1 = d * 2.
Proof. rewrite shiftl_mul by lia. reflexivity. Qed.
Lemma shr1 d : Z.shiftr d 1 = d / 2.
Proof. rewrite shiftr_div by lia. reflexivity. Qed.
Lemma isFloat_arith a : isFloat a = (a / 2147483648 =? 0).
Proof. unfold isFloat. rewrite shiftr_div by lia. reflexivity. Qed.

Definition dsc (v : atom_val) : Z :=
  match v with
  | VFloat _ => 0
  | VNil => NIL | VBool _ => BOOLEAN_ | VWildcard _ => WILDCARD | VTailWildcard => T_WILDCARD
  | VPtr PI _ => I_PTR | VPtr PR _ => R_PTR | VPtr PVL _ => VL_PTR | VPtr PIPGM _ => IPGM_PTR
  | VPtr PVALUE _ => VALUE_PTR | VPtr PPROD _ => PROD_PTR | VPtr POUT _ => OUT_OBJ_PTR
  | VInObj _ _ => IN_OBJ_PTR | VDInObj _ _ => D_IN_OBJ_PTR | VAssign _ _ => ASSIGN_PTR
  | VCodeVL _ _ => CODE_VL_PTR | VThis => THIS | VView => VIEW | VMks => MKS | VVws => VWS
  | VHead HSSet _ _ => S_SET | VHead HObject _ _ => OBJECT | VHead HMarker _ _ => MARKER
  | VHead HOperator _ _ => OPERATOR | VHead HPgm _ _ => INSTANTIATED_PROGRAM
  | VHead HGroup _ _ => GROUP | VHead HCpp _ _ => INSTANTIATED_CPP_PROGRAM
  | VHead HAnti _ _ => INSTANTIATED_ANTI_PROGRAM
  | VHead HInputLess _ _ => INSTANTIATED_INPUT_LESS_PROGRAM
  | VHead HCst _ _ => COMPOSITE_STATE | VHead HMdl _ _ => MODEL
  | VSet _ => SET | VCPtr _ => C_PTR | VNode _ => NODE | VDevice _ _ _ => DEVICE
  | VDeviceFunction _ => DEVICE_FUNCTION | VString _ => STRING | VTimestamp => TIMESTAMP
  | VDuration => DURATION | VNullProgram _ => NULL_PROGRAM
  end.

(** The low 24 bits of a built atom. *)
Definition low (v : atom_val) : Z :=
  match v with
  | VBool b | VNullProgram b => if b then 1 else 0
  | VWildcard o => o * 256
  | VPtr _ i => i
  | VInObj j i | VDInObj j i => j * 4096 + i
  | VAssign j i => j * 65536 + i
  | VCodeVL i c => c * 4096 + i
  | VHead _ o n => o * 256 + n
  | VSet n | VCPtr n => n
  | VNode n => n * 256
  | VDevice n c d => n * 65536 + c * 256 + d
  | VDeviceFunction o => o * 256
  | VString n => ((n + 3) / 4) * 256 + n
  | _ => 0
  end.

Definition is_vfloat (v : atom_val) : bool := match v with VFloat _ => true | _ => false end.

Lemma low_range v : fits v -> 0 <= low v < 16777216.
Proof.
  destruct v as [| |[]| | |k i| | | | | | | | |h o n| | | | | | | | |[]]; cbn [low fits];
    unfold is_u8; intros; lia.
Qed.

Lemma dsc_range v : is_vfloat v = false -> 128 <= dsc v < 209.
Proof.
  destruct v as [| |[]| | |[]| | | | | | | | |[]| | | | | | | | |[]]; cbn [is_vfloat]; intros;
    try discriminate; split; vm_compute; congruence.
Qed.

Lemma build_eq v : fits v -> is_vfloat v = false -> build v = dsc v * 16777216 + low v.
Proof.
  intros Hf Hn. pose proof (low_range v Hf) as HL. pose proof (dsc_range v Hn) as HD.
  assert (Hw : u32 (dsc v * 16777216 + low v) = dsc v * 16777216 + low v).
  { unfold u32. apply Z.mod_small. lia. }
  rewrite <- Hw. clear Hw.
  destruct v as [b| |[]|o| |[] i|j i|j i|j i|i c| | | | |[] o n|n|n|n|n c d|o|n| | |[]];
    try discriminate Hn; cbn [build dsc low fits] in *; unfold is_u8 in *;
    try reflexivity;
    unfold Wildcard, IPointer, RPointer, VLPointer, IPGMPointer, ValuePointer, ProductionPointer,
      OutObjPointer, InObjPointer, DInObjPointer, AssignmentPointer, CodeVLPointer, SSet, AObject,
      Marker, Operator, InstantiatedProgram, AGroup, InstantiatedCPPProgram,
      InstantiatedAntiProgram, InstantiatedInputLessProgram, CompositeState, AModel, ASet,
      CPointer, Node, Device, DeviceFunction, AString;
    rewrite ?land_4095, ?shl24, ?shl8, ?shl12, ?shl16;
    try (f_equal; lia).
  unfold u8. f_equal. destruct (n mod 4 =? 0) eqn:E; lia.
Qed.

Lemma build_desc v : fits v -> is_vfloat v = false -> getDescriptor (build v) = dsc v.
Proof.
  intros Hf Hn. pose proof (low_range v Hf). pose proof (dsc_range v Hn).
  rewrite build_eq, desc_arith by assumption.
  replace ((dsc v * 16777216 + low v) / 16777216) with (dsc v) by lia. lia.
Qed.

Lemma build_nonfloat v : fits v -> is_vfloat v = false -> isFloat (build v) = false.
Proof.
  intros Hf Hn. pose proof (low_range v Hf). pose proof (dsc_range v Hn).
  rewrite build_eq, isFloat_arith by assumption. lia.
Qed.

Lemma build_float b : fits (VFloat b) ->
  isFloat (build (VFloat b)) = true /\ asFloat (build (VFloat b)) = b.
Proof.
  cbn; unfold is_u32; intros [H E]. unfold Float, asFloat. rewrite isFloat_arith, shl1, shr1.
  unfold u32. split; lia.
Qed.

Lemma read_back_build v : fits v -> (forall n, v <> VNode n) -> read_back (build v) = Some v.
Proof.
  intros Hf Hnode.
  destruct (is_vfloat v) eqn:Hn.
  - destruct v; try discriminate. destruct (build_float bits Hf) as [H1 H2].
    unfold read_back. rewrite H1, H2. reflexivity.
  - pose proof (low_range v Hf) as HL.
    unfold read_back. rewrite (build_nonfloat v Hf Hn), (build_desc v Hf Hn).
    destruct v as [b| |[]|o| |[] i|j i|j i|j i|i c| | | | |[] o n|n|n|n|n c d|o|n| | |[]];
      try discriminate Hn; try reflexivity;
      cbn [dsc Z.eqb Pos.eqb NIL BOOLEAN_ WILDCARD T_WILDCARD I_PTR R_PTR VL_PTR IPGM_PTR
           IN_OBJ_PTR VALUE_PTR PROD_PTR OUT_OBJ_PTR D_IN_OBJ_PTR ASSIGN_PTR CODE_VL_PTR THIS VIEW
           MKS VWS NODE DEVICE DEVICE_FUNCTION C_PTR SET S_SET OBJECT MARKER OPERATOR STRING
           TIMESTAMP GROUP INSTANTIATED_PROGRAM INSTANTIATED_CPP_PROGRAM
           INSTANTIATED_INPUT_LESS_PROGRAM INSTANTIATED_ANTI_PROGRAM COMPOSITE_STATE MODEL
           NULL_PROGRAM DURATION];
      try (exfalso; exact (Hnode _ eq_refl)).
    all: unfold getAtomCount; try rewrite (build_desc _ Hf Hn); rewrite ?(build_eq _ Hf Hn).
    all: cbn [dsc low fits Z.eqb Pos.eqb orb NIL BOOLEAN_ WILDCARD T_WILDCARD I_PTR R_PTR VL_PTR IPGM_PTR
           IN_OBJ_PTR VALUE_PTR PROD_PTR OUT_OBJ_PTR D_IN_OBJ_PTR ASSIGN_PTR CODE_VL_PTR THIS VIEW
           MKS VWS NODE DEVICE DEVICE_FUNCTION C_PTR SET S_SET OBJECT MARKER OPERATOR STRING
           TIMESTAMP GROUP INSTANTIATED_PROGRAM INSTANTIATED_CPP_PROGRAM
           INSTANTIATED_INPUT_LESS_PROGRAM INSTANTIATED_ANTI_PROGRAM COMPOSITE_STATE MODEL
           NULL_PROGRAM DURATION] in *.
    all: unfold asInputIndex, asRelativeIndex, asAssignmentIndex, asCastOpcode, getNodeID,
         getClassID, getDeviceID, u8, u16, is_u8 in *;
         rewrite ?op_arith, ?idx_arith, ?mask_ff000, ?mask_fff000, ?mask_ff0000, ?mask_ff00, ?land_255.
    all: do 2 f_equal; lia.
Qed.

Lemma build_range v : fits v -> 0 <= build v < 4294967296.
Proof.
  intros Hf. destruct (is_vfloat v) eqn:Hn.
  - destruct v; try discriminate. cbn. unfold Float, u32. lia.
  - rewrite build_eq by assumption. pose proof (low_range v Hf). pose proof (dsc_range v Hn). lia.
Qed.

Lemma node_eq n : is_u8 n -> build (VNode n) = 0xA0 * 16777216 + n * 256.
Proof. intros. exact (build_eq (VNode n) H eq_refl). Qed.

Lemma build_inj v w : fits v -> fits w -> build v = build w -> v = w.
Proof.
  intros Hv Hw E.
  destruct (is_vfloat v) eqn:Fv; destruct (is_vfloat w) eqn:Fw.
  - destruct v; try discriminate; destruct w; try discriminate.
    f_equal. rewrite <- (proj2 (build_float bits Hv)), <- (proj2 (build_float bits0 Hw)).
    f_equal; exact E.
  - destruct v; try discriminate. pose proof (proj1 (build_float _ Hv)) as A.
    rewrite E, (build_nonfloat w Hw Fw) in A. discriminate.
  - destruct w; try discriminate. pose proof (proj1 (build_float _ Hw)) as A.
    rewrite <- E, (build_nonfloat v Hv Fv) in A. discriminate.
  - assert (D : dsc v = dsc w).
    { rewrite <- (build_desc v), <- (build_desc w) by assumption. f_equal; exact E. }
    assert (Nv : (exists n, v = VNode n) \/ (forall n, v <> VNode n)).
    { destruct v; try (right; intros; discriminate). left; eauto. }
    assert (Nw : (exists n, w = VNode n) \/ (forall n, w <> VNode n)).
    { destruct w; try (right; intros; discriminate). left; eauto. }
    destruct Nv as [[n ->]|Nv], Nw as [[m ->]|Nw].
    + f_equal. cbn in Hv, Hw. rewrite !node_eq in E by assumption. lia.
    + exfalso. destruct w as [| | | | |[]| | | | | | | | |[]| | | | | | | | |]; cbn in D; try discriminate D.
      exact (Nw _ eq_refl).
    + exfalso. destruct v as [| | | | |[]| | | | | | | | |[]| | | | | | | | |]; cbn in D; try discriminate D.
      exact (Nv _ eq_refl).
    + pose proof (read_back_build v Hv Nv) as A. pose proof (read_back_build w Hw Nw) as B.
      rewrite E, B in A. congruence.
Qed.

Lemma following v n : fits v -> following_atoms v = Some n -> getAtomCount (build v) = n.
Proof.
  intros Hf H. assert (Hn : is_vfloat v = false) by (destruct v; try reflexivity; discriminate).
  unfold getAtomCount. rewrite (build_desc v Hf Hn). rewrite (build_eq v Hf Hn).
  destruct v as [b| |b|o| |[] i|j i|j i|j i|i c| | | | |[] o m|m|m|m|m c d|o|m| | |b];
    try discriminate Hn; cbn in H; injection H as <-;
    try reflexivity;
    cbn [dsc low Z.eqb Pos.eqb orb C_PTR SET S_SET OBJECT MARKER OPERATOR STRING
           TIMESTAMP GROUP INSTANTIATED_PROGRAM INSTANTIATED_CPP_PROGRAM
           INSTANTIATED_INPUT_LESS_PROGRAM INSTANTIATED_ANTI_PROGRAM COMPOSITE_STATE MODEL];
    cbn [fits] in Hf; unfold is_u8 in *; rewrite ?mask_ff00, ?land_255; lia.
Qed.

Lemma isFloat_iff v : fits v -> isFloat (build v) = true <-> exists b, v = VFloat b.
Proof.
  intros Hf. split.
  - intros H. destruct (is_vfloat v) eqn:Hn; [destruct v; try discriminate; eauto|].
    rewrite (build_nonfloat v Hf Hn) in H; discriminate.
  - intros [b ->]. apply build_float, Hf.
Qed.

Lemma isStructural_arith a : is_u32 a -> isStructural a = (192 <=? a / 16777216).
Proof.
  intros Ha. unfold isStructural, is_u32 in *.
  assert (H1 : Z.land a 0xC0000000 = (a / 1073741824) * 1073741824).
  { replace 0xC0000000 with (Z.shiftl 3 30) by reflexivity.
    rewrite <- (Z.mul_comm 1073741824).
    change (1073741824 * (a / 1073741824)) with (2^30 * (a / 2^30)).
    rewrite Z.mul_comm, <- Z.shiftr_div_pow2, <- Z.shiftl_mul_pow2 by lia.
    apply Z.bits_inj'. intros n Hn. rewrite Z.land_spec.
    destruct (Z.lt_ge_cases n 30).
    - rewrite !Z.shiftl_spec_low by lia. rewrite andb_false_r. reflexivity.
    - rewrite !Z.shiftl_spec by lia. rewrite Z.shiftr_spec by lia.
      replace (n - 30 + 30) with n by lia.
      destruct (Z.eq_dec n 30) as [->|]; [rewrite andb_true_r; reflexivity|].
      destruct (Z.eq_dec n 31) as [->|]; [rewrite andb_true_r; reflexivity|].
      rewrite (Z.bits_above_log2 a n); [reflexivity|lia|].
      destruct (Z.eq_dec a 0) as [->|]; [cbn; lia|].
      apply Z.log2_lt_pow2; [lia|].
      apply Z.lt_le_trans with (2^32); [exact (proj2 Ha)|apply Z.pow_le_mono_r; lia]. }
  assert (H2 : Z.land a 0xD0000000 = 0xD0000000 -> a / 1073741824 = 3).
  { intros E.
    assert (B30 : Z.testbit a 30 = true).
    { assert (T : Z.testbit (Z.land a 0xD0000000) 30 = true) by (rewrite E; reflexivity).
      rewrite Z.land_spec in T. apply andb_prop in T. exact (proj1 T). }
    assert (B31 : Z.testbit a 31 = true).
    { assert (T : Z.testbit (Z.land a 0xD0000000) 31 = true) by (rewrite E; reflexivity).
      rewrite Z.land_spec in T. apply andb_prop in T. exact (proj1 T). }
    rewrite Z.testbit_true in B30, B31 by lia.
    change (2^30) with 1073741824 in B30. change (2^31) with 2147483648 in B31. lia. }
  rewrite H1. destruct (Z.eqb_spec (Z.land a 0xD0000000) 0xD0000000) as [E|E].
  - specialize (H2 E). rewrite orb_true_r. symmetry. lia.
  - rewrite orb_false_r. lia.
Qed.

Lemma structural_iff v : fits v ->
  isStructural (build v) = true <->
  (exists h o n, v = VHead h o n) \/ (exists n, v = VSet n) \/ (exists n, v = VCPtr n) \/
  (exists n, v = VString n) \/ v = VTimestamp \/ v = VDuration \/ (exists b, v = VNullProgram b).
Proof.
  intros Hf. rewrite isStructural_arith by (apply build_range, Hf).
  destruct (is_vfloat v) eqn:Hn.
  - destruct v; try discriminate. cbn in Hf. cbn [build]. unfold Float, is_u32, u32 in *.
    rewrite shr1. split.
    + intros; exfalso; lia.
    + intros H. repeat match type of H with _ \/ _ => destruct H as [H|H] end;
        decompose [ex] H; discriminate.
  - rewrite build_eq by assumption. pose proof (low_range v Hf) as L.
    assert (Q : (dsc v * 16777216 + low v) / 16777216 = dsc v) by lia.
    rewrite Q. clear L Q.
    destruct v as [b| |b|o| |[] i|j i|j i|j i|i c| | | | |h o m|m|m|m|m c d|o|m| | |b];
      try discriminate Hn;
      try (split; [intros; cbn in *; discriminate|
        intros H; repeat match type of H with _ \/ _ => destruct H as [H|H] end;
        decompose [ex] H; discriminate]).
    all: split; [intros _; eauto 12 | intros _; try destruct h; reflexivity].
Qed.

Lemma special_atoms :
  (forall n c d, is_u8 n -> is_u8 c -> is_u8 d -> getNodeID (Device n c d) = n) /\
  (forall a, In a [Nil; UndefinedBoolean; UndefinedNode; UndefinedDevice;
                   UndefinedDeviceFunction; UndefinedString] -> readsAsNil a = true).
Proof.
  split.
  - intros n c d Hn Hc Hd. unfold getNodeID, Device. rewrite mask_ff0000, shl24, shl16, shl8.
    unfold u8, u32, is_u8 in *. change DEVICE with 161. lia.
  - intros a H. cbn in H. repeat destruct H as [<-|H]; try reflexivity. contradiction.
Qed.

Lemma node_refuted : exists n, is_u8 n /\ getNodeID (Node n) <> n.
Proof. exists 7. split; [unfold is_u8; lia|vm_compute; discriminate]. Qed.
Lemma nil_refuted : exists a, In a [UndefinedFloat; UndefinedTimestamp] /\ readsAsNil a = false.
Proof. exists UndefinedFloat. split; [left; reflexivity|reflexivity]. Qed.
Lemma undef_collides :
  exists b, is_u32 b /\ is_finite (f32_of_bits b) = true /\ Float b = UndefinedFloat.
Proof. exists 0x1FFFFFFE. split; [unfold is_u32; lia|]. vm_compute. auto. Qed.

Lemma truth_values v : fits v ->
  (isBooleanTrue (build v) = true <-> v = VBool true) /\ (isBooleanFalse (build v) = true <-> v = VBool false).
Proof.
  intros F. unfold isBooleanTrue, isBooleanFalse.
  destruct (is_vfloat v) eqn:V.
  - destruct v; try discriminate. destruct (build_float _ F) as (B & _).
    assert (Z.eqb (getDescriptor (build (VFloat bits))) BOOLEAN_ = false) as ->.
    { rewrite isFloat_arith in B. rewrite desc_arith. apply Z.eqb_eq in B. apply Z.eqb_neq. change BOOLEAN_ with 129.
      intros C. assert (H := Z.div_mod (build (VFloat bits)) 2147483648 ltac:(lia)). rewrite B in H.
      assert (0 <= build (VFloat bits) mod 2147483648 < 2147483648) by (apply Z.mod_pos_bound; lia). rewrite Z.mod_small in C; lia. }
    cbn [andb]. repeat split; discriminate.
  - rewrite (build_desc v F V).
    destruct v as [| |[]| | |[] ?| | | | | | | | |[] ? ?| | | | | | | | |[]]; try discriminate V;
      match goal with |- context [dsc ?x =? BOOLEAN_] => let r := eval vm_compute in (dsc x =? BOOLEAN_) in change (dsc x =? BOOLEAN_) with r end;
      cbn [andb]; try (repeat split; discriminate);
      match goal with |- context [asBoolean ?x] => let r := eval vm_compute in (asBoolean x) in change (asBoolean x) with r end;
      cbn [negb]; repeat split; auto; discriminate.
Qed.
