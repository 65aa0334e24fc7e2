From Verif Require Import Base Atom_model Atom_proofs Bp_model Bp_spec Bp_proofs Bp2_proofs Bp3_proofs Inst_model Inst_spec Inst_proofs Inst2_proofs.
Local Open Scope nat_scope.

(** * Words *)
Lemma object_word : forall op, getDescriptor (AObject op 5) = OBJECT /\ count (AObject op 5) = 5.
Proof.
  intro op. unfold count, getAtomCount.
  assert (R : (0 <= Z.land op 4095 < 4096)%Z).
  { change 4095%Z with (Z.ones 12). rewrite (Z.land_ones op 12) by lia. apply Z.mod_pos_bound. reflexivity. }
  unfold AObject. set (r := Z.land op 0x0FFF) in *. rewrite Z.shiftl_mul_pow2 by lia.
  change (desc OBJECT) with (195 * 16777216)%Z. change (2 ^ 8)%Z with 256%Z. unfold u32.
  rewrite Z.mod_small by lia.
  assert (D : getDescriptor (195 * 16777216 + r * 256 + 5) = OBJECT).
  { unfold getDescriptor, u8. rewrite Z.shiftr_div_pow2 by lia. change (2 ^ 24)%Z with 16777216%Z.
    replace (195 * 16777216 + r * 256 + 5)%Z with ((r * 256 + 5) + 195 * 16777216)%Z by lia.
    rewrite Z.div_add by lia. rewrite Z.div_small by lia. reflexivity. }
  split; [exact D|]. rewrite D.
  change ((OBJECT =? SET) || (OBJECT =? OBJECT))%Z%bool with true. cbn [orb].
  change 255%Z with (Z.ones 8). rewrite Z.land_ones by lia. change (2 ^ 8)%Z with 256%Z.
  replace (195 * 16777216 + r * 256 + 5)%Z with (5 + (195 * 65536 + r) * 256)%Z by lia.
  rewrite Z.mod_add by lia. reflexivity.
Qed.

Lemma set_word : forall n, n <= 255 -> getDescriptor (ASet (Z.of_nat n)) = SET /\ count (ASet (Z.of_nat n)) = n.
Proof.
  assert (A : forallb (fun n => ((getDescriptor (ASet (Z.of_nat n)) =? SET)%Z && (count (ASet (Z.of_nat n)) =? n))%bool) (seq 0 256) = true)
    by (vm_compute; reflexivity).
  intros n L. rewrite forallb_forall in A. specialize (A n). rewrite in_seq in A. specialize (A ltac:(lia)).
  apply andb_true_iff in A. destruct A as (A & B). apply Z.eqb_eq in A. apply Nat.eqb_eq in B. split; assumption.
Qed.

(** * Exposed variables *)
Lemma chosen_exposed : forall h, chosen h (first h) (length (vals h) - first h) = exposed h.
Proof.
  intro h. unfold chosen, exposed. apply filter_ext. intro j. unfold skipped. rewrite negb_orb. reflexivity.
Qed.

Lemma filter_count : forall a b n j, a <> b ->
  length (filter (fun x => negb (Z.of_nat x =? Z.of_nat a)%Z && negb (Z.of_nat x =? Z.of_nat b)%Z) (seq j n)) +
  (if (j <=? a) && (a <? j + n) then 1 else 0) + (if (j <=? b) && (b <? j + n) then 1 else 0) = n.
Proof.
  intros a b n; induction n as [|n IH]; intros j N; cbn [seq filter length].
  - replace (a <? j + 0) with (a <? j) by (f_equal; lia). replace (b <? j + 0) with (b <? j) by (f_equal; lia).
    destruct (j <=? a) eqn:A, (a <? j) eqn:B, (j <=? b) eqn:C, (b <? j) eqn:D;
      rewrite ?Nat.leb_le, ?Nat.leb_gt, ?Nat.ltb_lt, ?Nat.ltb_ge in *; cbn; lia.
  - specialize (IH (S j) N).
    destruct (Z.eqb_spec (Z.of_nat j) (Z.of_nat a)) as [A|A], (Z.eqb_spec (Z.of_nat j) (Z.of_nat b)) as [B|B]; cbn [negb andb length];
    destruct (Nat.leb_spec j a), (Nat.ltb_spec a (j + S n)), (Nat.leb_spec j b), (Nat.ltb_spec b (j + S n)),
      (Nat.leb_spec (S j) a), (Nat.ltb_spec a (S j + n)), (Nat.leb_spec (S j) b), (Nat.ltb_spec b (S j + n)); cbn [andb] in *; lia.
Qed.

Lemma exposed_length : forall h, ready h -> length (exposed h) = length (vals h) - first h - 2 /\ 2 <= length (vals h) - first h /\
  exposed_count h = Z.of_nat (length (exposed h)) /\ length (exposed h) <= 255.
Proof.
  intros h (a & b & A & B & N & La & Lb & L). unfold exposed, exposed_count, size_of. rewrite A, B.
  pose proof (filter_count a b (length (vals h) - first h) (first h) N) as C.
  destruct (Nat.leb_spec (first h) a), (Nat.ltb_spec a (first h + (length (vals h) - first h))),
    (Nat.leb_spec (first h) b), (Nat.ltb_spec b (first h + (length (vals h) - first h))); cbn [andb] in C; try lia.
  split; [lia|]. split; [lia|]. split; [|lia]. unfold u16. rewrite Z.mod_small by lia. lia.
Qed.

(** * The instance *)
Section Meant.
Variable fuel : nat.
Variable ti : Z.
Variable h : hmap.
Variable s : nat -> term.
Hypothesis ME : meant fuel h s.
Hypothesis RD : ready h.

Lemma small : length (vals h) <= limit.
Proof using RD. clear - RD. destruct RD as (a & b & _ & _ & _ & _ & _ & L). pose proof limit_is. lia. Qed.

Lemma ihlp_built : forall hlp op wr i tr T, template hlp tr T ->
  build_ihlp fuel ti h hlp op wr = Some i -> size i <= limit -> length (refs i) <= limit ->
  exists e, 6 < e < limit /\ nth_error (refs i) 0 = Some hlp /\
    word i 0 = AObject op 5 /\ word i 1 = RPointer 0 /\ word i 2 = ptr 6 /\ word i 3 = ptr e /\ word i 4 = Boolean wr /\ word i 5 = one /\
    inst fuel ti h s anywhere (word i) (refs i) false tr (ptr 6) /\
    word i e = ASet (Z.of_nat (length (exposed h))) /\
    Forall2 (holds fuel h s anywhere (word i) (refs i)) (exposed h) (words (word i) (e + 1) (length (exposed h))).
Proof using ME RD.
  intros hlp op wr i tr T (D1 & S1 & Q1 & M1) E B1 B2. unfold build_ihlp in E.
  pose proof small as SM.
  destruct (exposed_length h RD) as (XL & X2 & XC & X5).
  set (m0 := write (write (write (fun _ => UndefinedAtom) 0 (AObject op 5)) I_HLP_OBJ (RPointer 0)) I_HLP_TPL_ARGS (ptr (I_HLP_ARITY + 1))) in *.
  change (word hlp HLP_TPL_ARGS) with (word hlp 1) in E. change (I_HLP_ARITY + 1) with 6 in E.
  destruct (build_structure fuel ti (vals h) fuel (word hlp) (place (word hlp 1)) (m0, 6, [hlp])) as [[[m1 e1] l1]|] eqn:E1; [|discriminate].
  rewrite XC, Nat2Z.id in E. set (n := length (exposed h)) in *.
  set (m2 := write (write m1 I_HLP_EXPOSED_ARGS (ptr e1)) e1 (ASet (Z.of_nat n))) in *.
  destruct (build_exposed fuel h (first h) (size_of h - first h) (e1 + 1) (m2, e1 + 1 + n, l1)) as [[[m3 e3] l3]|] eqn:E2; [|discriminate].
  injection E as <-. cbn [size refs word] in *.
  destruct (exposed_more _ _ _ _ _ _ _ _ _ _ _ E2) as (G2 & l2 & L2).
  assert (Be1 : e1 <= limit) by lia.
  assert (Bl1 : length l1 <= limit) by (rewrite L2, app_length in B2; lia).
  destruct (structure_built fuel ti h s ME SM fuel _ _ _ _ _ _ _ _ _ S1 D1 Q1 E1 Be1 Bl1) as (G1 & F1 & I1).
  pose proof (structure_grow fuel ti h _ _ _ _ _ E1) as GR. destruct GR as (_ & l0 & L0).
  unfold size_of in E2.
  assert (Lw : e1 + 1 + length (chosen h (first h) (length (vals h) - first h)) <= e1 + 1 + n)
    by (rewrite chosen_exposed; unfold n; lia).
  destruct (exposed_built fuel h s ME SM _ _ _ _ _ _ _ _ _ E2 Lw B1 B2) as (F2 & H2).
  rewrite chosen_exposed in F2, H2. fold n in F2, H2.
  exists e1. split; [lia|]. split; [rewrite L2, L0; reflexivity|].
  assert (FR : forall k, k < 4 -> write (write m3 I_HLP_WR (Boolean wr)) I_HLP_ARITY one k = m2 k).
  { intros k K. rewrite !write_neq by (unfold I_HLP_WR, I_HLP_ARITY; lia). apply F2; lia. }
  assert (F0 : forall k, k < 3 -> m2 k = m0 k).
  { intros k K. unfold m2. rewrite !write_neq by (unfold I_HLP_EXPOSED_ARGS; lia). apply F1; lia. }
  assert (HI : forall k, 6 <= k -> write (write m3 I_HLP_WR (Boolean wr)) I_HLP_ARITY one k = m3 k).
  { intros k K. rewrite !write_neq by (unfold I_HLP_WR, I_HLP_ARITY; lia). reflexivity. }
  split; [rewrite FR, F0 by lia; reflexivity|]. split; [rewrite FR, F0 by lia; reflexivity|]. split; [rewrite FR, F0 by lia; reflexivity|].
  split; [rewrite FR by lia; unfold m2; rewrite write_neq by lia; apply write_eq|].
  split; [rewrite write_neq by (unfold I_HLP_ARITY; lia); apply write_eq|]. split; [apply write_eq|].
  split; [|split].
  - rewrite L2. revert I1. apply inst_agree; [|exact (fun _ _ => Logic.I)].
    intros k O. unfold within in O. rewrite HI by lia. rewrite F2 by lia. unfold m2. rewrite !write_neq by (unfold I_HLP_EXPOSED_ARGS; lia). reflexivity.
  - rewrite HI by lia. rewrite F2 by lia. unfold m2. apply write_eq.
  - rewrite (words_ext (write (write m3 I_HLP_WR (Boolean wr)) I_HLP_ARITY one) m3) by (intros k K; apply HI; lia).
    revert H2. apply Forall2_weaken. intros x w J. rewrite <- (app_nil_r l3). revert J. apply holds_agree; [|exact (fun _ _ => Logic.I)].
    intros k O. unfold within in O. symmetry. apply HI. lia.
Qed.
End Meant.
