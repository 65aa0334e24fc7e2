From Verif Require Import Base Atom_model Atom_proofs Bp_model Bp_spec.
Local Open Scope nat_scope.

(** * Words *)
Lemma write_eq : forall m i w, write m i w i = w.
Proof. intros; unfold write; rewrite Nat.eqb_refl; reflexivity. Qed.

Lemma write_neq : forall m i j w, j <> i -> write m i w j = m j.
Proof. intros m i j w H; unfold write. apply Nat.eqb_neq in H; rewrite H; reflexivity. Qed.

Lemma limit_is : Z.of_nat limit = 4096%Z.
Proof. reflexivity. Qed.

Lemma limit_pos : 0 < limit.
Proof. pose proof limit_is; lia. Qed.

Lemma pointer_word : forall d i, i < limit -> (128 <= d < 209)%Z ->
  u32 (desc d + Z.land (Z.of_nat i) 0x0FFF) = (d * 16777216 + Z.of_nat i)%Z.
Proof.
  intros d i L D. pose proof limit_is as LI. rewrite shl24. change 0x0FFF%Z with (Z.ones 12). rewrite Z.land_ones by lia.
  change (2 ^ 12)%Z with 4096%Z. unfold u32. rewrite (Z.mod_small (Z.of_nat i)) by lia.
  apply Z.mod_small. lia.
Qed.

Lemma word_desc : forall d i, i < limit -> (128 <= d < 209)%Z -> getDescriptor (d * 16777216 + Z.of_nat i) = d.
Proof.
  intros d i L D. pose proof limit_is as LI. rewrite desc_arith.
  replace ((d * 16777216 + Z.of_nat i) / 16777216)%Z with d.
  - apply Z.mod_small; lia.
  - rewrite Z.div_add_l by lia. rewrite Z.div_small by lia. lia.
Qed.

Lemma word_place : forall d i, i < limit -> (128 <= d < 209)%Z -> place (d * 16777216 + Z.of_nat i) = i.
Proof.
  intros d i L D. pose proof limit_is as LI. unfold place. rewrite idx_arith.
  replace (d * 16777216 + Z.of_nat i)%Z with (Z.of_nat i + (d * 4096) * 4096)%Z by lia.
  rewrite Z.mod_add by lia. rewrite Z.mod_small by lia. apply Nat2Z.id.
Qed.

Lemma ptr_desc : forall i, i < limit -> getDescriptor (ptr i) = I_PTR.
Proof.
  intros i L. unfold ptr, IPointer. rewrite pointer_word by (assumption || (unfold I_PTR; lia)).
  apply word_desc; [exact L|unfold I_PTR; lia].
Qed.

Lemma ptr_place : forall i, i < limit -> place (ptr i) = i.
Proof.
  intros i L. unfold ptr, IPointer. rewrite pointer_word by (assumption || (unfold I_PTR; lia)).
  apply word_place; [exact L|unfold I_PTR; lia].
Qed.

Lemma rptr_desc : forall i, i < limit -> getDescriptor (RPointer (Z.of_nat i)) = R_PTR.
Proof.
  intros i L. unfold RPointer. rewrite pointer_word by (assumption || (unfold R_PTR; lia)).
  apply word_desc; [exact L|unfold R_PTR; lia].
Qed.

Lemma rptr_place : forall i, i < limit -> place (RPointer (Z.of_nat i)) = i.
Proof.
  intros i L. unfold RPointer. rewrite pointer_word by (assumption || (unfold R_PTR; lia)).
  apply word_place; [exact L|unfold R_PTR; lia].
Qed.

Lemma vlptr_desc : forall i, i < limit -> getDescriptor (VLPointer (Z.of_nat i)) = VL_PTR.
Proof.
  intros i L. unfold VLPointer. rewrite pointer_word by (assumption || (unfold VL_PTR; lia)).
  apply word_desc; [exact L|unfold VL_PTR; lia].
Qed.

Lemma vlptr_place : forall i, i < limit -> place (VLPointer (Z.of_nat i)) = i.
Proof.
  intros i L. unfold VLPointer. rewrite pointer_word by (assumption || (unfold VL_PTR; lia)).
  apply word_place; [exact L|unfold VL_PTR; lia].
Qed.

Lemma place_small : forall w, place w < limit.
Proof.
  intro w. unfold place. rewrite idx_arith.
  pose proof (Z.mod_pos_bound w 4096 ltac:(lia)). pose proof limit_is. lia.
Qed.

Lemma raw_not_ptr : forall w, raw w = true -> getDescriptor w <> I_PTR.
Proof.
  intros w H E. unfold raw in H. rewrite E in H. vm_compute in H. discriminate.
Qed.

Lemma raw_not_vl : forall w, raw w = true -> getDescriptor w <> VL_PTR.
Proof.
  intros w H E. unfold raw in H. rewrite E in H. vm_compute in H. discriminate.
Qed.

Lemma words_length : forall m i n, length (words m i n) = n.
Proof. intros; unfold words; rewrite map_length, seq_length; reflexivity. Qed.

Lemma words_cons : forall m i n, words m i (S n) = m i :: words m (S i) n.
Proof. reflexivity. Qed.

Lemma words_ext : forall m m' i n, (forall k, i <= k < i + n -> m k = m' k) -> words m i n = words m' i n.
Proof.
  intros m m' i n; revert i; induction n as [|n IH]; intros i H; [reflexivity|].
  rewrite !words_cons. f_equal; [apply H; lia|apply IH; intros k L; apply H; lia].
Qed.

(** * Trees *)
Section TreeInd.
Variable P : tree -> Prop.
Hypothesis HL : forall w, P (Leaf w).
Hypothesis HR : forall h ws, P (Raw h ws).
Hypothesis HN : forall h ts, Forall P ts -> P (Node h ts).
Fixpoint tree_nested (t : tree) : P t :=
  match t with
  | Leaf w => HL w
  | Raw h ws => HR h ws
  | Node h ts => HN h ts ((fix go l := match l return Forall P l with
                                        | [] => Forall_nil P
                                        | a :: l => Forall_cons a (tree_nested a) (go l)
                                        end) ts)
  end.
End TreeInd.

Lemma shows_agree : forall (ok okr : nat -> Prop) (m m' : mem) t w,
  (forall i, ok i -> m i = m' i) -> (forall i, okr i -> m i = m' i) ->
  shows ok okr m w t -> shows ok okr m' w t.
Proof.
  intros ok okr m m' t; induction t as [x|h ws|h ts F] using tree_nested; intros w A B S0.
  - inversion S0; subst; constructor; assumption.
  - inversion S0 as [|? D O R K|]; subst.
    rewrite (words_ext m m' (place w + 1) (count (m (place w)))).
    + rewrite (A _ O). apply shows_raw; [exact D|exact O|rewrite <- (A _ O); exact R|rewrite <- (A _ O); exact K].
    + intros k L. apply B. replace k with (place w + 1 + (k - (place w + 1))) by lia. apply K; lia.
  - inversion S0 as [| |? ? D O R N K F2]; subst.
    rewrite (A _ O). apply shows_node; [exact D|exact O| | | |].
    + rewrite <- (A _ O); exact R.
    + rewrite <- (A _ O); exact N.
    + rewrite <- (A _ O); exact K.
    + rewrite <- (A _ O).
      rewrite <- (words_ext m m' (place w + 1) (count (m (place w)))).
      * clear - F F2 A B. induction F2 as [|a t l ts Ha Hl IH]; constructor; inversion F; subst; auto.
      * intros k L. apply A. replace k with (place w + 1 + (k - (place w + 1))) by lia. apply K; lia.
Qed.

Lemma shows_weaken : forall (ok okr ok' okr' : nat -> Prop) m t w,
  (forall i, ok i -> ok' i) -> (forall i, okr i -> okr' i) ->
  shows ok okr m w t -> shows ok' okr' m w t.
Proof.
  intros ok okr ok' okr' m t; induction t as [x|h ws|h ts F] using tree_nested; intros w A B S0.
  - inversion S0; subst; constructor; assumption.
  - inversion S0 as [|? D O R K|]; subst. apply shows_raw; auto.
  - inversion S0 as [| |? ? D O R N K F2]; subst. apply shows_node; auto.
    clear - F F2 A B. induction F2 as [|a t l ts Ha Hl IH]; constructor; inversion F; subst; auto.
Qed.

Lemma Forall2_weaken : forall A B (R R' : A -> B -> Prop), (forall a b, R a b -> R' a b) ->
  forall l l', Forall2 R l l' -> Forall2 R' l l'.
Proof. intros A B R R' H l l' F; induction F; constructor; auto. Qed.

Lemma Forall2_len : forall A B (R : A -> B -> Prop) l l', Forall2 R l l' -> length l = length l'.
Proof. intros A B R l l' F; induction F; cbn; auto. Qed.

(** * Copies *)

(** A run of words none of which is an internal pointer. *)
Lemma copy_flat : forall copy src si start n i dst ext,
  (forall j, j < n -> getDescriptor (src (si + i + j)) <> I_PTR) ->
  exists dst', copy_words copy src si start i n dst ext = Some (dst', ext) /\
    (forall j, j < n -> dst' (start + i + j) = src (si + i + j)) /\
    (forall k, (k < start + i \/ start + i + n <= k) -> dst' k = dst k).
Proof.
  intros copy src si start; induction n as [|n IH]; intros i dst ext H; cbn.
  - exists dst. repeat split; intros; lia || reflexivity.
  - assert (getDescriptor (src (si + i)) <> I_PTR) as D.
    { specialize (H 0 ltac:(lia)). rewrite Nat.add_0_r in H. exact H. }
    apply Z.eqb_neq in D. rewrite D.
    destruct (IH (S i) (write dst (start + i) (src (si + i))) ext) as (dst' & E & C & Fr).
    { intros j L. specialize (H (S j) ltac:(lia)). replace (si + S i + j) with (si + i + S j) by lia. exact H. }
    exists dst'. split; [exact E|]. split.
    + intros [|j] L.
      * rewrite !Nat.add_0_r. rewrite Fr by lia. apply write_eq.
      * replace (start + i + S j) with (start + S i + j) by lia.
        replace (si + i + S j) with (si + S i + j) by lia. apply C; lia.
    + intros k L. rewrite Fr by lia. apply write_neq; lia.
Qed.

Lemma list_max_in : forall l x, In x l -> x <= list_max l.
Proof.
  intros l x I. induction l as [|a l IH]; [destruct I|]. cbn.
  destruct I as [->|I]; [lia|]. specialize (IH I). unfold list_max in IH. lia.
Qed.

Definition copies (fuel : nat) (t : tree) : Prop :=
  forall src dst ext w,
    shows anywhere anywhere src w t -> getDescriptor w = I_PTR -> tame t -> height t <= fuel ->
    ext + tsize t <= limit ->
    exists dst', copy_structure fuel src dst ext (place w) = Some (dst', ext + tsize t) /\
      shows (within ext (ext + tsize t)) (within ext (ext + tsize t)) dst' (ptr ext) t /\
      forall k, (k < ext \/ ext + tsize t <= k) -> dst' k = dst k.

Lemma tsize_pos : forall ok okr m w t, shows ok okr m w t -> getDescriptor w = I_PTR -> 0 < tsize t.
Proof. intros ok okr m w t S0 D; inversion S0; subst; cbn; [contradiction|lia|lia]. Qed.

(** The parts of a structure. *)
Lemma copy_parts : forall fuel src si start ts i dst ext,
  Forall (copies fuel) ts ->
  Forall2 (shows anywhere anywhere src) (words src (si + i) (length ts)) ts ->
  fold_right (fun t P => tame t /\ P) True ts ->
  (forall t, In t ts -> height t <= fuel) ->
  start + i + length ts <= ext -> ext + list_sum (map tsize ts) <= limit ->
  exists dst', copy_words (copy_structure fuel src) src si start i (length ts) dst ext =
      Some (dst', ext + list_sum (map tsize ts)) /\
    Forall2 (shows (within ext (ext + list_sum (map tsize ts))) (within ext (ext + list_sum (map tsize ts))) dst')
      (words dst' (start + i) (length ts)) ts /\
    (forall k, (k < start + i \/ start + i + length ts <= k < ext \/ ext + list_sum (map tsize ts) <= k) -> dst' k = dst k).
Proof.
  intros fuel src si start; induction ts as [|t ts IH]; intros i dst ext FC F2 TA HT L1 L2.
  - cbn [length copy_words map list_sum fold_right]. rewrite Nat.add_0_r.
    exists dst. split; [reflexivity|]. split; [constructor|reflexivity].
  - cbn [length] in *. rewrite words_cons in F2. inversion F2 as [|? ? ? ? Sw F2']; subst. clear F2.
    inversion FC as [|? ? Ct FC']; subst. destruct TA as [Tt TA'].
    cbn [map list_sum fold_right] in L2.
    change (list_sum (map tsize (t :: ts))) with (tsize t + list_sum (map tsize ts)) in *.
    cbn [copy_words].
    replace (S (si + i)) with (si + S i) in F2' by lia.
    destruct (getDescriptor (src (si + i)%nat) =? I_PTR)%Z eqn:D.
    + apply Z.eqb_eq in D.
      destruct (Ct src (write dst (start + i) (ptr ext)) ext (src (si + i)) Sw D Tt (HT t (or_introl eq_refl)) ltac:(unfold list_sum in *; lia))
        as (d1 & E1 & S1 & Fr1).
      rewrite E1.
      destruct (IH (S i) d1 (ext + tsize t) FC' F2' TA' (fun u I => HT u (or_intror I)) ltac:(lia) ltac:(unfold list_sum in *; lia))
        as (d2 & E2 & S2 & Fr2).
      exists d2. rewrite E2. split; [f_equal; f_equal; lia|].
      assert (PP : d2 (start + i) = ptr ext).
      { rewrite Fr2 by lia. rewrite Fr1 by lia. apply write_eq. }
      split.
      * rewrite words_cons. constructor.
        -- rewrite PP.
           apply (shows_weaken (within ext (ext + tsize t)) (within ext (ext + tsize t))).
           ++ unfold within; intros k K; lia.
           ++ unfold within; intros k K; lia.
           ++ apply (shows_agree _ _ d1); [| |exact S1]; intros k (K1 & K2); symmetry; apply Fr2; lia.
        -- replace (S (start + i)) with (start + S i) by lia.
           revert S2. apply Forall2_weaken; intros a u.
           apply shows_weaken; unfold within; intros k K; lia.
      * intros k K. rewrite Fr2 by lia. rewrite Fr1 by lia. apply write_neq; lia.
    + apply Z.eqb_neq in D.
      inversion Sw; subst; try contradiction.
      destruct (IH (S i) (write dst (start + i) (src (si + i))) ext FC' F2' TA' (fun u I => HT u (or_intror I)) ltac:(lia) ltac:(cbn in L2; exact L2))
        as (d2 & E2 & S2 & Fr2).
      cbn [tsize]. rewrite Nat.add_0_l.
      exists d2. rewrite E2. split; [reflexivity|].
      split.
      * rewrite words_cons. constructor.
        -- rewrite Fr2 by lia. rewrite write_eq. constructor; exact D.
        -- replace (S (start + i)) with (start + S i) by lia. exact S2.
      * intros k K. rewrite Fr2 by lia. apply write_neq; lia.
Qed.

Lemma copy_tree : forall t fuel, copies fuel t.
Proof.
  induction t as [x|h ws|h ts F] using tree_nested; intros fuel src dst ext w S0 D T H L.
  - inversion S0; subst; contradiction.
  - inversion S0 as [|? _ _ R _|]; subst.
    destruct fuel as [|fuel]; [cbn in H; lia|]. cbn [copy_structure].
    cbn [tsize] in L |- *. rewrite words_length in L |- *.
    set (n := count (src (place w))) in *.
    destruct (copy_flat (copy_structure fuel src) src (place w) ext (1 + n) 0 dst (ext + (1 + n))) as (d & E & C & Fr).
    { intros j Lj. rewrite Nat.add_0_r. destruct j as [|j].
      - rewrite Nat.add_0_r. apply raw_not_ptr, R.
      - cbn [tame] in T. rewrite Forall_forall in T. apply T.
        unfold words. apply in_map_iff. exists (place w + S j). split; [reflexivity|]. apply in_seq. lia. }
    exists d. split; [exact E|]. split; [|intros k K; apply Fr; lia].
    assert (C0 : forall j, j < 1 + n -> d (ext + j) = src (place w + j)).
    { intros j Lj. specialize (C j Lj). rewrite !Nat.add_0_r in C. exact C. }
    assert (d ext = src (place w)) as Hd.
    { specialize (C0 0 ltac:(lia)). rewrite !Nat.add_0_r in C0. exact C0. }
    assert (PE : place (ptr ext) = ext) by (apply ptr_place; lia).
    assert (words src (place w + 1) n = words d (place (ptr ext) + 1) (count (d (place (ptr ext))))) as ->.
    { rewrite PE, Hd. fold n. unfold words.
      apply nth_ext with (d := 0%Z) (d' := 0%Z); [rewrite !map_length, !seq_length; reflexivity|].
      intros j Lj. rewrite map_length, seq_length in Lj.
      rewrite (nth_indep _ 0%Z (src 0)) by (rewrite map_length, seq_length; exact Lj).
      rewrite (nth_indep (map d _) 0%Z (d 0)) by (rewrite map_length, seq_length; exact Lj).
      rewrite !map_nth, !seq_nth by exact Lj.
      replace (ext + 1 + j) with (ext + S j) by lia. replace (place w + 1 + j) with (place w + S j) by lia.
      symmetry. apply C0. lia. }
    assert (src (place w) = d (place (ptr ext))) as -> by (rewrite PE; symmetry; exact Hd).
    apply shows_raw.
    + apply ptr_desc; lia.
    + rewrite PE; unfold within; lia.
    + rewrite PE, Hd; exact R.
    + rewrite PE, Hd. fold n. unfold within; intros j Lj; lia.
  - inversion S0 as [| |? ? _ _ R N _ F2]; subst.
    destruct fuel as [|fuel]; [cbn in H; lia|]. cbn [copy_structure].
    assert (length ts = count (src (place w))) as LN.
    { apply Forall2_len in F2. rewrite words_length in F2. symmetry; exact F2. }
    rewrite <- LN in F2 |- *. clear S0.
    cbn [tsize] in L |- *. cbn [height] in H. cbn [tame] in T.
    assert (FC : Forall (copies fuel) ts) by (eapply Forall_impl; [|exact F]; intros a Ha; apply Ha).
    cbn [Nat.add copy_words]. rewrite !Nat.add_0_r.
    assert (getDescriptor (src (place w)) <> I_PTR) as N' by exact N.
    apply Z.eqb_neq in N'. rewrite N'.
    destruct (copy_parts fuel src (place w) ext ts 1 (write dst ext (src (place w))) (ext + S (length ts)) FC) as (d & E & S1 & Fr).
    + exact F2.
    + exact T.
    + intros t I. pose proof (list_max_in (map height ts) (height t) (in_map height ts t I)). lia.
    + lia.
    + lia.
    + exists d. split; [rewrite E; f_equal; f_equal; lia|].
      assert (d ext = src (place w)) as Hd by (rewrite Fr by lia; apply write_eq).
      split; [|intros k K; rewrite Fr by lia; apply write_neq; lia].
      assert (PE : place (ptr ext) = ext) by (apply ptr_place; lia).
      assert (src (place w) = d (place (ptr ext))) as Q by (rewrite PE; symmetry; exact Hd).
      rewrite Q. apply shows_node.
      * apply ptr_desc; lia.
      * rewrite PE; unfold within; lia.
      * rewrite <- Q; exact R.
      * rewrite <- Q; exact N.
      * rewrite <- Q, <- LN, PE. unfold within; intros j Lj; lia.
      * rewrite <- Q, <- LN, PE.
        revert S1. apply Forall2_weaken; intros a u.
        apply shows_weaken; unfold within; intros k K; lia.
Qed.

(** The extent of a copy, without a bound. *)
Definition extends (fuel : nat) (t : tree) : Prop :=
  forall src dst ext w,
    shows anywhere anywhere src w t -> getDescriptor w = I_PTR -> tame t -> height t <= fuel ->
    exists dst', copy_structure fuel src dst ext (place w) = Some (dst', ext + tsize t).

Lemma extend_parts : forall fuel src si start ts i dst ext,
  Forall (extends fuel) ts ->
  Forall2 (shows anywhere anywhere src) (words src (si + i) (length ts)) ts ->
  fold_right (fun t P => tame t /\ P) True ts ->
  (forall t, In t ts -> height t <= fuel) ->
  exists dst', copy_words (copy_structure fuel src) src si start i (length ts) dst ext =
      Some (dst', ext + list_sum (map tsize ts)).
Proof.
  intros fuel src si start; induction ts as [|t ts IH]; intros i dst ext FC F2 TA HT.
  - cbn [length copy_words map list_sum fold_right]. rewrite Nat.add_0_r. exists dst; reflexivity.
  - cbn [length] in *. rewrite words_cons in F2. inversion F2 as [|? ? ? ? Sw F2']; subst. clear F2.
    inversion FC as [|? ? Ct FC']; subst. destruct TA as [Tt TA'].
    change (list_sum (map tsize (t :: ts))) with (tsize t + list_sum (map tsize ts)).
    cbn [copy_words].
    replace (S (si + i)) with (si + S i) in F2' by lia.
    destruct (getDescriptor (src (si + i)%nat) =? I_PTR)%Z eqn:D.
    + apply Z.eqb_eq in D.
      destruct (Ct src (write dst (start + i) (ptr ext)) ext (src (si + i)) Sw D Tt (HT t (or_introl eq_refl))) as (d1 & E1).
      rewrite E1.
      destruct (IH (S i) d1 (ext + tsize t) FC' F2' TA' (fun u I => HT u (or_intror I))) as (d2 & E2).
      exists d2. rewrite E2. f_equal; f_equal; lia.
    + apply Z.eqb_neq in D. inversion Sw; subst; try contradiction.
      exact (IH (S i) (write dst (start + i) (src (si + i))) ext FC' F2' TA' (fun u I => HT u (or_intror I))).
Qed.

Lemma extend_tree : forall t fuel, extends fuel t.
Proof.
  induction t as [x|h ws|h ts F] using tree_nested; intros fuel src dst ext w S0 D T H.
  - inversion S0; subst; contradiction.
  - inversion S0 as [|? _ _ R _|]; subst.
    destruct fuel as [|fuel]; [cbn in H; lia|]. cbn [copy_structure].
    cbn [tsize]. rewrite words_length. set (n := count (src (place w))) in *.
    destruct (copy_flat (copy_structure fuel src) src (place w) ext (1 + n) 0 dst (ext + (1 + n))) as (d & E & C & Fr).
    { intros j Lj. rewrite Nat.add_0_r. destruct j as [|j].
      - rewrite Nat.add_0_r. apply raw_not_ptr, R.
      - cbn [tame] in T. rewrite Forall_forall in T. apply T.
        unfold words. apply in_map_iff. exists (place w + S j). split; [reflexivity|]. apply in_seq. lia. }
    exists d. exact E.
  - inversion S0 as [| |? ? _ _ R N _ F2]; subst.
    destruct fuel as [|fuel]; [cbn in H; lia|]. cbn [copy_structure].
    assert (length ts = count (src (place w))) as LN.
    { apply Forall2_len in F2. rewrite words_length in F2. symmetry; exact F2. }
    rewrite <- LN in F2 |- *. clear S0.
    cbn [tsize]. cbn [height] in H. cbn [tame] in T.
    assert (FC : Forall (extends fuel) ts) by (eapply Forall_impl; [|exact F]; intros a Ha; apply Ha).
    cbn [Nat.add copy_words]. rewrite !Nat.add_0_r.
    assert (getDescriptor (src (place w)) <> I_PTR) as N' by exact N.
    apply Z.eqb_neq in N'. rewrite N'.
    destruct (extend_parts fuel src (place w) ext ts 1 (write dst ext (src (place w))) (ext + S (length ts)) FC F2 T) as (d & E).
    + intros t I. pose proof (list_max_in (map height ts) (height t) (in_map height ts t I)). lia.
    + exists d. rewrite E. f_equal; f_equal; lia.
Qed.

Lemma copy_words_grow : forall copy src si start, 
  (forall d e s d' e', copy d e s = Some (d', e') -> e <= e') ->
  forall n i dst ext d' e', copy_words copy src si start i n dst ext = Some (d', e') -> ext <= e'.
Proof.
  intros copy src si start H; induction n as [|n IH]; intros i dst ext d' e' E; cbn in E.
  - injection E as _ <-. lia.
  - destruct (getDescriptor (src (si + i)%nat) =? I_PTR)%Z.
    + destruct (copy (write dst (start + i) (ptr ext)) ext (place (src (si + i)))) as [[d1 e1]|] eqn:C; [|discriminate].
      apply H in C. apply IH in E. lia.
    + apply IH in E. exact E.
Qed.

Lemma copy_grow : forall fuel src d e s d' e', copy_structure fuel src d e s = Some (d', e') -> e <= e'.
Proof.
  induction fuel as [|fuel IH]; intros src d e s d' e' E; cbn [copy_structure] in E; [discriminate|].
  apply copy_words_grow in E; [lia|]. apply IH.
Qed.

(** * Going through the code *)
Lemma steps_range : forall m size i k, steps m size i k -> i <= k < size.
Proof. intros m size i k H; induction H; lia. Qed.

Lemma steps_split : forall m size i k, steps m size i k ->
  k = i \/ (raw (m i) = true /\ steps m size (i + count (m i) + 1) k) \/ (raw (m i) = false /\ steps m size (i + 1) k).
Proof.
  intros m size i k H; induction H as [L|k H IH R L|k H IH R L].
  - left; reflexivity.
  - right. destruct IH as [->|[[R' H']|[R' H']]].
    + left. split; [exact R|]. apply steps_here; exact L.
    + left. split; [exact R'|]. apply steps_raw; assumption.
    + right. split; [exact R'|]. apply steps_raw; assumption.
  - right. destruct IH as [->|[[R' H']|[R' H']]].
    + right. split; [exact R|]. apply steps_here; exact L.
    + left. split; [exact R'|]. apply steps_next; assumption.
    + right. split; [exact R'|]. apply steps_next; assumption.
Qed.

Lemma steps_trans : forall m size i j k, steps m size i j -> steps m size j k -> steps m size i k.
Proof.
  intros m size i j k A B; induction B as [L|k H IH R L|k H IH R L]; [exact A|apply steps_raw|apply steps_next]; assumption.
Qed.

Lemma steps_from_raw : forall m size i k, i < size -> raw (m i) = true ->
  steps m size (i + count (m i) + 1) k -> steps m size i k.
Proof.
  intros m size i k L R H. apply (steps_trans m size i (i + count (m i) + 1)); [|exact H].
  apply steps_raw; [apply steps_here; exact L|exact R|]. apply steps_range in H; lia.
Qed.

Lemma steps_from_next : forall m size i k, i < size -> raw (m i) = false ->
  steps m size (i + 1) k -> steps m size i k.
Proof.
  intros m size i k L R H. apply (steps_trans m size i (i + 1)); [|exact H].
  apply steps_next; [apply steps_here; exact L|exact R|]. apply steps_range in H; lia.
Qed.

Lemma no_variable : forall m size n i, size <= n + i -> has_variable m size i n = false ->
  forall k, steps m size i k -> getDescriptor (m k) <> VL_PTR.
Proof.
  intros m size n; induction n as [|n IH]; intros i L H k K.
  - apply steps_range in K; lia.
  - cbn [has_variable] in H. pose proof (steps_range _ _ _ _ K) as B.
    destruct (Nat.leb_spec size i) as [C|C]; [lia|].
    destruct (getDescriptor (m i) =? VL_PTR)%Z eqn:D; [discriminate|].
    apply Z.eqb_neq in D.
    destruct (steps_split _ _ _ _ K) as [->|[[R K']|[R K']]].
    + exact D.
    + rewrite R in H. apply (IH (i + count (m i) + 1)); [lia|exact H|exact K'].
    + rewrite R in H. apply (IH (i + 1)); [lia|exact H|exact K'].
Qed.

Lemma copy_raw_at : forall src n dst from,
  (forall j, j < n -> copy_raw src dst from n (from + j) = src (from + j)) /\
  (forall k, (k < from \/ from + n <= k) -> copy_raw src dst from n k = dst k).
Proof.
  intros src; induction n as [|n IH]; intros dst from; cbn.
  - split; intros; [lia|reflexivity].
  - destruct (IH (write dst from (src from)) (from + 1)) as [A B]. split.
    + intros [|j] L.
      * rewrite Nat.add_0_r. rewrite B by lia. apply write_eq.
      * replace (from + S j) with (from + 1 + j) by lia. apply A; lia.
    + intros k L. rewrite B by lia. apply write_neq; lia.
Qed.

(** * Meanings *)
Section MeansInd.
Variable ok : obj -> nat -> Prop.
Variable P : list obj -> tree -> term -> Prop.
Hypothesis HV : forall l w, getDescriptor w = VL_PTR -> P l (Leaf w) (TVar (place w)).
Hypothesis HR : forall l w o tr ts, getDescriptor w = R_PTR -> nth_error l (place w) = Some o ->
    (forall j, j < count (word o 0) -> ok o (1 + j)) ->
    Forall2 (shows (ok o) anywhere (word o)) (words (word o) 1 (count (word o 0))) tr ->
    Forall2 (means ok (refs o)) tr ts -> Forall2 (P (refs o)) tr ts -> P l (Leaf w) (TObj (word o 0) ts).
Hypothesis HA : forall l w, getDescriptor w <> VL_PTR -> getDescriptor w <> R_PTR -> P l (Leaf w) (TAtom w).
Hypothesis HW : forall l h ws, P l (Raw h ws) (TRaw h ws).
Hypothesis HS : forall l h tr ts, getDescriptor h <> VL_PTR ->
    Forall2 (means ok l) tr ts -> Forall2 (P l) tr ts -> P l (Node h tr) (TStr h ts).
Fixpoint means_nested l tr t (H : means ok l tr t) {struct H} : P l tr t :=
  match H in means _ l tr t return P l tr t with
  | means_var _ l w D => HV l w D
  | means_ref _ l w o tr ts D N Q S0 M =>
      HR l w o tr ts D N Q S0 M
        ((fix go a b (F : Forall2 (means ok (refs o)) a b) : Forall2 (P (refs o)) a b :=
            match F in Forall2 _ a b return Forall2 (P (refs o)) a b with
            | Forall2_nil _ => Forall2_nil _
            | Forall2_cons x y M F => Forall2_cons x y (means_nested (refs o) x y M) (go _ _ F)
            end) tr ts M)
  | means_atom _ l w D1 D2 => HA l w D1 D2
  | means_raw _ l h ws => HW l h ws
  | means_str _ l h tr ts N M =>
      HS l h tr ts N M
        ((fix go a b (F : Forall2 (means ok l) a b) : Forall2 (P l) a b :=
            match F in Forall2 _ a b return Forall2 (P l) a b with
            | Forall2_nil _ => Forall2_nil _
            | Forall2_cons x y M F => Forall2_cons x y (means_nested l x y M) (go _ _ F)
            end) tr ts M)
  end.
End MeansInd.

Lemma means_weaken : forall (ok ok' : obj -> nat -> Prop), (forall o i, ok o i -> ok' o i) ->
  forall l tr t, means ok l tr t -> means ok' l tr t.
Proof.
  intros ok ok' W. apply means_nested.
  - intros; apply means_var; assumption.
  - intros l w o tr ts D N O S0 M IH. apply means_ref with (tr := tr); auto.
    revert S0. apply Forall2_weaken; intros a b. apply shows_weaken; auto.
  - intros; apply means_atom; assumption.
  - intros; apply means_raw.
  - intros l h tr ts N M IH. apply means_str; assumption.
Qed.

Lemma means_more : forall ok l tr t, means ok l tr t -> forall l2, means ok (l ++ l2) tr t.
Proof.
  intro ok. apply (means_nested ok (fun l tr t => forall l2, means ok (l ++ l2) tr t)).
  - intros; apply means_var; assumption.
  - intros l w o tr ts D N O S0 M _ l2. apply means_ref with (tr := tr); auto.
    rewrite nth_error_app1; [exact N|]. apply nth_error_Some. rewrite N; discriminate.
  - intros; apply means_atom; assumption.
  - intros; apply means_raw.
  - intros l h tr ts N M IH l2. apply means_str; [exact N|]. revert IH. apply Forall2_weaken; auto.
Qed.

Lemma says_weaken : forall (ok ok' : obj -> nat -> Prop), (forall o i, ok o i -> ok' o i) ->
  forall o t, says ok o t -> says ok' o t.
Proof.
  intros ok ok' W o t (tr & ts & -> & O & S0 & M). exists tr, ts. repeat split; auto.
  - revert S0. apply Forall2_weaken; intros a b. apply shows_weaken; auto.
  - revert M. apply Forall2_weaken; intros a b. apply means_weaken; auto.
Qed.

Section ObjInd.
Variable P : obj -> Prop.
Hypothesis H : forall m size l, Forall P l -> P (Obj m size l).
Fixpoint obj_nested (o : obj) : P o :=
  match o with
  | Obj m size l => H m size l ((fix go l := match l return Forall P l with
                                        | [] => Forall_nil P
                                        | a :: l => Forall_cons a (obj_nested a) (go l)
                                        end) l)
  end.
End ObjInd.
