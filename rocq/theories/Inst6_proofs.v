From Verif Require Import Base Atom_model Atom_proofs Bp_model Bp_spec Bp_proofs Bp2_proofs Bp3_proofs Inst_model Inst_spec Inst_proofs Inst2_proofs Inst3_proofs Inst4_proofs Inst5_proofs.
Local Open Scope nat_scope.

Lemma count_small : forall w, count w <= 255.
Proof.
  intro w. unfold count, getAtomCount.
  assert (A : forall x, (0 <= Z.land x 255 < 256)%Z).
  { intro x. change 255%Z with (Z.ones 8). rewrite Z.land_ones by lia. apply Z.mod_pos_bound. reflexivity. }
  destruct (_ || _)%bool; [specialize (A w); lia|].
  destruct (_ =? _)%Z.
  - assert (B : Z.shiftr (Z.land w 65280) 8 = Z.land (Z.shiftr w 8) 255) by (rewrite Z.shiftr_land; reflexivity).
    rewrite B. specialize (A (Z.shiftr w 8)). lia.
  - destruct (_ =? _)%Z; [vm_compute; lia|]. destruct (_ =? _)%Z; vm_compute; lia.
Qed.

Lemma number_at : forall n m from x, (forall k, k < n -> number m from x n (from + k) = VLPointer (Z.of_nat (x + k))) /\
  (forall k, ~ (from <= k < from + n) -> number m from x n k = m k).
Proof.
  induction n as [|n IH]; intros m from x; cbn [number].
  - split; [intros; lia|reflexivity].
  - destruct (IH (write m from (VLPointer (Z.of_nat x))) (from + 1) (x + 1)) as (A & B). split.
    + intros k K. destruct k as [|k].
      * rewrite B by lia. rewrite !Nat.add_0_r. apply write_eq.
      * replace (from + S k) with (from + 1 + k) by lia. rewrite A by lia. replace (x + 1 + k) with (x + S k) by lia. reflexivity.
    + intros k K. rewrite B by lia. apply write_neq. lia.
Qed.

Definition variables (x n : nat) : list Z := map (fun y => VLPointer (Z.of_nat y)) (seq x n).

Lemma number_words : forall n m from x, words (number m from x n) from n = variables x n.
Proof.
  intros n m from x. unfold words, variables.
  assert (A : forall k, k < n -> number m from x n (from + k) = VLPointer (Z.of_nat (x + k))) by apply number_at.
  revert A. generalize (number m from x n). intro m'. clear m. revert from x. induction n as [|n IH]; intros from x A; [reflexivity|].
  cbn [seq map]. f_equal.
  - specialize (A 0 ltac:(lia)). rewrite !Nat.add_0_r in A. exact A.
  - apply IH. intros k K. specialize (A (S k) ltac:(lia)). replace (from + S k) with (S from + k) in A by lia. replace (x + S k) with (S x + k) in A by lia. exact A.
Qed.

Lemma elements_length : forall o k, length (elements o k) = count (word o (place (word o k))).
Proof. intros. unfold elements. apply words_length. Qed.

(** * The pattern of an instance (C138) *)
Lemma abstract_spec : forall icst imdl f g, abstract_f_ihlp icst imdl f = Some g ->
  exists i j hlp, nth_error (refs f) 0 = Some i /\ nth_error (refs i) (place (word i 1)) = Some hlp /\
    refs g = [j] /\ word g = word f /\ size g = size f /\ refs j = [hlp] /\
    word j 0 = AObject (if (asOpcode (word i 0%nat) =? icst)%Z then icst else imdl) 5 /\ word j 1 = RPointer 0 /\
    word j 4 = word i 4 /\ word j 5 = word i 5 /\
    elements j 2 = variables 0 (length (elements i 2)) /\
    elements j 3 = variables (length (elements i 2)) (length (elements i 3)).
Proof.
  intros icst imdl f g E. unfold abstract_f_ihlp in E.
  destruct (nth_error (refs f) 0) as [i|]; [|discriminate].
  change (word i I_HLP_OBJ) with (word i 1) in E. change (word i I_HLP_TPL_ARGS) with (word i 2) in E. change (word i I_HLP_EXPOSED_ARGS) with (word i 3) in E.
  change (word i I_HLP_WR) with (word i 4) in E. change (word i I_HLP_ARITY) with (word i 5) in E.
  change (I_HLP_ARITY + 1) with 6 in E. change (6 + 1) with 7 in E.
  destruct (nth_error (refs i) (place (word i 1))) as [hlp|] eqn:NH; [|discriminate].
  pose proof (count_small (word i (place (word i 2)))) as LN. pose proof (count_small (word i (place (word i 3)))) as LK.
  set (n := count (word i (place (word i 2)))) in *. set (k := count (word i (place (word i 3)))) in *.
  set (op := AObject _ 5) in *.
  set (m1 := write (write (fun _ => UndefinedAtom) 0 op) I_HLP_OBJ (RPointer 0)) in *.
  set (m2 := write (write m1 I_HLP_TPL_ARGS (ptr 6)) 6 (ASet (Z.of_nat n))) in *.
  set (m3 := number m2 7 0 n) in *.
  set (m4 := write (write m3 I_HLP_EXPOSED_ARGS (ptr (7 + n))) (7 + n) (ASet (Z.of_nat k))) in *.
  set (m5 := number m4 (7 + n + 1) n k) in *.
  set (m6 := write (write m5 I_HLP_WR (word i 4)) I_HLP_ARITY (word i 5)) in *.
  assert (EG : g = Obj (word f) (size f) [Obj m6 (7 + n + 1 + k) [hlp]]) by congruence. clear E.
  exists i, (Obj m6 (7 + n + 1 + k) [hlp]), hlp.
  assert (LM : 4000 < limit) by (rewrite Nat2Z.inj_lt, limit_is; vm_compute; reflexivity).
  assert (A6 : forall x, x < 4 \/ 6 <= x -> m6 x = m5 x).
  { intros x X. unfold m6. rewrite !write_neq by (unfold I_HLP_WR, I_HLP_ARITY; lia). reflexivity. }
  assert (A5 : forall x, x < 7 + n + 1 -> m5 x = m4 x).
  { intros x X. unfold m5. apply number_at. lia. }
  assert (A4 : forall x, x <> 3 -> x <> 7 + n -> m4 x = m3 x).
  { intros x X Y. unfold m4. rewrite !write_neq by (unfold I_HLP_EXPOSED_ARGS; lia). reflexivity. }
  assert (A3 : forall x, x < 7 -> m3 x = m2 x).
  { intros x X. unfold m3. apply number_at. lia. }
  rewrite !elements_length. fold n k. unfold elements. rewrite EG. cbn [refs word size].
  split; [reflexivity|]. split; [exact NH|]. split; [reflexivity|]. split; [reflexivity|]. split; [reflexivity|]. split; [reflexivity|].
  split; [rewrite A6, A5, A4, A3 by lia; reflexivity|]. split; [rewrite A6, A5, A4, A3 by lia; reflexivity|].
  split; [unfold m6; rewrite write_neq by (unfold I_HLP_ARITY; lia); apply write_eq|]. split; [apply write_eq|].
  destruct (set_word n LN) as (_ & CN). destruct (set_word k LK) as (_ & CK).
  split.
  - assert (W2 : m6 2 = ptr 6) by (rewrite A6, A5, A4, A3 by lia; reflexivity).
    rewrite W2, ptr_place by lia.
    assert (W6 : m6 6 = ASet (Z.of_nat n)) by (rewrite A6, A5, A4, A3 by lia; apply write_eq).
    rewrite W6, CN. rewrite <- (number_words n m2 7 0). apply words_ext. intros x X.
    rewrite A6, A5, A4 by lia. reflexivity.
  - assert (W3 : m6 3 = ptr (7 + n)).
    { rewrite A6, A5 by lia. unfold m4. rewrite write_neq by lia. apply write_eq. }
    rewrite W3, ptr_place by lia.
    assert (W7 : m6 (7 + n) = ASet (Z.of_nat k)) by (rewrite A6, A5 by lia; apply write_eq).
    rewrite W7, CK. rewrite <- (number_words k m4 (7 + n + 1) n). apply words_ext. intros x X. apply A6. lia.
Qed.

(** Which exposed arguments get their own variable. *)
Lemma below_count : forall h n j p x, nth_error (chosen h j n) p = Some x ->
  j + p <= x /\ (x = j + p <-> forall y, j <= y < x -> skipped h y = false).
Proof.
  intros h n; unfold chosen; induction n as [|n IH]; intros j p x E; cbn [seq filter] in E; [destruct p; discriminate|].
  destruct (skipped h j) eqn:K; cbn [negb] in E.
  - destruct (IH _ _ _ E) as (A & B). split; [lia|]. split; [lia|]. intro C. rewrite C in K; [discriminate|]. lia.
  - destruct p as [|p].
    + cbn in E. injection E as <-. split; [lia|]. split; [intros; lia|lia].
    + cbn [nth_error] in E. destruct (IH _ _ _ E) as (A & B). split; [lia|]. split.
      * intros X y Y. destruct (Nat.eq_dec y j) as [->|N]; [exact K|]. apply B; lia.
      * intro C. assert (x = S j + p) by (apply B; intros y Y; apply C; lia). lia.
Qed.

Lemma abstract_right : forall fuel ti fact h s hlp tr T op wr f i icst imdl g j, meant fuel h s -> ready h -> template hlp tr T ->
  count (word hlp (place (word hlp 1))) = first h ->
  build_f_ihlp fuel ti fact h hlp op wr = Some f -> fits f -> nth_error (refs f) 0 = Some i ->
  abstract_f_ihlp icst imdl f = Some g -> nth_error (refs g) 0 = Some j ->
  length (elements j 3) = length (elements i 3) /\
  forall x, In x (exposed h) ->
    (nth_error (elements j 3) (Z.to_nat (position h (Z.of_nat x))) = Some (VLPointer (Z.of_nat x)) <->
     (Z.of_nat x < fwd_after h /\ Z.of_nat x < fwd_before h)%Z).
Proof.
  intros fuel ti fact h s hlp tr T op wr f i icst imdl g j ME RD TP CT E FT NI EA NJ. pose proof (small h RD) as SM.
  assert (FB : size f <= limit /\ length (refs f) <= limit /\ forall o, In o (refs f) -> fits o).
  { inversion FT; subst. cbn. auto. }
  destruct FB as (B1 & B2 & B3).
  destruct (fact_built fuel ti fact h s ME RD hlp op wr f E B1 B2) as (i' & EI & NI' & _).
  rewrite NI in NI'. injection NI' as <-.
  assert (FI : fits i) by (apply B3; eapply nth_error_In; exact NI).
  assert (FB : size i <= limit /\ length (refs i) <= limit) by (inversion FI; subst; cbn; auto).
  destruct FB as (C1 & C2).
  destruct (ihlp_built fuel ti h s ME RD hlp op wr i tr T TP EI C1 C2) as (e & Le & NH & V0 & V1 & V2 & V3 & V4 & V5 & JI & VS & HX).
  destruct (exposed_length h RD) as (_ & _ & _ & X5).
  destruct (set_word (length (exposed h)) X5) as (DS & CS).
  assert (Pe : place (ptr e) = e) by (apply ptr_place; lia).
  assert (EL : length (elements i 3) = length (exposed h)).
  { unfold elements. rewrite V3, Pe, VS, CS. apply words_length. }
  assert (LM : 4000 < limit) by (rewrite Nat2Z.inj_lt, limit_is; vm_compute; reflexivity).
  assert (ET : length (elements i 2) = first h).
  { unfold elements. rewrite V2, words_length. rewrite ptr_place by lia. rewrite <- CT.
    destruct TP as (D1 & S1 & _). inversion S1 as [? N|? _ O R K|? ts _ O R N K F]; subst; [contradiction| |];
    inversion JI as [| |? ? ? ? DW RW OW EW KW QW|? ? ? ? DW RW PW OW EW KW QW]; subst; rewrite ptr_place in EW by lia; rewrite EW; reflexivity. }
  destruct (abstract_spec icst imdl f g EA) as (i' & j' & hlp' & X1 & X2 & X3 & _ & _ & _ & _ & _ & _ & _ & _ & X4).
  rewrite NI in X1. injection X1 as <-. rewrite X3 in NJ. injection NJ as ->. rewrite ET, EL in X4.
  rewrite X4, EL. split; [unfold variables; rewrite map_length, seq_length; reflexivity|].
  intros x X. destruct (position_in h x X) as (p & P & PP). rewrite PP, Nat2Z.id.
  assert (PL : p < length (exposed h)) by (apply nth_error_Some; rewrite P; discriminate).
  assert (NP : nth_error (variables (first h) (length (exposed h))) p = Some (VLPointer (Z.of_nat (first h + p)))).
  { unfold variables. erewrite map_nth_error; [reflexivity|]. rewrite nth_error_nth' with (d := 0) by (rewrite seq_length; exact PL).
    rewrite seq_nth by exact PL. reflexivity. }
  rewrite NP. rewrite <- chosen_exposed in P. destruct (below_count _ _ _ _ _ P) as (A & B).
  apply exposed_in in X. destruct X as (XR & XA & XB).
  destruct RD as (a & b & FA & FBf & N & La & Lb & L).
  split.
  - intro Q. assert (Q' : VLPointer (Z.of_nat (first h + p)) = VLPointer (Z.of_nat x)) by congruence.
    apply (f_equal place) in Q'. rewrite !vlptr_place in Q' by lia. symmetry in Q'. pose proof (proj1 B Q') as Q2. clear Q'. rename Q2 into Q'.
    rewrite FA, FBf in *. split.
    + destruct (Z.lt_ge_cases (Z.of_nat x) (Z.of_nat a)) as [O|O]; [exact O|]. assert (K : skipped h a = false) by (apply Q'; lia).
      unfold skipped in K. rewrite FA, Z.eqb_refl in K. discriminate.
    + destruct (Z.lt_ge_cases (Z.of_nat x) (Z.of_nat b)) as [O|O]; [exact O|]. assert (K : skipped h b = false) by (apply Q'; lia).
      unfold skipped in K. rewrite FBf, Z.eqb_refl, orb_true_r in K. discriminate.
  - intros (Q1 & Q2). assert (x = first h + p); [|subst; reflexivity]. apply B. intros y Y. unfold skipped.
    destruct (Z.eqb_spec (Z.of_nat y) (fwd_after h)); [lia|]. destruct (Z.eqb_spec (Z.of_nat y) (fwd_before h)); [lia|]. reflexivity.
Qed.

(** * The map of a pattern (C139) *)
Lemma describes_none : describes [] (fun _ => False).
Proof.
  split; [|split].
  - intro x. split; [destruct x; discriminate|intros []].
  - intros x v E. destruct x; discriminate.
  - intro n. cbn. split; [intros _ x []|lia].
Qed.

Lemma describes_ext : forall vs (X Y : nat -> Prop), (forall x, X x <-> Y x) -> describes vs X -> describes vs Y.
Proof.
  intros vs X Y E (A & B & C). split; [|split].
  - intro x. rewrite A. apply E.
  - exact B.
  - intro n. rewrite C. split; intros H x K; apply H; apply E; exact K.
Qed.

Lemma add_describes : forall vs X x, x < 256 -> describes vs X -> describes (add_unbound vs x) (fun y => y = x \/ X y).
Proof.
  intros vs X x L (A & B & C). unfold add_unbound.
  assert (U : Z.to_nat (u8 (Z.of_nat x)) = x) by (unfold u8; rewrite Z.mod_small by lia; lia). rewrite U.
  set (vs1 := if x <? length vs then vs else vs ++ repeat None (x + 1 - length vs)).
  assert (L1 : length vs1 = Nat.max (length vs) (x + 1)).
  { unfold vs1. destruct (Nat.ltb_spec x (length vs)); [lia|]. rewrite app_length, repeat_length. lia. }
  assert (N1 : forall y v, nth_error vs1 y = Some (Some v) <-> nth_error vs y = Some (Some v)).
  { intros y v. unfold vs1. destruct (Nat.ltb_spec x (length vs)); [reflexivity|].
    destruct (Nat.lt_ge_cases y (length vs)); [rewrite nth_error_app1 by assumption; reflexivity|].
    rewrite nth_error_app2 by assumption. split; intro E.
    - apply nth_error_In, repeat_spec in E. discriminate.
    - rewrite (proj2 (nth_error_None vs y)) in E by assumption. discriminate. }
  assert (LX : x < length vs1) by lia.
  destruct (set_at_some vs1 x Unbound LX) as (vs2 & E2 & L2 & M1 & M2). unfold set_at in E2.
  destruct (Nat.ltb_spec x (length vs1)); [|lia]. assert (E3 : firstn x vs1 ++ Some Unbound :: skipn (S x) vs1 = vs2) by congruence. rewrite E3.
  split; [|split].
  - intro y. destruct (Nat.eq_dec y x) as [->|N].
    + rewrite M1. split; [left; reflexivity|reflexivity].
    + rewrite M2 by exact N. rewrite N1, A. tauto.
  - intros y v E. destruct (Nat.eq_dec y x) as [->|N]; [congruence|]. rewrite M2 in E by exact N. apply N1 in E. exact (B _ _ E).
  - intro n. rewrite L2, L1. split.
    + intros Q y [->|Y]; [lia|]. apply (proj1 (C n)); [lia|exact Y].
    + intro Q. assert (x < n) by (apply Q; left; reflexivity). assert (length vs <= n) by (apply C; intros y Y; apply Q; right; exact Y). lia.
Qed.

Lemma packed_describes : forall m n i vs X, (forall k, i <= k < i + n -> getDescriptor (m k) = VL_PTR -> place (m k) < 256) -> describes vs X ->
  describes (add_packed m i n vs) (fun y => (exists k, i <= k < i + n /\ getDescriptor (m k) = VL_PTR /\ place (m k) = y) \/ X y).
Proof.
  intros m n; induction n as [|n IH]; intros i vs X H D; cbn [add_packed].
  - revert D. apply describes_ext. intro x. split; [tauto|]. intros [(k & K & _)|Y]; [lia|exact Y].
  - assert (H' : forall k, i + 1 <= k < i + 1 + n -> getDescriptor (m k) = VL_PTR -> place (m k) < 256) by (intros; apply H; [lia|assumption]).
    destruct (Z.eqb_spec (getDescriptor (m i)) VL_PTR) as [V|V].
    + pose proof (add_describes vs X (place (m i)) (H i ltac:(lia) V) D) as D1. specialize (IH (i + 1) _ _ H' D1).
      revert IH. apply describes_ext. intro x. split.
      * intros [(k & K & W)|[->|Y]]; [left; exists k; split; [lia|exact W]|left; exists i; split; [lia|auto]|right; exact Y].
      * intros [(k & K & W)|Y]; [|right; right; exact Y]. destruct (Nat.eq_dec k i) as [->|N]; [right; left; symmetry; apply W|].
        left. exists k. split; [lia|exact W].
    + specialize (IH (i + 1) _ _ H' D). revert IH. apply describes_ext. intro x. split.
      * intros [(k & K & W)|Y]; [left; exists k; split; [lia|exact W]|right; exact Y].
      * intros [(k & K & W)|Y]; [|right; exact Y]. destruct (Nat.eq_dec k i) as [->|N]; [exfalso; apply V; apply W|].
        left. exists k. split; [lia|exact W].
Qed.

(** Variables of a structure. *)
Definition all_vars (T : term) : list nat := map fst (vars 0 false T).

Fixpoint tree_vars (t : tree) : list nat :=
  match t with
  | Leaf w => if (getDescriptor w =? VL_PTR)%Z then [place w] else []
  | Raw _ _ => []
  | Bp_spec.Node _ ts => flat_map tree_vars ts
  end.

Lemma add_flat : forall add m n i vs,
  Forall (fun a => getDescriptor a <> I_PTR /\ getDescriptor a <> VL_PTR) (words m i n) -> add_words add m i n vs = Some vs.
Proof.
  intros add m n; induction n as [|n IH]; intros i vs F; cbn [add_words]; [reflexivity|].
  rewrite words_cons in F. inversion F as [|? ? (N1 & N2) F']; subst.
  destruct (Z.eqb_spec (getDescriptor (m i)) VL_PTR); [contradiction|]. destruct (Z.eqb_spec (getDescriptor (m i)) I_PTR); [contradiction|].
  rewrite Nat.add_1_r. apply IH. exact F'.
Qed.

Lemma structure_describes : forall d m tr w vs X, shows anywhere anywhere m w tr -> getDescriptor w = I_PTR -> quiet tr -> height tr <= d ->
  (forall x, In x (tree_vars tr) -> x < 256) -> describes vs X ->
  exists vs', add_structure d m (place w) vs = Some vs' /\ describes vs' (fun x => In x (tree_vars tr) \/ X x).
Proof.
  induction d as [|d IH]; intros m tr w vs X S0 D Q H B DS.
  - exfalso. inversion S0; subst; [contradiction| |]; cbn in H; lia.
  - cbn [add_structure]. inversion S0 as [? N|? _ O R K|? ts _ O R N K F]; subst; [contradiction| |].
    + exists vs. split; [|revert DS; apply describes_ext; cbn; tauto]. cbn in Q. apply add_flat. exact Q.
    + cbn [tree_vars] in *. apply quiet_all in Q. cbn in H.
      assert (Hm : Forall (fun t => height t <= d) ts).
      { assert (Hm : list_max (map height ts) <= d) by lia. apply list_max_le in Hm. rewrite Forall_map in Hm. exact Hm. }
      clear H. assert (LT : count (m (place w)) = length ts).
      { apply Forall2_len in F. rewrite words_length in F. exact F. }
      rewrite LT in F |- *. clear S0 K LT N R. revert F Q Hm B. generalize (place w + 1). intro r. revert r vs X DS.
      induction ts as [|t ts IHt]; intros r vs X DS F Q Hm B; cbn [length add_words].
      * exists vs. split; [reflexivity|]. revert DS. apply describes_ext. cbn. tauto.
      * cbn [length] in F. rewrite words_cons in F. inversion F as [|? ? ? ? S0 F']; subst. inversion Q as [|? ? Q0 Q']; subst. inversion Hm as [|? ? H0 H']; subst.
        cbn [flat_map] in *.
        assert (ST : exists vs1, (if (getDescriptor (m r) =? VL_PTR)%Z then Some (add_unbound vs (place (m r)))
             else if (getDescriptor (m r) =? I_PTR)%Z then add_structure d m (place (m r)) vs
             else Some vs) = Some vs1 /\ describes vs1 (fun x => In x (tree_vars t) \/ X x)).
        { destruct (Z.eqb_spec (getDescriptor (m r)) VL_PTR) as [V|V].
          - assert (t = Leaf (m r)) by (inversion S0 as [|? D0|? ? D0]; subst; [reflexivity|rewrite V in D0; discriminate|rewrite V in D0; discriminate]). subst t.
            cbn [tree_vars] in *. rewrite V in *. change (VL_PTR =? VL_PTR)%Z with true in *. cbn iota in *.
            eexists. split; [reflexivity|].
            assert (P : place (m r) < 256) by (apply B; left; reflexivity).
            pose proof (add_describes vs X _ P DS) as D1. revert D1. apply describes_ext. cbn. intuition.
          - destruct (Z.eqb_spec (getDescriptor (m r)) I_PTR) as [V2|V2].
            + apply IH; auto. intros x X0. apply B. apply in_app_iff. left; exact X0.
            + assert (t = Leaf (m r)) by (inversion S0; subst; [reflexivity|contradiction|contradiction]). subst t.
              cbn [tree_vars]. destruct (Z.eqb_spec (getDescriptor (m r)) VL_PTR); [contradiction|].
              exists vs. split; [reflexivity|]. revert DS. apply describes_ext. cbn. tauto. }
        destruct ST as (vs1 & E1 & D1). rewrite E1. rewrite Nat.add_1_r.
        destruct (IHt (S r) vs1 _ D1 F' Q' H') as (vs2 & E2 & D2).
        { intros x X0. apply B. apply in_app_iff. right; exact X0. }
        exists vs2. split; [exact E2|]. revert D2. apply describes_ext. intro x. rewrite in_app_iff. tauto.
Qed.

Lemma tree_term_vars : forall ti tr b T, (forall l, means free l tr T) -> map fst (vars ti b T) = tree_vars tr.
Proof.
  intros ti tr; induction tr as [w|hd ws|hd ts F] using tree_nested; intros b T M; pose proof (M []) as M0; cbn [tree_vars].
  - inversion M0 as [? ? D0|? ? ? ? ? D0 N0| ? ? D0 D1| |]; subst.
    + rewrite D0. change (VL_PTR =? VL_PTR)%Z with true. reflexivity.
    + destruct (place w); discriminate N0.
    + destruct (Z.eqb_spec (getDescriptor w) VL_PTR); [contradiction|reflexivity].
  - inversion M0; subst. reflexivity.
  - inversion M0 as [| | | |? ? ? Ts N0 M1]; subst. cbn [vars].
    assert (M2 : Forall2 (fun t tt => forall l, means free l t tt) ts Ts) by (apply means_all; intro l; specialize (M l); inversion M; assumption).
    clear M M0 M1. induction M2 as [|t T ts Ts A B IH]; [reflexivity|]. inversion F; subst. cbn [flat_map]. rewrite map_app. f_equal; auto.
Qed.

Lemma init_describes : forall fuel ti hlp packed tr T first_obj, template hlp tr T -> height tr <= fuel ->
  1 <= count (word hlp (place (word hlp 2))) ->
  nth_error (refs hlp) (place (word hlp (place (word hlp 2) + 1))) = Some first_obj ->
  clear_code packed -> (forall x, occurs packed x -> x < 256) -> (forall x b, In (x, b) (vars ti false T) -> x < 256) ->
  exists h, init_from_hlp fuel hlp packed = Some h /\
    describes (vals h) (fun x => occurs packed x \/ exists b, In (x, b) (vars ti false T)) /\
    (forall n, first h <= n <-> forall x b, In (x, b) (vars ti false T) -> x < n) /\
    (3 < size first_obj -> forall k z, (k = 2 /\ z = fwd_after h) \/ (k = 3 /\ z = fwd_before h) ->
       (getDescriptor (word first_obj k) = VL_PTR -> z = Z.of_nat (place (word first_obj k))) /\
       (getDescriptor (word first_obj k) <> VL_PTR -> z = (-1)%Z)).
Proof.
  intros fuel ti hlp packed tr T fo (D1 & S1 & Q1 & M1) HT OC NF CC O2 T2. unfold init_from_hlp.
  change (word hlp HLP_TPL_ARGS) with (word hlp 1). change (word hlp HLP_OBJS) with (word hlp 2).
  pose proof (tree_term_vars ti tr false T M1) as TV.
  assert (TI : forall x, In x (tree_vars tr) <-> exists b, In (x, b) (vars ti false T)).
  { intro x. rewrite <- TV. rewrite in_map_iff. split.
    - intros ((y & b) & <- & I0). exists b. exact I0.
    - intros (b & I0). exists (x, b). auto. }
  assert (TB : forall x, In x (tree_vars tr) -> x < 256).
  { intros x X. apply TI in X. destruct X as (b & X). exact (T2 _ _ X). }
  destruct (structure_describes fuel (word hlp) tr (word hlp 1) [] _ S1 D1 Q1 HT TB describes_none) as (vs & E & DS).
  rewrite E. cbn zeta. destruct (Nat.leb_spec 1 (count (word hlp (place (word hlp 2))))); [|lia]. rewrite NF.
  destruct (timing_indexes fo ((-1)%Z, (-1)%Z)) as [a b] eqn:ET. eexists. split; [reflexivity|]. cbn [vals first fwd_after fwd_before].
  assert (OI : forall x, (exists k, 1 <= k < 1 + (size packed - 1) /\ getDescriptor (word packed k) = VL_PTR /\ place (word packed k) = x) <-> occurs packed x).
  { intro x. split.
    - intros (k & K & V & P). exists k. split; [apply CC; [lia|exact V]|auto].
    - intros (k & K & V & P). exists k. split; [apply steps_range in K; lia|auto]. }
  split; [|split].
  - assert (PD : forall k, 1 <= k < 1 + (size packed - 1) -> getDescriptor (word packed k) = VL_PTR -> place (word packed k) < 256).
    { intros k K V. apply O2. apply OI. exists k. auto. }
    pose proof (packed_describes (word packed) (size packed - 1) 1 vs _ PD DS) as D2.
    revert D2. apply describes_ext. intro x. rewrite OI, TI. tauto.
  - intro n. destruct DS as (_ & _ & C). rewrite C. split.
    + intros Q x b0 X. apply Q. left. apply TI. exists b0; exact X.
    + intros Q x [X|[]]. apply TI in X. destruct X as (b0 & X). exact (Q _ _ X).
  - intros SF k z KZ. unfold timing_indexes in ET. destruct (Nat.leb_spec (size fo) FACT_BEFORE) as [LL|LL]; [unfold FACT_BEFORE in LL; lia|].
    pose proof (f_equal fst ET) as EA. pose proof (f_equal snd ET) as EB. clear ET. cbn [fst snd] in EA, EB. change FACT_AFTER with 2 in EA. change FACT_BEFORE with 3 in EB. cbn [fst snd] in *.
    assert (AI : forall w, Z.of_nat (place w) = asIndex w).
    { intro w. unfold place. apply Z2Nat.id. unfold asIndex. change 4095%Z with (Z.ones 12). rewrite Z.land_ones by lia. apply Z.mod_pos_bound. reflexivity. }
    destruct KZ as [(-> & ->)|(-> & ->)]; rewrite AI.
    + destruct (Z.eqb_spec (getDescriptor (word fo 2)) VL_PTR); split; intro; congruence.
    + destruct (Z.eqb_spec (getDescriptor (word fo 3)) VL_PTR); split; intro; congruence.
Qed.
