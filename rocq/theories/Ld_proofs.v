(** Loading and starting: proofs. *)
From Verif Require Import Base Atom_model Utils_model Utils_proofs Ld_model Ld_spec.
Local Open Scope nat_scope.

Lemma reach_trans c i j k : Reach c i j -> Reach c j k -> Reach c i k.
Proof. induction 1 as [|i x y H _ IH]; intros Q; [exact Q|]. exact (reach_step _ _ _ _ H (IH Q)). Qed.
Lemma reach_one c i j : Step c i j -> Reach c i j. Proof. intros H. exact (reach_step _ _ _ _ H (reach_here _ _)). Qed.
Lemma reach_last c i k : Reach c i k -> k = i \/ exists j, Reach c i j /\ Step c j k.
Proof.
  induction 1 as [i|i x y H _ IH]; [left; reflexivity|right]. destruct IH as [->|(j & H1 & H2)]; [exists i; split; [constructor|exact H]|].
  exists j. split; [exact (reach_step _ _ _ _ H H1)|exact H2].
Qed.
Lemma reach_case c i k : Reach c i k -> k = i \/ exists j, Step c i j /\ Reach c j k.
Proof. intros H. destruct H as [|j k H1 H2]; [left; reflexivity|right; exists j; split; assumption]. Qed.

Lemma open_kind_structure d : open_kind d = true -> structure d.
Proof.
  unfold open_kind, structure. rewrite !orb_true_iff, !Z.eqb_eq. intros H. repeat (destruct H as [H|H]); subst; cbn; tauto.
Qed.
Lemma structure_open d : structure d -> ~ In d others -> open_kind d = true.
Proof.
  unfold structure, others, open_kind. intros H N. cbn [In] in *.
  repeat (destruct H as [<-|H]; [reflexivity || (exfalso; tauto)|]). destruct H.
Qed.

Lemma has_step fuel c i : has_reference (S fuel) c i = match nth_error c i with
  | None => Bad
  | Some a => if (getDescriptor a =? R_PTR)%Z then Ok true
      else if (getDescriptor a =? I_PTR)%Z then has_reference fuel c (Z.to_nat (asIndex a))
      else if open_kind (getDescriptor a) || (getDescriptor a =? TIMESTAMP)%Z || (getDescriptor a =? DURATION)%Z then have_reference fuel c (S i) (Z.to_nat (getAtomCount a))
      else Ok false end.
Proof. reflexivity. Qed.
Lemma have_step fuel c i n : have_reference (S fuel) c i n = match n with 0 => Ok false | S n => match has_reference fuel c i with Ok false => have_reference fuel c (S i) n | r => r end end.
Proof. reflexivity. Qed.

Lemma desc_ne a d d' : getDescriptor a = d -> (d =? d')%Z = false -> (getDescriptor a =? d')%Z = false.
Proof. intros -> H. exact H. Qed.

(** Nothing found: nothing is there. *)
Lemma not_found fuel c :
  (forall i, has_reference fuel c i = Ok false -> Free (ASSIGN_PTR :: others) c i -> ~ Refers c i) /\
  (forall i n, have_reference fuel c i n = Ok false -> forall k, k < n -> Free (ASSIGN_PTR :: others) c (i + k) -> ~ Refers c (i + k)).
Proof.
  induction fuel as [|fuel (IH1 & IH2)]; [split; intros; discriminate|]. split.
  - intros i H HF (j & R & a' & Ha' & Hd'). rewrite has_step in H. destruct (nth_error c i) as [a|] eqn:E; [|discriminate].
    destruct (Z.eqb_spec (getDescriptor a) R_PTR) as [|N1]; [discriminate|].
    assert (FS : forall k, Step c i k -> Free (ASSIGN_PTR :: others) c k). { intros k St m d Q. apply HF. exact (reach_step _ _ _ _ St Q). }
    apply reach_case in R. destruct R as [->|(k & St & R)]; [congruence|].
    destruct (Z.eqb_spec (getDescriptor a) I_PTR) as [E2|N2].
    + assert (St' := step_pointer c i a E E2). assert (k = Z.to_nat (asIndex a)) as ->.
      { inversion St as [b Hb Db|b Hb Db|b m Hb Db _]; subst; rewrite E in Hb; injection Hb as <-; [reflexivity|reflexivity|]. exfalso. rewrite E2 in Db. unfold structure in Db. cbn in Db. repeat (destruct Db as [Db|Db]; [discriminate|]). destruct Db. }
      apply (IH1 _ H (FS _ St)). exists j. split; [exact R|exists a'; split; assumption].
    + inversion St as [b Hb Db|b Hb Db|b m Hb Db Hm]; subst; rewrite E in Hb; injection Hb as <-.
      * contradiction.
      * apply (HF i (getDescriptor a)); [constructor|exists a; split; [exact E|reflexivity]|]. left. symmetry. exact Db.
      * assert (O : open_kind (getDescriptor a) = true).
        { apply structure_open; [exact Db|]. intros Q. apply (HF i (getDescriptor a)); [constructor|exists a; split; [exact E|reflexivity]|right; exact Q]. }
        rewrite O in H. cbn [orb] in H. assert (M : S i + (m - 1) = i + m) by lia. apply (IH2 _ _ H (m - 1)); [lia| |]; rewrite M.
        -- exact (FS _ St).
        -- exists j. split; [exact R|exists a'; split; assumption].
  - intros i n H k Hk HF. rewrite have_step in H. destruct n as [|n]; [lia|]. destruct (has_reference fuel c i) as [| |[]] eqn:E; try discriminate.
    destruct k as [|k]; [rewrite Nat.add_0_r in *; exact (IH1 _ E HF)|]. rewrite <- Nat.add_succ_comm in *. exact (IH2 _ _ H k ltac:(lia) HF).
Qed.

(** Something found: it is there. *)
Lemma found fuel c :
  (forall i, has_reference fuel c i = Ok true -> Free [TIMESTAMP; DURATION] c i -> Refers c i) /\
  (forall i n, have_reference fuel c i n = Ok true -> (forall k, k < n -> Free [TIMESTAMP; DURATION] c (i + k)) -> exists k, k < n /\ Refers c (i + k)).
Proof.
  induction fuel as [|fuel (IH1 & IH2)]; [split; intros; discriminate|]. split.
  - intros i H HF. rewrite has_step in H. destruct (nth_error c i) as [a|] eqn:E; [|discriminate].
    assert (FS : forall k, Step c i k -> Free [TIMESTAMP; DURATION] c k). { intros k St m d Q. apply HF. exact (reach_step _ _ _ _ St Q). }
    assert (RS : forall k, Step c i k -> Refers c k -> Refers c i). { intros k St (j & Q & R). exists j. split; [exact (reach_step _ _ _ _ St Q)|exact R]. }
    destruct (Z.eqb_spec (getDescriptor a) R_PTR) as [E1|N1]; [exists i; split; [constructor|exists a; split; assumption]|].
    destruct (Z.eqb_spec (getDescriptor a) I_PTR) as [E2|N2].
    + assert (St := step_pointer c i a E E2). exact (RS _ St (IH1 _ H (FS _ St))).
    + destruct (open_kind (getDescriptor a)) eqn:O.
      * cbn [orb] in H. assert (SM : forall k, k < Z.to_nat (getAtomCount a) -> Step c i (S i + k)).
        { intros k Hk. assert (M : S i + k = i + S k) by lia. rewrite M. apply (step_member c i a (S k) E (open_kind_structure _ O)). lia. }
        destruct (IH2 _ _ H) as (k & Hk & Q); [intros k Hk; exact (FS _ (SM k Hk))|]. exact (RS _ (SM k Hk) Q).
      * exfalso. cbn [orb] in H. assert (Q : forall d, getDescriptor a = d -> ~ In d [TIMESTAMP; DURATION]).
        { intros d <-. apply (HF i); [constructor|exists a; split; [exact E|reflexivity]]. }
        destruct (Z.eqb_spec (getDescriptor a) TIMESTAMP) as [E3|]; [apply (Q _ E3); left; reflexivity|].
        destruct (Z.eqb_spec (getDescriptor a) DURATION) as [E4|]; [apply (Q _ E4); right; left; reflexivity|discriminate].
  - intros i n H HF. rewrite have_step in H. destruct n as [|n]; [discriminate|]. destruct (has_reference fuel c i) as [| |[]] eqn:E; try discriminate.
    + exists 0. split; [lia|]. specialize (HF 0 ltac:(lia)). rewrite Nat.add_0_r in *. exact (IH1 _ E HF).
    + destruct (IH2 _ _ H) as (k & Hk & Q).
      { intros k Hk. specialize (HF (S k) ltac:(lia)). rewrite <- Nat.add_succ_comm in HF. exact HF. }
      exists (S k). split; [lia|]. rewrite <- Nat.add_succ_comm. exact Q.
Qed.

(** An answer comes. *)
Lemma answered c i : Ends c -> Within c i -> Free [TIMESTAMP; DURATION] c i -> exists b N, forall f, N <= f -> has_reference f c i = Ok b.
Proof.
  intros (rank & Hr). assert (Q : forall n i, rank i < n -> Within c i -> Free [TIMESTAMP; DURATION] c i -> exists b N, forall f, N <= f -> has_reference f c i = Ok b).
  { clear i. induction n as [|n IH]; intros i Hi HW HF; [lia|].
    assert (E : i < length c) by (apply HW; constructor). destruct (nth_error c i) as [a|] eqn:Ea; [|apply nth_error_None in Ea; lia].
    assert (IHS : forall k, Step c i k -> exists b N, forall f, N <= f -> has_reference f c k = Ok b).
    { intros k St. apply IH; [specialize (Hr _ _ St); lia| |]; intros m; [intros R; apply HW|intros d R; apply HF]; exact (reach_step _ _ _ _ St R). }
    destruct (Z.eqb_spec (getDescriptor a) R_PTR) as [E1|N1].
    { exists true, 1. intros [|f] Hf; [lia|]. rewrite has_step, Ea, E1. reflexivity. }
    destruct (Z.eqb_spec (getDescriptor a) I_PTR) as [E2|N2].
    { destruct (IHS _ (step_pointer c i a Ea E2)) as (b & N & H). exists b, (S N). intros [|f] Hf; [lia|]. rewrite has_step, Ea, E2. apply H. lia. }
    destruct (open_kind (getDescriptor a)) eqn:O.
    - assert (L : forall m j, j + m = S i + Z.to_nat (getAtomCount a) -> S i <= j -> exists b N, forall f, N <= f -> have_reference f c j m = Ok b).
      { induction m as [|m IHm]; intros j Hj Hj'; [exists false, 1; intros [|f] Hf; [lia|reflexivity]|].
        assert (St : Step c i j). { assert (M : j = i + (j - i)) by lia. rewrite M. apply (step_member c i a (j - i) Ea (open_kind_structure _ O)). lia. }
        destruct (IHS _ St) as (b & N & H). destruct b.
        - exists true, (S N). intros [|f] Hf; [lia|]. rewrite have_step, (H f) by lia. reflexivity.
        - destruct (IHm (S j)) as (b & N' & H'); [lia|lia|]. exists b, (S (max N N')). intros [|f] Hf; [lia|]. rewrite have_step, (H f) by lia. apply H'. lia. }
      destruct (L (Z.to_nat (getAtomCount a)) (S i)) as (b & N & H); [lia|lia|]. exists b, (S N). intros [|f] Hf; [lia|]. rewrite has_step, Ea.
      rewrite (proj2 (Z.eqb_neq _ _) N1), (proj2 (Z.eqb_neq _ _) N2), O. cbn [orb]. apply H. lia.
    - exists false, 1. intros [|f] Hf; [lia|]. rewrite has_step, Ea, (proj2 (Z.eqb_neq _ _) N1), (proj2 (Z.eqb_neq _ _) N2), O. cbn [orb].
      assert (Q : forall d, getDescriptor a = d -> ~ In d [TIMESTAMP; DURATION]).
      { intros d <-. apply (HF i); [constructor|exists a; split; [exact Ea|reflexivity]]. }
      destruct (Z.eqb_spec (getDescriptor a) TIMESTAMP) as [E3|]; [destruct (Q _ E3); left; reflexivity|].
      destruct (Z.eqb_spec (getDescriptor a) DURATION) as [E4|]; [destruct (Q _ E4); right; left; reflexivity|reflexivity]. }
  intros HW HF. exact (Q (S (rank i)) i ltac:(lia) HW HF).
Qed.

Lemma free_less l l' c i : incl l l' -> Free l' c i -> Free l c i.
Proof. intros H F j d R K Q. exact (F j d R K (H d Q)). Qed.
Lemma accepted_iff c : Ends c -> Within c HLP_FWD_GUARDS -> Within c HLP_BWD_GUARDS -> Free strange c HLP_FWD_GUARDS -> Free strange c HLP_BWD_GUARDS ->
  exists b N, (forall f, N <= f -> guards_accepted f c = Ok b) /\ (b = true <-> ~ Refers c HLP_FWD_GUARDS /\ ~ Refers c HLP_BWD_GUARDS).
Proof.
  intros HE W1 W2 F1 F2.
  assert (I1 : incl [TIMESTAMP; DURATION] strange). { intros d [<-|[<-|[]]]; cbn; tauto. }
  assert (I2 : incl (ASSIGN_PTR :: others) strange). { intros d H. right. right. exact H. }
  destruct (answered c _ HE W1 (free_less _ _ _ _ I1 F1)) as (b1 & N1 & H1). destruct (answered c _ HE W2 (free_less _ _ _ _ I1 F2)) as (b2 & N2 & H2).
  exists (negb b1 && negb b2), (max N1 N2). split.
  - intros f Hf. unfold guards_accepted. rewrite (H1 f) by lia. destruct b1; [reflexivity|]. rewrite (H2 f) by lia. reflexivity.
  - assert (Q : forall i b N, (forall f, N <= f -> has_reference f c i = Ok b) -> Free strange c i -> (b = false <-> ~ Refers c i)).
    { intros i b N H F. specialize (H N (le_n N)). destruct b.
      - split; [discriminate|]. intros G. destruct G. exact (proj1 (found N c) i H (free_less _ _ _ _ I1 F)).
      - split; [intros _|reflexivity]. exact (proj1 (not_found N c) i H (free_less _ _ _ _ I2 F)). }
    rewrite <- (Q _ _ _ H1 F1), <- (Q _ _ _ H2 F2). destruct b1, b2; cbn; split; intros H; try tauto; try discriminate; destruct H; discriminate.
Qed.
Lemma accepted_no_reference f c : guards_accepted f c = Ok true -> Free (ASSIGN_PTR :: others) c HLP_FWD_GUARDS -> Free (ASSIGN_PTR :: others) c HLP_BWD_GUARDS ->
  ~ Refers c HLP_FWD_GUARDS /\ ~ Refers c HLP_BWD_GUARDS.
Proof.
  unfold guards_accepted. intros H F1 F2. destruct (has_reference f c HLP_FWD_GUARDS) as [| |[]] eqn:E1; try discriminate.
  destruct (has_reference f c HLP_BWD_GUARDS) as [| |[]] eqn:E2; try discriminate. split; [exact (proj1 (not_found f c) _ E1 F1)|exact (proj1 (not_found f c) _ E2 F2)].
Qed.
Lemma refused_reference f c : guards_accepted f c = Ok false -> Free [TIMESTAMP; DURATION] c HLP_FWD_GUARDS -> Free [TIMESTAMP; DURATION] c HLP_BWD_GUARDS ->
  Refers c HLP_FWD_GUARDS \/ Refers c HLP_BWD_GUARDS.
Proof.
  unfold guards_accepted. intros H F1 F2. destruct (has_reference f c HLP_FWD_GUARDS) as [| |[]] eqn:E1; try discriminate; [left; exact (proj1 (found f c) _ E1 F1)|].
  destruct (has_reference f c HLP_BWD_GUARDS) as [| |[]] eqn:E2; try discriminate. right. exact (proj1 (found f c) _ E2 F2).
Qed.
