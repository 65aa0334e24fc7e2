(** Lemmas about facts and evidence. *)
From Verif Require Import Base Float32 Atom_model Atom_proofs Utils_model Utils_proofs Match_model Match_spec Match_proofs
  Fact_model Fact_spec Atom_spec Utils_spec.
Local Open Scope nat_scope.

Section Facts.
Context (E : env).

Lemma is_wild_iff a : is_wild a = true <-> wild a.
Proof.
  unfold is_wild, wild. destruct (Z.eqb_spec (getDescriptor a) T_WILDCARD), (Z.eqb_spec (getDescriptor a) WILDCARD);
    cbn [orb]; split; intros H; auto; try discriminate. destruct H; contradiction.
Qed.
Lemma open_iff a : open_atom a = true <-> unconstrained a.
Proof.
  unfold open_atom, unconstrained. rewrite <- is_wild_iff. unfold is_wild.
  destruct (Z.eqb_spec (getDescriptor a) VL_PTR) as [V|V];
    destruct ((getDescriptor a =? T_WILDCARD)%Z || (getDescriptor a =? WILDCARD)%Z); cbn [orb]; split; intros H; auto; try discriminate.
  destruct H; [discriminate|contradiction].
Qed.
Lemma state_iff same a b : state_ok same a b = true <-> same_state same a b.
Proof.
  unfold state_ok, same_state. destruct same; [|split; [discriminate|reflexivity]].
  rewrite <- !is_wild_iff. destruct (is_wild a), (is_wild b); cbn [orb]; try (split; auto; fail).
  split.
  - intros H _. right. right. apply eqb_prop in H. split; intros X; apply Z.eqb_eq; [rewrite <- H|rewrite H]; apply Z.eqb_eq; exact X.
  - intros H. destruct (H eq_refl) as [X|[X|X]]; try discriminate. apply eqb_true_iff.
    destruct (Z.eqb_spec (getDescriptor a) VL_PTR), (Z.eqb_spec (getDescriptor b) VL_PTR); tauto.
Qed.
Lemma match_atom_iff a b : MatchAtom E a b = true <-> atoms_equal E a b.
Proof.
  unfold MatchAtom, atoms_equal. destruct (Z.eqb_spec a b) as [->|N]; [split; auto|].
  destruct (isFloat a) eqn:A, (isFloat b) eqn:B; cbn [andb].
  1:{ rewrite Equal_close. split; [auto|]. intros [H|(H1 & H2 & H3)]; [contradiction|exact H3]. }
  all: split; [discriminate|]; intros [H|(H1 & H2 & H3)]; [contradiction|discriminate].
Qed.

Definition decides (same : bool) (rec : cobj -> nat -> nat -> cobj -> nat -> nat -> outcome bool) : Prop :=
  forall l lb li r ri ar b, rec l lb li r ri ar = Ok b ->
    (b = true <-> (li <= ar /\ forall k, li <= k <= ar -> agree_member E same l (lb + k) r (ri + (k - li)))).

Section Steps.
Context (same : bool) (rec : cobj -> nat -> nat -> cobj -> nat -> nat -> outcome bool) (R : decides same rec).

Lemma structure_decides l lb r ri b : MatchStructure E rec l lb 0 r ri = Ok b ->
  (b = true <-> agree_structure E same l lb r ri).
Proof.
  unfold MatchStructure. rewrite Nat.add_0_r. intros H. peel H a A. peel H c C. apply word_ok in A, C.
  destruct (Z.eqb_spec a c) as [<-|N]; cbn [negb] in H.
  2:{ inv H. split; [discriminate|]. intros X. inv X; congruence. }
  destruct (Nat.eqb_spec (arity a) 0) as [Z0|Z0].
  { inv H. split; [|reflexivity]. intros _. destruct (Z.eq_dec (getDescriptor a) TIMESTAMP) as [D|D].
    - exfalso. revert Z0. unfold arity, getAtomCount. rewrite D. discriminate.
    - eapply agree_members; eauto. intros k K. lia. }
  destruct (Z.eqb_spec (getDescriptor a) TIMESTAMP) as [D|D].
  { peel H t T. peel H t' T'. apply from_opt_ok in T, T'. apply (f_equal (fun x => match x with Ok y => y | _ => b end)) in H.
    subst b. unfold Synchronous. rewrite Z.ltb_lt. split.
    - intros X. eapply agree_time; eauto.
    - intros X. inv X; congruence. }
  specialize (R _ _ _ _ _ _ _ H). rewrite R. cbn [plus]. split.
  - intros [_ X]. eapply agree_members; eauto. intros k K. specialize (X k K).
    replace (ri + 1 + (k - 1)) with (ri + k) in X by lia. exact X.
  - intros X. inv X; [congruence|]. split; [lia|]. intros k K. replace (ri + 1 + (k - 1)) with (ri + k) by lia.
    apply H3. congruence.
Qed.
Lemma object_decides x y b : MatchObject E rec x y = Ok b -> (b = true <-> agree_object E same x y).
Proof.
  unfold MatchObject. intros H. peel H l L. peel H r Rr. peel H a A. peel H c C. apply deref_ok in L, Rr. apply word_ok in A, C.
  destruct (Z.eqb_spec a c) as [<-|N]; cbn [negb] in H.
  2:{ inv H. split; [discriminate|]. intros X. inv X; congruence. }
  destruct (by_identity E (asOpcode a)) eqn:B.
  { inv H. rewrite Nat.eqb_eq. split.
    - intros <-. eapply agree_identity; eauto.
    - intros X. inv X; congruence. }
  specialize (R _ _ _ _ _ _ _ H). rewrite R. split.
  - intros [X Y]. eapply agree_content; eauto. intros k K. specialize (Y k K). cbn [plus] in Y.
    replace (S (k - 1)) with k in Y by lia. exact Y.
  - intros X. inv X; [congruence|]. rewrite L in H0. inv H0. rewrite Rr in H1. inv H1. rewrite A in H2. inv H2.
    split; [assumption|]. intros k K. cbn [plus]. replace (S (k - 1)) with k by lia. auto.
Qed.
Lemma ok_inj {A} (x y : A) : Ok x = Ok y -> x = y.
Proof. congruence. Qed.
Lemma open_not_ptr a : unconstrained a -> getDescriptor a <> I_PTR /\ getDescriptor a <> R_PTR.
Proof. intros [[H|H]|H]; rewrite H; split; vm_compute; discriminate. Qed.
Lemma ptr_not_vl same' a b : (getDescriptor a = I_PTR \/ getDescriptor a = R_PTR) -> (getDescriptor b = I_PTR \/ getDescriptor b = R_PTR) ->
  same_state same' a b.
Proof. intros A B _. right. right. destruct A as [->| ->], B as [->| ->]; split; intros H; revert H; vm_compute; discriminate. Qed.

Lemma member_decides l i r j b : MatchMember E rec same l i r j = Ok b -> (b = true <-> agree_member E same l i r j).
Proof.
  unfold MatchMember. intros H. peel H a A. peel H c C. apply word_ok in A, C.
  (* inversion of an agreement, at these words *)
  assert (Inv : agree_member E same l i r j ->
     (same_state same a c /\ (unconstrained a \/ unconstrained c)) \/
     (getDescriptor a = I_PTR /\ getDescriptor c = I_PTR /\ agree_structure E same l (index a) r (index c)) \/
     (getDescriptor a = R_PTR /\ getDescriptor c = R_PTR /\ exists x y, nth_error (refs_of l) (index a) = Some x /\
         nth_error (refs_of r) (index c) = Some y /\ agree_object E same x y) \/
     (~ unconstrained a /\ ~ unconstrained c /\ getDescriptor a <> I_PTR /\ getDescriptor a <> R_PTR /\ atoms_equal E a c)).
  { intros X. destruct X as [? ? ? ? a' c' A' C'|? ? ? ? a' c' A' C'|? ? ? ? a' c' x y A' C'|? ? ? ? a' c' A' C'];
      rewrite A in A'; rewrite C in C'; injection A' as <-; injection C' as <-; [left|right; left|right; right; left|right; right; right];
      repeat split; auto. exists x, y. auto. }
  destruct (state_ok same a c) eqn:St; cbn [negb] in H.
  2:{ apply ok_inj in H. subst b. split; [discriminate|]. intros X. exfalso.
      assert (NS : ~ same_state same a c) by (rewrite <- state_iff; congruence).
      destruct (Inv X) as [[Y _]|[(Y & Z & _)|[(Y & Z & _)|(Y & Z & _)]]]; apply NS; auto using ptr_not_vl.
      intros _. right. right. unfold unconstrained in *. tauto. }
  apply state_iff in St.
  destruct (open_atom a) eqn:Oa.
  { apply ok_inj in H. subst b. apply open_iff in Oa. split; [|reflexivity]. intros _. eapply agree_open; eauto. }
  assert (Na : ~ unconstrained a) by (rewrite <- open_iff; congruence).
  assert (OpenC : forall b', Ok (open_atom c) = Ok b' -> (getDescriptor a = I_PTR /\ getDescriptor c <> I_PTR \/ getDescriptor a = R_PTR /\ getDescriptor c <> R_PTR) ->
             (b' = true <-> agree_member E same l i r j)).
  { intros b' X Y. apply ok_inj in X. subst b'. split.
    - intros X. apply open_iff in X. eapply agree_open; eauto.
    - intros X. apply open_iff. destruct (Inv X) as [[_ Z]|[(Z1 & Z2 & _)|[(Z1 & Z2 & _)|(_ & _ & Z1 & Z2 & _)]]].
      + tauto.
      + exfalso. destruct Y as [[Y1 Y2]|[Y1 Y2]]; [contradiction|]. rewrite Z1 in Y1. revert Y1. vm_compute. discriminate.
      + exfalso. destruct Y as [[Y1 Y2]|[Y1 Y2]]; [|contradiction]. rewrite Z1 in Y1. revert Y1. vm_compute. discriminate.
      + tauto. }
  destruct (Z.eqb_spec (getDescriptor a) I_PTR) as [Ia|Ia].
  { destruct (Z.eqb_spec (getDescriptor c) I_PTR) as [Ic|Ic]; [|apply OpenC; auto].
    rewrite (structure_decides _ _ _ _ _ H). split.
    - intros X. eapply agree_inner; eauto.
    - intros X. destruct (Inv X) as [[_ Z]|[(Z1 & Z2 & Z3)|[(Z1 & Z2 & _)|(_ & _ & Z1 & Z2 & _)]]].
      + exfalso. destruct Z as [Z|Z]; destruct (open_not_ptr _ Z); contradiction.
      + exact Z3.
      + exfalso. rewrite Z1 in Ia. revert Ia. vm_compute. discriminate.
      + contradiction. }
  destruct (Z.eqb_spec (getDescriptor a) R_PTR) as [Ra|Ra].
  { destruct (Z.eqb_spec (getDescriptor c) R_PTR) as [Rc|Rc]; [|apply OpenC; auto].
    peel H x X. peel H y Y. apply ref_ok in X, Y. rewrite (object_decides _ _ _ H). split.
    - intros Q. eapply agree_ref; eauto.
    - intros Q. destruct (Inv Q) as [[_ Z]|[(Z1 & Z2 & Z3)|[(Z1 & Z2 & x' & y' & X' & Y' & Z3)|(_ & _ & Z1 & Z2 & _)]]].
      + exfalso. destruct Z as [Z|Z]; destruct (open_not_ptr _ Z); contradiction.
      + contradiction.
      + congruence.
      + contradiction. }
  destruct (open_atom c) eqn:Oc.
  { apply ok_inj in H. subst b. apply open_iff in Oc. split; [|reflexivity]. intros _. eapply agree_open; eauto. }
  assert (Nc : ~ unconstrained c) by (rewrite <- open_iff; congruence).
  apply ok_inj in H. subst b. rewrite match_atom_iff. split.
  - intros X. eapply agree_atom; eauto.
  - intros X. destruct (Inv X) as [[_ Z]|[(Z1 & Z2 & Z3)|[(Z1 & Z2 & Z3)|(_ & _ & Z1 & Z2 & Z3)]]]; try contradiction; [tauto|exact Z3].
Qed.
End Steps.

Lemma match_decides same fuel : decides same (Match E fuel same).
Proof.
  induction fuel as [|f IH]; intros l lb li r ri ar b H; cbn [Match] in H; [discriminate|].
  peel H x X. pose proof (member_decides same _ IH _ _ _ _ _ X) as M. destruct x.
  - destruct (Nat.eqb_spec li ar) as [->|N].
    + inv H. split; [|reflexivity]. intros _. split; [lia|]. intros k K. replace k with ar by lia.
      replace (ri + (ar - ar)) with ri by lia. apply M. reflexivity.
    + rewrite (IH _ _ _ _ _ _ _ H). split.
      * intros [L K]. split; [lia|]. intros k Hk. destruct (Nat.eq_dec k li) as [->|Nk].
        { replace (ri + (li - li)) with ri by lia. apply M. reflexivity. }
        specialize (K k ltac:(lia)). replace (ri + 1 + (k - (li + 1))) with (ri + (k - li)) in K by lia. exact K.
      * intros [L K]. split; [lia|]. intros k Hk. specialize (K k ltac:(lia)).
        replace (ri + 1 + (k - (li + 1))) with (ri + (k - li)) by lia. exact K.
  - inv H. split; [discriminate|]. intros [L K]. specialize (K li ltac:(lia)).
    replace (ri + (li - li)) with ri in K by lia. apply M in K. exact K.
Qed.

Lemma match_object_decides same fuel x y b : MatchObject E (Match E fuel same) x y = Ok b -> (b = true <-> agree_object E same x y).
Proof. apply object_decides. apply match_decides. Qed.
Lemma match_structure_decides same fuel l i r j b : MatchStructure E (Match E fuel same) l i 0 r j = Ok b ->
  (b = true <-> agree_structure E same l i r j).
Proof. apply structure_decides. apply match_decides. Qed.

(** ** Counter-evidence *)
Context (F : fact_ops) (components : nat -> list nat).

Lemma counter_value_iff fuel l r a b c : nth_error (code_of l) MK_VAL_VALUE = Some a -> nth_error (code_of r) MK_VAL_VALUE = Some b ->
  counter_value E fuel l r = Ok c -> (c = true <-> values_differ E l r a b).
Proof.
  intros A B H. unfold counter_value in H. peel H a' A'. peel H b' B'. apply word_ok in A', B'.
  rewrite A in A'. rewrite B in B'. injection A' as <-. injection B' as <-. cbn zeta in H. unfold values_differ.
  pose proof (match_atom_iff a b) as M.
  destruct (isFloat a) eqn:Fa.
  { apply ok_inj in H. subst c. destruct (isFloat b) eqn:Fb.
    - rewrite negb_true_iff, <- not_true_iff_false, M. split; [intros X; left; auto|]. intros [X|X]; [tauto|]. destruct X; discriminate.
    - split; [discriminate|]. intros [X|X]; destruct X as (X & Y & _); discriminate. }
  destruct (isFloat b) eqn:Fb.
  { apply ok_inj in H. subst c. split; [discriminate|]. intros [X|X]; destruct X as (X & Y & _); discriminate. }
  assert (MA : MatchAtom E a b = true <-> a = b).
  { unfold MatchAtom. rewrite Fa. cbn [andb]. destruct (Z.eqb_spec a b); split; auto; discriminate. }
  (* the float case is out *)
  assert (NF : forall Q, ((false = true /\ false = true /\ ~ atoms_equal E a b) \/ (false = false /\ false = false /\ Q)) <-> Q).
  { intros Q. split; [intros [X|X]; [destruct X; discriminate|tauto]|intros X; right; auto]. }
  rewrite NF. clear NF M.
  assert (K : NIL <> R_PTR) by (vm_compute; discriminate).
  destruct ((getDescriptor a =? NIL)%Z && (getDescriptor b =? R_PTR)%Z || (getDescriptor a =? R_PTR)%Z && (getDescriptor b =? NIL)%Z) eqn:N.
  { apply ok_inj in H. subst c. split; [intros _|reflexivity]. apply orb_prop in N. destruct N as [N|N]; apply andb_prop in N; destruct N as [N1 N2];
      apply Z.eqb_eq in N1, N2; auto. }
  assert (N' : ~ (getDescriptor a = NIL /\ getDescriptor b = R_PTR) /\ ~ (getDescriptor a = R_PTR /\ getDescriptor b = NIL)).
  { apply orb_false_elim in N. destruct N as [N1 N2]. split; intros [X Y]; rewrite X, Y in N1, N2; rewrite !Z.eqb_refl in *; discriminate. }
  clear N. destruct (Z.eqb_spec (getDescriptor a) (getDescriptor b)) as [D|D]; cbn [negb] in H.
  2:{ apply ok_inj in H. subst c. split; [discriminate|]. tauto. }
  destruct (is_wild a) eqn:W.
  { apply ok_inj in H. subst c. apply is_wild_iff in W. split; [discriminate|]. tauto. }
  assert (W' : ~ wild a) by (rewrite <- is_wild_iff; congruence).
  assert (K2 : I_PTR <> R_PTR) by (vm_compute; discriminate).
  destruct (Z.eqb_spec (getDescriptor a) R_PTR) as [Ra|Ra].
  { peel H x X. peel H y Y. peel H m Hm. apply ok_inj in H. subst c. apply ref_ok in X, Y. apply match_object_decides in Hm.
    rewrite negb_true_iff, <- not_true_iff_false, Hm. split.
    - intros Q. right. right. split; [exact D|]. split; [exact W'|]. left. split; [exact Ra|]. exists x, y. auto.
    - intros [Q|[Q|(_ & _ & [(_ & x' & y' & X' & Y' & Q)|[[Q _]|[Q _]]])]]; [tauto|rewrite Ra in *; tauto| |congruence|congruence].
      rewrite X in X'. rewrite Y in Y'. injection X' as <-. injection Y' as <-. exact Q. }
  destruct (Z.eqb_spec (getDescriptor a) I_PTR) as [Ia|Ia].
  { peel H m Hm. apply ok_inj in H. subst c. apply match_structure_decides in Hm.
    rewrite negb_true_iff, <- not_true_iff_false, Hm. split.
    - intros Q. right. right. split; [exact D|]. split; [exact W'|]. right. left. auto.
    - intros [Q|[Q|(_ & _ & [(Q & _)|[[_ Q]|(_ & Q & _)]])]]; [tauto|tauto|congruence|exact Q|congruence]. }
  apply ok_inj in H. subst c. rewrite negb_true_iff, <- not_true_iff_false, MA. split.
  - intros Q. right. right. split; [exact D|]. split; [exact W'|]. right. right. auto.
  - intros [Q|[Q|(_ & _ & [(Q & _)|[[Q _]|(_ & _ & Q)]])]]; try tauto.
Qed.

Lemma designates_iff o i x : (exists a, nth_error (code_of o) i = Some a /\ nth_error (refs_of o) (index a) = Some x) <-> designates o i x.
Proof. reflexivity. Qed.
Lemma designates_fun o i x y : designates o i x -> designates o i y -> x = y.
Proof. intros (a & A & X) (b & B & Y). congruence. Qed.

Lemma same_attribute_iff l r b : same_attribute l r = Ok b ->
  (b = true <-> exists o at_, designates l MK_VAL_OBJ o /\ designates r MK_VAL_OBJ o /\ designates l MK_VAL_ATTR at_ /\ designates r MK_VAL_ATTR at_).
Proof.
  unfold same_attribute. intros H. peel H a A. peel H c C. peel H x X. peel H y Y. apply word_ok in A, C. apply ref_ok in X, Y.
  assert (D1 : designates l MK_VAL_OBJ x) by (exists a; auto). assert (D2 : designates r MK_VAL_OBJ y) by (exists c; auto).
  destruct (Nat.eqb_spec x y) as [->|N].
  - peel H a' A'. peel H c' C'. peel H x' X'. peel H y' Y'. apply word_ok in A', C'. apply ref_ok in X', Y'. apply ok_inj in H. subst b.
    assert (D3 : designates l MK_VAL_ATTR x') by (exists a'; auto). assert (D4 : designates r MK_VAL_ATTR y') by (exists c'; auto).
    rewrite Nat.eqb_eq. split; [intros <-; exists y, x'; auto|]. intros (o & t & _ & _ & Q1 & Q2).
    rewrite (designates_fun _ _ _ _ D3 Q1), (designates_fun _ _ _ _ D4 Q2). reflexivity.
  - apply ok_inj in H. subst b. split; [discriminate|]. intros (o & t & Q1 & Q2 & _). exfalso. apply N.
    rewrite (designates_fun _ _ _ _ D1 Q1), (designates_fun _ _ _ _ D2 Q2). reflexivity.
Qed.

Context (DO : distinct_ops E F) (CF : components_are_facts E F components).

Lemma not_contradicts_op x y l h : heap E x = Some l -> nth_error (code_of l) 0 = Some h -> asOpcode h <> op_mkval F -> ~ contradicts E F x y.
Proof. intros L A N (l' & r' & h' & o & t & a & b & X & _ & Y & _ & Z & _). congruence. Qed.

Lemma counter_fact fuel x y : forall l h b, heap E x = Some l -> nth_error (code_of l) 0 = Some h ->
  asOpcode h = op_fact F \/ asOpcode h = op_antifact F -> CounterEvidence E F components fuel x y = Ok b -> b = false.
Proof.
  destruct fuel as [|f]; intros l h b L A P H; cbn [CounterEvidence] in H; [discriminate|].
  peel H lo Lo. peel H ro Ro. peel H a A'. peel H c C. apply deref_ok in Lo. apply word_ok in A'.
  rewrite L in Lo. injection Lo as <-. rewrite A in A'. injection A' as <-. cbn zeta in H.
  destruct (_ || _ || _)%Z; [apply ok_inj in H; congruence|]. destruct (negb (h =? c)%Z); [apply ok_inj in H; congruence|].
  unfold distinct_ops in DO.
  destruct (Z.eqb_spec (asOpcode h) (op_mkval F)) as [Q|Q]; [exfalso; destruct P as [P|P]; rewrite P in Q; tauto|].
  destruct (Z.eqb_spec (asOpcode h) (op_icst F)) as [Q'|Q']; [exfalso; destruct P as [P|P]; rewrite P in Q'; tauto|].
  apply ok_inj in H. congruence.
Qed.

Lemma any_counter_facts fuel : forall ls rs b,
  (forall y o h, In y ls -> heap E y = Some o -> nth_error (code_of o) 0 = Some h -> asOpcode h = op_fact F \/ asOpcode h = op_antifact F) ->
  any_counter (CounterEvidence E F components fuel) ls rs = Ok b -> b = false.
Proof.
  induction ls as [|l ls IH]; intros [|r rs] b P H; cbn [any_counter] in H; try (apply ok_inj in H; congruence); try discriminate.
  peel H c C. assert (c = false).
  { destruct fuel as [|f]; [discriminate C|]. pose proof C as C0. cbn [CounterEvidence] in C.
    peel C lo Lo. peel C ro Ro. peel C a A. apply deref_ok in Lo. apply word_ok in A.
    eapply counter_fact; [exact Lo|exact A| |exact C0]. eapply P; eauto. left. reflexivity. }
  subst c. eapply IH; [|exact H]. intros. eapply P; eauto. right. assumption.
Qed.

Lemma counter_iff fuel x y b : CounterEvidence E F components fuel x y = Ok b -> (b = true <-> contradicts E F x y).
Proof.
  destruct fuel as [|f]; intros H; cbn [CounterEvidence] in H; [discriminate|].
  peel H l L. peel H r R. peel H a A. peel H c C. apply deref_ok in L, R. apply word_ok in A, C. cbn zeta in H.
  pose proof DO as DO'. unfold distinct_ops in DO'.
  destruct ((asOpcode a =? op_ent (ops E)) || (asOpcode a =? op_ont (ops E)) || (asOpcode a =? op_imdl F))%Z eqn:O.
  { apply ok_inj in H. subst b. split; [discriminate|]. intros X. exfalso. revert X. eapply not_contradicts_op; eauto.
    intros Q. rewrite Q in O. destruct (Z.eqb_spec (op_mkval F) (op_ent (ops E))), (Z.eqb_spec (op_mkval F) (op_ont (ops E))), (Z.eqb_spec (op_mkval F) (op_imdl F)); try tauto; discriminate. }
  destruct (Z.eqb_spec a c) as [<-|N]; cbn [negb] in H.
  2:{ apply ok_inj in H. subst b. split; [discriminate|]. intros (l' & r' & h' & o & t & a' & b' & X1 & X2 & X3 & X4 & _). congruence. }
  destruct (Z.eqb_spec (asOpcode a) (op_mkval F)) as [Q|Q].
  { peel H s Hs. pose proof (same_attribute_iff _ _ _ Hs) as SA. destruct s.
    - assert (exists av bv, nth_error (code_of l) MK_VAL_VALUE = Some av /\ nth_error (code_of r) MK_VAL_VALUE = Some bv) as (av & bv & AV & BV).
      { unfold counter_value in H. peel H av AV. peel H bv BV. apply word_ok in AV, BV. eauto. }
      rewrite (counter_value_iff _ _ _ _ _ _ AV BV H). destruct (proj1 SA eq_refl) as (o & t & D1 & D2 & D3 & D4). split.
      + intros X. exists l, r, a, o, t, av, bv. tauto.
      + intros (l' & r' & h' & o' & t' & a' & b' & X1 & X2 & X3 & X4 & _ & _ & _ & _ & _ & X5 & X6 & X7). congruence.
    - apply ok_inj in H. subst b. split; [discriminate|].
      intros (l' & r' & h' & o' & t' & a' & b' & X1 & X2 & X3 & X4 & _ & Y1 & Y2 & Y3 & Y4 & _). apply SA. exists o', t'.
      rewrite L in X1. rewrite R in X2. injection X1 as <-. injection X2 as <-. auto. }
  destruct (Z.eqb_spec (asOpcode a) (op_icst F)) as [Q'|Q'].
  { assert (b = false).
    { peel H x0 X0. peel H y0 Y0. destruct (negb (x0 =? y0)); [apply ok_inj in H; congruence|].
      eapply any_counter_facts; [|exact H]. intros. eapply CF; eauto. }
    subst b. split; [discriminate|]. intros X. exfalso. revert X. eapply not_contradicts_op; eauto. }
  apply ok_inj in H. subst b. split; [discriminate|]. intros X. exfalso. revert X. eapply not_contradicts_op; eauto.
Qed.

(** ** Evidence *)
Lemma head_opcode k : (0 <= k < 4096)%Z -> asOpcode (fact_head k) = k.
Proof.
  intros H. unfold fact_head, AObject. rewrite op_arith, land_4095, shl8. unfold OBJECT. rewrite shl24. unfold u32.
  rewrite (Z.mod_small k) by lia. rewrite (Z.mod_small (_ + _)) by lia. lia.
Qed.


Lemma overlap_iff a b a' b' : timings_overlap a b a' b' = true <-> (a' < b /\ a < b')%Z.
Proof. unfold timings_overlap. rewrite negb_true_iff, orb_false_iff, !Z.leb_gt. lia. Qed.
Lemma inclusive_iff a b a' b' : timings_inclusive a b a' b' = true <-> (a' <= a /\ b <= b')%Z.
Proof. unfold timings_inclusive. rewrite andb_true_iff, !Z.leb_le. lia. Qed.

Lemma heads_eq (p q : bool) : (fact_head (if p then op_fact F else op_antifact F) =? fact_head (if q then op_fact F else op_antifact F))%Z = Bool.eqb p q.
Proof.
  unfold distinct_ops in DO. destruct p, q; cbn [Bool.eqb]; try apply Z.eqb_refl; apply Z.eqb_neq; intros H;
    apply (f_equal asOpcode) in H; rewrite !head_opcode in H by tauto; [|symmetry in H]; tauto.
Qed.
Lemma is_fact_head o (p : bool) : nth_error (code_of o) 0 = Some (fact_head (if p then op_fact F else op_antifact F)) -> is_fact F o = Ok p.
Proof.
  intros H. unfold distinct_ops in DO. unfold is_fact, word. rewrite H. cbn [from_opt obind].
  destruct p; rewrite head_opcode by tauto; f_equal; [apply Z.eqb_refl|apply Z.eqb_neq]. intros X. symmetry in X. tauto.
Qed.
Lemma is_anti_head o (p : bool) : nth_error (code_of o) 0 = Some (fact_head (if p then op_fact F else op_antifact F)) -> is_anti_fact F o = Ok (negb p).
Proof.
  intros H. unfold distinct_ops in DO. unfold is_anti_fact, word. rewrite H. cbn [from_opt obind].
  destruct p; rewrite head_opcode by tauto; f_equal; [apply Z.eqb_neq; tauto|apply Z.eqb_refl].
Qed.

(** What the two tests compute on facts. *)
Lemma evidence_eq fuel f t fo to fp tp x y fa fb ta tb : fact_of E F f fo fp x fa fb -> fact_of E F t to tp y ta tb ->
  is_evidence E F components fuel f t =
  obind (MatchObject E (Match E fuel false) x y) (fun m : bool =>
  if m then Ok (if timings_overlap ta tb fa fb then if Bool.eqb tp fp then Positive else Negative else Failure)
  else if fp then if timings_inclusive ta tb fa fb then
    obind (CounterEvidence E F components fuel x y) (fun ce : bool => Ok (if ce then if tp then Negative else Positive else Failure))
    else Ok Failure else Ok Failure).
Proof.
  intros (F1 & F2 & F3 & F4 & F5) (T1 & T2 & T3 & T4 & T5). unfold is_evidence.
  unfold deref, ref. rewrite F1, T1. cbn [from_opt obind]. rewrite F3, T3. cbn [from_opt obind].
  destruct (MatchObject E (Match E fuel false) x y) as [m| |]; [|reflexivity|reflexivity]. cbn [obind]. destruct m.
  - unfold polarity, word. rewrite T2, F2. cbn [from_opt obind]. rewrite heads_eq.
    unfold match_timings_overlap, with_times. rewrite T4, T5, F4, F5. cbn [obind]. destruct (timings_overlap ta tb fa fb); reflexivity.
  - rewrite (is_fact_head _ _ F2). cbn [obind]. destruct fp; [|reflexivity].
    unfold match_timings_inclusive, with_times. rewrite T4, T5, F4, F5. cbn [obind]. destruct (timings_inclusive ta tb fa fb); [|reflexivity].
    destruct (CounterEvidence E F components fuel x y) as [ce| |]; [|reflexivity|reflexivity]. cbn [obind].
    destruct ce; [|reflexivity]. rewrite (is_anti_head _ _ T2). cbn [obind]. destruct tp; reflexivity.
Qed.
Lemma timeless_eq fuel f t fo to fp tp x y fa fb ta tb : fact_of E F f fo fp x fa fb -> fact_of E F t to tp y ta tb ->
  is_timeless_evidence E F components fuel f t =
  obind (MatchObject E (Match E fuel false) x y) (fun m : bool =>
  if m then Ok (if Bool.eqb tp fp then Positive else Negative)
  else if Bool.eqb tp fp then
    obind (CounterEvidence E F components fuel x y) (fun ce : bool => Ok (if ce then if tp then Negative else Positive else Failure))
    else Ok Failure).
Proof.
  intros (F1 & F2 & F3 & F4 & F5) (T1 & T2 & T3 & T4 & T5). unfold is_timeless_evidence.
  unfold deref, ref. rewrite F1, T1. cbn [from_opt obind]. rewrite F3, T3. cbn [from_opt obind].
  destruct (MatchObject E (Match E fuel false) x y) as [m| |]; [|reflexivity|reflexivity]. cbn [obind]. destruct m.
  - unfold polarity, word. rewrite T2, F2. cbn [from_opt obind]. rewrite heads_eq. reflexivity.
  - unfold word. rewrite T2, F2. cbn [from_opt obind]. rewrite heads_eq. destruct (Bool.eqb tp fp); [|reflexivity].
    destruct (CounterEvidence E F components fuel x y) as [ce| |]; [|reflexivity|reflexivity]. cbn [obind].
    destruct ce; [|reflexivity]. rewrite (is_anti_head _ _ T2). cbn [obind]. destruct tp; reflexivity.
Qed.

Lemma evidence_polarity fuel f t fo to fp tp x y fa fb ta tb r :
  fact_of E F f fo fp x fa fb -> fact_of E F t to tp y ta tb -> is_evidence E F components fuel f t = Ok r ->
  (r = Positive <->
    (agree_object E false x y /\ (fa < tb /\ ta < fb)%Z /\ fp = tp) \/
    (~ agree_object E false x y /\ (fa <= ta /\ tb <= fb)%Z /\ fp = true /\ tp = false /\ contradicts E F x y)) /\
  (r = Negative <->
    (agree_object E false x y /\ (fa < tb /\ ta < fb)%Z /\ fp <> tp) \/
    (~ agree_object E false x y /\ (fa <= ta /\ tb <= fb)%Z /\ fp = true /\ tp = true /\ contradicts E F x y)).
Proof.
  intros Hf Ht H. rewrite (evidence_eq _ _ _ _ _ _ _ _ _ _ _ _ _ Hf Ht) in H. clear Hf Ht.
  peel H m M. apply match_object_decides in M. destruct m.
  - pose proof (proj1 M eq_refl) as A. pose proof (overlap_iff ta tb fa fb) as O.
    destruct (timings_overlap ta tb fa fb); apply ok_inj in H; subst r.
    + pose proof (proj1 O eq_refl). destruct tp, fp; cbn [Bool.eqb]; (split; split; intros Q; try discriminate; try reflexivity); try (left; repeat split; auto; lia);
        exfalso; destruct Q as [(_ & _ & Q)|(Q & _)]; congruence.
    + assert (~ (fa < tb /\ ta < fb)%Z) by (rewrite <- O; discriminate).
      split; split; intros Q; try discriminate; exfalso; destruct Q as [Q|Q]; tauto.
  - assert (A : ~ agree_object E false x y) by (rewrite <- M; discriminate).
    destruct fp.
    2:{ apply ok_inj in H. subst r. split; split; intros Q; try discriminate; exfalso; destruct Q as [Q|(_ & _ & Q & _)]; [tauto|discriminate|tauto|discriminate]. }
    pose proof (inclusive_iff ta tb fa fb) as O. destruct (timings_inclusive ta tb fa fb).
    2:{ apply ok_inj in H. subst r. assert (~ (fa <= ta /\ tb <= fb)%Z) by (rewrite <- O; discriminate).
        split; split; intros Q; try discriminate; exfalso; tauto. }
    pose proof (proj1 O eq_refl) as I. peel H ce C. apply counter_iff in C. apply ok_inj in H. subst r. destruct ce.
    + pose proof (proj1 C eq_refl). destruct tp; split; split; intros Q; try discriminate; try reflexivity;
        try (right; repeat split; auto; lia); exfalso; destruct Q as [Q|(_ & _ & _ & Q & _)]; try tauto; discriminate.
    + assert (~ contradicts E F x y) by (rewrite <- C; discriminate). split; split; intros Q; try discriminate; exfalso; tauto.
Qed.

Lemma evidence_swap fuel f t t' fo to to' fp tp x y fa fb ta tb r :
  fact_of E F f fo fp x fa fb -> fact_of E F t to tp y ta tb -> fact_of E F t' to' (negb tp) y ta tb ->
  is_evidence E F components fuel f t = Ok r -> is_evidence E F components fuel f t' = Ok (opposite r).
Proof.
  intros Hf Ht Ht' H. rewrite (evidence_eq _ _ _ _ _ _ _ _ _ _ _ _ _ Hf Ht) in H.
  rewrite (evidence_eq _ _ _ _ _ _ _ _ _ _ _ _ _ Hf Ht').
  peel H m M. cbn [obind]. destruct m.
  - apply ok_inj in H. subst r. destruct (timings_overlap ta tb fa fb), fp, tp; reflexivity.
  - destruct fp; [|apply ok_inj in H; subst r; reflexivity].
    destruct (timings_inclusive ta tb fa fb); [|apply ok_inj in H; subst r; reflexivity].
    peel H ce C. cbn [obind]. apply ok_inj in H. subst r. destruct ce, tp; reflexivity.
Qed.

Lemma timeless_polarity fuel f t fo to fp tp x y fa fb ta tb r :
  fact_of E F f fo fp x fa fb -> fact_of E F t to tp y ta tb -> is_timeless_evidence E F components fuel f t = Ok r ->
  (agree_object E false x y -> r = if Bool.eqb tp fp then Positive else Negative) /\
  (~ agree_object E false x y -> r <> Failure -> tp = fp /\ contradicts E F x y).
Proof.
  intros Hf Ht H. rewrite (timeless_eq _ _ _ _ _ _ _ _ _ _ _ _ _ Hf Ht) in H.
  peel H m M. apply match_object_decides in M. destruct m.
  - apply ok_inj in H. subst r. split; [reflexivity|]. intros N. destruct (N (proj1 M eq_refl)).
  - split; [intros A; apply M in A; discriminate|]. intros _ N.
    destruct (Bool.eqb tp fp) eqn:B; [|apply ok_inj in H; congruence]. apply eqb_prop in B. split; [exact B|].
    peel H ce C. apply counter_iff in C. apply ok_inj in H. subst r. destruct ce; [|congruence]. apply C. reflexivity.
Qed.
End Facts.

(** ** Times (C18) *)
Lemma overlap_sym a b a' b' : timings_overlap a b a' b' = timings_overlap a' b' a b.
Proof. unfold timings_overlap. f_equal. apply orb_comm. Qed.
Lemma overlap_intersect a b a' b' : (a < b)%Z -> (a' < b')%Z ->
  (timings_overlap a b a' b' = true <-> exists t, (a <= t < b /\ a' <= t < b')%Z).
Proof.
  intros H H'. rewrite overlap_iff. split.
  - intros X. exists (Z.max a a'). lia.
  - intros (t & T). lia.
Qed.
Lemma overlap_empty : exists a b a' b', timings_overlap a b a' b' = true /\ ~ exists t, (a <= t < b /\ a' <= t < b')%Z.
Proof. exists 0%Z, 10%Z, 5%Z, 5%Z. split; [reflexivity|]. intros (t & T). lia. Qed.
Lemma inclusive_subset a b a' b' : (a < b)%Z ->
  (timings_inclusive a b a' b' = true <-> forall t, (a <= t < b -> a' <= t < b')%Z).
Proof.
  intros H. rewrite inclusive_iff. split.
  - intros X t T. lia.
  - intros X. pose proof (X a). pose proof (X (b - 1)%Z). lia.
Qed.
Lemma inclusive_order :
  (forall a b, timings_inclusive a b a b = true) /\
  (forall a b a' b', timings_inclusive a b a' b' = true -> timings_inclusive a' b' a b = true -> a = a' /\ b = b') /\
  (forall a b a' b' a'' b'', timings_inclusive a b a' b' = true -> timings_inclusive a' b' a'' b'' = true ->
     timings_inclusive a b a'' b'' = true) /\
  (forall a b a' b', (a < b)%Z -> timings_inclusive a b a' b' = true -> timings_overlap a b a' b' = true).
Proof.
  split; [|split; [|split]]; intros; rewrite ?inclusive_iff in *; rewrite ?overlap_iff; lia.
Qed.
Lemma sync_equal E a b : (0 <= ttol E)%Z -> (a < b)%Z -> timings_sync E a a b = true.
Proof. intros T H. unfold timings_sync. rewrite negb_true_iff, orb_false_iff, Z.ltb_ge, Z.leb_gt. lia. Qed.
Lemma sync_instant : exists E a, (0 <= ttol E)%Z /\ timings_sync E a a a = false.
Proof. exists ex_env, 5%Z. split; [vm_compute; discriminate|reflexivity]. Qed.

(** ** Durations, strings, times (C17) *)
Lemma low_word d : (0 <= d < 2 ^ 31)%Z -> (getDescriptor d < 128)%Z.
Proof. intros H. rewrite desc_arith. change (2 ^ 31)%Z with 2147483648%Z in H. lia. Qed.
Lemma low_not_open d : (0 <= d < 2 ^ 31)%Z -> open_atom d = false /\ is_wild d = false /\ (getDescriptor d =? VL_PTR)%Z = false /\
  (getDescriptor d =? I_PTR)%Z = false /\ (getDescriptor d =? R_PTR)%Z = false.
Proof.
  intros H. pose proof (low_word d H) as L. unfold open_atom, is_wild.
  assert (X : forall k, (128 <= k)%Z -> (getDescriptor d =? k)%Z = false) by (intros k K; apply Z.eqb_neq; lia).
  rewrite !X by (vm_compute; discriminate). repeat split.
Qed.
Lemma match_low E fuel same l li r ri lb a b : (0 <= a < 2 ^ 31)%Z -> (0 <= b < 2 ^ 31)%Z ->
  nth_error (code_of l) (lb + li) = Some a -> nth_error (code_of r) ri = Some b ->
  MatchMember E (Match E fuel same) same l (lb + li) r ri = Ok (MatchAtom E a b).
Proof.
  intros Ha Hb A B. unfold MatchMember, word. rewrite A, B. cbn [from_opt obind].
  destruct (low_not_open a Ha) as (A1 & A2 & A3 & A4 & A5). destruct (low_not_open b Hb) as (B1 & B2 & B3 & B4 & B5).
  unfold state_ok. rewrite A1, A2, A3, A4, A5, B1, B2, B3. destruct same; reflexivity.
Qed.

Lemma Match_S E f same l lb li r ri ar : Match E (S f) same l lb li r ri ar =
  (do x <- MatchMember E (Match E f same) same l (lb + li) r ri;
   if x then if (li =? ar)%nat then Ok true else Match E f same l lb (li + 1) r (ri + 1) ar else Ok false).
Proof. reflexivity. Qed.
Lemma short_durations E f same l i r j d d' : short_duration_at l i d -> short_duration_at r j d' ->
  MatchStructure E (Match E (S (S f)) same) l i 0 r j = Ok (MatchAtom E d d').
Proof.
  intros (D & L0 & L1 & L2) (D' & R0 & R1 & R2). unfold MatchStructure. rewrite Nat.add_0_r. unfold word. rewrite L0, R0.
  cbn [from_opt obind]. rewrite Z.eqb_refl. change (arity ADuration =? 0) with false. change (getDescriptor ADuration =? TIMESTAMP)%Z with false.
  change (arity ADuration) with 2. cbn [negb]. change (0 + 1) with 1. rewrite Match_S.
  rewrite (match_low E (S f) same l 1 r (j + 1) i 0 0); [|lia|lia|exact L1|exact R1].
  cbn [obind]. change (MatchAtom E 0 0) with true. cbn iota. change (1 =? 2) with false. cbn iota. rewrite Match_S. change (1 + 1) with 2.
  rewrite (match_low E f same l 2 r (j + 1 + 1) i d d'); [|lia|lia|exact L2|replace (j + 1 + 1) with (j + 2) by lia; exact R2].
  cbn [obind]. destruct (MatchAtom E d d'); reflexivity.
Qed.
Lemma short_durations_agree E f same l i r j d d' : short_duration_at l i d -> short_duration_at r j d' ->
  exists b, MatchStructure E (Match E (S (S f)) same) l i 0 r j = Ok b /\
  (b = true <-> d = d' \/ (isFloat d = true /\ isFloat d' = true /\ close E (f32_of_bits (asFloat d)) (f32_of_bits (asFloat d')))).
Proof. intros A B. eexists. split; [apply short_durations; eassumption|]. apply match_atom_iff. Qed.

Definition tol_env := mkenv (fun _ => None) (mkops 1 2 3 4 5) (f32_of_bits 0x3727C5AC) 10000%Z. (* 1e-5, 10 ms *)
Lemma durations_confused : exists E l r d d',
  short_duration_at l 0 d /\ short_duration_at r 0 d' /\ (ttol E < Z.abs (d - d'))%Z /\
  MatchStructure E (Match E 10 false) l 0 0 r 0 = Ok true.
Proof.
  exists tol_env, (mkcobj [ADuration; 0; 1000000]%Z []), (mkcobj [ADuration; 0; 60000000]%Z []), 1000000%Z, 60000000%Z.
  split; [split; [lia|repeat split]|]. split; [split; [lia|repeat split]|]. split; [vm_compute; reflexivity|vm_compute; reflexivity].
Qed.
Lemma strings_confused : exists E s s' c c',
  s <> s' /\ SetString [IPointer 1] 0 s = Some c /\ SetString [IPointer 1] 0 s' = Some c' /\
  MatchStructure E (Match E 10 false) (mkcobj c []) 1 0 (mkcobj c' []) 1 = Ok true.
Proof.
  exists tol_env, [97%Z], [98%Z]. do 2 eexists. split; [discriminate|]. split; [vm_compute; reflexivity|]. split; [vm_compute; reflexivity|].
  vm_compute. reflexivity.
Qed.
Lemma timestamps_match E fuel same l i r j t t' b :
  nth_error (code_of l) i = Some ATimestamp -> nth_error (code_of r) j = Some ATimestamp ->
  GetInt64 (code_of l) (i + 1) = Some t -> GetInt64 (code_of r) (j + 1) = Some t' ->
  MatchStructure E (Match E fuel same) l i 0 r j = Ok b -> (b = true <-> (Z.abs (t - t') < ttol E)%Z).
Proof.
  intros L R T T' H. rewrite (match_structure_decides _ _ _ _ _ _ _ _ H). split.
  - intros X. inv X; [congruence|]. rewrite L in H0. injection H0 as <-. exfalso. apply H2. reflexivity.
  - intros X. eapply agree_time; eauto.
Qed.
Lemma heads_differ E fuel same l i r j a b x : nth_error (code_of l) i = Some a -> nth_error (code_of r) j = Some b -> a <> b ->
  MatchStructure E (Match E fuel same) l i 0 r j = Ok x -> x = false.
Proof.
  intros A B N H. unfold MatchStructure, word in H. rewrite Nat.add_0_r, A, B in H. cbn [from_opt obind] in H.
  apply Z.eqb_neq in N. rewrite N in H. cbn [negb] in H. congruence.
Qed.
Lemma string_heads n m : (0 <= n < 256)%Z -> (0 <= m < 256)%Z -> AString n = AString m -> n = m.
Proof.
  intros Hn Hm H. assert (I : forall k, (0 <= k < 256)%Z -> fits (VString k)) by (intros k K; exact K).
  assert (X : VString n = VString m) by (apply build_inj; [apply I; exact Hn|apply I; exact Hm|exact H]). congruence.
Qed.

(** ** Construction (C47) *)
Section Construct.
Context (E : env) (F : fact_ops) (DO : distinct_ops E F).

Lemma new_fact_ok (pos : bool) object after before cfd psln : is_i64 after -> is_i64 before ->
  exists o, new_fact (if pos then op_fact F else op_antifact F) object after before cfd psln = Ok o /\ reads F o pos object after before /\
    nth_error (code_of o) 4 = Some cfd /\ nth_error (code_of o) 5 = Some psln.
Proof.
  intros Ha Hb. unfold new_fact.
  set (h := fact_head (if pos then op_fact F else op_antifact F)).
  set (c := put _ FACT_ARITY psln).
  assert (C : c = [h; RPointer 0; IPointer 6; IPointer 9; cfd; psln]) by reflexivity.
  assert (P1 : other_index c FACT_AFTER (IPointer 6)).
  { rewrite C. split; [reflexivity|]. split; [reflexivity|]. vm_compute. lia. }
  destruct (set_timestamp c FACT_AFTER _ after Ha P1) as (c1 & S1 & G1 & _ & F1). rewrite S1. cbn [from_opt obind].
  assert (L1 : forall j w, nth_error c j = Some w -> j < 6 -> nth_error c1 j = Some w).
  { intros j w W J. rewrite F1; [exact W| |].
    - change (Z.to_nat (asIndex (IPointer 6))) with 6. lia.
    - rewrite C. cbn [length]. lia. }
  assert (P2 : other_index c1 FACT_BEFORE (IPointer 9)).
  { split; [|split; [reflexivity|vm_compute; lia]]. apply L1; [rewrite C; reflexivity|vm_compute; lia]. }
  destruct (set_timestamp c1 FACT_BEFORE _ before Hb P2) as (c2 & S2 & G2 & _ & F2). rewrite S2. cbn [from_opt obind].
  assert (L2 : forall j w, nth_error c1 j = Some w -> j < 9 -> nth_error c2 j = Some w).
  { intros j w W J. rewrite F2; [exact W| |].
    - change (Z.to_nat (asIndex (IPointer 9))) with 9. lia.
    - apply nth_error_Some. congruence. }
  exists (mkcobj c2 [object]). split; [reflexivity|]. unfold reads, get_after, get_before. cbn [code_of refs_of].
  split; [|split; (apply L2; [apply L1; [rewrite C; reflexivity|lia]|lia])].
  split; [apply L2; [apply L1; [rewrite C; reflexivity|lia]|lia]|]. split; [reflexivity|]. rewrite G2. split; [|reflexivity].
  revert G1. unfold GetTimestamp, get, GetInt64, get.
  assert (N2 : nth_error c1 FACT_AFTER = Some (IPointer 6)) by (apply L1; [rewrite C; reflexivity|vm_compute; lia]).
  rewrite N2. rewrite (L2 _ _ N2) by (vm_compute; lia). change (Z.to_nat (asIndex (IPointer 6))) with 6.
  destruct (nth_error c1 7) as [x|] eqn:X; [|discriminate]. destruct (nth_error c1 8) as [y|] eqn:Y; [|discriminate].
  rewrite (L2 _ _ X), (L2 _ _ Y) by lia. intros ->. reflexivity.
Qed.

Lemma absentee_ok one o pos object after before : reads F o pos object after before -> is_i64 after -> is_i64 before ->
  exists o', get_absentee F one o = Ok o' /\ reads F o' (negb pos) object after before.
Proof.
  intros (H & R & A & B) Ha Hb. unfold get_absentee. rewrite (is_fact_head E F DO _ _ H). cbn [obind].
  unfold ref. rewrite R. cbn [from_opt obind]. rewrite A, B. cbn [obind].
  destruct (new_fact_ok (negb pos) object after before one one Ha Hb) as (o' & N & X & _).
  exists o'. split; [|exact X]. destruct pos; exact N.
Qed.
Lemma opposite_ok o pos object after before : reads F o pos object after before ->
  exists o', set_opposite F o = Ok o' /\ reads F o' (negb pos) object after before /\ refs_of o' = refs_of o /\
    length (code_of o') = length (code_of o) /\ forall k, k <> 0 -> nth_error (code_of o') k = nth_error (code_of o) k.
Proof.
  intros (H & R & A & B). unfold set_opposite. rewrite (is_fact_head E F DO _ _ H). cbn [obind].
  eexists. split; [reflexivity|]. cbn [code_of refs_of].
  set (h := fact_head _).
  assert (L : 0 < length (code_of o)) by (apply nth_error_Some; congruence).
  assert (Fr : forall k, k <> 0 -> nth_error (put (code_of o) 0 h) k = nth_error (code_of o) k).
  { intros k K. destruct (Nat.lt_ge_cases k (length (code_of o))).
    - apply put_other; [congruence|assumption].
    - rewrite !(proj2 (nth_error_None _ _)); [reflexivity|assumption|]. rewrite put_length. lia. }
  split; [|split; [reflexivity|split; [rewrite put_length; lia|exact Fr]]].
  unfold reads, get_after, get_before in *. cbn [code_of refs_of]. split; [rewrite put_same; unfold h; destruct pos; reflexivity|].
  split; [exact R|].
  assert (T : forall i t, i <> 0 -> GetTimestamp (code_of o) i = Some t -> GetTimestamp (put (code_of o) 0 h) i = Some t).
  { intros i t I. unfold GetTimestamp, GetInt64, get. rewrite Fr by exact I. destruct (nth_error (code_of o) i); [|discriminate].
    rewrite !Fr by discriminate. auto. }
  apply from_opt_ok in A, B. rewrite (T FACT_AFTER _ ltac:(discriminate) A), (T FACT_BEFORE _ ltac:(discriminate) B). auto.
Qed.
End Construct.

(** ** A small world: an entity 0, an attribute 1, two values 2 and 3 of it,
    facts 4 and 5 about them, an anti-fact 6 about the first, 7 about the second. *)
Definition ex_fops := mkfops 20 21 22 23 24.
Definition fl_1 := Float 0x3F800000.
Definition fl_2 := Float 0x40000000.
Definition ex_mkval v := mkcobj [AObject 24 4; RPointer 0; RPointer 1; v; fl_1]%Z [0; 1].
Definition ex_fact op x a b := match new_fact op x a b fl_1 fl_1 with Ok o => Some o | _ => None end.
Definition ex_facts_heap (n : nat) : option cobj :=
  match n with
  | 0 => Some (mkcobj [AObject 1 1; fl_1]%Z [])
  | 1 => Some (mkcobj [AObject 2 1; fl_1]%Z [])
  | 2 => Some (ex_mkval fl_1)
  | 3 => Some (ex_mkval fl_2)
  | 4 => ex_fact 20 2 0 100
  | 5 => ex_fact 20 3 0 100
  | 6 => ex_fact 21 2 0 100
  | 7 => ex_fact 21 3 0 100
  | _ => None
  end.
Definition ex_facts := mkenv ex_facts_heap (mkops 1 2 3 4 5) (f32_of_bits 0x3727C5AC) 10000%Z.
Definition no_components (_ : nat) : list nat := [].
Lemma ex_distinct : distinct_ops ex_facts ex_fops.
Proof. repeat split; try discriminate; reflexivity. Qed.
Lemma ex_components : components_are_facts ex_facts ex_fops no_components.
Proof. intros x y o h []. Qed.
Lemma ex_fact_of f o (pos : bool) x a b : heap ex_facts f = Some o -> nth_error (code_of o) 0 = Some (fact_head (if pos then 20 else 21)%Z) ->
  nth_error (refs_of o) 0 = Some x -> get_after o = Ok a -> get_before o = Ok b -> fact_of ex_facts ex_fops f o pos x a b.
Proof. intros H C R A B. unfold fact_of. destruct pos; auto. Qed.

(** Fact 5 gives the attribute another value than anti-fact 6 denies: is_evidence
    says Positive; is_timeless_evidence does not look because the heads differ. *)
Lemma timeless_no_swap : exists E F comps f t t' fo to to' x y,
  distinct_ops E F /\ components_are_facts E F comps /\
  fact_of E F f fo true x 0 100 /\ fact_of E F t to true y 0 100 /\ fact_of E F t' to' false y 0 100 /\
  is_timeless_evidence E F comps 20 f t = Ok Negative /\ is_timeless_evidence E F comps 20 f t' = Ok Failure.
Proof.
  exists ex_facts, ex_fops, no_components, 5, 4, 6. do 3 eexists. exists 3, 2.
  split; [exact ex_distinct|]. split; [exact ex_components|].
  split; [apply ex_fact_of; reflexivity|]. split; [apply ex_fact_of; reflexivity|]. split; [apply ex_fact_of; reflexivity|].
  split; vm_compute; reflexivity.
Qed.
(** Denying one value counts as positive evidence for denying another. *)
Lemma timeless_anti : exists E F comps f t fo to x y,
  distinct_ops E F /\ components_are_facts E F comps /\
  fact_of E F f fo false x 0 100 /\ fact_of E F t to false y 0 100 /\ contradicts E F x y /\
  is_timeless_evidence E F comps 20 f t = Ok Positive /\ is_evidence E F comps 20 f t = Ok Failure.
Proof.
  exists ex_facts, ex_fops, no_components, 7, 6. do 2 eexists. exists 3, 2.
  split; [exact ex_distinct|]. split; [exact ex_components|].
  split; [apply ex_fact_of; reflexivity|]. split; [apply ex_fact_of; reflexivity|].
  split; [|split; vm_compute; reflexivity].
  apply (counter_iff ex_facts ex_fops no_components ex_distinct ex_components 20 3 2 true); [vm_compute; reflexivity|reflexivity].
Qed.
Lemma timings_read E F f t fo to p q x y fa fb ta tb :
  fact_of E F f fo p x fa fb -> fact_of E F t to q y ta tb ->
  match_timings_overlap to fo = Ok (timings_overlap ta tb fa fb) /\
  match_timings_inclusive to fo = Ok (timings_inclusive ta tb fa fb) /\
  match_timings_sync E to fo = Ok (timings_sync E ta fa fb).
Proof.
  intros (_ & _ & _ & A & B) (_ & _ & _ & A' & B').
  unfold match_timings_overlap, match_timings_inclusive, match_timings_sync, with_times. rewrite A, B, A', B'. repeat split.
Qed.
