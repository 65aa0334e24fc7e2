From Verif Require Import Base Atom_model Atom_proofs Bp_model Bp_spec Bp_proofs Bp2_proofs Bp3_proofs Inst_model Inst_spec Inst_proofs Inst2_proofs Inst3_proofs.
Local Open Scope nat_scope.

Lemma valuate_z_more : forall fuel vs x i m e l m' e' l', valuate_z fuel vs x i (m, e, l) = Some (m', e', l') ->
  e <= e' /\ exists l2, l' = l ++ l2.
Proof. intros fuel vs x i m e l m' e' l' E. unfold valuate_z in E. destruct (x <? 0)%Z; [discriminate|]. exact (valuate_more _ _ _ _ _ _ _ _ _ _ E). Qed.

Section Meant.
Variable fuel : nat.
Variable ti fact : Z.
Variable h : hmap.
Variable s : nat -> term.
Hypothesis ME : meant fuel h s.
Hypothesis RD : ready h.

Lemma fact_built : forall hlp op wr f, build_f_ihlp fuel ti fact h hlp op wr = Some f -> size f <= limit -> length (refs f) <= limit ->
  exists i, build_ihlp fuel ti h hlp op wr = Some i /\ nth_error (refs f) 0 = Some i /\
    word f 0 = AObject fact 5 /\ word f 1 = RPointer 0 /\ word f 4 = one /\ word f 5 = one /\
    holds fuel h s anywhere (word f) (refs f) (Z.to_nat (fwd_after h)) (word f 2) /\
    holds fuel h s anywhere (word f) (refs f) (Z.to_nat (fwd_before h)) (word f 3).
Proof using ME RD.
  intros hlp op wr f E B1 B2. unfold build_f_ihlp in E.
  pose proof (small h RD) as SM.
  destruct (build_ihlp fuel ti h hlp op wr) as [i|]; [|discriminate]. exists i. split; [reflexivity|].
  change (FACT_ARITY + 1) with 6 in E.
  destruct (valuate_z fuel (vals h) (fwd_after h) FACT_AFTER (fact_words fact, 6, [i])) as [[[m1 e1] l1]|] eqn:E1; [|discriminate].
  destruct (valuate_z fuel (vals h) (fwd_before h) FACT_BEFORE (m1, e1, l1)) as [[[m2 e2] l2]|] eqn:E2; [|discriminate].
  assert (E' : f = Obj m2 (Nat.max 12 e2) l2) by congruence. clear E.
  pose proof (Nat.le_max_r 12 e2) as MX. destruct f as [fm fs fl]. injection E'. intros FL FS FM. clear E'.
  cbn [size refs word] in *. subst fm fl.
  destruct (valuate_z_more _ _ _ _ _ _ _ _ _ _ E2) as (G2 & k2 & L2).
  assert (Be2 : e2 <= limit) by (rewrite FS in B1; exact (Nat.le_trans _ _ _ MX B1)). clear FS MX. assert (Be1 : e1 <= limit) by lia.
  assert (Bl1 : length l1 <= limit) by (rewrite L2, app_length in B2; lia).
  destruct RD as (a & b & A & B & N & La & Lb & L).
  unfold valuate_z in E1, E2. rewrite A in *. rewrite B in *.
  destruct (Z.of_nat a <? 0)%Z; [discriminate|]. destruct (Z.of_nat b <? 0)%Z; [discriminate|].
  assert (P1 : FACT_AFTER < 6) by (unfold FACT_AFTER; lia).
  destruct (valuate_holds fuel h s ME SM _ _ _ _ _ _ _ _ P1 E1 Be1 Bl1) as (G1 & (k1 & L1) & F1 & H1).
  assert (P2 : FACT_BEFORE < e1) by (unfold FACT_BEFORE; lia).
  destruct (valuate_holds fuel h s ME SM _ _ _ _ _ _ _ _ P2 E2 Be2 B2) as (_ & _ & F2 & H2).
  unfold FACT_AFTER, FACT_BEFORE in *.
  assert (W : forall k, k < 6 -> k <> 2 -> k <> 3 -> m2 k = fact_words fact k).
  { intros k K1 K2 K3. rewrite F2 by lia. apply F1; lia. }
  split; [rewrite L2, L1; reflexivity|].
  split; [rewrite W by lia; reflexivity|]. split; [rewrite W by lia; reflexivity|].
  split; [rewrite W by lia; reflexivity|]. split; [rewrite W by lia; reflexivity|].
  split.
  - rewrite (F2 2) by lia. rewrite L2. revert H1. apply holds_agree; [|exact (fun _ _ => Logic.I)].
    intros k O. unfold within in O. symmetry. apply F2; lia.
  - rewrite <- (app_nil_r l2). revert H2. apply holds_agree; [reflexivity|exact (fun _ _ => Logic.I)].
Qed.

(** * What the fact says (C136) *)
Lemma plain_word : forall w, getDescriptor w <> I_PTR -> getDescriptor w <> VL_PTR -> getDescriptor w <> R_PTR ->
  forall ok m l, shows ok ok m w (Leaf w) /\ means free l (Leaf w) (TAtom w).
Proof using. clear. intros w A B C ok m l. split; [constructor; exact A|apply means_atom; assumption]. Qed.

Lemma one_plain : getDescriptor one <> I_PTR /\ getDescriptor one <> VL_PTR /\ getDescriptor one <> R_PTR.
Proof using. clear. vm_compute. repeat split; discriminate. Qed.
Lemma bool_plain : forall b, getDescriptor (Boolean b) <> I_PTR /\ getDescriptor (Boolean b) <> VL_PTR /\ getDescriptor (Boolean b) <> R_PTR.
Proof using. clear. intros []; vm_compute; repeat split; discriminate. Qed.
Lemma ref0 : getDescriptor (RPointer 0) = R_PTR /\ place (RPointer 0) = 0.
Proof using. clear. split; reflexivity. Qed.

Lemma holds_list : forall o xs ws, length (vals h) <= limit -> Forall2 (holds fuel h s anywhere (word o) (refs o)) xs ws ->
  exists tr, Forall2 (shows anywhere anywhere (word o)) ws tr /\ Forall2 (means free (refs o)) tr (map s xs).
Proof using.
  clear. intros o xs ws SM F. induction F as [|x w xs ws Hx _ IH].
  - exists []. split; constructor.
  - destruct IH as (tr & A & B). destruct (holds_means fuel h s SM _ _ _ _ _ Hx) as (t & A1 & B1).
    exists (t :: tr). split; constructor; assumption.
Qed.

Lemma build_says : forall hlp op wr f tr T H, template hlp tr T -> says free hlp H ->
  build_f_ihlp fuel ti fact h hlp op wr = Some f -> fits f ->
  says free f (instance fact op H (fill (AObject ti 2) s false T) (map s (exposed h)) wr
    (s (Z.to_nat (fwd_after h))) (s (Z.to_nat (fwd_before h)))).
Proof using ME RD.
  intros hlp op wr f tr T H TP SH E FT. pose proof (small h RD) as SM.
  assert (FB : size f <= limit /\ length (refs f) <= limit /\ forall o, In o (refs f) -> fits o).
  { inversion FT; subst. cbn. auto. }
  destruct FB as (B1 & B2 & B3).
  destruct (fact_built hlp op wr f E B1 B2) as (i & EI & NI & W0 & W1 & W4 & W5 & HA & HB).
  assert (FI : fits i) by (apply B3; eapply nth_error_In; exact NI).
  assert (FB : size i <= limit /\ length (refs i) <= limit) by (inversion FI; subst; cbn; auto).
  destruct FB as (C1 & C2).
  destruct (ihlp_built fuel ti h s ME RD hlp op wr i tr T TP EI C1 C2) as (e & Le & NH & V0 & V1 & V2 & V3 & V4 & V5 & JI & VS & HX).
  destruct (exposed_length h RD) as (_ & _ & _ & X5).
  destruct (inst_means fuel ti h s SM _ _ _ _ _ _ _ JI (proj2 (proj2 (proj2 TP)))) as (tr1 & S1 & M1).
  destruct (holds_list i _ _ SM HX) as (trx & SX & MX).
  destruct (holds_means fuel h s SM _ _ _ _ _ HA) as (ta & SA & MA).
  destruct (holds_means fuel h s SM _ _ _ _ _ HB) as (tb & SB & MB).
  destruct (set_word (length (exposed h)) X5) as (DS & CS).
  destruct (object_word op) as (DO & CO). destruct (object_word fact) as (DF & CF).
  destruct one_plain as (O1 & O2 & O3). destruct (bool_plain wr) as (P1 & P2 & P3). destruct ref0 as (R1 & R2).
  assert (Pe : place (ptr e) = e) by (apply ptr_place; lia). assert (De : getDescriptor (ptr e) = I_PTR) by (apply ptr_desc; lia).
  destruct SH as (trh & tsh & -> & QH & SHH & MH).
  unfold instance, says. rewrite map_length.
  exists [Leaf (RPointer 0); ta; tb; Leaf one; Leaf one]. eexists. split; [rewrite W0; reflexivity|].
  split; [intros; exact Logic.I|]. split.
  - rewrite W0, CF. cbn [words map seq]. rewrite W1, W4, W5.
    constructor; [constructor; rewrite R1; discriminate|]. constructor; [exact SA|]. constructor; [exact SB|].
    constructor; [constructor; exact O1|]. constructor; [constructor; exact O1|constructor].
  - constructor.
    + rewrite <- V0.
      apply means_ref with (o := i) (tr := [Leaf (RPointer 0); tr1; Bp_spec.Node (ASet (Z.of_nat (length (exposed h)))) trx; Leaf (Boolean wr); Leaf one]).
      * exact R1.
      * rewrite R2. exact NI.
      * intros; exact Logic.I.
      * rewrite V0, CO. cbn [words map seq]. rewrite V1, V2, V3, V4, V5.
        constructor; [constructor; rewrite R1; discriminate|]. constructor; [exact S1|].
        constructor; [|constructor; [constructor; exact P1|constructor; [constructor; exact O1|constructor]]].
        rewrite <- VS. replace (word i e) with (word i (place (ptr e))) by (rewrite Pe; reflexivity). apply shows_node; rewrite ?Pe, ?VS, ?CS; auto.
        -- exact Logic.I.
        -- unfold raw. rewrite DS. reflexivity.
        -- rewrite DS. discriminate.
        -- intros; exact Logic.I.
      * constructor; [apply means_ref with (o := hlp) (tr := trh); auto; rewrite R2; exact NH|].
        constructor; [exact M1|]. constructor; [apply means_str; [rewrite DS; discriminate|exact MX]|].
        constructor; [apply means_atom; assumption|]. constructor; [apply means_atom; assumption|constructor].
    + constructor; [exact MA|]. constructor; [exact MB|]. constructor; [apply means_atom; assumption|]. constructor; [apply means_atom; assumption|constructor].
Qed.

(** * Positions (C135) *)
Lemma position_from_in : forall n j p x, In x (chosen h j n) ->
  exists q, nth_error (chosen h j n) q = Some x /\ position_from h (Z.of_nat x) j n p = (p + Z.of_nat q)%Z.
Proof using.
  clear. unfold chosen. induction n as [|n IH]; intros j p x I0; cbn [seq filter] in *; [destruct I0|]. cbn [position_from].
  rewrite Nat.add_1_r. destruct (skipped h j) eqn:K; cbn [negb] in *; [exact (IH _ _ _ I0)|].
  destruct (Z.eqb_spec (Z.of_nat j) (Z.of_nat x)) as [X|X].
  - exists 0. split; [cbn; f_equal; lia|lia].
  - destruct I0 as [I0|I0]; [subst; lia|]. destruct (IH _ (p + 1)%Z _ I0) as (q & A & B). exists (S q). split; [exact A|lia].
Qed.

Lemma position_from_out : forall n j p z, (forall x, In x (chosen h j n) -> z <> Z.of_nat x) -> position_from h z j n p = (-1)%Z.
Proof using.
  clear. unfold chosen. induction n as [|n IH]; intros j p z I0; cbn [seq filter] in *; [reflexivity|]. cbn [position_from].
  rewrite Nat.add_1_r. destruct (skipped h j) eqn:K; cbn [negb] in *; [exact (IH _ _ _ I0)|].
  destruct (Z.eqb_spec (Z.of_nat j) z) as [X|X]; [exfalso; apply (I0 j); [left; reflexivity|auto]|].
  apply IH. intros x I1. apply I0. right; exact I1.
Qed.

Lemma exposed_in : forall x, In x (exposed h) <-> first h <= x < length (vals h) /\ Z.of_nat x <> fwd_after h /\ Z.of_nat x <> fwd_before h.
Proof using.
  clear. intro x. unfold exposed. rewrite filter_In, in_seq, andb_true_iff, !negb_true_iff, !Z.eqb_neq. intuition lia.
Qed.

Lemma position_in : forall x, In x (exposed h) -> exists q, nth_error (exposed h) q = Some x /\ position h (Z.of_nat x) = Z.of_nat q.
Proof using.
  clear. intros x I0. unfold position. pose proof I0 as I1. apply exposed_in in I1. destruct I1 as (L & A & B).
  destruct (Z.eqb_spec (Z.of_nat x) (fwd_after h)); [contradiction|]. destruct (Z.eqb_spec (Z.of_nat x) (fwd_before h)); [contradiction|].
  destruct (Z.ltb_spec (Z.of_nat x) (Z.of_nat (first h))); [lia|]. unfold size_of.
  destruct (Z.leb_spec (Z.of_nat (length (vals h))) (Z.of_nat x)); [lia|]. cbn [orb].
  rewrite <- chosen_exposed in *. destruct (position_from_in (length (vals h) - first h) (first h) 0%Z x I0) as (q & Q & P). exists q. split; [exact Q|exact P].
Qed.

Lemma position_out : forall z, (forall x, In x (exposed h) -> z <> Z.of_nat x) -> position h z = (-1)%Z.
Proof using.
  clear. intros z I0. unfold position. destruct (_ || _)%bool; [reflexivity|]. apply position_from_out. unfold size_of. rewrite chosen_exposed. exact I0.
Qed.

Lemma exposed_nodup : NoDup (exposed h).
Proof using. clear. unfold exposed. apply NoDup_filter, seq_NoDup. Qed.
End Meant.

Lemma position_spec : forall fuel ti fact h s hlp tr T op wr f i, meant fuel h s -> ready h -> template hlp tr T ->
  build_f_ihlp fuel ti fact h hlp op wr = Some f -> fits f -> nth_error (refs f) 0 = Some i ->
  (forall x, In x (exposed h) -> exists p w, position h (Z.of_nat x) = Z.of_nat p /\
     nth_error (elements i 3) p = Some w /\ word_means i w (s x)) /\
  (forall p, p < length (elements i 3) -> exists! x, position h (Z.of_nat x) = Z.of_nat p) /\
  (forall z, (forall x, In x (exposed h) -> z <> Z.of_nat x) -> position h z = (-1)%Z).
Proof.
  intros fuel ti fact h s hlp tr T op wr f i ME RD TP E FT NI. pose proof (small h RD) as SM.
  assert (FB : size f <= limit /\ length (refs f) <= limit /\ forall o, In o (refs f) -> fits o).
  { inversion FT; subst. cbn. auto. }
  destruct FB as (B1 & B2 & B3).
  destruct (fact_built fuel ti fact h s ME RD hlp op wr f E B1 B2) as (i' & EI & NI' & _).
  rewrite NI in NI'. injection NI' as <-.
  assert (FI : fits i) by (apply B3; eapply nth_error_In; exact NI).
  assert (FB : size i <= limit /\ length (refs i) <= limit) by (inversion FI; subst; cbn; auto).
  destruct FB as (C1 & C2).
  destruct (ihlp_built fuel ti h s ME RD hlp op wr i tr T TP EI C1 C2) as (e & Le & NH & V0 & V1 & V2 & V3 & V4 & V5 & JI & VS & HX).
  destruct (exposed_length h RD) as (_ & _ & _ & X5).
  destruct (set_word (length (exposed h)) X5) as (DS & CS).
  assert (Pe : place (ptr e) = e) by (apply ptr_place; lia).
  assert (EL : elements i 3 = words (word i) (e + 1) (length (exposed h))).
  { unfold elements. rewrite V3, Pe, VS, CS. reflexivity. }
  rewrite EL. split; [|split].
  - intros x X. destruct (position_in h x X) as (q & Q & P). exists q.
    assert (W : exists w, nth_error (words (word i) (e + 1) (length (exposed h))) q = Some w /\ holds fuel h s anywhere (word i) (refs i) x w).
    { clear - HX Q. revert q Q. induction HX as [|a w xs ws Ha _ IH]; intros q Q; [destruct q; discriminate|].
      destruct q as [|q]; [injection Q as ->; exists w; split; [reflexivity|exact Ha]|exact (IH q Q)]. }
    destruct W as (w & NW & HW). exists w. split; [exact P|]. split; [exact NW|]. exact (holds_means fuel h s SM _ _ _ _ _ HW).
  - intros p P. rewrite words_length in P. destruct (nth_error (exposed h) p) as [x|] eqn:N; [|apply nth_error_None in N; lia].
    pose proof (nth_error_In _ _ N) as IX. exists x. split.
    + destruct (position_in h x IX) as (q & Q & R).
      assert (p = q); [|subst; exact R].
      apply (proj1 (NoDup_nth_error (exposed h)) (exposed_nodup h)); [apply nth_error_Some; rewrite N; discriminate|]. rewrite N, Q. reflexivity.
    + intros y Y. destruct (in_dec Nat.eq_dec y (exposed h)) as [IY|IY].
      * destruct (position_in h y IY) as (q & Q & R). rewrite R in Y. apply Nat2Z.inj in Y. subst q. rewrite N in Q. injection Q as ->. reflexivity.
      * rewrite position_out in Y; [lia|]. intros z Z0 Z1. apply Nat2Z.inj in Z1. subst. contradiction.
  - apply position_out.
Qed.
