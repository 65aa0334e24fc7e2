From Verif Require Import Base Atom_model Atom_proofs Bp_model Bp_spec Bp_proofs Bp2_proofs Bp3_proofs Inst_model Inst_spec Inst_proofs Inst2_proofs Inst3_proofs Inst4_proofs.
Local Open Scope nat_scope.

(** * Lists *)
Lemma skip_nth : forall (A : Type) n (l : list A) k, nth_error (skipn n l) k = nth_error l (n + k).
Proof.
  intros A n; induction n as [|n IH]; intros l k; [reflexivity|]. destruct l as [|a l]; [destruct k; reflexivity|]. apply IH.
Qed.

Lemma set_at_some : forall vs x v, x < length vs -> exists vs', set_at vs x v = Some vs' /\ length vs' = length vs /\
  nth_error vs' x = Some (Some v) /\ forall y, y <> x -> nth_error vs' y = nth_error vs y.
Proof.
  intros vs x v L. unfold set_at. destruct (Nat.ltb_spec x (length vs)); [|lia].
  exists (firstn x vs ++ Some v :: skipn (S x) vs). split; [reflexivity|].
  assert (LF : length (firstn x vs) = x) by (rewrite firstn_length; lia).
  split; [rewrite app_length, LF; cbn [length]; rewrite skipn_length; lia|].
  split; [rewrite nth_error_app2, LF, Nat.sub_diag by lia; reflexivity|].
  intros y N. destruct (Nat.lt_ge_cases y x).
  - rewrite nth_error_app1 by lia. clear - H0. revert y H0 vs. induction x as [|x IH]; intros y L vs; [lia|].
    destruct vs as [|a vs]; [destruct y; reflexivity|]. destruct y as [|y]; [reflexivity|]. cbn. apply IH. lia.
  - rewrite nth_error_app2 by lia. rewrite LF. replace (y - x) with (S (y - S x)) by lia. cbn [nth_error].
    rewrite skip_nth. f_equal. lia.
Qed.

Section Back.
Variable fuel : nat.
Variable ti fact : Z.
Variable h : hmap.
Variable s : nat -> term.
Hypothesis ME : meant fuel h s.
Hypothesis RD : ready h.
Variable i : obj.

Definition good (vs : list (option value)) (x : nat) : Prop := exists v, nth_error vs x = Some (Some v) /\ stands fuel x v (s x).

(** The value read back. *)
Lemma value_back : forall o w x v t, carries fuel anywhere (word o) (refs o) w x v t -> v <> Unbound ->
  exists v', value_from fuel o w = Some v' /\ stands fuel x v' t.
Proof using.
  clear. intros o w x v t C N. unfold value_from. destruct v as [|a|m|p]; cbn [carries] in C; [contradiction| | |].
  - destruct C as (-> & -> & N1 & N2 & N3).
    destruct (Z.eqb_spec (getDescriptor a) R_PTR); [contradiction|]. destruct (Z.eqb_spec (getDescriptor a) I_PTR); [contradiction|].
    exists (AtomV a). split; [reflexivity|]. cbn. auto.
  - destruct C as (tr & D & S0 & T & H & Z0 & M). rewrite D. cbn [Z.eqb Pos.eqb I_PTR R_PTR].
    destruct (copy_tree tr fuel (word o) (fun _ => UndefinedAtom) 0 w S0 D T H Z0) as (m' & E & S1 & _).
    change (I_PTR =? R_PTR)%Z with false. change (I_PTR =? I_PTR)%Z with true. cbn iota.
    unfold structure. rewrite E. exists (StructureV m'). split; [reflexivity|]. exists tr. split; [|auto].
    revert S1. apply shows_weaken; intros; exact Logic.I.
  - destruct C as (D & NE & Sy). rewrite D. change (R_PTR =? R_PTR)%Z with true. cbn iota. rewrite NE.
    exists (ObjectV p). split; [reflexivity|exact Sy].
Qed.

Lemma value_any : forall o w x, x < limit -> holds fuel h s anywhere (word o) (refs o) x w -> exists v', value_from fuel o w = Some v'.
Proof using.
  clear. intros o w x X (v & V & C). destruct v as [|a|m|p] eqn:EV.
  - destruct C as (-> & _). unfold value_from. rewrite vlptr_desc by exact X. eexists. reflexivity.
  - destruct (value_back _ _ _ _ _ C) as (v' & E & _); [discriminate|]. exists v'; exact E.
  - destruct (value_back _ _ _ _ _ C) as (v' & E & _); [discriminate|]. exists v'; exact E.
  - destruct (value_back _ _ _ _ _ C) as (v' & E & _); [discriminate|]. exists v'; exact E.
Qed.

Lemma value_good : forall o w x v0, holds fuel h s anywhere (word o) (refs o) x w -> knows h x ->
  value_from fuel o w = Some v0 -> stands fuel x v0 (s x).
Proof using.
  clear. intros o w x v0 (v & V & C) (v1 & V1 & N) E. rewrite V in V1. injection V1 as <-.
  destruct (value_back _ _ _ _ _ C N) as (v' & E' & ST). rewrite E in E'. injection E' as <-. exact ST.
Qed.

(** * Template arguments *)
Definition tvars (b : bool) (T : term) : list nat := map fst (vars (AObject ti 2) b T).

Definition passes (xs : list nat) (vs vs' : list (option value)) : Prop :=
  length vs' = length vs /\ (forall x, ~ In x xs -> nth_error vs' x = nth_error vs x) /\
  (forall x, In x xs -> knows h x -> good vs' x) /\ (forall x, knows h x -> good vs x -> good vs' x).

Lemma passes_nil : forall vs, passes [] vs vs.
Proof using. clear. intro vs. split; [reflexivity|]. split; [reflexivity|]. split; [intros x []|auto]. Qed.

Lemma passes_app : forall a b vs vs' vs'', passes a vs vs' -> passes b vs' vs'' -> passes (a ++ b) vs vs''.
Proof using.
  clear. intros a b vs vs' vs'' (A1 & A2 & A3 & A4) (B1 & B2 & B3 & B4). split; [congruence|]. split.
  - intros x N. rewrite in_app_iff in N. rewrite B2, A2 by tauto. reflexivity.
  - split; [|auto]. intros x I0 K. apply in_app_iff in I0. destruct I0 as [I0|I0]; [apply B4; auto|auto].
Qed.

Lemma passes_one : forall vs x v, x < length vs -> (knows h x -> stands fuel x v (s x)) ->
  exists vs', set_at vs x v = Some vs' /\ passes [x] vs vs'.
Proof using.
  clear. intros vs x v L G. destruct (set_at_some vs x v L) as (vs' & E & LL & N1 & N2). exists vs'. split; [exact E|].
  split; [exact LL|]. split; [intros y N; apply N2; intro; subst; apply N; left; reflexivity|].
  split; [intros y [<-|[]] K; exists v; auto|].
  intros y K (v1 & V1 & S1). destruct (Nat.eq_dec y x) as [->|N]; [exists v; auto|]. exists v1. rewrite N2 by exact N. auto.
Qed.

Lemma init_flat : forall init src n r w vs,
  Forall (fun a => getDescriptor a <> I_PTR /\ getDescriptor a <> VL_PTR) (words src r n) ->
  init_words fuel init src i r w n vs = Some vs.
Proof using.
  clear. intros init src n. induction n as [|n IH]; intros r w vs F; cbn [init_words]; [reflexivity|].
  rewrite words_cons in F. inversion F as [|? ? (N1 & N2) F']; subst.
  destruct (getDescriptor (src r) =? I_PTR)%Z eqn:D2; [apply Z.eqb_eq in D2; contradiction|].
  destruct (getDescriptor (src r) =? VL_PTR)%Z eqn:D; [apply Z.eqb_eq in D; contradiction|].
  rewrite !Nat.add_1_r. apply IH. exact F'.
Qed.

Definition args_ok (d : nat) : Prop := forall src tr a w T vs b,
  shows anywhere anywhere src a tr -> getDescriptor a = I_PTR -> quiet tr -> (forall l, means free l tr T) -> height tr <= d ->
  inst fuel ti h s anywhere (word i) (refs i) b tr w -> length vs = length (vals h) ->
  (forall x, ~ In (x, true) (vars (AObject ti 2) b T)) ->
  exists vs', init_args fuel d src i (place a) (place w) vs = Some vs' /\ passes (tvars b T) vs vs'.

Lemma means_all : forall tr ts, (forall l, Forall2 (means free l) tr ts) -> Forall2 (fun t tt => forall l, means free l t tt) tr ts.
Proof using.
  clear. intros tr; induction tr as [|t tr IH]; intros ts M.
  - pose proof (M []) as M0. inversion M0. constructor.
  - pose proof (M []) as M0. inversion M0 as [|? tt ? tts A B]; subst. constructor.
    + intro l. specialize (M l). inversion M; assumption.
    + apply IH. intro l. specialize (M l). inversion M; assumption.
Qed.

Lemma init_words_ok : forall d src b ts, args_ok d -> forall r w Ts vs,
  Forall2 (shows anywhere anywhere src) (words src r (length ts)) ts -> Forall quiet ts ->
  Forall2 (fun t tt => forall l, means free l t tt) ts Ts -> Forall (fun t => height t <= d) ts ->
  Forall2 (inst fuel ti h s anywhere (word i) (refs i) b) ts (words (word i) w (length ts)) -> length vs = length (vals h) ->
  (forall x, ~ In (x, true) (flat_map (vars (AObject ti 2) b) Ts)) ->
  exists vs', init_words fuel (init_args fuel d src i) src i r w (length ts) vs = Some vs' /\ passes (flat_map (tvars b) Ts) vs vs'.
Proof using RD.
  intros d src b ts OK. pose proof (small h RD) as SM. induction ts as [|t ts IH]; intros r w Ts vs F Q M Hd J L NT; cbn [length] in *; cbn [init_words].
  - inversion M; subst. exists vs. split; [reflexivity|apply passes_nil].
  - rewrite words_cons in F, J. inversion F as [|? ? ? ? S0 F']; subst. inversion Q as [|? ? Q0 Q']; subst.
    inversion M as [|? T0 ? Ts' M0 M']; subst. inversion Hd as [|? ? Hd0 Hd']; subst. inversion J as [|? ? ? ? J0 J']; subst.
    cbn [flat_map] in *.
    assert (ST : exists vs1, (if (getDescriptor (src r) =? I_PTR)%Z then
               if (getDescriptor (word i w) =? I_PTR)%Z then init_args fuel d src i (place (src r)) (place (word i w)) vs else Some vs
             else if (getDescriptor (src r) =? VL_PTR)%Z then
               match value_from fuel i (word i w) with Some v => set_at vs (place (src r)) v | None => None end
             else Some vs) = Some vs1 /\ passes (tvars b T0) vs vs1).
    { destruct (Z.eqb_spec (getDescriptor (src r)) I_PTR) as [D|D].
      - assert (DW : getDescriptor (word i w) = I_PTR).
        { inversion J0; subst; auto; inversion S0; subst; contradiction. }
        rewrite DW. change (I_PTR =? I_PTR)%Z with true. cbn iota.
        apply (OK src t (src r) (word i w) T0 vs b); auto. intros x X. apply (NT x). apply in_app_iff. left; exact X.
      - assert (t = Leaf (src r)) by (inversion S0; subst; [reflexivity|contradiction|contradiction]). subst t.
        pose proof (M0 []) as M1. destruct (Z.eqb_spec (getDescriptor (src r)) VL_PTR) as [D2|D2].
        + inversion M1 as [? ? D0|? ? ? ? ? D0 N0| ? ? D0 | |]; subst; [|rewrite D2 in D0; discriminate|contradiction].
          destruct b.
          * exfalso. apply (NT (place (src r))). apply in_app_iff. left. left. reflexivity.
          * inversion J0 as [? ? _ HH|? ? _ [X|X]| |]; subst; [|discriminate|contradiction].
            assert (XL : place (src r) < length (vals h)) by (destruct HH as (v & V & _); apply nth_error_Some; rewrite V; discriminate).
            assert (XM : place (src r) < limit) by lia. destruct (value_any i _ _ XM HH) as (v' & E). rewrite E.
            apply passes_one; [lia|]. intro K. exact (value_good _ _ _ _ HH K E).
        + exists vs. split; [reflexivity|].
          inversion M1 as [? ? D0|? ? ? ? ? D0 N0| ? ? D0 | |]; subst; [contradiction|destruct (place (src r)); discriminate N0|apply passes_nil]. }
    destruct ST as (vs1 & E1 & P1). rewrite E1. rewrite !Nat.add_1_r.
    assert (L1 : length vs1 = length (vals h)) by (rewrite (proj1 P1); exact L).
    destruct (IH (S r) (S w) Ts' vs1 F' Q' M' Hd' J' L1) as (vs2 & E2 & P2).
    { intros x X. apply (NT x). apply in_app_iff. right; exact X. }
    exists vs2. split; [exact E2|]. eapply passes_app; eassumption.
Qed.

Lemma tvars_str : forall b hd Ts, tvars b (TStr hd Ts) = flat_map (tvars (hd =? AObject ti 2)%Z) Ts.
Proof using.
  clear. intros b hd Ts. unfold tvars. cbn [vars]. induction Ts as [|t Ts IH]; [reflexivity|]. cbn [flat_map]. rewrite map_app, IH. reflexivity.
Qed.

Lemma args_all : forall d, args_ok d.
Proof using RD.
  induction d as [|d IH]; intros src tr a w T vs b S0 D Q M Hd J L NT.
  - exfalso. inversion S0; subst; [contradiction| |]; cbn in Hd; lia.
  - cbn [init_args]. pose proof (M []) as M0.
    inversion S0 as [? N|? _ O R K|? ts _ O R N K F]; subst; [contradiction| |].
    + inversion J as [| |? ? ? ? DW RW OW EW KW QW|]; subst. inversion M0; subst.
      rewrite EW, Z.eqb_refl. cbn [negb]. exists vs. split; [|apply passes_nil].
      rewrite Nat.add_1_r. apply init_flat. cbn in Q. replace (place a + 1) with (S (place a)) in Q by lia. exact Q.
    + inversion J as [| | |? ? ? ? DW RW PW OW EW KW QW]; subst. inversion M0 as [| | | |? ? ? Ts N0 M1]; subst.
      rewrite EW, Z.eqb_refl. cbn [negb]. rewrite tvars_str.
      assert (LT : length ts = count (src (place a))).
      { apply Forall2_len in F. rewrite words_length in F. symmetry; exact F. }
      rewrite <- LT. rewrite <- LT in F, QW.
      apply (init_words_ok d src _ ts IH); auto.
      * apply quiet_all in Q. exact Q.
      * apply means_all. intro l. specialize (M l). inversion M; assumption.
      * cbn in Hd. assert (Hm : list_max (map height ts) <= d) by lia. apply list_max_le in Hm. rewrite Forall_map in Hm. exact Hm.
Qed.

(** * Exposed arguments *)
Lemma knows_definite : forall x, definite h x -> knows h x.
Proof using. clear. intros x (v & V & P). exists v. split; [exact V|]. intros ->. exact P. Qed.

Lemma definite_word : forall o w x, definite h x -> holds fuel h s anywhere (word o) (refs o) x w -> no_value w = false.
Proof using.
  clear. intros o w x (v & V & P) (v1 & V1 & C). rewrite V in V1. injection V1 as <-. unfold no_value.
  destruct v as [|a|m|p]; cbn [carries] in C; [contradiction| | |].
  - destruct C as (-> & _ & N1 & N2 & N3). destruct P as (P1 & P2).
    destruct (Z.eqb_spec (getDescriptor a) WILDCARD); [contradiction|]. destruct (Z.eqb_spec (getDescriptor a) T_WILDCARD); [contradiction|].
    destruct (Z.eqb_spec (getDescriptor a) VL_PTR); [contradiction|]. reflexivity.
  - destruct C as (tr & D & _). rewrite D. reflexivity.
  - destruct C as (D & _). rewrite D. reflexivity.
Qed.

Lemma vague_word : forall o w x, x < limit -> ~ definite h x -> holds fuel h s anywhere (word o) (refs o) x w -> no_value w = true.
Proof using.
  clear. intros o w x X P (v & V & C). unfold no_value.
  destruct v as [|a|m|p]; cbn [carries] in C.
  - destruct C as (-> & _). rewrite vlptr_desc by exact X. reflexivity.
  - destruct C as (-> & _ & N1 & N2 & N3).
    destruct (Z.eqb_spec (getDescriptor a) WILDCARD); [reflexivity|]. destruct (Z.eqb_spec (getDescriptor a) T_WILDCARD); [reflexivity|].
    exfalso. apply P. exists (AtomV a). split; [exact V|]. split; assumption.
  - exfalso. apply P. eexists. split; [exact V|exact Logic.I].
  - exfalso. apply P. eexists. split; [exact V|exact Logic.I].
Qed.

Lemma definite_dec : forall x, definite h x \/ ~ definite h x.
Proof using.
  clear. intro x. unfold definite. destruct (nth_error (vals h) x) as [[v|]|] eqn:E.
  - destruct v as [|a|m|p].
    + right. intros (v & V & P). injection V as <-. exact P.
    + destruct (Z.eq_dec (getDescriptor a) WILDCARD); [right; intros (v & V & P); injection V as <-; tauto|].
      destruct (Z.eq_dec (getDescriptor a) T_WILDCARD); [right; intros (v & V & P); injection V as <-; tauto|].
      left. eexists. split; [reflexivity|split; assumption].
    + left. eexists. split; [reflexivity|exact Logic.I].
    + left. eexists. split; [reflexivity|exact Logic.I].
  - right. intros (v & V & P). discriminate.
  - right. intros (v & V & P). discriminate.
Qed.

Definition sets (xs : list nat) (vs vs' : list (option value)) : Prop :=
  length vs' = length vs /\ (forall x, ~ (In x xs /\ definite h x) -> nth_error vs' x = nth_error vs x) /\
  (forall x, In x xs -> definite h x -> good vs' x).

Lemma exposed_back : forall h2 n j w vs, skipped h2 = skipped h -> length vs = length (vals h) ->
  Forall2 (holds fuel h s anywhere (word i) (refs i)) (chosen h j n) (words (word i) w (length (chosen h j n))) ->
  exists vs', init_exposed fuel h2 i j n w vs = Some vs' /\ sets (chosen h j n) vs vs'.
Proof using RD.
  intros h2 n. pose proof (small h RD) as SM. unfold chosen. induction n as [|n IH]; intros j w vs SK L F; cbn [seq filter] in *; cbn [init_exposed].
  - exists vs. split; [reflexivity|]. split; [reflexivity|]. split; [reflexivity|intros x []].
  - rewrite SK. rewrite !Nat.add_1_r. destruct (skipped h j) eqn:K; cbn [negb] in *; [exact (IH _ _ _ SK L F)|].
    cbn [length] in F. rewrite words_cons in F. inversion F as [|? ? ? ? H0 F']; subst.
    assert (XL : j < length (vals h)) by (destruct H0 as (v & V & _); apply nth_error_Some; rewrite V; discriminate).
    assert (NI : ~ In j (filter (fun x => negb (skipped h x)) (seq (S j) n))).
    { intro X. apply filter_In in X. destruct X as (X & _). apply in_seq in X. lia. }
    destruct (definite_dec j) as [DF|DF].
    + rewrite (definite_word i _ _ DF H0).
      assert (XM : j < limit) by lia. destruct (value_any i _ _ XM H0) as (v' & E). rewrite E.
      destruct (set_at_some vs j v' ltac:(lia)) as (vs1 & E1 & L1 & N1 & N2). rewrite E1.
      destruct (IH (S j) (S w) vs1 SK ltac:(lia) F') as (vs2 & E2 & P1 & P2 & P3). exists vs2. split; [exact E2|].
      split; [lia|]. split.
      * intros x N. destruct (Nat.eq_dec x j) as [->|NJ]; [exfalso; apply N; split; [left; reflexivity|exact DF]|].
        rewrite P2; [apply N2; exact NJ|]. intros (A & B). apply N. split; [right; exact A|exact B].
      * intros x [<-|I0] DX; [|auto]. rewrite <- P2 in N1 by tauto. exists v'. split; [exact N1|].
        exact (value_good _ _ _ _ H0 (knows_definite _ DF) E).
    + assert (XM : j < limit) by lia. rewrite (vague_word i _ _ XM DF H0).
      destruct (IH (S j) (S w) vs SK L F') as (vs2 & E2 & P1 & P2 & P3). exists vs2. split; [exact E2|].
      split; [lia|]. split.
      * intros x N. apply P2. intros (A & B). apply N. split; [right; exact A|exact B].
      * intros x [<-|I0] DX; [contradiction|auto].
Qed.
End Back.

(** * The way back (C137) *)
Lemma trip_back : forall fuel ti fact h h2 s hlp tr T op wr f,
  meant fuel h s -> ready h -> timed h -> alike h h2 ->
  template hlp tr T -> height tr <= fuel -> (forall x b, In (x, b) (vars (AObject ti 2) false T) -> x < first h /\ b = false) ->
  build_f_ihlp fuel ti fact h hlp op wr = Some f -> fits f ->
  exists h3, init_from_f_ihlp fuel h2 f = Some h3 /\ alike h h3 /\
    (forall x b, In (x, b) (vars (AObject ti 2) false T) -> knows h x -> gives fuel h3 x (s x)) /\
    (forall x, In x (exposed h) -> definite h x -> gives fuel h3 x (s x)) /\
    (forall x, In x (exposed h) -> ~ definite h x -> nth_error (vals h3) x = nth_error (vals h2) x) /\
    gives fuel h3 (Z.to_nat (fwd_after h)) (s (Z.to_nat (fwd_after h))) /\
    gives fuel h3 (Z.to_nat (fwd_before h)) (s (Z.to_nat (fwd_before h))).
Proof.
  intros fuel ti fact h h2 s hlp tr T op wr f ME RD TM (A1 & A2 & A3 & A4) TP HT VT E FT.
  pose proof (small h RD) as SM.
  assert (FB : size f <= limit /\ length (refs f) <= limit /\ forall o, In o (refs f) -> fits o).
  { inversion FT; subst. cbn. auto. }
  destruct FB as (B1 & B2 & B3).
  destruct (fact_built fuel ti fact h s ME RD hlp op wr f E B1 B2) as (i & EI & NI & W0 & W1 & W4 & W5 & HA & HB).
  assert (FI : fits i) by (apply B3; eapply nth_error_In; exact NI).
  assert (FB : size i <= limit /\ length (refs i) <= limit) by (inversion FI; subst; cbn; auto).
  destruct FB as (C1 & C2).
  destruct (ihlp_built fuel ti h s ME RD hlp op wr i tr T TP EI C1 C2) as (e & Le & NH & V0 & V1 & V2 & V3 & V4 & V5 & JI & VS & HX).
  assert (Pe : place (ptr e) = e) by (apply ptr_place; lia).
  destruct TP as (D1 & S1 & Q1 & M1).
  unfold init_from_f_ihlp. rewrite NI, NH.
  change (word hlp HLP_TPL_ARGS) with (word hlp 1). change (word i I_HLP_TPL_ARGS) with (word i 2). change (word i I_HLP_EXPOSED_ARGS) with (word i 3).
  rewrite V2, V3, Pe.
  destruct (args_all fuel ti h s RD i fuel (word hlp) tr (word hlp 1) (ptr 6) T (vals h2) false S1 D1 Q1 M1 HT JI (eq_sym A1)) as (vs1 & E1 & L1 & U1 & G1 & _).
  { intros x X. destruct (VT _ _ X) as (_ & X1). discriminate. }
  rewrite E1.
  assert (SK : skipped h2 = skipped h) by (unfold skipped; rewrite A3, A4; reflexivity).
  unfold size_of. rewrite <- A1, <- A2.
  rewrite <- chosen_exposed in HX.
  destruct (exposed_back fuel h s RD i h2 (length (vals h) - first h) (first h) (e + 1) vs1 SK ltac:(lia) HX) as (vs2 & E2 & L2 & U2 & G2).
  rewrite chosen_exposed in U2, G2. rewrite E2.
  destruct RD as (a & b & A & B & N & La & Lb & LL).
  assert (TA : exists v, init_time fuel f (fwd_after h2) FACT_AFTER vs2 = set_at vs2 a v /\ stands fuel a v (s a)).
  { destruct (TM (fwd_after h) (or_introl eq_refl)) as (m & TV). rewrite A, Nat2Z.id in TV, HA. destruct HA as (v & V & C). rewrite TV in V. injection V as <-.
    unfold init_time. rewrite <- A3, A. destruct (Z.ltb_spec (Z.of_nat a) 0); [lia|]. rewrite Nat2Z.id. change FACT_AFTER with 2.
    destruct (value_back fuel f _ _ _ _ C) as (v' & EV & ST); [discriminate|]. exists v'. split; [|exact ST].
    cbn [carries] in C. destruct C as (tr0 & D0 & _). unfold value_from in EV. rewrite D0 in EV.
    change (I_PTR =? R_PTR)%Z with false in EV. change (I_PTR =? I_PTR)%Z with true in EV. cbn iota in EV. rewrite EV. reflexivity. }
  assert (TB : forall vs, exists v, init_time fuel f (fwd_before h2) FACT_BEFORE vs = set_at vs b v /\ stands fuel b v (s b)).
  { intro vs. destruct (TM (fwd_before h) (or_intror eq_refl)) as (m & TV). rewrite B, Nat2Z.id in TV, HB. destruct HB as (v & V & C). rewrite TV in V. injection V as <-.
    unfold init_time. rewrite <- A4, B. destruct (Z.ltb_spec (Z.of_nat b) 0); [lia|]. rewrite Nat2Z.id. change FACT_BEFORE with 3.
    destruct (value_back fuel f _ _ _ _ C) as (v' & EV & ST); [discriminate|]. exists v'. split; [|exact ST].
    cbn [carries] in C. destruct C as (tr0 & D0 & _). unfold value_from in EV. rewrite D0 in EV.
    change (I_PTR =? R_PTR)%Z with false in EV. change (I_PTR =? I_PTR)%Z with true in EV. cbn iota in EV. rewrite EV. reflexivity. }
  destruct TA as (va & TA & STA). rewrite TA.
  destruct (set_at_some vs2 a va ltac:(lia)) as (vs3 & E3 & L3 & N3 & U3). rewrite E3.
  destruct (TB vs3) as (vb & TB' & STB). rewrite TB'.
  destruct (set_at_some vs3 b vb ltac:(lia)) as (vs4 & E4 & L4 & N4 & U4). rewrite E4.
  eexists. split; [reflexivity|]. cbn [vals first fwd_after fwd_before]. split; [|split; [|split; [|split; [|split]]]].
  - unfold alike. cbn [vals first fwd_after fwd_before]. repeat split; congruence.
  - intros x k X K. destruct (VT _ _ X) as (XF & ->). unfold gives. cbn [vals].
    rewrite U4, U3 by lia. rewrite U2 by (intros (X1 & _); apply exposed_in in X1; lia).
    apply (G1 x); [|exact K]. apply in_map_iff. exists (x, false). split; [reflexivity|exact X].
  - intros x X DX. unfold gives. cbn [vals]. pose proof X as X1. apply exposed_in in X1. rewrite U4, U3 by lia. exact (G2 x X DX).
  - intros x X DX. pose proof X as X1. apply exposed_in in X1. rewrite U4, U3 by lia. rewrite U2 by tauto. apply U1.
    intro I0. apply in_map_iff in I0. destruct I0 as ((y & k) & <- & I0). destruct (VT _ _ I0). cbn [fst] in *. lia.
  - rewrite A, Nat2Z.id. exists va. cbn [vals]. rewrite U4 by exact N. split; assumption.
  - rewrite B, Nat2Z.id. exists vb. cbn [vals]. split; assumption.
Qed.
