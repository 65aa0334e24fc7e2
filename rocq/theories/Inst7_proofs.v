(** Concrete instances. *)
From Verif Require Import Base Float32 Atom_model Utils_model Bp_model Bp_spec Bp_proofs Bp2_proofs Bp3_proofs Inst_model Inst_spec Inst_proofs Inst2_proofs Inst3_proofs Inst4_proofs Inst5_proofs Inst6_proofs.
From Verif Require Import Abs6_proofs.
Local Open Scope nat_scope.

(** * Readings are unique *)
Lemma shows_fun : forall ok okr ok' okr' m t w t', shows ok okr m w t -> shows ok' okr' m w t' -> t = t'.
Proof.
  intros ok okr ok' okr' m t; induction t as [x|hd ws|hd ts F] using tree_nested; intros w t' A B.
  - inversion A; subst. inversion B; subst; [reflexivity|contradiction|contradiction].
  - inversion A as [|? D O R K|]; subst. inversion B as [|? D2 O2 R2 K2|? ts D2 O2 R2]; subst; [contradiction|reflexivity|congruence].
  - inversion A as [| |? ? D O R N K Q]; subst. inversion B as [|? D2 O2 R2 K2|? ts2 D2 O2 R2 N2 K2 Q2]; subst; [contradiction|congruence|].
    f_equal. clear - Q Q2 F. revert ts2 Q2 F. induction Q as [|w0 t0 ws ts E1 E2 IH]; intros ts2 Q2 F; inversion Q2; subst; [reflexivity|].
    inversion F; subst. f_equal; [eauto|]. apply IH; auto.
Qed.

Lemma shows_list_fun : forall ok okr ok' okr' m ws ts ts', Forall2 (shows ok okr m) ws ts -> Forall2 (shows ok' okr' m) ws ts' -> ts = ts'.
Proof.
  intros ok okr ok' okr' m ws ts ts' A. revert ts'. induction A as [|w t ws ts E1 E2 IH]; intros ts' B; inversion B; subst; [reflexivity|].
  f_equal; [eapply shows_fun; eassumption|auto].
Qed.

Lemma means_fun : forall l tr t, means free l tr t -> forall t', means free l tr t' -> t = t'.
Proof.
  apply (means_nested free (fun l tr t => forall t', means free l tr t' -> t = t')).
  - intros l w D t' B. inversion B as [? ? D2|? ? ? ? ? D2|? ? D2 D3| |]; subst; [reflexivity|rewrite D in D2; discriminate|contradiction].
  - intros l w o tr ts D N O S0 M IH t' B. inversion B as [? ? D2|? ? o2 tr2 ts2 D2 N2 O2 S2 M2|? ? D2 D3| |]; subst; [rewrite D in D2; discriminate| |contradiction].
    rewrite N in N2. injection N2 as <-. pose proof (shows_list_fun _ _ _ _ _ _ _ _ S0 S2) as <-. f_equal.
    clear - IH M2. revert ts2 M2. induction IH as [|a b la lb Ha Hl IH]; intros ts2 M2; inversion M2; subst; [reflexivity|]. f_equal; auto.
  - intros l w D1 D2 t' B. inversion B; subst; [contradiction|contradiction|reflexivity].
  - intros l h ws t' B. inversion B; subst. reflexivity.
  - intros l h tr ts N M IH t' B. inversion B as [| | | |? ? ? ts2 N2 M2]; subst. f_equal.
    clear - IH M2. revert ts2 M2. induction IH as [|a b la lb Ha Hl IH]; intros ts2 M2; inversion M2; subst; [reflexivity|]. f_equal; auto.
Qed.

Lemma says_fun : forall o t t', says free o t -> says free o t' -> t = t'.
Proof.
  intros o t t' (tr & ts & -> & O1 & S1 & M1) (tr2 & ts2 & -> & O2 & S2 & M2).
  pose proof (shows_list_fun _ _ _ _ _ _ _ _ S1 S2) as <-. f_equal.
  clear - M1 M2. revert ts2 M2. induction M1 as [|a b la lb Ha Hl IH]; intros ts2 M2; inversion M2; subst; [reflexivity|]. f_equal; [eapply means_fun; eassumption|auto].
Qed.

Definition listed (l : list Z) : mem := fun i => nth i l UndefinedAtom.

(** ** A composite state with a template variable 0; a fact of variables 1 and 4 at times 2 and 3 *)
Definition y_obj : obj := Obj (listed [AObject 30 2; VLPointer 1; VLPointer 4]) 3 [].
Definition y_fact : obj := Obj (listed [AObject 1 5; RPointer 0; VLPointer 2; VLPointer 3; one; one]) 6 [y_obj].
Definition y_hlp : obj :=
  Obj (listed [AObject 20 5; ptr 6; ptr 8; ptr 10; ptr 11; one; ASet 1; VLPointer 0; ASet 1; RPointer 0; ASet 0; ASet 0]) 12 [y_fact].
Definition y_ent : obj := Obj (listed [AObject 31 1; 77%Z]) 2 [].
Definition y_time (t : Z) : mem := listed [ATimestamp; 0%Z; t].
Definition y_map : hmap :=
  mkh [Some (AtomV 44); Some (ObjectV y_ent); Some (StructureV (y_time 100)); Some (StructureV (y_time 200)); Some (AtomV 45)] 1 2 3.
Definition y_term (x : nat) : term :=
  match x with
  | 0 => TAtom 44 | 1 => TObj (AObject 31 1) [TAtom 77] | 2 => TRaw ATimestamp [0%Z; 100%Z] | 3 => TRaw ATimestamp [0%Z; 200%Z] | _ => TAtom 45
  end.
Definition y_tree : tree := Bp_spec.Node (ASet 1) [Leaf (VLPointer 0)].
Definition y_tpl : term := TStr (ASet 1) [TVar 0].

Lemma atom_stands : forall fuel x a, (a =? 44)%Z || (a =? 45)%Z = true -> stands fuel x (AtomV a) (TAtom a).
Proof. intros fuel x a H. apply orb_true_iff in H. destruct H as [H|H]; apply Z.eqb_eq in H; subst; vm_compute; repeat split; discriminate. Qed.
Lemma time_stands : forall fuel x t, getDescriptor t <> I_PTR -> stands (S fuel) x (StructureV (y_time t)) (TRaw ATimestamp [0%Z; t]).
Proof.
  intros fuel x t N. exists (Raw ATimestamp [0%Z; t]). split.
  - pose proof (shows_raw anywhere anywhere (y_time t) (ptr 0)) as Q. change (place (ptr 0)) with 0 in Q. apply Q.
    + reflexivity.
    + exact Logic.I.
    + reflexivity.
    + intros; exact Logic.I.
  - split; [cbn; constructor; [discriminate|constructor; [exact N|constructor]]|]. split; [cbn; lia|]. intro l. apply means_raw.
Qed.

Lemma y_meant : meant 3 y_map y_term.
Proof.
  intros x L. cbn in L. destruct x as [|[|[|[|[|x]]]]]; [..|lia]; (eexists; split; [reflexivity|]).
  - apply atom_stands; reflexivity.
  - apply (read_free 3). vm_compute. reflexivity.
  - apply time_stands. discriminate.
  - apply time_stands. discriminate.
  - apply atom_stands; reflexivity.
Qed.
Lemma y_ready : ready y_map.
Proof. exists 2, 3. cbn. repeat split; try lia. Qed.
Lemma y_timed : timed y_map.
Proof. intros z [-> | ->]; eexists; reflexivity. Qed.

Lemma y_template : template y_hlp y_tree y_tpl.
Proof.
  split; [reflexivity|]. split; [|split; [cbn; auto|]].
  - pose proof (shows_node anywhere anywhere (word y_hlp) (word y_hlp 1) [Leaf (VLPointer 0)]) as Q. apply Q.
    + reflexivity.
    + exact Logic.I.
    + reflexivity.
    + vm_compute; discriminate.
    + intros; exact Logic.I.
    + constructor; [|constructor]. constructor. vm_compute. discriminate.
  - intro l. apply means_str; [vm_compute; discriminate|]. constructor; [|constructor]. exact (means_var free l (VLPointer 0) eq_refl).
Qed.
Definition y_says : term := match read (fun _ _ => true) 9 y_hlp with Some t => t | None => TVar 0 end.
Lemma y_hlp_says : says free y_hlp y_says.
Proof. apply (read_free 9). vm_compute. reflexivity. Qed.

Definition y_built : option obj := build_f_ihlp 3 50 1 y_map y_hlp 40 false.
Definition y_f : obj := match y_built with Some f => f | None => y_ent end.
Lemma y_f_is : build_f_ihlp 3 50 1 y_map y_hlp 40 false = Some y_f.
Proof. unfold y_f, y_built. destruct (build_f_ihlp 3 50 1 y_map y_hlp 40 false) eqn:E; [reflexivity|]. apply (f_equal (fun o => match o with Some _ => true | None => false end)) in E. vm_compute in E. discriminate. Qed.
Lemma y_fits : fits y_f.
Proof. apply (fits_true 5). vm_compute. reflexivity. Qed.

Lemma y_words : words (word y_f) 0 12 = [AObject 1 5; RPointer 0; ptr 6; ptr 9; one; one; ATimestamp; 0%Z; 100%Z; ATimestamp; 0%Z; 200%Z] /\
  match refs y_f with
  | [i] => words (word i) 0 11 = [AObject 40 5; RPointer 0; ptr 6; ptr 8; Boolean false; one; ASet 1; 44%Z; ASet 2; RPointer 1; 45%Z] /\
           length (refs i) = 2
  | _ => False
  end.
Proof. vm_compute. repeat split. Qed.

(** ** C138 is false *)
Lemma abstract_refuted : exists fuel ti fact h s hlp tr T op wr f i icst imdl g j x y p,
  meant fuel h s /\ ready h /\ template hlp tr T /\ build_f_ihlp fuel ti fact h hlp op wr = Some f /\ fits f /\
  nth_error (refs f) 0 = Some i /\ abstract_f_ihlp icst imdl f = Some g /\ nth_error (refs g) 0 = Some j /\
  position h (Z.of_nat x) = Z.of_nat p /\ (exists w, nth_error (elements i 3) p = Some w /\ word_means i w (s x)) /\
  nth_error (elements j 3) p = Some (VLPointer (Z.of_nat y)) /\ s y <> s x.
Proof.
  destruct (refs y_f) as [|i [|k l]] eqn:RF.
  1: exfalso; apply (f_equal (@length obj)) in RF; vm_compute in RF; discriminate.
  2: exfalso; apply (f_equal (@length obj)) in RF; vm_compute in RF; discriminate.
  destruct (abstract_f_ihlp 40 41 y_f) as [g|] eqn:EG.
  2: exfalso; apply (f_equal (fun o => match o with Some _ => true | None => false end)) in EG; vm_compute in EG; discriminate.
  destruct (refs g) as [|j l] eqn:RG.
  { exfalso. destruct (abstract_spec _ _ _ _ EG) as (i' & j' & hlp' & X1 & X2 & X3 & _). rewrite RG in X3. discriminate. }
  exists 3, 50%Z, 1%Z, y_map, y_term, y_hlp, y_tree, y_tpl, 40%Z, false, y_f, i, 40%Z, 41%Z, g, j, 4, 2, 1.
  assert (NI : nth_error (refs y_f) 0 = Some i) by (rewrite RF; reflexivity).
  destruct (position_spec 3 50 1 y_map y_term y_hlp y_tree y_tpl 40 false y_f i y_meant y_ready y_template y_f_is y_fits NI) as (P1 & _).
  destruct (P1 4) as (p & w & PP & NW & MW); [vm_compute; auto|].
  assert (p = 1) by (apply Nat2Z.inj; rewrite <- PP; reflexivity). subst p.
  split; [exact y_meant|]. split; [exact y_ready|]. split; [exact y_template|]. split; [exact y_f_is|]. split; [exact y_fits|]. split; [exact NI|].
  split; [exact EG|]. split; [rewrite RG; reflexivity|]. split; [reflexivity|]. split; [exists w; split; assumption|]. split.
  - destruct (abstract_spec _ _ _ _ EG) as (i' & j' & hlp' & X1 & X2 & X3 & _ & _ & _ & _ & _ & _ & _ & _ & X4).
    rewrite RG in X3. injection X3 as -> ->. rewrite NI in X1. injection X1 as <-. rewrite X4.
    assert (L2 : length (elements i 2) = 1 /\ length (elements i 3) = 2).
    { assert (A : match nth_error (refs y_f) 0 with Some i => length (elements i 2) = 1 /\ length (elements i 3) = 2 | None => False end) by (vm_compute; split; reflexivity).
      rewrite NI in A. exact A. }
    destruct L2 as (-> & ->). reflexivity.
  - discriminate.
Qed.

(** ** C137 is false: the arguments of (ti : :) *)
Definition z_hlp : obj :=
  Obj (listed [AObject 20 5; ptr 6; ptr 11; ptr 13; ptr 14; one; ASet 1; ptr 8; AObject 50 2; VLPointer 0; VLPointer 1; ASet 1; RPointer 0; ASet 0; ASet 0]) 15
    [Obj (listed [AObject 1 5; RPointer 0; VLPointer 2; VLPointer 3; one; one]) 6 [y_ent]].
Definition z_map : hmap := mkh [Some (StructureV (y_time 10)); Some (StructureV (y_time 20)); Some (StructureV (y_time 100)); Some (StructureV (y_time 200))] 2 2 3.
Definition z_term (x : nat) : term :=
  match x with 0 => TRaw ATimestamp [0%Z; 10%Z] | 1 => TRaw ATimestamp [0%Z; 20%Z] | 2 => TRaw ATimestamp [0%Z; 100%Z] | _ => TRaw ATimestamp [0%Z; 200%Z] end.
Definition z_tree : tree := Bp_spec.Node (ASet 1) [Bp_spec.Node (AObject 50 2) [Leaf (VLPointer 0); Leaf (VLPointer 1)]].
Definition z_tpl : term := TStr (ASet 1) [TStr (AObject 50 2) [TVar 0; TVar 1]].
Lemma z_meant : meant 3 z_map z_term.
Proof.
  intros x L. cbn in L. destruct x as [|[|[|[|x]]]]; [..|lia]; (eexists; split; [reflexivity|]; apply time_stands; discriminate).
Qed.
Lemma z_ready : ready z_map.
Proof. exists 2, 3. cbn. repeat split; try lia. Qed.
Lemma z_template : template z_hlp z_tree z_tpl.
Proof.
  split; [reflexivity|]. split; [|split; [cbn; auto|]].
  - pose proof (shows_node anywhere anywhere (word z_hlp) (word z_hlp 1) [Bp_spec.Node (AObject 50 2) [Leaf (VLPointer 0); Leaf (VLPointer 1)]]) as Q. apply Q.
    + reflexivity.
    + exact Logic.I.
    + reflexivity.
    + vm_compute; discriminate.
    + intros; exact Logic.I.
    + constructor; [|constructor].
      pose proof (shows_node anywhere anywhere (word z_hlp) (ptr 8) [Leaf (VLPointer 0); Leaf (VLPointer 1)]) as Q2. apply Q2.
      * reflexivity.
      * exact Logic.I.
      * reflexivity.
      * vm_compute; discriminate.
      * intros; exact Logic.I.
      * constructor; [constructor; vm_compute; discriminate|]. constructor; [constructor; vm_compute; discriminate|constructor].
  - intro l. apply means_str; [vm_compute; discriminate|]. constructor; [|constructor]. apply means_str; [vm_compute; discriminate|].
    constructor; [exact (means_var free l (VLPointer 0) eq_refl)|]. constructor; [exact (means_var free l (VLPointer 1) eq_refl)|constructor].
Qed.

Lemma trip_refuted : exists fuel ti fact h h2 s hlp tr T op wr f h3 x,
  meant fuel h s /\ ready h /\ timed h /\ alike h h2 /\ template hlp tr T /\ height tr <= fuel /\
  (exists b, In (x, b) (vars (AObject ti 2) false T)) /\ knows h x /\
  build_f_ihlp fuel ti fact h hlp op wr = Some f /\ fits f /\
  init_from_f_ihlp fuel h2 f = Some h3 /\ ~ gives fuel h3 x (s x).
Proof.
  destruct (build_f_ihlp 3 50 1 z_map z_hlp 40 false) as [f|] eqn:EF.
  2: exfalso; apply (f_equal (fun o => match o with Some _ => true | None => false end)) in EF; vm_compute in EF; discriminate.
  assert (FF : match build_f_ihlp 3 50 1 z_map z_hlp 40 false with Some f => fits_b 5 f | None => false end = true) by (vm_compute; reflexivity).
  rewrite EF in FF. apply fits_true in FF.
  set (h2 := mkh (repeat (Some Unbound) 4) 2 2 3).
  assert (FI : match build_f_ihlp 3 50 1 z_map z_hlp 40 false with
               | Some f => match init_from_f_ihlp 3 h2 f with Some h3 => nth_error (vals h3) 0 = Some (Some (AtomV (VLPointer 0))) | None => False end
               | None => False end) by (vm_compute; reflexivity).
  rewrite EF in FI. destruct (init_from_f_ihlp 3 h2 f) as [h3|] eqn:EI; [|contradiction].
  exists 3, 50%Z, 1%Z, z_map, h2, z_term, z_hlp, z_tree, z_tpl, 40%Z, false, f, h3, 0.
  split; [exact z_meant|]. split; [exact z_ready|]. split; [intros z [-> | ->]; eexists; reflexivity|]. split; [repeat split; reflexivity|].
  split; [exact z_template|]. split; [vm_compute; lia|]. split; [exists true; vm_compute; left; reflexivity|].
  split; [eexists; split; [reflexivity|discriminate]|]. split; [exact EF|]. split; [exact FF|]. split; [exact EI|].
  intros (v & V & ST). rewrite FI in V. injection V as <-. destruct ST as (T0 & _). discriminate T0.
Qed.

(** A template variable without a value becomes one that has a value. *)
Lemma unbound_refuted : exists fuel ti fact h h2 s hlp tr T op wr f h3 x,
  meant fuel h s /\ ready h /\ timed h /\ alike h h2 /\ template hlp tr T /\ height tr <= fuel /\
  In (x, false) (vars (AObject ti 2) false T) /\ ~ knows h x /\ ~ knows h2 x /\
  build_f_ihlp fuel ti fact h hlp op wr = Some f /\ fits f /\
  init_from_f_ihlp fuel h2 f = Some h3 /\ knows h3 x.
Proof.
  set (h := mkh [Some Unbound; Some (ObjectV y_ent); Some (StructureV (y_time 100)); Some (StructureV (y_time 200)); Some (AtomV 45)] 1 2 3).
  set (h2 := mkh (repeat (Some Unbound) 5) 1 2 3).
  destruct (build_f_ihlp 3 50 1 h y_hlp 40 false) as [f|] eqn:EF.
  2: exfalso; apply (f_equal (fun o => match o with Some _ => true | None => false end)) in EF; vm_compute in EF; discriminate.
  assert (FF : match build_f_ihlp 3 50 1 h y_hlp 40 false with Some f => fits_b 5 f | None => false end = true) by (vm_compute; reflexivity).
  rewrite EF in FF. apply fits_true in FF.
  assert (FI : match build_f_ihlp 3 50 1 h y_hlp 40 false with
               | Some f => match init_from_f_ihlp 3 h2 f with Some h3 => nth_error (vals h3) 0 = Some (Some (AtomV (VLPointer 0))) | None => False end
               | None => False end) by (vm_compute; reflexivity).
  rewrite EF in FI. destruct (init_from_f_ihlp 3 h2 f) as [h3|] eqn:EI; [|contradiction].
  exists 3, 50%Z, 1%Z, h, h2, (fun x => match x with 0 => TVar 0 | _ => y_term x end), y_hlp, y_tree, y_tpl, 40%Z, false, f, h3, 0.
  split.
  { intros x L. cbn in L. destruct x as [|x]; [eexists; split; [reflexivity|reflexivity]|]. destruct (y_meant (S x) L) as (v & V & ST). exists v. split; [|exact ST].
    cbn. cbn in V. exact V. }
  split; [exists 2, 3; cbn; repeat split; lia|]. split; [intros z [-> | ->]; eexists; reflexivity|]. split; [repeat split; reflexivity|].
  split; [exact y_template|]. split; [vm_compute; lia|]. split; [vm_compute; left; reflexivity|].
  split; [intros (v & V & N); injection V as <-; contradiction|]. split; [intros (v & V & N); injection V as <-; contradiction|].
  split; [exact EF|]. split; [exact FF|]. split; [exact EI|]. eexists. split; [exact FI|discriminate].
Qed.

(** ** C136 is false: a duration in a template *)
Definition d_hlp : obj :=
  Obj (listed [AObject 20 5; ptr 6; ptr 11; ptr 13; ptr 14; one; ASet 1; ptr 8; ADuration; 0%Z; VLPointer 0; ASet 1; RPointer 0; ASet 0; ASet 0]) 15
    [Obj (listed [AObject 1 5; RPointer 0; VLPointer 1; VLPointer 2; one; one]) 6 [Obj (listed [AObject 31 1; VLPointer 0]) 2 []]].
Definition d_map : hmap := mkh [Some (AtomV 44); Some (StructureV (y_time 100)); Some (StructureV (y_time 200))] 0 1 2.
Definition d_term (x : nat) : term := match x with 0 => TAtom 44 | 1 => TRaw ATimestamp [0%Z; 100%Z] | _ => TRaw ATimestamp [0%Z; 200%Z] end.
Definition d_tree : tree := Bp_spec.Node (ASet 1) [Raw ADuration [0%Z; VLPointer 0]].
Definition d_tpl : term := TStr (ASet 1) [TRaw ADuration [0%Z; VLPointer 0]].
Lemma d_meant : meant 3 d_map d_term.
Proof.
  intros x L. cbn in L. destruct x as [|[|[|x]]]; [..|lia]; (eexists; split; [reflexivity|]).
  - apply atom_stands; reflexivity.
  - apply time_stands; discriminate.
  - apply time_stands; discriminate.
Qed.

Lemma build_refuted : exists fuel ti fact h s hlp tr T H op wr f,
  meant fuel h s /\ ready h /\ getDescriptor (word hlp 1) = I_PTR /\ shows anywhere anywhere (word hlp) (word hlp 1) tr /\
  (forall l, means free l tr T) /\ says free hlp H /\ build_f_ihlp fuel ti fact h hlp op wr = Some f /\ fits f /\
  ~ says free f (instance fact op H (fill (AObject ti 2) s false T) (map s (exposed h)) wr
      (s (Z.to_nat (fwd_after h))) (s (Z.to_nat (fwd_before h)))).
Proof.
  destruct (build_f_ihlp 3 50 1 d_map d_hlp 40 false) as [f|] eqn:EF.
  2: exfalso; apply (f_equal (fun o => match o with Some _ => true | None => false end)) in EF; vm_compute in EF; discriminate.
  assert (FF : match build_f_ihlp 3 50 1 d_map d_hlp 40 false with Some f => fits_b 5 f | None => false end = true) by (vm_compute; reflexivity).
  rewrite EF in FF. apply fits_true in FF.
  destruct (read (fun _ _ => true) 9 d_hlp) as [H|] eqn:RH.
  2: exfalso; apply (f_equal (fun o => match o with Some _ => true | None => false end)) in RH; vm_compute in RH; discriminate.
  exists 3, 50%Z, 1%Z, d_map, d_term, d_hlp, d_tree, d_tpl, H, 40%Z, false, f.
  split; [exact d_meant|]. split; [exists 1, 2; cbn; repeat split; lia|]. split; [reflexivity|]. split.
  { pose proof (shows_node anywhere anywhere (word d_hlp) (word d_hlp 1) [Raw ADuration [0%Z; VLPointer 0]]) as Q. apply Q.
    - reflexivity.
    - exact Logic.I.
    - reflexivity.
    - vm_compute; discriminate.
    - intros; exact Logic.I.
    - constructor; [|constructor]. pose proof (shows_raw anywhere anywhere (word d_hlp) (ptr 8)) as Q2. apply Q2.
      + reflexivity.
      + exact Logic.I.
      + reflexivity.
      + intros; exact Logic.I. }
  split. { intro l. apply means_str; [vm_compute; discriminate|]. constructor; [|constructor]. apply means_raw. }
  split; [apply (read_free 9); exact RH|]. split; [exact EF|]. split; [exact FF|].
  intro SY.
  destruct (read (fun _ _ => true) 12 f) as [R|] eqn:RR.
  2:{ assert (A : match build_f_ihlp 3 50 1 d_map d_hlp 40 false with Some f => match read (fun _ _ => true) 12 f with Some _ => true | None => false end | None => false end = true) by (vm_compute; reflexivity).
      rewrite EF, RR in A. discriminate. }
  pose proof (says_fun _ _ _ (read_free _ _ _ RR) SY) as EQ.
  assert (A : match build_f_ihlp 3 50 1 d_map d_hlp 40 false with
              | Some f => match read (fun _ _ => true) 12 f with
                          | Some (TObj _ (TObj _ (_ :: TStr _ [TRaw _ [_; w]] :: _) :: _)) => w = 44%Z
                          | _ => False end
              | None => False end) by (vm_compute; reflexivity).
  rewrite EF, RR, EQ in A. vm_compute in A. discriminate.
Qed.

(** ** C139 is false: a string *)
Definition s_str : Z := (VL_PTR * 16777216 + 9)%Z.
Definition s_hlp : obj :=
  Obj (listed [AObject 20 5; ptr 6; ptr 7; ptr 9; ptr 10; one; ASet 0; ASet 1; RPointer 0; ASet 0; ASet 0]) 11
    [Obj (listed [AObject 1 5; RPointer 0; VLPointer 1; VLPointer 2; one; one]) 6 [Obj (listed [AObject 31 2; VLPointer 0; ptr 3; AString 4; s_str]) 5 []]].
(** The packed form has the words of the objects in one code. *)
Definition s_packed : obj :=
  Obj (listed [AObject 20 5; ptr 6; ptr 7; ptr 20; ptr 21; one; ASet 0; ASet 1; ptr 9; AObject 1 5; ptr 15; VLPointer 1; VLPointer 2; one; one;
    AObject 31 2; VLPointer 0; ptr 18; AString 4; s_str; ASet 0; ASet 0]) 22 [].
Lemma steps_known : forall o k, size o <= size o + 1 -> starts o k -> In k (walk (size o) (word o) (size o) 1).
Proof. intros o k _ H. apply (walk_all (size o) (word o) (size o) 1); [lia|exact H]. Qed.
Lemma map_refuted : exists fuel hlp packed tr T h x y, template hlp tr T /\ height tr <= fuel /\ vars 0 false T = [] /\
  init_from_hlp fuel hlp packed = Some h /\ ~ occurs packed x /\ nth_error (vals h) x = Some (Some Unbound) /\
  nth_error (vals h) y = Some None.
Proof.
  exists 2, s_hlp, s_packed, (Bp_spec.Node (ASet 0) []), (TStr (ASet 0) []).
  assert (A : match init_from_hlp 2 s_hlp s_packed with Some h => nth_error (vals h) 9 = Some (Some Unbound) /\ nth_error (vals h) 5 = Some None | None => False end)
    by (vm_compute; split; reflexivity).
  destruct (init_from_hlp 2 s_hlp s_packed) as [h|]; [|contradiction]. destruct A as (A1 & A2). exists h, 9, 5.
  split.
  { split; [reflexivity|]. split; [|split; [cbn; auto|]].
    - pose proof (shows_node anywhere anywhere (word s_hlp) (word s_hlp 1) []) as Q. apply Q.
      + reflexivity.
      + exact Logic.I.
      + reflexivity.
      + vm_compute; discriminate.
      + intros; exact Logic.I.
      + constructor.
    - intro l. apply means_str; [vm_compute; discriminate|constructor]. }
  split; [vm_compute; lia|]. split; [reflexivity|]. split; [reflexivity|]. split; [|split; assumption].
  intros (k & K & V & P). apply steps_known in K; [|lia].
  assert (B : forallb (fun k => negb ((getDescriptor (word s_packed k) =? VL_PTR)%Z && (place (word s_packed k) =? 9))) (walk (size s_packed) (word s_packed) (size s_packed) 1) = true)
    by (vm_compute; reflexivity).
  rewrite forallb_forall in B. specialize (B k K). rewrite V, P in B. discriminate.
Qed.

(** ** Examples *)
Definition y_packed : obj :=
  Obj (listed [AObject 20 5; ptr 6; ptr 8; ptr 19; ptr 20; one; ASet 1; VLPointer 0; ASet 1; ptr 10; AObject 1 5; ptr 16; VLPointer 2; VLPointer 3; one; one;
    AObject 30 2; VLPointer 1; VLPointer 4; ASet 0; ASet 0]) 21 [].
Lemma y_clear : clear_code y_packed.
Proof.
  intros k K V. apply starts_true.
  assert (B : forallb (fun k => starts_b y_packed k) (seq 1 20) = true) by (vm_compute; reflexivity).
  rewrite forallb_forall in B. apply B. apply in_seq. cbn in K. lia.
Qed.
Lemma y_occurs : forall x, occurs y_packed x -> x < 256.
Proof.
  intros x (k & K & V & <-). apply steps_range in K.
  assert (C : forallb (fun k => if (getDescriptor (word y_packed k) =? VL_PTR)%Z then place (word y_packed k) <? 256 else true) (seq 1 20) = true) by (vm_compute; reflexivity).
  rewrite forallb_forall in C. specialize (C k). cbn [size y_packed] in K. specialize (C ltac:(apply in_seq; lia)).
  rewrite V in C. change (VL_PTR =? VL_PTR)%Z with true in C. cbn iota in C. apply Nat.ltb_lt. exact C.
Qed.
Lemma y_init : init_from_hlp 3 y_hlp y_packed = Some (mkh (repeat (Some Unbound) 5) 1 2 3).
Proof. vm_compute. reflexivity. Qed.
