From Verif Require Import Base Atom_model Atom_proofs Bp_model Bp_spec Bp_proofs Bp2_proofs.
Local Open Scope nat_scope.

(** What was held can be held again, or put in an object: it is the same structure. *)
Lemma hold_spec : forall fuel src w t, shows anywhere anywhere src w t -> getDescriptor w = I_PTR ->
  tame t -> height t <= fuel -> tsize t <= limit ->
  exists m, hold fuel src w = Some m /\ shows anywhere anywhere m (ptr 0) t.
Proof.
  intros fuel src w t S0 D T H L.
  destruct (copy_tree t fuel src (fun _ => UndefinedAtom) 0 w S0 D T H L) as (m & E & S1 & _).
  exists m. unfold hold. rewrite E. split; [reflexivity|].
  revert S1. apply shows_weaken; intros; exact Logic.I.
Qed.

(** * Witnesses *)

(** A time whose low word looks like an internal pointer. *)
Definition w_time (low : Z) : mem := fun i => match i with 0 => ATimestamp | 1 => 5%Z | 2 => low | _ => 0%Z end.

Lemma w_time_shows : forall low, shows anywhere anywhere (w_time low) (ptr 0) (Raw ATimestamp [5%Z; low]).
Proof.
  intro low. exact (shows_raw anywhere anywhere (w_time low) (ptr 0) eq_refl Logic.I eq_refl (fun _ _ => Logic.I)).
Qed.

Lemma copy_refuted : exists src w t fuel ext dst' e, shows anywhere anywhere src w t /\ getDescriptor w = I_PTR /\
  height t <= fuel /\ ext + tsize t <= limit /\
  copy_structure fuel src (fun _ => UndefinedAtom) ext (place w) = Some (dst', e) /\
  ~ shows anywhere anywhere dst' (ptr ext) t.
Proof.
  exists (w_time 0x84000003), (ptr 0), (Raw ATimestamp [5%Z; 0x84000003%Z]), 2, 1.
  destruct (copy_structure 2 (w_time 0x84000003) (fun _ => UndefinedAtom) 1 (place (ptr 0))) as [[d e]|] eqn:E;
    [|vm_compute in E; discriminate].
  exists d, e. split; [apply w_time_shows|]. split; [reflexivity|]. split; [cbn; lia|].
  split; [pose proof limit_is; cbn [tsize length]; lia|]. split; [reflexivity|].
  assert (d 3 = 0x84000003%Z -> False) as X.
  { vm_compute in E. injection E as <- _. vm_compute. discriminate. }
  intro S0. assert (d 1 = ATimestamp) as D0 by (vm_compute in E; injection E as <- _; reflexivity).
  clear E. inversion S0 as [|w D Q R A EW [EH EL]|]; subst.
  change (place (ptr 1)) with 1 in EL. rewrite D0 in EL. change (count ATimestamp) with 2 in EL.
  cbn in EL. injection EL as _ EL. exact (X EL).
Qed.

Lemma loop_none : forall fuel dst ext, copy_structure fuel (w_time 0x84000000) dst ext 0 = None.
Proof.
  induction fuel as [|fuel IH]; intros dst ext; [reflexivity|].
  cbn [copy_structure]. change (count (w_time 0x84000000 0)) with 2. cbn [Nat.add copy_words].
  change (getDescriptor (w_time 0x84000000 0%nat) =? I_PTR)%Z with false.
  change (getDescriptor (w_time 0x84000000 1%nat) =? I_PTR)%Z with false.
  change (getDescriptor (w_time 0x84000000 2%nat) =? I_PTR)%Z with true. cbn iota.
  change (place (w_time 0x84000000 2)) with 0. rewrite IH. reflexivity.
Qed.

Lemma ends_refuted : exists src w t, shows anywhere anywhere src w t /\ getDescriptor w = I_PTR /\
  height t = 1 /\ tsize t = 3 /\
  forall fuel dst ext, copy_structure fuel src dst ext (place w) = None.
Proof.
  exists (w_time 0x84000000), (ptr 0), (Raw ATimestamp [5%Z; 0x84000000%Z]).
  split; [apply w_time_shows|]. split; [reflexivity|]. split; [reflexivity|]. split; [reflexivity|].
  exact loop_none.
Qed.

(** A structure with a reference, and a pattern that has references of its own. *)
Definition w_a : obj := Obj (fun i => match i with 0 => AObject 7 1 | _ => 11%Z end) 2 [].
Definition w_b : obj := Obj (fun i => match i with 0 => AObject 7 1 | _ => 22%Z end) 2 [].
Definition w_src : obj := Obj (fun i => match i with 0 => AObject 8 1 | 1 => ptr 2 | 2 => ASet 1 | _ => RPointer 0 end) 4 [w_a].
Definition w_pat : obj := Obj (fun i => match i with 0 => AObject 9 2 | 1 => RPointer 0 | _ => VLPointer 0 end) 3 [w_b].
Definition w_value : term := TStr (ASet 1) [TObj (AObject 7 1) [TAtom 11]].
Definition w_says : term := TObj (AObject 9 2) [TObj (AObject 7 1) [TAtom 22]; TVar 0].

Definition w_map (m : mem) : nat -> value := fun _ => StructureV m.

Lemma w_value_means : means free (refs w_src) (Bp_spec.Node (ASet 1) [Leaf (RPointer 0)]) w_value.
Proof.
  apply means_str; [discriminate|]. constructor; [|constructor].
  apply (means_ref free (refs w_src) (RPointer 0) w_a [Leaf 11%Z] [TAtom 11%Z]); [reflexivity|reflexivity|intros; exact Logic.I| |].
  - constructor; [constructor; discriminate|constructor].
  - constructor; [apply means_atom; discriminate|constructor].
Qed.

Lemma w_value_shows : shows anywhere anywhere (word w_src) (word w_src 1) (Bp_spec.Node (ASet 1) [Leaf (RPointer 0)]).
Proof.
  apply (shows_node anywhere anywhere (word w_src) (ptr 2) [Leaf (RPointer 0)]);
    [reflexivity|exact Logic.I|reflexivity|discriminate|intros; exact Logic.I|].
  constructor; [|constructor]. constructor. discriminate.
Qed.

Lemma w_pat_says : says starts w_pat w_says.
Proof.
  exists [Leaf (RPointer 0); Leaf (VLPointer 0)], [TObj (AObject 7 1) [TAtom 22]; TVar 0].
  split; [reflexivity|]. split.
  { intros j L. assert (j < 2) as L2 by exact L. unfold starts. cbn [word size w_pat].
    destruct j as [|[|j]]; [apply steps_here; lia| |lia].
    apply (steps_next _ 3 1 1); [apply steps_here; lia|reflexivity|lia]. }
  split.
  - constructor; [constructor; discriminate|]. constructor; [constructor; discriminate|constructor].
  - constructor.
    + apply (means_ref starts (refs w_pat) (RPointer 0) w_b [Leaf 22%Z] [TAtom 22%Z]); [reflexivity|reflexivity| | |].
      * intros j L. assert (j < 1) as L1 by exact L. unfold starts. cbn [word size w_b].
        destruct j as [|j]; [apply steps_here; lia|lia].
      * constructor; [constructor; discriminate|constructor].
      * constructor; [apply means_atom; discriminate|constructor].
    + constructor; [|constructor]. exact (means_var starts (refs w_pat) (VLPointer 0) eq_refl).
Qed.

Lemma w_a_whole : forall h c, raw h = false -> raw c = false ->
  whole (Obj (fun i => match i with 0 => h | _ => c end) 2 []).
Proof.
  intros h c H C. constructor; [|intros o []]. intros [|k] _ R; cbn in R; congruence.
Qed.

Lemma w_pat_whole : whole w_pat.
Proof.
  constructor.
  - intros [|[|k]] _ R; vm_compute in R; discriminate.
  - intros o [<-|[]]. apply w_a_whole; reflexivity.
Qed.

(** Full statement refuted: the value was read in [w_src], where it refers to [w_a]; in
    the bound pattern it refers to [w_b]. *)
Lemma bind_refuted : exists fuel src w tr v m o T r kept,
  shows anywhere anywhere (word src) w tr /\ getDescriptor w = I_PTR /\ tame tr /\ means free (refs src) tr v /\
  hold fuel (word src) w = Some m /\
  whole o /\ says starts o T /\ fits r /\
  bind_pattern fuel kept (fun _ => StructureV m) o = Some r /\
  ~ says free r (subst kept (fun _ => v) T).
Proof.
  exists 3, w_src, (word w_src 1), (Bp_spec.Node (ASet 1) [Leaf (RPointer 0)]), w_value.
  destruct (hold 3 (word w_src) (word w_src 1)) as [m|] eqn:E; [|vm_compute in E; discriminate].
  destruct (bind_pattern 3 (fun _ => false) (fun _ => StructureV m) w_pat) as [r|] eqn:B.
  2:{ vm_compute in E. injection E as <-. vm_compute in B. discriminate. }
  exists m, w_pat, w_says, r, (fun _ => false).
  assert (R : word r 0 = AObject 9 2 /\ word r 1 = RPointer 0 /\ word r 2 = ptr 3 /\ word r 3 = ASet 1 /\ word r 4 = RPointer 0 /\
    refs r = [w_b] /\ size r = 5).
  { vm_compute in E. injection E as <-. vm_compute in B. injection B as <-. vm_compute. repeat split. }
  clear E. destruct R as (R0 & R1 & R2 & R3 & R4 & RR & RS).
  split; [exact w_value_shows|]. split; [reflexivity|]. split; [cbn; tauto|]. split; [exact w_value_means|].
  split; [reflexivity|]. split; [exact w_pat_whole|]. split; [exact w_pat_says|].
  split.
  { clear B. destruct r as [rm rs rl]. cbn [word size refs] in *. subst rs rl. pose proof limit_is.
    constructor; [lia|cbn [length]; lia|]. intros o [<-|[]]. constructor; [lia|cbn [length]; lia|intros o []]. }
  split; [exact B|]. clear B.
  intros (tr & ts & ET & _ & S0 & M).
  rewrite R0 in S0. change (count (AObject 9 2)) with 2 in S0. cbn [words map seq] in S0. rewrite R1, R2 in S0.
  inversion S0 as [|? ? ? ? _ S1]; subst. inversion S1 as [|? t2 ? ? S2 _]; subst. clear S0 S1.
  injection ET as _ <-. inversion M as [|? ? ? ? _ M1]; subst. inversion M1 as [|? ? ? ? M2 _]; subst. clear M M1.
  inversion M2 as [| | | |? ? tr2 ? _ M3]; subst. inversion M3 as [|? ? ? ? M4 M5]; subst. inversion M5; subst. clear M2 M3 M5.
  remember (ptr 3) as w eqn:Ew. inversion S2 as [| |? ? D Q R N A F2 EW EN]; subst.
  change (place (ptr 3)) with 3 in *. rewrite R3 in F2. change (count (ASet 1)) with 1 in F2.
  cbn [words map seq Nat.add] in F2. rewrite R4 in F2. inversion F2 as [|? ? ? ? S3 _]; subst.
  inversion S3; subst; [|discriminate|discriminate].
  inversion M4 as [|? ? o tr3 ts3 D3 N3 _ S4 M6 EL EO| | |]; subst.
  rewrite RR in N3. change (place (RPointer 0)) with 0 in N3. cbn in N3. injection N3 as <-.
  change (words (word w_b) 1 (count (word w_b 0))) with [22%Z] in S4.
  inversion S4 as [|? ? ? ? S5 _]; subst. inversion S5; subst.
  - inversion M6 as [|? ? ? ? M7 _]; subst. inversion M7.
  - discriminate.
  - discriminate.
Qed.

(** A case of the theorem: a structure, an atom, an object. *)
Definition x_set : mem := fun i => match i with 0 => ASet 2 | 1 => ptr 3 | 2 => 44%Z | 3 => ATimestamp | 4 => 1%Z | 5 => 2%Z | _ => 0%Z end.
Definition x_tree : tree := Bp_spec.Node (ASet 2) [Raw ATimestamp [1%Z; 2%Z]; Leaf 44%Z].
Definition x_values (x : nat) : value := match x with 0 => StructureV x_set | 1 => AtomV 33 | 2 => ObjectV w_a | _ => Unbound end.
Definition x_terms (x : nat) : term :=
  match x with
  | 0 => TStr (ASet 2) [TRaw ATimestamp [1%Z; 2%Z]; TAtom 44]
  | 1 => TAtom 33
  | 2 => TObj (AObject 7 1) [TAtom 11]
  | _ => TVar x
  end.

Lemma x_shows : shows anywhere anywhere x_set (ptr 0) x_tree.
Proof.
  apply (shows_node anywhere anywhere x_set (ptr 0) [Raw ATimestamp [1%Z; 2%Z]; Leaf 44%Z]);
    [reflexivity|exact Logic.I|reflexivity|discriminate|intros; exact Logic.I|].
  constructor.
  - exact (shows_raw anywhere anywhere x_set (ptr 3) eq_refl Logic.I eq_refl (fun _ _ => Logic.I)).
  - constructor; [constructor; discriminate|constructor].
Qed.

Lemma x_tame : tame x_tree.
Proof. cbn [tame x_tree fold_right]. split; [repeat constructor; discriminate|split; exact Logic.I]. Qed.

Lemma x_stands : forall x, x < limit -> stands 2 x (x_values x) (x_terms x).
Proof.
  intros [|[|[|x]]] _; cbn [stands x_values x_terms].
  - exists x_tree. split; [exact x_shows|]. split; [exact x_tame|]. split; [cbn; lia|].
    intro l. apply means_str; [discriminate|].
    constructor; [apply means_raw|]. constructor; [apply means_atom; discriminate|constructor].
  - split; [reflexivity|]. repeat split; discriminate.
  - exists [Leaf 11%Z], [TAtom 11%Z]. split; [reflexivity|]. split; [intros; exact Logic.I|].
    split; (constructor; [|constructor]).
    + constructor; discriminate.
    + apply means_atom; discriminate.
  - reflexivity.
Qed.
