From Verif Require Import Base Atom_model Atom_proofs Bp_model Bp_spec Bp_proofs Bp2_proofs Bp3_proofs Inst_model Inst_spec.
Local Open Scope nat_scope.

(** * The word written for a value *)

Definition carries (fuel : nat) (ok : nat -> Prop) (m : mem) (l : list obj) (w : Z) (x : nat) (v : value) (t : term) : Prop :=
  match v with
  | Unbound => w = VLPointer (Z.of_nat x) /\ t = TVar x
  | AtomV a => w = a /\ t = TAtom a /\ getDescriptor a <> I_PTR /\ getDescriptor a <> VL_PTR /\ getDescriptor a <> R_PTR
  | StructureV _ => exists tr, getDescriptor w = I_PTR /\ shows ok ok m w tr /\ tame tr /\ height tr <= fuel /\
      tsize tr <= limit /\ forall l, means free l tr t
  | ObjectV o => getDescriptor w = R_PTR /\ nth_error l (place w) = Some o /\ says free o t
  end.

Lemma valuate_carries : forall fuel v t x dst i ext l dst' ext' l',
  stands fuel x v t -> x < limit -> i < ext ->
  valuate fuel (fun _ => v) x dst i ext l = Some (dst', ext', l') ->
  ext' <= limit -> length l' <= limit ->
  ext <= ext' /\ (exists l2, l' = l ++ l2) /\
  (forall k, k < ext -> k <> i -> dst' k = dst k) /\
  carries fuel (within ext ext') dst' l' (dst' i) x v t.
Proof.
  intros fuel v t x dst i ext l dst' ext' l' ST X I E B1 B2. unfold valuate in E. unfold stands in ST.
  destruct v as [|a|m|o]; unfold carries.
  - injection E as <- <- <-. split; [lia|]. split; [exists []; rewrite app_nil_r; reflexivity|].
    split; [intros k _ K; apply write_neq; exact K|]. rewrite write_eq. split; [reflexivity|exact ST].
  - injection E as <- <- <-. split; [lia|]. split; [exists []; rewrite app_nil_r; reflexivity|].
    split; [intros k _ K; apply write_neq; exact K|]. rewrite write_eq. split; [reflexivity|exact ST].
  - destruct ST as (tr & S0 & T & H & M).
    assert (P0 : 0 < limit) by exact limit_pos.
    pose proof (ptr_desc 0 P0) as D0. pose proof (ptr_place 0 P0) as PL0.
    destruct (extend_tree tr fuel m (write dst i (ptr ext)) ext (ptr 0) S0 D0 T H) as (d0 & E0).
    rewrite PL0 in E0. rewrite E0 in E. injection E as <- <- <-.
    destruct (copy_tree tr fuel m (write dst i (ptr ext)) ext (ptr 0) S0 D0 T H B1) as (d1 & E1 & S1 & Fr).
    rewrite PL0 in E1. rewrite E1 in E0. injection E0 as <-.
    pose proof (tsize_pos _ _ _ _ _ S0 D0) as TP.
    split; [lia|]. split; [exists []; rewrite app_nil_r; reflexivity|].
    split.
    + intros k K1 K2. rewrite Fr by lia. apply write_neq; exact K2.
    + exists tr. rewrite (Fr i) by lia. rewrite write_eq.
      split; [apply ptr_desc; lia|]. split; [exact S1|]. split; [exact T|]. split; [exact H|]. split; [lia|exact M].
  - injection E as <- <- <-. split; [lia|]. split; [exists [o]; reflexivity|].
    split; [intros k _ K; apply write_neq; exact K|].
    rewrite app_length in B2. cbn [length] in B2. rewrite write_eq.
    pose proof (rptr_desc (length l) ltac:(lia)) as D. pose proof (rptr_place (length l) ltac:(lia)) as PL.
    split; [exact D|]. split; [|exact ST]. rewrite PL, nth_error_app2, Nat.sub_diag by lia. reflexivity.
Qed.

Lemma carries_means : forall fuel ok m l w x v t, x < limit -> carries fuel ok m l w x v t ->
  exists tr, shows ok ok m w tr /\ means free l tr t.
Proof.
  intros fuel ok m l w x v t X C. unfold carries in C. destruct v as [|a|s|o].
  - destruct C as (-> & ->). exists (Leaf (VLPointer (Z.of_nat x))). split.
    + constructor. rewrite vlptr_desc by exact X. discriminate.
    + pose proof (means_var free l (VLPointer (Z.of_nat x)) (vlptr_desc x X)) as M.
      rewrite vlptr_place in M by exact X. exact M.
  - destruct C as (-> & -> & N1 & N2 & N3). exists (Leaf a). split; [constructor; exact N1|apply means_atom; assumption].
  - destruct C as (tr & _ & S0 & _ & _ & _ & M). exists tr. split; [exact S0|apply M].
  - destruct C as (D & N & tr & ts & -> & Q & S0 & M). exists (Leaf w).
    split; [constructor; rewrite D; discriminate|]. apply means_ref with (tr := tr); auto.
Qed.

Lemma carries_agree : forall fuel (ok ok' : nat -> Prop) m m' l l2 w x v t,
  (forall i, ok i -> m i = m' i) -> (forall i, ok i -> ok' i) ->
  carries fuel ok m l w x v t -> carries fuel ok' m' (l ++ l2) w x v t.
Proof.
  intros fuel ok ok' m m' l l2 w x v t A W C. unfold carries in *. destruct v as [|a|s|o]; try exact C.
  - destruct C as (tr & D & S0 & T & H & Z0 & M). exists tr. split; [exact D|].
    split; [|repeat split; assumption].
    apply shows_weaken with (ok := ok) (okr := ok); [exact W|exact W|].
    apply shows_agree with (m := m); assumption.
  - destruct C as (D & N & Sy). split; [exact D|]. split; [|exact Sy].
    rewrite nth_error_app1; [exact N|]. apply nth_error_Some. rewrite N; discriminate.
Qed.

Lemma valuate_more : forall fuel vs x i m e l m' e' l', valuate_at fuel vs x i (m, e, l) = Some (m', e', l') ->
  e <= e' /\ exists l2, l' = l ++ l2.
Proof.
  intros fuel vs x i m e l m' e' l' E. unfold valuate_at in E. destruct (value_at vs x) as [v|]; [|discriminate].
  unfold valuate in E. destruct v as [|a|s|o].
  - injection E as <- <- <-. split; [lia|exists []; rewrite app_nil_r; reflexivity].
  - injection E as <- <- <-. split; [lia|exists []; rewrite app_nil_r; reflexivity].
  - destruct (copy_structure fuel s (write m i (ptr e)) e 0) as [[d e0]|] eqn:C; [|discriminate].
    apply copy_grow in C. injection E as <- <- <-. split; [lia|exists []; rewrite app_nil_r; reflexivity].
  - injection E as <- <- <-. split; [lia|exists [o]; reflexivity].
Qed.

Lemma value_at_some : forall vs x v, nth_error vs x = Some (Some v) -> value_at vs x = Some v.
Proof. intros vs x v E. unfold value_at. rewrite E. reflexivity. Qed.

Lemma value_at_is : forall vs x v, value_at vs x = Some v -> nth_error vs x = Some (Some v).
Proof. intros vs x v E. unfold value_at in E. destruct (nth_error vs x) as [w|]; [subst; reflexivity|discriminate]. Qed.

Section Meant.
Variable fuel : nat.
Variable ti : Z.
Variable h : hmap.
Variable s : nat -> term.
Hypothesis ME : meant fuel h s.
Hypothesis SM : length (vals h) <= limit.

(** The word [w] of the code [m] was written for the variable [x]. *)
Definition holds (ok : nat -> Prop) (m : mem) (l : list obj) (x : nat) (w : Z) : Prop :=
  exists v, nth_error (vals h) x = Some (Some v) /\ carries fuel ok m l w x v (s x).

Lemma holds_agree : forall (ok ok' : nat -> Prop) m m' l l2 w x,
  (forall i, ok i -> m i = m' i) -> (forall i, ok i -> ok' i) ->
  holds ok m l x w -> holds ok' m' (l ++ l2) x w.
Proof using. clear. intros ok ok' m m' l l2 w x A W (v & E & C). exists v. split; [exact E|]. eapply carries_agree; eassumption. Qed.

Lemma valuate_holds : forall x i m e l m' e' l', i < e ->
  valuate_at fuel (vals h) x i (m, e, l) = Some (m', e', l') -> e' <= limit -> length l' <= limit ->
  e <= e' /\ (exists l2, l' = l ++ l2) /\ (forall k, k < e -> k <> i -> m' k = m k) /\ holds (within e e') m' l' x (m' i).
Proof using ME SM.
  intros x i m e l m' e' l' I E B1 B2. unfold valuate_at in E.
  destruct (value_at (vals h) x) as [v|] eqn:V; [|discriminate].
  apply value_at_is in V.
  assert (X : x < length (vals h)) by (apply nth_error_Some; rewrite V; discriminate).
  destruct (ME x X) as (v0 & V0 & ST). rewrite V in V0. injection V0 as <-.
  destruct (valuate_carries fuel v (s x) x m i e l m' e' l' ST ltac:(lia) I E B1 B2) as (G & L & F & C).
  repeat split; try assumption. exists v. split; assumption.
Qed.

Lemma holds_means : forall ok m l x w, holds ok m l x w -> exists tr, shows ok ok m w tr /\ means free l tr (s x).
Proof using SM.
  intros ok m l x w (v & V & C). apply carries_means in C; [exact C|].
  assert (x < length (vals h)) by (apply nth_error_Some; rewrite V; discriminate). lia.
Qed.

(** * The exposed arguments *)

Definition chosen (j n : nat) : list nat := filter (fun j => negb (skipped h j)) (seq j n).

Lemma exposed_more : forall n j w m e l m' e' l',
  build_exposed fuel h j n w (m, e, l) = Some (m', e', l') -> e <= e' /\ exists l2, l' = l ++ l2.
Proof using.
  clear. induction n as [|n IH]; intros j w m e l m' e' l' E; cbn [build_exposed] in E.
  - injection E as <- <- <-. split; [lia|exists []; rewrite app_nil_r; reflexivity].
  - destruct (skipped h j); [exact (IH _ _ _ _ _ _ _ _ E)|].
    destruct (valuate_at fuel (vals h) j w (m, e, l)) as [[[m1 e1] l1]|] eqn:V; [|discriminate].
    destruct (valuate_more _ _ _ _ _ _ _ _ _ _ V) as (G & l2 & ->).
    destruct (IH _ _ _ _ _ _ _ _ E) as (G' & l3 & ->). split; [lia|]. exists (l2 ++ l3). rewrite app_assoc. reflexivity.
Qed.

Lemma exposed_built : forall n j w m e l m' e' l',
  build_exposed fuel h j n w (m, e, l) = Some (m', e', l') ->
  w + length (chosen j n) <= e -> e' <= limit -> length l' <= limit ->
  (forall k, k < e -> ~ (w <= k < w + length (chosen j n)) -> m' k = m k) /\
  Forall2 (holds (within e e') m' l') (chosen j n) (words m' w (length (chosen j n))).
Proof using ME SM.
  induction n as [|n IH]; intros j w m e l m' e' l' E W B1 B2; cbn [build_exposed] in E.
  - injection E as <- <- <-. cbn. split; [reflexivity|constructor].
  - unfold chosen in *. cbn [seq filter] in *. destruct (skipped h j) eqn:K; cbn [negb] in *.
    + rewrite Nat.add_1_r in E. exact (IH _ _ _ _ _ _ _ _ E W B1 B2).
    + cbn [length] in W. rewrite !Nat.add_1_r in E.
      destruct (valuate_at fuel (vals h) j w (m, e, l)) as [[[m1 e1] l1]|] eqn:V; [|discriminate].
      destruct (exposed_more _ _ _ _ _ _ _ _ _ E) as (G & l2 & L2).
      assert (L1 : length l1 <= limit) by (rewrite L2, app_length in B2; lia).
      assert (Lw : w < e) by lia. assert (Le : e1 <= limit) by lia.
      destruct (valuate_holds _ _ _ _ _ _ _ _ Lw V Le L1) as (G1 & _ & F1 & H1).
      assert (Ln : S w + length (filter (fun j => negb (skipped h j)) (seq (S j) n)) <= e1) by lia.
      destruct (IH _ _ _ _ _ _ _ _ E Ln B1 B2) as (F2 & H2).
      cbn [length]. split.
      * intros k K1 K2. rewrite F2 by lia. apply F1; lia.
      * rewrite words_cons. constructor.
        -- rewrite F2 by lia. rewrite L2. revert H1. apply holds_agree.
           ++ intros i O. symmetry. apply F2; unfold within in O; lia.
           ++ intros i O. unfold within in *; lia.
        -- revert H2. apply Forall2_weaken. intros a b (v & Hv & C). exists v. split; [exact Hv|].
           rewrite <- (app_nil_r l'). revert C. apply carries_agree; [reflexivity|]. intros i O. unfold within in *; lia.
Qed.

(** * The template arguments *)

Inductive inst (ok : nat -> Prop) (m : mem) (l : list obj) : bool -> tree -> Z -> Prop :=
| inst_var : forall a w, getDescriptor a = VL_PTR -> holds ok m l (place a) w -> inst ok m l false (Leaf a) w
| inst_kept : forall b a, getDescriptor a <> I_PTR -> (b = true \/ getDescriptor a <> VL_PTR) -> inst ok m l b (Leaf a) a
| inst_raw : forall b hd ws w, getDescriptor w = I_PTR -> raw hd = true -> ok (place w) -> m (place w) = hd ->
    (forall j, j < count hd -> ok (place w + 1 + j)) ->
    words m (place w + 1) (count hd) = ws -> inst ok m l b (Raw hd ws) w
| inst_node : forall b hd ts w, getDescriptor w = I_PTR -> raw hd = false -> getDescriptor hd <> I_PTR -> ok (place w) -> m (place w) = hd ->
    (forall j, j < count hd -> ok (place w + 1 + j)) ->
    Forall2 (inst ok m l (hd =? AObject ti 2)%Z) ts (words m (place w + 1) (count hd)) -> inst ok m l b (Node hd ts) w.

Lemma inst_agree : forall (ok ok' : nat -> Prop) m m' l l2,
  (forall i, ok i -> m i = m' i) -> (forall i, ok i -> ok' i) ->
  forall t b w, inst ok m l b t w -> inst ok' m' (l ++ l2) b t w.
Proof using.
  clear. intros ok ok' m m' l l2 A W t; induction t as [x|hd ws|hd ts F] using tree_nested; intros b w J.
  - inversion J as [? ? D H|? ? D N| |]; subst.
    + apply inst_var; [exact D|]. revert H. apply holds_agree; assumption.
    + apply inst_kept; assumption.
  - inversion J as [| |? ? ? ? D R O E K Q|]; subst. 
    rewrite (words_ext m m' (place w + 1) (count (m (place w)))).
    + apply inst_raw; auto. symmetry; apply A; exact O.
    + intros k L. apply A. replace k with (place w + 1 + (k - (place w + 1))) by lia. apply K; lia.
  - inversion J as [| | |? ? ? ? D R P O E K Q]; subst. apply inst_node; auto.
    + symmetry; apply A; exact O.
    + rewrite <- (words_ext m m' (place w + 1) (count (m (place w)))).
      * clear - F Q. induction Q as [|a y la ly Ha Hl IH]; constructor; inversion F; subst; auto.
      * intros k L. apply A. replace k with (place w + 1 + (k - (place w + 1))) by lia. apply K; lia.
Qed.
End Meant.
