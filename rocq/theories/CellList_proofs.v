From Verif Require Import Base CellList_model CellList_spec.
From Coq Require Import Permutation.
Local Open Scope nat_scope.

Section Proofs.
Context {A : Type} (eqb : A -> A -> bool).
Notation st := (cells_list A).
Notation seqn := (list (nat * A)).
Notation locs := (map (@fst nat A)).

Definition nxt (l : seqn) (n : option nat) : option nat :=
  match l with [] => n | (j, _) :: _ => Some j end.
Fixpoint lst (p : option nat) (l : seqn) : option nat :=
  match l with [] => p | (i, _) :: l' => lst (Some i) l' end.

Fixpoint seg (cs : list (cell A)) (p : option nat) (l : seqn) (n : option nat) : Prop :=
  match l with
  | [] => True
  | (i, a) :: l' => nth_error cs i = Some (mkcell (nxt l' n) p a) /\ seg cs (Some i) l' n
  end.

Fixpoint fseg (cs : list (cell A)) (fs : list nat) : Prop :=
  match fs with
  | [] => True
  | i :: fs' => (exists p a, nth_error cs i = Some (mkcell (hd_error fs') p a)) /\ fseg cs fs'
  end.

Record Rep (s : st) (l : seqn) (fs : list nat) : Prop := {
  rep_seg : seg (cells s) None l None;
  rep_head : head s = nxt l None;
  rep_tail : tail s = lst None l;
  rep_fseg : fseg (cells s) fs;
  rep_free : free s = hd_error fs;
  rep_used : used_count s = length l;
  rep_freec : free_count s = length fs;
  rep_nodup : NoDup (locs l ++ fs);
  rep_len : length (cells s) = length l + length fs }.

Lemma lst_app l1 l2 : forall p, lst p (l1 ++ l2) = lst (lst p l1) l2.
Proof. induction l1 as [|[i a] l1 IH]; intros p; cbn; auto. Qed.

Lemma nxt_app l1 l2 n : nxt (l1 ++ l2) n = nxt l1 (nxt l2 n).
Proof. destruct l1 as [|[i a] l1]; reflexivity. Qed.

Lemma seg_app cs l1 l2 n : forall p,
  seg cs p (l1 ++ l2) n <-> seg cs p l1 (nxt l2 n) /\ seg cs (lst p l1) l2 n.
Proof.
  induction l1 as [|[i a] l1 IH]; intros p; cbn; [tauto|].
  rewrite IH, nxt_app. tauto.
Qed.

Lemma seg_frame cs cs' l n : forall p,
  (forall i, In i (locs l) -> nth_error cs' i = nth_error cs i) -> seg cs p l n -> seg cs' p l n.
Proof.
  induction l as [|[i a] l IH]; intros p H; cbn; [auto|]. intros [H1 H2]. split.
  - rewrite H; [assumption|]. cbn. auto.
  - apply IH; [|assumption]. intros j Hj. apply H. cbn. auto.
Qed.

Lemma fseg_frame cs cs' fs :
  (forall i, In i fs -> nth_error cs' i = nth_error cs i) -> fseg cs fs -> fseg cs' fs.
Proof.
  induction fs as [|i fs IH]; intros H; cbn; [auto|]. intros [[p [a H1]] H2]. split.
  - exists p, a. rewrite H; [assumption|]. cbn. auto.
  - apply IH; [|assumption]. intros j Hj. apply H. cbn. auto.
Qed.

Lemma seg_in cs l n : forall p i a, seg cs p l n -> In (i, a) l ->
  exists nx pv, nth_error cs i = Some (mkcell nx pv a).
Proof.
  induction l as [|[j b] l IH]; intros p i a H Hin; cbn in *; [contradiction|].
  destruct H as [H1 H2]. destruct Hin as [E|Hin].
  - inversion E; subst. eauto.
  - eauto.
Qed.

Lemma set_next_spec (cs : list (cell A)) i v c : nth_error cs i = Some c ->
  exists cs', set_next cs i v = Some cs' /\ length cs' = length cs /\
    nth_error cs' i = Some (mkcell v (prev c) (data c)) /\
    (forall j, j <> i -> nth_error cs' j = nth_error cs j).
Proof.
  intros H. unfold set_next. rewrite H.
  destruct (upd_some cs i (mkcell v (prev c) (data c))) as [cs' E].
  { apply nth_error_Some. congruence. }
  exists cs'. split; [exact E|]. split; [exact (upd_length _ _ _ _ E)|].
  split; [exact (upd_same _ _ _ _ E)|]. intros j Hj. apply (upd_other _ _ _ _ _ E). auto.
Qed.

Lemma set_prev_spec (cs : list (cell A)) i v c : nth_error cs i = Some c ->
  exists cs', set_prev cs i v = Some cs' /\ length cs' = length cs /\
    nth_error cs' i = Some (mkcell (next c) v (data c)) /\
    (forall j, j <> i -> nth_error cs' j = nth_error cs j).
Proof.
  intros H. unfold set_prev. rewrite H.
  destruct (upd_some cs i (mkcell (next c) v (data c))) as [cs' E].
  { apply nth_error_Some. congruence. }
  exists cs'. split; [exact E|]. split; [exact (upd_length _ _ _ _ E)|].
  split; [exact (upd_same _ _ _ _ E)|]. intros j Hj. apply (upd_other _ _ _ _ _ E). auto.
Qed.

Lemma last_case (l : seqn) : l = [] \/ exists l0 j a, l = l0 ++ [(j, a)].
Proof.
  destruct l as [|x l]; [auto|right].
  destruct (exists_last (l := x :: l) ltac:(discriminate)) as [l0 [[j a] E]]. eauto.
Qed.

(** Redirecting the last [next] of a segment. *)
Lemma relink_next cs p l n n' : seg cs p l n -> NoDup (locs l) ->
  exists cs', (match lst None l with Some q => set_next cs q n' | None => Some cs end) = Some cs' /\
    length cs' = length cs /\ seg cs' p l n' /\
    (forall i, ~ In i (locs l) -> nth_error cs' i = nth_error cs i).
Proof.
  intros H ND. destruct (last_case l) as [->|[l0 [j [a ->]]]].
  - exists cs. cbn. auto.
  - rewrite lst_app. cbn [lst]. apply seg_app in H. destruct H as [H1 [H2 _]]. cbn [nxt] in H1.
    rewrite map_app in ND. cbn [map fst] in ND.
    destruct (set_next_spec cs j n' _ H2) as [cs' [E [L [S1 S2]]]].
    exists cs'. split; [exact E|]. split; [exact L|]. split.
    + apply seg_app. split.
      * cbn [nxt]. apply (seg_frame cs); [|assumption].
        intros i Hi. apply S2. intros ->. apply NoDup_remove_2 in ND. rewrite app_nil_r in ND. auto.
      * cbn [seg nxt prev data] in *. auto.
    + intros i Hi. apply S2. intros ->. apply Hi. rewrite map_app. apply in_or_app. right. cbn. auto.
Qed.

(** Redirecting the first [prev] of a segment. *)
Lemma relink_prev cs p p' l n : seg cs p l n -> NoDup (locs l) ->
  exists cs', (match nxt l None with Some q => set_prev cs q p' | None => Some cs end) = Some cs' /\
    length cs' = length cs /\ seg cs' p' l n /\
    (forall i, ~ In i (locs l) -> nth_error cs' i = nth_error cs i).
Proof.
  intros H ND. destruct l as [|[j a] l].
  - exists cs. cbn. auto.
  - cbn [nxt seg] in *. destruct H as [H1 H2]. cbn [map fst] in ND.
    destruct (set_prev_spec cs j p' _ H1) as [cs' [E [L [S1 S2]]]].
    exists cs'. split; [exact E|]. split; [exact L|]. split.
    + split; [assumption|]. apply (seg_frame cs); [|assumption].
      intros i Hi. apply S2. intros ->. inversion ND; auto.
    + intros i Hi. apply S2. intros ->. apply Hi. cbn. auto.
Qed.

Lemma lst_not_none l : l <> [] -> exists q, forall p, lst p l = Some q.
Proof.
  intros H. destruct (last_case l) as [->|[l0 [j [a ->]]]]; [contradiction|].
  exists j. intros p. rewrite lst_app. reflexivity.
Qed.

Lemma seg_bound cs l n : forall p, seg cs p l n -> forall i, In i (locs l) -> i < length cs.
Proof.
  intros p H i Hi. apply in_map_iff in Hi. destruct Hi as [[j a] [<- Hi]].
  destruct (seg_in _ _ _ _ _ _ H Hi) as [nx [pv E]]. apply nth_error_Some. cbn. congruence.
Qed.

Lemma fseg_bound cs fs : fseg cs fs -> forall i, In i fs -> i < length cs.
Proof.
  induction fs as [|j fs IH]; cbn; [contradiction|]. intros [[p [a E]] H] i [->|Hi]; [|auto].
  apply nth_error_Some. congruence.
Qed.

Lemma NoDup_app_l {B} (l1 l2 : list B) : NoDup (l1 ++ l2) -> NoDup l1.
Proof. induction l1; cbn; intros H; [constructor|]. inversion H; subst. constructor; auto. intros X. apply H2, in_or_app. auto. Qed.
Lemma NoDup_app_r {B} (l1 l2 : list B) : NoDup (l1 ++ l2) -> NoDup l2.
Proof. induction l1; cbn; intros H; auto. inversion H; auto. Qed.
Lemma NoDup_app_disj {B} (l1 l2 : list B) x : NoDup (l1 ++ l2) -> In x l1 -> In x l2 -> False.
Proof.
  induction l1; cbn; intros H Hl Hr; [auto|]. inversion H; subst. destruct Hl as [->|Hl]; [|auto].
  apply H2, in_or_app. auto.
Qed.

(** ** Adding an element *)
Definition link_tail (cs : list (cell A)) (l : seqn) (f : nat) : option (list (cell A)) :=
  match lst None l with Some q => set_next cs q (Some f) | None => Some cs end.

Lemma tail_state (s : st) l f t fs :
  seg (cells s) None l None -> tail s = Some f -> head s = nxt l None ->
  nth_error (cells s) f = Some (mkcell None (lst None l) t) ->
  fseg (cells s) fs -> free s = hd_error fs -> used_count s = length l -> free_count s = length fs ->
  NoDup (f :: locs l ++ fs) -> length (cells s) = S (length l + length fs) ->
  exists s', update_used_cells_tail_state s = Some s' /\ Rep s' (l ++ [(f, t)]) fs.
Proof.
  intros Hs Ht Hh Hf Hfs Hfr Hu Hfc ND HL.
  assert (NDl : NoDup (locs l)) by (inversion ND; subst; eapply NoDup_app_l; eauto).
  assert (Nf : ~ In f (locs l ++ fs)) by (inversion ND; auto).
  destruct (relink_next (cells s) None l None (Some f) Hs NDl) as [cs' [E [L [S1 S2]]]].
  unfold update_used_cells_tail_state. rewrite Ht, Hf. cbn [prev]. rewrite E.
  eexists. split; [reflexivity|].
  assert (Hf' : nth_error cs' f = nth_error (cells s) f).
  { apply S2. intros X. apply Nf, in_or_app. auto. }
  constructor; cbn [cells head tail free used_count free_count].
  - apply seg_app. split; [exact S1|]. cbn [seg nxt]. rewrite Hf'. auto.
  - rewrite nxt_app. cbn [nxt]. rewrite Hh. destruct l as [|[j a] l]; reflexivity.
  - rewrite lst_app. reflexivity.
  - apply (fseg_frame (cells s)); [|assumption]. intros i Hi. apply S2. intros X.
    inversion ND; subst. eapply (NoDup_app_disj (locs l) fs); eauto.
  - exact Hfr.
  - rewrite app_length, Hu. cbn. lia.
  - exact Hfc.
  - rewrite map_app, <- app_assoc. cbn [map fst app].
    apply Permutation_NoDup with (f :: locs l ++ fs); [|assumption]. apply Permutation_middle.
  - rewrite L, HL, app_length. cbn. lia.
Qed.

Lemma head_state (s : st) l f t fs :
  seg (cells s) None l None -> head s = Some f -> tail s = lst None l ->
  nth_error (cells s) f = Some (mkcell (nxt l None) None t) ->
  fseg (cells s) fs -> free s = hd_error fs -> used_count s = length l -> free_count s = length fs ->
  NoDup (f :: locs l ++ fs) -> length (cells s) = S (length l + length fs) ->
  exists s', update_used_cells_head_state s = Some s' /\ Rep s' ((f, t) :: l) fs.
Proof.
  intros Hs Ht Hh Hf Hfs Hfr Hu Hfc ND HL.
  assert (NDl : NoDup (locs l)) by (inversion ND; subst; eapply NoDup_app_l; eauto).
  assert (Nf : ~ In f (locs l ++ fs)) by (inversion ND; auto).
  destruct (relink_prev (cells s) None (Some f) l None Hs NDl) as [cs' [E [L [S1 S2]]]].
  unfold update_used_cells_head_state. rewrite Ht, Hf. cbn [next]. rewrite E.
  eexists. split; [reflexivity|].
  assert (Hf' : nth_error cs' f = nth_error (cells s) f).
  { apply S2. intros X. apply Nf, in_or_app. auto. }
  constructor; cbn [cells head tail free used_count free_count].
  - cbn [seg]. rewrite Hf'. auto.
  - reflexivity.
  - rewrite Hh. cbn [lst]. destruct l as [|x l]; [reflexivity|].
    destruct (lst_not_none (x :: l)) as [q Q]; [discriminate|]. rewrite !Q. reflexivity.
  - apply (fseg_frame (cells s)); [|assumption]. intros i Hi. apply S2. intros X.
    inversion ND; subst. eapply (NoDup_app_disj (locs l) fs); eauto.
  - exact Hfr.
  - cbn. congruence.
  - exact Hfc.
  - exact ND.
  - rewrite L, HL. cbn. lia.
Qed.

Lemma fresh_new (s : st) l fs : Rep s l fs -> NoDup (length (cells s) :: locs l ++ fs).
Proof.
  intros R. constructor; [|apply (rep_nodup _ _ _ R)]. intros X. apply in_app_or in X. destruct X as [X|X].
  - pose proof (seg_bound _ _ _ _ (rep_seg _ _ _ R) _ X). lia.
  - pose proof (fseg_bound _ _ (rep_fseg _ _ _ R) _ X). lia.
Qed.

Lemma old_cells (s : st) l fs c : Rep s l fs ->
  seg (cells s ++ [c]) None l None /\ fseg (cells s ++ [c]) fs.
Proof.
  intros R. split.
  - apply (seg_frame (cells s)); [|apply R]. intros i Hi. apply nth_error_app1.
    eapply seg_bound; [apply R|exact Hi].
  - apply (fseg_frame (cells s)); [|apply R]. intros i Hi. apply nth_error_app1.
    eapply fseg_bound; [apply R|exact Hi].
Qed.

Lemma new_cell (s : st) c : nth_error (cells s ++ [c]) (length (cells s)) = Some c.
Proof. rewrite nth_error_app2 by lia. rewrite Nat.sub_diag. reflexivity. Qed.

(** Taking the first free cell. *)
Lemma take_free (s : st) l f fs c0 : Rep s l (f :: fs) ->
  exists p a cs', nth_error (cells s) f = Some (mkcell (hd_error fs) p a) /\
    upd (cells s) f c0 = Some cs' /\ nth_error cs' f = Some c0 /\
    length cs' = length (cells s) /\ seg cs' None l None /\ fseg cs' fs /\ NoDup (f :: locs l ++ fs).
Proof.
  intros R. destruct (rep_fseg _ _ _ R) as [[p [a E]] FS].
  destruct (upd_some (cells s) f c0) as [cs' U]; [apply nth_error_Some; congruence|].
  assert (ND : NoDup (f :: locs l ++ fs)).
  { apply Permutation_NoDup with (locs l ++ f :: fs); [|apply R]. apply Permutation_sym, Permutation_middle. }
  exists p, a, cs'. split; [exact E|]. split; [exact U|]. split; [exact (upd_same _ _ _ _ U)|].
  split; [exact (upd_length _ _ _ _ U)|]. inversion ND as [|? ? N1 N2]; subst. split; [|split].
  - apply (seg_frame (cells s)); [|apply R]. intros i Hi. apply (upd_other _ _ _ _ _ U). intros ->.
    apply N1, in_or_app. auto.
  - apply (fseg_frame (cells s)); [|assumption]. intros i Hi. apply (upd_other _ _ _ _ _ U). intros ->.
    apply N1, in_or_app. auto.
  - exact ND.
Qed.

(** The free list after an addition. *)
Definition after_add (fs : list nat) : list nat := tl fs.

Lemma push_back_rep (s : st) l fs t : Rep s l fs ->
  exists s' h, push_back s t = Some (s', Some h) /\ Rep s' (l ++ [(h, t)]) (tl fs) /\
    ~ In h (locs l) /\ h = match fs with [] => length (cells s) | f :: _ => f end.
Proof.
  intros R. unfold push_back. rewrite (rep_freec _ _ _ R). destruct fs as [|f fs]; cbn [length Nat.eqb tl].
  - destruct (old_cells s l [] (mkcell None (tail s) t) R) as [O1 O2].
    destruct (tail_state (push_back_new_cell s t) l (length (cells s)) t []) as [s' [E R']];
      cbn [push_back_new_cell cells head tail free used_count free_count]; try apply R; auto.
    + rewrite new_cell, (rep_tail _ _ _ R). reflexivity.
    + exact (fresh_new _ _ _ R).
    + rewrite app_length, (rep_len _ _ _ R). cbn. lia.
    + exists s', (length (cells s)). cbn [push_back_new_cell tail] in *. rewrite E. split; [reflexivity|].
      split; [exact R'|]. split; [|reflexivity].
      pose proof (fresh_new _ _ _ R) as F. inversion F; subst. intros X. apply H1, in_or_app; auto.
  - destruct (take_free s l f fs (mkcell None (tail s) t) R) as [p [a [cs' [E [U [Sm [L [SG [FS ND]]]]]]]]].
    unfold push_back_free_cell. rewrite (rep_free _ _ _ R). cbn [hd_error]. rewrite E, U. cbn [next].
    destruct (tail_state (mklist cs' (head s) (Some f) (hd_error fs) (used_count s) (free_count s - 1)) l f t fs)
      as [s' [E' R']]; cbn [cells head tail free used_count free_count]; try apply R; auto.
    + rewrite Sm, (rep_tail _ _ _ R). reflexivity.
    + rewrite (rep_freec _ _ _ R). cbn. lia.
    + rewrite L, (rep_len _ _ _ R). cbn. lia.
    + rewrite E'. exists s', f. split; [reflexivity|]. split; [exact R'|]. split; [|reflexivity].
      inversion ND; subst. intros X. apply H1, in_or_app; auto.
Qed.

Lemma push_front_rep (s : st) l fs t : Rep s l fs ->
  exists s' h o, push_front s t = Some (s', o) /\ Rep s' ((h, t) :: l) (tl fs) /\
    ~ In h (locs l) /\ (fs <> [] -> o = Some h) /\ (fs = [] -> o = lst None l /\ h = length (cells s)).
Proof.
  intros R. unfold push_front. rewrite (rep_freec _ _ _ R). destruct fs as [|f fs]; cbn [length Nat.eqb tl].
  - destruct (old_cells s l [] (mkcell (head s) None t) R) as [O1 O2].
    destruct (head_state (push_front_new_cell s t) l (length (cells s)) t []) as [s' [E R']];
      cbn [push_front_new_cell cells head tail free used_count free_count]; try apply R; auto.
    + rewrite new_cell, (rep_head _ _ _ R). reflexivity.
    + exact (fresh_new _ _ _ R).
    + rewrite app_length, (rep_len _ _ _ R). cbn. lia.
    + exists s', (length (cells s)), (lst None l). cbn [push_front_new_cell tail] in *. rewrite E.
      rewrite (rep_tail _ _ _ R). split; [reflexivity|].
      split; [exact R'|]. split; [|split; [congruence|auto]].
      pose proof (fresh_new _ _ _ R) as F. inversion F; subst. intros X. apply H1, in_or_app; auto.
  - destruct (take_free s l f fs (mkcell (head s) None t) R) as [p [a [cs' [E [U [Sm [L [SG [FS ND]]]]]]]]].
    unfold push_front_free_cell. rewrite (rep_free _ _ _ R). cbn [hd_error]. rewrite E, U. cbn [next].
    destruct (head_state (mklist cs' (Some f) (tail s) (hd_error fs) (used_count s) (free_count s - 1)) l f t fs)
      as [s' [E' R']]; cbn [cells head tail free used_count free_count]; try apply R; auto.
    + rewrite Sm, (rep_head _ _ _ R). reflexivity.
    + rewrite (rep_freec _ _ _ R). cbn. lia.
    + rewrite L, (rep_len _ _ _ R). cbn. lia.
    + rewrite E'. exists s', f, (Some f). split; [reflexivity|]. split; [exact R'|].
      split; [|split; [auto|congruence]].
      inversion ND; subst. intros X. apply H1, in_or_app; auto.
Qed.

(** ** Erasing *)
Lemma erase_rep (s : st) l1 c a l2 fs : Rep s (l1 ++ (c, a) :: l2) fs ->
  exists s', erase s c = Some (s', nxt l2 None) /\ Rep s' (l1 ++ l2) (c :: fs) /\
    length (cells s') = length (cells s).
Proof.
  intros R. pose proof (rep_seg _ _ _ R) as SG. apply seg_app in SG. destruct SG as [SG1 [Ec SG2]].
  cbn [nxt] in SG1.
  pose proof (rep_nodup _ _ _ R) as ND. rewrite map_app in ND. cbn [map fst] in ND.
  assert (ND' : NoDup (c :: (locs l1 ++ locs l2) ++ fs)).
  { eapply Permutation_NoDup; [|exact ND]. rewrite <- app_assoc. cbn [app].
    rewrite <- app_assoc. apply Permutation_sym, Permutation_middle. }
  inversion ND' as [|? ? Nc ND2]; subst.
  assert (NDl1 : NoDup (locs l1)) by (apply NoDup_app_l in ND2; apply NoDup_app_l in ND2; exact ND2).
  assert (NDl2 : NoDup (locs l2)) by (apply NoDup_app_l in ND2; apply NoDup_app_r in ND2; exact ND2).
  assert (Nc1 : ~ In c (locs l1)) by (intros X; apply Nc; rewrite !in_app_iff; auto).
  assert (Nc2 : ~ In c (locs l2)) by (intros X; apply Nc; rewrite !in_app_iff; auto).
  assert (Ncf : ~ In c fs) by (intros X; apply Nc; rewrite !in_app_iff; auto).
  assert (D12 : forall i, In i (locs l1) -> In i (locs l2) -> False).
  { intros i. eapply NoDup_app_disj. eapply NoDup_app_l. exact ND2. }
  assert (Df : forall i, In i (locs l1 ++ locs l2) -> In i fs -> False).
  { intros i. eapply NoDup_app_disj. exact ND2. }
  destruct (relink_next (cells s) None l1 (Some c) (nxt l2 None) SG1 NDl1) as [cs1 [E1 [L1 [S1 F1]]]].
  assert (SG2' : seg cs1 (Some c) l2 None).
  { apply (seg_frame (cells s)); [|exact SG2]. intros i Hi. apply F1. eauto. }
  assert (Ec1 : nth_error cs1 c = Some (mkcell (nxt l2 None) (lst None l1) a)) by (rewrite F1; auto).
  destruct (relink_prev cs1 (Some c) (lst None l1) l2 None SG2' NDl2) as [cs2 [E2 [L2 [S2 F2]]]].
  assert (Ec2 : nth_error cs2 c = Some (mkcell (nxt l2 None) (lst None l1) a)) by (rewrite F2; auto).
  destruct (set_next_spec cs2 c (free s) _ Ec2) as [cs3 [E3 [L3 [S3 F3]]]].
  set (hd' := match lst None l1 with Some _ => head s | None => nxt l2 None end).
  set (tl' := match nxt l2 None with Some _ => tail s | None => lst None l1 end).
  exists (mklist cs3 hd' tl' (Some c) (used_count s - 1) (S (free_count s))).
  split; [|split].
  - unfold erase, erase0. rewrite Ec. cbn [prev next].
    assert (X1 : (match lst None l1 with
                  | Some p => match set_next (cells s) p (nxt l2 None) with
                              | Some cs => Some (cs, head s) | None => None end
                  | None => Some (cells s, nxt l2 None) end) = Some (cs1, hd')).
    { unfold hd'. destruct (lst None l1); [rewrite E1; reflexivity|]. congruence. }
    rewrite X1, Ec1. cbn [next prev].
    assert (X2 : (match nxt l2 None with
                  | Some n => match set_prev cs1 n (lst None l1) with
                              | Some cs => Some (cs, tail s) | None => None end
                  | None => Some (cs1, lst None l1) end) = Some (cs2, tl')).
    { unfold tl'. destruct (nxt l2 None); [rewrite E2; reflexivity|]. congruence. }
    rewrite X2, E3. reflexivity.
  - constructor; cbn [cells head tail free used_count free_count].
    + apply seg_app. split.
      * apply (seg_frame cs1); [|exact S1]. intros i Hi. rewrite F3 by (intros ->; auto). apply F2. eauto.
      * apply (seg_frame cs2); [|exact S2]. intros i Hi. apply F3. intros ->; auto.
    + unfold hd'. rewrite (rep_head _ _ _ R), !nxt_app. cbn [nxt].
      destruct l1 as [|x l1']; [reflexivity|]. destruct (lst_not_none (x :: l1')) as [q Q]; [discriminate|].
      rewrite Q. destruct x. reflexivity.
    + unfold tl'. rewrite (rep_tail _ _ _ R), !lst_app. cbn [lst].
      destruct l2 as [|x l2']; [reflexivity|]. destruct (lst_not_none (x :: l2')) as [q Q]; [discriminate|].
      rewrite !Q. destruct x. reflexivity.
    + cbn [fseg]. split.
      * rewrite S3. cbn [prev data]. rewrite (rep_free _ _ _ R). eauto.
      * apply (fseg_frame (cells s)); [|apply R]. intros i Hi.
        rewrite F3 by (intros ->; auto).
        rewrite F2 by (intros X; apply (Df i); [apply in_or_app|]; auto).
        apply F1. intros X; apply (Df i); [apply in_or_app|]; auto.
    + reflexivity.
    + rewrite (rep_used _ _ _ R), !app_length. cbn. lia.
    + cbn [length]. f_equal. apply R.
    + rewrite map_app. apply Permutation_NoDup with (c :: (locs l1 ++ locs l2) ++ fs); [|assumption].
      apply Permutation_middle.
    + rewrite L3, L2, L1, (rep_len _ _ _ R), !app_length. cbn. lia.
  - cbn [cells]. congruence.
Qed.

Lemma erase0_erase (s s' : st) c j : erase s c = Some (s', j) -> erase0 s c = Some s'.
Proof.
  unfold erase. destruct (nth_error (cells s) c); [|discriminate].
  destruct (erase0 s c); [|discriminate]. intros H; inversion H; reflexivity.
Qed.

(** ** Traversals *)
Lemma walk_seg (s : st) l : forall p fuel, seg (cells s) p l None -> length l <= fuel ->
  walk fuel s (nxt l None) = Some l.
Proof.
  induction l as [|[i a] l IH]; intros p fuel H F; cbn [nxt].
  - destruct fuel; reflexivity.
  - destruct fuel as [|fuel]; cbn in F; [lia|]. destruct H as [H1 H2]. cbn [walk].
    rewrite H1. cbn [next data]. rewrite (IH (Some i) fuel H2) by lia. reflexivity.
Qed.

Lemma remove_from_rep (s : st) t fs l2 : forall l1 fuel, Rep s (l1 ++ l2) fs -> length l2 <= fuel ->
  exists s' fs', remove_from eqb fuel s (nxt l2 None) t = Some s' /\
    Rep s' (l1 ++ remove_first (fun a => eqb a t) l2) fs' /\ length (cells s') = length (cells s).
Proof.
  induction l2 as [|[i a] l2 IH]; intros l1 fuel R F; cbn [nxt remove_first].
  - exists s, fs. destruct fuel; auto.
  - destruct fuel as [|fuel]; cbn in F; [lia|]. cbn [remove_from].
    pose proof (rep_seg _ _ _ R) as SG. apply seg_app in SG. destruct SG as [_ [E _]]. rewrite E. cbn [data next].
    destruct (eqb a t).
    + destruct (erase_rep _ _ _ _ _ _ R) as [s' [E' [R' L']]]. apply erase0_erase in E'. eauto.
    + destruct (IH (l1 ++ [(i, a)]) fuel) as [s' [fs' [H1 H2]]]; [rewrite <- app_assoc; exact R|lia|].
      rewrite <- app_assoc in H2. eauto.
Qed.

Lemma cull_from_rep drop l2 : forall (s : st) fs l1 fuel, Rep s (l1 ++ l2) fs -> length l2 <= fuel ->
  exists s' fs', cull_from drop fuel s (nxt l2 None) = Some s' /\
    Rep s' (l1 ++ filter (fun p => negb (drop (snd p))) l2) fs' /\ length (cells s') = length (cells s).
Proof.
  induction l2 as [|[i a] l2 IH]; intros s fs l1 fuel R F; cbn [nxt filter snd].
  - exists s, fs. destruct fuel; auto.
  - destruct fuel as [|fuel]; cbn in F; [lia|]. cbn [cull_from].
    pose proof (rep_seg _ _ _ R) as SG. apply seg_app in SG. destruct SG as [_ [E _]]. rewrite E. cbn [data next].
    destruct (drop a); cbn [negb].
    + destruct (erase_rep _ _ _ _ _ _ R) as [s' [E' [R' L']]]. rewrite E', <- L'. apply IH with (1 := R'). lia.
    + destruct (IH s fs (l1 ++ [(i, a)]) fuel) as [s' [fs' [H1 H2]]]; [rewrite <- app_assoc; exact R|lia|].
      rewrite <- app_assoc in H2. eauto.
Qed.

(** ** All operations *)
Lemma rep_empty : Rep (@empty A) [] [].
Proof. constructor; cbn; auto; constructor. Qed.

Lemma rep_shows (s : st) l fs : Rep s l fs -> shows s l.
Proof.
  intros R. unfold shows. split; [|split; [|split; [|split; [|split]]]].
  - unfold iterate. rewrite (rep_head _ _ _ R). eapply walk_seg; [apply R|].
    rewrite (rep_len _ _ _ R). lia.
  - apply R.
  - unfold front. rewrite (rep_head _ _ _ R). pose proof (rep_seg _ _ _ R) as SG.
    destruct l as [|[i a] l]; [reflexivity|]. destruct SG as [E _]. cbn [nxt]. rewrite E. reflexivity.
  - unfold back. rewrite (rep_tail _ _ _ R). pose proof (rep_seg _ _ _ R) as SG.
    destruct (last_case l) as [->|[l0 [j [a ->]]]]; [reflexivity|].
    apply seg_app in SG. destruct SG as [_ [E _]]. rewrite lst_app. cbn [lst]. rewrite E.
    rewrite rev_app_distr. reflexivity.
  - eapply NoDup_app_l. apply R.
  - intros h a H. destruct (seg_in _ _ _ _ _ _ (rep_seg _ _ _ R) H) as [nx [pv E]]. rewrite E. reflexivity.
Qed.

Lemma op_rep (s : st) l fs o : Rep s l fs -> allowed l o ->
  exists s' l' fs', run_op eqb s o = Some s' /\ seq_op eqb l o l' /\ Rep s' l' fs' /\
    length (cells s') = match o with Clear => 0 | _ => Nat.max (length (cells s)) (length l') end.
Proof.
  intros R Al. destruct o as [t|t|h|t|drop|]; cbn [run_op allowed] in *.
  - destruct (push_back_rep s l fs t R) as [s' [h [E [R' [N _]]]]]. rewrite E. cbn [option_map fst].
    exists s', (l ++ [(h, t)]), (tl fs). split; [reflexivity|]. split; [now constructor|]. split; [assumption|].
    rewrite (rep_len _ _ _ R'), (rep_len _ _ _ R), app_length. destruct fs; cbn; lia.
  - destruct (push_front_rep s l fs t R) as [s' [h [o [E [R' [N _]]]]]]. rewrite E. cbn [option_map fst].
    exists s', ((h, t) :: l), (tl fs). split; [reflexivity|]. split; [now constructor|]. split; [assumption|].
    rewrite (rep_len _ _ _ R'), (rep_len _ _ _ R). destruct fs; cbn; lia.
  - apply in_map_iff in Al. destruct Al as [[h' a] [E Hin]]. cbn in E. subst h'.
    apply in_split in Hin. destruct Hin as [l1 [l2 ->]].
    destruct (erase_rep _ _ _ _ _ _ R) as [s' [E [R' L]]]. rewrite E. cbn [option_map fst].
    exists s', (l1 ++ l2), (h :: fs). split; [reflexivity|]. split; [constructor|]. split; [assumption|].
    pose proof (rep_len _ _ _ R'). lia.
  - unfold remove. rewrite (rep_head _ _ _ R).
    destruct (remove_from_rep s t fs l [] (length (cells s))) as [s' [fs' [E [R' L]]]].
    { exact R. } { rewrite (rep_len _ _ _ R); lia. }
    exists s', (remove_first (fun a => eqb a t) l), fs'. split; [exact E|]. split; [constructor|].
    split; [exact R'|]. pose proof (rep_len _ _ _ R'). cbn in H. lia.
  - unfold cull. rewrite (rep_head _ _ _ R).
    destruct (cull_from_rep drop l s fs [] (length (cells s))) as [s' [fs' [E [R' L]]]].
    { exact R. } { rewrite (rep_len _ _ _ R); lia. }
    exists s', (filter (fun p => negb (drop (snd p))) l), fs'. split; [exact E|]. split; [constructor|].
    split; [exact R'|]. pose proof (rep_len _ _ _ R'). cbn in H. lia.
  - exists (clear s), [], []. split; [reflexivity|]. split; [constructor|]. split; [apply rep_empty|reflexivity].
Qed.

Lemma reached_rep s l m : reached eqb s l m -> exists fs, Rep s l fs /\ length (cells s) = m.
Proof.
  induction 1 as [|s l m o s' l' H [fs [R L]] Al E I].
  - exists []. split; [apply rep_empty|reflexivity].
  - destruct (op_rep s l fs o R Al) as [s1 [l1 [fs1 [E1 [_ [R1 L1]]]]]].
    rewrite E in E1. inversion E1; subst s1.
    destruct (rep_shows _ _ _ R1) as [I1 _]. rewrite I in I1. inversion I1; subst l1.
    exists fs1. split; [exact R1|]. rewrite L1, L. destruct o; reflexivity.
Qed.

Lemma list_refines s l m o : reached eqb s l m -> allowed l o ->
  exists s' l', run_op eqb s o = Some s' /\ seq_op eqb l o l' /\ shows s' l'.
Proof.
  intros H Al. destruct (reached_rep _ _ _ H) as [fs [R _]].
  destruct (op_rep s l fs o R Al) as [s1 [l1 [fs1 [E1 [S1 [R1 _]]]]]].
  exists s1, l1. split; [exact E1|]. split; [exact S1|]. eapply rep_shows, R1.
Qed.

Lemma reached_shows s l m : reached eqb s l m -> shows s l.
Proof. intros H. destruct (reached_rep _ _ _ H) as [fs [R _]]. eapply rep_shows, R. Qed.

Lemma cells_reused s l m : reached eqb s l m -> length (cells s) = m.
Proof. intros H. destruct (reached_rep _ _ _ H) as [fs [_ L]]. exact L. Qed.

Lemma push_back_location s l m t : reached eqb s l m ->
  exists s' h, push_back s t = Some (s', Some h) /\ iterate s' = Some (l ++ [(h, t)]) /\ ~ In h (map fst l).
Proof.
  intros H. destruct (reached_rep _ _ _ H) as [fs [R _]].
  destruct (push_back_rep s l fs t R) as [s' [h [E [R' [N _]]]]].
  exists s', h. split; [exact E|]. split; [|exact N]. apply (rep_shows _ _ _ R').
Qed.

Lemma push_front_location s l m t : reached eqb s l m -> (length l < m)%nat ->
  exists s' h, push_front s t = Some (s', Some h) /\ iterate s' = Some ((h, t) :: l) /\ ~ In h (map fst l).
Proof.
  intros H Hlt. destruct (reached_rep _ _ _ H) as [fs [R L]].
  destruct (push_front_rep s l fs t R) as [s' [h [o [E [R' [N [O1 _]]]]]]].
  assert (fs <> []) by (intros ->; pose proof (rep_len _ _ _ R) as Q; cbn in Q; lia).
  rewrite (O1 H0) in E. exists s', h. split; [exact E|]. split; [|exact N]. apply (rep_shows _ _ _ R').
Qed.

Lemma remove_first_spares (p : A -> bool) h a l : p a = false -> In (h, a) l -> In (h, a) (remove_first p l).
Proof.
  intros Hp. induction l as [|[i b] l IH]; cbn; [auto|]. intros [E|E].
  - inversion E; subst. rewrite Hp. cbn. auto.
  - destruct (p b); [exact E|]. cbn. auto.
Qed.

Lemma seq_op_spares l o l' h a : seq_op eqb l o l' -> spares eqb h a o -> NoDup (map fst l) ->
  In (h, a) l -> In (h, a) l'.
Proof.
  intros S Sp ND Hin. destruct S; cbn in Sp.
  - apply in_or_app. auto.
  - cbn. auto.
  - apply in_app_or in Hin. apply in_or_app. destruct Hin as [Hin|[E|Hin]]; auto. inversion E; congruence.
  - apply remove_first_spares; assumption.
  - apply filter_In. split; [assumption|]. cbn. rewrite Sp. reflexivity.
  - contradiction.
Qed.

Lemma later_reached h a s l s' l' m : later eqb h a s l s' l' -> reached eqb s l m -> exists m', reached eqb s' l' m'.
Proof.
  induction 1 as [|s l s1 l1 o s2 l2 _ IH Al Sp E I]; intros H; [eauto|].
  destruct (IH H) as [m1 H1]. eexists. eapply reached_step; eauto.
Qed.

Lemma location_stable h a s l m s' l' : reached eqb s l m -> In (h, a) l -> later eqb h a s l s' l' ->
  In (h, a) l' /\ option_map data (nth_error (cells s') h) = Some a.
Proof.
  intros H Hin L.
  assert (In (h, a) l').
  { induction L as [|s l s1 l1 o s2 l2 L1 IH Al Sp E I]; [assumption|].
    destruct (later_reached _ _ _ _ _ _ _ L1 H) as [m1 H1].
    destruct (list_refines _ _ _ _ H1 Al) as [s3 [l3 [E3 [S3 [I3 _]]]]].
    rewrite E in E3. inversion E3; subst s3. rewrite I in I3. inversion I3; subst l3.
    eapply seq_op_spares; eauto. apply (reached_shows _ _ _ H1). }
  split; [assumption|]. destruct (later_reached _ _ _ _ _ _ _ L H) as [m' H'].
  apply (reached_shows _ _ _ H'). assumption.
Qed.

Lemma erase_location h a s l1 l2 m : reached eqb s (l1 ++ (h, a) :: l2) m ->
  exists s', erase s h = Some (s', match l2 with (j, _) :: _ => Some j | [] => None end) /\
    iterate s' = Some (l1 ++ l2).
Proof.
  intros H. destruct (reached_rep _ _ _ H) as [fs [R _]].
  destruct (erase_rep _ _ _ _ _ _ R) as [s' [E [R' _]]]. exists s'. split; [exact E|].
  apply (rep_shows _ _ _ R').
Qed.
End Proofs.

(** [push_front] on a list of one element reports the location of the other one. *)
Lemma push_front_location_refuted : exists (s : cells_list nat) l m t s' h,
  reached Nat.eqb s l m /\ push_front s t = Some (s', Some h) /\
  option_map data (nth_error (cells s') h) <> Some t.
Proof.
  destruct (push_back_location Nat.eqb _ _ _ 7 (reached_empty _)) as [s' [h [E [I _]]]].
  exists s', [(h, 7)], 1, 8. vm_compute in E. inversion E; subst. eexists. exists 0.
  split; [|split; [vm_compute; reflexivity|vm_compute; discriminate]].
  eapply (reached_step Nat.eqb _ _ 0 (PushBack 7) _ [(0, 7)]).
  - apply reached_empty.
  - exact I0 || exact Logic.I.
  - reflexivity.
  - reflexivity.
Qed.
