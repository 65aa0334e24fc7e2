(** Proofs about the simulations of predictions. *)
From Verif Require Import Base Atom_model Atom_proofs Prd_model Prd_spec.
From Coq Require Import Permutation.
Local Open Scope Z_scope.

Lemma index_ref : forall i, 0 <= i < 4096 -> asIndex (RPointer i) = i.
Proof.
  intros i H. rewrite idx_arith. unfold RPointer, u32. rewrite shl24.
  assert (Z.land i 0xFFF = i mod 4096) as -> by (change 0xFFF with (Z.ones 12); apply Z.land_ones; lia).
  unfold R_PTR. lia.
Qed.
Lemma index_set : forall n, 0 <= n < 256 -> asIndex (ASet n) = n.
Proof. intros n H. rewrite idx_arith. unfold ASet, u32. rewrite shl24. unfold SET. lia. Qed.
Lemma count_set : forall n, 0 <= n < 256 -> getAtomCount (ASet n) = n.
Proof.
  intros n H. assert (getDescriptor (ASet n) = SET) as E.
  { rewrite desc_arith. unfold ASet, u32. rewrite shl24. unfold SET. lia. }
  unfold getAtomCount. rewrite E. cbn [Z.eqb orb SET]. change (SET =? SET) with true. cbn [orb].
  change 0xFF with (Z.ones 8). rewrite Z.land_ones by lia. unfold ASet, u32. rewrite shl24. unfold SET. replace ((193 * 16777216 + n) mod 4294967296) with (n + (193 * 65536) * 256) by lia. change (2 ^ 8) with 256. rewrite Z.mod_add by lia. apply Z.mod_small. lia.
Qed.

Section One.
Context (opcode thr : Z) (target : nat).
Notation mk := (construct opcode thr target).

Lemma set_at : forall l vs, at_ (mk l vs) (asIndex (at_ (mk l vs) 2)) = ASet (u8 (Z.of_nat (length l))).
Proof. intros. unfold at_ at 2, construct; cbn [code nth Z.to_nat Pos.to_nat Pos.iter_op Nat.add app]. reflexivity. Qed.
Lemma size_is : forall l vs, simulations_size (mk l vs) = u8 (Z.of_nat (length l)).
Proof. intros l vs. unfold simulations_size. rewrite set_at. apply count_set. unfold u8. lia. Qed.
Lemma get_is : forall l vs i, (length l < 256)%nat -> (i < length l)%nat ->
  get_simulation (mk l vs) (Z.of_nat i) = match i with O => nth_error l (length l - 1) | S j => nth_error l j end.
Proof.
  intros l vs i L Hi. unfold get_simulation.
  change (asIndex (at_ (mk l vs) 2)) with 4.
  assert (at_ (mk l vs) (4 + Z.of_nat i) =
          nth i (ASet (u8 (Z.of_nat (length l))) :: map (fun i => RPointer (1 + Z.of_nat i)) (seq 0 (length l))) 0xFFFFFFFF) as ->.
  { unfold at_, construct; cbn [code app]. replace (Z.to_nat (4 + Z.of_nat i)) with (S (S (S (S i)))) by lia. reflexivity. }
  destruct i as [|j]; cbn [nth].
  - rewrite index_set by (unfold u8; lia). unfold u8. rewrite Z.mod_small by lia. rewrite Nat2Z.id.
    cbn [construct refs]. destruct (length l) as [|n]; [lia|]. cbn. now rewrite Nat.sub_0_r.
  - rewrite (nth_indep _ _ (RPointer (1 + Z.of_nat 0))) by (rewrite map_length, seq_length; lia).
    rewrite (map_nth (fun i => RPointer (1 + Z.of_nat i)) (seq 0 (length l)) 0%nat j). rewrite seq_nth by lia.
    rewrite index_ref by lia. replace (Z.to_nat (1 + Z.of_nat (0 + j))) with (S j) by lia. reflexivity.
Qed.

Lemma nth_all : forall (l : list nat), map (nth_error l) (seq 0 (length l)) = map Some l.
Proof.
  induction l as [|x l IH]; auto. cbn [length seq map nth_error]. f_equal. rewrite <- seq_shift, map_map. exact IH.
Qed.
Lemma rotated_snoc : forall l x, rotated (l ++ [x]) = x :: l.
Proof. intros. unfold rotated. rewrite rev_app_distr. cbn. now rewrite rev_involutive. Qed.
Lemma rotated_perm : forall l, Permutation (rotated l) l.
Proof.
  intros l. destruct l as [|x l _] using rev_ind; [reflexivity|]. rewrite rotated_snoc. apply Permutation_cons_append.
Qed.
Lemma rotated_length : forall l, length (rotated l) = length l.
Proof. intros. apply Permutation_length, rotated_perm. Qed.

Lemma visited_is : forall l vs, (length l < 256)%nat -> visited (mk l vs) = map Some (rotated l).
Proof.
  intros l vs L. unfold visited. rewrite size_is. unfold u8. rewrite Z.mod_small by lia. rewrite Nat2Z.id.
  erewrite map_ext_in; [|intros i Hi; apply in_seq in Hi; apply get_is; lia].
  destruct l as [|x l _] using rev_ind; [reflexivity|]. rewrite rotated_snoc, app_length. cbn [length].
  rewrite Nat.add_1_r. cbn [seq map]. f_equal.
  - cbn. rewrite Nat.sub_0_r, nth_error_app2, Nat.sub_diag by lia. reflexivity.
  - rewrite <- seq_shift, map_map, <- nth_all. apply map_ext_in. intros i Hi. apply in_seq in Hi.
    rewrite nth_error_app1 by lia. reflexivity.
Qed.

Lemma all_some_map : forall l, all_some (map Some l) = Some l.
Proof. induction l as [|x l IH]; cbn; auto. now rewrite IH. Qed.
Lemma find_root_map : forall root r l, find_root root r (map Some l) = Some (first_of_root root r l).
Proof. intros root r. unfold first_of_root. induction l as [|x l IH]; cbn; auto. destruct (_ =? _)%nat; auto. Qed.

Lemma root_is : forall l vs root r, (length l < 256)%nat ->
  simulation_of_root root r (mk l vs) = Some (first_of_root root r (rotated l)).
Proof. intros. unfold simulation_of_root. rewrite visited_is by auto. apply find_root_map. Qed.

Lemma root_found : forall l vs root r, (length l < 256)%nat ->
  (forall s, simulation_of_root root r (mk l vs) = Some (Some s) -> In s l /\ root s = r) /\
  (simulation_of_root root r (mk l vs) = Some None <-> forall s, In s l -> root s <> r).
Proof.
  intros l vs root r L. rewrite root_is by auto. unfold first_of_root. split.
  - intros s E. inversion E as [E1]. apply find_some in E1 as [H1 H2]. split; [|now apply Nat.eqb_eq].
    eapply Permutation_in; [apply rotated_perm|auto].
  - split.
    + intros E. inversion E as [E1]. intros s Hs Er. pose proof (find_none _ _ E1 s) as N. cbn in N.
      rewrite Er, Nat.eqb_refl in N. discriminate N. eapply Permutation_in; [symmetry; apply rotated_perm|auto].
    + intros H. f_equal. destruct (find _ _) as [s|] eqn:E; auto. apply find_some in E as [H1 H2].
      apply Nat.eqb_eq in H2. exfalso. apply (H s); auto. eapply Permutation_in; [apply rotated_perm|auto].
Qed.
(** If no two simulations have the same root, the order does not matter. *)
Lemma root_unique : forall l vs root r, (length l < 256)%nat -> NoDup (map root l) ->
  simulation_of_root root r (mk l vs) = Some (first_of_root root r l).
Proof.
  intros l vs root r L N. destruct (root_found l vs root r L) as [F1 F2].
  unfold first_of_root. destruct (find _ l) as [s|] eqn:E.
  - apply find_some in E as [H1 H2]. apply Nat.eqb_eq in H2. rewrite root_is in * by auto.
    destruct (first_of_root root r (rotated l)) as [s'|].
    + destruct (F1 s' eq_refl) as [H3 H4]. do 2 f_equal. clear - N H1 H2 H3 H4. subst r.
      induction l as [|x l IH]; [destruct H1|]. inversion N as [|? ? N1 N2]; subst.
      assert (forall y, In y l -> root y <> root x) as D. { intros y Hy Ey. apply N1. rewrite <- Ey. now apply in_map. }
      destruct H1 as [->|H1], H3 as [->|H3]; auto.
      * exfalso. eapply D; eauto.
      * exfalso. eapply D; eauto.
    + exfalso. exact (proj1 F2 eq_refl s H1 H2).
  - apply F2. intros s Hs Er. pose proof (find_none _ _ E s Hs) as X. cbn in X. rewrite Er, Nat.eqb_refl in X. discriminate.
Qed.
Lemma has_is : forall l vs s, (length l < 256)%nat -> has_simulation (mk l vs) s = true <-> In s l.
Proof.
  intros l vs s L. unfold has_simulation. rewrite visited_is by auto. rewrite existsb_exists. split.
  - intros [o [H1 H2]]. apply in_map_iff in H1 as [s' [<- H1]]. apply Nat.eqb_eq in H2. subst.
    eapply Permutation_in; [apply rotated_perm|auto].
  - intros H. exists (Some s). split; [|apply Nat.eqb_refl]. apply in_map. eapply Permutation_in; [symmetry; apply rotated_perm|auto].
Qed.
Lemma is_simulation_is : forall l vs, (length l < 256)%nat -> is_simulation (mk l vs) = true <-> l <> [].
Proof.
  intros l vs L. unfold is_simulation. rewrite size_is. unfold u8. rewrite Z.mod_small by lia.
  destruct l; cbn [length]; split; intros H; try congruence; try lia.
Qed.
Lemma derive_is : forall op' thr' t' l vs, (length l < 256)%nat ->
  derive op' thr' t' (mk l vs) = Some (construct op' thr' t' (rotated l) vs).
Proof. intros. unfold derive. rewrite visited_is by auto. now rewrite all_some_map. Qed.
End One.

Lemma visited_set : forall op thr t l vs, (length l < 256)%nat ->
  exists l', visited (construct op thr t l vs) = map Some l' /\ Permutation l' l.
Proof. intros. exists (rotated l). split; [now apply visited_is|apply rotated_perm]. Qed.

(** A chain of predictions, each made from the previous one. *)
Fixpoint chain (p : pred) (l : list (Z * Z * nat)) : option pred :=
  match l with
  | [] => Some p
  | (op, thr, t) :: r => match derive op thr t p with Some q => chain q r | None => None end
  end.
Lemma chain_is : forall c op thr t l vs, (length l < 256)%nat ->
  exists op' thr' t' l', chain (construct op thr t l vs) c = Some (construct op' thr' t' l' vs) /\ Permutation l' l.
Proof.
  induction c as [|[[o h] u] c IH]; intros op thr t l vs L; cbn [chain].
  - exists op, thr, t, l. auto.
  - rewrite derive_is by auto. destruct (IH o h u (rotated l) vs) as (a & b & d & l' & E & P).
    { now rewrite rotated_length. }
    exists a, b, d, l'. split; auto. etransitivity; [exact P|apply rotated_perm].
Qed.
Lemma chain_sims : forall c op thr t l vs, (length l < 256)%nat ->
  exists q l', chain (construct op thr t l vs) c = Some q /\ validities q = vs /\
    visited q = map Some l' /\ Permutation l' l.
Proof.
  intros c op thr t l vs L. destruct (chain_is c op thr t l vs L) as (a & b & d & l' & E & P).
  exists (construct a b d l' vs), (rotated l'). split; auto. split; auto. split.
  - apply visited_is. now rewrite (Permutation_length P).
  - etransitivity; [apply rotated_perm|auto].
Qed.

Lemma order_refuted : exists op thr t l i, (length l < 256)%nat /\ (i < length l)%nat /\
  get_simulation (construct op thr t l []) (Z.of_nat i) <> nth_error l i.
Proof. exists 1, 0, 5%nat, [7; 8]%nat, 0%nat. cbn. repeat split; try lia. vm_compute. congruence. Qed.
Lemma many_refuted : exists op thr t l, l <> [] /\ is_simulation (construct op thr t l []) = false.
Proof. exists 1, 0, 5%nat, (repeat 7%nat 256). split; [discriminate|vm_compute; reflexivity]. Qed.
Lemma first_refuted : exists op thr t l root r, (length l < 256)%nat /\
  simulation_of_root root r (construct op thr t l []) <> Some (first_of_root root r l).
Proof. exists 1, 0, 5%nat, [7; 8]%nat, (fun _ => 3%nat), 3%nat. cbn. split; [lia|]. vm_compute. congruence. Qed.
Lemma derive_refuted : exists op thr t l q, derive op thr t (construct op thr t l []) = Some q /\ visited q = [] /\ l <> [].
Proof. exists 1, 0, 5%nat, (repeat 7%nat 256). eexists. split; [vm_compute; reflexivity|]. split; [vm_compute; reflexivity|discriminate]. Qed.
