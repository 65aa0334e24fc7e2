(** Proofs about evidence caches and requirement counters. *)
From Verif Require Import Base Ev_model Ev_spec.

(** ** Evidence caches *)
Section Cache.
Context (after before : Z -> Z).
Notation old := (too_old after before).
Lemma old_usable m now e : old (dead_in m) now e = false <-> usable after before (gone m) now e.
Proof.
  unfold too_old, usable, dead_in. rewrite orb_false_iff. split.
  - intros (D & T). split.
    + intros I. assert (X : existsb (Z.eqb e) (gone m) = true) by (apply existsb_exists; exists e; split; [exact I|apply Z.eqb_refl]). congruence.
    + destruct (after e =? before e) eqn:Q; [apply Z.eqb_eq in Q; apply Z.ltb_ge in T; lia|apply Z.eqb_neq in Q; apply Z.leb_gt in T; lia].
  - intros (D & T). split.
    + destruct (existsb (Z.eqb e) (gone m)) eqn:X; [|reflexivity]. apply existsb_exists in X. destruct X as (y & I & Y). apply Z.eqb_eq in Y. subst y. contradiction.
    + destruct (after e =? before e) eqn:Q; [apply Z.eqb_eq in Q; apply Z.ltb_ge; lia|apply Z.eqb_neq in Q; apply Z.leb_gt; lia].
Qed.
Lemma subseq_refl {A} (l : list A) : subseq l l.
Proof. induction l; constructor; auto. Qed.
Lemma subseq_trans {A} (a b c : list A) : subseq a b -> subseq b c -> subseq a c.
Proof.
  intros H K. revert a H. induction K as [l|x l l' K IH|x l l' K IH]; intros a H.
  - inversion H. constructor.
  - inversion H; subst; [constructor|apply sub_take; auto|apply sub_skip; auto].
  - apply sub_skip. auto.
Qed.
Lemma subseq_in {A} (a b : list A) x : subseq a b -> In x a -> In x b.
Proof. induction 1; cbn; intuition. Qed.
Lemma subseq_nodup {A} (a b : list A) : subseq a b -> NoDup b -> NoDup a.
Proof.
  induction 1 as [l|x l l' H IH|x l l' H IH]; intros N.
  - constructor.
  - inversion N; subst. constructor; [|auto]. intros I. apply (subseq_in _ _ _ H) in I. contradiction.
  - inversion N; subst. auto.
Qed.
Lemma scan_sub d now e l : subseq (fst (scan after before d now e l)) l.
Proof.
  induction l as [|x l IH]; cbn; [constructor|]. destruct (x =? e); [apply subseq_refl|]. destruct (scan after before d now e l) as [l2 b]. cbn in IH. destruct (old d now x); cbn; [apply sub_skip|apply sub_take]; exact IH.
Qed.
Lemma scan_found d now e l : snd (scan after before d now e l) = true <-> In e l.
Proof.
  induction l as [|x l IH]; cbn; [split; [discriminate|contradiction]|]. destruct (x =? e) eqn:Q.
  - apply Z.eqb_eq in Q. cbn. tauto.
  - apply Z.eqb_neq in Q. destruct (scan after before d now e l) as [l2 b]. cbn in IH. destruct (old d now x); cbn; rewrite IH; tauto.
Qed.
Lemma scan_keeps d now e l x : In x l -> old d now x = false -> In x (fst (scan after before d now e l)).
Proof.
  intros I O. induction l as [|y l IH]; cbn; [contradiction|]. destruct (y =? e); [exact I|]. destruct (scan after before d now e l) as [l2 b]. cbn in IH. destruct I as [->|I].
  - rewrite O. left. reflexivity.
  - destruct (old d now y); cbn; auto.
Qed.
Lemma scan_clean d now e l x : ~ In e l -> In x (fst (scan after before d now e l)) -> old d now x = false.
Proof.
  induction l as [|y l IH]; cbn; [contradiction|]. intros N I. destruct (y =? e) eqn:Q; [apply Z.eqb_eq in Q; tauto|]. destruct (scan after before d now e l) as [l2 b]. cbn in IH. destruct (old d now y) eqn:O; cbn in I; [apply IH; tauto|]. destruct I as [->|I]; [exact O|apply IH; tauto].
Qed.
Lemma store_in d now e l : In e (store after before d now e l).
Proof.
  unfold store. pose proof (scan_found d now e l) as F. assert (K : In e l -> In e (fst (scan after before d now e l))).
  { clear F. induction l as [|y l IH]; cbn; [contradiction|]. intros I. destruct (y =? e) eqn:Q; [exact I|]. apply Z.eqb_neq in Q. destruct I as [I|I]; [contradiction|]. destruct (scan after before d now e l) as [l2 b]. cbn in *. destruct (old d now y); cbn; auto. }
  destruct (scan after before d now e l) as [l2 b]. cbn in F, K. destruct b; [apply K, F; reflexivity|left; reflexivity].
Qed.
Lemma store_keeps d now e l x : In x l -> old d now x = false -> In x (store after before d now e l).
Proof. intros I O. unfold store. pose proof (scan_keeps d now e l x I O) as K. destruct (scan after before d now e l) as [l2 b]. cbn in K. destruct b; [|right]; exact K. Qed.
Lemma store_sub d now e l : subseq (store after before d now e l) (e :: l).
Proof. unfold store. pose proof (scan_sub d now e l) as K. destruct (scan after before d now e l) as [l2 b]. cbn in K. destruct b; [apply sub_skip|apply sub_take]; exact K. Qed.
Lemma store_nodup d now e l : NoDup l -> NoDup (store after before d now e l).
Proof.
  intros N. unfold store. pose proof (scan_sub d now e l) as K. pose proof (scan_found d now e l) as F. destruct (scan after before d now e l) as [l2 b]. cbn in K, F. destruct b; [exact (subseq_nodup _ _ K N)|]. constructor; [|exact (subseq_nodup _ _ K N)].
  intros I. apply (subseq_in _ _ _ K) in I. apply F in I. discriminate.
Qed.
Lemma check_pred f d now l : check_evidences after before f d now l = check_predicted_evidences after before f (fun _ => true) d now l.
Proof. induction l as [|x l IH]; cbn; [reflexivity|]. rewrite <- IH. destruct (old d now x); [reflexivity|]. destruct (f x); reflexivity. Qed.
Lemma check_sub f g d now l : subseq (fst (check_predicted_evidences after before f g d now l)) l.
Proof.
  induction l as [|x l IH]; cbn; [constructor|]. destruct (old d now x); [apply sub_skip; exact IH|]. destruct (check_predicted_evidences after before f g d now l) as [l2 a]. cbn in IH.
  destruct (f x); [apply sub_take; exact IH| |]; (destruct (g x); [apply subseq_refl|apply sub_take; exact IH]).
Qed.
Lemma check_keeps f g d now l x : In x l -> old d now x = false -> In x (fst (check_predicted_evidences after before f g d now l)).
Proof.
  intros I O. induction l as [|y l IH]; cbn; [contradiction|]. destruct (old d now y) eqn:OY.
  - destruct I as [->|I]; [congruence|auto].
  - destruct (check_predicted_evidences after before f g d now l) as [l2 a]. cbn in IH. destruct (f y); [|destruct (g y)|destruct (g y)]; cbn; destruct I as [->|I]; auto.
Qed.
Lemma check_some f g d now l x r : snd (check_predicted_evidences after before f g d now l) = Some (x, r) ->
  f x = r /\ r <> Failure /\ g x = true /\ old d now x = false /\ exists l1 l2, l = l1 ++ x :: l2 /\ forall y, In y l1 -> old d now y = false -> f y <> Failure -> g y = false.
Proof.
  induction l as [|y l IH]; cbn; [discriminate|]. destruct (old d now y) eqn:OY.
  - intros H. destruct (IH H) as (A & B & C & D & l1 & l2 & -> & Q). repeat split; auto. exists (y :: l1), l2. split; [reflexivity|]. intros z [<-|I] OZ; [congruence|auto].
  - assert (skip : (f y = Failure \/ g y = false) -> snd (check_predicted_evidences after before f g d now l) = Some (x, r) ->
      f x = r /\ r <> Failure /\ g x = true /\ old d now x = false /\ exists l1 l2, y :: l = l1 ++ x :: l2 /\ forall z, In z l1 -> old d now z = false -> f z <> Failure -> g z = false).
    { intros N H. destruct (IH H) as (A & B & C & D & l1 & l2 & -> & Q). repeat split; auto. exists (y :: l1), l2. split; [reflexivity|]. intros z [<-|I] OZ FZ; [tauto|auto]. }
    destruct (check_predicted_evidences after before f g d now l) as [l2 a]. cbn in skip. destruct (f y) eqn:FY; [cbn; auto| |]; (destruct (g y) eqn:GY; [|cbn; auto]); cbn; intros H; injection H as <- <-; rewrite FY; repeat split; try discriminate; auto; exists [], l; split; try reflexivity; cbn; contradiction.
Qed.
Lemma check_none f g d now l : snd (check_predicted_evidences after before f g d now l) = None <-> forall x, In x l -> old d now x = false -> f x <> Failure -> g x = false.
Proof.
  induction l as [|y l IH]; cbn; [split; [contradiction|reflexivity]|]. destruct (old d now y) eqn:OY.
  - rewrite IH. split; [intros H x [<-|I]; [congruence|auto]|intros H x I; apply H; auto].
  - destruct (check_predicted_evidences after before f g d now l) as [l2 a]. cbn in IH. destruct (f y) eqn:FY; [|destruct (g y) eqn:GY|destruct (g y) eqn:GY]; cbn.
    + rewrite IH. split; [intros H x [<-|I]; [congruence|auto]|intros H x I; apply H; auto].
    + split; [discriminate|]. intros H. rewrite (H y) in GY; [discriminate|auto|exact OY|congruence].
    + rewrite IH. split; [intros H x [<-|I]; [congruence|auto]|intros H x I; apply H; auto].
    + split; [discriminate|]. intros H. rewrite (H y) in GY; [discriminate|auto|exact OY|congruence].
    + rewrite IH. split; [intros H x [<-|I]; [congruence|auto]|intros H x I; apply H; auto].
Qed.

Definition exec (l : list op) := run after before no_evidence l.
Lemma exec_snoc l o : exec (l ++ [o]) = step after before (exec l) o.
Proof. unfold exec, run. rewrite fold_left_app. reflexivity. Qed.
Lemma gone_exec l x : In x (gone (exec l)) <-> In x (invalidated l).
Proof.
  induction l as [|o l IH] using rev_ind; [cbn; tauto|]. rewrite exec_snoc. unfold invalidated in *. rewrite flat_map_app, in_app_iff, <- IH. destruct o; cbn; tauto.
Qed.
Lemma kept l now e : (forall t, In t (times l) -> t <= now) -> In e (stored l) -> usable after before (invalidated l) now e -> In e (cache (exec l)).
Proof.
  induction l as [|o l IH] using rev_ind; [cbn; contradiction|]. rewrite exec_snoc. unfold times, stored, invalidated. rewrite !flat_map_app. fold (times l). fold (stored l). fold (invalidated l). intros T S U.
  assert (T' : forall t, In t (times l) -> t <= now) by (intros t I; apply T; apply in_app_iff; auto).
  assert (U' : usable after before (invalidated l) now e) by (destruct U as (A & B); split; [intros I; apply A; apply in_app_iff; auto|exact B]).
  assert (N : forall t, t <= now -> too_old after before (dead_in (exec l)) t e = false).
  { intros t L. apply old_usable. destruct U' as (A & B). split; [rewrite gone_exec; exact A|lia]. }
  apply in_app_iff in S. destruct S as [S|S].
  - specialize (IH T' S U'). destruct o as [x t|f t|f g t|x]; cbn.
    + apply store_keeps; [exact IH|]. apply N, T, in_app_iff. cbn. auto.
    + rewrite check_pred. apply check_keeps; [exact IH|]. apply N, T, in_app_iff. cbn. auto.
    + apply check_keeps; [exact IH|]. apply N, T, in_app_iff. cbn. auto.
    + exact IH.
  - destruct o as [x t|f t|f g t|x]; cbn in S; try contradiction. destruct S as [->|[]]. cbn. apply store_in.
Qed.
Lemma once l : NoDup (cache (exec l)).
Proof.
  induction l as [|o l IH] using rev_ind; [constructor|]. rewrite exec_snoc. destruct o as [x t|f t|f g t|x]; cbn.
  - apply store_nodup. exact IH.
  - rewrite check_pred. exact (subseq_nodup _ _ (check_sub _ _ _ _ _) IH).
  - exact (subseq_nodup _ _ (check_sub _ _ _ _ _) IH).
  - exact IH.
Qed.
Lemma in_order l : subseq (cache (exec l)) (rev (stored l)).
Proof.
  induction l as [|o l IH] using rev_ind; [constructor|]. rewrite exec_snoc. unfold stored. rewrite flat_map_app. fold (stored l). rewrite rev_app_distr. destruct o as [x t|f t|f g t|x]; cbn.
  - exact (subseq_trans _ _ _ (store_sub _ _ _ _) (sub_take _ _ _ IH)).
  - rewrite check_pred. exact (subseq_trans _ _ _ (check_sub _ _ _ _ _) IH).
  - exact (subseq_trans _ _ _ (check_sub _ _ _ _ _) IH).
  - exact IH.
Qed.
Lemma only_stored l x : In x (cache (exec l)) -> In x (stored l).
Proof. intros I. rewrite in_rev. exact (subseq_in _ _ _ (in_order l) I). Qed.
Lemma cleaned l e now x : ~ In e (cache (exec l)) -> In x (cache (exec (l ++ [StoreEv e now]))) -> x = e \/ usable after before (invalidated l) now x.
Proof.
  rewrite exec_snoc. cbn. intros N I. unfold store in I. pose proof (scan_clean (dead_in (exec l)) now e (cache (exec l)) x N) as C. pose proof (scan_found (dead_in (exec l)) now e (cache (exec l))) as F.
  destruct (scan after before (dead_in (exec l)) now e (cache (exec l))) as [l2 b]. cbn in C, F. destruct b; [tauto|]. destruct I as [I|I]; [auto|]. right. apply C in I. apply old_usable in I. destruct I as (A & B). split; [rewrite <- gone_exec; exact A|exact B].
Qed.
Definition ask f g now l := snd (check_predicted_evidences after before f g (dead_in (exec l)) now (cache (exec l))).
Lemma answered f g now l x r : ask f g now l = Some (x, r) ->
  In x (stored l) /\ usable after before (invalidated l) now x /\ f x = r /\ r <> Failure /\ g x = true /\
  exists l1 l2, cache (exec l) = l1 ++ x :: l2 /\ forall y, In y l1 -> usable after before (invalidated l) now y -> f y <> Failure -> g y = false.
Proof.
  intros H. destruct (check_some _ _ _ _ _ _ _ H) as (A & B & C & D & l1 & l2 & E & Q).
  assert (U : forall y, too_old after before (dead_in (exec l)) now y = false <-> usable after before (invalidated l) now y) by (intros y; rewrite old_usable; unfold usable; rewrite gone_exec; tauto).
  split; [apply only_stored; rewrite E; apply in_app_iff; right; left; reflexivity|]. split; [apply U; exact D|]. repeat split; auto. exists l1, l2. split; [exact E|]. intros y I UY. apply Q; [exact I|apply U; exact UY].
Qed.
Lemma unanswered f g now l : (forall t, In t (times l) -> t <= now) ->
  ask f g now l = None <-> forall x, In x (stored l) -> usable after before (invalidated l) now x -> f x <> Failure -> g x = false.
Proof.
  intros T. unfold ask. rewrite check_none.
  assert (U : forall y, too_old after before (dead_in (exec l)) now y = false <-> usable after before (invalidated l) now y) by (intros y; rewrite old_usable; unfold usable; rewrite gone_exec; tauto).
  split; intros H x I UX.
  - apply H; [apply (kept l now); assumption|apply U; exact UX].
  - apply H; [apply only_stored; exact I|apply U; exact UX].
Qed.
Lemma ask_actual f now l : snd (check_evidences after before f (dead_in (exec l)) now (cache (exec l))) = ask f (fun _ => true) now l.
Proof. unfold ask. rewrite check_pred. reflexivity. Qed.
Lemma not_found f above now l : (forall t, In t (times l) -> t <= now) ->
  let m := exec l in
  (snd (check_evidences after before f (dead_in m) now (cache m)) = None <-> forall x, In x (stored l) -> usable after before (invalidated l) now x -> f x = Failure) /\
  (snd (check_predicted_evidences after before f above (dead_in m) now (cache m)) = None <-> forall x, In x (stored l) -> usable after before (invalidated l) now x -> f x = Failure \/ above x = false).
Proof.
  intros T m. unfold m. split.
  - rewrite (ask_actual f now l), (unanswered _ _ _ _ T). split; intros H x I U; specialize (H x I U); destruct (f x); intuition congruence.
  - fold (ask f above now l). rewrite (unanswered _ _ _ _ T). split; intros H x I U; specialize (H x I U); destruct (f x); intuition congruence.
Qed.
Lemma found_actual f now l x r :
  let m := exec l in
  snd (check_evidences after before f (dead_in m) now (cache m)) = Some (x, r) ->
  In x (stored l) /\ usable after before (invalidated l) now x /\ f x = r /\ r <> Failure /\
  exists l1 l2, cache m = l1 ++ x :: l2 /\ forall y, In y l1 -> usable after before (invalidated l) now y -> f y = Failure.
Proof.
  intros m H. unfold m in H. rewrite (ask_actual f now l) in H. destruct (answered _ _ _ _ _ _ H) as (A & B & C & D & _ & l1 & l2 & E & Q).
  split; [exact A|]. split; [exact B|]. split; [exact C|]. split; [exact D|]. exists l1, l2. split; [exact E|]. intros y I U. specialize (Q y I U). destruct (f y); [reflexivity| |]; (assert (X : true = false) by (apply Q; discriminate); discriminate X).
Qed.
End Cache.

(** ** Counters *)
Lemma counted l : let c := fold_left count_step l no_requirement in
  strong c = u32 (balance true l) /\ weak c = u32 (balance false l) /\ total c = u32 (balance true l + balance false l).
Proof.
  assert (G : forall l c a b, strong c = u32 a -> weak c = u32 b -> total c = u32 (a + b) ->
    let c' := fold_left count_step l c in strong c' = u32 (a + balance true l) /\ weak c' = u32 (b + balance false l) /\ total c' = u32 (a + b + balance true l + balance false l)).
  { clear l. assert (P1 : forall x y, u32 (u32 x + y) = u32 (x + y)) by (intros x y; unfold u32; apply Zplus_mod_idemp_l). assert (P2 : forall x y, u32 (u32 x - y) = u32 (x - y)) by (intros x y; unfold u32; apply Zminus_mod_idemp_l).
    induction l as [|o l IH]; intros c a b A B T; [cbn; rewrite !Z.add_0_r; auto|]. cbn [fold_left]. destruct o as [[]|[]].
    - destruct (IH (count_step c (Add true)) (a + 1) b) as (X & Y & Z_); [cbn; rewrite A; apply P1|exact B|cbn; rewrite T, P1; f_equal; lia|]. cbn [balance fold_right eqb]. fold (balance true l). fold (balance false l). rewrite X, Y, Z_. repeat split; f_equal; lia.
    - destruct (IH (count_step c (Add false)) a (b + 1)) as (X & Y & Z_); [exact A|cbn; rewrite B; apply P1|cbn; rewrite T, P1; f_equal; lia|]. cbn [balance fold_right eqb]. fold (balance true l). fold (balance false l). rewrite X, Y, Z_. repeat split; f_equal; lia.
    - destruct (IH (count_step c (Remove true)) (a - 1) b) as (X & Y & Z_); [cbn; rewrite A; apply P2|exact B|cbn; rewrite T, P2; f_equal; lia|]. cbn [balance fold_right eqb]. fold (balance true l). fold (balance false l). rewrite X, Y, Z_. repeat split; f_equal; lia.
    - destruct (IH (count_step c (Remove false)) a (b - 1)) as (X & Y & Z_); [exact A|cbn; rewrite B; apply P2|cbn; rewrite T, P2; f_equal; lia|]. cbn [balance fold_right eqb]. fold (balance true l). fold (balance false l). rewrite X, Y, Z_. repeat split; f_equal; lia. }
  exact (G l no_requirement 0 0 eq_refl eq_refl eq_refl).
Qed.
Lemma balanced l : 0 <= balance true l -> 0 <= balance false l -> balance true l + balance false l < 2 ^ 32 ->
  let c := fold_left count_step l no_requirement in strong c = balance true l /\ weak c = balance false l /\ total c = strong c + weak c.
Proof. intros A B C. destruct (counted l) as (X & Y & Z_). cbn zeta. rewrite X, Y, Z_. unfold u32. change 4294967296 with (2 ^ 32). rewrite !Z.mod_small by lia. auto. Qed.

(** ** Pairs *)
Lemma nth_upd {A} (l : list A) i x l' : upd l i x = Some l' -> length l' = length l /\ forall j, nth_error l' j = if (j =? i)%nat then Some x else nth_error l j.
Proof.
  revert i l'. induction l as [|a l IH]; intros [|i] l'; cbn; try discriminate.
  - intros H. injection H as <-. split; [reflexivity|]. intros [|j]; reflexivity.
  - destruct (upd l i x) as [l2|] eqn:U; [|discriminate]. intros H. injection H as <-. destruct (IH _ _ U) as (L & N). split; [cbn; congruence|]. intros [|j]; [reflexivity|]. cbn. apply N.
Qed.
Lemma upd_some {A} (l : list A) i x : (i < length l)%nat -> exists l', upd l i x = Some l'.
Proof.
  revert i. induction l as [|a l IH]; intros [|i]; cbn; intros L; [lia|lia|eauto|]. destruct (IH i) as (l' & ->); [lia|]. eauto.
Qed.
Lemma u32_in x : 0 <= u32 x < 2 ^ 32.
Proof. unfold u32. change 4294967296 with (2 ^ 32). apply Z.mod_pos_bound. lia. Qed.
Lemma u32_id x : 0 <= x < 2 ^ 32 -> u32 x = x.
Proof. intros H. unfold u32. apply Z.mod_small. exact H. Qed.
Lemma u32_plus x y : u32 (u32 x + y) = u32 (x + y).
Proof. unfold u32. apply Zplus_mod_idemp_l. Qed.
Lemma normal_increased s w c : normal (increased s w c).
Proof. repeat split; apply u32_in. Qed.
Lemma increased_0 c : normal c -> increased 0 0 c = c.
Proof. destruct c as [s w t]. unfold normal, increased. cbn [strong weak total]. intros (A & B & C). rewrite !Z.add_0_r. rewrite (u32_id s A), (u32_id w B), (u32_id t C). reflexivity. Qed.
Lemma increased_twice a b c d x : increased a b (increased c d x) = increased (a + c) (b + d) x.
Proof. unfold increased. cbn. rewrite !u32_plus. f_equal; f_equal; ring. Qed.
Definition effect (d : Z) (f : bool -> counts -> counts) := forall s c, normal c -> f s c = increased (d * (if s then 1 else 0)) (d * (if s then 0 else 1)) c.
Lemma add_effect : effect 1 add_requirement.
Proof. intros [] c (A & B & C); unfold add_requirement, increased; cbn [strong weak total Z.mul Z.add]; rewrite ?Z.add_0_r, ?(u32_id _ A), ?(u32_id _ B); reflexivity. Qed.
Lemma remove_effect : effect (-1) remove_requirement.
Proof. intros [] c (A & B & C); unfold remove_requirement, increased; cbn [strong weak total Z.mul Z.add]; rewrite ?Z.add_0_r, ?(u32_id _ A), ?(u32_id _ B); reflexivity. Qed.
Lemma on_rhs_ok d f h cs : effect d f -> Forall normal cs -> (h_kind h = NotARequirement \/ h_dead h = false) -> points_to h (length cs) ->
  exists cs', on_rhs f h cs = Some cs' /\ length cs' = length cs /\ Forall normal cs' /\
    forall i c, nth_error cs i = Some c -> nth_error cs' i = Some (increased (d * claim h i true) (d * claim h i false) c).
Proof.
  intros E N D P. assert (same : (forall i s, claim h i s = 0) -> exists cs', Some cs = Some cs' /\ length cs' = length cs /\ Forall normal cs' /\
    forall i c, nth_error cs i = Some c -> nth_error cs' i = Some (increased (d * claim h i true) (d * claim h i false) c)).
  { intros Z0. exists cs. repeat split; auto. intros i c I. rewrite !Z0, !Z.mul_0_r, increased_0; [exact I|]. rewrite Forall_forall in N. apply N. eapply nth_error_In, I. }
  unfold on_rhs. assert (go : h_kind h <> NotARequirement -> exists cs', (if h_dead h then None else match h_rhs h with None => Some cs | Some i => match nth_error cs i with None => None | Some c => upd cs i (f (is_strong (h_kind h)) c) end end) = Some cs' /\
    length cs' = length cs /\ Forall normal cs' /\ forall i c, nth_error cs i = Some c -> nth_error cs' i = Some (increased (d * claim h i true) (d * claim h i false) c)).
  { intros K. destruct D as [D|D]; [contradiction|]. rewrite D. destruct (h_rhs h) as [j|] eqn:R; [|apply same; intros i s; unfold claim; rewrite R; destruct (h_kind h); reflexivity].
    specialize (P j R). destruct (nth_error cs j) as [c|] eqn:J; [|apply nth_error_None in J; lia]. destruct (upd_some cs j (f (is_strong (h_kind h)) c) P) as (cs' & U). rewrite U. exists cs'. split; [reflexivity|]. destruct (nth_upd _ _ _ _ U) as (L & G). split; [exact L|].
    assert (NC : normal c) by (rewrite Forall_forall in N; eapply N, nth_error_In, J). rewrite (E _ _ NC) in G. split.
    - apply Forall_forall. intros x I. apply In_nth_error in I. destruct I as (i & I). rewrite G in I. destruct (i =? j)%nat; [injection I as <-; apply normal_increased|]. rewrite Forall_forall in N. eapply N, nth_error_In, I.
    - intros i x I. rewrite G. destruct (i =? j)%nat eqn:Q.
      + apply Nat.eqb_eq in Q. subst i. rewrite J in I. injection I as <-. f_equal. unfold claim. rewrite R, Nat.eqb_refl. destruct (h_kind h); [contradiction|reflexivity|reflexivity].
      + rewrite Nat.eqb_sym in Q. assert (Z0 : forall s, claim h i s = 0) by (intros s; unfold claim; rewrite R, Q; destruct (h_kind h); reflexivity). rewrite !Z0, !Z.mul_0_r, increased_0; [exact I|]. rewrite Forall_forall in N. eapply N, nth_error_In, I. }
  destruct (h_kind h) eqn:K; [apply same; intros i s; unfold claim; rewrite K; reflexivity| |]; apply go; discriminate.
Qed.
Lemma both_ok d f h1 h2 cs : effect d f -> Forall normal cs -> h_dead h1 = false -> points_to h1 (length cs) -> h_dead h2 = false -> points_to h2 (length cs) ->
  exists cs', both f h1 h2 cs = Some cs' /\ length cs' = length cs /\ Forall normal cs' /\
    forall i c, nth_error cs i = Some c -> nth_error cs' i = Some (increased (d * (claim h1 i true + claim h2 i true)) (d * (claim h1 i false + claim h2 i false)) c).
Proof.
  intros E N D1 P1 D2 P2. unfold both. destruct (on_rhs_ok d f h1 cs E N (or_intror D1) P1) as (c1 & -> & L1 & N1 & G1). destruct (on_rhs_ok d f h2 c1 E N1 (or_intror D2)) as (c2 & -> & L2 & N2 & G2); [rewrite L1; exact P2|].
  exists c2. split; [reflexivity|]. split; [congruence|]. split; [exact N2|]. intros i c I. rewrite (G2 _ _ (G1 _ _ I)), increased_twice. f_equal. f_equal; ring.
Qed.
Lemma pair_counted p : fresh p -> exists q, set_secondary p = Some q /\ fresh q /\ primary q = primary p /\ secondary q = secondary p /\ length (others q) = length (others p) /\
  forall i c, nth_error (others p) i = Some c -> nth_error (others q) i = Some (increased (claim (primary p) i true + claim (secondary p) i true) (claim (primary p) i false + claim (secondary p) i false) c).
Proof.
  intros [(A1 & A2) (B1 & B2) N]. unfold set_secondary. destruct (both_ok 1 add_requirement (primary p) (secondary p) (others p) add_effect N A1 A2 B1 B2) as (cs & -> & L & N' & G).
  exists (mkpair (primary p) (secondary p) cs). split; [reflexivity|]. split; [constructor; cbn; [rewrite L; auto|rewrite L; auto|exact N']|]. repeat split; auto. cbn. intros i c I. rewrite (G _ _ I). f_equal. f_equal; ring.
Qed.
Lemma list_ext {A} (a b : list A) : length a = length b -> (forall i x, nth_error b i = Some x -> nth_error a i = Some x) -> a = b.
Proof.
  revert b. induction a as [|x a IH]; intros [|y b]; cbn; intros L H; try discriminate; [reflexivity|]. f_equal; [specialize (H O y eq_refl); cbn in H; congruence|]. apply IH; [congruence|]. intros i z. apply (H (S i)).
Qed.
Lemma withdrawn_by d h1 h2 cs0 cs1 cs2 : d = -1 -> Forall normal cs0 -> length cs1 = length cs0 -> length cs2 = length cs1 ->
  (forall i c, nth_error cs0 i = Some c -> nth_error cs1 i = Some (increased (claim h1 i true + claim h2 i true) (claim h1 i false + claim h2 i false) c)) ->
  (forall i c, nth_error cs1 i = Some c -> nth_error cs2 i = Some (increased (d * (claim h1 i true + claim h2 i true)) (d * (claim h1 i false + claim h2 i false)) c)) -> cs2 = cs0.
Proof.
  intros -> N L1 L2 G1 G2. apply list_ext; [congruence|]. intros i c I. rewrite (G2 _ _ (G1 _ _ I)), increased_twice. f_equal.
  replace (-1 * (claim h1 i true + claim h2 i true) + (claim h1 i true + claim h2 i true)) with 0 by ring. replace (-1 * (claim h1 i false + claim h2 i false) + (claim h1 i false + claim h2 i false)) with 0 by ring.
  apply increased_0. rewrite Forall_forall in N. eapply N, nth_error_In, I.
Qed.
Lemma withdrawn_once p q n : fresh p -> set_secondary p = Some q ->
  (exists r, pair_run q (KillPrimary :: repeat KillPrimary n) = Some r /\ others r = others p) /\ (exists r, pair_run q [KillSecondary] = Some r /\ others r = others p).
Proof.
  intros W S. destruct (pair_counted p W) as (q' & S' & WQ & EP & ES & LQ & GQ). rewrite S in S'. injection S' as <-. destruct WQ as [(A1 & A2) (B1 & B2) N]. split.
  - cbn [pair_run pair_step]. unfold kill_primary at 1. rewrite A1. destruct (both_ok (-1) remove_requirement (primary q) (secondary q) (others q) remove_effect N A1 A2 B1 B2) as (cs & -> & L & N' & G).
    assert (R : forall k r, h_dead (primary r) = true -> pair_run r (repeat KillPrimary k) = Some r) by (induction k as [|k IH]; intros r D; cbn; [reflexivity|unfold kill_primary; rewrite D; auto]).
    rewrite R by reflexivity. eexists. split; [reflexivity|]. cbn. rewrite EP, ES in G. exact (withdrawn_by (-1) (primary p) (secondary p) (others p) (others q) cs eq_refl (fresh_counts _ W) LQ L GQ G).
  - cbn [pair_run pair_step]. unfold kill_secondary. destruct (both_ok (-1) remove_requirement (secondary q) (primary q) (others q) remove_effect N B1 B2 A1 A2) as (cs & -> & L & N' & G).
    eexists. split; [reflexivity|]. cbn. rewrite EP, ES in G. apply (withdrawn_by (-1) (primary p) (secondary p) (others p) (others q) cs eq_refl (fresh_counts _ W) LQ L GQ). intros i c I. rewrite (G _ _ I). f_equal. f_equal; ring.
Qed.
(** A weak requirement in the primary group, with its copy in the secondary group not a
    requirement, on a controller with one more weak requirement. *)
Definition pair0 : pair := mkpair (mkhalf WeakRequirement (Some O) false) (mkhalf NotARequirement None false) [mkcounts 0 0 0].
Definition pair1 : pair := mkpair (mkhalf StrongRequirement (Some O) false) (mkhalf StrongRequirement (Some 1%nat) false) [mkcounts 1 1 2; mkcounts 0 3 3].
Lemma pair0_fresh : fresh pair0.
Proof. constructor; cbn; [split; [reflexivity|intros i H; injection H as <-; cbn; lia]|split; [reflexivity|intros i H; discriminate]|]. constructor; [|constructor]. repeat split; cbn; lia. Qed.
Lemma pair1_fresh : fresh pair1.
Proof. constructor; cbn; [split; [reflexivity|intros i H; injection H as <-; cbn; lia]|split; [reflexivity|intros i H; injection H as <-; cbn; lia]|]. constructor; [|constructor; [|constructor]]; repeat split; cbn; lia. Qed.
Lemma withdrawn_twice : exists p q r, fresh p /\ others p = [mkcounts 0 0 0] /\ set_secondary p = Some q /\ others q = [mkcounts 0 1 1] /\ pair_run q [KillSecondary; KillPrimary] = Some r /\ others r = [mkcounts 0 4294967295 4294967295].
Proof. exists pair0, (mkpair (primary pair0) (secondary pair0) [mkcounts 0 1 1]). eexists. split; [exact pair0_fresh|]. repeat split; reflexivity. Qed.
Lemma withdrawn_undefined : exists p q, fresh p /\ set_secondary p = Some q /\ pair_run q [KillSecondary; KillPrimary] = None /\ pair_run q [KillSecondary; KillSecondary] = None.
Proof. exists pair1. eexists. split; [exact pair1_fresh|]. split; [reflexivity|]. split; reflexivity. Qed.
Lemma never_withdrawn : exists p q r, fresh p /\ others p = [mkcounts 0 0 0] /\ set_secondary p = Some q /\ pair_run q [DeletePrimary; DeleteSecondary; KillPrimary] = Some r /\ others r = [mkcounts 0 1 1].
Proof. exists pair0. eexists. eexists. split; [exact pair0_fresh|]. split; [reflexivity|]. split; [reflexivity|]. split; reflexivity. Qed.
