From Verif Require Import Base Atom_model Ovl_model Ovl_spec.

Lemma copy_back_nth : forall ix src c c', copy_back src c ix = Some c' -> length src = length c ->
  length c' = length c /\ forall j, nth_error c' j = if in_dec Nat.eq_dec j ix then nth_error src j else nth_error c j.
Proof.
  induction ix as [|i r IH]; cbn [copy_back]; intros src c c' H L.
  - injection H as <-. split; [reflexivity|]. intro j. reflexivity.
  - destruct (nth_error src i) as [v|] eqn:E; [|discriminate].
    destruct (upd c i v) as [c1|] eqn:U; [|discriminate].
    pose proof (upd_length _ _ _ _ U) as L1.
    destruct (IH src c1 c' H ltac:(congruence)) as [L2 N]. split; [congruence|].
    intro j. rewrite N. destruct (in_dec Nat.eq_dec j r) as [I|I]; destruct (in_dec Nat.eq_dec j (i :: r)) as [K|K]; auto.
    + exfalso. apply K. right. exact I.
    + destruct K as [<-|K]; [|contradiction]. rewrite E. exact (upd_same _ _ _ _ U).
    + apply (upd_other _ _ _ _ _ U). intros ->. apply K. left. reflexivity.
Qed.
Lemma copy_back_some : forall ix src c, length src = length c -> Forall (fun i => (i < length c)%nat) ix -> exists c', copy_back src c ix = Some c'.
Proof.
  induction ix as [|i r IH]; cbn [copy_back]; intros src c L F; [eauto|].
  inversion F as [|? ? H1 H2]; subst.
  destruct (nth_error src i) as [v|] eqn:E.
  - destruct (upd_some c i v H1) as [c1 U]. rewrite U. apply IH.
    + rewrite (upd_length _ _ _ _ U). exact L.
    + rewrite (upd_length _ _ _ _ U). exact H2.
  - exfalso. apply nth_error_None in E. lia.
Qed.
Lemma nth_error_ext : forall {A} (l l' : list A), (forall i, nth_error l i = nth_error l' i) -> l = l'.
Proof.
  induction l as [|x l IH]; intros [|y l'] H; auto.
  - specialize (H O). discriminate.
  - specialize (H O). discriminate.
  - f_equal.
    + specialize (H O). cbn in H. congruence.
    + apply IH. intro i. exact (H (S i)).
Qed.
Lemma upd_lt : forall {A} (l : list A) i x l', upd l i x = Some l' -> (i < length l)%nat.
Proof.
  intros A l i x l' H. destruct (Nat.lt_ge_cases i (length l)) as [G|G]; [exact G|].
  rewrite (upd_none l i x G) in H. discriminate.
Qed.

(** What every operation keeps. *)
Definition wf (o : overlay) : Prop := ((0 < length (code_ o))%nat /\ length (source o) = length (code_ o)) /\ Forall (fun i => (i < length (code_ o))%nat) (patches o).
Lemma write_all_length : forall w c c', write_all c w = Some c' -> length c' = length c.
Proof.
  induction w as [|[i v] w IH]; cbn; intros c c' H; [injection H as <-; reflexivity|].
  destruct (upd c i v) eqn:U; [|discriminate]. rewrite (IH _ _ H). exact (upd_length _ _ _ _ U).
Qed.
Lemma create_wf : forall src tpl o, src <> [] -> create src tpl = Some o -> wf o /\ source o = src /\ patches o = [] /\ committed o = 0.
Proof.
  unfold create. intros src tpl o NE H. destruct (write_all src tpl) as [c|] eqn:W; [|discriminate]. injection H as <-.
  pose proof (write_all_length _ _ _ W) as L.
  split; [split; cbn; [split; [|congruence]|constructor]|auto].
  rewrite L. destruct src; [congruence|cbn; lia].
Qed.
Lemma patch_code_inv : forall o i v o', patch_code o i v = Some o' ->
  upd (code_ o) i v = Some (code_ o') /\ source o' = source o /\ values_ o' = values_ o /\ patches o' = patches o ++ [i] /\ committed o' = committed o.
Proof. unfold patch_code. intros o i v o' H. destruct (upd (code_ o) i v) eqn:U; [|discriminate]. injection H as <-. cbn. auto. Qed.
Lemma set_value_inv : forall o i a o', set_value o i a = Some o' ->
  upd (code_ o) i (ValuePointer (Z.of_nat (length (values_ o)))) = Some (code_ o') /\ source o' = source o /\ values_ o' = values_ o ++ a /\ patches o' = patches o ++ [i] /\ committed o' = committed o.
Proof.
  unfold set_value. intros o i a o' H. destruct (patch_code o i _) as [o1|] eqn:P; [|discriminate].
  apply patch_code_inv in P. destruct P as (U & S1 & V & P1 & C). injection H as <-. cbn. rewrite V. auto.
Qed.
Lemma patch_wf : forall o o' i v, wf o -> upd (code_ o) i v = Some (code_ o') -> source o' = source o -> patches o' = patches o ++ [i] -> wf o'.
Proof.
  intros o o' i v [[W0 W1] W2] U S1 P. split.
  - rewrite S1, (upd_length _ _ _ _ U). split; [exact W0|exact W1].
  - rewrite P, (upd_length _ _ _ _ U). apply Forall_app. split; [exact W2|]. apply Forall_cons; [|constructor]. exact (upd_lt _ _ _ _ U).
Qed.
Lemma restore_inv : forall src c all from c', restore src c all from = Some c' -> small (length all) /\ copy_back src c (skipn from all) = Some c'.
Proof. unfold restore, small. intros src c all from c' H. destruct (65536 <=? Z.of_nat (length all)) eqn:E; [discriminate|]. split; [lia|exact H]. Qed.
Lemma restore_some : forall src c all from c', small (length all) -> copy_back src c (skipn from all) = Some c' -> restore src c all from = Some c'.
Proof. unfold restore, small. intros src c all from c' H E. destruct (65536 <=? Z.of_nat (length all)) eqn:F; [lia|exact E]. Qed.
Lemma step_wf : forall o x o', wf o -> step o x = Some o' -> wf o' /\ source o' = source o.
Proof.
  intros o x o' W H. destruct x as [i v|i a|p| |]; cbn [step] in H.
  - apply patch_code_inv in H. destruct H as (U & S1 & _ & P & _). split; [exact (patch_wf _ _ _ _ W U S1 P)|exact S1].
  - apply set_value_inv in H. destruct H as (U & S1 & _ & P & _). split; [exact (patch_wf _ _ _ _ W U S1 P)|exact S1].
  - unfold unpatch_code in H. destruct (restore _ _ _ _) as [c|] eqn:R; [|discriminate]. injection H as <-.
    apply restore_inv in R. destruct R as [_ R]. destruct W as [[W0 W1] W2]. destruct (copy_back_nth _ _ _ _ R W1) as [L _].
    split; [|reflexivity]. split; cbn; [split; [lia|congruence]|]. rewrite L. apply Forall_app. split.
    + apply Forall_forall. intros q Q. rewrite Forall_forall in W2. apply W2. rewrite <- (firstn_skipn (Z.to_nat p) (patches o)). apply in_or_app. left. exact Q.
    + apply Forall_forall. intros q Q. apply repeat_spec in Q. subst q. exact W0.
  - injection H as <-. split; [|reflexivity]. destruct W as [W1 _]. split; [exact W1|constructor].
  - unfold rollback in H. destruct (restore _ _ _ _) as [c|] eqn:R; [|discriminate].
    apply restore_inv in R. destruct R as [_ R]. destruct W as [[W0 W1] W2]. destruct (copy_back_nth _ _ _ _ R W1) as [L _].
    destruct (negb _); injection H as <-; (split; [|reflexivity]); (split; cbn; [split; [lia|congruence]|constructor]).
Qed.
Lemma run_wf : forall l o o', wf o -> run o l = Some o' -> wf o' /\ source o' = source o.
Proof.
  induction l as [|x l IH]; cbn [run]; intros o o' W H; [injection H as <-; auto|].
  destruct (step o x) as [o1|] eqn:E; [|discriminate]. destruct (step_wf _ _ _ W E) as [W1 S1].
  destruct (IH _ _ W1 H) as [W2 S2]. split; [exact W2|congruence].
Qed.
Lemma run_app : forall l1 l2 o, run o (l1 ++ l2) = match run o l1 with Some o1 => run o1 l2 | None => None end.
Proof. induction l1 as [|x l IH]; cbn [app run]; intros l2 o; [reflexivity|]. destruct (step o x); auto. Qed.
Lemma reached_wf : forall o, reached o -> wf o.
Proof. intros o (src & tpl & o0 & l & NE & C & R). destruct (create_wf _ _ _ NE C) as (W & _). exact (proj1 (run_wf _ _ _ W R)). Qed.
Lemma reached_run : forall o l o', reached o -> run o l = Some o' -> reached o'.
Proof.
  intros o l o' (src & tpl & o0 & l0 & NE & C & R) H. exists src, tpl, o0, (l0 ++ l). split; [exact NE|]. split; [exact C|].
  rewrite run_app, R. exact H.
Qed.

(** A sequence of changes. *)
Lemma changes_effect : forall es o o', changes es -> run o es = Some o' ->
  patches o' = patches o ++ touched es /\ (exists v, values_ o' = values_ o ++ v) /\ committed o' = committed o /\ source o' = source o /\
  forall j, ~ In j (touched es) -> nth_error (code_ o') j = nth_error (code_ o) j.
Proof.
  induction es as [|x es IH]; cbn [run]; intros o o' C H.
  - injection H as <-. cbn. rewrite app_nil_r. split; [reflexivity|]. split; [exists []; rewrite app_nil_r; reflexivity|]. auto.
  - inversion C as [|? ? C1 C2]; subst. destruct (step o x) as [o1|] eqn:E; [|discriminate].
    destruct (IH _ _ C2 H) as (P & (v & V) & CM & S1 & N).
    destruct x as [i w|i a| | |]; try (destruct C1); cbn [step touched] in *.
    + apply patch_code_inv in E. destruct E as (U & S2 & V2 & P2 & C3).
      split; [rewrite P, P2, <- app_assoc; reflexivity|]. split; [exists v; rewrite V, V2; reflexivity|]. split; [congruence|]. split; [congruence|].
      intros j J. rewrite N by (intro; apply J; right; assumption). apply (upd_other _ _ _ _ _ U). intros ->. apply J. left. reflexivity.
    + apply set_value_inv in E. destruct E as (U & S2 & V2 & P2 & C3).
      split; [rewrite P, P2, <- app_assoc; reflexivity|]. split; [exists (a ++ v); rewrite V, V2, app_assoc; reflexivity|]. split; [congruence|]. split; [congruence|].
      intros j J. rewrite N by (intro; apply J; right; assumption). apply (upd_other _ _ _ _ _ U). intros ->. apply J. left. reflexivity.
Qed.
Lemma touched_length : forall es, changes es -> length (touched es) = length es.
Proof.
  induction es as [|x es IH]; intro C; [reflexivity|]. inversion C as [|? ? C1 C2]; subst.
  destruct x; try (destruct C1); cbn; f_equal; auto.
Qed.

(** The exact effect of a rollback and of the undoing of patches. *)
Lemma rollback_code : forall o, wf o -> small (length (patches o)) -> exists c,
  restore (source o) (code_ o) (patches o) 0 = Some c /\ forall j, nth_error c j = if in_dec Nat.eq_dec j (patches o) then nth_error (source o) j else nth_error (code_ o) j.
Proof.
  intros o [[W0 W1] W2] SM. destruct (copy_back_some (patches o) (source o) (code_ o) W1 W2) as [c R].
  exists c. split; [apply restore_some; [exact SM|exact R]|]. apply (copy_back_nth _ _ _ _ R W1).
Qed.
Lemma code_back : forall (src a b c : list Z) ix, (forall j, nth_error c j = if in_dec Nat.eq_dec j ix then nth_error src j else nth_error b j) ->
  (forall j, ~ In j ix -> nth_error b j = nth_error a j) -> (forall j, In j ix -> nth_error a j = nth_error src j) -> c = a.
Proof.
  intros src a b c ix N K H. apply nth_error_ext. intro j. rewrite N. destruct (in_dec Nat.eq_dec j ix) as [I|I]; [symmetry; auto|auto].
Qed.
Lemma values_back : forall v w, resize_values (v ++ w) (length v) = v.
Proof.
  intros v w. unfold resize_values. rewrite firstn_app, firstn_all, Nat.sub_diag, app_length.
  replace (length v - (length v + length w))%nat with O by lia. cbn. rewrite app_nil_r. apply app_nil_r.
Qed.
Lemma after_commit : forall o es o', wf o -> changes es -> run (commit o) es = Some o' -> small (length es) -> small (length (values_ o)) ->
  exists r, rollback o' = Some r /\ values_ r = values_ o /\ patches r = [] /\ committed r = committed (commit o) /\ source r = source o /\
  forall j, nth_error (code_ r) j = if in_dec Nat.eq_dec j (touched es) then nth_error (source o) j else nth_error (code_ o) j.
Proof.
  intros o es o' W C H SM SV.
  assert (W0 : wf (commit o)) by (exact (proj1 (step_wf o Commit _ W eq_refl))).
  destruct (run_wf _ _ _ W0 H) as [W' _]. destruct (changes_effect _ _ _ C H) as (P & (v & V) & CM & S1 & N).
  cbn [commit patches values_ committed source code_ app] in *.
  assert (SM' : small (length (patches o'))) by (rewrite P, (touched_length _ C); exact SM).
  destruct (rollback_code o' W' SM') as (c & R & NC). unfold rollback. rewrite R.
  assert (CN : forall j, nth_error c j = if in_dec Nat.eq_dec j (touched es) then nth_error (source o) j else nth_error (code_ o) j).
  { intro j. rewrite NC, P, S1. destruct (in_dec Nat.eq_dec j (touched es)) as [I|I]; auto. }
  assert (CZ : committed o' = Z.of_nat (length (values_ o))) by (rewrite CM; unfold u16, small in *; apply Z.mod_small; lia).
  rewrite CM, V. rewrite CM in CZ. rewrite CZ.
  destruct (negb (Z.of_nat (length (values_ o)) =? Z.of_nat (length (values_ o ++ v)))) eqn:E.
  - assert (D : (if 0 <? Z.of_nat (length (values_ o)) then resize_values (values_ o ++ v) (Z.to_nat (Z.of_nat (length (values_ o)))) else []) = values_ o).
    { destruct (0 <? Z.of_nat (length (values_ o))) eqn:G.
      - rewrite Nat2Z.id. apply values_back.
      - destruct (values_ o); [reflexivity|cbn [length] in G; lia]. }
    rewrite D. eexists. split; [reflexivity|]. cbn [values_ patches committed source code_ commit]. auto.
  - assert (v = []) as -> by (destruct v; [reflexivity|rewrite app_length in E; cbn [length] in E; lia]).
    rewrite app_nil_r. eexists. split; [reflexivity|]. cbn [values_ patches committed source code_ commit]. rewrite <- CZ. auto.
Qed.
Theorem rollback_exact : forall o es o', reached o -> changes es -> run (commit o) es = Some o' -> small (length es) -> small (length (values_ o)) ->
  exists r, rollback o' = Some r /\ values_ r = values_ o /\
  forall j, nth_error (code_ r) j = if in_dec Nat.eq_dec j (touched es) then nth_error (source o) j else nth_error (code_ o) j.
Proof.
  intros o es o' W C H SM SV. destruct (after_commit o es o' (reached_wf _ W) C H SM SV) as (r & R & V & _ & _ & _ & N). eauto.
Qed.
Theorem rollback_restores : forall o es o', reached o -> changes es -> run (commit o) es = Some o' -> small (length es) -> small (length (values_ o)) ->
  (forall i, In i (touched es) -> pristine o i) -> rollback o' = Some (commit o).
Proof.
  intros o es o' W C H SM SV PR. destruct (after_commit o es o' (reached_wf _ W) C H SM SV) as (r & R & V & P & CM & S1 & N).
  rewrite R. f_equal. destruct r as [s c v p k]. cbn in *. subst. unfold commit. f_equal.
  apply (code_back (source o) (code_ o) (code_ o) c (touched es) N); auto.
Qed.
Theorem commit_keeps : forall o, code_ (commit o) = code_ o /\ values_ (commit o) = values_ o /\ (reached o -> small (length (values_ o)) -> rollback (commit o) = Some (commit o)).
Proof.
  intro o. split; [reflexivity|]. split; [reflexivity|]. intros W SV.
  apply (rollback_restores o [] (commit o) W); try (cbn; easy). constructor.
Qed.
Theorem first_rollback : forall src tpl o es o', src <> [] -> create src tpl = Some o -> changes es -> run o es = Some o' -> small (length es) ->
  (forall i, In i (touched es) -> pristine o i) -> exists r, rollback o' = Some r /\ code_ r = code_ o /\ values_ r = [].
Proof.
  intros src tpl o es o' NE CR C H SM PR. destruct (create_wf _ _ _ NE CR) as (W & S0 & P0 & C0).
  destruct (run_wf _ _ _ W H) as [W' _]. destruct (changes_effect _ _ _ C H) as (P & (v & V) & CM & S1 & N).
  rewrite P0 in P. cbn [app] in P.
  assert (SM' : small (length (patches o'))) by (rewrite P, (touched_length _ C); exact SM).
  destruct (rollback_code o' W' SM') as (c & R & NC). unfold rollback. rewrite R, CM, C0.
  assert (L : (0 < length (values_ o'))%nat).
  { rewrite V, app_length. unfold create in CR. destruct (write_all src tpl); [|discriminate]. injection CR as CR. rewrite <- CR. cbn. lia. }
  destruct (negb (0 =? Z.of_nat (length (values_ o')))) eqn:E; [|lia].
  eexists. split; [reflexivity|]. cbn [code_ values_]. split; [|reflexivity].
  rewrite P, S1 in NC. apply (code_back _ _ _ _ _ NC N). exact PR.
Qed.
Theorem unpatch_restores : forall o es o', reached o -> changes es -> run o es = Some o' -> small (length (patches o) + length es) ->
  (forall i, In i (touched es) -> pristine o i) ->
  exists r, unpatch_code o' (get_last_patch_index o) = Some r /\ code_ r = code_ o /\ patches r = patches o.
Proof.
  intros o es o' RE C H SM PR. pose proof (reached_wf _ RE) as W.
  destruct (run_wf _ _ _ W H) as [W' _]. destruct (changes_effect _ _ _ C H) as (P & (v & V) & CM & S1 & N).
  assert (G : Z.to_nat (get_last_patch_index o) = length (patches o)).
  { unfold get_last_patch_index, u16, small in *. rewrite Z.mod_small by lia. lia. }
  unfold unpatch_code. rewrite G.
  assert (SM' : small (length (patches o'))) by (rewrite P, app_length, (touched_length _ C); exact SM).
  assert (SK : skipn (length (patches o)) (patches o') = touched es) by (rewrite P, skipn_app, skipn_all, Nat.sub_diag; reflexivity).
  destruct W' as [[W0 W1] W2].
  destruct (copy_back_some (skipn (length (patches o)) (patches o')) (source o') (code_ o') W1) as [c R].
  { apply Forall_forall. intros q Q. rewrite Forall_forall in W2. apply W2. rewrite <- (firstn_skipn (length (patches o)) (patches o')). apply in_or_app. right. exact Q. }
  rewrite (restore_some _ _ _ _ _ SM' R). eexists. split; [reflexivity|]. cbn [code_ patches]. split.
  - destruct (copy_back_nth _ _ _ _ R W1) as [_ NC]. rewrite SK, S1 in NC. apply (code_back _ _ _ _ _ NC N). exact PR.
  - rewrite P, app_length. replace (length (patches o) - (length (patches o) + length (touched es)))%nat with O by lia.
    cbn [repeat]. rewrite app_nil_r, firstn_app, firstn_all, Nat.sub_diag. cbn. apply app_nil_r.
Qed.

(** A place patched, committed, and patched again. *)
Definition two_atoms : list Z := [0x80000001; 0x80000002].
Definition over (l : list op) : option overlay := run (load two_atoms) l.
Lemma load_create : forall src, create src [] = Some (load src). Proof. reflexivity. Qed.
Lemma rollback_loses_commit : exists o es o' r, reached o /\ changes es /\ run (commit o) es = Some o' /\ small (length es) /\ small (length (values_ o)) /\
  rollback o' = Some r /\ code_ r <> code_ o.
Proof.
  destruct (over [Patch 1 0x80000007]) as [o|] eqn:E; [|discriminate E].
  destruct (run (commit o) [Patch 1 0x80000009]) as [o'|] eqn:F; [|revert F; vm_compute in E; injection E as <-; discriminate].
  destruct (rollback o') as [r|] eqn:G; [|revert G; vm_compute in E; injection E as <-; vm_compute in F; injection F as <-; discriminate].
  exists o, [Patch 1 0x80000009], o', r.
  split. { exists two_atoms, [], (load two_atoms), [Patch 1 0x80000007]. split; [discriminate|]. split; [reflexivity|exact E]. }
  split; [apply Forall_cons; [exact Logic.I|constructor]|]. split; [exact F|]. split; [reflexivity|].
  vm_compute in E; injection E as <-; vm_compute in F; injection F as <-; vm_compute in G; injection G as <-.
  split; [reflexivity|]. split; [reflexivity|]. discriminate.
Qed.
Lemma unpatch_loses_patch : exists o es o' r, reached o /\ changes es /\ run o es = Some o' /\ small (length (patches o) + length es) /\
  unpatch_code o' (get_last_patch_index o) = Some r /\ code_ r <> code_ o.
Proof.
  destruct (over [Patch 1 0x80000007]) as [o|] eqn:E; [|discriminate E].
  destruct (run o [Patch 1 0x80000009]) as [o'|] eqn:F; [|revert F; vm_compute in E; injection E as <-; discriminate].
  destruct (unpatch_code o' (get_last_patch_index o)) as [r|] eqn:G; [|revert G; vm_compute in E; injection E as <-; vm_compute in F; injection F as <-; discriminate].
  exists o, [Patch 1 0x80000009], o', r.
  split. { exists two_atoms, [], (load two_atoms), [Patch 1 0x80000007]. split; [discriminate|]. split; [reflexivity|exact E]. }
  split; [apply Forall_cons; [exact Logic.I|constructor]|]. split; [exact F|].
  vm_compute in E; injection E as <-; vm_compute in F; injection F as <-; vm_compute in G; injection G as <-.
  split; [reflexivity|]. split; [reflexivity|]. discriminate.
Qed.

(** The overlay left behind. *)
Lemma map_nth_firstn : forall (v : list Z) n d, (n <= length v)%nat -> map (fun i => nth i v d) (seq 0 n) = firstn n v.
Proof.
  induction v as [|x v IH]; intros [|n] d L; cbn [length] in L; try reflexivity; [lia|].
  cbn [seq map firstn nth]. f_equal. rewrite <- seq_shift, map_map. apply IH. lia.
Qed.
Theorem offspring_exact : forall o es o', reached o -> changes es -> run (commit o) es = Some o' -> small (length es) -> small (length (values_ o)) ->
  exists f, offspring o' = Some f /\ values_ f = repeat unset 128 ++ values_ o /\ patches f = [] /\
  forall j, nth_error (code_ f) j = if in_dec Nat.eq_dec j (touched es) then nth_error (source o) j else nth_error (code_ o) j.
Proof.
  intros o es o' RE C H SM SV. pose proof (reached_wf _ RE) as W.
  assert (W0 : wf (commit o)) by (exact (proj1 (step_wf o Commit _ W eq_refl))).
  destruct (run_wf _ _ _ W0 H) as [W' _]. destruct (changes_effect _ _ _ C H) as (P & (v & V) & CM & S1 & N).
  cbn [commit patches values_ committed source code_ app] in *.
  assert (SM' : small (length (patches o'))) by (rewrite P, (touched_length _ C); exact SM).
  destruct (rollback_code o' W' SM') as (c & R & NC). unfold offspring. rewrite R.
  assert (CZ : committed o' = Z.of_nat (length (values_ o))) by (rewrite CM; unfold u16, small in *; apply Z.mod_small; lia).
  eexists. split; [reflexivity|]. cbn [values_ patches code_]. split; [|split; [reflexivity|]].
  - rewrite CZ, Nat2Z.id, map_nth_firstn by (rewrite V, app_length; lia). rewrite V, firstn_app, firstn_all, Nat.sub_diag. cbn [firstn]. rewrite app_nil_r. reflexivity.
  - intro j. rewrite NC, P, S1. destruct (in_dec Nat.eq_dec j (touched es)) as [I|I]; auto.
Qed.
Theorem offspring_code : forall o es o', reached o -> changes es -> run (commit o) es = Some o' -> small (length es) -> small (length (values_ o)) ->
  (forall i, In i (touched es) -> pristine o i) -> exists f, offspring o' = Some f /\ code_ f = code_ o.
Proof.
  intros o es o' RE C H SM SV PR. destruct (offspring_exact o es o' RE C H SM SV) as (f & F & _ & _ & N). exists f. split; [exact F|].
  apply (code_back (source o) (code_ o) (code_ o) (code_ f) (touched es) N); auto.
Qed.
Lemma offspring_loses_values : exists o f i n, reached o /\ offspring (commit o) = Some f /\ code_ f = code_ o /\ small (length (values_ o)) /\
  designated o (nth i (code_ o) 0) n <> [] /\ designated f (nth i (code_ f) 0) n <> designated o (nth i (code_ o) 0) n.
Proof.
  destruct (over [Value 1 [0xC7000000; 0; 5]]) as [o|] eqn:E; [|discriminate E].
  destruct (offspring (commit o)) as [f|] eqn:F; [|revert F; vm_compute in E; injection E as <-; discriminate].
  exists o, f, 1%nat, 3%nat.
  split. { exists two_atoms, [], (load two_atoms), [Value 1 [0xC7000000; 0; 5]]. split; [discriminate|]. split; [reflexivity|exact E]. }
  vm_compute in E; injection E as <-; vm_compute in F; injection F as <-.
  split; [reflexivity|]. split; [reflexivity|]. split; [reflexivity|]. split; vm_compute; discriminate.
Qed.

(** Reading a result back. *)
Lemma asIndex_ValuePointer : forall n, 0 <= n < 4096 -> asIndex (ValuePointer n) = n.
Proof.
  intros n H. unfold asIndex, ValuePointer, u32.
  assert (E : Z.land n 4095 = n) by (change 4095 with (Z.ones 12); rewrite Z.land_ones by lia; apply Z.mod_small; lia).
  rewrite E. change (Z.land ((0x89000000 + n) mod 4294967296) (Z.ones 12) = n).
  rewrite Z.land_ones by lia. unfold desc. rewrite (Z.mod_small _ 4294967296) by lia.
  change (2 ^ 12) with 4096. change (0x89000000 + n) with (0x89000 * 4096 + n).
  rewrite Z.add_comm, Z.mod_add by lia. apply Z.mod_small. lia.
Qed.

Lemma value_kept : forall l o o' i v, (forall x, In x l -> is_change x \/ x = Commit) -> ~ In i (touched l) -> run o l = Some o' ->
  nth_error (code_ o) i = Some v -> nth_error (code_ o') i = Some v /\ exists w, values_ o' = values_ o ++ w.
Proof.
  induction l as [|x l IH]; cbn [run]; intros o o' i v K NI H N.
  - injection H as <-. split; [exact N|]. exists []. symmetry. apply app_nil_r.
  - destruct (step o x) as [o1|] eqn:E; [|discriminate].
    assert (A : nth_error (code_ o1) i = Some v /\ exists w, values_ o1 = values_ o ++ w).
    { destruct (K x (or_introl eq_refl)) as [C| ->].
      - destruct x as [k w|k a| | |]; try (destruct C); cbn [step touched] in *.
        + apply patch_code_inv in E. destruct E as (U & _ & V & _). split.
          * rewrite (upd_other _ _ i _ _ U) by (intros ->; apply NI; left; reflexivity). exact N.
          * exists []. rewrite V. symmetry. apply app_nil_r.
        + apply set_value_inv in E. destruct E as (U & _ & V & _). split.
          * rewrite (upd_other _ _ i _ _ U) by (intros ->; apply NI; left; reflexivity). exact N.
          * exists a. exact V.
      - cbn [step] in E. injection E as <-. split; [exact N|]. exists []. symmetry. apply app_nil_r. }
    destruct A as [A (w & B)].
    destruct (IH o1 o' i v) as [A' (w' & B')]; auto.
    + intros y Y. apply K. right. exact Y.
    + intro Y. apply NI. destruct x; cbn [touched]; auto; right; exact Y.
    + split; [exact A'|]. exists (w ++ w'). rewrite B', B. symmetry. apply app_assoc.
Qed.
Theorem read_back : forall o i a o' l o'', set_value o i a = Some o' -> Z.of_nat (length (values_ o)) < 4096 ->
  (forall x, In x l -> is_change x \/ x = Commit) -> ~ In i (touched l) -> run o' l = Some o'' ->
  exists p, nth_error (code_ o'') i = Some p /\ designated o'' p (length a) = a.
Proof.
  intros o i a o' l o'' E L K NI R. apply set_value_inv in E. destruct E as (U & _ & V & _).
  pose proof (upd_same _ _ _ _ U) as N. destruct (value_kept l o' o'' i _ K NI R N) as [N' (w & B)].
  eexists. split; [exact N'|]. unfold designated. rewrite asIndex_ValuePointer by lia. rewrite Nat2Z.id, B, V, <- app_assoc, skipn_app, skipn_all, Nat.sub_diag.
  cbn [app skipn]. rewrite firstn_app, firstn_all, Nat.sub_diag. cbn. apply app_nil_r.
Qed.
Lemma read_back_fails : exists o i a o' p, reached o /\ set_value o i a = Some o' /\ nth_error (code_ o') i = Some p /\ designated o' p (length a) <> a.
Proof.
  destruct (over [Value 0 (repeat 0x80000003 (Z.to_nat 3968))]) as [o|] eqn:E; [|discriminate E].
  destruct (set_value o 1 [0xC7000000; 0; 5]) as [o'|] eqn:F; [|revert F; vm_compute in E; injection E as <-; discriminate].
  exists o, 1%nat, [0xC7000000; 0; 5], o', (ValuePointer 0).
  split. { exists two_atoms, [], (load two_atoms), [Value 0 (repeat 0x80000003 (Z.to_nat 3968))]. split; [discriminate|]. split; [reflexivity|exact E]. }
  split; [exact F|].
  vm_compute in E; injection E as <-; vm_compute in F; injection F as <-.
  split; [reflexivity|]. vm_compute. discriminate.
Qed.
(** After a reset the overlay is that of the program with its template arguments. *)
Theorem reset_pristine : forall src tpl o l o', src <> [] -> create src tpl = Some o -> run o l = Some o' ->
  exists r, reset_ o' tpl = Some r /\ code_ r = code_ o /\ values_ r = [] /\ patches r = [].
Proof.
  intros src tpl o l o' NE C R. destruct (create_wf _ _ _ NE C) as (W & S0 & _). destruct (run_wf _ _ _ W R) as [_ S1].
  unfold reset_, create in *. rewrite S1, S0. destruct (write_all src tpl) as [c|]; [|discriminate]. injection C as <-.
  eexists. split; [reflexivity|]. cbn. auto.
Qed.
