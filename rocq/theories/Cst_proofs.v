(** Proofs about the production of instances of composite states. *)
From Coq Require Import SpecFloat Permutation.
From Verif Require Import Base Float32 Cst_model Cst_spec.
Local Open Scope nat_scope.

Section Proofs.
Context {B : Type} (M : binder B) (C : cst B) (root root_root : nat -> nat).
Notation reduce := (reduce M C root root_root).
Notation visit_all := (visit_all M C root root_root).
Notation step := (step M C root root_root).
Notation run := (run M C root root_root).
Notation productions := (productions M C root root_root).
Notation take := (take M root root_root).
Notation bind_pattern := (bind_pattern M).
Notation master := (master C).
Notation ovl := (overlay B).

Definition saved (o : ovl) : list input := axi o ++ naxi o.
(** The overlay can still take part at event [e]. *)
Definition ok (e : event) (o : ovl) : bool :=
  can_match o (now e) && negb (inval o) && forallb (fun y => negb (dead e (ptr (ifact y)))) (saved o).
Definition fresh (e : event) (o : ovl) : bool :=
  negb (existsb (fun y => ptr (ifact (arrived e)) =? ptr (ifact y)) (saved o)).
Definition good (o : ovl) : Prop := loaded o = true.

(** The overlay that took the input of [e], if it is not complete. *)
Definition ext (e : event) (o : ovl) : list ovl :=
  if dead e (ptr (ifact (arrived e))) then []
  else if ok e o && fresh e o then
    match bind_pattern o (arrived e) with
    | Some (p, is_ax, b) => if length (ax o) + length (nax o) =? 1 then [] else [take b (arrived e) is_ax (Some p) o]
    | None => []
    end
  else [].
Definition mk (e : event) (o : ovl) : list (production B) :=
  if dead e (ptr (ifact (arrived e))) then []
  else if ok e o && fresh e o then
    match bind_pattern o (arrived e) with
    | Some (p, is_ax, b) => if length (ax o) + length (nax o) =? 1 then [inject_production C (arrived e) (take b (arrived e) is_ax None o)] else []
    | None => []
    end
  else [].

Lemma visit_go : forall dead x l, visit dead x l = Go <->
  forallb (fun y => negb (dead (ptr (ifact y)))) l = true /\ existsb (fun y => ptr (ifact x) =? ptr (ifact y)) l = false.
Proof.
  induction l as [|y l IH]; cbn; [intuition|].
  destruct (dead _) eqn:D; cbn; [intuition discriminate|].
  destruct (_ =? _) eqn:E; cbn; [intuition discriminate|]. exact IH.
Qed.

Lemma visit_kill : forall dead x l, visit dead x l = Kill -> forallb (fun y => negb (dead (ptr (ifact y)))) l = false.
Proof.
  induction l as [|y l IH]; cbn; [discriminate|].
  destruct (dead _) eqn:D; cbn; [reflexivity|]. destruct (_ =? _); [discriminate|]. exact IH.
Qed.

Lemma copy_same : forall o : ovl, good o -> inval o = false -> copy o = o.
Proof. intros [] G I. unfold good in G. cbn in *. now subst. Qed.

Lemma ok_later : forall e e' o, no_return e e' -> ok e' o = true -> ok e o = true.
Proof.
  intros e e' o [T D] H. unfold ok in *. rewrite !andb_true_iff in *. destruct H as [[H1 H2] H3].
  repeat split; auto.
  - unfold can_match in *. destruct (deadline o =? 0)%Z; auto. apply Z.leb_le. apply Z.leb_le in H1. lia.
  - rewrite forallb_forall in *. intros y Hy. specialize (H3 y Hy).
    destruct (dead e (ptr (ifact y))) eqn:E; auto. now rewrite (D _ E) in H3.
Qed.

Lemma ext_ok : forall e o, ok e o = false -> ext e o = [].
Proof. intros e o H. unfold ext. rewrite H. now destruct (dead _ _). Qed.
Lemma mk_ok : forall e o, ok e o = false -> mk e o = [].
Proof. intros e o H. unfold mk. rewrite H. now destruct (dead _ _). Qed.

Lemma shuffle {A} : forall a b c d : list A, Permutation ((a ++ b) ++ c ++ d) ((c ++ b) ++ a ++ d).
Proof.
  intros. rewrite (app_assoc _ c), (app_assoc _ a). apply Permutation_app_tail.
  rewrite (Permutation_app_comm (a ++ b)), <- app_assoc. apply Permutation_app_head, Permutation_app_comm.
Qed.

(** What one overlay becomes. *)
Definition pieces (e : event) (o : ovl) : list ovl := o :: ext e o.

Lemma reduce_pieces : forall e e' o, no_return e e' -> good o ->
  dead e (ptr (ifact (arrived e))) = false -> can_match o (now e) = true -> inval o = false ->
  let z := reduce (dead e) (arrived e) o in
  Permutation (filter (ok e') (self z :: match offspring z with Some c => [c] | None => [] end))
              (filter (ok e') (pieces e o)) /\ made z = mk e o.
Proof.
  intros e e' o N G D Cm I. cbn zeta. unfold Cst_model.reduce. rewrite D. fold (saved o).
  destruct (visit (dead e) (arrived e) (saved o)) eqn:V.
  - apply visit_go in V as [V1 V2]. unfold pieces, ext, mk. rewrite D.
    assert (ok e o = true) as -> by (unfold ok; now rewrite Cm, I, V1).
    assert (fresh e o = true) as -> by (unfold fresh; now rewrite V2). cbn [andb].
    destruct (bind_pattern o (arrived e)) as [[[p is_ax] b]|]; [|split; auto].
    destruct (_ =? 1).
    + rewrite G. cbn [negb self offspring made]. rewrite copy_same by auto.
      split; [|reflexivity]. cbn [filter].
      assert (ok e' (invalidate (take b (arrived e) is_ax None o)) = false) as ->.
      { unfold ok. cbn [inval invalidate]. cbn [negb]. now rewrite andb_false_r. }
      reflexivity.
    + cbn [self offspring made]. rewrite copy_same by auto. split; [|reflexivity].
      cbn [filter]. destruct (ok e' o), (ok e' (take _ _ _ _ _)); auto. apply perm_swap.
  - unfold pieces, ext, mk. rewrite D.
    assert (ok e o && fresh e o = false) as ->.
    { apply andb_false_iff. destruct (ok e o) eqn:O; auto. right. unfold fresh.
      apply negb_false_iff. destruct (existsb _ _) eqn:X; auto.
      unfold ok in O. rewrite !andb_true_iff in O. destruct O as [_ O].
      assert (visit (dead e) (arrived e) (saved o) = Go) by (apply visit_go; auto). congruence. }
    split; auto.
  - apply visit_kill in V. cbn [self offspring made].
    assert (ok e o = false) as O by (unfold ok; now rewrite V, !andb_false_r).
    split; [|now rewrite mk_ok].
    unfold pieces. rewrite ext_ok by auto. cbn [filter].
    assert (ok e' o = false) as ->. { destruct (ok e' o) eqn:X; auto. now rewrite (ok_later _ _ _ N X) in O. }
    assert (ok e' (invalidate o) = false) as ->; [|reflexivity].
    unfold ok. cbn [inval invalidate]. now rewrite andb_false_r.
Qed.

Lemma visit_all_pieces : forall e e' l, no_return e e' -> Forall good l ->
  dead e (ptr (ifact (arrived e))) = false ->
  let '(kept, new, ps, _) := visit_all (now e) (dead e) (arrived e) l in
  Permutation (filter (ok e') (new ++ kept)) (filter (ok e') (flat_map (pieces e) l)) /\ ps = flat_map (mk e) l.
Proof.
  intros e e' l N G D. induction l as [|o l IH]; cbn [Cst_model.visit_all]; [split; auto|].
  inversion G as [|? ? Go Gl]; subst. specialize (IH Gl).
  assert (ok e o = false -> Permutation (filter (ok e') (flat_map (pieces e) l)) (filter (ok e') (flat_map (pieces e) (o :: l)))
    /\ flat_map (mk e) (o :: l) = flat_map (mk e) l) as Drop.
  { intros O. cbn [flat_map]. rewrite mk_ok by auto. split; [|reflexivity].
    unfold pieces at 2. rewrite ext_ok by auto. cbn [app filter].
    destruct (ok e' o) eqn:X; [|reflexivity]. now rewrite (ok_later _ _ _ N X) in O. }
  destruct (can_match o (now e)) eqn:Cm; cbn [negb].
  2:{ destruct (visit_all _ _ _ l) as [[[kept new] ps] m]. destruct IH as [I1 I2].
      destruct Drop as [D1 D2]; [unfold ok; now rewrite Cm|]. split; [now rewrite I1|congruence]. }
  destruct (inval o) eqn:I.
  { destruct (visit_all _ _ _ l) as [[[kept new] ps] m]. destruct IH as [I1 I2].
    destruct Drop as [D1 D2]; [unfold ok; now rewrite I, andb_false_r|]. split; [now rewrite I1|congruence]. }
  destruct (reduce_pieces e e' o N Go D Cm I) as [R1 R2].
  destruct (visit_all _ _ _ l) as [[[kept new] ps] m]. destruct IH as [I1 I2].
  split; [|cbn [flat_map]; now rewrite R2, I2].
  set (z := reduce _ _ _) in *. cbn [flat_map]. rewrite filter_app, (filter_app (ok e') (pieces e o)).
  rewrite <- R1, <- I1. rewrite filter_app. rewrite (filter_app _ new).
  set (off := match offspring z with Some c => [c] | None => [] end).
  change (self z :: off) with ([self z] ++ off). change (self z :: kept) with ([self z] ++ kept).
  rewrite (filter_app _ [self z] kept), (filter_app _ [self z] off).
  set (a := filter (ok e') new). set (b := filter (ok e') off). set (c := filter (ok e') [self z]). set (d := filter (ok e') kept).
  apply shuffle.
Qed.

Lemma filter_perm {A} (f : A -> bool) : forall l l', Permutation l l' -> Permutation (filter f l) (filter f l').
Proof.
  induction 1; cbn; auto.
  - destruct (f x); auto.
  - destruct (f x), (f y); auto. apply perm_swap.
  - etransitivity; eauto.
Qed.
Lemma flat_map_perm {A D} (f : A -> list D) : forall l l', Permutation l l' -> Permutation (flat_map f l) (flat_map f l').
Proof.
  induction 1; cbn; auto.
  - now apply Permutation_app_head.
  - rewrite !app_assoc. apply Permutation_app_tail, Permutation_app_comm.
  - etransitivity; eauto.
Qed.
Lemma flat_map_split {A D} (f g : A -> list D) : forall l,
  Permutation (flat_map (fun x => f x ++ g x) l) (flat_map f l ++ flat_map g l).
Proof.
  induction l as [|x l IH]; cbn; auto. rewrite IH. rewrite <- !app_assoc. apply Permutation_app_head.
  rewrite !app_assoc. apply Permutation_app_tail, Permutation_app_comm.
Qed.
Lemma flat_map_map {A D E} (f : D -> list E) (g : A -> D) : forall l, flat_map f (map g l) = flat_map (fun x => f (g x)) l.
Proof. induction l; cbn; congruence. Qed.
Lemma flat_map_flat {A D E} (f : D -> list E) (g : A -> list D) : forall l,
  flat_map f (flat_map g l) = flat_map (fun x => flat_map f (g x)) l.
Proof. induction l; cbn; auto. rewrite flat_map_app. congruence. Qed.
Lemma flat_map_single {A} : forall l : list A, flat_map (fun x => [x]) l = l.
Proof. induction l; cbn; congruence. Qed.

(** The choices of events from a history. *)
Fixpoint subs {A} (l : list A) : list (list A) :=
  match l with [] => [[]] | x :: r => subs r ++ map (cons x) (subs r) end.
Lemma subs_snoc {A} : forall (l : list A) x, Permutation (subs (l ++ [x])) (subs l ++ map (fun s => s ++ [x]) (subs l)).
Proof.
  induction l as [|y l IH]; intros x; cbn [subs app map]; [reflexivity|].
  rewrite (Permutation_map (cons y) (IH x)), (IH x). rewrite map_app, map_app.
  rewrite map_map, map_map. cbn [app]. rewrite <- !app_assoc. apply Permutation_app_head.
  rewrite !app_assoc. apply Permutation_app_tail. apply Permutation_app_comm.
Qed.
Lemma subs_subseq {A} : forall (l s : list A), In s (subs l) <-> subseq s l.
Proof.
  induction l as [|x l IH]; intros s; cbn [subs].
  - split; [intros [<-|[]]; constructor | intros H; inversion H; cbn; auto].
  - rewrite in_app_iff, in_map_iff. split.
    + intros [H|[s' [<- H]]]; [apply sub_skip | apply sub_take]; now apply IH.
    + intros H. inversion H; subst.
      * left. apply IH. constructor.
      * right. eexists; split; [reflexivity|]. now apply IH.
      * left. now apply IH.
Qed.

Definition chain (s : list event) : list ovl := fold_left (fun os e => flat_map (ext e) os) s [master].
Lemma chain_snoc : forall s e, chain (s ++ [e]) = flat_map (ext e) (chain s).
Proof. intros. unfold chain. now rewrite fold_left_app. Qed.
Definition prods (s : list event) : list (production B) :=
  match rev s with [] => [] | e :: r => flat_map (mk e) (chain (rev r)) end.
Lemma prods_snoc : forall s e, prods (s ++ [e]) = flat_map (mk e) (chain s).
Proof. intros. unfold prods. rewrite rev_app_distr. cbn. now rewrite rev_involutive. Qed.

Lemma run_snoc : forall es l e, run l (es ++ [e]) =
  (fst (step (fst (run l es)) e), snd (run l es) ++ snd (step (fst (run l es)) e)).
Proof.
  induction es as [|a es IH]; intros l e; cbn [Cst_model.run app].
  - cbn [fst snd app]. destruct (step l e) as [l1 p1]. cbn [fst snd app]. now rewrite app_nil_r.
  - destruct (step l a) as [l1 p1] eqn:S1. rewrite IH. destruct (run l1 es) as [l2 p2].
    cbn [fst snd]. now rewrite app_assoc.
Qed.

Lemma update_loaded : forall b x i (o : ovl), loaded (update root root_root b x i o) = loaded o.
Proof. intros. unfold update. now destruct (ipred x). Qed.
Lemma reduce_good : forall d x o, good o ->
  good (self (reduce d x o)) /\ match offspring (reduce d x o) with Some c => good c | None => True end.
Proof.
  intros d x o G. unfold Cst_model.reduce, good.
  destruct (d _); [split; [exact G|exact Logic.I]|].
  destruct (visit _ _ _); cbn; auto.
  destruct (bind_pattern o x) as [[[p i] b]|]; cbn; auto.
  destruct (_ =? 1); cbn; [rewrite G; cbn|]; unfold Cst_model.take; rewrite update_loaded; cbn; auto.
Qed.
Lemma step_good : forall l e, Forall good l -> Forall good (fst (step l e)).
Proof.
  intros l e G. unfold Cst_model.step. destruct (dead _ _); auto.
  assert (let '(k, n, _, _) := visit_all (now e) (dead e) (arrived e) l in Forall good k /\ Forall good n) as H.
  { induction l as [|o l IH]; cbn [Cst_model.visit_all]; auto.
    inversion G as [|? ? Go Gl]; subst. specialize (IH Gl).
    destruct (negb _); auto. destruct (inval o); auto.
    destruct (reduce_good (dead e) (arrived e) o Go) as [R1 R2].
    destruct (visit_all _ _ _ l) as [[[k n] ps] m]. destruct IH as [I1 I2]. split.
    - constructor; auto.
    - apply Forall_app. split; auto. destruct (offspring _); auto. }
  destruct (visit_all _ _ _ l) as [[[k n] ps] m]. cbn [fst]. apply Forall_app. tauto.
Qed.
Lemma run_good : forall es l, Forall good l -> Forall good (fst (run l es)).
Proof.
  induction es as [|e es IH]; intros l G; cbn [Cst_model.run]; auto.
  pose proof (step_good l e G) as S1. destruct (step l e) as [l1 p1]. cbn [fst] in S1.
  specialize (IH l1 S1). destruct (run l1 es). exact IH.
Qed.

Lemma step_pieces : forall e e' l, no_return e e' -> Forall good l ->
  Permutation (filter (ok e') (fst (step l e))) (filter (ok e') (flat_map (pieces e) l)) /\
  snd (step l e) = flat_map (mk e) l.
Proof.
  intros e e' l N G. unfold Cst_model.step. destruct (dead e (ptr (ifact (arrived e)))) eqn:D.
  - cbn [fst snd].
    assert (flat_map (pieces e) l = l) as ->.
    { rewrite <- (flat_map_single l) at 2. apply flat_map_ext. intros o. unfold pieces, ext. now rewrite D. }
    split; auto. symmetry. rewrite <- (flat_map_ext (fun _ => [])) with (l := l).
    + clear. induction l; auto.
    + intros o. unfold mk. now rewrite D.
  - pose proof (visit_all_pieces e e' l N G D) as H.
    destruct (visit_all _ _ _ l) as [[[k n] ps] m]. exact H.
Qed.

Lemma pieces_filter : forall e e' l, no_return e e' ->
  filter (ok e') (flat_map (pieces e) l) = filter (ok e') (flat_map (pieces e) (filter (ok e) l)).
Proof.
  intros e e' l N. induction l as [|o l IH]; cbn; auto.
  rewrite filter_app, IH. destruct (ok e o) eqn:O.
  - cbn. rewrite filter_app. destruct (ok e' o); reflexivity.
  - rewrite ext_ok by auto. destruct (ok e' o) eqn:X; [|reflexivity]. now rewrite (ok_later _ _ _ N X) in O.
Qed.
Lemma mk_filter : forall e l, flat_map (mk e) l = flat_map (mk e) (filter (ok e) l).
Proof.
  intros e l. induction l as [|o l IH]; cbn; auto. rewrite IH. destruct (ok e o) eqn:O; cbn; auto. now rewrite mk_ok.
Qed.

Lemma orderly_snoc : forall es e, orderly (es ++ [e]) <-> orderly es /\ Forall (fun a => no_return a e) es.
Proof.
  unfold orderly. induction es as [|a es IH]; intros e; cbn.
  - split; [intros _; split; constructor | intros _; repeat constructor].
  - split.
    + intros H. inversion H as [|? ? H1 H2]; subst. apply Forall_app in H1 as [H1 H3]. inversion H3; subst.
      apply IH in H2 as [H2 H4]. split; constructor; auto.
    + intros [H1 H2]. inversion H1; inversion H2; subst. constructor; [apply Forall_app; auto|]. now apply IH.
Qed.
Lemma no_return_refl : forall e, no_return e e.
Proof. intros e. split; [lia|auto]. Qed.

Lemma run_chains : forall es e', orderly (es ++ [e']) ->
  Permutation (filter (ok e') (fst (run [master] es))) (filter (ok e') (flat_map chain (subs es))).
Proof.
  induction es as [|e es IH] using rev_ind; intros e' Or; [reflexivity|].
  apply orderly_snoc in Or as [Or N]. apply Forall_app in N as [N Ne]. inversion Ne as [|? ? Ne' _]; subst.
  rewrite run_snoc. cbn [fst].
  assert (Forall good (fst (run [master] es))) as G by (apply run_good; repeat constructor).
  rewrite (proj1 (step_pieces e e' _ Ne' G)). rewrite pieces_filter by auto.
  rewrite (filter_perm _ _ _ (flat_map_perm (pieces e) _ _ (IH e Or))). rewrite <- pieces_filter by auto.
  apply filter_perm. rewrite (flat_map_perm chain _ _ (subs_snoc es e)), flat_map_app.
  rewrite flat_map_map. rewrite (flat_map_ext _ _ (fun s => chain_snoc s e)). rewrite <- flat_map_flat.
  set (l := flat_map chain (subs es)). rewrite <- (flat_map_single l) at 2.
  exact (flat_map_split (fun x => [x]) (ext e) l).
Qed.

(** What is produced is exactly what the choices of events complete. *)
Lemma productions_exact : forall es, orderly es -> Permutation (productions es) (flat_map prods (subs es)).
Proof.
  unfold Cst_model.productions.
  induction es as [|e es IH] using rev_ind; intros Or; [reflexivity|].
  rewrite run_snoc. cbn [snd]. pose proof Or as Or'. apply orderly_snoc in Or' as [Or1 _].
  rewrite (IH Or1).
  assert (Forall good (fst (run [master] es))) as G by (apply run_good; repeat constructor).
  rewrite (proj2 (step_pieces e e _ (no_return_refl e) G)). rewrite mk_filter.
  rewrite (flat_map_perm (mk e) _ _ (run_chains es e Or)). rewrite <- mk_filter.
  rewrite (flat_map_perm prods _ _ (subs_snoc es e)), flat_map_app, flat_map_map.
  rewrite (flat_map_ext _ _ (fun s => prods_snoc s e)). now rewrite <- flat_map_flat.
Qed.

End Proofs.
