(** What an instance of a composite state is made of. *)
From Coq Require Import SpecFloat Permutation.
From Verif Require Import Base Float32 Float32_facts Cst_model Cst_spec Cst_proofs.
Local Open Scope nat_scope.

Section Proofs.
Context {B : Type} (M : binder B) (C : cst B) (root root_root : nat -> nat).
Notation take := (take M root root_root).
Notation chain := (chain M C root root_root).
Notation prods := (prods M C root root_root).
Notation productions := (productions M C root root_root).
Notation ext := (ext M root root_root).
Notation mk := (mk M C root root_root).
Notation ovl := (overlay B).
Notation fptr := (fun x => ptr (ifact x)).

(** Fields after taking an input. *)
Lemma take_bnd : forall b x i bd (o : ovl), bnd (take b x i bd o) = b.
Proof. intros. unfold Cst_model.take, update. now destruct (ipred x). Qed.
Lemma take_ax : forall b x i bd (o : ovl), ax (take b x i bd o) = match bd with Some p => if i then remove1 p (ax o) else ax o | None => ax o end.
Proof. intros. unfold Cst_model.take, update. now destruct (ipred x). Qed.
Lemma take_nax : forall b x i bd (o : ovl), nax (take b x i bd o) = match bd with Some p => if i then nax o else remove1 p (nax o) | None => nax o end.
Proof. intros. unfold Cst_model.take, update. now destruct (ipred x). Qed.
Lemma take_saved : forall b x i bd (o : ovl), Permutation (saved (take b x i bd o)) (saved o ++ [x]).
Proof.
  intros. unfold Cst_model.take, update, saved. destruct (ipred x), i; cbn [axi naxi]; rewrite <- ?app_assoc; auto;
  apply Permutation_app_head, Permutation_app_comm.
Qed.
Lemma take_low : forall b x i bd (o : ovl), low (take b x i bd o) = if SFltb (confidence x) (low o) then confidence x else low o.
Proof. intros. unfold Cst_model.take, update. now destruct (ipred x). Qed.
Lemma take_deadline : forall b x i bd (o : ovl), deadline (take b x i bd o) = if (deadline o =? 0)%Z then fwd_before M b else deadline o.
Proof. intros. unfold Cst_model.take, update. now destruct (ipred x). Qed.
Lemma take_inval : forall b x i bd (o : ovl), inval (take b x i bd o) = inval o.
Proof. intros. unfold Cst_model.take, update. now destruct (ipred x). Qed.
Lemma take_sims : forall b x i bd (o : ovl), sims (take b x i bd o) = add_sims root root_root (sims o) (sims_of x).
Proof. intros. unfold Cst_model.take, update, sims_of. destruct (ipred x) as [p|]; auto. cbn [sims]. now destruct (psims p). Qed.
Lemma take_preds : forall b x i bd (o : ovl), preds (take b x i bd o) =
  match ipred x with Some p => match psims p with [] => insert (fptr x) (preds o) | _ => preds o end | None => preds o end.
Proof. intros. unfold Cst_model.take, update. now destruct (ipred x). Qed.
Lemma take_defv : forall b x i bd (o : ovl), defv (take b x i bd o) = fold_left (fun l v => insert v l) (validities_of x) (defv o).
Proof. intros. unfold Cst_model.take, update, validities_of. now destruct (ipred x). Qed.

Lemma remove1_perm : forall p l, In p l -> Permutation (p :: remove1 p l) l.
Proof.
  induction l as [|q l IH]; intros H; [destruct H|]. cbn. destruct (Nat.eqb_spec q p); [subst; auto|].
  destruct H as [H|H]; [congruence|]. etransitivity; [apply perm_swap|]. constructor. auto.
Qed.

Lemma first_match_some : forall b f l p b', first_match M b f l = Some (p, b') -> In p l /\ bmatch M b f p = Some b'.
Proof.
  induction l as [|q l IH]; cbn; intros p b' H; [discriminate|].
  destruct (bmatch M b f q) eqn:E; [inversion H; subst; auto|]. apply IH in H. tauto.
Qed.
Lemma first_match_none : forall b f l p, first_match M b f l = None -> In p l -> bmatch M b f p = None.
Proof.
  induction l as [|q l IH]; cbn; intros p H I; [destruct I|].
  destruct (bmatch M b f q) eqn:E; [discriminate|]. destruct I as [<-|I]; auto.
Qed.

Lemma bind_some : forall (o : ovl) x p i b, bind_pattern M o x = Some (p, i, b) ->
  In p (if i then ax o else nax o) /\
  exists b0, start_map M o (object_of x) (simulation_of x) = Some b0 /\ bmatch M b0 (object_of x) p = Some b.
Proof.
  unfold bind_pattern. intros o x p i b H. destruct (start_map _ _ _ _) as [b0|] eqn:S0; [|discriminate].
  destruct (first_match M b0 _ (ax o)) as [[q b1]|] eqn:F1.
  - inversion H; subst. apply first_match_some in F1. split; [tauto|]. exists b0. tauto.
  - destruct (first_match M b0 _ (nax o)) as [[q b1]|] eqn:F2; [|discriminate].
    inversion H; subst. apply first_match_some in F2. split; [tauto|]. exists b0. tauto.
Qed.

Lemma start_some : forall (o : ovl) x b0, start_map M o (object_of x) (simulation_of x) = Some b0 ->
  (saved o <> [] /\ b0 = bnd o) \/ ((saved o = [] \/ simulation_of x <> None) /\ b0 = breset M (bnd o) (object_of x)).
Proof.
  intros o x b0. unfold start_map, saved.
  assert (forall b : B, (if match axi o with [] => match naxi o with [] => true | _ => false end | _ => false end
    then breset M (bnd o) (object_of x) else bnd o) = b ->
    (axi o ++ naxi o <> [] /\ b = bnd o) \/ ((axi o ++ naxi o = [] \/ simulation_of x <> None) /\ b = breset M (bnd o) (object_of x))) as P.
  { intros b <-. destruct (axi o); [destruct (naxi o)|]; cbn.
    - right. auto.
    - left. split; [discriminate|reflexivity].
    - left. split; [discriminate|reflexivity]. }
  destruct (simulation_of x) as [s|] eqn:Sx; [|intros H; inversion H; subst; apply P; reflexivity].
  destruct (1 <? _); [discriminate|]. destruct (match sims o with [s'] => _ | _ => _ end); [discriminate|].
  destruct (axi o) as [|a la]; [intros H; inversion H; subst; apply P; reflexivity|].
  destruct (naxi o) as [|c lc]; [|intros H; inversion H; subst; apply P; reflexivity].
  destruct (_ && _); [intros H; inversion H; subst; apply P; reflexivity|].
  destruct (_ <=? _)%Z; [discriminate|]. intros H; inversion H; subst. right. split; [right; discriminate|reflexivity].
Qed.

(** An overlay that was built from the events [s]. *)
Record built (s : list event) (o : ovl) (ps : list nat) : Prop := {
  b_fit : fitted M (initial C) (map arrived s) ps (bnd o);
  b_pat : Permutation (ps ++ ax o ++ nax o) (patterns C);
  b_in : Permutation (saved o) (map arrived s);
  b_nodup : NoDup (map fptr (map arrived s));
  b_ok : inval o = false }.

Lemma ext_some : forall e o o', In o' (ext e o) ->
  dead e (ptr (ifact (arrived e))) = false /\ ok e o = true /\ fresh e o = true /\
  exists p i b, bind_pattern M o (arrived e) = Some (p, i, b) /\ length (ax o) + length (nax o) <> 1 /\
    o' = take b (arrived e) i (Some p) o.
Proof.
  unfold Cst_proofs.ext. intros e o o' H. destruct (dead _ _); [destruct H|]. destruct (ok e o && fresh e o) eqn:A; [|destruct H].
  apply andb_true_iff in A as [A1 A2]. destruct (bind_pattern M o (arrived e)) as [[[p i] b]|]; [|destruct H].
  destruct (Nat.eqb_spec (length (ax o) + length (nax o)) 1); [destruct H|]. destruct H as [<-|[]].
  repeat split; auto. exists p, i, b. auto.
Qed.
Lemma mk_some : forall e o q, In q (mk e o) ->
  dead e (ptr (ifact (arrived e))) = false /\ ok e o = true /\ fresh e o = true /\
  exists p i b, bind_pattern M o (arrived e) = Some (p, i, b) /\ length (ax o) + length (nax o) = 1 /\
    q = inject_production C (arrived e) (take b (arrived e) i None o).
Proof.
  unfold Cst_proofs.mk. intros e o o' H. destruct (dead _ _); [destruct H|]. destruct (ok e o && fresh e o) eqn:A; [|destruct H].
  apply andb_true_iff in A as [A1 A2]. destruct (bind_pattern M o (arrived e)) as [[[p i] b]|]; [|destruct H].
  destruct (Nat.eqb_spec (length (ax o) + length (nax o)) 1); [|destruct H]. destruct H as [<-|[]].
  repeat split; auto. exists p, i, b. auto.
Qed.

Lemma NoDup_snoc {A} : forall (l : list A) x, NoDup l -> ~ In x l -> NoDup (l ++ [x]).
Proof. intros. apply NoDup_rev in H. rewrite <- (rev_involutive (l ++ [x])). apply NoDup_rev. rewrite rev_app_distr. cbn. constructor; auto. now rewrite <- in_rev. Qed.

Lemma fresh_not : forall e (o : ovl) s, fresh e o = true -> Permutation (saved o) (map arrived s) ->
  ~ In (fptr (arrived e)) (map fptr (map arrived s)).
Proof.
  unfold fresh. intros e o s F P I. apply negb_true_iff in F.
  rewrite <- (Permutation_map fptr P) in I. apply in_map_iff in I as [y [E I]].
  assert (existsb (fun y => ptr (ifact (arrived e)) =? ptr (ifact y)) (saved o) = true) by
   (apply existsb_exists; exists y; split; [exact I|apply Nat.eqb_eq; auto]). congruence.
Qed.

Lemma fit_step : forall s o ps e p i b, built s o ps -> bind_pattern M o (arrived e) = Some (p, i, b) ->
  fitted M (initial C) (map arrived (s ++ [e])) (ps ++ [p]) b.
Proof.
  intros s o ps e p i b [F P I N K] H. apply bind_some in H as [_ [b0 [S0 E]]].
  apply start_some in S0. rewrite map_app. cbn [map]. econstructor; [exact F|].
  assert (forall l l' : list input, Permutation l l' -> l = [] -> l' = []) as Nil.
  { intros l l' Hp ->. now apply Permutation_nil in Hp. }
  destruct S0 as [[S1 ->]|[S1 ->]].
  - left. split; auto. intros Z0. apply S1. eapply Nil; [symmetry; exact I|exact Z0].
  - right. split; auto. destruct S1 as [S1|S1]; auto. left. eapply Nil; eauto.
Qed.

Lemma chain_built : forall s o, In o (chain s) -> exists ps, built s o ps.
Proof.
  induction s as [|e s IH] using rev_ind; intros o H.
  - cbn in H. destruct H as [<-|[]]. exists []. split; cbn; auto; constructor.
  - rewrite chain_snoc in H. apply in_flat_map in H as [o0 [H0 H]]. destruct (IH o0 H0) as [ps Bt].
    apply ext_some in H as [D [O [F [p [i [b [Bd [L ->]]]]]]]]. exists (ps ++ [p]).
    pose proof (fit_step _ _ _ _ _ _ _ Bt Bd) as Fit. destruct Bt as [Fi P I N K]. split.
    + now rewrite take_bnd.
    + apply bind_some in Bd as [Ip _]. rewrite take_ax, take_nax. rewrite <- P. rewrite <- app_assoc.
      apply Permutation_app_head. cbn [app]. destruct i.
      * change (p :: remove1 p (ax o0) ++ nax o0) with ((p :: remove1 p (ax o0)) ++ nax o0).
        apply Permutation_app_tail. now apply remove1_perm.
      * rewrite Permutation_middle. apply Permutation_app_head. now apply remove1_perm.
    + rewrite take_saved, map_app. apply Permutation_app_tail. exact I.
    + rewrite !map_app. cbn [map]. apply NoDup_snoc; auto. eapply fresh_not; eauto.
    + now rewrite take_inval.
Qed.

Lemma prod_fields : forall x (o : ovl), components (inject_production C x o) = saved o /\ pbnd (inject_production C x o) = bnd o /\
  plow (inject_production C x o) = low o /\ fact_cfd (inject_production C x o) = fone.
Proof. intros. unfold inject_production, saved. destruct (sims o); [destruct (preds o)|]; repeat split. Qed.

Lemma prods_inv : forall s q, In q (prods s) -> exists s' e o ps, s = s' ++ [e] /\ In o (chain s') /\ built s' o ps /\ In q (mk e o).
Proof.
  intros s q H. destruct s as [|e s' _] using rev_ind; [destruct H|].
  rewrite prods_snoc in H. apply in_flat_map in H as [o [H0 H]]. destruct (chain_built _ _ H0) as [ps Bt].
  exists s', e, o, ps. auto.
Qed.

(** Each instance: one live input for each pattern, all different. *)
Lemma prods_sound : forall s q, In q (prods s) -> exists ps e s',
  s = s' ++ [e] /\ Permutation ps (patterns C) /\ fitted M (initial C) (map arrived s) ps (pbnd q) /\
  Permutation (components q) (map arrived s) /\ NoDup (parts q) /\ Forall (fun x => dead e (fptr x) = false) (components q).
Proof.
  intros s q H. destruct (prods_inv _ _ H) as (s' & e & o & ps & -> & Hc & Bt & Hm).
  apply mk_some in Hm as [D [O [F [p [i [b [Bd [L ->]]]]]]]]. exists (ps ++ [p]), e, s'.
  destruct (prod_fields (arrived e) (take b (arrived e) i None o)) as (E1 & E2 & _ & _). unfold parts. rewrite E1, E2, take_bnd.
  pose proof (fit_step _ _ _ _ _ _ _ Bt Bd) as Fit. destruct Bt as [Fi P I N K].
  assert (Permutation (saved (take b (arrived e) i None o)) (map arrived (s' ++ [e]))) as Ps.
  { rewrite take_saved, map_app. apply Permutation_app_tail. exact I. }
  split; [reflexivity|]. split.
  { rewrite <- P. apply Permutation_app_head. apply bind_some in Bd as [Ip _].
    assert (forall l : list nat, length l = 1 -> In p l -> [p] = l) as One.
    { intros [|a [|]] Hl Hi; try discriminate. destruct Hi as [<-|[]]. reflexivity. }
    rewrite <- app_length in L. rewrite (One _ L); auto. apply in_app_iff. destruct i; auto. }
  split; [exact Fit|]. split; [exact Ps|]. split.
  - rewrite (Permutation_map fptr Ps). rewrite !map_app. cbn [map]. apply NoDup_snoc; auto. eapply fresh_not; eauto.
  - rewrite Forall_forall. intros x Hx.
    apply (Permutation_in x (take_saved _ _ _ _ _)) in Hx. apply in_app_iff in Hx as [Hx|[<-|[]]]; [|exact D].
    unfold ok in O. rewrite !andb_true_iff in O. destruct O as [_ O]. rewrite forallb_forall in O.
    specialize (O x Hx). now apply negb_true_iff in O.
Qed.

Lemma production_choice : forall es q, orderly es -> (In q (productions es) <-> exists s, subseq s es /\ In q (prods s)).
Proof.
  intros es q Or. pose proof (productions_exact M C root root_root es Or) as P. split.
  - intros H. apply (Permutation_in q P), in_flat_map in H as [s [H1 H2]]. exists s. split; auto. now apply subs_subseq.
  - intros [s [H1 H2]]. apply (Permutation_in q (Permutation_sym P)), in_flat_map. exists s. split; auto. now apply subs_subseq.
Qed.

End Proofs.
