(** Confidence, mode, simulations and time of the instances. *)
From Coq Require Import SpecFloat Permutation.
From Verif Require Import Base Float32 Float32_facts Cst_model Cst_spec Cst_proofs Cst2_proofs.
Local Open Scope nat_scope.

Section Proofs.
Context {B : Type} (M : binder B) (C : cst B) (root root_root : nat -> nat).
Notation take := (take M root root_root).
Notation chain := (chain M C root root_root).
Notation prods := (prods M C root root_root).
Notation productions := (productions M C root root_root).
Notation ext := (ext M root root_root).
Notation mk := (mk M C root root_root).
Notation add_sims := (add_sims root root_root).
Notation ovl := (overlay B).
Notation fptr := (fun x => ptr (ifact x)).

(** Reasoning on the overlays of a chain, and on those completed. *)
Lemma chain_rec (P : ovl -> Prop) (Q : input -> Prop) :
  P (master C) ->
  (forall o x p i b bd, P o -> Q x -> bind_pattern M o x = Some (p, i, b) -> P (take b x i bd o)) ->
  forall s o, Forall Q (map arrived s) -> In o (chain s) -> P o.
Proof.
  intros Pm Pt. induction s as [|e s IH] using rev_ind; intros o F H.
  - destruct H as [<-|[]]. exact Pm.
  - rewrite chain_snoc in H. apply in_flat_map in H as [o0 [H0 H]].
    rewrite map_app in F. apply Forall_app in F as [F1 F2]. inversion F2; subst.
    apply ext_some in H as [_ [_ [_ [p [i [b [Bd [_ ->]]]]]]]]. eapply Pt; eauto.
Qed.
Lemma prods_rec (P : ovl -> Prop) (Q : input -> Prop) :
  P (master C) ->
  (forall o x p i b bd, P o -> Q x -> bind_pattern M o x = Some (p, i, b) -> P (take b x i bd o)) ->
  forall s q, Forall Q (map arrived s) -> In q (prods s) ->
  exists o e, P o /\ q = inject_production C (arrived e) o /\ In (arrived e) (components q) /\
    (exists s', s = s' ++ [e]) /\ components q = saved o.
Proof.
  intros Pm Pt s q F H. destruct (prods_inv M C root root_root _ _ H) as (s' & e & o & ps & -> & Hc & Bt & Hm).
  apply mk_some in Hm as [_ [_ [_ [p [i [b [Bd [_ ->]]]]]]]].
  rewrite map_app in F. apply Forall_app in F as [F1 F2]. inversion F2; subst.
  exists (take b (arrived e) i None o), e. split.
  - eapply (Pt o _ p); eauto. eapply (chain_rec P Q Pm Pt s'); eauto.
  - split; [reflexivity|]. destruct (prod_fields C (arrived e) (take b (arrived e) i None o)) as [E _].
    split; [|split; [eauto|exact E]]. rewrite E.
    eapply Permutation_in; [symmetry; apply take_saved|]. apply in_app_iff. cbn; auto.
Qed.

(** ** Confidence *)
Lemma proper_not_nan : forall f, proper f -> f <> S754_nan.
Proof. intros f [_ H] ->. discriminate. Qed.
Lemma proper_one : proper fone.
Proof. split; reflexivity. Qed.

Definition lowest (o : ovl) : Prop :=
  proper (low o) /\ Forall (fun x => proper (confidence x) /\ fle (low o) (confidence x) = true) (saved o) /\
  (low o = fone \/ exists x, In x (saved o) /\ low o = confidence x).

Lemma lowest_take : forall o x (p : nat) i b bd, lowest o -> proper (confidence x) -> lowest (take b x i bd o).
Proof.
  intros o x p i b bd (L1 & L2 & L3) Px. unfold lowest. rewrite take_low.
  pose proof (take_saved M root root_root b x i bd o) as Sv.
  pose proof (proper_not_nan _ L1). pose proof (proper_not_nan _ Px).
  assert (f32_valid (low o) = true /\ f32_valid (confidence x) = true) as [V1 V2] by (split; [apply L1|apply Px]).
  change SFltb with flt. destruct (flt (confidence x) (low o)) eqn:E.
  - split; [auto|]. split.
    + rewrite Sv. apply Forall_app. split.
      * eapply Forall_impl; [|exact L2]. cbn. intros y [Py Ly]. split; auto.
        pose proof (proper_not_nan _ Py). destruct Py as [Vy _].
        rewrite flt_key in E by auto. rewrite fle_key in * by auto. lia.
      * constructor; auto. split; auto. rewrite fle_key by auto. lia.
    + right. exists x. split; auto. eapply Permutation_in; [symmetry; exact Sv|]. apply in_app_iff. cbn; auto.
  - split; [auto|]. split.
    + rewrite Sv. apply Forall_app. split; auto. constructor; auto. split; auto.
      rewrite flt_key in E by auto. rewrite fle_key by auto. lia.
    + destruct L3 as [L3|[y [Hy Ey]]]; auto. right. exists y. split; auto.
      eapply Permutation_in; [symmetry; exact Sv|]. apply in_app_iff. auto.
Qed.

Lemma prod_lowest : forall s q, Forall (fun x => proper (confidence x)) (map arrived s) -> In q (prods s) ->
  Forall (fun x => fle (plow q) (confidence x) = true) (components q) /\
  (plow q = fone \/ exists x, In x (components q) /\ plow q = confidence x).
Proof.
  intros s q F H.
  destruct (prods_rec lowest (fun x => proper (confidence x)) ltac:(split; [apply proper_one|split; cbn; auto])
    ltac:(intros; eapply lowest_take; eauto) s q F H) as (o & e & L & -> & _ & _ & _).
  destruct (prod_fields C (arrived e) o) as (E1 & _ & E2 & _). rewrite E1, E2.
  destruct L as (_ & L2 & L3). split; auto. eapply Forall_impl; [|exact L2]. cbn. tauto.
Qed.

(** ** Mode *)
Lemma insert_in : forall x y l, In y (insert x l) <-> y = x \/ In y l.
Proof.
  intros x y l. unfold insert. destruct (existsb _ l) eqn:E.
  - apply existsb_exists in E as [z [Hz Ez]]. apply Nat.eqb_eq in Ez as <-. split; [auto|]. intros [->|]; auto.
  - rewrite in_app_iff. cbn. intuition.
Qed.
Lemma inserts_in : forall new l y, In y (fold_left (fun l v => insert v l) new l) <-> In y new \/ In y l.
Proof.
  induction new as [|v new IH]; intros l y; cbn; [intuition|]. rewrite IH, insert_in. intuition.
Qed.
Lemma add_sims_in : forall new l y, In y (add_sims l new) -> In y new \/ In y l.
Proof.
  unfold Cst_model.add_sims. induction new as [|s new IH]; intros l y H; cbn in H; auto.
  apply IH in H as [H|H]; [cbn; auto|]. destruct (has_root _ _ _); auto. apply insert_in in H. cbn. intuition.
Qed.
Lemma add_sims_keep : forall new l y, In y l -> In y (add_sims l new).
Proof.
  unfold Cst_model.add_sims. induction new as [|s new IH]; intros l y H; cbn; auto.
  apply IH. destruct (has_root _ _ _); auto. apply insert_in. auto.
Qed.
Lemma add_sims_some : forall new l, new <> [] -> add_sims l new <> [].
Proof.
  intros [|s new] l H; [congruence|]. intros E.
  assert (exists y, In y (if has_root root l (root_root s) then l else insert s l)) as [y Hy].
  { destruct (has_root root l (root_root s)) eqn:R.
    - unfold has_root in R. apply existsb_exists in R as [z [Hz _]]. eauto.
    - exists s. apply insert_in. auto. }
  unfold Cst_model.add_sims in E. cbn in E. apply (add_sims_keep new) in Hy.
  unfold Cst_model.add_sims in Hy. rewrite E in Hy. destruct Hy.
Qed.

Lemma simulated_sims : forall x, simulated x <-> sims_of x <> [].
Proof.
  intros x. unfold simulated, sims_of. destruct (ipred x) as [p|]; split.
  - intros [q [E H]]. inversion E; subst. exact H.
  - intros H. exists p. auto.
  - intros [q [E _]]. discriminate.
  - congruence.
Qed.

Definition moded (o : ovl) : Prop :=
  (sims o = [] <-> forall x, In x (saved o) -> ~ simulated x) /\
  (forall s, In s (sims o) -> exists x, In x (saved o) /\ In s (sims_of x)) /\
  (forall i, In i (preds o) <-> exists x, In x (saved o) /\ predicted x /\ ~ simulated x /\ i = fptr x) /\
  (forall v, In v (defv o) <-> exists x, In x (saved o) /\ In v (validities_of x)).

Lemma in_snoc {A} : forall (P : A -> Prop) l x, (exists y, In y (l ++ [x]) /\ P y) <-> (exists y, In y l /\ P y) \/ P x.
Proof.
  intros P l x. split.
  - intros [y [H Py]]. apply in_app_iff in H as [H|[<-|[]]]; eauto.
  - intros [[y [H Py]]|H]; [exists y|exists x]; rewrite in_app_iff; cbn; auto.
Qed.
Lemma ex_perm {A} : forall (P : A -> Prop) l l', Permutation l l' -> ((exists y, In y l /\ P y) <-> exists y, In y l' /\ P y).
Proof. intros P l l' Hp. split; intros [y [H Py]]; exists y; split; auto; [|symmetry in Hp]; eapply Permutation_in; eauto. Qed.

Lemma moded_take : forall o x (p : nat) i b bd, moded o -> moded (take b x i bd o).
Proof.
  intros o x p i b bd (M1 & M2 & M3 & M4). pose proof (take_saved M root root_root b x i bd o) as Sv.
  unfold moded. rewrite take_sims, take_preds, take_defv. split; [|split; [|split]].
  - split.
    + intros E y Hy Sy. apply (Permutation_in y Sv), in_app_iff in Hy as [Hy|[<-|[]]].
      * assert (sims o = []) as Z0. { destruct (sims o) as [|z l]; auto. assert (In z (add_sims (z :: l) (sims_of x))) by (apply add_sims_keep; cbn; auto). rewrite E in *. contradiction. }
        rewrite M1 in Z0. exact (Z0 _ Hy Sy).
      * apply simulated_sims in Sy. exact (add_sims_some _ (sims o) Sy E).
    + intros H.
      assert (sims_of x = []) as ->.
      { destruct (sims_of x) as [|z l] eqn:E; auto. exfalso. apply (H x); [eapply Permutation_in; [symmetry; exact Sv|]; apply in_app_iff; cbn; auto|].
        apply simulated_sims. now rewrite E. }
      cbn. apply M1. intros y Hy. apply H. eapply Permutation_in; [symmetry; exact Sv|]. apply in_app_iff; auto.
  - intros s H. apply add_sims_in in H.
    rewrite (ex_perm (fun y => In s (sims_of y)) _ _ Sv), in_snoc. destruct H as [H|H]; auto.
  - intros k. rewrite (ex_perm (fun y => predicted y /\ ~ simulated y /\ k = fptr y) _ _ Sv), in_snoc, <- M3.
    rewrite simulated_sims. unfold predicted, sims_of. destruct (ipred x) as [pr|].
    + destruct (psims pr).
      * rewrite insert_in. split; [intros [->|]; auto; right; repeat split; auto; discriminate|intuition].
      * split; [auto|]. intros [H|(_ & H & _)]; auto. exfalso. apply H. discriminate.
    + split; [auto|]. intros [H|(H & _)]; auto. congruence.
  - intros v. rewrite (ex_perm (fun y => In v (validities_of y)) _ _ Sv), in_snoc, <- M4, inserts_in. intuition.
Qed.
Lemma moded_master : moded (master C).
Proof.
  unfold moded. cbn. split; [split; auto|]. split; [intros s []|]. split; intros; (split; [intros []|intros [x [[] _]]]).
Qed.

Lemma prod_moded : forall s q, In q (prods s) -> exists o e, moded o /\ q = inject_production C (arrived e) o /\
  In (arrived e) (components q) /\ (exists s', s = s' ++ [e]) /\ components q = saved o.
Proof.
  intros s q H. apply (prods_rec moded (fun _ => True) moded_master); auto.
  - intros; eapply moded_take; eauto.
  - apply Forall_forall. auto.
Qed.

Lemma prod_stated : forall s q, In q (prods s) -> (mode q = Stated <-> Forall (fun x => ~ predicted x) (components q)).
Proof.
  intros s q H. destruct (prod_moded s q H) as (o & e & (M1 & M2 & M3 & M4) & -> & _ & _ & E).
  rewrite E, Forall_forall. unfold inject_production. destruct (sims o) as [|z l] eqn:Sm.
  - assert (forall x, In x (saved o) -> ~ simulated x) as NS by (now apply M1).
    destruct (preds o) as [|g gs] eqn:Pr; cbn [mode]; split; auto; try discriminate.
    + intros _ x Hx Px. destruct (proj2 (M3 (fptr x))). exists x. auto.
    + intros Hn. destruct (proj1 (M3 g)) as [x [Hx [Px _]]]; [cbn; auto|]. destruct (Hn x Hx Px).
  - cbn [mode]. split; [discriminate|]. intros Hn. destruct (M2 z) as [x [Hx Sx]]; [cbn; auto|].
    destruct (Hn x Hx). unfold predicted. intros Z0. unfold sims_of in Sx. rewrite Z0 in Sx. destruct Sx.
Qed.
Lemma prod_predicted : forall s q g, In q (prods s) -> mode q = PredictedFrom g ->
  Forall (fun x => ~ simulated x) (components q) /\
  (forall i, In i g <-> exists x, In x (components q) /\ predicted x /\ i = fptr x).
Proof.
  intros s q g H. destruct (prod_moded s q H) as (o & e & (M1 & M2 & M3 & M4) & -> & _ & _ & E).
  rewrite E, Forall_forall. unfold inject_production. destruct (sims o) as [|z l] eqn:Sm; [|discriminate].
  assert (forall x, In x (saved o) -> ~ simulated x) as NS by (now apply M1).
  destruct (preds o) as [|k ks] eqn:Pr; cbn [mode]; [discriminate|]. intros Eg. inversion Eg; subst. split; auto.
  intros i. rewrite M3. split; intros [x Hx]; exists x; intuition.
Qed.
Lemma prod_simulated : forall s q, In q (prods s) ->
  ((exists ss vs, mode q = Simulated ss vs) <-> exists x, In x (components q) /\ simulated x) /\
  (forall ss vs, mode q = Simulated ss vs -> forall k, In k ss -> exists x, In x (components q) /\ In k (sims_of x)).
Proof.
  intros s q H. destruct (prod_moded s q H) as (o & e & (M1 & M2 & M3 & M4) & -> & _ & _ & E).
  rewrite E. unfold inject_production. destruct (sims o) as [|z l] eqn:Sm.
  - assert (forall x, In x (saved o) -> ~ simulated x) as NS by (now apply M1).
    destruct (preds o); cbn [mode]; (split; [split; [intros [? [? ?]]; discriminate | intros [x [Hx Sx]]; destruct (NS x Hx Sx)]|discriminate]).
  - cbn [mode]. split.
    + split; [|eauto]. intros _. destruct (M2 z) as [x [Hx Sx]]; [cbn; auto|]. exists x. split; auto.
      apply simulated_sims. intros Z0. rewrite Z0 in Sx. destruct Sx.
    + intros ss vs Eq k Hk. inversion Eq; subst. now apply M2.
Qed.
Lemma prod_validities : forall s' e q ss vs, In q (prods (s' ++ [e])) -> mode q = Simulated ss vs -> predicted (arrived e) ->
  forall v, In v vs <-> exists x, In x (components q) /\ In v (validities_of x).
Proof.
  intros s0 e0 q ss vs H. destruct (prod_moded _ q H) as (o & e & (M1 & M2 & M3 & M4) & -> & _ & [s1 Es] & E).
  apply app_inj_tail in Es as [_ <-].
  rewrite E. unfold inject_production. destruct (sims o) as [|z l]; [destruct (preds o); discriminate|].
  cbn [mode]. intros Eq Pe v. inversion Eq; subst. rewrite <- M4. unfold predicted in Pe.
  destruct (ipred (arrived e0)); [reflexivity|congruence].
Qed.

(** ** Simulations do not mix, if every prediction belongs to one at most *)
Definition single (x : input) : Prop := length (sims_of x) <= 1.
Definition unmixed (o : ovl) : Prop :=
  length (sims o) <= 1 /\ forall x, In x (saved o) -> sims_of x = [] \/ sims_of x = sims o.
Lemma unmixed_take : forall o x p i b bd, unmixed o -> single x -> bind_pattern M o x = Some (p, i, b) -> unmixed (take b x i bd o).
Proof.
  intros o x p i b bd [U1 U2] Sx Bd. pose proof (take_saved M root root_root b x i bd o) as Sv.
  assert (forall y, In y (saved (take b x i bd o)) -> In y (saved o) \/ y = x) as Iv.
  { intros y Hy. apply (Permutation_in y Sv), in_app_iff in Hy as [Hy|[<-|[]]]; auto. }
  unfold unmixed. rewrite take_sims. unfold single in Sx.
  destruct (sims_of x) as [|s [|]] eqn:E; [| |cbn in Sx; lia].
  - cbn. split; auto. intros y Hy. destruct (Iv y Hy) as [H| ->]; auto.
  - assert (simulation_of x = Some s) as Sim.
    { unfold simulation_of, sims_of in *. destruct (ipred x); [|discriminate]. now rewrite E. }
    assert (sims o = [] \/ sims o = [s]) as Cs.
    { unfold bind_pattern in Bd. rewrite Sim in Bd. unfold start_map in Bd.
      destruct (1 <? length (sims o)) eqn:L; [discriminate|]. destruct (sims o) as [|s' [|]]; auto.
      - destruct (Nat.eqb_spec s' s); [subst; auto|discriminate].
      - discriminate. }
    assert (add_sims (sims o) [s] = [s]) as Ad.
    { destruct Cs as [-> | ->]; cbn; [reflexivity|]. destruct (_ || _); auto. unfold insert. cbn. now rewrite Nat.eqb_refl. }
    rewrite Ad. split; auto. intros y Hy. destruct (Iv y Hy) as [H| ->]; auto.
    destruct (U2 y H) as [|H1]; auto. destruct Cs as [Cs|Cs]; rewrite Cs in H1; auto.
Qed.
Lemma prod_unmixed : forall s q, Forall single (map arrived s) -> In q (prods s) ->
  forall x y k, In x (components q) -> In y (components q) -> In k (sims_of x) -> simulated y -> In k (sims_of y).
Proof.
  intros s q F H. destruct (prods_rec unmixed single ltac:(split; [cbn; lia|intros ? []]) ltac:(intros; eapply unmixed_take; eauto) s q F H)
    as (o & e & [U1 U2] & -> & _ & _ & E). rewrite E. intros x y k Hx Hy Hk Sy.
  apply simulated_sims in Sy. destruct (U2 x Hx) as [E1|E1]; [rewrite E1 in Hk; destruct Hk|].
  destruct (U2 y Hy) as [E2|E2]; congruence.
Qed.

(** ** Injections *)
Lemma prod_injected : forall s q, In q (prods s) ->
  (mode q = Stated -> injections q =
     (if flt (thr1 C) (plow q) then (0, fone) :: map (fun i => (2 + i, fone)) (seq 0 (outs C)) else []) ++
     (if flt (thr2 C) (plow q) then [(1, fone)] else [])) /\
  (mode q <> Stated -> injections q = if flt (thr1 C) (plow q) then [(0, plow q)] else []).
Proof.
  intros s q H. destruct (prod_moded s q H) as (o & e & _ & -> & _).
  unfold inject_production. destruct (sims o); [destruct (preds o)|]; cbn [mode injections plow]; split; try congruence; auto.
Qed.

(** ** Time *)
Lemma chain_deadline : forall s o, In o (chain s) -> s <> [] -> exists e1 r p1 b1, s = e1 :: r /\
  fitted M (initial C) [arrived e1] [p1] b1 /\ (fwd_before M b1 <> 0%Z -> deadline o = fwd_before M b1).
Proof.
  induction s as [|e s IH] using rev_ind; intros o H Ne; [congruence|].
  rewrite chain_snoc in H. apply in_flat_map in H as [o0 [H0 H]].
  destruct (chain_built M C root root_root s o0 H0) as [ps Bt].
  apply ext_some in H as [_ [_ [_ [p [i [b [Bd [_ ->]]]]]]]]. rewrite take_deadline.
  destruct s as [|e1 r].
  - destruct H0 as [<-|[]]. exists e, [], p, b. split; [reflexivity|]. split; [|intros _; reflexivity].
    pose proof (fit_step M C root root_root [] (master C) [] e p i b) as F. cbn in F. apply F; auto.
    split; cbn; auto; constructor.
  - destruct (IH o0 H0) as (e1' & r' & p1 & b1 & E & F & D); [discriminate|]. inversion E; subst.
    exists e1', (r' ++ [e]), p1, b1. split; [reflexivity|]. split; [exact F|]. intros Z0. rewrite (D Z0).
    apply Z.eqb_neq in Z0. now rewrite Z0.
Qed.
Lemma prods_in_time : forall s q, In q (prods s) -> exists e1 r p1 b1, s = e1 :: r /\
  fitted M (initial C) [arrived e1] [p1] b1 /\
  (r <> [] -> fwd_before M b1 <> 0%Z -> forall d, (now (last r d) <= fwd_before M b1)%Z).
Proof.
  intros s q H. destruct (prods_inv M C root root_root _ _ H) as (s' & e & o & ps & -> & Hc & Bt & Hm).
  apply mk_some in Hm as [_ [O [_ [p [i [b [Bd [_ ->]]]]]]]].
  destruct s' as [|e1 r].
  - exists e, [], p, b. split; [reflexivity|]. split; [|congruence]. destruct Hc as [<-|[]].
    pose proof (fit_step M C root root_root [] (master C) [] e p i b) as F. cbn in F. apply F; auto.
    split; cbn; auto; constructor.
  - destruct (chain_deadline _ _ Hc) as (e1' & r' & p1 & b1 & E & F & D); [discriminate|]. inversion E; subst.
    exists e1', (r' ++ [e]), p1, b1. split; [reflexivity|]. split; [exact F|].
    intros _ Z0 d. rewrite last_last. unfold ok in O. rewrite !andb_true_iff in O. destruct O as [[O _] _].
    unfold can_match in O. rewrite (D Z0) in O. apply Z.eqb_neq in Z0. rewrite Z0 in O. now apply Z.leb_le.
Qed.

End Proofs.
