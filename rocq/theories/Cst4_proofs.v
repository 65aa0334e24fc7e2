(** Which combinations of facts give an instance; guards; witnesses. *)
From Coq Require Import SpecFloat Permutation.
From Verif Require Import Base Float32 Float32_facts Cst_model Cst_spec Cst_proofs Cst2_proofs Cst3_proofs.
Local Open Scope nat_scope.

Section Proofs.
Context {B : Type} (M : binder B) (C : cst B) (root root_root : nat -> nat).
Notation take := (take M root root_root).
Notation chain := (chain M C root root_root).
Notation prods := (prods M C root root_root).
Notation productions := (productions M C root root_root).
Notation ext := (ext M root root_root).
Notation mk := (mk M C root root_root).
Notation ovl := (overlay B).
Notation fptr := (fun x => ptr (ifact x)).

(** ** Completeness *)
Lemma first_match_only : forall b f l p b', (forall q c, In q l -> bmatch M b f q = Some c -> q = p) ->
  In p l -> bmatch M b f p = Some b' -> first_match M b f l = Some (p, b').
Proof.
  induction l as [|q l IH]; intros p b' H I E; [destruct I|]. cbn.
  destruct (bmatch M b f q) as [c|] eqn:Eq.
  - assert (q = p) as -> by (eapply H; cbn; eauto). congruence.
  - destruct I as [->|I]; [congruence|]. apply IH; auto. intros; eapply H; cbn; eauto.
Qed.
Lemma first_match_without : forall b f l p, (forall q c, In q l -> bmatch M b f q = Some c -> q = p) ->
  ~ In p l -> first_match M b f l = None.
Proof.
  induction l as [|q l IH]; intros p H I; auto. cbn.
  destruct (bmatch M b f q) as [c|] eqn:Eq.
  - destruct I. left. eapply H; cbn; eauto.
  - apply (IH p); [intros; eapply H; cbn; eauto|]. intros J. apply I. cbn. auto.
Qed.

Lemma bind_only : forall (o : ovl) x p b, only_fits M C x p -> (forall q, In q (ax o ++ nax o) -> In q (patterns C)) ->
  sims_of x = [] -> In p (ax o ++ nax o) ->
  bmatch M (if match saved o with [] => true | _ => false end then breset M (bnd o) (object_of x) else bnd o) (object_of x) p = Some b ->
  exists i, bind_pattern M o x = Some (p, i, b).
Proof.
  intros o x p b On Pat Ns I E. unfold bind_pattern, start_map.
  assert (simulation_of x = None) as ->.
  { unfold simulation_of, sims_of in *. destruct (ipred x); auto. now rewrite Ns. }
  assert (match axi o with [] => match naxi o with [] => true | _ => false end | _ => false end = match saved o with [] => true | _ => false end) as ->.
  { unfold saved. now destruct (axi o), (naxi o). }
  set (b0 := if match saved o with [] => true | _ :: _ => false end then _ else _) in *.
  assert (forall q c, In q (ax o) \/ In q (nax o) -> bmatch M b0 (object_of x) q = Some c -> q = p) as Q.
  { intros q c Hq Eq. eapply On; [|exact Eq]. apply Pat, in_app_iff. exact Hq. }
  destruct (in_dec Nat.eq_dec p (ax o)) as [Ia|Ia].
  - rewrite (first_match_only _ _ _ p b); eauto.
  - apply in_app_iff in I as [I|I]; [contradiction|].
    rewrite (first_match_without _ _ (ax o) p); eauto. rewrite (first_match_only _ _ _ p b); eauto.
Qed.

Lemma fitted_length : forall b xs ps b', fitted M b xs ps b' -> length xs = length ps.
Proof. induction 1; auto. rewrite !app_length. cbn. lia. Qed.

Lemma fitted_snoc : forall b xs x ps b', fitted M b (xs ++ [x]) ps b' -> sims_of x = [] -> exists ps0 p b1, ps = ps0 ++ [p] /\
  fitted M b xs ps0 b1 /\ bmatch M (if match xs with [] => true | _ => false end then breset M b1 (object_of x) else b1) (object_of x) p = Some b'.
Proof.
  intros b xs x ps b' F Ns. remember (xs ++ [x]) as l eqn:E1.
  destruct F as [b|b xs0 ps0 b1 x0 p b2 F0 H]; [destruct xs; discriminate|].
  apply app_inj_tail in E1 as [-> ->]. exists ps0, p, b1. split; auto. split; auto.
  assert (simulation_of x = None) as Z0.
  { unfold simulation_of, sims_of in *. destruct (ipred x); auto. now rewrite Ns. }
  destruct H as [[H1 H2]|[[H1|H1] H2]]; try congruence.
  - destruct xs; congruence.
  - subst. exact H2.
Qed.

(** The facts chosen are alive and in time when the last one arrives. *)
Definition in_time (s : list event) (e : event) : Prop :=
  Forall (fun a => no_return a e) s /\ Forall (fun a => dead e (fptr (arrived a)) = false) s.

Lemma in_time_prefix : forall s a e, in_time (s ++ [a]) e -> orderly (s ++ [a]) -> in_time s a /\ no_return a e /\ dead a (fptr (arrived a)) = false.
Proof.
  intros s a e [T1 T2] Or. apply orderly_snoc in Or as [Or N]. apply Forall_app in T1 as [T1 T1']. apply Forall_app in T2 as [T2 T2'].
  inversion T1' as [|? ? T3 _]; inversion T2' as [|? ? T4 _]; subst. repeat split; auto.
  - rewrite Forall_forall in *. intros y Hy. specialize (T2 y Hy). destruct (dead a (fptr (arrived y))) eqn:D; auto.
    destruct T3 as [_ T3]. now rewrite (T3 _ D) in T2.
  - apply T3.
  - apply T3.
  - destruct (dead a (fptr (arrived a))) eqn:D; auto. destruct T3 as [_ T3]. now rewrite (T3 _ D) in T4.
Qed.

Notation windowed := (open_at M C).

Lemma saved_nil : forall (o : ovl) s, Permutation (saved o) (map arrived s) ->
  match saved o with [] => true | _ => false end = match map arrived s with [] => true | _ => false end.
Proof.
  intros o s P. destruct (saved o) eqn:E.
  - apply Permutation_nil in P. now rewrite P.
  - destruct (map arrived s); auto. symmetry in P. apply Permutation_nil in P. discriminate.
Qed.

Lemma ok_of : forall s o ps e, built M C s o ps -> In o (chain s) -> in_time s e -> windowed s (now e) ->
  ok e o = true.
Proof.
  intros s o ps e Bt Hc [T1 T2] W. destruct Bt as [Fi P I N K]. unfold ok. rewrite K. cbn [negb].
  rewrite andb_true_r. apply andb_true_iff. split.
  - unfold can_match. destruct s as [|e1 r].
    + destruct Hc as [<-|[]]. reflexivity.
    + destruct (chain_deadline M C root root_root _ o Hc) as (e1' & r' & p1 & b1 & E & F & D); [discriminate|].
      inversion E; subst. destruct (W p1 b1 F) as [W1 W2]. rewrite D by lia.
      destruct (_ =? 0)%Z; auto. apply Z.leb_le. lia.
  - apply forallb_forall. intros y Hy. apply (Permutation_in y I), in_map_iff in Hy as [a [<- Ha]].
    rewrite Forall_forall in T2. now rewrite (T2 a Ha).
Qed.
Lemma fresh_of : forall e (o : ovl) s, Permutation (saved o) (map arrived s) -> ~ In (fptr (arrived e)) (map fptr (map arrived s)) ->
  fresh e o = true.
Proof.
  intros e o s P H. unfold fresh. apply negb_true_iff. destruct (existsb _ _) eqn:E; auto.
  apply existsb_exists in E as [y [Hy Ey]]. apply Nat.eqb_eq in Ey. destruct H.
  rewrite <- (Permutation_map fptr P). apply in_map_iff. exists y. auto.
Qed.

Lemma windowed_less : forall s a t t', windowed (s ++ [a]) t -> (t' <= t)%Z -> windowed s t'.
Proof.
  intros [|e1 r] a t t' W L; cbn; auto. intros p1 b1 F. cbn in W. destruct (W p1 b1 F). lia.
Qed.

Lemma snoc_nodup {A} : forall (l : list A) x, NoDup (l ++ [x]) -> NoDup l /\ ~ In x l.
Proof.
  intros l x H. apply NoDup_rev in H. rewrite rev_app_distr in H. cbn in H. inversion H as [|? ? H1 H2]; subst.
  apply NoDup_rev in H2. rewrite rev_involutive in H2. rewrite <- in_rev in H1. auto.
Qed.

Lemma chain_complete : forall s ps b rest, orderly s ->
  (forall e, In e s -> sims_of (arrived e) = []) ->
  Forall2 (fun e p => only_fits M C (arrived e) p) s ps ->
  NoDup (map fptr (map arrived s)) ->
  fitted M (initial C) (map arrived s) ps b ->
  Permutation (ps ++ rest) (patterns C) -> rest <> [] ->
  (exists e, in_time s e /\ windowed s (now e)) ->
  exists o, In o (chain s) /\ bnd o = b /\ Permutation (ax o ++ nax o) rest /\ built M C s o ps.
Proof.
  induction s as [|a s IH] using rev_ind; intros ps b rest Or Ns Of Nd F P Rn [e [T W]].
  - exists (master C). pose proof (fitted_length _ _ _ _ F) as L. destruct ps; [|discriminate].
    assert (b = initial C) as ->.
    { remember (map arrived []) as l eqn:E1. destruct F as [|? xs0]; [reflexivity|destruct xs0; discriminate]. }
    cbn in P.
    split; [cbn; auto|]. split; auto. split; [symmetry; exact P|]. split; cbn; auto; constructor.
  - assert (sims_of (arrived a) = []) as Na by (apply Ns, in_app_iff; cbn; auto).
    rewrite map_app in F. cbn [map] in F. apply fitted_snoc in F as (ps0 & p & b1 & -> & F0 & Mt); auto.
    apply Forall2_app_inv_l in Of as (l1 & l2 & Of1 & Of2 & El).
    assert (l1 = ps0 /\ l2 = [p]) as [-> ->].
    { inversion Of2 as [|? p' ? l2' Op Ol]; subst. inversion Ol; subst. apply app_inj_tail in El as [-> ->]. auto. }
    inversion Of2 as [|? ? ? ? Oa _]; subst.
    rewrite !map_app in Nd. cbn [map] in Nd. apply snoc_nodup in Nd as [Nd Nx].
    destruct (in_time_prefix _ _ _ T Or) as (T1 & N1 & D1).
    assert (windowed s (now a)) as W1 by (eapply windowed_less; [exact W|apply N1]).
    pose proof Or as Or'. apply orderly_snoc in Or' as [Or' _].
    rewrite <- app_assoc in P. cbn [app] in P.
    destruct (IH ps0 b1 (p :: rest) Or') as (o & Hc & <- & Hr & Bt); auto; try discriminate.
    { intros x Hx. apply Ns, in_app_iff. auto. }
    { exists a. auto. }
    assert (ok a o = true) as O by (eapply ok_of; eauto).
    pose proof (b_in _ _ _ _ _ Bt) as I.
    assert (fresh a o = true) as Fr by (eapply fresh_of; eauto).
    rewrite <- (saved_nil o s I) in Mt.
    destruct (bind_only o (arrived a) p b Oa) as [i Bd]; auto.
    { intros q Hq. eapply Permutation_in; [exact P|]. apply in_app_iff. right. eapply Permutation_in; [exact Hr|exact Hq]. }
    { eapply Permutation_in; [symmetry; exact Hr|]. cbn; auto. }
    exists (take b (arrived a) i (Some p) o).
    assert (In (take b (arrived a) i (Some p) o) (chain (s ++ [a]))) as Hin.
    { rewrite chain_snoc. apply in_flat_map. exists o. split; auto. unfold Cst_proofs.ext. rewrite D1, O, Fr. cbn [andb]. rewrite Bd.
      assert (length (ax o) + length (nax o) <> 1) as L.
      { rewrite <- app_length, (Permutation_length Hr). cbn. destruct rest; [congruence|]. cbn. lia. }
      apply Nat.eqb_neq in L. rewrite L. cbn; auto. }
    split; [exact Hin|]. split; [apply take_bnd|].
    assert (Permutation (ax (take b (arrived a) i (Some p) o) ++ nax (take b (arrived a) i (Some p) o)) rest) as Hr'.
    { rewrite take_ax, take_nax. apply (bind_some M root root_root) in Bd as [Ip _].
      apply (@Permutation_cons_inv nat _ _ p). etransitivity; [|exact Hr]. destruct i.
      - change (p :: remove1 p (ax o) ++ nax o) with ((p :: remove1 p (ax o)) ++ nax o).
        apply Permutation_app_tail. now apply remove1_perm.
      - rewrite Permutation_middle. apply Permutation_app_head. now apply remove1_perm. }
    split; [exact Hr'|].
    destruct (chain_built M C root root_root _ _ Hin) as [ps' Bt'].
    pose proof (fit_step M C root root_root _ _ _ _ _ _ _ Bt Bd) as Fit. destruct Bt as [Fi Pp Ii Nn K].
    split.
    + now rewrite take_bnd.
    + rewrite <- app_assoc. cbn [app]. rewrite Hr'. exact P.
    + rewrite take_saved, map_app. apply Permutation_app_tail. exact I.
    + rewrite !map_app. cbn [map]. now apply NoDup_snoc.
    + now rewrite take_inval.
Qed.

Lemma prods_complete : forall s e ps b, orderly (s ++ [e]) ->
  (forall a, In a (s ++ [e]) -> sims_of (arrived a) = []) ->
  Forall2 (fun a p => only_fits M C (arrived a) p) (s ++ [e]) ps ->
  NoDup (map fptr (map arrived (s ++ [e]))) ->
  fitted M (initial C) (map arrived (s ++ [e])) ps b ->
  Permutation ps (patterns C) ->
  Forall (fun a => dead e (fptr (arrived a)) = false) (s ++ [e]) ->
  windowed s (now e) ->
  exists q, In q (prods (s ++ [e])) /\ pbnd q = b /\ Permutation (components q) (map arrived (s ++ [e])).
Proof.
  intros s e ps b Or Ns Of Nd F P Lv W.
  assert (sims_of (arrived e) = []) as Na by (apply Ns, in_app_iff; cbn; auto).
  rewrite map_app in F. cbn [map] in F. apply fitted_snoc in F as (ps0 & p & b1 & -> & F0 & Mt); auto.
  apply Forall2_app_inv_l in Of as (l1 & l2 & Of1 & Of2 & El).
  assert (l1 = ps0 /\ l2 = [p]) as [-> ->].
  { inversion Of2 as [|? p' ? l2' Op Ol]; subst. inversion Ol; subst. apply app_inj_tail in El as [-> ->]. auto. }
  inversion Of2 as [|? ? ? ? Oa _]; subst.
  rewrite !map_app in Nd. cbn [map] in Nd. apply snoc_nodup in Nd as [Nd Nx].
  apply orderly_snoc in Or as [Or N]. apply Forall_app in Lv as [Lv Le]. inversion Le as [|? ? D1 _]; subst.
  assert (in_time s e) as T by (split; auto).
  destruct (chain_complete s ps0 b1 [p] Or) as (o & Hc & <- & Hr & Bt); auto; try discriminate.
  { intros x Hx. apply Ns, in_app_iff. auto. }
  { exists e. auto. }
  assert (ok e o = true) as O by (eapply ok_of; eauto).
  pose proof (b_in _ _ _ _ _ Bt) as I.
  assert (fresh e o = true) as Fr by (eapply fresh_of; eauto).
  rewrite <- (saved_nil o s I) in Mt.
  destruct (bind_only o (arrived e) p b Oa) as [i Bd]; auto.
  { intros q Hq. eapply Permutation_in; [exact P|]. apply in_app_iff. right. eapply Permutation_in; [exact Hr|exact Hq]. }
  { eapply Permutation_in; [symmetry; exact Hr|]. cbn; auto. }
  exists (inject_production C (arrived e) (take b (arrived e) i None o)).
  destruct (prod_fields C (arrived e) (take b (arrived e) i None o)) as (E1 & E2 & _). rewrite E1, E2, take_bnd.
  split; [|split; [reflexivity|rewrite take_saved, map_app; now apply Permutation_app_tail]].
  rewrite prods_snoc. apply in_flat_map. exists o. split; auto. unfold Cst_proofs.mk. rewrite D1, O, Fr. cbn [andb]. rewrite Bd.
  assert (length (ax o) + length (nax o) = 1) as L.
  { now rewrite <- app_length, (Permutation_length Hr). }
  apply Nat.eqb_eq in L. rewrite L. cbn; auto.
Qed.

(** ** Uniqueness *)
Lemma fop_app {A} (R : A -> A -> Prop) : forall l1 l2, ForallOrdPairs R (l1 ++ l2) <->
  ForallOrdPairs R l1 /\ ForallOrdPairs R l2 /\ forall x y, In x l1 -> In y l2 -> R x y.
Proof.
  induction l1 as [|a l1 IH]; intros l2; cbn.
  - split; [intros H; repeat split; [constructor|exact H|intros ? ? []]|tauto].
  - split.
    + intros H. inversion H as [|? ? H1 H2]; subst. apply Forall_app in H1 as [H1 H3]. apply IH in H2 as (H4 & H5 & H6).
      repeat split; [constructor; auto|auto|]. intros x y [<-|Hx] Hy; auto. rewrite Forall_forall in H3. auto.
    + intros (H1 & H2 & H3). inversion H1 as [|? ? H4 H5]; subst. constructor.
      * apply Forall_app. split; auto. apply Forall_forall. intros y Hy. apply H3; auto.
      * apply IH. repeat split; auto.
Qed.
Lemma fop_perm {A} (R : A -> A -> Prop) : (forall x y, R x y -> R y x) ->
  forall l l', Permutation l l' -> ForallOrdPairs R l -> ForallOrdPairs R l'.
Proof.
  intros Sy. induction 1 as [|a l l' Hp IH|a c l|l l1 l2 Hp IH Hp2 IH2]; intros H; auto.
  - inversion H as [|? ? H1 H2]; subst. constructor; auto. rewrite Forall_forall in *. intros y Hy. apply H1.
    eapply Permutation_in; [symmetry; eassumption|exact Hy].
  - inversion H as [|? ? H1 H2]; subst. inversion H2 as [|? ? H3 H4]; subst. inversion H1; subst.
    constructor; [constructor; auto|]. constructor; auto.
Qed.

Lemma subs_different : forall es : list event, NoDup (map fptr (map arrived es)) ->
  ForallOrdPairs (fun s s' => ~ Permutation (map fptr (map arrived s)) (map fptr (map arrived s'))) (subs es).
Proof.
  induction es as [|e es IH]; intros N; cbn [subs].
  - repeat constructor.
  - inversion N as [|? ? N1 N2]; subst. specialize (IH N2). apply fop_app. split; [auto|]. split.
    + clear - IH. induction IH as [|s l H1 H2 IH2]; cbn; constructor; auto.
      apply Forall_forall. intros s' H. apply in_map_iff in H as [t [<- Ht]]. rewrite Forall_forall in H1.
      cbn. intros P. apply Permutation_cons_inv in P. exact (H1 t Ht P).
    + intros s s' Hs Hs' P. apply in_map_iff in Hs' as [t [<- Ht]]. cbn in P.
      assert (In (fptr (arrived e)) (map fptr (map arrived s))) as X by (eapply Permutation_in; [symmetry; exact P|cbn; auto]).
      apply N1. apply subs_subseq in Hs. clear - X Hs. induction Hs; cbn in *; [destruct X| |auto].
      destruct X as [X|X]; auto.
Qed.

Lemma chain_single : forall s, length (chain s) <= 1.
Proof.
  induction s as [|e s IH] using rev_ind; [cbn; lia|]. rewrite chain_snoc. destruct (chain s) as [|o [|]]; cbn in *; try lia.
  rewrite app_nil_r. unfold Cst_proofs.ext. destruct (dead _ _); [cbn; lia|]. destruct (_ && _); [|cbn; lia].
  destruct (bind_pattern _ _ _) as [[[p i] b]|]; [|cbn; lia]. destruct (_ =? 1); cbn; lia.
Qed.
Lemma prods_single : forall s, length (prods s) <= 1.
Proof.
  intros s. destruct s as [|e s _] using rev_ind; [cbn; lia|]. rewrite prods_snoc.
  pose proof (chain_single s) as L. destruct (chain s) as [|o [|]]; cbn in *; try lia.
  rewrite app_nil_r. unfold Cst_proofs.mk. destruct (dead _ _); [cbn; lia|]. destruct (_ && _); [|cbn; lia].
  destruct (bind_pattern _ _ _) as [[[p i] b]|]; [|cbn; lia]. destruct (_ =? 1); cbn; lia.
Qed.

Lemma productions_different : forall es, orderly es -> NoDup (map fptr (map arrived es)) -> all_different (productions es).
Proof.
  intros es Or N. unfold all_different.
  eapply fop_perm; [|symmetry; apply productions_exact; exact Or|].
  { intros x y H P. apply H. now symmetry. }
  pose proof (subs_different es N) as D. induction D as [|s l H1 H2 IH]; cbn; [constructor|].
  apply fop_app. split; [|split; [exact IH|]].
  - pose proof (prods_single s) as L. destruct (prods s) as [|q [|]]; cbn in L; try lia; repeat constructor.
  - intros q q' Hq Hq' P. apply in_flat_map in Hq' as [s' [Hs' Hq']]. rewrite Forall_forall in H1. apply (H1 s' Hs').
    destruct (prods_sound M C root root_root s q Hq) as (_ & _ & _ & _ & _ & _ & P1 & _).
    destruct (prods_sound M C root root_root s' q' Hq') as (_ & _ & _ & _ & _ & _ & P2 & _).
    rewrite <- (Permutation_map fptr P1), <- (Permutation_map fptr P2). exact P.
Qed.

End Proofs.

Section Statements.
Context {B : Type} (M : binder B) (C : cst B) (root root_root : nat -> nat).
Notation productions := (productions M C root root_root).
Lemma orderly_sub : forall s es, subseq s es -> orderly es -> orderly s.
Proof.
  unfold orderly. induction 1 as [l|x s l H IH|x s l H IH]; intros O; [constructor| |];
    inversion O as [|? ? O1 O2]; subst; auto. constructor; auto.
  clear - H O1. induction H; auto; inversion O1; subst; auto.
Qed.
Lemma instance_sound : forall es q, orderly es -> In q (productions es) -> exists s e ps,
  subseq (s ++ [e]) es /\ Permutation ps (patterns C) /\ fitted M (initial C) (map arrived (s ++ [e])) ps (pbnd q) /\
  Permutation (components q) (map arrived (s ++ [e])) /\ NoDup (parts q) /\
  Forall (fun x => dead e (ptr (ifact x)) = false) (components q).
Proof.
  intros es q Or H. apply production_choice in H as [s [Hs H]]; auto.
  destruct (prods_sound M C root root_root s q H) as (ps & e & s' & -> & H1 & H2 & H3 & H4 & H5).
  exists s', e, ps. auto 10.
Qed.
Lemma every_combination : forall es s e ps b, orderly es -> subseq (s ++ [e]) es ->
  (forall a, In a (s ++ [e]) -> ~ simulated (arrived a)) ->
  Forall2 (fun a p => only_fits M C (arrived a) p) (s ++ [e]) ps ->
  each_once (s ++ [e]) ->
  fitted M (initial C) (map arrived (s ++ [e])) ps b ->
  Permutation ps (patterns C) ->
  Forall (fun a => dead e (ptr (ifact (arrived a))) = false) (s ++ [e]) ->
  open_at M C s (now e) ->
  exists q, In q (productions es) /\ pbnd q = b /\ Permutation (components q) (map arrived (s ++ [e])).
Proof.
  intros es s e ps b Or Sb Ns Of Nd F P Lv W.
  destruct (prods_complete M C root root_root s e ps b) as (q & H1 & H2 & H3); auto.
  - eapply orderly_sub; eauto.
  - intros a Ha. specialize (Ns a Ha). rewrite simulated_sims in Ns. destruct (sims_of (arrived a)); auto. destruct Ns; discriminate.
  - exists q. split; auto. apply production_choice; eauto.
Qed.
Lemma instance_lowest : forall es q, orderly es -> (forall e, In e es -> proper (confidence (arrived e))) -> In q (productions es) ->
  Forall (fun x => fle (plow q) (confidence x) = true) (components q) /\
  (plow q = fone \/ exists x, In x (components q) /\ plow q = confidence x).
Proof.
  intros es q Or Pr H. apply production_choice in H as [s [Hs H]]; auto.
  apply (prod_lowest M C root root_root s); auto. apply Forall_forall. intros x Hx. apply in_map_iff in Hx as [e [<- He]].
  apply Pr. clear - Hs He. induction Hs; cbn in *; intuition.
Qed.
Lemma instance_injected : forall es q, orderly es -> In q (productions es) ->
  (mode q = Stated -> injections q =
     (if flt (thr1 C) (plow q) then (0, fone) :: map (fun i => (2 + i, fone)) (seq 0 (outs C)) else []) ++
     (if flt (thr2 C) (plow q) then [(1, fone)] else [])) /\
  (mode q <> Stated -> injections q = if flt (thr1 C) (plow q) then [(0, plow q)] else []).
Proof. intros es q Or H. apply production_choice in H as [s [Hs H]]; auto. eapply prod_injected; eauto. Qed.
Lemma instance_mode : forall es q, orderly es -> In q (productions es) ->
  match mode q with
  | Stated => Forall (fun x => ~ predicted x) (components q)
  | PredictedFrom g =>
      Forall (fun x => ~ simulated x) (components q) /\ Exists predicted (components q) /\
      (forall i, In i g <-> exists x, In x (components q) /\ predicted x /\ i = ptr (ifact x))
  | Simulated ss _ =>
      Exists simulated (components q) /\ ss <> [] /\ (forall k, In k ss -> exists x, In x (components q) /\ In k (sims_of x))
  end.
Proof.
  intros es q Or H. apply production_choice in H as [s [Hs H]]; auto.
  destruct (prod_simulated M C root root_root s q H) as [S1 S2].
  pose proof (prod_stated M C root root_root s q H) as St.
  destruct (mode q) as [|g|ss vs] eqn:Md.
  - now apply St.
  - destruct (prod_predicted M C root root_root s q g H Md) as [P1 P2]. split; [auto|]. split; auto.
    apply Exists_exists. destruct (prod_moded M C root root_root s q H) as (o & e & Mo & -> & _ & _ & E).
    unfold inject_production in *. destruct (sims o); [|discriminate]. destruct (preds o) as [|k ks]; [discriminate|].
    cbn [mode] in Md. inversion Md; subst. destruct (proj1 (P2 k)) as [x [Hx [Px _]]]; [cbn; auto|]. eauto.
  - assert (Exists simulated (components q)) as E by (apply Exists_exists; apply S1; eauto).
    split; auto. split; [|eapply S2; reflexivity].
    destruct (prod_moded M C root root_root s q H) as (o & e & Mo & -> & _ & _ & _).
    unfold inject_production in Md. destruct (sims o) as [|k ks]; [destruct (preds o); discriminate|].
    cbn [mode] in Md. inversion Md. discriminate.
Qed.
Lemma instance_unmixed : forall es q, orderly es -> (forall e, In e es -> length (sims_of (arrived e)) <= 1) -> In q (productions es) ->
  forall x y k, In x (components q) -> In y (components q) -> In k (sims_of x) -> simulated y -> In k (sims_of y).
Proof.
  intros es q Or Pr H. apply production_choice in H as [s [Hs H]]; auto.
  apply (prod_unmixed M C root root_root s q); auto. apply Forall_forall. intros x Hx. apply in_map_iff in Hx as [e [<- He]].
  apply Pr. clear - Hs He. induction Hs; cbn in *; intuition.
Qed.
Lemma instance_validities : forall es q ss vs, orderly es -> In q (productions es) -> mode q = Simulated ss vs ->
  (forall e, In e es -> predicted (arrived e)) ->
  forall v, In v vs <-> exists x, In x (components q) /\ In v (validities_of x).
Proof.
  intros es q ss vs Or H Md Pr. apply production_choice in H as [s [Hs H]]; auto.
  destruct (prods_inv M C root root_root _ _ H) as (s' & e & o & ps & -> & _).
  eapply prod_validities; eauto. apply Pr.
  clear - Hs. remember (s' ++ [e]) as s eqn:E. revert s' E. induction Hs as [l|x s l H IH|x s l H IH]; intros s' E.
  - destruct s'; discriminate.
  - destruct s' as [|y s']; cbn in E; inversion E; subst; cbn; auto. right. eapply IH; eauto.
  - right. eapply IH; eauto.
Qed.
Lemma instance_in_time : forall es q, orderly es -> In q (productions es) -> exists e1 r p1 b1,
  subseq (e1 :: r) es /\ Permutation (components q) (map arrived (e1 :: r)) /\ fitted M (initial C) [arrived e1] [p1] b1 /\
  (fwd_before M b1 <> 0%Z -> Forall (fun e => (now e <= fwd_before M b1)%Z) r).
Proof.
  intros es q Or H. apply production_choice in H as [s [Hs H]]; auto.
  destruct (prods_sound M C root root_root s q H) as (_ & _ & _ & _ & _ & _ & P & _).
  destruct (prods_in_time M C root root_root s q H) as (e1 & r & p1 & b1 & -> & F & T).
  exists e1, r, p1, b1. repeat split; auto. intros Z0. destruct r as [|a r]; [constructor|].
  specialize (T ltac:(discriminate) Z0 e1). apply (orderly_sub _ _ Hs) in Or.
  inversion Or as [|? ? _ Or']; subst. clear - T Or'.
  destruct (exists_last (l := a :: r)) as [l [z E]]; [discriminate|]. rewrite E in *. rewrite last_last in T.
  apply orderly_snoc in Or' as [_ N]. apply Forall_app. split; [|constructor; auto].
  eapply Forall_impl; [|exact N]. cbn. intros c [Hc _]. lia.
Qed.
End Statements.

(** ** Guards are not looked at *)
Section Guards.
Context {B : Type} (M : binder B) (C C' : cst B) (root root_root : nat -> nat).
Lemma reduce_guards : same_but_guards C C' -> forall d x o, good o -> reduce M C root root_root d x o = reduce M C' root root_root d x o.
Proof.
  intros (E1 & E2 & E3 & E4 & E5 & E6) d x o G. unfold reduce. destruct (d _); auto. destruct (visit _ _ _); auto.
  destruct (bind_pattern M o x) as [[[p i] b]|]; auto. destruct (_ =? 1); auto. rewrite G. cbn [negb].
  do 2 f_equal. unfold inject_production, inject_stated, inject_predicted. rewrite E4, E5, E6.
  destruct (sims _); [destruct (preds _)|]; reflexivity.
Qed.
Lemma run_guards : same_but_guards C C' -> forall es l, Forall good l -> run M C root root_root l es = run M C' root root_root l es.
Proof.
  intros S0. induction es as [|e es IH]; intros l G; auto. cbn [run].
  assert (step M C root root_root l e = step M C' root root_root l e) as E.
  { unfold step. destruct (dead _ _); auto.
    assert (visit_all M C root root_root (now e) (dead e) (arrived e) l = visit_all M C' root root_root (now e) (dead e) (arrived e) l) as ->; auto.
    induction G as [|o l Go Gl IHl]; cbn; auto. rewrite IHl, (reduce_guards S0) by auto. reflexivity. }
  pose proof (step_good M C root root_root l e G) as G1. rewrite E in *.
  destruct (step M C' root root_root l e) as [l1 p1]. cbn [fst] in G1. now rewrite IH.
Qed.
Lemma productions_guards : same_but_guards C C' -> forall es, productions M C root root_root es = productions M C' root root_root es.
Proof.
  intros S0 es. unfold productions. rewrite (run_guards S0) by (repeat constructor).
  destruct S0 as (E1 & E2 & E3 & _). unfold master. now rewrite E1, E2, E3.
Qed.
End Guards.

(** ** Witnesses: the map is the common time interval; fact 10+k fits pattern k,
    fact 20 fits patterns 0 and 1. *)
Definition wfits (f : fact) (p : nat) : bool :=
  match ptr f, p with 10, 0 | 11, 1 | 20, 0 | 20, 1 => true | _, _ => false end.
Definition wmatch (b : Z * Z) (f : fact) (p : nat) : option (Z * Z) :=
  if wfits f p && (Z.max (fst b) (after f) <? Z.min (snd b) (before f))%Z
  then Some (Z.max (fst b) (after f), Z.min (snd b) (before f)) else None.
Definition W : binder (Z * Z) := mkbinder _ wmatch (fun _ f => (after f, before f)) fst snd.
Definition half : spec_float := S754_finite false 8388608 (-24).
Definition wcst : cst (Z * Z) := mkcst _ [] [0; 1] (0, 0)%Z (fun _ => None) fzero fzero 1.
Definition at_time (t : Z) (x : input) : event := mkev t (fun _ => false) x.
Definition plain (k : nat) (a b : Z) : input := mkinput (mkfact k a b half) None.
Definition foreseen (k : nat) (a b : Z) (ss vs : list nat) : input :=
  mkinput (mkfact k 5 5 fone) (Some (mkpred (mkfact k a b half) ss vs)).
Definition wid (n : nat) : nat := n.

Definition w_two : list event := [at_time 5 (plain 10 0 100); at_time 6 (plain 11 0 100)].
Definition w_missed : list event := [at_time 5 (plain 20 0 100); at_time 6 (plain 10 0 100)].
Definition w_twice : list event := [at_time 5 (plain 10 0 100); at_time 6 (plain 11 0 100); at_time 7 (plain 11 0 100)].
Definition w_mixed : list event := [at_time 5 (foreseen 10 0 100 [1] []); at_time 6 (foreseen 11 0 100 [2; 3] [])].
Definition w_dropped : list event := [at_time 5 (foreseen 10 0 100 [1] [7]); at_time 6 (plain 11 0 100)].
Definition w_late : list event := [at_time 5 (plain 10 0 100); at_time 50 (plain 11 0 10)].

Lemma orderly_times : forall l : list (Z * input), ForallOrdPairs (fun a b => (fst a <= fst b)%Z) l ->
  orderly (map (fun a => at_time (fst a) (snd a)) l).
Proof.
  unfold orderly. induction 1 as [|a l H1 H2 IH]; cbn; constructor; auto.
  apply Forall_forall. intros e He. apply in_map_iff in He as [c [<- Hc]]. rewrite Forall_forall in H1.
  split; cbn; auto.
Qed.
Ltac orderly_t l := apply (orderly_times l); repeat (constructor; cbn; try lia).

Lemma w_two_orderly : orderly w_two.
Proof. orderly_t [(5%Z, plain 10 0 100); (6%Z, plain 11 0 100)]. Qed.
Lemma w_missed_orderly : orderly w_missed.
Proof. orderly_t [(5%Z, plain 20 0 100); (6%Z, plain 10 0 100)]. Qed.
Lemma w_twice_orderly : orderly w_twice.
Proof. orderly_t [(5%Z, plain 10 0 100); (6%Z, plain 11 0 100); (7%Z, plain 11 0 100)]. Qed.
Lemma w_mixed_orderly : orderly w_mixed.
Proof. orderly_t [(5%Z, foreseen 10 0 100 [1] []); (6%Z, foreseen 11 0 100 [2; 3] [])]. Qed.
Lemma w_dropped_orderly : orderly w_dropped.
Proof. orderly_t [(5%Z, foreseen 10 0 100 [1] [7]); (6%Z, plain 11 0 100)]. Qed.
Lemma w_late_orderly : orderly w_late.
Proof. orderly_t [(5%Z, plain 10 0 100); (50%Z, plain 11 0 10)]. Qed.

Lemma w_two_made : productions W wcst wid wid w_two =
  [mkprod (0, 100)%Z [plain 10 0 100; plain 11 0 100] fone Stated half [(0, fone); (2, fone); (1, fone)]].
Proof. vm_compute. reflexivity. Qed.
Lemma w_missed_made : productions W wcst wid wid w_missed = [].
Proof. vm_compute. reflexivity. Qed.
Lemma w_twice_made : map parts (productions W wcst wid wid w_twice) = [[10; 11]; [10; 11]].
Proof. vm_compute. reflexivity. Qed.
Lemma w_mixed_made : exists q, In q (productions W wcst wid wid w_mixed) /\
  components q = [foreseen 10 0 100 [1] []; foreseen 11 0 100 [2; 3] []].
Proof. eexists. split; [left; vm_compute; reflexivity|reflexivity]. Qed.
Lemma w_dropped_made : exists q, In q (productions W wcst wid wid w_dropped) /\
  components q = [foreseen 10 0 100 [1] [7]; plain 11 0 100] /\ mode q = Simulated [1] [].
Proof. eexists. split; [left; vm_compute; reflexivity|split; reflexivity]. Qed.
Lemma w_late_made : exists q, In q (productions W wcst wid wid w_late) /\ pbnd q = (0, 10)%Z.
Proof. eexists. split; [left; vm_compute; reflexivity|reflexivity]. Qed.

Lemma fitted_two : forall (x y : input) p q b1 b2,
  bmatch W (breset W (0, 0)%Z (object_of x)) (object_of x) p = Some b1 -> bmatch W b1 (object_of y) q = Some b2 ->
  fitted W (0, 0)%Z [x; y] [p; q] b2.
Proof.
  intros x y p q b1 b2 H1 H2. apply (fit_more W (0, 0)%Z [x] [p] b1 y q b2).
  - apply (fit_more W (0, 0)%Z [] [] (0, 0)%Z x p b1); [constructor|]. right. auto.
  - left. split; [discriminate|auto].
Qed.
Lemma open_first : forall x a b r t, object_of x = mkfact (ptr (object_of x)) a b half -> (0 < b)%Z -> (t <= b)%Z ->
  open_at W wcst (at_time 5 x :: r) t.
Proof.
  intros x a b r t Ex Hb Ht p1 b1 F. cbn [arrived at_time] in F.
  remember [x] as xl eqn:E1. remember [p1] as pl eqn:E2.
  destruct F as [b0|b0 xs ps b' x0 p0 b2 F0 H]; [discriminate|].
  destruct xs as [|z zs]; [|destruct zs; discriminate]. inversion E1; subst x0. clear E1.
  destruct H as [[H _]|[_ H]]; [congruence|]. cbn in H. unfold wmatch in H. rewrite Ex in H. cbn in H.
  destruct (_ && _); [|discriminate]. inversion H; subst. cbn. lia.
Qed.
Lemma combination_missed : exists es ps b,
  orderly es /\ fitted W (initial wcst) (map arrived es) ps b /\ Permutation ps (patterns wcst) /\
  (forall e, In e es -> ~ simulated (arrived e)) /\ each_once es /\
  (forall e i, In e es -> dead e i = false) /\ open_at W wcst es 6 /\
  productions W wcst wid wid es = [].
Proof.
  exists w_missed, [1; 0], (0, 100)%Z. split; [exact w_missed_orderly|]. split; [|split; [|split; [|split; [|split; [|split]]]]].
  - eapply fitted_two; reflexivity.
  - cbn. apply perm_swap.
  - intros e [<-|[<-|[]]] [p [E _]]; discriminate.
  - repeat constructor; cbn; intuition lia.
  - intros e i [<-|[<-|[]]]; reflexivity.
  - apply (open_first _ 0 100); [reflexivity|lia|lia].
  - exact w_missed_made.
Qed.
Lemma combination_example : exists ps b,
  (forall a, In a w_two -> ~ simulated (arrived a)) /\ Forall2 (fun a p => only_fits W wcst (arrived a) p) w_two ps /\
  each_once w_two /\ fitted W (initial wcst) (map arrived w_two) ps b /\ Permutation ps (patterns wcst) /\
  open_at W wcst [at_time 5 (plain 10 0 100)] 6.
Proof.
  exists [0; 1], (0, 100)%Z. split; [|split; [|split; [|split; [|split]]]].
  - intros e [<-|[<-|[]]] [p [E _]]; discriminate.
  - repeat constructor; intros b q b' [<-|[<-|[]]] H; auto; discriminate.
  - repeat constructor; cbn; intuition lia.
  - eapply fitted_two; reflexivity.
  - cbn. auto.
  - apply (open_first _ 0 100); [reflexivity|lia|lia].
Qed.
Lemma combination_twice : exists es, orderly es /\ ~ all_different (productions W wcst wid wid es).
Proof.
  exists w_twice. split; [exact w_twice_orderly|]. pose proof w_twice_made as E. unfold all_different.
  destruct (productions W wcst wid wid w_twice) as [|p [|q l]]; try discriminate. cbn in E. inversion E as [[E1 E2 E3]].
  intros H. inversion H as [|? ? H1 _]; subst. inversion H1 as [|? ? N _]; subst. apply N. rewrite E2. apply Permutation_refl.
Qed.
Lemma confidence_is_one : exists es q, orderly es /\ In q (productions W wcst wid wid es) /\
  Forall (fun x => flt (confidence x) (fact_cfd q) = true) (components q).
Proof.
  exists w_two. eexists. split; [exact w_two_orderly|]. rewrite w_two_made. split; [left; reflexivity|]. repeat constructor.
Qed.
Lemma simulations_mixed : exists es q x y k, orderly es /\ In q (productions W wcst wid wid es) /\
  In x (components q) /\ In y (components q) /\ In k (sims_of x) /\ simulated y /\ ~ In k (sims_of y).
Proof.
  destruct w_mixed_made as [q [H E]]. exists w_mixed, q, (foreseen 10 0 100 [1] []), (foreseen 11 0 100 [2; 3] []), 1.
  rewrite E. split; [exact w_mixed_orderly|]. split; [exact H|]. cbn. repeat split; auto.
  - eexists. split; [reflexivity|discriminate].
  - intuition lia.
Qed.
Lemma validity_dropped : exists es q ss vs x v, orderly es /\ In q (productions W wcst wid wid es) /\
  mode q = Simulated ss vs /\ In x (components q) /\ In v (validities_of x) /\ ~ In v vs.
Proof.
  destruct w_dropped_made as [q [H [E Md]]]. exists w_dropped, q, [1], [], (foreseen 10 0 100 [1] [7]), 7.
  rewrite E. split; [exact w_dropped_orderly|]. cbn. intuition.
Qed.
Lemma made_late : exists s e q, orderly (s ++ [e]) /\ In q (productions W wcst wid wid (s ++ [e])) /\
  ~ In q (productions W wcst wid wid s) /\ (fwd_before W (pbnd q) < now e)%Z.
Proof.
  destruct w_late_made as [q [H E]]. exists [at_time 5 (plain 10 0 100)], (at_time 50 (plain 11 0 10)), q.
  split; [exact w_late_orderly|]. split; [exact H|]. split.
  - vm_compute. auto.
  - rewrite E. reflexivity.
Qed.
Lemma guards_unheeded : exists (C : cst (Z * Z)) es q,
  orderly es /\ In q (productions W C wid wid es) /\ guards C (pbnd q) = None.
Proof.
  exists wcst, w_two. eexists. split; [exact w_two_orderly|]. rewrite w_two_made. split; [left; reflexivity|]. reflexivity.
Qed.
