(** Proofs about sub-goals and the life of composite states. *)
From Verif Require Import Base Csg_model Csg_spec.
Local Open Scope nat_scope.

Section Goals.
Context (evidence predicted : wish -> result) (same : nat -> nat -> bool).
Notation abduce := (abduce evidence predicted same).
Notation lacking := (lacking evidence predicted).
Notation registered := (registered same).

Lemma lacking_open : forall w, lacking w = true <-> open_wish evidence predicted w.
Proof.
  intros w. unfold Csg_model.lacking, open_wish. destruct (evidence w), (predicted w); split; intuition (try congruence).
Qed.
Lemma registered_alike : forall l w, registered l w = true <-> exists r, In r l /\ alike same w r.
Proof.
  intros l w. unfold Csg_model.registered. rewrite existsb_exists. split.
  - intros [r [H E]]. apply andb_true_iff in E as [E1 E2]. apply Bool.eqb_prop in E1. exists r. split; [auto|split; auto].
  - intros [r [H [E1 E2]]]. exists r. split; auto. rewrite E1, E2. now rewrite Bool.eqb_reflx.
Qed.

Lemma abduce_new : forall op l reg w, In w (snd (abduce op l reg)) ->
  exists c, In c l /\ axiom c = false /\ w = wish_of op c /\ open_wish evidence predicted w /\ ~ exists r, In r reg /\ alike same w r.
Proof.
  intros op. induction l as [|c l IH]; intros reg w H; [destruct H|]. cbn [Csg_model.abduce] in H.
  destruct (axiom c) eqn:A.
  - specialize (IH reg w). destruct (abduce op l reg) as [[r' reg'] new]. destruct (IH H) as [d Hd]. exists d. cbn. intuition.
  - destruct (lacking _ && negb _) eqn:L.
    + apply andb_true_iff in L as [L1 L2]. apply lacking_open in L1. apply negb_true_iff in L2.
      specialize (IH (reg ++ [mkwish (states c) (xorb (negated c) op)]) w).
      destruct (abduce op l (reg ++ _)) as [[r' reg'] new]. cbn [snd] in *. destruct H as [<-|H].
      * exists c. cbn. repeat split; auto; try apply L1. intros R. apply registered_alike in R. congruence.
      * destruct (IH H) as (d & D1 & D2 & D3 & D4 & D5). exists d. cbn. repeat split; auto; try apply D4.
        intros [r [R1 R2]]. apply D5. exists r. rewrite in_app_iff. auto.
    + specialize (IH reg w). destruct (abduce op l reg) as [[r' reg'] new]. destruct (IH H) as [d Hd]. exists d. cbn. intuition.
Qed.
Lemma abduce_reg : forall op l reg, snd (fst (abduce op l reg)) = reg ++ snd (abduce op l reg).
Proof.
  intros op. induction l as [|c l IH]; intros reg; cbn [Csg_model.abduce]; [now rewrite app_nil_r|].
  destruct (axiom c).
  - specialize (IH reg). destruct (abduce op l reg) as [[r' reg'] new]. exact IH.
  - destruct (lacking _ && negb _).
    + specialize (IH (reg ++ [mkwish (states c) (xorb (negated c) op)])).
      destruct (abduce op l (reg ++ _)) as [[r' reg'] new]. cbn [fst snd] in *. rewrite IH, <- app_assoc. reflexivity.
    + specialize (IH reg). destruct (abduce op l reg) as [[r' reg'] new]. exact IH.
Qed.
Lemma abduce_all : forall op l reg c, In c l -> axiom c = false -> open_wish evidence predicted (wish_of op c) ->
  (forall o, same o o = true) ->
  exists r, In r (reg ++ snd (abduce op l reg)) /\ alike same (wish_of op c) r.
Proof.
  intros op l. induction l as [|d l IH]; intros reg c Hc A O Refl; [destruct Hc|]. cbn [Csg_model.abduce].
  assert (forall r' reg' new r (w : wish), In r ((reg ++ [w]) ++ snd (r' : list part, reg' : list wish, new)) -> In r (reg ++ snd (r', reg', w :: new))) as Sh.
  { intros r' reg' new r w H. cbn [snd] in *. rewrite <- app_assoc in H. exact H. }
  destruct Hc as [->|Hc].
  - rewrite A. fold (wish_of op c). destruct (lacking (wish_of op c)) eqn:L.
    + cbn [andb]. destruct (registered reg (wish_of op c)) eqn:R; cbn [negb].
      * apply registered_alike in R as [r [R1 R2]]. destruct (abduce op l reg) as [[r' reg'] new]. exists r.
        rewrite in_app_iff. auto.
      * destruct (abduce op l (reg ++ _)) as [[r' reg'] new]. exists (wish_of op c). cbn [snd].
        rewrite in_app_iff. cbn. split; [auto|]. split; auto.
    + apply lacking_open in O. congruence.
  - destruct (axiom d).
    + specialize (IH reg c Hc A O Refl). destruct (abduce op l reg) as [[r' reg'] new]. exact IH.
    + destruct (lacking _ && negb _).
      * specialize (IH (reg ++ [mkwish (states d) (xorb (negated d) op)]) c Hc A O Refl).
        destruct (abduce op l (reg ++ _)) as [[r' reg'] new]. destruct IH as [r [R1 R2]]. exists r. split; auto.
      * specialize (IH reg c Hc A O Refl). destruct (abduce op l reg) as [[r' reg'] new]. exact IH.
Qed.
(** No two sub-goals are alike. *)
Lemma abduce_once : forall op l reg, (forall a b, same a b = same b a) ->
  ForallOrdPairs (fun w w' => ~ alike same w w') (snd (abduce op l reg)).
Proof.
  intros op l. induction l as [|c l IH]; intros reg Sy; cbn [Csg_model.abduce]; [constructor|].
  destruct (axiom c).
  - specialize (IH reg Sy). destruct (abduce op l reg) as [[r' reg'] new]. exact IH.
  - destruct (lacking _ && negb _).
    + pose proof (abduce_new op l (reg ++ [mkwish (states c) (xorb (negated c) op)])) as N.
      specialize (IH (reg ++ [mkwish (states c) (xorb (negated c) op)]) Sy).
      destruct (abduce op l (reg ++ _)) as [[r' reg'] new]. cbn [snd] in *. constructor; auto.
      apply Forall_forall. intros w Hw. destruct (N w Hw) as (_ & _ & _ & _ & _ & Nr). intros [E1 E2]. apply Nr.
      eexists. rewrite in_app_iff. split; [right; left; reflexivity|]. split; [auto|]. cbn in *. now rewrite Sy.
    + specialize (IH reg Sy). destruct (abduce op l reg) as [[r' reg'] new]. exact IH.
Qed.
Lemma abduce_keeps : forall op l reg, Forall (fun c => copied c = true) l -> fst (fst (abduce op l reg)) = l.
Proof.
  intros op l. induction l as [|c l IH]; intros reg F; cbn [Csg_model.abduce]; auto. inversion F as [|? ? Fc Fl]; subst.
  destruct (axiom c).
  - specialize (IH reg Fl). destruct (abduce op l reg) as [[r' reg'] new]. cbn in *. congruence.
  - rewrite Fc. destruct (lacking _ && negb _).
    + specialize (IH (reg ++ [mkwish (states c) (xorb (negated c) op)]) Fl).
      destruct (abduce op l (reg ++ _)) as [[r' reg'] new]. cbn in *. congruence.
    + specialize (IH reg Fl). destruct (abduce op l reg) as [[r' reg'] new]. cbn in *. congruence.
Qed.
Lemma abduce_keeps_plain : forall l reg, fst (fst (abduce false l reg)) = l.
Proof.
  intros l. induction l as [|c l IH]; intros reg; cbn [Csg_model.abduce]; auto.
  assert ((if copied c then c else mkpart false (states c) (wneg (mkwish (states c) (xorb (negated c) false))) (axiom c)) = c) as E.
  { destruct c as [[] ? [] ?]; reflexivity. }
  destruct (axiom c).
  - specialize (IH reg). destruct (abduce false l reg) as [[r' reg'] new]. cbn in *. congruence.
  - cbn [wneg] in E. destruct (lacking _ && negb _).
    + specialize (IH (reg ++ [mkwish (states c) (xorb (negated c) false)])).
      destruct (abduce false l (reg ++ _)) as [[r' reg'] new]. cbn [fst wneg] in *. congruence.
    + specialize (IH reg). destruct (abduce false l reg) as [[r' reg'] new]. cbn [fst wneg] in *. congruence.
Qed.
End Goals.

Definition w_none : wish -> result := fun _ => Failure.
Definition w_part : part := mkpart false 7 false false.
Lemma abduce_changes : fst (fst (abduce w_none w_none Nat.eqb true [w_part] [])) <> [w_part].
Proof. vm_compute. congruence. Qed.

(** ** Life *)
Lemma killed_stays : forall thz l s, killed s = true -> killed (live_run thz s l) = true.
Proof.
  intros thz. unfold live_run. induction l as [|h l IH]; intros s K; cbn; auto. apply IH.
  destruct h as [gone| |now m]; cbn; auto.
  - now rewrite K.
  - destruct m; auto. destruct (_ <? _)%Z; auto.
Qed.
Lemma watched_in : forall l c, In c (watched l) <-> exists r, l = Some c :: r.
Proof.
  intros [|[d|] l] c; cbn [watched].
  - split; [intros []|intros [r H]; discriminate].
  - rewrite in_flat_map. split.
    + intros [x [_ [<-|[]]]]. eauto.
    + intros [r H]. inversion H; subst. exists (Some c). cbn. auto.
  - split.
    + intros H. apply in_flat_map in H as [x [_ []]].
    + intros [r H]. discriminate.
Qed.

Lemma run_exact : forall thz l s, killed s = false ->
  (killed (live_run thz s l) = true <->
   starved thz (last_match s) l \/ exists c, In c (ctrls s) /\ seen_gone c l) .
Proof.
  intros thz. unfold live_run. induction l as [|h l IH]; intros s K; cbn [fold_left].
  - split; [congruence|]. intros [[l1 [now [l2 [E _]]]]|[c [_ [gone [[] _]]]]]. destruct l1; discriminate.
  - assert (forall c, seen_gone c (h :: l) <-> seen_gone c l \/ exists g, h = Offered g /\ g c = true) as SG.
    { intros c. unfold seen_gone. split.
      - intros [g [[->|H] G]]; eauto.
      - intros [[g [H G]]|[g [-> G]]]; exists g; cbn; auto. }
    assert (forall t0, starved thz t0 (h :: l) <->
      (exists now, h = Reduced now false /\ (thz < now - t0)%Z) \/ starved thz (matched_at t0 [h]) l) as ST.
    { intros t0. unfold starved. split.
      - intros [[|a l1] [now [l2 [E L]]]].
        + inversion E; subst. left. eauto.
        + inversion E; subst. right. exists l1, now, l2. split; auto. destruct a as [g| |n [|]]; cbn in *; auto.
      - intros [[now [-> L]]|[l1 [now [l2 [-> L]]]]].
        + exists [], now, l. cbn. auto.
        + exists (h :: l1), now, l2. split; auto. destruct h as [g| |n [|]]; cbn in *; auto. }
    rewrite ST. destruct h as [gone| |now m]; cbn [live_step].
    + rewrite K. destruct (existsb gone (ctrls s)) eqn:E.
      * split; [|intros _; apply (killed_stays thz l (kill s)); reflexivity]. intros _. right.
        apply existsb_exists in E as [c [Hc Gc]]. exists c. split; auto. apply SG. eauto.
      * rewrite IH by auto. cbn [matched_at]. split.
        -- intros [H|[c [Hc G]]]; auto. right. exists c. rewrite SG. auto.
        -- intros [[[n [H _]]|H]|[c [Hc G]]]; [discriminate|auto|]. apply SG in G as [G|[g [Eg G]]]; eauto.
           inversion Eg; subst. assert (existsb g (ctrls s) = true) by (apply existsb_exists; eauto). congruence.
    + rewrite IH by auto. cbn [matched_at]. split.
      * intros [H|[c [Hc G]]]; auto. right. exists c. rewrite SG. auto.
      * intros [[[n [H _]]|H]|[c [Hc G]]]; [discriminate|auto|]. apply SG in G as [G|[g [Eg G]]]; [eauto|discriminate].
    + destruct m.
      * rewrite IH by auto. cbn [matched_at last_match ctrls]. split.
        -- intros [H|[c [Hc G]]]; auto. right. exists c. rewrite SG. auto.
        -- intros [[[n [H _]]|H]|[c [Hc G]]]; [discriminate|auto|]. apply SG in G as [G|[g [Eg G]]]; [eauto|discriminate].
      * destruct (Z.ltb_spec thz (now - last_match s)).
        -- split; [|intros _; apply (killed_stays thz l (kill s)); reflexivity]. intros _. left. left. eauto.
        -- rewrite IH by auto. cbn [matched_at]. split.
           ++ intros [Hs|[c [Hc G]]]; auto. right. exists c. rewrite SG. auto.
           ++ intros [[[n [Hn L]]|Hs]|[c [Hc G]]]; [inversion Hn; subst; lia|auto|]. apply SG in G as [G|[g [Eg G]]]; [eauto|discriminate].
Qed.

Lemma dropped_exact : forall thz t0 comps l,
  killed (live_run thz (create t0 comps) l) = true <->
  starved thz t0 l \/ exists c r, comps = Some c :: r /\ seen_gone c l.
Proof.
  intros. rewrite run_exact by reflexivity. cbn [create last_match ctrls]. split.
  - intros [H|[c [Hc G]]]; auto. apply watched_in in Hc as [r ->]. right. eauto.
  - intros [H|[c [r [-> G]]]]; auto. right. exists c. split; auto. apply watched_in. eauto.
Qed.
Lemma second_unwatched : exists thz t0 comps c l, In (Some c) comps /\ seen_gone c l /\ killed (live_run thz (create t0 comps) l) = false.
Proof.
  exists 10%Z, 0%Z, [None; Some 4], 4, [Offered (Nat.eqb 4)]. split; [cbn; auto|]. split; [|reflexivity].
  exists (Nat.eqb 4). cbn. auto.
Qed.
Lemma abduce_unchanged : forall evidence predicted same opposite l reg,
  opposite = false \/ Forall (fun c => copied c = true) l ->
  fst (fst (abduce evidence predicted same opposite l reg)) = l.
Proof. intros ? ? ? ? l reg [->|F]; [apply abduce_keeps_plain|now apply abduce_keeps]. Qed.
