(** What is accepted. *)
From Verif Require Import Base Cmp_model Cmp_spec Cmp_proofs.
Local Open Scope nat_scope.

Definition Decl (K : nat -> Prop) (l : list event) : Prop := forall a x b, l = a ++ U x :: b -> K x \/ In (D x) a.
Lemma decl_app K A B : Decl K (A ++ B) <-> Decl K A /\ Decl (fun y => K y \/ In y (defined A)) B.
Proof.
  split.
  - intros H. split.
    + intros a x b ->. destruct (H a x (b ++ B)) as [|]; [rewrite <- app_assoc; reflexivity|left; assumption|right; assumption].
    + intros a x b ->. destruct (H (A ++ a) x b) as [Q|Q]; [rewrite <- app_assoc; reflexivity|left; left; exact Q|].
      apply in_app_or in Q. destruct Q as [Q|Q]; [left; right; apply in_defined; exact Q|right; exact Q].
  - intros (HA & HB) a x b E. apply app_eq_app in E. destruct E as [l [[E1 E2]|[E1 E2]]].
    + destruct l as [|e l].
      * cbn in E2. rewrite app_nil_r in E1. subst. destruct (HB [] x b) as [[Q|Q]|[]]; [reflexivity|left; exact Q|right; apply in_defined; exact Q].
      * cbn in E2. injection E2 as <- ->. exact (HA a x l E1).
    + destruct (HB l x b E2) as [[Q|Q]|Q]; [left; exact Q|right; rewrite E1; apply in_or_app; left; apply in_defined; exact Q|right; rewrite E1; apply in_or_app; right; exact Q].
Qed.
Lemma decl_more (K K' : nat -> Prop) l : (forall x, K x -> K' x) -> Decl K l -> Decl K' l.
Proof. intros H HD a x b E. destruct (HD a x b E); [left; auto|right; assumption]. Qed.
Lemma decl_nil K : Decl K []. Proof. intros a x b E. destruct a; discriminate. Qed.
Lemma decl_label K x : Decl K (label x).
Proof. intros a y b E. destruct x as [x|]; destruct a as [|? [|? ?]]; discriminate. Qed.
Lemma label_defined x : defined (label x) = labels x. Proof. destruct x; reflexivity. Qed.
Definition known (e : nat -> option nat) (y : nat) : Prop := e y <> None.
Lemma with_label_known x i e y : known (with_label x i e) y <-> known e y \/ In y (labels x).
Proof.
  unfold known. destruct x as [x|]; cbn; [|tauto]. destruct (Nat.eqb_spec y x) as [->|N]; [split; [auto|discriminate]|].
  split; [tauto|intros [H|[H|[]]]; [exact H|congruence]].
Qed.

(** The pass that counts. *)
Definition Marks (t : tree) : Prop := forall i e,
  (forall e', mark t i e = Some e' -> Decl (known e) (events t) /\ forall y, known e' y <-> known e y \/ In y (defs t)) /\
  (Decl (known e) (events t) -> exists e', mark t i e = Some e').
Lemma marks_ok l : Forall Marks l -> forall j e,
  (forall e', marks l j e = Some e' -> Decl (known e) (flat_map events l) /\ forall y, known e' y <-> known e y \/ In y (defs_all l)) /\
  (Decl (known e) (flat_map events l) -> exists e', marks l j e = Some e').
Proof.
  induction 1 as [|t l Ht Hl IH]; intros j e; cbn [marks flat_map].
  - split; [intros e' H; injection H as <-; split; [apply decl_nil|intros y; cbn; tauto]|intros _; eexists; reflexivity].
  - destruct (Ht j e) as (T1 & T2). split.
    + intros e' H. destruct (mark t j e) as [e1|] eqn:E; [|discriminate]. destruct (T1 _ eq_refl) as (A1 & A2). destruct (IH (S j) e1) as (I1 & _).
      destruct (I1 _ H) as (B1 & B2). split.
      * apply decl_app. split; [exact A1|]. refine (decl_more _ _ _ _ B1). intros y Hy. apply A2 in Hy. exact Hy.
      * intros y. rewrite B2, A2, defs_all_cons, in_app_iff. tauto.
    + intros HD. apply decl_app in HD. destruct HD as (D1 & D2). destruct (T2 D1) as (e1 & E1). rewrite E1. apply (IH (S j) e1).
      refine (decl_more _ _ _ _ D2). intros y Hy. destruct (T1 _ E1) as (_ & A2). apply A2. exact Hy.
Qed.
Lemma mark_ok t : Marks t.
Proof.
  assert (L : forall x l, Forall Marks l -> forall i e,
    (forall e', marks l 0 (with_label x i e) = Some e' -> Decl (known e) (label x ++ flat_map events l) /\ forall y, known e' y <-> known e y \/ In y (labels x ++ defs_all l)) /\
    (Decl (known e) (label x ++ flat_map events l) -> exists e', marks l 0 (with_label x i e) = Some e')).
  { intros x l IH i e. destruct (marks_ok l IH 0 (with_label x i e)) as (A & B). split.
    - intros e' H. destruct (A e' H) as (A1 & A2). split.
      + apply decl_app. split; [apply decl_label|]. rewrite label_defined. refine (decl_more _ _ _ _ A1). intros y Hy. apply with_label_known in Hy. exact Hy.
      + intros y. rewrite A2, with_label_known, in_app_iff. tauto.
    - intros H. apply decl_app in H. destruct H as (_ & H). rewrite label_defined in H. apply B. refine (decl_more _ _ _ _ H). intros y Hy. apply with_label_known. exact Hy. }
  induction t as [z|h l| | |x|x|x c n p l IH|x l IH] using tree_all; intros i e;
    try (cbn [mark events]; split; [intros e' H; injection H as <-; split; [apply decl_nil|intros y; cbn; tauto]|intros _; eexists; reflexivity]; fail).
  - cbn [mark events]. split; [|intros _; eexists; reflexivity]. intros e' H. injection H as <-. split; [apply (decl_label _ (Some x))|].
    intros y. exact (with_label_known (Some x) i e y).
  - cbn [mark events]. destruct (e x) as [k|] eqn:E.
    + split; [|intros _; eexists; reflexivity]. intros e' H. injection H as <-. split; [|intros y; cbn; tauto].
      intros a y b Ea. left. destruct a as [|? [|? ?]]; try discriminate. injection Ea as <-. unfold known. rewrite E. discriminate.
    + split; [discriminate|]. intros H. destruct (H [] x [] eq_refl) as [Q|[]]. unfold known in Q. contradiction.
  - rewrite mark_node, defs_node. cbn [events]. exact (L x l IH i e).
  - rewrite mark_set, defs_set. cbn [events]. exact (L x l IH i e).
Qed.
Lemma mark_elements_ok l : forall e,
  (forall e', mark_elements l e = Some e' -> Decl (known e) (flat_map events l) /\ forall y, known e' y <-> known e y \/ In y (defs_all l)) /\
  (Decl (known e) (flat_map events l) -> exists e', mark_elements l e = Some e').
Proof.
  induction l as [|t l IH]; intros e; cbn [mark_elements flat_map].
  - split; [intros e' H; injection H as <-; split; [apply decl_nil|intros y; cbn; tauto]|intros _; eexists; reflexivity].
  - destruct (mark_ok t 0 e) as (T1 & T2). split.
    + intros e' H. destruct (mark t 0 e) as [e1|] eqn:E; [|discriminate]. destruct (T1 _ eq_refl) as (A1 & A2). destruct (IH e1) as (I1 & _).
      destruct (I1 _ H) as (B1 & B2). split.
      * apply decl_app. split; [exact A1|]. refine (decl_more _ _ _ _ B1). intros y Hy. apply A2 in Hy. exact Hy.
      * intros y. rewrite B2, A2, defs_all_cons, in_app_iff. tauto.
    + intros HD. apply decl_app in HD. destruct HD as (D1 & D2). destruct (T2 D1) as (e1 & E1). rewrite E1. apply (IH e1).
      refine (decl_more _ _ _ _ D2). intros y Hy. destruct (T1 _ E1) as (_ & A2). apply A2. exact Hy.
Qed.

(** The pass that writes. *)
Definition Plain (t : tree) : Prop := forall u, Sub t u -> NoRest u.
Definition Accepts (t : tree) : Prop := Plain t -> forall open i s, cut s = false ->
  (forall s', comp open t i s = Some s' ->
     Ordered open t /\ Decl (known (names s)) (events t) /\ cut s' = is_rest t /\ forall y, known (names s') y <-> known (names s) y \/ In y (defs t)) /\
  (Ordered open t -> Decl (known (names s)) (events t) -> exists s', comp open t i s = Some s').

Definition last_ok (l : list tree) : Prop := forall k, nth_error l k = Some Rest -> S k = length l.
Lemma last_cons t l : is_rest t && negb (match l with [] => true | _ => false end) = false -> last_ok l -> last_ok (t :: l).
Proof.
  intros H HL [|k] Hk; cbn in *; [|f_equal; exact (HL k Hk)]. injection Hk as ->. cbn in H. destruct l; [reflexivity|discriminate].
Qed.
Lemma last_tail t l : last_ok (t :: l) -> is_rest t && negb (match l with [] => true | _ => false end) = false /\ last_ok l.
Proof.
  intros H. split.
  - destruct t; try reflexivity. specialize (H 0 eq_refl). destruct l; [reflexivity|discriminate].
  - intros k Hk. specialize (H (S k) Hk). cbn in H. congruence.
Qed.

Lemma members_ok open p n base l : Forall Accepts l -> (forall t, In t l -> Plain t) -> forall k s, cut s = false ->
  (forall s', members open p n base l k s = Some s' ->
     (forall j t, nth_error l j = Some t -> Ordered (open || (p && (k + j =? 0))) t) /\
     (k + length l = n \/ (k + length l <= n /\ ends_with_rest l)) /\ last_ok l /\ Decl (known (names s)) (flat_map events l) /\ cut s' = false /\
     forall y, known (names s') y <-> known (names s) y \/ In y (defs_all l)) /\
  ((forall j t, nth_error l j = Some t -> Ordered (open || (p && (k + j =? 0))) t) -> k + length l = n \/ (k + length l <= n /\ ends_with_rest l) ->
     last_ok l -> Decl (known (names s)) (flat_map events l) -> exists s', members open p n base l k s = Some s').
Proof.
  induction 1 as [|t l Ht Hl IH]; intros HP k s Hs; cbn [members flat_map].
  - rewrite Hs. split.
    + intros s' H. destruct (Nat.eqb_spec k n) as [E|]; [|discriminate]. injection H as <-. split; [intros [|j] t Hj; discriminate|].
      split; [left; cbn; lia|]. split; [intros [|j] Hj; discriminate|]. split; [apply decl_nil|]. split; [exact Hs|]. intros y. cbn. tauto.
    + intros _ H _ _. destruct (Nat.eqb_spec k n) as [E|N]; [eexists; reflexivity|]. exfalso. destruct H as [H|[_ [l' H]]]; [cbn in H; lia|destruct l'; discriminate].
  - destruct (Ht (HP t (or_introl eq_refl)) (open || (p && (k =? 0))) (base + k) s Hs) as (T1 & T2). split.
    + intros s' H. destruct (Nat.leb_spec n k) as [|Hk]; [discriminate|]. destruct (is_rest t && _) eqn:Er; [discriminate|].
      destruct (comp _ t (base + k) s) as [s1|] eqn:E; [|discriminate]. destruct (T1 _ eq_refl) as (A1 & A2 & A3 & A4).
      destruct (is_rest t) eqn:Et.
      * destruct t; try discriminate. destruct l as [|u l]; [|discriminate]. cbn [members] in H. rewrite A3 in H. injection H as <-.
        split; [intros [|[|j]] t Hj; try discriminate; injection Hj as <-; rewrite Nat.add_0_r; exact A1|]. split; [right; split; [cbn; lia|exists []; reflexivity]|].
        split; [intros [|[|j]] Hj; [reflexivity|discriminate|discriminate]|]. split; [exact A2|]. split; [reflexivity|].
        intros y. cbn [set_cut names]. rewrite A4. cbn. tauto.
      * destruct (IH (fun u Hu => HP u (or_intror Hu)) (S k) s1 A3) as (I1 & _). destruct (I1 _ H) as (B1 & B2 & B3 & B4 & B5 & B6).
        split. { intros [|j] u Hj; [injection Hj as <-; rewrite Nat.add_0_r; exact A1|]. specialize (B1 j u Hj). rewrite Nat.add_succ_r. exact B1. }
        split. { cbn [length]. destruct B2 as [B2|[B2 [l' ->]]]; [left; lia|right]. split; [lia|]. exists (t :: l'). reflexivity. }
        split. { apply last_cons; [rewrite Et; reflexivity|exact B3]. }
        split. { apply decl_app. split; [exact A2|]. refine (decl_more _ _ _ _ B4). intros y Hy. apply A4. exact Hy. }
        split; [exact B5|]. intros y. rewrite B6, A4, defs_all_cons, in_app_iff. tauto.
    + intros HO HLn HLa HD. apply decl_app in HD. destruct HD as (D1 & D2). destruct (last_tail _ _ HLa) as (Er & HLa').
      destruct (Nat.leb_spec n k) as [Hk|Hk]; [exfalso; cbn [length] in HLn; lia|]. rewrite Er.
      assert (O0 := HO 0 t eq_refl). rewrite Nat.add_0_r in O0. destruct (T2 O0 D1) as (s1 & E1). rewrite E1. destruct (T1 _ E1) as (A1 & A2 & A3 & A4).
      destruct (is_rest t) eqn:Et.
      * destruct t; try discriminate. destruct l as [|u l]; [|discriminate]. cbn [members]. rewrite A3. eexists. reflexivity.
      * apply (IH (fun u Hu => HP u (or_intror Hu)) (S k) s1 A3).
        -- intros j u Hj. specialize (HO (S j) u Hj). rewrite Nat.add_succ_r in HO. exact HO.
        -- cbn [length] in HLn. destruct HLn as [HLn|[HLn [l' El]]]; [left; lia|right]. split; [lia|].
           destruct l' as [|v l']; [injection El as -> ->; discriminate|]. injection El as _ ->. exists l'. reflexivity.
        -- exact HLa'.
        -- refine (decl_more _ _ _ _ D2). intros y Hy. apply A4. exact Hy.
Qed.

Lemma elements_ok open base l : Forall Accepts l -> (forall t, In t l -> Plain t) -> ~ In Rest l -> forall k s, cut s = false ->
  (forall s', elements open base l k s = Some s' -> (forall t, In t l -> Ordered open t) /\ cut s' = false /\
     forall y, known (names s') y <-> known (names s) y \/ In y (defs_all l)) /\
  ((forall t, In t l -> Ordered open t) -> Decl (known (names s)) (flat_map events l) -> exists s', elements open base l k s = Some s').
Proof.
  induction 1 as [|t l Ht Hl IH]; intros HP HR k s Hs; cbn [elements flat_map].
  - split; [|intros _ _; eexists; reflexivity]. intros s' H. injection H as <-. split; [intros t []|]. split; [exact Hs|]. intros y. cbn. tauto.
  - destruct (Ht (HP t (or_introl eq_refl)) open (base + k) s Hs) as (T1 & T2).
    assert (Et : is_rest t = false). { destruct t; try reflexivity. exfalso. apply HR. left. reflexivity. }
    rewrite Et. cbn [andb]. split.
    + intros s' H. destruct (comp open t (base + k) s) as [s1|] eqn:E; [|discriminate]. destruct (T1 _ eq_refl) as (A1 & A2 & A3 & A4). rewrite Et in A3.
      destruct (IH (fun u Hu => HP u (or_intror Hu)) (fun F => HR (or_intror F)) (S k) s1 A3) as (I1 & _). destruct (I1 _ H) as (B1 & B2 & B3).
      split; [intros u [<-|Hu]; [exact A1|exact (B1 u Hu)]|]. split; [exact B2|]. intros y. rewrite B3, A4, defs_all_cons, in_app_iff. tauto.
    + intros HO HD. apply decl_app in HD. destruct HD as (D1 & D2). destruct (T2 (HO t (or_introl eq_refl)) D1) as (s1 & E1). rewrite E1.
      destruct (T1 _ E1) as (A1 & A2 & A3 & A4). rewrite Et in A3. apply (IH (fun u Hu => HP u (or_intror Hu)) (fun F => HR (or_intror F)) (S k) s1 A3).
      * intros u Hu. apply HO. right. exact Hu.
      * refine (decl_more _ _ _ _ D2). intros y Hy. apply A4. exact Hy.
Qed.

Lemma accepts t : Accepts t.
Proof.
  induction t as [z|h l| | |x|x|x c n p l IH|x l IH] using tree_all; intros HP open i s Hs.
  - split; [|intros _ _; eexists; reflexivity]. intros s' H. injection H as <-. split; [constructor|]. split; [apply decl_nil|]. split; [exact Hs|]. intros y. cbn. tauto.
  - split; [|intros _ _; eexists; reflexivity]. intros s' H. cbn [comp] in H. injection H as <-. split; [constructor|]. split; [apply decl_nil|].
    cbn [grow cut names]. rewrite put_all_cut, put_all_names. split; [exact Hs|]. intros y. cbn. tauto.
  - cbn [comp]. destruct open.
    + split; [|intros _ _; eexists; reflexivity]. intros s' H. injection H as <-. split; [constructor|]. split; [apply decl_nil|]. split; [exact Hs|]. intros y. cbn. tauto.
    + split; [discriminate|intros H; inversion H].
  - cbn [comp]. destruct open.
    + split; [|intros _ _; eexists; reflexivity]. intros s' H. injection H as <-. split; [constructor|]. split; [apply decl_nil|]. split; [reflexivity|]. intros y. cbn. tauto.
    + split; [discriminate|intros H; inversion H].
  - cbn [comp]. destruct open.
    + split; [|intros _ _; eexists; reflexivity]. intros s' H. injection H as <-. split; [constructor|]. split; [apply (decl_label _ (Some x))|]. split; [exact Hs|].
      intros y. exact (with_label_known (Some x) i (names s) y).
    + split; [discriminate|intros H; inversion H].
  - cbn [comp events]. destruct (names s x) as [k|] eqn:E.
    + split; [|intros _ _; eexists; reflexivity]. intros s' H. injection H as <-. split; [constructor|]. split; [|split; [exact Hs|intros y; cbn; tauto]].
      intros a y b Ea. left. destruct a as [|? [|? ?]]; try discriminate. injection Ea as <-. unfold known. rewrite E. discriminate.
    + split; [discriminate|]. intros _ H. destruct (H [] x [] eq_refl) as [Q|[]]. unfold known in Q. contradiction.
  - rewrite comp_node, defs_node. cbn [events].
    destruct (members_ok open p n (S (extent s)) l IH (fun t Ht u Hu => HP u (sub_node _ _ _ _ _ _ _ Ht Hu)) 0 (begin_node open x c n i s)) as (M1 & M2).
    { rewrite begin_node_cut. exact Hs. } rewrite begin_node_names in M1, M2. split.
    + intros s' H. destruct (M1 _ H) as (B1 & B2 & B3 & B4 & B5 & B6). split; [constructor; assumption|]. split.
      { apply decl_app. split; [apply decl_label|]. rewrite label_defined. refine (decl_more _ _ _ _ B4). intros y Hy. apply with_label_known in Hy. exact Hy. }
      split; [exact B5|]. intros y. rewrite B6, with_label_known, in_app_iff. tauto.
    + intros HO HD. inversion HO as [ | | | | | |? ? ? ? ? ? O1 O2 O3| ]; subst. apply decl_app in HD. destruct HD as (_ & HD). rewrite label_defined in HD.
      apply M2; [exact O2|exact O1|exact O3|]. refine (decl_more _ _ _ _ HD). intros y Hy. apply with_label_known. exact Hy.
  - assert (HR := HP _ (sub_here _)). cbn [NoRest] in HR. destruct l as [|t l].
    + rewrite comp_nothing. destruct x as [x|].
      * split; [discriminate|]. intros HO _. inversion HO as [ | | | | | | |? ? ? O1 O2 O3]; subst. destruct O1; [discriminate|contradiction].
      * split; [|intros _ _; eexists; reflexivity]. intros s' H. injection H as <-. split; [constructor; [left; reflexivity|intros t []|intros [|k] Hk; discriminate]|].
        split; [apply decl_nil|]. split; [exact Hs|]. intros y. cbn. tauto.
    + rewrite comp_set, defs_set. cbn [events]. assert (Ne : t :: l <> []) by discriminate.
      revert IH HP HR Ne. generalize (t :: l) as q. clear t l. intros l IH HP HR Ne.
      assert (NR : last_ok l). { intros k Hk. exfalso. apply HR. exact (nth_error_In _ _ Hk). }
      destruct (mark_elements_ok l (names (name_opt x i s))) as (K1 & K2). rewrite name_opt_names in *.
      destruct (mark_elements l (with_label x i (names s))) as [a|].
      * destruct (K1 _ eq_refl) as (Q1 & Q2).
        destruct (elements_ok open (S (extent s)) l IH (fun t Ht u Hu => HP u (sub_set _ _ _ _ Ht Hu)) HR 0 (begin_set x (length l) i a s)) as (M1 & M2).
        { cbn [begin_set grow put set_names cut]. rewrite name_opt_cut. exact Hs. }
        change (names (begin_set x (length l) i a s)) with a in M1, M2. split.
        -- intros s' H. destruct (M1 _ H) as (B1 & B2 & B3). split; [constructor; [right; exact Ne|exact B1|exact NR]|]. split.
           { apply decl_app. split; [apply decl_label|]. rewrite label_defined. refine (decl_more _ _ _ _ Q1). intros y Hy. apply with_label_known in Hy. exact Hy. }
           split; [exact B2|]. intros y. rewrite B3, Q2, with_label_known, in_app_iff. tauto.
        -- intros HO HD. inversion HO as [ | | | | | | |? ? ? O1 O2 O3]; subst. apply M2; [exact O2|]. refine (decl_more _ _ _ _ Q1). intros y Hy. apply Q2. left. exact Hy.
      * split; [discriminate|]. intros _ HD. apply decl_app in HD. destruct HD as (_ & HD). rewrite label_defined in HD.
        destruct K2 as (e' & F); [|discriminate]. refine (decl_more _ _ _ _ HD). intros y Hy. apply with_label_known. exact Hy.
Qed.

Lemma accepted c n p l : let t := Node None c n p l in Plain t ->
  (compile_object c n p l <> None <-> Ordered false t /\ Declared (fun _ => False) t).
Proof.
  intros t HP. unfold compile_object. set (s0 := mks _ _ _ _).
  destruct (members_ok false p n 1 l (proj2 (Forall_forall Accepts l) (fun u _ => accepts u)) (fun t Ht u Hu => HP u (sub_node _ _ _ _ _ _ _ Ht Hu)) 0 s0 eq_refl) as (M1 & M2).
  assert (Q : forall P : nat -> Prop, (forall y, known (names s0) y -> P y)). { intros P y Hy. exfalso. apply Hy. reflexivity. }
  split.
  - intros H. destruct (members false p n 1 l 0 s0) as [s'|]; [|contradiction]. destruct (M1 _ eq_refl) as (B1 & B2 & B3 & B4 & _).
    split; [constructor; assumption|]. exact (decl_more _ _ _ (Q _) B4).
  - intros (HO & HD). inversion HO as [ | | | | | |? ? ? ? ? ? O1 O2 O3| ]; subst. destruct (M2 O2 O1 O3) as (s' & E); [|rewrite E; discriminate].
    refine (decl_more _ _ _ _ HD). intros y [].
Qed.
