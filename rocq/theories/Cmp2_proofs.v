(** What is shown of the words that were written. *)
From Verif Require Import Base Cmp_model Cmp_spec Cmp_proofs.
Local Open Scope nat_scope.

Fixpoint size (t : tree) : nat :=
  match t with
  | Raw _ l => S (length l)
  | Node _ _ n _ l => S n + list_sum (map size l)
  | SetOf _ l => S (length l) + list_sum (map size l)
  | _ => 0
  end.
Definition labelled (x : option nat) (k : nat) : list (nat * nat) := match x with Some x => [(x, k)] | None => [] end.
Fixpoint place (t : tree) (i e : nat) {struct t} : list (nat * nat) :=
  match t with
  | Var x => [(x, i)]
  | Node x _ n _ l => labelled x e ++
      (fix go (l : list tree) (b f : nat) : list (nat * nat) :=
         match l with [] => [] | t :: l => place t b f ++ go l (S b) (f + size t) end) l (S e) (S e + n)
  | SetOf x l => labelled x e ++
      (fix go (l : list tree) (b f : nat) : list (nat * nat) :=
         match l with [] => [] | t :: l => place t b f ++ go l (S b) (f + size t) end) l (S e) (S e + length l)
  | _ => []
  end.
Fixpoint places (l : list tree) (b f : nat) : list (nat * nat) :=
  match l with [] => [] | t :: l => place t b f ++ places l (S b) (f + size t) end.
Lemma place_node x c n p l i e : place (Node x c n p l) i e = labelled x e ++ places l (S e) (S e + n).
Proof. reflexivity. Qed.
Lemma place_set x l i e : place (SetOf x l) i e = labelled x e ++ places l (S e) (S e + length l).
Proof. reflexivity. Qed.

(** Members one after the other. *)
Inductive Steps : list tree -> nat -> state -> state -> Prop :=
| st_nil b s : Steps [] b s s
| st_cons open t l b s s1 s' : (t = Rest -> l = []) -> comp open t b s = Some s1 -> Steps l (S b) s1 s' -> Steps (t :: l) b s s'.
Lemma rest_last t (l : list tree) : is_rest t && negb (match l with [] => true | _ => false end) = false -> t = Rest -> l = [].
Proof. intros H ->. destruct l; [reflexivity|discriminate]. Qed.
Lemma members_steps open p n base l : forall k s s', members open p n base l k s = Some s' ->
  exists s1, Steps l (base + k) s s1 /\ code s' = code s1 /\ extent s' = extent s1 /\ names s' = names s1 /\ (l = [] \/ k + length l <= n).
Proof.
  induction l as [|t l IH]; intros k s s' H; cbn [members] in H.
  - exists s. split; [constructor|]. destruct (cut s); [injection H as <-; cbn; auto 6|]. destruct (k =? n); [injection H as <-; auto 6|discriminate].
  - destruct (Nat.leb_spec n k) as [|Hk]; [discriminate|]. destruct (is_rest t && _) eqn:Er; [discriminate|].
    destruct (comp _ t (base + k) s) as [s1|] eqn:E; [|discriminate]. destruct (IH _ _ _ H) as (s2 & S2 & C2 & E2 & N2 & L2).
    exists s2. split; [econstructor; [exact (rest_last _ _ Er)|exact E|]|]. { rewrite <- Nat.add_succ_r. exact S2. }
    split; [exact C2|]. split; [exact E2|]. split; [exact N2|]. right. cbn [length]. destruct L2 as [-> |L2]; cbn in *; lia.
Qed.
Lemma elements_steps open base l : forall k s s', elements open base l k s = Some s' -> Steps l (base + k) s s'.
Proof.
  induction l as [|t l IH]; intros k s s' H; cbn [elements] in H.
  - injection H as <-. constructor.
  - destruct (is_rest t && _) eqn:Er; [discriminate|]. destruct (comp open t (base + k) s) as [s1|] eqn:E; [|discriminate].
    econstructor; [exact (rest_last _ _ Er)|exact E|]. rewrite <- Nat.add_succ_r. exact (IH _ _ _ H).
Qed.
Lemma members_rest open p n base : forall l k s s', members open p n base (l ++ [Rest]) k s = Some s' ->
  (p = true -> 1 <= k + length l) -> open = true.
Proof.
  induction l as [|t l IH]; intros k s s' H Hp; cbn [members app] in H.
  - destruct (n <=? k); [discriminate|]. cbn [is_rest andb negb comp] in H. destruct (open || p && (k =? 0)) eqn:E; [|discriminate].
    destruct open; [reflexivity|]. cbn in E. apply andb_true_iff in E. destruct E as [Ep Ek]. apply Nat.eqb_eq in Ek. specialize (Hp Ep). cbn in Hp. lia.
  - destruct (n <=? k); [discriminate|]. destruct (is_rest t && _); [discriminate|]. destruct (comp _ t (base + k) s) as [s1|]; [|discriminate].
    refine (IH _ _ _ H _). intros E. cbn [length] in Hp. specialize (Hp E). lia.
Qed.

(** Extents, words and names that are left as they are. *)
Definition Fit (t : tree) : Prop := forall u, Sub t u -> Counted u.
Definition Basic (t : tree) : Prop := forall open i s s', comp open t i s = Some s' -> i < extent s -> Fit t ->
  extent s' = extent s + size t /\
  (forall j, j <> i -> j < extent s \/ extent s' <= j -> code s' j = code s j) /\
  (forall y, ~ In y (defs t) -> names s' y = names s y).
Lemma steps_basic l : Forall Basic l -> forall b s s', Steps l b s s' -> b + length l <= extent s -> (forall t, In t l -> Fit t) ->
  extent s' = extent s + list_sum (map size l) /\
  (forall j, j < b \/ b + length l <= j -> j < extent s \/ extent s' <= j -> code s' j = code s j) /\
  (forall y, ~ In y (defs_all l) -> names s' y = names s y).
Proof.
  induction 1 as [|t l Ht Hl IH]; intros b s s' H Hb HF.
  - inversion H; subst. cbn. split; [lia|]. auto.
  - inversion H as [|open t0 l0 b0 s0 s1 s2 Hr Hc Hs]; subst. cbn [length] in Hb.
    destruct (Ht _ _ _ _ Hc ltac:(lia) (HF t (or_introl eq_refl))) as (E1 & C1 & N1).
    destruct (IH _ _ _ Hs ltac:(lia) (fun u Hu => HF u (or_intror Hu))) as (E2 & C2 & N2).
    cbn [map list_sum length fold_right]. change (fold_right Nat.add 0 (map size l)) with (list_sum (map size l)). split; [lia|]. split.
    + intros j Hj He. rewrite C2 by lia. apply C1; lia.
    + intros y Hy. rewrite defs_all_cons, in_app_iff in Hy. rewrite N2 by tauto. apply N1. tauto.
Qed.
Lemma sub_fit_node x c n p l t : Fit (Node x c n p l) -> In t l -> Fit t.
Proof. intros H Hin u Hu. apply H. eapply sub_node; eassumption. Qed.
Lemma sub_fit_set x l t : Fit (SetOf x l) -> In t l -> Fit t.
Proof. intros H Hin u Hu. apply H. eapply sub_set; eassumption. Qed.
Lemma node_length open p n base l s s' : members open p n base l 0 s = Some s' -> length l <= n.
Proof. intros H. destruct (members_steps _ _ _ _ _ _ _ _ H) as (_ & _ & _ & _ & _ & [-> |L]); cbn in *; lia. Qed.
Lemma basic t : Basic t.
Proof.
  induction t as [z|h l| | |x|x|x c n p l IH|x l IH] using tree_all; intros open i s s' H Hi HF.
  - injection H as <-. cbn [size]. split; [cbn; lia|]. split; [intros j Hj _; apply put_other; exact Hj|]. reflexivity.
  - cbn [comp] in H. injection H as <-. cbn [size].
    split; [cbn [grow extent]; rewrite put_all_extent; reflexivity|]. split.
    + cbn [grow extent code]. rewrite put_all_extent. cbn [put extent]. intros j Hj He. rewrite put_all_other by (cbn [length]; rewrite map_length; lia). rewrite put_other by lia. apply put_other. exact Hj.
    + intros y _. cbn [grow names]. rewrite put_all_names. reflexivity.
  - cbn [comp] in H. destruct open; [|discriminate]. injection H as <-. cbn [size]. split; [cbn; lia|]. split; [intros j Hj _; apply put_other; exact Hj|]. reflexivity.
  - cbn [comp] in H. destruct open; [|discriminate]. injection H as <-. cbn [size]. split; [cbn; lia|]. split; [intros j Hj _; apply (put_other i Tail s j Hj)|]. reflexivity.
  - cbn [comp] in H. destruct open; [|discriminate]. injection H as <-. cbn [size]. split; [cbn; lia|]. split; [intros j Hj _; apply (put_other i Wild s j Hj)|].
    intros y Hy. cbn in *. destruct (Nat.eqb_spec y x); [subst; tauto|reflexivity].
  - cbn [comp] in H. destruct (names s x) as [k|]; [|discriminate]. injection H as <-. cbn [size]. split; [cbn; lia|]. split; [intros j Hj _; apply put_other; exact Hj|]. reflexivity.
  - rewrite comp_node in H. assert (Ln := node_length _ _ _ _ _ _ _ H).
    destruct (members_steps _ _ _ _ _ _ _ _ H) as (s1 & S1 & C1 & E1 & N1 & _). rewrite Nat.add_0_r in S1.
    destruct (steps_basic l IH _ _ _ S1) as (E2 & C2 & N2).
    { rewrite begin_node_extent. lia. } { intros t Ht. exact (sub_fit_node _ _ _ _ _ _ HF Ht). }
    rewrite begin_node_extent in E2, C2. cbn [size]. split; [lia|]. split.
    + intros j Hj He. rewrite C1, C2 by lia. apply begin_node_other; [exact Hj|lia].
    + intros y Hy. rewrite defs_node, in_app_iff in Hy. rewrite N1, N2 by tauto. rewrite begin_node_names. apply with_label_other. tauto.
  - destruct l as [|t l].
    + rewrite comp_nothing in H. destruct x; [discriminate|]. injection H as <-. cbn [size length map list_sum fold_right]. split; [cbn; lia|]. split; [|reflexivity].
      intros j Hj He. cbn [grow extent put] in He. change (code (put (extent s) (Set_ 0) (put i (Ptr (bits12 (extent s))) s)) j = code s j).
      rewrite put_other by lia. apply put_other. exact Hj.
    + rewrite comp_set in H. destruct (mark_elements (t :: l) (names (name_opt x i s))) as [a|] eqn:Ea; [|discriminate].
      assert (S1 := elements_steps _ _ _ _ _ _ H). rewrite Nat.add_0_r in S1.
      assert (Hc := HF _ (sub_here _)). unfold Counted in Hc.
      destruct (steps_basic (t :: l) IH _ _ _ S1) as (E2 & C2 & N2).
      { rewrite begin_set_extent, Nat.mod_small by exact Hc. lia. } { intros u Hu. exact (sub_fit_set _ _ _ HF Hu). }
      rewrite begin_set_extent, Nat.mod_small in E2, C2 by exact Hc. cbn [size]. split; [lia|]. split.
      * intros j Hj He. rewrite C2 by lia. apply begin_set_other; [exact Hj|lia].
      * intros y Hy. rewrite defs_set, in_app_iff in Hy. rewrite N2 by tauto. cbn [begin_set grow put set_names names].
        rewrite (mark_elements_names _ _ _ Ea) by tauto. rewrite name_opt_names. apply with_label_other. tauto.
Qed.

Section Show.
Context (m : nat -> word) (rho : nat -> nat).

Definition Env (V : list nat) (s : state) : Prop := forall x, In x V ->
  exists j, names s x = Some j /\ j < 4096 /\ (forall f, follow (S (S f)) m j = Some (rho x)) /\ rho x < extent s.
Definition Placed (pl : list (nat * nat)) : Prop := forall x k, In (x, k) pl -> rho x = k.
Definition Good (t : tree) : Prop := forall u, Sub t u -> Counted u /\ Late u.
Lemma good_fit t : Good t -> Fit t. Proof. intros H u Hu. apply H. exact Hu. Qed.
Definition Visible (t : tree) : Prop := forall open i s s' V, comp open t i s = Some s' -> i < extent s -> extent s' <= 4096 -> Good t ->
  NoDup (V ++ defs t) -> (forall a x b, events t = a ++ U x :: b -> In x V \/ In (D x) a) -> (forall x, t = Use x -> rho x < i) ->
  Placed (place t i (extent s)) -> Env V s -> m i = code s' i -> (forall j, extent s <= j < extent s' -> m j = code s' j) ->
  (exists o N, (forall f, N <= f -> show f m i = Some o) /\ Shown rho t o) /\ Env (V ++ defs t) s'.

Lemma wild_all r : forall j, (forall k, k < r -> m (j + k) = Wild) -> forall f, r < f -> show_all f m j r true = Some [].
Proof.
  induction r as [|r IH]; intros j H f Hf; (destruct f as [|f]; [lia|]); cbn [show_all]; [reflexivity|].
  destruct f as [|f]; [lia|]. cbn [show]. assert (H0 := H 0 ltac:(lia)). rewrite Nat.add_0_r in H0. rewrite H0. cbn [orb].
  rewrite (IH (S j)); [reflexivity| |lia]. intros k Hk. rewrite Nat.add_succ_l, <- Nat.add_succ_r. apply H. lia.
Qed.
Lemma shown_rest t o : Shown rho t o -> t <> Rest -> o <> ORest.
Proof. intros H N. inversion H; subst; congruence. Qed.

Lemma steps_visible l : Forall Visible l -> forall b s s' V r, Steps l b s s' -> b + length l <= extent s -> extent s' <= 4096 ->
  (forall t, In t l -> Good t) -> NoDup (V ++ defs_all l) ->
  (forall a x c, flat_map events l = a ++ U x :: c -> In x V \/ In (D x) a) ->
  (forall j x, nth_error l j = Some (Use x) -> In x V -> rho x < b + j) ->
  (forall i j a x, i < j -> nth_error l i = Some a -> nth_error l j = Some (Use x) -> ~ In x (inside a)) ->
  Placed (places l b (extent s)) -> Env V s ->
  (forall j, b <= j < b + length l -> m j = code s' j) -> (forall j, extent s <= j < extent s' -> m j = code s' j) ->
  (r = 0 \/ (ends_with_rest l /\ forall k, k < r -> m (b + length l + k) = Wild)) ->
  (exists l' N, (forall f, N <= f -> show_all f m b (length l + r) false = Some l') /\ Forall2 (Shown rho) l l') /\ Env (V ++ defs_all l) s'.
Proof.
  induction 1 as [|t l Ht Hl IH]; intros b s s' V r H Hb He HG HN HU HV HL HP HE HM HX HR.
  - inversion H; subst. split; [|intros x Hx; rewrite app_nil_r in Hx; exact (HE x Hx)].
    destruct HR as [-> |[[l0 El] _]]; [|destruct l0; discriminate].
    exists [], 1. split; [intros [|f] Hf; [lia|reflexivity]|constructor].
  - inversion H as [|open t0 l0 b0 s0 s1 s2 Hr Hc Hs]; subst. cbn [length] in Hb.
    assert (Hbase := Forall_forall Basic l). destruct (basic t _ _ _ _ Hc ltac:(lia) (good_fit _ (HG t (or_introl eq_refl)))) as (E1 & C1 & N1).
    destruct (steps_basic l (proj2 (Forall_forall Basic l) (fun u _ => basic u)) _ _ _ Hs ltac:(lia) (fun u Hu => good_fit _ (HG u (or_intror Hu)))) as (E2 & C2 & N2).
    rewrite defs_all_cons in *. cbn [places] in HP. cbn [length] in HM.
    destruct (Ht open b s s1 V Hc ltac:(lia) ltac:(lia) (HG t (or_introl eq_refl))) as ((o & N & Ho & So) & HE1).
    { rewrite app_assoc in HN. revert HN. generalize (V ++ defs t). intros A HN. clear -HN. induction A as [|x A IH]; [constructor|].
      inversion HN; subst. constructor; [rewrite in_app_iff in *; tauto|apply IH; assumption]. }
    { intros a x c Ea. destruct (HU a x (c ++ flat_map events l)) as [|]; [|left; assumption|right; assumption].
      cbn [flat_map]. rewrite Ea, <- app_assoc. reflexivity. }
    { intros x ->. assert (In x V). { destruct (HU [] x (flat_map events l) eq_refl) as [|[]]. assumption. }
      specialize (HV 0 x eq_refl H0). lia. }
    { intros x k Hx. apply HP, in_or_app. left. exact Hx. } { exact HE. }
    { rewrite HM by lia. apply C2; lia. } { intros j Hj. rewrite HX by lia. apply C2; lia. }
    destruct (IH (S b) s1 s' (V ++ defs t) (if is_rest t then 0 else r) Hs) as ((l' & N' & Hl' & Sl) & HE').
    { lia. } { exact He. } { intros u Hu. apply HG. right. exact Hu. } { rewrite <- app_assoc. exact HN. }
    { intros a x c Ea. destruct (HU (events t ++ a) x c) as [Hx|Hx].
      - cbn [flat_map]. rewrite Ea, app_assoc. reflexivity.
      - left. apply in_or_app. left. exact Hx.
      - apply in_app_or in Hx. destruct Hx as [Hx|Hx]; [left; apply in_or_app; right; apply in_defined; exact Hx|right; exact Hx]. }
    { intros j x Hj Hx. apply in_app_or in Hx. destruct Hx as [Hx|Hx].
      - specialize (HV (S j) x Hj Hx). lia.
      - destruct t as [ | | | |y| | | ]; try (exfalso; refine (HL 0 (S j) _ x ltac:(lia) eq_refl Hj _); exact Hx).
        cbn in Hx. destruct Hx as [-> |[]]. assert (rho x = b) by (apply HP; left; reflexivity). lia. }
    { intros i j a x Hij Hi Hj. exact (HL (S i) (S j) a x ltac:(lia) Hi Hj). }
    { intros x k Hx. apply HP, in_or_app. right. rewrite E1 in Hx. exact Hx. } { exact HE1. }
    { intros j Hj. apply HM. lia. } { intros j Hj. apply HX. lia. }
    { destruct HR as [-> |[[l0 El] HR]]; [left; destruct (is_rest t); reflexivity|].
      destruct t; cbn [is_rest]; try (right; split; [destruct l0 as [|u l0]; [discriminate|]; injection El as _ ->; exists l0; reflexivity|];
        intros k Hk; specialize (HR k Hk); cbn [length] in HR; rewrite <- HR; f_equal; lia). left. reflexivity. }
    split; [|rewrite app_assoc; exact HE'].
    destruct (is_rest t) eqn:Er.
    + destruct t; try discriminate. specialize (Hr eq_refl). subst l. inversion Sl; subst l'. inversion So; subst o.
      exists [ORest], (S (S (S N + r))). split; [|constructor; [constructor|constructor]].
      intros f Hf. destruct f as [|f]; [lia|]. cbn [length plus]. cbn [show_all]. rewrite (Ho f ltac:(lia)). cbn [orb].
      rewrite (wild_all r (S b)); [reflexivity| |lia].
      intros k Hk. destruct HR as [-> |[_ HR]]; [lia|]. rewrite <- (HR k Hk). cbn [length]. f_equal. lia.
    + assert (No : o <> ORest) by (apply (shown_rest t o So); intros ->; discriminate).
      exists (o :: l'), (S (N + N')). split; [|constructor; assumption].
      intros f Hf. destruct f as [|f]; [lia|]. cbn [length plus]. cbn [show_all]. rewrite (Ho f ltac:(lia)).
      replace (false || match o with ORest => true | _ => false end) with false by (destruct o; try reflexivity; contradiction).
      rewrite (Hl' f ltac:(lia)). reflexivity.
Qed.
End Show.
