(** Whole objects; the positions of names. *)
From Verif Require Import Base Cmp_model Cmp_spec Cmp_proofs Cmp2_proofs.
Local Open Scope nat_scope.

Section Show.
Context (m : nat -> word) (rho : nat -> nat).

Lemma small i : i < 4096 -> bits12 i = i. Proof. intros H. unfold bits12. apply Nat.mod_small. exact H. Qed.
Lemma follow_here f i : (forall j, m i <> Ptr j) -> follow (S f) m i = Some i.
Proof. intros H. cbn [follow]. destruct (m i) eqn:E; try reflexivity. specialize (H i0). contradiction. Qed.
Lemma show_struct f i e : m i = Ptr e -> i < e -> (forall j, m e <> Ptr j) ->
  show (S (S f)) m i = match m e with
                   | Head c n => match show_all (S f) m (S e) n false with Some l => Some (ONode e c l) | None => None end
                   | Set_ n => match show_all (S f) m (S e) n false with Some l => Some (OSet e l) | None => None end
                   | WRaw h n => Some (ORaw h (map m (seq (S e) n)))
                   | _ => Some OBad
                   end.
Proof.
  intros H1 H2 H3. cbn [show]. rewrite H1, (follow_here f e H3). destruct (Nat.ltb_spec e i); [lia|]. reflexivity.
Qed.
Lemma good_node x c n p l t : Good (Node x c n p l) -> In t l -> Good t.
Proof. intros H Hin u Hu. apply H. eapply sub_node; eassumption. Qed.
Lemma good_set x l t : Good (SetOf x l) -> In t l -> Good t.
Proof. intros H Hin u Hu. apply H. eapply sub_set; eassumption. Qed.
Lemma env_more V s s' : Env m rho V s -> (forall y, In y V -> names s' y = names s y) -> extent s <= extent s' -> Env m rho V s'.
Proof. intros H Hn He x Hx. destruct (H x Hx) as (j & Hj & A & B & C). exists j. rewrite (Hn x Hx). split; [exact Hj|]. split; [exact A|]. split; [exact B|lia]. Qed.
Lemma env_app V V' s : Env m rho V s -> Env m rho V' s -> Env m rho (V ++ V') s.
Proof. intros H H' x Hx. apply in_app_or in Hx. destruct Hx; [apply H|apply H']; assumption. Qed.
Lemma nodup_disjoint (V W : list nat) x : NoDup (V ++ W) -> In x V -> ~ In x W.
Proof.
  induction V as [|y V IH]; [intros _ []|]. intros H Hx Hw. inversion H; subst. destruct Hx as [-> |Hx]; [apply H2, in_or_app; right; exact Hw|].
  exact (IH H3 Hx Hw).
Qed.
Lemma nil_empty V s s' : Env m rho V s -> (forall y, In y V -> names s' y = names s y) -> extent s <= extent s' -> Env m rho (V ++ []) s'.
Proof. rewrite app_nil_r. apply env_more. Qed.
Lemma map_seq (f : nat -> word) l : forall k, (forall j, j < length l -> f (k + j) = nth j (map W l) Undef) -> map f (seq k (length l)) = map W l.
Proof.
  induction l as [|z l IH]; intros k H; [reflexivity|]. cbn [length seq map]. f_equal.
  - assert (E := H 0 ltac:(cbn; lia)). rewrite Nat.add_0_r in E. exact E.
  - apply IH. intros j Hj. rewrite Nat.add_succ_l, <- Nat.add_succ_r. apply (H (S j)). cbn. lia.
Qed.

(** Entering a structure: its label. *)
Lemma env_label V s s0 x i e : Env m rho V s -> NoDup (V ++ labels x) -> (forall y, In y (V ++ labels x) -> names s0 y = with_label x i (names s) y) ->
  extent s <= extent s0 -> e < extent s0 -> i < 4096 -> m i = Ptr e -> (forall j, m e <> Ptr j) -> Placed rho (labelled x e) -> Env m rho (V ++ labels x) s0.
Proof.
  intros HE HN Hn Hs He Hi Hp Hh HP y Hy. assert (Hy' := Hy). apply in_app_or in Hy. destruct Hy as [Hy|Hy].
  - destruct (HE y Hy) as (j & Hj & A & B & C). exists j. rewrite (Hn y Hy').
    rewrite with_label_other by (apply (nodup_disjoint V); assumption). split; [exact Hj|]. split; [exact A|]. split; [exact B|lia].
  - destruct x as [x|]; [|destruct Hy]. cbn in Hy. destruct Hy as [<- |[]]. exists i. rewrite (Hn x Hy'). cbn [with_label]. rewrite Nat.eqb_refl.
    assert (R : rho x = e) by (apply HP; left; reflexivity). split; [reflexivity|]. split; [exact Hi|]. split; [|lia].
    intros f. rewrite R. cbn [follow]. rewrite Hp. destruct (m e) eqn:E; try reflexivity. specialize (Hh i0). contradiction.
Qed.

Lemma visible t : Visible m rho t.
Proof.
  induction t as [z|h l| | |x|x|x c n p l IH|x l IH] using tree_all; intros open i s s' V H Hi He HG HN HU HR HP HE Hm HX.
  - injection H as <-. change (defs (Val z)) with (@nil nat). split; [|apply nil_empty with s; [exact HE|reflexivity|apply le_n]].
    rewrite put_same in Hm. exists (OVal z), 1. split; [|constructor]. intros [|f] Hf; [lia|]. cbn [show]. rewrite Hm. reflexivity.
  - destruct (basic _ _ _ _ _ H Hi (good_fit _ HG)) as (Ee & Cc & Nn). cbn [size] in Ee. cbn [comp] in H. injection H as <-.
    change (defs (Raw h l)) with (@nil nat). split; [|apply nil_empty with s; [exact HE|intros y _; apply Nn; exact (fun F => F)|lia]].
    rewrite Ee in HX, He. set (q := put_all _ _ _) in *. cbn [grow code] in Hm, HX.
    unfold q in Hm. rewrite put_all_other in Hm by lia. rewrite put_other in Hm by lia. rewrite put_same, small in Hm by lia.
    assert (Hh : m (extent s) = WRaw h (length l)).
    { rewrite HX by lia. unfold q. rewrite put_all_other by lia. apply put_same. }
    exists (ORaw h (map W l)), 2. split; [|constructor]. intros [|[|f]] Hf; try lia.
    rewrite (show_struct f i (extent s) Hm Hi) by (rewrite Hh; discriminate). rewrite Hh. do 2 f_equal. apply map_seq.
    intros j Hj. rewrite HX by lia. apply put_all_same.
    apply nth_error_nth'. rewrite map_length. exact Hj.
  - cbn [comp] in H. destruct open; [|discriminate]. injection H as <-. change (defs Any) with (@nil nat).
    split; [|apply nil_empty with s; [exact HE|reflexivity|apply le_n]]. rewrite put_same in Hm.
    exists (OWild i), 1. split; [|constructor]. intros [|f] Hf; [lia|]. cbn [show]. rewrite Hm. reflexivity.
  - cbn [comp] in H. destruct open; [|discriminate]. injection H as <-. change (defs Rest) with (@nil nat).
    split; [|apply nil_empty with s; [exact HE|reflexivity|apply le_n]]. cbn [set_cut code] in Hm. rewrite put_same in Hm.
    exists ORest, 1. split; [|constructor]. intros [|f] Hf; [lia|]. cbn [show]. rewrite Hm. reflexivity.
  - cbn [comp] in H. destruct open; [|discriminate]. injection H as <-. change (defs (Var x)) with [x] in *. rewrite put_same in Hm.
    assert (R : rho x = i) by (apply HP; left; reflexivity). cbn [put extent name] in He.
    split.
    + exists (OWild (rho x)), 1. split; [|constructor]. intros [|f] Hf; [lia|]. cbn [show]. rewrite Hm, R. reflexivity.
    + apply env_app.
      * apply (env_more V s); [exact HE| |apply le_n]. intros y Hy. cbn [put names name]. destruct (Nat.eqb_spec y x); [|reflexivity].
        subst. exfalso. apply (nodup_disjoint _ _ _ HN Hy). left. reflexivity.
      * intros y [<- |[]]. exists i. cbn [put names name extent]. rewrite Nat.eqb_refl. split; [reflexivity|]. split; [lia|]. split; [|lia].
        intros f. rewrite R. apply follow_here. rewrite Hm. discriminate.
  - cbn [comp] in H. destruct (names s x) as [k|] eqn:Ek; [|discriminate]. injection H as <-. change (defs (Use x)) with (@nil nat).
    split; [|apply nil_empty with s; [exact HE|reflexivity|apply le_n]]. rewrite put_same in Hm.
    destruct (HU [] x [] eq_refl) as [Hx|[]]. destruct (HE x Hx) as (j & Hj & A & B & C). rewrite Ek in Hj. injection Hj as <-.
    rewrite small in Hm by exact A. specialize (HR x eq_refl).
    exists (OUse (rho x)), 3. split; [|constructor]. intros [|[|[|f]]] Hf; try lia. cbn [show]. rewrite Hm, B.
    destruct (Nat.ltb_spec (rho x) i); [reflexivity|lia].
  - assert (Hc := proj1 (HG _ (sub_here _))). assert (HL := proj2 (HG _ (sub_here _))). unfold Counted in Hc. unfold Late in HL.
    destruct (basic _ _ _ _ _ H Hi (good_fit _ HG)) as (Ee & _ & _). cbn [size] in Ee.
    rewrite comp_node in H. assert (Ln := node_length _ _ _ _ _ _ _ H).
    destruct (members_steps _ _ _ _ _ _ _ _ H) as (s1 & S1 & C1 & E1 & N1 & _). rewrite Nat.add_0_r in S1.
    set (s0 := begin_node open x c n i s) in *. assert (X0 : extent s0 = S (extent s) + n) by apply begin_node_extent.
    destruct (steps_basic l (proj2 (Forall_forall Basic l) (fun u _ => basic u)) _ _ _ S1) as (E2 & C2 & N2).
    { lia. } { intros t Ht. exact (good_fit _ (good_node _ _ _ _ _ _ HG Ht)). }
    destruct (begin_node_head open x c n i s Hi) as (B1 & B2). fold s0 in B1, B2.
    assert (Mi : m i = Ptr (extent s)). { rewrite Hm, C1, C2 by lia. rewrite B1, small by lia. reflexivity. }
    assert (Me : m (extent s) = Head c n). { rewrite HX, C1, C2 by lia. exact B2. }
    rewrite defs_node in *. rewrite place_node in HP. cbn [events] in HU.
    destruct (steps_visible m rho l IH (S (extent s)) s0 s1 (V ++ labels x) (n - length l) S1) as ((l' & N & Hl & Sl) & HE').
    { lia. } { lia. } { intros t Ht. exact (good_node _ _ _ _ _ _ HG Ht). } { rewrite <- app_assoc. exact HN. }
    { intros a y b Ea. destruct (HU (label x ++ a) y b) as [Hy|Hy]; [rewrite Ea, app_assoc; reflexivity|left; apply in_or_app; left; exact Hy|].
      apply in_app_or in Hy. destruct Hy as [Hy|Hy]; [|right; exact Hy]. left. apply in_or_app. right. destruct x as [x|]; [|destruct Hy]. destruct Hy as [Hy|[]]. injection Hy as ->. left. reflexivity. }
    { intros j y Hj Hy. apply in_app_or in Hy. destruct Hy as [Hy|Hy].
      - destruct (HE y Hy) as (_ & _ & _ & _ & Q). lia.
      - destruct x as [x|]; [|destruct Hy]. cbn in Hy. destruct Hy as [<- |[]]. assert (rho x = extent s) by (apply HP; left; reflexivity). lia. }
    { exact HL. } { intros y k Hy. apply HP, in_or_app. right. rewrite X0 in Hy. exact Hy. }
    { refine (env_label V s s0 x i (extent s) HE _ _ _ _ _ Mi _ _); [|intros y _; unfold s0; rewrite begin_node_names; reflexivity|lia|lia|lia|rewrite Me; discriminate|].
      - rewrite app_assoc in HN. revert HN. generalize (V ++ labels x). intros A HN. clear -HN. induction A as [|y A IH]; [constructor|].
        inversion HN; subst. constructor; [rewrite in_app_iff in *; tauto|apply IH; assumption].
      - intros y k Hy. apply HP, in_or_app. left. exact Hy. }
    { intros j Hj. rewrite HX, C1 by lia. reflexivity. } { intros j Hj. rewrite HX, C1 by lia. reflexivity. }
    { destruct (Nat.eq_dec (length l) n) as [En|En]; [left; lia|]. right. destruct Hc as [Hc|[Hc Hp]]; [contradiction|]. split; [exact Hc|].
      assert (O : open = true). { destruct Hc as [l0 ->]. refine (members_rest _ _ _ _ _ _ _ _ H _). intros Ep. specialize (Hp Ep). rewrite app_length in Hp. cbn in Hp. lia. }
      intros k Hk. rewrite HX, C1, C2 by lia. unfold s0. rewrite O. rewrite <- Nat.add_assoc. apply begin_node_fill. lia. }
    split.
    + exists (ONode (extent s) c l'), (S (S N)). split.
      * intros [|[|f]] Hf; try lia. rewrite (show_struct f i (extent s) Mi Hi) by (rewrite Me; discriminate). rewrite Me.
        replace n with (length l + (n - length l)) by lia. rewrite (Hl (S f)) by lia. reflexivity.
      * constructor; [|exact Sl]. intros y ->. apply HP. left. reflexivity.
    + rewrite app_assoc. intros y Hy. destruct (HE' y Hy) as (j & Q). exists j. rewrite N1, E1. exact Q.
  - assert (Hc := proj1 (HG _ (sub_here _))). assert (HL := proj2 (HG _ (sub_here _))). unfold Counted in Hc. unfold Late in HL.
    destruct (basic _ _ _ _ _ H Hi (good_fit _ HG)) as (Ee & _ & Nn). cbn [size] in Ee.
    destruct l as [|t l].
    + rewrite comp_nothing in H. destruct x as [x|]; [discriminate|]. cbn [length map list_sum fold_right] in Ee. injection H as <-.
      change (defs (SetOf None [])) with (@nil nat). split; [|apply nil_empty with s; [exact HE|reflexivity|lia]].
      rewrite Ee in HX, He. cbn [grow code] in Hm, HX.
      assert (Mi : m i = Ptr (extent s)). { rewrite Hm. rewrite put_other by lia. rewrite put_same, small by lia. reflexivity. }
      assert (Me : m (extent s) = Set_ 0). { rewrite HX by lia. apply put_same. }
      exists (OSet (extent s) []), 2. split; [|constructor; [discriminate|constructor]]. intros [|[|f]] Hf; try lia.
      rewrite (show_struct f i (extent s) Mi Hi) by (rewrite Me; discriminate). rewrite Me. reflexivity.
    + rewrite comp_set in H. destruct (mark_elements (t :: l) (names (name_opt x i s))) as [a|] eqn:Ea; [|discriminate].
      clear HR. revert Hc HL Ee Ea H IH HG HN HU HP Nn. generalize (t :: l) as k. clear t l. intros l Hc HL Ee Ea H IH HG HN HU HP Nn.
      assert (S1 := elements_steps _ _ _ _ _ _ H). rewrite Nat.add_0_r in S1.
      set (s0 := begin_set x (length l) i a s) in *. assert (X0 : extent s0 = S (extent s) + length l).
      { unfold s0. rewrite begin_set_extent, Nat.mod_small by exact Hc. lia. }
      destruct (steps_basic l (proj2 (Forall_forall Basic l) (fun u _ => basic u)) _ _ _ S1) as (E2 & C2 & N2).
      { lia. } { intros t Ht. exact (good_fit _ (good_set _ _ _ HG Ht)). }
      destruct (begin_set_head x (length l) i a s Hi) as (B1 & B2). fold s0 in B1, B2. rewrite Nat.mod_small in B2 by exact Hc.
      assert (Mi : m i = Ptr (extent s)). { rewrite Hm, C2 by lia. rewrite B1, small by lia. reflexivity. }
      assert (Me : m (extent s) = Set_ (length l)). { rewrite HX, C2 by lia. exact B2. }
      rewrite defs_set in *. rewrite place_set in HP. cbn [events] in HU.
      destruct (steps_visible m rho l IH (S (extent s)) s0 s' (V ++ labels x) 0 S1) as ((l' & N & Hl & Sl) & HE').
      { lia. } { lia. } { intros t Ht. exact (good_set _ _ _ HG Ht). } { rewrite <- app_assoc. exact HN. }
      { intros b y d Eb. destruct (HU (label x ++ b) y d) as [Hy|Hy]; [rewrite Eb, app_assoc; reflexivity|left; apply in_or_app; left; exact Hy|].
        apply in_app_or in Hy. destruct Hy as [Hy|Hy]; [|right; exact Hy]. left. apply in_or_app. right. destruct x as [x|]; [|destruct Hy]. destruct Hy as [Hy|[]]. injection Hy as ->. left. reflexivity. }
      { intros j y Hj Hy. apply in_app_or in Hy. destruct Hy as [Hy|Hy].
        - destruct (HE y Hy) as (_ & _ & _ & _ & Q). lia.
        - destruct x as [x|]; [|destruct Hy]. cbn in Hy. destruct Hy as [<- |[]]. assert (rho x = extent s) by (apply HP; left; reflexivity). lia. }
      { exact HL. } { intros y k Hy. apply HP, in_or_app. right. rewrite X0 in Hy. exact Hy. }
      { refine (env_label V s s0 x i (extent s) HE _ _ _ _ _ Mi _ _); [| |lia|lia|lia|rewrite Me; discriminate|].
        - rewrite app_assoc in HN. revert HN. generalize (V ++ labels x). intros A HN. clear -HN. induction A as [|y A IH]; [constructor|].
          inversion HN; subst. constructor; [rewrite in_app_iff in *; tauto|apply IH; assumption].
        - intros y Hy. unfold s0, begin_set. cbn [grow put set_names names]. rewrite (mark_elements_names _ _ _ Ea).
          + rewrite name_opt_names. reflexivity.
          + rewrite app_assoc in HN. exact (nodup_disjoint _ _ _ HN Hy).
        - intros y k Hy. apply HP, in_or_app. left. exact Hy. }
      { intros j Hj. rewrite HX by lia. reflexivity. } { intros j Hj. rewrite HX by lia. reflexivity. } { left. reflexivity. }
      split.
      * exists (OSet (extent s) l'), (S (S N)). split.
        -- intros [|[|f]] Hf; try lia. rewrite (show_struct f i (extent s) Mi Hi) by (rewrite Me; discriminate). rewrite Me.
           rewrite <- (Nat.add_0_r (length l)). rewrite (Hl (S f)) by lia. reflexivity.
        -- constructor; [|exact Sl]. intros y ->. apply HP. left. reflexivity.
      * rewrite app_assoc. exact HE'.
Qed.
End Show.

