(** Proofs on the objects that are written, the reuse of a decompiler, and the stream. *)
From Coq Require Import Sorted.
From Verif Require Import Base Obj_model Dec_model Dec_spec Dec_proofs.
Local Opaque to_string make_suffix.

(** ** Again the same image *)

Lemma pass1_again sym os : forall i st, (forall k o s, nth_error os k = Some o -> sym (o_oid o) = Some s -> find_z (by_index st) (i + Z.of_nat k) = Some s) ->
  snd (pass1 sym os i st) = true /\ forall j, find_z (by_index (fst (pass1 sym os i st))) j = find_z (by_index st) j.
Proof.
  induction os as [|o os IH]; intros i st F; cbn [pass1]; auto. destruct (sym (o_oid o)) as [s|] eqn:Y.
  - cbn [by_index]. pose proof (F 0%nat o s eq_refl Y) as F0. rewrite Z.add_0_r in F0. rewrite F0. rewrite teqb_refl, andb_false_r.
    set (st1 := assign _ i s). assert (A : forall j, find_z (by_index st1) j = find_z (by_index st) j).
    { intros j. unfold st1. destruct (Z.eq_dec j i) as [->|D]; [rewrite assign_same; auto|rewrite assign_other; auto]. }
    destruct (IH (i + 1) st1) as (I1 & I2).
    { intros k o' s' K S'. rewrite A. replace (i + 1 + Z.of_nat k) with (i + Z.of_nat (S k)) by lia. eauto. }
    split; auto. intros j. rewrite I2. auto.
  - apply IH. intros k o' s' K S'. replace (i + 1 + Z.of_nat k) with (i + Z.of_nat (S k)) by lia. eauto.
Qed.
Lemma pass2_again img os : forall i cnt st, (forall k, (k < length os)%nat -> find_z (by_index st) (i + Z.of_nat k) <> None) -> pass2 img os i cnt st = Some st.
Proof.
  induction os as [|o os IH]; intros i cnt st F; cbn [pass2]; auto.
  assert (R : forall c, pass2 img os (i + 1) c st = Some st).
  { intros c. apply IH. intros k K. replace (i + 1 + Z.of_nat k) with (i + Z.of_nat (S k)) by lia. apply F. cbn. lia. }
  destruct (symbol img (o_oid o)); auto. destruct (find_z (by_index st) i) eqn:E; auto. exfalso. apply (F 0%nat); [cbn; lia|]. rewrite Z.add_0_r. auto.
Qed.
Lemma again img st : decompile_references no_names [] img = Named st -> exists st', decompile_references st [] img = Named st' /\ forall i, name st' i = name st i.
Proof.
  intros H. pose proof (named_facts [] [] img st H) as (N1 & N2 & N3). cbn in N2, N3. apply refs_named in H as (L & _).
  unfold decompile_references. cbn [prefill fold_left]. rewrite reached_all by lia.
  destruct (pass1_again (symbol img) (objs img) 0 st) as (P1 & P2).
  { intros k o s K S'. rewrite Z.add_0_l. apply N1. exists o; auto. }
  destruct (pass1 (symbol img) (objs img) 0 st) as [st1 ok]. cbn in P1, P2. subst ok. cbn [negb]. destruct (65536 <=? Z.of_nat (length (objs img))) eqn:LE; [lia|].
  rewrite pass2_again.
  - exists st1. split; auto. intros i. apply P2.
  - intros k K. rewrite P2, Z.add_0_l. destruct (object_kind img k K) as [M|(s & U)].
    + destruct (N3 k M eq_refl) as (s & S1 & _). unfold name in S1. congruence.
    + specialize (N1 k s U). unfold name in N1. congruence.
Qed.
(** Another image. *)
Definition nm (n : Z) : text := [110; 48 + n].
Definition img1 : image := mkimage [mkobj 5 3] (fun _ => None) (fun _ => [101; 110; 116]).
Definition img2 : image := mkimage [mkobj 7 3; mkobj 8 3] (fun x => if x =? 7 then Some (nm 0) else None) (fun _ => [101; 110; 116]).
Definition img3 : image := mkimage [mkobj 9 4] (fun _ => None) (fun _ => [109; 100; 108]).
(** The first image is objects, the second one has a named object. *)
Lemma reuse_refused : exists a b st w, decompile no_names a false = Some (st, w) /\
  (exists st', decompile_references st [] b = Refused st') /\
  option_map snd (decompile st b false) <> option_map snd (decompile no_names b false).
Proof.
  exists img1, img2. destruct (decompile no_names img1 false) as [[st w]|] eqn:E; [|vm_compute in E; discriminate]. exists st, w. split; auto.
  vm_compute in E. injection E as <- <-. split; [eexists; vm_compute; reflexivity|]. vm_compute. discriminate.
Qed.
(** The name of an object of the previous image is given to another one. *)
Lemma reuse_stale : exists a b st w st', decompile no_names a false = Some (st, w) /\ decompile_references st [] b = Named st' /\
  name st' 0 = name st 0 /\ (forall s, decompile_references no_names [] b = Named s -> name s 0 <> name st' 0).
Proof.
  exists img1, img3. destruct (decompile no_names img1 false) as [[st w]|] eqn:E; [|vm_compute in E; discriminate]. exists st, w.
  vm_compute in E. injection E as <- <-. eexists. split; [reflexivity|]. split; [vm_compute; reflexivity|]. split; [reflexivity|].
  intros s H. vm_compute in H. injection H as <-. vm_compute. discriminate.
Qed.

(** ** Objects that are written *)

Lemma skipped_unnamed : exists img st w, decompile no_names img true = Some (st, w) /\ made_up img 1 /\ w = [].
Proof.
  exists (mkimage [mkobj 7 3; mkobj (65536 + 7) 3] (fun x => if x =? 7 then Some (nm 0) else None) (fun _ => [101; 110; 116])).
  eexists. eexists. split; [vm_compute; reflexivity|]. split; auto. exists (mkobj (65536 + 7) 3). split; reflexivity.
Qed.
Lemma write_all_spec ign st os : forall i j t, In (j, t) (write_all ign st os i) <-> exists k o, nth_error os k = Some o /\ written ign st o = true /\ j = i + Z.of_nat k /\ t = label st j.
Proof.
  induction os as [|o os IH]; intros i j t; cbn [write_all].
  - split; [intros []|]. intros ([|k] & o & K & _); discriminate.
  - rewrite in_app_iff, IH. split.
    + intros [H|(k & o' & K & W & -> & ->)].
      * destruct (written ign st o) eqn:W; [|destruct H]. destruct H as [H|[]]. injection H as <- <-. exists 0%nat, o. rewrite Z.add_0_r. repeat split; auto.
      * exists (S k), o'. replace (i + Z.of_nat (S k)) with (i + 1 + Z.of_nat k) by lia. auto.
    + intros ([|k] & o' & K & W & -> & ->); cbn in K.
      * injection K as ->. left. rewrite W, Z.add_0_r. left; auto.
      * right. exists k, o'. replace (i + Z.of_nat (S k)) with (i + 1 + Z.of_nat k) by lia. auto.
Qed.
Lemma write_all_sorted ign st os : forall i, StronglySorted Z.lt (map fst (write_all ign st os i)) /\ forall j, In j (map fst (write_all ign st os i)) -> i <= j.
Proof.
  induction os as [|o os IH]; intros i; cbn [write_all]; [split; [constructor|intros j []]|].
  destruct (IH (i + 1)) as (A & B). destruct (written ign st o); cbn.
  - split; [constructor; auto; apply Forall_forall; intros j J; apply B in J; lia|]. intros j [<-|J]; [lia|]. apply B in J. lia.
  - split; auto. intros j J. apply B in J. lia.
Qed.
Lemma decompile_named img ign st w : decompile no_names img ign = Some (st, w) -> decompile_references no_names [] img = Named st /\ w = write_all ign st (objs img) 0 /\ Z.of_nat (length (objs img)) < 65536.
Proof.
  unfold decompile. intros H. destruct (65536 <=? Z.of_nat (length (objs img))) eqn:L; [destruct (decompile_references no_names [] img); discriminate|].
  destruct (new_named img) as (st' & E); [lia|]. rewrite E in *. injection H as <- <-. repeat split; auto; lia.
Qed.
Lemma label_name st i s : name st i = Some s -> label st (Z.of_nat i) = s. Proof. unfold name, label. intros ->. auto. Qed.
Lemma all_written img st w : decompile no_names img false = Some (st, w) -> map fst w = map Z.of_nat (seq 0 (length (objs img))) /\
  forall i t, In (Z.of_nat i, t) w -> name st i = Some t.
Proof.
  intros H. apply decompile_named in H as (H & -> & L). split.
  - assert (G : forall os i, map fst (write_all false st os (Z.of_nat i)) = map Z.of_nat (seq i (length os))).
    { induction os as [|o os IH]; intros i; cbn [write_all]; auto. change (written false st o) with true. cbn [app map fst length seq]. f_equal. replace (Z.of_nat i + 1) with (Z.of_nat (S i)) by lia. apply IH. }
    apply (G (objs img) 0%nat).
  - intros i t I. apply write_all_spec in I as (k & o & K & _ & E & ->). assert (k = i) by lia. subst k.
    pose proof (named_facts [] [] img st H) as (N1 & _ & N3). assert (LI : (i < length (objs img))%nat) by (apply nth_error_Some; congruence).
    destruct (object_kind img i LI) as [M|(s & U)].
    + destruct (N3 i M eq_refl) as (s & S1 & _). rewrite (label_name _ _ _ S1). auto.
    + rewrite (label_name _ _ _ (N1 i s U)). auto.
Qed.
Lemma unnamed_written img st w : decompile no_names img true = Some (st, w) -> (forall o, In o (objs img) -> is_u16 (o_oid o)) ->
  StronglySorted Z.lt (map fst w) /\ forall i t, In (Z.of_nat i, t) w <-> made_up img i /\ name st i = Some t.
Proof.
  intros H U. apply decompile_named in H as (H & -> & L). split; [apply write_all_sorted|].
  pose proof (named_facts [] [] img st H) as (N1 & _ & N3).
  assert (W : forall o, In o (objs img) -> written true st o = true <-> symbol img (o_oid o) = None).
  { intros o O. apply refs_named in H as (_ & st1 & P & Q). apply pass1_spec in P as P'. destruct P' as (_ & _ & _ & P4 & _).
    assert (C : covered st1). { replace st1 with (fst (pass1 (symbol img) (objs img) 0 (prefill no_names []))) by (rewrite P; auto). apply pass1_covered, prefill_covered. intros ? ? F; discriminate. }
    apply (pass2_spec img (objs img) 0 [] st1 st C) in Q as (_ & _ & _ & Q4 & _). unfold written. cbn [andb]. rewrite Q4. rewrite negb_true_iff.
    split.
    - intros E. destruct (symbol img (o_oid o)) eqn:S'; auto. assert (I : In (u16 (o_oid o)) (named st1)) by (apply P4; right; exists o; split; auto; split; [congruence|auto]).
      assert (T : existsb (Z.eqb (u16 (o_oid o))) (named st1) = true) by (apply existsb_exists; exists (u16 (o_oid o)); split; auto; apply Z.eqb_refl). congruence.
    - intros S'. destruct (existsb (Z.eqb (u16 (o_oid o))) (named st1)) eqn:E; auto. apply existsb_exists in E as (x & X1 & X2). apply Z.eqb_eq in X2. subst x.
      apply P4 in X1 as [[]|(o' & O' & S2 & E)]. pose proof (U o O). pose proof (U o' O'). unfold is_u16 in *. unfold u16 in E. rewrite !Z.mod_small in E by lia. congruence. }
  intros i t. rewrite write_all_spec. split.
  - intros (k & o & K & WO & E & ->). assert (k = i) by lia. subst k. apply W in WO; [|apply nth_error_In with i; auto].
    assert (M : made_up img i) by (exists o; auto). split; auto. destruct (N3 i M eq_refl) as (s & S1 & _). rewrite (label_name _ _ _ S1). auto.
  - intros ((o & O & S') & N). exists i, o. split; auto. split; [apply W; auto; apply nth_error_In with i; auto|]. split; [lia|]. symmetry. apply label_name; auto.
Qed.

(** ** The stream *)

Definition marks (d : list item) : list nat := flat_map (fun x => match x with Mark n => [n] | Chunk _ => [] end) d.
Record sinv (d : doc) (s : ostr) : Prop := {
  v_text : content s = render (items d);
  v_len : length (positions s) = pushes d;
  v_idx : stream_index s = map (fun e => (fst e, u16 (Z.of_nat (snd e)))) (last_push d);
  v_pos : forall a n b, items d = a ++ Mark n :: b -> nth n (positions s) 0 = Z.of_nat (length (render a));
  v_bound : forall n, In n (marks (items d)) -> (n < pushes d)%nat;
  v_sorted : StronglySorted lt (marks (items d));
  v_last : forall i n, find_z (last_push d) i = Some n -> In n (marks (items d)) }.
Lemma render_app a b : render (a ++ b) = render a ++ render b. Proof. apply flat_map_app. Qed.
Lemma marks_app a b : marks (a ++ b) = marks a ++ marks b. Proof. apply flat_map_app. Qed.
Lemma marks_split d n : In n (marks d) -> exists a b, d = a ++ Mark n :: b.
Proof.
  induction d as [|[m|t] d IH]; cbn; intros H; [tauto| |].
  - destruct H as [->|H]; [exists [], d; auto|]. destruct (IH H) as (a & b & ->). exists (Mark m :: a), b. auto.
  - destruct (IH H) as (a & b & ->). exists (Chunk t :: a), b. auto.
Qed.
Lemma put_at n t a b : ~ In n (marks a) -> put n t (a ++ Mark n :: b) = a ++ Mark n :: Chunk t :: b.
Proof.
  induction a as [|[m|u] a IH]; cbn; intros H; [rewrite Nat.eqb_refl; auto| |].
  - destruct (Nat.eqb m n) eqn:E; [apply Nat.eqb_eq in E; exfalso; apply H; auto|]. rewrite IH; auto.
  - rewrite IH; auto.
Qed.
Lemma app_mark_inv a n b c m (e : list item) : a ++ Mark n :: b = c ++ Mark m :: e ->
  (exists x, c = a ++ Mark n :: x /\ b = x ++ Mark m :: e) \/ (a = c /\ n = m /\ b = e) \/ (exists x, a = c ++ Mark m :: x /\ e = x ++ Mark n :: b).
Proof.
  revert c; induction a as [|y a IH]; intros [|z c] H; cbn in H.
  - injection H as -> ->. right; left; auto.
  - injection H as <- ->. left. exists c. auto.
  - injection H as -> <-. right; right. exists a. auto.
  - injection H as -> H. destruct (IH _ H) as [(x & -> & ->)|[(-> & -> & ->)|(x & -> & ->)]]; [left; exists x; auto|right; left; auto|right; right; exists x; auto].
Qed.
Lemma sorted_app (a b : list nat) n : StronglySorted lt (a ++ n :: b) -> (forall x, In x a -> (x < n)%nat) /\ (forall x, In x b -> (n < x)%nat).
Proof.
  induction a as [|y a IH]; cbn; intros H; inversion H; subst.
  - split; [intros ? []|]. intros x X. rewrite Forall_forall in H3. auto.
  - destruct (IH H2) as (A & B). rewrite Forall_forall in H3. split; auto. intros x [<-|X]; [apply H3, in_app_iff; right; left; auto|auto].
Qed.
Lemma sorted_snoc (l : list nat) n : StronglySorted lt l -> (forall x, In x l -> (x < n)%nat) -> StronglySorted lt (l ++ [n]).
Proof.
  induction l as [|y l IH]; cbn; intros H B; [repeat constructor|]. inversion H; subst. constructor; [apply IH; auto|].
  apply Forall_app. split; auto.
Qed.
Lemma find_map (l : list (Z * nat)) i : find_z (map (fun e => (fst e, u16 (Z.of_nat (snd e)))) l) i = option_map (fun n => u16 (Z.of_nat n)) (find_z l i).
Proof. induction l as [|[k n] l IH]; cbn; auto. destruct (i =? k); auto. Qed.
Lemma nth_shift x : forall k ps m, nth m (firstn k ps ++ map (Z.add x) (skipn k ps)) 0 = if (m <? k)%nat then nth m ps 0 else if (m <? length ps)%nat then x + nth m ps 0 else 0.
Proof.
  induction k as [|k IH]; intros ps m.
  - cbn [firstn skipn app Nat.ltb]. change (m <? 0)%nat with false. cbn iota. destruct (m <? length ps)%nat eqn:Q.
    + apply Nat.ltb_lt in Q. rewrite nth_indep with (d' := x + 0) by (rewrite map_length; auto). apply map_nth.
    + apply Nat.ltb_ge in Q. apply nth_overflow. rewrite map_length. auto.
  - destruct ps as [|p ps].
    + cbn [firstn skipn app map length nth]. destruct (m <? S k)%nat; destruct m; auto.
    + destruct m as [|m]; cbn [firstn skipn app nth]; auto. rewrite IH. cbn [length].
      change (S m <? S k)%nat with (m <? k)%nat. change (S m <? S (length ps))%nat with (m <? length ps)%nat. auto.
Qed.
Lemma sinv_step d s o : sinv d s -> Z.of_nat (pushes (dstep d o)) < 65536 -> (match o with Insert i _ => find_z (last_push d) i <> None | _ => True end) ->
  exists s', ostep s o = Running s' /\ sinv (dstep d o) s'.
Proof.
  intros [T L X P B S' F] LT OK. destruct o as [t|t i| |i t]; cbn [ostep dstep] in *.
  - eexists; split; [reflexivity|]. constructor; cbn [content positions stream_index items pushes last_push]; auto.
    + rewrite render_app, T. cbn. rewrite app_nil_r. auto.
    + intros a n b E. destruct b as [|y b] using rev_ind; [change (a ++ [Mark n]) with (a ++ [Mark n]) in E; apply app_inj_tail in E as [_ E]; discriminate|].
      rewrite app_comm_cons, app_assoc in E. apply app_inj_tail in E as [E _]. eauto.
    + rewrite marks_app. cbn. rewrite app_nil_r. auto.
    + rewrite marks_app. cbn. rewrite app_nil_r. auto.
    + rewrite marks_app. cbn. rewrite app_nil_r. auto.
  - eexists; split; [reflexivity|]. cbn [pushes] in LT. constructor; cbn [content positions stream_index items pushes last_push].
    + rewrite render_app, T. cbn. rewrite app_nil_r. auto.
    + rewrite app_length, L. cbn. lia.
    + cbn [map fst snd]. rewrite X, app_length, L. cbn [length]. f_equal. f_equal. f_equal. lia.
    + intros a n b E. change (items d ++ [Mark (pushes d); Chunk t]) with (items d ++ Mark (pushes d) :: [Chunk t]) in E.
      apply app_mark_inv in E as [(x & -> & E)|[(<- & <- & _)|(x & E & ->)]].
      * destruct x as [|y x]; [discriminate|]. injection E as _ E. destruct x; discriminate.
      * rewrite <- L, app_nth2 by lia. rewrite Nat.sub_diag. cbn. rewrite T. auto.
      * rewrite app_nth1; [eauto|]. rewrite L. apply B. rewrite E, marks_app. apply in_app_iff. right; left; auto.
    + rewrite marks_app. intros n N. apply in_app_iff in N as [N|[<-|[]]]; [apply B in N; lia|lia].
    + rewrite marks_app. cbn. apply sorted_snoc; auto.
    + intros j n. rewrite marks_app, in_app_iff. cbn. destruct (j =? i); intros E; [injection E as <-; right; left; auto|left; eauto].
  - eexists; split; [reflexivity|]. constructor; cbn [content positions stream_index items pushes last_push]; auto.
    + rewrite app_length, L. cbn. lia.
    + intros a n b E. rewrite app_nth1; [eauto|]. rewrite L. apply B. rewrite E, marks_app. apply in_app_iff. right; left; auto.
    + intros n N. apply B in N. lia.
  - rewrite X, find_map. destruct (find_z (last_push d) i) as [n|] eqn:E; [|contradiction]. cbn [option_map]. cbn [pushes] in LT.
    pose proof (F i n E) as M. pose proof (B n M) as BN. destruct (marks_split _ _ M) as (a & b & D).
    assert (U : u16 (Z.of_nat n) = Z.of_nat n) by (unfold u16; apply Z.mod_small; lia). rewrite U, Nat2Z.id.
    assert (PS : match positions s with [] => [0] | ps => ps end = positions s). { destruct (positions s); auto. cbn in L. lia. }
    rewrite PS. rewrite (P a n b D). rewrite Nat2Z.id. rewrite D, marks_app in S'. cbn in S'. destruct (sorted_app _ _ _ S') as (SA & SB).
    rewrite T, D, render_app. cbn [render flat_map app]. fold (render b).
    rewrite L. destruct (Z.of_nat (length (render a ++ render b)) <? Z.of_nat (length (render a))) eqn:Q; [rewrite app_length in Q; lia|]. destruct (65536 <=? Z.of_nat (pushes d)) eqn:Q2; [lia|].
    eexists. split; [reflexivity|]. set (ps' := firstn (S n) (positions s) ++ map (Z.add (Z.of_nat (length t))) (skipn (S n) (positions s))). rewrite firstn_app, firstn_all, Nat.sub_diag, skipn_app, skipn_all, Nat.sub_diag. cbn [firstn skipn app]. rewrite app_nil_r.
    assert (NA : ~ In n (marks a)) by (intros F'; apply SA in F'; lia). rewrite (put_at n t a b NA).
    assert (HN : forall m, (m <= n)%nat -> nth m ps' 0 = nth m (positions s) 0).
    { intros m LM. unfold ps'. rewrite nth_shift. destruct (m <? S n)%nat eqn:Q3; [auto|]. apply Nat.ltb_ge in Q3. lia. }
    assert (HM : forall m, (n < m)%nat -> (m < length (positions s))%nat -> nth m ps' 0 = Z.of_nat (length t) + nth m (positions s) 0).
    { intros m LM LL. unfold ps'. rewrite nth_shift. destruct (m <? S n)%nat eqn:Q3; [apply Nat.ltb_lt in Q3; lia|]. destruct (m <? length (positions s))%nat eqn:Q4; [auto|]. apply Nat.ltb_ge in Q4. lia. }
    constructor; cbn [content positions stream_index items pushes last_push].
    + rewrite render_app. cbn [render flat_map app]. auto.
    + unfold ps'. rewrite app_length, map_length, firstn_length, skipn_length. lia.
    + auto.
    + intros c m e G. apply app_mark_inv in G as [(x & -> & G)|[(<- & <- & _)|(x & G & ->)]].
      * destruct x as [|y x]; [discriminate|]. injection G as <- G.
        assert (D' : items d = (a ++ Mark n :: x) ++ Mark m :: e) by (rewrite D, G, <- app_assoc; auto).
        assert (Mm : In m (marks b)) by (rewrite G, marks_app; apply in_app_iff; right; left; auto). pose proof (SB m Mm).
        rewrite HM; [|lia|rewrite L; apply B; rewrite D, marks_app; apply in_app_iff; right; right; auto].
        rewrite (P _ _ _ D'). rewrite !render_app. cbn [render flat_map app]. fold (render x). rewrite !app_length. lia.
      * rewrite HN by lia. eauto.
      * assert (D' : items d = c ++ Mark m :: (x ++ Mark n :: b)) by (rewrite D, G, <- app_assoc; auto).
        assert (m < n)%nat by (apply SA; rewrite G, marks_app; apply in_app_iff; right; left; auto).
        rewrite HN by lia. eauto.
    + intros m MM. apply B. rewrite D, marks_app. rewrite marks_app in MM. cbn in MM. auto.
    + rewrite marks_app. cbn. auto.
    + intros j m J. specialize (F j m J). rewrite D, marks_app in F. rewrite marks_app. cbn in *. auto.
Qed.
Lemma pushes_count ops : forall d, pushes (fold_left dstep ops d) = (pushes d + length (filter is_push ops))%nat.
Proof.
  induction ops as [|o ops IH]; intros d; cbn [fold_left filter]; [cbn; lia|]. rewrite IH. destruct o; cbn [dstep is_push]; cbn [pushes length]; try lia.
  destruct (find_z (last_push d) i); cbn [pushes]; lia.
Qed.
Lemma last_push_in ops : forall d i, (exists x, In (Push x i) ops) \/ find_z (last_push d) i <> None -> find_z (last_push (fold_left dstep ops d)) i <> None.
Proof.
  induction ops as [|o ops IH]; intros d i H; cbn [fold_left]; [destruct H as [(x & [])|H]; auto|]. apply IH.
  assert (KEEP : find_z (last_push d) i <> None -> find_z (last_push (dstep d o)) i <> None).
  { intros K. destruct o; cbn [dstep]; auto; [cbn; destruct (i =? i0); auto; discriminate|]. destruct (find_z (last_push d) i0); auto. }
  destruct H as [(x & [->|H])|H]; [right; cbn; rewrite Z.eqb_refl; discriminate|left; eauto|right; auto].
Qed.
Lemma empty_inv : sinv (mkdoc [] 0 []) empty_stream.
Proof.
  constructor; cbn; auto; try (intros; discriminate); try constructor; try tauto. intros [|? ?] n b E; discriminate.
Qed.
Lemma stream_ok ops : push_count ops < 65536 -> labels_pushed ops -> exists s, orun empty_stream ops = Running s /\ content s = render (items (document ops)).
Proof.
  intros C LP. unfold document.
  assert (G : forall q p d s, sinv d s -> d = fold_left dstep p (mkdoc [] 0 []) -> ops = p ++ q -> exists s', orun s q = Running s' /\ sinv (fold_left dstep q d) s').
  { induction q as [|o q IH]; intros p d s V D E; cbn [orun fold_left]; [exists s; auto|].
    destruct (sinv_step d s o V) as (s1 & R & V1).
    - unfold push_count in C. subst d. change (dstep (fold_left dstep p (mkdoc [] 0 [])) o) with (fold_left dstep [o] (fold_left dstep p (mkdoc [] 0 []))). rewrite <- fold_left_app, pushes_count. cbn [pushes].
      rewrite E, filter_app, app_length in C. rewrite filter_app, app_length. cbn [filter] in *. destruct (is_push o); cbn [length] in *; lia.
    - destruct o; auto. subst d. apply last_push_in. left. eapply LP; eauto.
    - rewrite R. apply (IH (p ++ [o])); auto; [rewrite fold_left_app; cbn; congruence|rewrite <- app_assoc; auto]. }
  destruct (G ops [] _ _ empty_inv eq_refl eq_refl) as (s & R & V). exists s. split; auto. apply V.
Qed.
(** *** Too many pushes *)
Lemma no_insert_run ops : (forall i t, ~ In (Insert i t) ops) -> forall s, Forall (fun p => p <= Z.of_nat (length (content s))) (positions s) ->
  exists s', orun s ops = Running s' /\ Forall (fun p => p <= Z.of_nat (length (content s'))) (positions s') /\ Z.of_nat (length (positions s')) = Z.of_nat (length (positions s)) + push_count ops.
Proof.
  unfold push_count. induction ops as [|o ops IH]; intros N s B; cbn [orun]; [exists s; repeat split; auto; cbn; lia|].
  assert (GR : forall t ps, Forall (fun p => p <= Z.of_nat (length (content s))) ps -> Forall (fun p => p <= Z.of_nat (length (content s ++ t))) ps).
  { intros t ps. apply Forall_impl. intros p. rewrite app_length. lia. }
  assert (N' : forall i t, ~ In (Insert i t) ops) by (intros i t F; apply (N i t); right; auto).
  destruct o as [t|t i| |i t]; cbn [ostep].
  - destruct (IH N' (mkostr (content s ++ t) (positions s) (stream_index s))) as (s' & R & B' & L); cbn [content positions] in *; auto. exists s'. repeat split; auto.
  - destruct (IH N' (mkostr (content s ++ t) (positions s ++ [Z.of_nat (length (content s))]) ((i, u16 (Z.of_nat (length (positions s ++ [Z.of_nat (length (content s))])) - 1)) :: stream_index s))) as (s' & R & B' & L); cbn [content positions] in *.
    { apply Forall_app. split; auto. constructor; [rewrite app_length; lia|constructor]. }
    exists s'. split; auto. split; auto. rewrite L, app_length. cbn [filter is_push length]. lia.
  - destruct (IH N' (mkostr (content s) (positions s ++ [0]) (stream_index s))) as (s' & R & B' & L); cbn [content positions] in *.
    { apply Forall_app. split; auto. constructor; [lia|constructor]. }
    exists s'. split; auto. split; auto. rewrite L, app_length. cbn [filter is_push length]. lia.
  - exfalso. apply (N i t). left; auto.
Qed.
Lemma orun_app p : forall s s' q, orun s p = Running s' -> orun s (p ++ q) = orun s' q.
Proof. induction p as [|o p IH]; intros s s' q H; cbn in *; [congruence|]. destruct (ostep s o); try discriminate. auto. Qed.
Lemma too_many ops i t : (forall i t, ~ In (Insert i t) ops) -> 65536 <= push_count ops -> orun empty_stream (ops ++ [Insert i t]) = Loops.
Proof.
  intros N C. destruct (no_insert_run ops N empty_stream) as (s & R & B & L); [constructor|]. rewrite (orun_app _ _ _ _ R). cbn [orun ostep].
  assert (PS : match positions s with [] => [0] | ps => ps end = positions s). { destruct (positions s); auto. cbn in L. lia. }
  rewrite PS. cbn [positions empty_stream length] in L.
  destruct (Z.of_nat (length (content s)) <? nth (Z.to_nat match find_z (stream_index s) i with Some k => k | None => 0 end) (positions s) 0) eqn:Q.
  - exfalso. apply Z.ltb_lt in Q. set (k := Z.to_nat _) in Q. destruct (Nat.lt_ge_cases k (length (positions s))) as [K|K].
    + rewrite Forall_forall in B. specialize (B (nth k (positions s) 0) (nth_In _ _ K)). lia.
    + rewrite nth_overflow in Q by auto. lia.
  - destruct (65536 <=? Z.of_nat (length (positions s))) eqn:Q2; [auto|]. lia.
Qed.
Lemma stream_loops : exists ops, labels_pushed ops /\ orun empty_stream ops = Loops.
Proof.
  exists (repeat (Push [40] 1) (Z.to_nat 65536) ++ [Insert 1 [118]]). split.
  - intros p i t q E. assert (H : In (Insert i t) (repeat (Push [40] 1) (Z.to_nat 65536) ++ [Insert 1 [118]])) by (rewrite E; apply in_app_iff; right; left; auto).
    destruct q as [|y q] using rev_ind.
    + apply app_inj_tail in E as [<- E]. injection E as <- <-. exists [40]. assert (Z : exists n, Z.to_nat 65536 = S n) by (exists (Z.to_nat 65535); lia). destruct Z as (n & ->). left; auto.
    + rewrite app_comm_cons, app_assoc in E. apply app_inj_tail in E as [E _]. exfalso.
      assert (F : In (Insert i t) (repeat (Push [40] 1) (Z.to_nat 65536))) by (rewrite E; apply in_app_iff; right; left; auto). apply repeat_spec in F. discriminate.
  - apply too_many.
    + intros i t F. apply repeat_spec in F. discriminate.
    + unfold push_count. assert (G : forall n, length (filter is_push (repeat (Push [40] 1) n)) = n) by (induction n; cbn; auto). rewrite G. lia.
Qed.
(** A label for something that was not pushed comes first. *)
Lemma not_pushed : exists ops s, orun empty_stream (ops ++ [Insert 7 [118; 48; 58]]) = Running s /\ ops <> [] /\ exists r, content s = [118; 48; 58] ++ r /\ exists s0, orun empty_stream ops = Running s0 /\ content s0 = r /\ r <> [].
Proof. exists [Push [40; 97; 41] 3; Write [10]; Write [34; 98; 34]]. eexists. split; [reflexivity|]. split; [discriminate|]. eexists. split; [reflexivity|]. eexists. repeat split; try reflexivity. discriminate. Qed.
