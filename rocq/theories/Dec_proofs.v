(** Proofs on names in decompiled code. *)
From Verif Require Import Base Obj_model Dec_model Dec_spec.

Lemma teqb_iff a b : teqb a b = true <-> a = b.
Proof.
  revert b; induction a as [|x a IH]; intros [|y b]; cbn; split; intros H; try discriminate; auto.
  - apply andb_true_iff in H as [H1 H2]. apply Z.eqb_eq in H1. apply IH in H2. congruence.
  - injection H as -> ->. rewrite Z.eqb_refl. cbn. apply IH; auto.
Qed.
Lemma teqb_refl a : teqb a a = true. Proof. apply teqb_iff; auto. Qed.

(** ** Digits *)

Definition value (base zero : Z) (l : text) (a : Z) : Z := fold_left (fun a c => a * base + (c - zero)) l a.
Lemma digits_value f base zero : 1 < base -> forall v acc, 0 <= v < base ^ Z.of_nat f ->
  value base zero (digits f base zero v acc) 0 = value base zero acc v.
Proof.
  intros B. induction f as [|f IH]; intros v acc V.
  - cbn in V. assert (v = 0) by lia. subst. reflexivity.
  - cbn [digits]. destruct (v / base =? 0) eqn:E.
    + unfold value. cbn. f_equal. assert (v < base) by (apply Z.eqb_eq in E; apply Z.div_small_iff in E; lia). rewrite Z.mod_small; lia.
    + rewrite IH.
      * unfold value. cbn. f_equal. pose proof (Z.div_mod v base ltac:(lia)). lia.
      * split; [apply Z.div_pos; lia|]. apply Z.div_lt_upper_bound; [lia|]. rewrite <- Z.pow_succ_r by lia. rewrite <- Nat2Z.inj_succ. lia.
Qed.
Lemma digits_inj f base zero a b : 1 < base -> 0 <= a < base ^ Z.of_nat f -> 0 <= b < base ^ Z.of_nat f -> digits f base zero a [] = digits f base zero b [] -> a = b.
Proof.
  intros B A C E. pose proof (digits_value f base zero B a [] A). rewrite E in H. rewrite digits_value in H by auto. cbn in H. auto.
Qed.
Lemma suffix_inj a b : is_u32 a -> is_u32 b -> make_suffix a = make_suffix b -> a = b.
Proof. unfold is_u32. intros A B E. apply digits_inj in E; auto; try lia; (split; [lia|]; apply Z.lt_trans with 4294967296; [lia|reflexivity]). Qed.
Lemma to_string_inj a b : is_u32 a -> is_u32 b -> to_string a = to_string b -> a = b.
Proof. unfold is_u32. intros A B E. apply digits_inj in E; auto; try lia; (split; [lia|]; apply Z.lt_trans with 4294967296; [lia|reflexivity]). Qed.

(** "aa" is never made. *)
Lemma no_aa v : is_u32 v -> make_suffix v <> [97; 97].
Proof.
  unfold is_u32. intros V H. pose proof (digits_value 32 26 97 ltac:(lia) v []) as D. unfold make_suffix in H. rewrite H in D.
  assert (v = 0). { symmetry. apply D. split; [lia|]. apply Z.lt_trans with 4294967296; [lia|reflexivity]. }
  subst v. discriminate.
Qed.
Local Opaque to_string make_suffix.

(** ** Variables *)

Definition vok (s : vars) : Prop :=
  NoDup (map fst (given s)) /\ (forall i n, In (i, n) (given s) -> is_u16 i /\ 0 <= n < Z.of_nat (length (given s))) /\
  NoDup (map snd (given s)) /\ next s = u16 (Z.of_nat (length (given s))).
Lemma find_z_in {A} (l : list (Z * A)) k x : find_z l k = Some x -> In (k, x) l.
Proof. induction l as [|[k' y] l IH]; cbn; intros H; [discriminate|]. destruct (k =? k') eqn:E; [injection H as ->; left; f_equal; lia|right; auto]. Qed.
Lemma find_z_none {A} (l : list (Z * A)) k : find_z l k = None <-> ~ In k (map fst l).
Proof.
  induction l as [|[k' y] l IH]; cbn; [tauto|]. destruct (k =? k') eqn:E.
  - split; [discriminate|]. intros H. exfalso; apply H; left; lia.
  - rewrite IH. split; [intros H [F|F]; [lia|auto]|]. intros H F; apply H; auto.
Qed.
Lemma few_u16 (l : list Z) : NoDup l -> (forall i, In i l -> is_u16 i) -> Z.of_nat (length l) <= 65536.
Proof.
  intros N U. pose (all := map Z.of_nat (seq 0 (Z.to_nat 65536))).
  assert (L : length all = Z.to_nat 65536) by (unfold all; rewrite map_length, seq_length; auto).
  pose proof (NoDup_incl_length N (l' := all)) as H. rewrite L in H.
  assert (incl l all). { intros i I. apply U in I. unfold is_u16 in I. apply in_map_iff. exists (Z.to_nat i). split; [lia|]. apply in_seq. lia. }
  specialize (H H0). clear - H. lia.
Qed.
Lemma vok_next s : vok s -> (forall i, is_u16 i -> find_z (given s) i = None -> next s = Z.of_nat (length (given s))).
Proof.
  intros (N & R & D & X) i I F. rewrite X. apply find_z_none in F.
  assert (B : Z.of_nat (length (i :: map fst (given s))) <= 65536).
  { apply few_u16; [constructor; auto|]. intros j [<-|J]; auto. apply in_map_iff in J as ((a & b) & <- & J). apply R in J. tauto. }
  cbn [length] in B. rewrite map_length in B. unfold u16. apply Z.mod_small. lia.
Qed.
Lemma vok_step s i : vok s -> is_u16 i -> vok (fst (get_variable_name s i)).
Proof.
  intros K I. pose proof (vok_next s K i I) as X. destruct K as (N & R & D & Y). unfold get_variable_name.
  destruct (find_z (given s) i) eqn:E; cbn; [exact (conj N (conj R (conj D Y)))|]. specialize (X eq_refl). apply find_z_none in E.
  split; [cbn; constructor; auto|]. split; [|split].
  - intros j n [F|F]; cbn [given length].
    + injection F as <- <-. split; auto. lia.
    + apply R in F as [F1 F2]. split; auto. lia.
  - cbn. constructor; auto. intros F. apply in_map_iff in F as ((a & b) & F1 & F2). cbn in F1. apply R in F2. lia.
  - cbn [next given length]. rewrite X. f_equal. lia.
Qed.
Lemma vok_inj s i j n : vok s -> In (i, n) (given s) -> In (j, n) (given s) -> i = j.
Proof.
  intros (_ & _ & D & _). induction (given s) as [|[a b] l IH]; cbn; [tauto|]. cbn in D. inversion D; subst.
  intros [F|F] [G|G]; try congruence; auto.
  - injection F as <- <-. exfalso. apply H1. apply in_map_iff. exists (j, b). auto.
  - injection G as <- <-. exfalso. apply H1. apply in_map_iff. exists (i, b). auto.
Qed.
Lemma in_given s i : exists n, fst (snd (get_variable_name s i)) = 118 :: to_string n /\ In (i, n) (given (fst (get_variable_name s i))).
Proof. unfold get_variable_name. destruct (find_z (given s) i) eqn:E; cbn; eexists; split; eauto. apply find_z_in; auto. Qed.
Lemma given_grows s i j n : In (i, n) (given s) -> In (i, n) (given (fst (get_variable_name s j))).
Proof. unfold get_variable_name. destruct (find_z (given s) j); cbn; auto. Qed.
Lemma requests_given l : forall s, vok s -> Forall is_u16 l -> exists s', vok s' /\ (forall i n, In (i, n) (given s) -> In (i, n) (given s')) /\
  forall k i t, nth_error l k = Some i -> nth_error (requests s l) k = Some t -> exists n, t = 118 :: to_string n /\ In (i, n) (given s').
Proof.
  induction l as [|i l IH]; intros s K F.
  - exists s. split; auto. split; auto. intros [|k] ? ? H; discriminate.
  - inversion F; subst. cbn [requests]. pose proof (vok_step s i K H1) as K1. pose proof (in_given s i) as (n & N1 & N2). pose proof (given_grows s) as G.
    destruct (get_variable_name s i) as [s1 x] eqn:E. cbn [fst snd] in *. destruct (IH s1 K1 H2) as (s' & K' & M & Q).
    exists s'. split; auto. split.
    + intros a b AB. apply M. specialize (G a i b AB). rewrite E in G. auto.
    + intros [|k] a t A T; cbn in A, T.
      * injection A as <-. injection T as <-. exists n. split; auto.
      * eauto.
Qed.
Lemma variables l j k a b s t : Forall is_u16 l -> nth_error l j = Some a -> nth_error l k = Some b ->
  nth_error (requests no_vars l) j = Some s -> nth_error (requests no_vars l) k = Some t -> (s = t <-> a = b).
Proof.
  intros F A B S T. destruct (requests_given l no_vars) as (s' & K & _ & Q); auto.
  { split; [constructor|]. split; [intros ? ? []|]. split; [constructor|reflexivity]. }
  destruct (Q _ _ _ A S) as (n & -> & N). destruct (Q _ _ _ B T) as (m & -> & M).
  assert (W : is_u32 n /\ is_u32 m).
  { destruct K as (N1 & R & _). pose proof (few_u16 (map fst (given s')) N1) as U. rewrite map_length in U.
    assert (Z.of_nat (length (given s')) <= 65536). { apply U. intros i I. apply in_map_iff in I as ((x & y) & <- & I). apply R in I. tauto. }
    apply R in N. apply R in M. unfold is_u32. lia. }
  split.
  - intros E. injection E as E. apply to_string_inj in E; try tauto. subst m. eapply vok_inj; eauto.
  - intros <-. f_equal. f_equal. destruct K as (N1 & _).
    clear - N1 N M. induction (given s') as [|[x y] l IH]; cbn in *; [tauto|]. inversion N1; subst.
    destruct N as [N|N], M as [M|M]; try congruence; auto.
    + injection N as <- <-. exfalso. apply H1. apply in_map_iff. exists (x, m). auto.
    + injection M as <- <-. exfalso. apply H1. apply in_map_iff. exists (x, n). auto.
Qed.
(** A label is inserted once. *)
Lemma inserted_once_gen l : forall s, NoDup (insertions s l) /\ forall i, In i (insertions s l) -> find_z (given s) i = None /\ In i l.
Proof.
  induction l as [|i l IH]; intros s; cbn; [split; [constructor|tauto]|].
  unfold get_variable_name. destruct (find_z (given s) i) eqn:E; cbn.
  - destruct (IH s) as (N & R). split; auto. intros j J. apply R in J. tauto.
  - destruct (IH (mkvars ((i, next s) :: given s) (u16 (next s + 1)))) as (N & R). cbn [given] in R. split.
    + constructor; auto. intros J. apply R in J as [J _]. cbn in J. rewrite Z.eqb_refl in J. discriminate.
    + intros j [<-|J]; [tauto|]. apply R in J as [J J2]. cbn in J. destruct (j =? i) eqn:Q; [discriminate|]. tauto.
Qed.
Lemma inserted_all_gen l : forall s i, In i l -> find_z (given s) i = None -> In i (insertions s l).
Proof.
  induction l as [|j l IH]; intros s i I F; cbn; [tauto|]. unfold get_variable_name.
  destruct I as [->|I].
  - rewrite F. cbn. auto.
  - destruct (find_z (given s) j) eqn:E; cbn; auto. destruct (Z.eq_dec i j) as [->|D]; [auto|]. right. apply IH; auto. cbn. destruct (i =? j) eqn:Q; [lia|auto].
Qed.
Lemma inserted_once l : NoDup (insertions no_vars l) /\ forall i, In i (insertions no_vars l) <-> In i l.
Proof.
  destruct (inserted_once_gen l no_vars) as (N & R). split; auto. intros i. split; [intros I; apply R in I; tauto|]. intros I. apply inserted_all_gen; auto.
Qed.
(** A label and a variable get the same name. *)
Lemma clash : exists i j, i <> j /\ fst (snd (get_variable_name no_vars i)) = get_hlp_variable_name false j.
Proof. exists 5, 0. split; [lia|vm_compute; reflexivity]. Qed.
Lemma hlp_variables p i j : is_u32 i -> is_u32 j -> get_hlp_variable_name p i = get_hlp_variable_name p j -> i = j.
Proof. intros I J E. unfold get_hlp_variable_name in E. injection E as E. apply app_inv_tail in E. apply to_string_inj; auto. Qed.

(** ** Names *)

Definition covered (st : names) : Prop := forall i s, find_z (by_index st) i = Some s -> find_t (by_name st) s <> None.
Lemma assign_covered st i s : covered st -> covered (assign st i s).
Proof.
  intros C j t. cbn. destruct (j =? i) eqn:E.
  - intros H; injection H as <-. rewrite teqb_refl. discriminate.
  - intros H. apply C in H. destruct (teqb t s); auto. discriminate.
Qed.
Lemma assign_same st i s : find_z (by_index (assign st i s)) i = Some s. Proof. cbn. rewrite Z.eqb_refl. auto. Qed.
Lemma assign_other st i s j : j <> i -> find_z (by_index (assign st i s)) j = find_z (by_index st) j. Proof. intros. cbn. destruct (j =? i) eqn:E; [lia|auto]. Qed.
Lemma prefill_covered g : forall st, covered st -> covered (prefill st g).
Proof. induction g as [|e g IH]; intros st C; cbn; auto. apply IH. apply assign_covered; auto. Qed.
Lemma mark_covered st l : covered st -> covered (mknames (by_index st) (by_name st) l). Proof. auto. Qed.
Lemma pass1_covered sym os : forall i st, covered st -> covered (fst (pass1 sym os i st)).
Proof.
  induction os as [|o os IH]; intros i st C; cbn [pass1]; auto. destruct (sym (o_oid o)); auto.
  assert (A : covered (assign (mknames (by_index st) (by_name st) (u16 (o_oid o) :: named st)) i t)) by (apply assign_covered, mark_covered; auto).
  cbn [by_index]. destruct (find_z (by_index st) i); auto. destruct (negb (teqb t0 []) && negb (teqb t0 t)); auto.
Qed.
Lemma search_free f taken s : forall v n, search f taken s v = Some n -> find_t taken n = None.
Proof.
  induction f as [|f IH]; intros v n H; cbn [search] in H; [discriminate|]. destruct (find_t taken (s ++ make_suffix v)) eqn:E; eauto. injection H as <-. auto.
Qed.
Lemma free_name_free taken s n : free_name taken s = Some n -> find_t taken n = None.
Proof. unfold free_name. destruct (find_t taken s) eqn:E; intros H; [eapply search_free; eauto|]. injection H as <-. auto. Qed.

(** What the second pass does: names already there stay; the others are new and all
    different. *)
Lemma pass2_spec img os : forall i cnt st st', covered st -> pass2 img os i cnt st = Some st' ->
  covered st' /\ (forall j s, find_z (by_index st) j = Some s -> find_z (by_index st') j = Some s) /\
  (forall s, find_t (by_name st) s <> None -> find_t (by_name st') s <> None) /\
  named st' = named st /\
  (forall j, j < i \/ i + Z.of_nat (length os) <= j -> find_z (by_index st') j = find_z (by_index st) j) /\
  (forall k o, nth_error os k = Some o -> symbol img (o_oid o) = None -> find_z (by_index st) (i + Z.of_nat k) = None ->
     exists s, find_z (by_index st') (i + Z.of_nat k) = Some s /\ find_t (by_name st) s = None /\
       forall j, j <> i + Z.of_nat k -> find_z (by_index st') j <> Some s) /\
  (forall k o, nth_error os k = Some o -> symbol img (o_oid o) <> None -> find_z (by_index st') (i + Z.of_nat k) = find_z (by_index st) (i + Z.of_nat k)).
Proof.
  induction os as [|o os IH]; intros i cnt st st' C H; cbn [pass2] in H.
  - injection H as <-. split; auto. split; auto. split; auto. split; auto. split; auto. split; intros [|k] ? K; discriminate.
  - assert (KEEP : forall cnt', pass2 img os (i + 1) cnt' st = Some st' -> (symbol img (o_oid o) <> None \/ find_z (by_index st) i <> None) ->
       covered st' /\ (forall j s, find_z (by_index st) j = Some s -> find_z (by_index st') j = Some s) /\
       (forall s, find_t (by_name st) s <> None -> find_t (by_name st') s <> None) /\ named st' = named st /\
       (forall j, j < i \/ i + Z.of_nat (length (o :: os)) <= j -> find_z (by_index st') j = find_z (by_index st) j) /\
       (forall k o', nth_error (o :: os) k = Some o' -> symbol img (o_oid o') = None -> find_z (by_index st) (i + Z.of_nat k) = None ->
          exists s, find_z (by_index st') (i + Z.of_nat k) = Some s /\ find_t (by_name st) s = None /\ forall j, j <> i + Z.of_nat k -> find_z (by_index st') j <> Some s) /\
       (forall k o', nth_error (o :: os) k = Some o' -> symbol img (o_oid o') <> None -> find_z (by_index st') (i + Z.of_nat k) = find_z (by_index st) (i + Z.of_nat k))).
    { intros cnt' P W. destruct (IH _ _ _ _ C P) as (A1 & A2 & A3 & A4 & A5 & A6 & A7).
      split; auto. split; auto. split; auto. split; auto. split; [intros j J; apply A5; cbn [length] in J; lia|]. split.
      - intros [|k] o' K SY F; cbn in K.
        + injection K as <-. rewrite Z.add_0_r in F. destruct W; contradiction.
        + replace (i + Z.of_nat (S k)) with (i + 1 + Z.of_nat k) in * by lia. eauto.
      - intros [|k] o' K SY; cbn in K.
        + rewrite Z.add_0_r. apply A5. lia.
        + replace (i + Z.of_nat (S k)) with (i + 1 + Z.of_nat k) in * by lia. eauto. }
    destruct (symbol img (o_oid o)) eqn:Y; [apply (KEEP cnt); auto; left; discriminate|].
    destruct (find_z (by_index st) i) eqn:F; [apply (KEEP cnt); auto; right; discriminate|]. clear KEEP.
    destruct (default_name img cnt o) as [s0 cnt']. destruct (free_name (by_name st) s0) as [s|] eqn:G; [|discriminate].
    apply free_name_free in G. destruct (IH _ _ _ _ (assign_covered st i s C) H) as (A1 & A2 & A3 & A4 & A5 & A6 & A7).
    pose proof (A2 i s (assign_same st i s)) as AI.
    split; auto. split; [|split; [|split; [|split; [|split]]]].
    + intros j t J. apply A2. destruct (Z.eq_dec j i) as [->|D]; [congruence|]. rewrite assign_other; auto.
    + intros t T. apply A3. cbn. destruct (teqb t s); auto. discriminate.
    + auto.
    + intros j J. cbn [length] in J. rewrite A5 by lia. apply assign_other. lia.
    + intros [|k] o' K SY N; cbn in K.
      * rewrite Z.add_0_r in *. exists s. split; auto. split; auto. intros j J E.
        destruct (Z_lt_dec j (i + 1)) as [L|L].
        { rewrite A5 in E by lia. rewrite assign_other in E by auto. apply C in E. auto. }
        destruct (Z_lt_dec j (i + 1 + Z.of_nat (length os))) as [L2|L2].
        { destruct (nth_error os (Z.to_nat (j - (i + 1)))) as [o2|] eqn:O2; [|apply nth_error_None in O2; lia].
          assert (JE : i + 1 + Z.of_nat (Z.to_nat (j - (i + 1))) = j) by lia.
          destruct (symbol img (o_oid o2)) eqn:S2.
          - specialize (A7 _ _ O2). rewrite JE, S2 in A7. rewrite A7 in E by discriminate. rewrite assign_other in E by auto. apply C in E. auto.
          - destruct (find_z (by_index (assign st i s)) j) eqn:FJ.
            + apply A2 in FJ as FJ'. rewrite assign_other in FJ by auto. apply C in FJ. congruence.
            + specialize (A6 _ _ O2 S2). rewrite JE in A6. destruct (A6 FJ) as (t & T1 & T2 & _). cbn in T2. replace t with s in T2 by congruence. rewrite teqb_refl in T2. discriminate. }
        { rewrite A5 in E by lia. rewrite assign_other in E by auto. apply C in E. auto. }
      * replace (i + Z.of_nat (S k)) with (i + 1 + Z.of_nat k) in * by lia.
        destruct (A6 k o' K SY) as (t & T1 & T2 & T3); [rewrite assign_other by lia; auto|]. exists t. split; auto. split; auto.
        cbn in T2. destruct (teqb t s); [discriminate|auto].
    + intros [|k] o' K SY; cbn in K.
      * injection K as <-. congruence.
      * replace (i + Z.of_nat (S k)) with (i + 1 + Z.of_nat k) in * by lia. rewrite (A7 k o' K SY). apply assign_other. lia.
Qed.

Lemma pass1_spec sym os : forall i st st', pass1 sym os i st = (st', true) ->
  (forall k o s, nth_error os k = Some o -> sym (o_oid o) = Some s -> find_z (by_index st') (i + Z.of_nat k) = Some s) /\
  (forall k o, nth_error os k = Some o -> sym (o_oid o) = None -> find_z (by_index st') (i + Z.of_nat k) = find_z (by_index st) (i + Z.of_nat k)) /\
  (forall j, j < i \/ i + Z.of_nat (length os) <= j -> find_z (by_index st') j = find_z (by_index st) j) /\
  (forall x, In x (named st') <-> In x (named st) \/ exists o, In o os /\ sym (o_oid o) <> None /\ x = u16 (o_oid o)) /\
  (length (by_name st') <= length (by_name st) + length os)%nat.
Proof.
  induction os as [|o os IH]; intros i st st' H; cbn [pass1] in H.
  - injection H as <-. split; [intros [|k] ? ? K; discriminate|]. split; [intros [|k] ? K; discriminate|]. split; auto. split; [|lia]. intros x. split; auto. intros [F|(o & [] & _)]; auto.
  - destruct (sym (o_oid o)) as [s|] eqn:Y.
    + set (st1 := assign (mknames (by_index st) (by_name st) (u16 (o_oid o) :: named st)) i s) in *.
      assert (P : pass1 sym os (i + 1) st1 = (st', true)).
      { cbn [by_index] in H. destruct (find_z (by_index st) i); auto. destruct (negb (teqb t []) && negb (teqb t s)); [discriminate|auto]. }
      clear H. destruct (IH _ _ _ P) as (A1 & A2 & A3 & A4 & A5). split; [|split; [|split; [|split]]].
      * intros [|k] o' s' K S'; cbn in K.
        { injection K as <-. rewrite Z.add_0_r. rewrite A3 by lia. replace s' with s by congruence. apply assign_same. }
        { replace (i + Z.of_nat (S k)) with (i + 1 + Z.of_nat k) by lia. eauto. }
      * intros [|k] o' K S'; cbn in K.
        { congruence. }
        { replace (i + Z.of_nat (S k)) with (i + 1 + Z.of_nat k) by lia. rewrite (A2 k o') by auto. unfold st1. rewrite assign_other by lia. reflexivity. }
      * intros j J. cbn [length] in J. rewrite A3 by lia. unfold st1. rewrite assign_other by lia. reflexivity.
      * intros x. rewrite A4. cbn [named st1 assign]. split.
        { intros [[<-|F]|(o' & O & S' & E)]; auto; right; [exists o|exists o']; cbn; repeat split; auto. congruence. }
        { intros [F|(o' & [<-|O] & S' & E)]; [left; right; auto|left; left; auto|right; exists o'; auto]. }
      * cbn [by_name st1 assign length] in *. lia.
    + destruct (IH _ _ _ H) as (A1 & A2 & A3 & A4 & A5). split; [|split; [|split; [|split]]].
      * intros [|k] o' s' K S'; cbn in K; [congruence|]. replace (i + Z.of_nat (S k)) with (i + 1 + Z.of_nat k) by lia. eauto.
      * intros [|k] o' K S'; cbn in K.
        { rewrite Z.add_0_r. apply A3. lia. }
        { replace (i + Z.of_nat (S k)) with (i + 1 + Z.of_nat k) by lia. eauto. }
      * intros j J. cbn [length] in J. apply A3; lia.
      * intros x. rewrite A4. split.
        { intros [F|(o' & O & S' & E)]; auto. right. exists o'. cbn; auto. }
        { intros [F|(o' & [<-|O] & S' & E)]; auto; [contradiction|]. right. exists o'. auto. }
      * cbn [length]. lia.
Qed.

(** *** The search for a free name ends *)

Lemma find_t_in l k : find_t l k <> None -> In k (map fst l).
Proof. induction l as [|[k' x] l IH]; cbn; intros H; [contradiction|]. destruct (teqb k k') eqn:E; [left; apply teqb_iff in E; auto|right; auto]. Qed.
Lemma search_none f taken s : forall v, 0 <= v -> v + Z.of_nat f < 4294967296 -> search f taken s v = None -> forall k, (k < f)%nat -> find_t taken (s ++ make_suffix (v + Z.of_nat k)) <> None.
Proof.
  induction f as [|f IH]; intros v V L H k K; [lia|]. cbn [search] in H.
  destruct (find_t taken (s ++ make_suffix v)) eqn:E; [|discriminate].
  destruct k as [|k]; [rewrite Z.add_0_r; congruence|].
  replace (v + Z.of_nat (S k)) with (v + 1 + Z.of_nat k) by lia. apply (IH (v + 1)); try lia. unfold u32 in H. rewrite Z.mod_small in H by lia. auto.
Qed.
Lemma free_name_some taken s : Z.of_nat (length taken) + 2 < 4294967296 -> free_name taken s <> None.
Proof.
  intros L H. unfold free_name in H. destruct (find_t taken s); [|discriminate].
  pose proof (search_none (S (length taken)) taken s 1 ltac:(lia) ltac:(lia) H) as Q.
  pose (l := map (fun k => s ++ make_suffix (1 + Z.of_nat k)) (seq 0 (S (length taken)))).
  assert (N : NoDup l).
  { unfold l. assert (SB : forall k, In k (seq 0 (S (length taken))) -> (k < S (length taken))%nat) by (intros k K; apply in_seq in K; lia).
    revert SB. generalize (seq_NoDup (S (length taken)) 0). generalize (seq 0 (S (length taken))). intros ks D SB. induction ks as [|k ks IH]; cbn [map]; [constructor|].
    inversion D; subst. constructor; [|apply IH; auto; intros; apply SB; right; auto]. intros F. apply in_map_iff in F as (k' & F1 & F2). apply app_inv_head in F1.
    apply suffix_inj in F1; [|specialize (SB k' (or_intror F2)); unfold is_u32; lia|specialize (SB k (or_introl eq_refl)); unfold is_u32; lia].
    assert (k' = k) by lia. subst. contradiction. }
  assert (C : incl l (map fst taken)). { intros x X. apply in_map_iff in X as (k & <- & K). apply in_seq in K. apply find_t_in. apply Q. lia. }
  pose proof (NoDup_incl_length N C) as B. unfold l in B. rewrite !map_length, seq_length in B. lia.
Qed.
Lemma pass2_some img os : forall i cnt st, Z.of_nat (length (by_name st)) + Z.of_nat (length os) + 2 < 4294967296 -> pass2 img os i cnt st <> None.
Proof.
  induction os as [|o os IH]; intros i cnt st L; cbn [pass2]; [discriminate|]. cbn [length] in L.
  destruct (symbol img (o_oid o)); [apply IH; lia|]. destruct (find_z (by_index st) i); [apply IH; lia|].
  destruct (default_name img cnt o) as [s0 cnt']. destruct (free_name (by_name st) s0) eqn:F; [|apply free_name_some in F; auto; lia].
  apply IH. cbn [assign by_name length]. lia.
Qed.
Lemma prefill_length g : forall st, length (by_name (prefill st g)) = (length (by_name st) + length g)%nat.
Proof. induction g as [|e g IH]; intros st; cbn; [lia|]. unfold prefill in IH. rewrite IH. cbn. lia. Qed.

(** *** The whole *)

Lemma reached_all os : Z.of_nat (length os) < 65536 -> reached os = os.
Proof. intros L. unfold reached. destruct (65536 <=? Z.of_nat (length os)) eqn:E; [lia|auto]. Qed.
Lemma refs_named st g img st' : decompile_references st g img = Named st' ->
  Z.of_nat (length (objs img)) < 65536 /\ exists st1, pass1 (symbol img) (objs img) 0 (prefill st g) = (st1, true) /\ pass2 img (objs img) 0 [] st1 = Some st'.
Proof.
  unfold decompile_references. intros H.
  destruct (pass1 (symbol img) (reached (objs img)) 0 (prefill st g)) as [st1 ok] eqn:P. destruct ok; [|discriminate]. cbn [negb] in H.
  destruct (65536 <=? Z.of_nat (length (objs img))) eqn:L; [discriminate|]. apply Z.leb_gt in L.
  rewrite reached_all in P by lia. destruct (pass2 img (objs img) 0 [] st1) eqn:Q; [|discriminate]. injection H as <-. split; auto. exists st1; auto.
Qed.
Lemma refs_fits st g img : Z.of_nat (length (objs img)) < 65536 -> Z.of_nat (length (by_name st)) + Z.of_nat (length g) < 4294000000 -> decompile_references st g img <> Endless.
Proof.
  unfold decompile_references. intros L B. rewrite reached_all by lia.
  destruct (pass1 (symbol img) (objs img) 0 (prefill st g)) as [st1 ok] eqn:P. destruct ok; cbn [negb]; [|discriminate].
  destruct (65536 <=? Z.of_nat (length (objs img))) eqn:E; [lia|].
  apply pass1_spec in P as (_ & _ & _ & _ & P). rewrite prefill_length in P.
  destruct (pass2 img (objs img) 0 [] st1) eqn:Q; [discriminate|]. apply pass2_some in Q; [tauto|lia].
Qed.
Lemma endless img st g : 65536 <= Z.of_nat (length (objs img)) -> forall st', decompile_references st g img <> Named st'.
Proof. intros L st' H. apply refs_named in H. lia. Qed.
Lemma use_covered st x : covered st -> covered (use st x).
Proof.
  intros C. unfold use. destruct (decompile_references st (fst x) (snd x)) eqn:E; auto.
  - apply refs_named in E as (_ & st1 & P & Q). eapply pass2_spec; [|eauto]. replace st1 with (fst (pass1 (symbol (snd x)) (objs (snd x)) 0 (prefill st (fst x)))) by (rewrite P; auto). apply pass1_covered, prefill_covered; auto.
  - unfold decompile_references in E. destruct (pass1 (symbol (snd x)) (reached (objs (snd x))) 0 (prefill st (fst x))) as [st1 ok] eqn:P. destruct ok; cbn [negb] in E.
    + destruct (65536 <=? Z.of_nat (length (objs (snd x)))); [discriminate|]. destruct (pass2 _ _ _ _ _); discriminate.
    + injection E as <-. replace st1 with (fst (pass1 (symbol (snd x)) (reached (objs (snd x))) 0 (prefill st (fst x)))) by (rewrite P; auto). apply pass1_covered, prefill_covered; auto.
Qed.
Lemma used_covered l : covered (used l).
Proof.
  unfold used. assert (G : forall st, covered st -> covered (fold_left use l st)). { induction l as [|x l IH]; intros st C; cbn; auto. apply IH, use_covered; auto. }
  apply G. intros i s H. discriminate.
Qed.
Lemma named_facts l g img st' : decompile_references (used l) g img = Named st' ->
  (forall i s, user_name img i s -> name st' i = Some s) /\
  (forall i, made_up img i -> forall s, name (prefill (used l) g) i = Some s -> name st' i = Some s) /\
  (forall i, made_up img i -> name (prefill (used l) g) i = None -> exists s, name st' i = Some s /\ forall j, j <> i -> name st' j <> Some s).
Proof.
  intros H. apply refs_named in H as (L & st1 & P & Q).
  assert (C : covered st1). { replace st1 with (fst (pass1 (symbol img) (objs img) 0 (prefill (used l) g))) by (rewrite P; auto). apply pass1_covered, prefill_covered, used_covered. }
  apply pass1_spec in P as (P1 & P2 & P3 & P4 & _). apply (pass2_spec img (objs img) 0 [] st1 st' C) in Q as (Q1 & Q2 & Q3 & Q4 & Q5 & Q6 & Q7).
  unfold name. split; [|split].
  - intros i s (o & O & S'). apply Q2. apply (P1 i o s O S').
  - intros i (o & O & S') s F. apply Q2. specialize (P2 i o O S'). cbn in P2. rewrite P2. auto.
  - intros i (o & O & S') F. specialize (P2 i o O S'). rewrite Z.add_0_l in P2. destruct (Q6 i o O S') as (s & S1 & S2 & S3); [rewrite Z.add_0_l; congruence|].
    exists s. split; auto. intros j J. apply S3. lia.
Qed.
Lemma unique_generated l g img st' i j : decompile_references (used l) g img = Named st' -> made_up img i -> name (prefill (used l) g) i = None -> i <> j ->
  name st' i <> None /\ name st' i <> name st' j.
Proof.
  intros H M F D. apply named_facts in H as (_ & _ & H). destruct (H i M F) as (s & S1 & S2). rewrite S1. split; [discriminate|]. intros E. apply (S2 j); auto.
Qed.
Lemma object_kind img i : (i < length (objs img))%nat -> made_up img i \/ exists s, user_name img i s.
Proof.
  intros L. destruct (nth_error (objs img) i) as [o|] eqn:O; [|apply nth_error_None in O; lia].
  destruct (symbol img (o_oid o)) as [s|] eqn:S'; [right; exists s; exists o; auto|left; exists o; auto].
Qed.
Lemma unique img st' i j : decompile_references no_names [] img = Named st' -> (forall i j s, user_name img i s -> user_name img j s -> i = j) ->
  (i < length (objs img))%nat -> (j < length (objs img))%nat -> i <> j -> name st' i <> None /\ name st' i <> name st' j.
Proof.
  intros H U LI LJ D. pose proof (named_facts [] [] img st' H) as (N1 & _ & N3).
  destruct (object_kind img i LI) as [M|(s & UI)].
  - eapply (unique_generated [] []); eauto.
  - rewrite (N1 i s UI). split; [discriminate|]. destruct (object_kind img j LJ) as [M|(s' & UJ)].
    + destruct (unique_generated [] [] img st' j i H M eq_refl) as [_ X]; auto. rewrite (N1 i s UI) in X. auto.
    + rewrite (N1 j s' UJ). intros E. injection E as ->. apply D. eauto.
Qed.
Lemma user_kept l g img st' i s : decompile_references (used l) g img = Named st' -> user_name img i s -> name st' i = Some s.
Proof. intros H U. apply named_facts in H as (H & _). auto. Qed.
(** A new decompiler does not refuse. *)
Lemma pass1_new sym os : forall i st, (forall j, i <= j -> find_z (by_index st) j = None) -> snd (pass1 sym os i st) = true.
Proof.
  induction os as [|o os IH]; intros i st F; cbn [pass1]; auto. destruct (sym (o_oid o)).
  - cbn [by_index]. rewrite F by lia. apply IH. intros j J. rewrite assign_other by lia. apply F. lia.
  - apply IH. intros; apply F; lia.
Qed.
Lemma new_named img : Z.of_nat (length (objs img)) < 65536 -> exists st', decompile_references no_names [] img = Named st'.
Proof.
  intros L. pose proof (refs_fits no_names [] img L) as E. unfold decompile_references in *. cbn [prefill fold_left] in *. rewrite reached_all in * by lia.
  pose proof (pass1_new (symbol img) (objs img) 0 no_names (fun j _ => eq_refl)) as P.
  destruct (pass1 (symbol img) (objs img) 0 no_names) as [st1 ok]. cbn in P. subst ok. cbn [negb] in *.
  destruct (65536 <=? Z.of_nat (length (objs img))) eqn:LE; [lia|]. destruct (pass2 img (objs img) 0 [] st1); [eexists; reflexivity|]. exfalso. apply E; auto. cbn. lia.
Qed.
