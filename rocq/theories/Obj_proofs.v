(** Proofs about objects. *)
From Verif Require Import Base Float32 Float32_facts Float32_round Atom_model CellList_model CellList_spec CellList_proofs Utils_proofs.
From Verif Require Import Obj_model Obj_spec.

(** ** Equality and hashing *)
Lemma prefix_same {A} (eqb : A -> A -> bool) (E : forall x y, eqb x y = true <-> x = y) l : forall r, length l = length r ->
  exists b, equal_prefix eqb l r = Some b /\ (b = true <-> l = r).
Proof.
  induction l as [|x l IH]; intros [|y r] L; cbn in L; try discriminate.
  - exists true. cbn. tauto.
  - cbn [equal_prefix]. destruct (eqb x y) eqn:Q.
    + apply E in Q. subst y. destruct (IH r) as (b & Hb & Hb'); [lia|]. exists b. split; [exact Hb|]. rewrite Hb'. split; [intros ->; reflexivity|intros H; inversion H; reflexivity].
    + exists false. split; [reflexivity|]. split; [discriminate|]. intros H. inversion H; subst. assert (eqb y y = true) by (apply E; reflexivity). congruence.
Qed.
Lemma is_ent_dec e o : is_ent e o \/ ~ is_ent e o.
Proof.
  destruct (code o) as [|a c] eqn:C; [right; intros (a & c & H & _); congruence|].
  destruct (Z.eq_dec (asOpcode a) e) as [E|E]; [left; exists a, c; auto|right; intros (a' & c' & H & H'); congruence].
Qed.
Lemma equal_spec e a b : (0 < length (code a))%nat -> length (code a) = length (code b) -> length (refs a) = length (refs b) ->
  exists r, obj_equal e a b = Some r /\ (r = true <-> same_object e a b).
Proof.
  intros P Lc Lr. unfold obj_equal, same_object. destruct (code a) as [|x ca] eqn:Ca; [cbn in P; lia|]. destruct (code b) as [|y cb] eqn:Cb; [discriminate|].
  assert (EA : is_ent e a <-> asOpcode x = e).
  { unfold is_ent. rewrite Ca. split; [intros (? & ? & H & ?); inversion H; subst; auto|eauto]. }
  assert (EB : is_ent e b <-> asOpcode y = e).
  { unfold is_ent. rewrite Cb. split; [intros (? & ? & H & ?); inversion H; subst; auto|eauto]. }
  destruct ((asOpcode x =? e) || (asOpcode y =? e)) eqn:Q.
  - exists (Nat.eqb (ident a) (ident b)). split; [reflexivity|]. rewrite Nat.eqb_eq. apply orb_true_iff in Q. rewrite !Z.eqb_eq in Q.
    split; [intros H; split; [auto|tauto]|intros (H & _); tauto].
  - apply orb_false_iff in Q. rewrite !Z.eqb_neq in Q. destruct Q as (QA & QB).
    destruct (prefix_same Nat.eqb Nat.eqb_eq (refs a) (refs b) Lr) as (br & -> & Hr).
    destruct (prefix_same Z.eqb Z.eqb_eq (x :: ca) (y :: cb)) as (bc & Hbc & Hc); [exact Lc|].
    destruct br.
    + exists bc. split; [exact Hbc|]. rewrite Hc. split; [intros H; split; [tauto|intros _ _; split; [exact H|tauto]]|intros (_ & H); apply H; tauto].
    + exists false. split; [reflexivity|]. split; [discriminate|]. intros (_ & H). apply Hr. apply H; tauto.
Qed.
Lemma hash_fresh o : fresh_hash o -> option_map fst (hash o) = compute_hash o.
Proof.
  intros F. unfold hash. destruct (hash_value o =? 0) eqn:Z; [destruct (compute_hash o); reflexivity|].
  apply Z.eqb_neq in Z. destruct F as [F|F]; [contradiction|]. rewrite F. reflexivity.
Qed.
Lemma hash_parts (o : obj) : small o ->
  exists k, 0 <= k /\ compute_hash o = Some (k * 1048576 + Z.of_nat (length (code o)) * 256 + Z.of_nat (length (refs o))).
Proof.
  intros (Lc & Lr). unfold compute_hash. destruct (code o) as [|a c] eqn:C; [cbn in Lc; lia|].
  set (nc := Z.of_nat (length (a :: c))) in *. set (nr := Z.of_nat (length (refs o))) in *.
  assert (B : 0 < nc < 4096 /\ 0 <= nr < 256) by (unfold nc, nr; lia). clearbody nc nr. clear Lc Lr.
  assert (E1 : Z.land (u16 nc) 0xFFF = nc). { unfold u16. rewrite Z.mod_small by lia. change 0xFFF with (Z.ones 12). rewrite Z.land_ones by lia. apply Z.mod_small. lia. }
  assert (E2 : Z.land (u16 nr) 0xFF = nr). { unfold u16. rewrite Z.mod_small by lia. change 0xFF with (Z.ones 8). rewrite Z.land_ones by lia. apply Z.mod_small. lia. }
  rewrite E1, E2.
  assert (K : exists k, 0 <= k /\ (let op := u32 (Z.shiftl (asOpcode a) 20) in u64 (if op <? 2147483648 then op else op - 4294967296)) = Z.shiftl k 20).
  { cbv zeta. rewrite Z.shiftl_mul_pow2 by lia. set (q := asOpcode a). unfold u32, u64.
    change (2 ^ 20) with 1048576. 
    exists ((let op := (q mod 4096) in if op <? 2048 then op else op - 4096) mod 17592186044416). split; [apply Z.mod_pos_bound; lia|].
    rewrite Z.shiftl_mul_pow2 by lia. change (2 ^ 20) with 1048576.
    change 4294967296 with (4096 * 1048576). change 18446744073709551616 with (17592186044416 * 1048576).
    rewrite !Zmult_mod_distr_r. cbv zeta. 
    change 2147483648 with (2048 * 1048576). destruct (q mod 4096 <? 2048) eqn:T.
    - assert ((q mod 4096 * 1048576 <? 2048 * 1048576) = true) as -> by lia. apply Zmult_mod_distr_r.
    - assert ((q mod 4096 * 1048576 <? 2048 * 1048576) = false) as -> by lia. rewrite <- Z.mul_sub_distr_r. apply Zmult_mod_distr_r. }
  destruct K as (k & K0 & K). cbv zeta in K. rewrite K. exists k. split; [exact K0|]. f_equal.
  rewrite (Z.lor_comm (Z.shiftl k 20)). rewrite ascii_land; [|lia|rewrite Z.shiftl_mul_pow2 by lia; lia|lia].
  replace (Z.shiftl nc 8 + k * 2 ^ 20) with (Z.shiftl (nc + k * 4096) 8) by (rewrite !Z.shiftl_mul_pow2 by lia; lia).
  rewrite Z.lor_comm, ascii_land by lia. lia.
Qed.
Lemma same_hash_sizes a b : small a -> small b -> fresh_hash a -> fresh_hash b -> same_hash a b ->
  length (code a) = length (code b) /\ length (refs a) = length (refs b).
Proof.
  intros Sa Sb Fa Fb (h & Ha & Hb). rewrite hash_fresh in Ha, Hb by assumption.
  destruct (hash_parts a Sa) as (ka & Ka & Ea), (hash_parts b Sb) as (kb & Kb & Eb). unfold small in *.
  assert (E : ka * 1048576 + Z.of_nat (length (code a)) * 256 + Z.of_nat (length (refs a)) = kb * 1048576 + Z.of_nat (length (code b)) * 256 + Z.of_nat (length (refs b))) by congruence. lia.
Qed.
Lemma equal_in_bucket e a b : small a -> small b -> fresh_hash a -> fresh_hash b -> same_hash a b ->
  exists r, obj_equal e a b = Some r /\ (r = true <-> same_object e a b).
Proof. intros Sa Sb Fa Fb H. destruct (same_hash_sizes a b Sa Sb Fa Fb H). apply equal_spec; [apply Sa|assumption|assumption]. Qed.
Lemma same_object_refl e a : same_object e a a.
Proof. split; auto. Qed.
Lemma same_object_sym e a b : same_object e a b -> same_object e b a.
Proof. intros (H1 & H2). split; [intros; symmetry; tauto|intros; split; symmetry; tauto]. Qed.
Lemma same_object_trans e a b c : (forall x y : obj, In x [a; b; c] -> In y [a; b; c] -> ident x = ident y -> x = y) ->
  same_object e a b -> same_object e b c -> same_object e a c.
Proof.
  intros U (A1 & A2) (B1 & B2).
  assert (I : forall x, is_ent e x \/ ~ is_ent e x) by apply is_ent_dec.
  destruct (I a) as [Ia|Ia].
  - assert (a = b) by (apply U; cbn; tauto). subst b. split; assumption.
  - destruct (I b) as [Ib|Ib].
    + assert (b = c) by (apply U; cbn; tauto). subst c. split; assumption.
    + destruct (I c) as [Ic|Ic].
      * assert (b = c) by (apply U; cbn; tauto). subst c. split; assumption.
      * split; [tauto|]. intros _ _. destruct (A2 Ia Ib), (B2 Ib Ic). split; congruence.
Qed.
Lemma same_object_same_hash e a b : (0 < length (code a))%nat -> (ident a = ident b -> a = b) -> fresh_hash a -> fresh_hash b ->
  same_object e a b -> same_hash a b.
Proof.
  intros P U Fa Fb (H1 & H2). assert (S : forall o, (0 < length (code o))%nat -> exists h, compute_hash o = Some h).
  { intros o Po. unfold compute_hash. destruct (code o); [cbn in Po; lia|]. eauto. }
  destruct (S a P) as (h & Hh). exists h. rewrite !hash_fresh by assumption. split; [exact Hh|].
  destruct (is_ent_dec e a) as [Ia|Ia]; [assert (a = b) by tauto; subst; exact Hh|].
  destruct (is_ent_dec e b) as [Ib|Ib]; [assert (a = b) by tauto; subst; exact Hh|].
  destruct (H2 Ia Ib) as (E1 & E2). unfold compute_hash in *. rewrite <- E1, <- E2. exact Hh.
Qed.
Lemma equal_same_hash e a b : (0 < length (code a))%nat -> length (code a) = length (code b) -> length (refs a) = length (refs b) ->
  (ident a = ident b -> a = b) -> fresh_hash a -> fresh_hash b -> obj_equal e a b = Some true -> same_hash a b.
Proof.
  intros P Lc Lr U Fa Fb E. destruct (equal_spec e a b P Lc Lr) as (r & Hr & Hs). rewrite E in Hr. inversion Hr; subst r.
  apply (same_object_same_hash e); try assumption. apply Hs. reflexivity.
Qed.
Lemma equivalence e a b c :
  (forall x, In x [a; b; c] -> small x /\ fresh_hash x) ->
  (forall x y, In x [a; b; c] -> In y [a; b; c] -> same_hash x y /\ (ident x = ident y -> x = y)) ->
  obj_equal e a a = Some true /\
  obj_equal e a b = obj_equal e b a /\
  (obj_equal e a b = Some true -> obj_equal e b c = Some true -> obj_equal e a c = Some true).
Proof.
  intros S H.
  assert (Q : forall x y, In x [a; b; c] -> In y [a; b; c] -> exists r, obj_equal e x y = Some r /\ (r = true <-> same_object e x y)).
  { intros x y Hx Hy. destruct (S x Hx), (S y Hy). destruct (H x y Hx Hy). apply equal_in_bucket; assumption. }
  destruct (Q a a) as (r1 & -> & Q1); [cbn; tauto|cbn; tauto|].
  destruct (Q a b) as (r2 & -> & Q2); [cbn; tauto|cbn; tauto|].
  destruct (Q b a) as (r3 & -> & Q3); [cbn; tauto|cbn; tauto|].
  destruct (Q b c) as (r4 & -> & Q4); [cbn; tauto|cbn; tauto|].
  destruct (Q a c) as (r5 & -> & Q5); [cbn; tauto|cbn; tauto|].
  split; [f_equal; apply Q1, same_object_refl|]. split.
  - f_equal. pose proof (same_object_sym e a b). pose proof (same_object_sym e b a).
    destruct r2, r3; try reflexivity; exfalso.
    + assert (false = true) by tauto. discriminate.
    + assert (false = true) by tauto. discriminate.
  - intros E2 E4. inversion E2; inversion E4; subst. f_equal. apply Q5. apply (same_object_trans e a b c); [|apply Q2; reflexivity|apply Q4; reflexivity].
    intros x y Hx Hy. apply (H x y Hx Hy).
Qed.

Definition w_a := mkobj 1 [AObject 7 1; Float 0] [] 0.
Definition w_b := mkobj 2 [AObject 7 1; Float 0; Float 0] [] 0.
Lemma hash_refuted : exists e a b, fresh_hash a /\ fresh_hash b /\ small a /\ small b /\ ident a <> ident b /\
  obj_equal e a b = Some true /\ obj_equal e b a = None /\ ~ same_hash a b.
Proof.
  exists 0, w_a, w_b. split; [left; reflexivity|]. split; [left; reflexivity|]. split; [split; cbn; lia|]. split; [split; cbn; lia|].
  split; [discriminate|]. split; [vm_compute; reflexivity|]. split; [vm_compute; reflexivity|].
  intros (h & H1 & H2). vm_compute in H1, H2. congruence.
Qed.
(** The hash of an object is kept when its content changes. *)
Lemma stale_refuted : exists e a b0 b1 h0 b, fresh_hash a /\ fresh_hash b0 /\ hash b0 = Some (h0, b1) /\
  ident b = ident b1 /\ hash_value b = hash_value b1 /\ code b = code a /\ refs b = refs a /\
  obj_equal e a b = Some true /\ obj_equal e b a = Some true /\ ~ same_hash a b.
Proof.
  exists 0, (mkobj 1 [AObject 7 1; Float 0] [] 0), (mkobj 2 [AObject 7 1] [] 0). do 2 eexists. exists (mkobj 2 [AObject 7 1; Float 0] [] 7340288).
  split; [left; reflexivity|]. split; [left; reflexivity|]. split; [vm_compute; reflexivity|]. split; [reflexivity|]. split; [reflexivity|].
  split; [reflexivity|]. split; [reflexivity|]. split; [vm_compute; reflexivity|]. split; [vm_compute; reflexivity|].
  intros (h & H1 & H2). vm_compute in H1, H2. congruence.
Qed.
Lemma existence_refuted : exists e known k o, In k known /\ obj_equal e k o = Some true /\ same_object e k o /\ same_hash k o /\
  ~ In (check_existence known o) known.
Proof.
  exists 0, [w_a], w_a, (mkobj 2 [AObject 7 1; Float 0] [] 0). split; [left; reflexivity|]. split; [vm_compute; reflexivity|].
  split; [|split; [eexists; split; vm_compute; reflexivity|intros [H|[]]; vm_compute in H; discriminate]].
  split; [|intros _ _; split; reflexivity].
  intros [(a & c & H & H')|(a & c & H & H')]; inversion H; subst; vm_compute in H'; discriminate.
Qed.

(** ** The propagation threshold *)
Lemma other_members c r : S (request_on r) <> length c -> do_request c r = Some c.
Proof. intros H. destruct r as [i v|i v]; cbn in *; unfold obj_mod, obj_set; (assert (Nat.eqb (S i) (length c) = false) as -> by (apply Nat.eqb_neq; exact H)); reflexivity. Qed.
Lemma request_total c r : exists c', do_request c r = Some c' /\ length c' = length c /\ forall i, S i <> length c -> nth_error c' i = nth_error c i.
Proof.
  destruct (Nat.eq_dec (S (request_on r)) (length c)) as [E|E]; [|rewrite other_members by exact E; eauto].
  assert (U : forall x, exists c', upd c (request_on r) x = Some c' /\ length c' = length c /\ forall i, S i <> length c -> nth_error c' i = nth_error c i).
  { intros x. destruct (upd_some c (request_on r) x) as (c' & H); [lia|]. exists c'. split; [exact H|]. split; [apply (upd_length _ _ _ _ H)|].
    intros i Hi. eapply upd_other; [exact H|lia]. }
  destruct r as [i v|i v]; cbn [do_request request_on] in *; unfold obj_mod, obj_set; (assert (Nat.eqb (S i) (length c) = true) as -> by (apply Nat.eqb_eq; exact E)); [|apply U].
  destruct (nth_error c i) as [a|] eqn:N; [apply U|]. apply nth_error_None in N. lia.
Qed.
Lemma requests_total rs : forall c, exists c', do_requests c rs = Some c' /\ length c' = length c /\ forall i, S i <> length c -> nth_error c' i = nth_error c i.
Proof.
  induction rs as [|r rs IH]; intros c; cbn [do_requests]; [eauto|].
  destruct (request_total c r) as (c1 & -> & L1 & H1). destruct (IH c1) as (c2 & E2 & L2 & H2). exists c2. split; [exact E2|]. split; [lia|].
  intros i Hi. rewrite H2 by lia. apply H1. exact Hi.
Qed.
Lemma in_unit_key f : f32_valid f = true -> f <> S754_nan -> (in_unit f <-> 0 <= key f <= 1065353216).
Proof.
  intros V N. unfold in_unit. rewrite !fle_key by (assumption || reflexivity || discriminate).
  change (key fone) with 1065353216. change (key fzero) with 0. rewrite !Z.leb_le. tauto.
Qed.
Lemma in_unit_not_nan f : in_unit f -> f <> S754_nan.
Proof. intros (H & _) ->. discriminate. Qed.
Lemma in_unit_finite f : in_unit f -> is_finite f = true.
Proof. intros (H & H'). destruct f as [|[]| |]; try reflexivity; discriminate. Qed.
Lemma key_finite s m e : key (S754_finite s m e) = if s then - magn m e else magn m e.
Proof. reflexivity. Qed.
Lemma unit_bits f : f32_valid f = true -> is_finite f = true -> 0 <= key f -> bits_of_f32 f = key f \/ bits_of_f32 f = 2147483648 /\ key f = 0.
Proof.
  intros V FI K. destruct f as [s|s| |s m e].
  - destruct s; [right; split; reflexivity|left; reflexivity].
  - discriminate FI.
  - discriminate FI.
  - assert (M : 0 < magn m e < 2139095040) by (apply magn_pos; exact V). rewrite bits_finite. rewrite key_finite in *.
    clear V FI. generalize dependent (magn m e). intros g K M. destruct s; [lia|left; reflexivity].
Qed.
Lemma halved b : is_u32 b -> asFloat (Float b) = 2 * (b / 2).
Proof. unfold is_u32, asFloat, Float, u32. intros B. rewrite Z.shiftr_div_pow2, Z.shiftl_mul_pow2 by lia. change (2 ^ 1) with 2. lia. Qed.
Lemma halved_num b : is_u32 b -> b <= 1065353216 \/ b = 2147483648 ->
  f32_of_bits (2 * (b / 2)) <> S754_nan /\ f32_valid (f32_of_bits (2 * (b / 2))) = true /\
  key (f32_of_bits (2 * (b / 2))) = if 2147483648 <=? b then 0 else 2 * (b / 2).
Proof.
  intros B H. assert (W : is_u32 (2 * (b / 2))) by (unfold is_u32 in *; lia).
  assert (NB : f32_of_bits (2 * (b / 2)) <> S754_nan). { intros Q. apply nan_bits in Q; [|exact W]. unfold is_u32 in *. lia. }
  split; [exact NB|]. split; [apply of_bits_valid; exact W|]. rewrite key_of_bits by assumption. unfold is_u32 in *.
  destruct (2147483648 <=? 2 * (b / 2)) eqn:L, (2147483648 <=? b) eqn:L'; lia.
Qed.
(** Storing a number drops its last bit. *)
Lemma stored f : f32_valid f = true -> in_unit f ->
  key f - 1 <= key (num (of_num f)) <= key f /\ in_unit (num (of_num f)) /\ f32_valid (num (of_num f)) = true.
Proof.
  intros V U. pose proof (in_unit_not_nan f U) as N. pose proof (proj1 (in_unit_key f V N) U) as K.
  pose proof (unit_bits f V (in_unit_finite f U) (proj1 K)) as KB. pose proof (bits_of_range f V) as B.
  unfold num, of_num. rewrite halved by exact B. destruct (halved_num (bits_of_f32 f) B) as (H1 & H2 & H3); [lia|].
  rewrite (in_unit_key _ H2 H1). rewrite H3. generalize dependent (bits_of_f32 f). generalize dependent (key f). clear. intros k K b KB B H1 H2 H3. unfold is_u32 in B.
  split; [|split; [|exact H2]]; destruct (2147483648 <=? b) eqn:L; lia.
Qed.
Definition clamp (x : spec_float) : spec_float := if flt x fzero then fzero else if flt fone x then fone else x.
Lemma clamp_unit x : f32_valid x = true -> x <> S754_nan -> f32_valid (clamp x) = true /\ in_unit (clamp x).
Proof.
  intros V N. unfold clamp. destruct (flt x fzero) eqn:A; [split; [reflexivity|split; reflexivity]|].
  destruct (flt fone x) eqn:B; [split; [reflexivity|split; reflexivity]|]. split; [exact V|]. apply in_unit_key; [exact V|exact N|].
  rewrite flt_key in A, B by (assumption || reflexivity || discriminate). change (key fone) with 1065353216 in B. change (key fzero) with 0 in A. lia.
Qed.
Lemma flat_thr c : flat c -> exists i a, S i = length c /\ nth_error c i = Some a /\ get_psln_thr c = Some (num a) /\ (0 < i)%nat \/ exists a, c = [a].
Proof.
  intros (a & c' & -> & E). unfold get_psln_thr. rewrite E, Nat2Z.id. destruct c' as [|b c']; [exists O, a; right; eauto|].
  destruct (nth_error (a :: b :: c') (length (b :: c'))) as [x|] eqn:N; [|apply nth_error_None in N; cbn in N; lia].
  exists (length (b :: c')), x. left. split; [reflexivity|]. split; [exact N|]. split; [reflexivity|cbn; lia].
Qed.
Lemma flat_step c r c' : threshold_last c -> do_request c r = Some c' -> threshold_last c'.
Proof.
  intros ((a & cc & -> & E) & L) H. destruct (request_total (a :: cc) r) as (c1 & H1 & L1 & O1). rewrite H in H1. inversion H1; subst c1.
  split; [|lia]. specialize (O1 O). cbn [nth_error] in O1. destruct c' as [|x c']; [cbn in L1; lia|]. cbn [nth_error] in O1.
  assert (x = a) by (assert (Some x = Some a) by (apply O1; cbn [length] in *; lia); congruence). subst x. exists a, c'. split; [reflexivity|]. cbn [length] in L1. rewrite E. f_equal. lia.
Qed.
Lemma thr_at c : threshold_last c -> exists i a, S i = length c /\ nth_error c i = Some a /\ get_psln_thr c = Some (num a).
Proof.
  intros (F & L). destruct (flat_thr c F) as (i & a & [(H1 & H2 & H3 & H4)|(x & ->)]); [eauto|cbn in L; lia].
Qed.
Lemma upd_thr c i x c' : threshold_last c -> S i = length c -> upd c i x = Some c' -> threshold_last c' -> get_psln_thr c' = Some (num x).
Proof.
  intros F E H F'. destruct (thr_at c' F') as (j & a & Ej & Nj & ->). pose proof (upd_length _ _ _ _ H). assert (j = i) by lia. subst j.
  rewrite (upd_same _ _ _ _ H) in Nj. congruence.
Qed.
Lemma step_in_unit c r c' x : threshold_last c -> sensible r -> do_request c r = Some c' -> get_psln_thr c = Some x -> in_unit x -> f32_valid x = true ->
  exists x', get_psln_thr c' = Some x' /\ in_unit x' /\ f32_valid x' = true.
Proof.
  intros F S H G U V. pose proof (flat_step c r c' F H) as F'.
  destruct (Nat.eq_dec (Datatypes.S (request_on r)) (length c)) as [E|E]; [|rewrite other_members in H by exact E; inversion H; subst; eauto].
  destruct (thr_at c F) as (i & a & Ei & Ni & Gi). rewrite G in Gi. inversion Gi; subst x.
  destruct r as [j v|j v]; cbn [do_request request_on sensible] in *; assert (j = i) by lia; subst j.
  - unfold obj_mod in H. rewrite (proj2 (Nat.eqb_eq _ _) E), Ni in H.
    change (if flt (fadd (num a) v) fzero then fzero else if flt fone (fadd (num a) v) then fone else fadd (num a) v) with (clamp (fadd (num a) v)) in H.
    destruct S as (Sv & Sn). destruct (clamp_unit (fadd (num a) v)) as (C1 & C2); [apply fadd_valid; assumption|apply fadd_not_nan; [apply in_unit_finite|]; assumption|].
    destruct (stored _ C1 C2) as (_ & T1 & T2). eexists. split; [apply (upd_thr c i _ c' F E H F')|]. auto.
  - unfold obj_set in H. rewrite (proj2 (Nat.eqb_eq _ _) E) in H. destruct S as (Sv & Su). destruct (stored v Sv Su) as (_ & T1 & T2).
    eexists. split; [apply (upd_thr c i _ c' F E H F')|]. auto.
Qed.
Lemma num_valid a : is_u32 a -> f32_valid (num a) = true.
Proof. intros _. apply of_bits_valid. unfold asFloat, u32, is_u32. apply Z.mod_pos_bound. lia. Qed.
Lemma thr_valid c x : get_psln_thr c = Some x -> f32_valid x = true.
Proof.
  unfold get_psln_thr. destruct c as [|a c]; [discriminate|]. destruct (nth_error _ _) as [b|]; [|discriminate]. cbn [option_map]. intros H. inversion H.
  apply of_bits_valid. unfold asFloat, u32, is_u32. apply Z.mod_pos_bound. lia.
Qed.
Lemma threshold_range rs : forall c c' x, threshold_last c -> Forall sensible rs -> get_psln_thr c = Some x -> in_unit x -> do_requests c rs = Some c' ->
  exists x', get_psln_thr c' = Some x' /\ in_unit x'.
Proof.
  induction rs as [|r rs IH]; intros c c' x F S G U H; cbn [do_requests] in H; [inversion H; subst; eauto|].
  destruct (do_request c r) as [c1|] eqn:R; [|discriminate]. inversion S; subst.
  destruct (step_in_unit c r c1 x F) as (x1 & G1 & U1 & _); try assumption; [apply (thr_valid _ _ G)|].
  apply (IH c1 c' x1); try assumption. apply (flat_step c r c1 F R).
Qed.
Lemma modification_effect c i v x : threshold_last c -> S i = length c -> f32_valid v = true -> v <> S754_nan -> get_psln_thr c = Some x -> in_unit x ->
  exists c' x', obj_mod c i v = Some c' /\ get_psln_thr c' = Some x' /\
    (flt (fadd x v) fzero = true -> x' = fzero) /\ (flt fone (fadd x v) = true -> x' = fone) /\
    (in_unit (fadd x v) -> key (fadd x v) - 1 <= key x' <= key (fadd x v)).
Proof.
  intros F E V N G U. destruct (request_total c (Mod i v)) as (c' & H & _ & _). cbn [do_request] in H. pose proof (flat_step c (Mod i v) c' F H) as F'.
  destruct (thr_at c F) as (j & a & Ej & Nj & Gj). assert (j = i) by lia. subst j. rewrite G in Gj. inversion Gj; subst x.
  pose proof H as H'. unfold obj_mod in H'. rewrite (proj2 (Nat.eqb_eq _ _) E), Nj in H'. set (y := fadd (num a) v) in *.
  exists c'. eexists. split; [exact H|]. split; [apply (upd_thr c i _ c' F E H' F')|].
  assert (Vy : f32_valid y = true) by (apply fadd_valid; [apply (thr_valid _ _ G)|exact V]).
  assert (Ny : y <> S754_nan) by (apply fadd_not_nan; [apply in_unit_finite|]; assumption). clearbody y.
  split; [intros ->; vm_compute; reflexivity|]. split.
  - intros Q. rewrite Q. destruct (flt y fzero) eqn:Q2; [|vm_compute; reflexivity].
    rewrite flt_key in Q, Q2 by (assumption || reflexivity || discriminate). change (key fone) with 1065353216 in Q. change (key fzero) with 0 in Q2. lia.
  - intros W. pose proof (proj1 (in_unit_key y Vy Ny) W) as K.
    assert (flt y fzero = false) as ->. { rewrite flt_key by (assumption || reflexivity || discriminate). change (key fzero) with 0. lia. }
    assert (flt fone y = false) as ->. { rewrite flt_key by (assumption || reflexivity || discriminate). change (key fone) with 1065353216. lia. }
    apply (stored y Vy W).
Qed.
Definition fthree := S754_finite false 12582912 (-22).
Lemma set_range_refuted : exists c i v c' x', threshold_last c /\ S i = length c /\ f32_valid v = true /\ v <> S754_nan /\ is_finite v = true /\ obj_set c i v = Some c' /\
  get_psln_thr c' = Some x' /\ ~ in_unit x'.
Proof.
  exists [AObject 7 1; Float 0], 1%nat, fthree. do 2 eexists. split; [split; [do 2 eexists; split; [reflexivity|vm_compute; reflexivity]|cbn; lia]|].
  split; [reflexivity|]. split; [vm_compute; reflexivity|]. split; [discriminate|]. split; [reflexivity|]. split; [vm_compute; reflexivity|]. split; [vm_compute; reflexivity|].
  intros (_ & H). vm_compute in H. discriminate.
Qed.
Lemma nan_refuted : exists c i v c' x', threshold_last c /\ S i = length c /\ obj_mod c i v = Some c' /\ get_psln_thr c' = Some x' /\ ~ in_unit x'.
Proof.
  exists [AObject 7 1; Float 0], 1%nat, S754_nan. do 2 eexists. split; [split; [do 2 eexists; split; [reflexivity|vm_compute; reflexivity]|cbn; lia]|].
  split; [reflexivity|]. split; [vm_compute; reflexivity|]. split; [vm_compute; reflexivity|].
  intros (H & _). vm_compute in H. discriminate.
Qed.
(** A fact-like object: the threshold is followed by a time structure. *)
Definition w_nested := [AObject 7 2; IPointer 3; Float 0x3F000000; ATimestamp; 5; 6].
Lemma nested_refuted : exists c i v c' j, nth_error c i <> None /\ get_psln_thr c = option_map num (nth_error c i) /\ v = fone /\
  obj_mod c i v = Some c /\ obj_set c i v = Some c /\ get_psln_thr c <> Some v /\
  obj_set c j v = Some c' /\ j <> i /\ nth_error c' j <> nth_error c j.
Proof.
  exists w_nested, 2%nat, fone. eexists. exists 5%nat. split; [discriminate|]. split; [reflexivity|]. split; [reflexivity|].
  split; [reflexivity|]. split; [reflexivity|]. split; [vm_compute; discriminate|]. split; [vm_compute; reflexivity|]. split; [discriminate|]. vm_compute. discriminate.
Qed.

(** ** Identifiers and storage *)
Notation Rp := (@Rep nat).
Definition Stored (m : memory) : Prop := exists l fs, Rp (objects m) l fs /\
  forall o h, storage (ents m o) = Some h -> invalidated (ents m o) = false -> In (h, o) l.
Lemma store_spec m o l fs : Rp (objects m) l fs -> exists m' h, store m o = Some m' /\ Rp (objects m') (l ++ [(h, o)]) (tl fs) /\ ~ In h (map fst l) /\
  last_oid m' = last_oid m /\ keep m' = keep m /\ (forall x, oid (ents m' x) = oid (ents m x) /\ invalidated (ents m' x) = invalidated (ents m x) /\ null_pgm (ents m' x) = null_pgm (ents m x) /\
    storage (ents m' x) = if Nat.eqb x o then Some h else storage (ents m x)).
Proof.
  intros R. unfold store. destruct (push_back_rep Nat.eqb (objects m) l fs o R) as (l' & h & -> & R' & N & _).
  eexists. exists h. split; [reflexivity|]. cbn [objects last_oid keep ents]. split; [exact R'|]. split; [exact N|]. split; [reflexivity|]. split; [reflexivity|].
  intros x. unfold set_ent. destruct (Nat.eqb x o) eqn:E; [apply Nat.eqb_eq in E; subst; cbn; auto|auto].
Qed.
Lemma store_stored m o : Stored m -> exists m', store m o = Some m' /\ Stored m'.
Proof.
  intros (l & fs & R & H). destruct (store_spec m o l fs R) as (m' & h & E & R' & N & _ & _ & Q). exists m'. split; [exact E|].
  exists (l ++ [(h, o)]), (tl fs). split; [exact R'|]. intros x h' S I. destruct (Q x) as (_ & Qi & _ & Qs). rewrite Qs in S. rewrite Qi in I. apply in_or_app.
  destruct (Nat.eqb x o) eqn:X; [|left; apply H; assumption]. apply Nat.eqb_eq in X. subst x. inversion S. right. left. reflexivity.
Qed.
Lemma store_all_stored os : forall m, Stored m -> exists m', store_all m os = Some m' /\ Stored m'.
Proof.
  induction os as [|o os IH]; intros m S; cbn [store_all]; [eauto|]. destruct (store_stored m o S) as (m1 & -> & S1). apply IH. exact S1.
Qed.
Lemma start_stored m : start m -> Stored m.
Proof. intros (_ & E & H). exists [], []. rewrite E. split; [apply rep_empty|]. intros o h S. destruct (H o). congruence. Qed.
Lemma load_stored m os : start m -> os <> [] -> exists m', load m os = Some m' /\ Stored m'.
Proof.
  intros S N. destruct os as [|r os]; [contradiction|]. cbn [load]. destruct (store_stored m r (start_stored m S)) as (m1 & -> & S1). apply store_all_stored. exact S1.
Qed.
Lemma bind_stored m o : Stored m -> exists m', bind m o = Some m' /\ Stored m'.
Proof.
  intros S. unfold bind. set (m1 := mkmem _ _ _ _).
  assert (S1 : Stored m1).
  { destruct S as (l & fs & R & H). exists l, fs. split; [exact R|]. intros x h A B. unfold m1 in A, B. cbn [ents] in A, B. unfold set_ent in A, B.
    destruct (Nat.eqb x o) eqn:X; [apply Nat.eqb_eq in X; subst x; cbn [storage invalidated] in *|]; apply H; assumption. }
  destruct (null_pgm (ents m o)); [eauto|]. apply store_stored. exact S1.
Qed.
(** Invalidating a registered object: its entry disappears, no other. *)
Lemma invalidate_spec m o h l fs : Rp (objects m) l fs -> NoDup (map fst l) -> invalidated (ents m o) = false -> storage (ents m o) = Some h -> In (h, o) l ->
  exists m' l1 l2 fs', l = l1 ++ (h, o) :: l2 /\ invalidate m o = Some m' /\ Rp (objects m') (if keep m then l else l1 ++ l2) fs' /\
    last_oid m' = last_oid m /\ keep m' = keep m /\
    (forall x, oid (ents m' x) = oid (ents m x) /\ null_pgm (ents m' x) = null_pgm (ents m x) /\ storage (ents m' x) = storage (ents m x) /\ invalidated (ents m' x) = if Nat.eqb x o then true else invalidated (ents m x)).
Proof.
  intros R ND I S Hin. apply in_split in Hin. destruct Hin as (l1 & l2 & El). unfold invalidate. rewrite I, S.
  assert (Q : forall x, oid (set_ent (ents m) o (mkentry (oid (ents m o)) (Some h) (null_pgm (ents m o)) true) x) = oid (ents m x) /\
     null_pgm (set_ent (ents m) o (mkentry (oid (ents m o)) (Some h) (null_pgm (ents m o)) true) x) = null_pgm (ents m x) /\
     storage (set_ent (ents m) o (mkentry (oid (ents m o)) (Some h) (null_pgm (ents m o)) true) x) = storage (ents m x) /\
     invalidated (set_ent (ents m) o (mkentry (oid (ents m o)) (Some h) (null_pgm (ents m o)) true) x) = if Nat.eqb x o then true else invalidated (ents m x)).
  { intros x. unfold set_ent. destruct (Nat.eqb x o) eqn:X; [apply Nat.eqb_eq in X; subst x; cbn; auto|auto]. }
  destruct (keep m) eqn:K.
  - eexists. exists l1, l2, fs. split; [exact El|]. split; [reflexivity|]. cbn [objects last_oid keep ents]. split; [exact R|]. split; [reflexivity|]. split; [reflexivity|]. exact Q.
  - subst l. destruct (erase_rep Nat.eqb (objects m) l1 h o l2 fs R) as (l' & -> & R' & _). eexists. exists l1, l2, (h :: fs). split; [reflexivity|]. split; [reflexivity|].
    cbn [objects last_oid keep ents]. split; [exact R'|]. split; [reflexivity|]. split; [reflexivity|]. exact Q.
Qed.
Lemma rep_nodup_locs (s : cells_list nat) l fs : Rp s l fs -> NoDup (map fst l).
Proof. intros R. apply (NoDup_app_l _ fs). apply (rep_nodup _ _ _ R). Qed.
Lemma invalidate_stored m o : Stored m -> exists m', invalidate m o = Some m' /\ Stored m'.
Proof.
  intros S. pose proof S as S0. destruct S as (l & fs & R & H). pose proof (rep_nodup_locs _ _ _ R) as ND.
  destruct (invalidated (ents m o)) eqn:I; [exists m; split; [unfold invalidate; rewrite I; reflexivity|exact S0]|].
  destruct (storage (ents m o)) as [h|] eqn:St.
  - destruct (invalidate_spec m o h l fs R ND I St (H _ _ St I)) as (m' & l1 & l2 & fs' & El & E & R' & _ & K & Q). exists m'. split; [exact E|].
    exists (if keep m then l else l1 ++ l2), fs'. split; [exact R'|]. intros x h' A B. destruct (Q x) as (_ & _ & Qs & Qi). rewrite Qs in A. rewrite Qi in B.
    destruct (Nat.eqb x o) eqn:X; [discriminate|]. apply Nat.eqb_neq in X. pose proof (H x h' A B) as Hx. destruct (keep m); [exact Hx|]. subst l.
    apply in_app_or in Hx. apply in_or_app. destruct Hx as [Hx|[Hx|Hx]]; [auto| |auto]. inversion Hx; subst. congruence.
  - unfold invalidate. rewrite I, St. eexists. split; [reflexivity|]. exists l, fs. split; [exact R|]. cbn [ents]. intros x h' A B. unfold set_ent in *.
    destruct (Nat.eqb x o); [discriminate|]. apply H; assumption.
Qed.
Lemma run_stored ops : forall m, Stored m -> exists m', run m ops = Some m' /\ Stored m'.
Proof.
  induction ops as [|x ops IH]; intros m S; cbn [run]; [eauto|].
  assert (Q : exists m1, run_op m x = Some m1 /\ Stored m1) by (destruct x; [apply bind_stored|apply invalidate_stored]; exact S).
  destruct Q as (m1 & -> & S1). apply IH. exact S1.
Qed.
Lemma history_total m0 os ops : start m0 -> os <> [] -> exists m1 m, load m0 os = Some m1 /\ run m1 ops = Some m.
Proof. intros S N. destruct (load_stored m0 os S N) as (m1 & E1 & S1). destruct (run_stored ops m1 S1) as (m & E & _). eauto. Qed.
Lemma rep_iterate (s : cells_list nat) l fs : Rp s l fs -> iterate s = Some l.
Proof. intros R. destruct (rep_shows Nat.eqb s l fs R) as (H & _). exact H. Qed.
Lemma delete_only m0 os ops m1 m o : start m0 -> load m0 os = Some m1 -> run m1 ops = Some m ->
  storage (ents m o) <> None -> invalidated (ents m o) = false -> keep m = false ->
  exists l1 l2 m', listed m = Some (l1 ++ o :: l2) /\ invalidate m o = Some m' /\ listed m' = Some (l1 ++ l2).
Proof.
  intros St L R N I K.
  assert (Os : os <> []) by (intros ->; discriminate).
  destruct (load_stored m0 os St Os) as (m1' & E1 & S1). rewrite L in E1. inversion E1; subst m1'.
  destruct (run_stored ops m1 S1) as (m' & E & S). rewrite R in E. inversion E; subst m'. destruct S as (l & fs & Rr & H).
  destruct (storage (ents m o)) as [h|] eqn:Sg; [|contradiction].
  destruct (invalidate_spec m o h l fs Rr (rep_nodup_locs _ _ _ Rr) I Sg (H _ _ Sg I)) as (m' & l1 & l2 & fs' & El & Ei & R' & _).
  exists (map snd l1), (map snd l2), m'. rewrite K in R'. unfold listed. rewrite (rep_iterate _ _ _ Rr), (rep_iterate _ _ _ R'), El. cbn [option_map]. rewrite !map_app. auto.
Qed.

(** *** Identifiers *)
Lemma store_all_ents os : forall m m', store_all m os = Some m' ->
  last_oid m' = last_oid m /\ keep m' = keep m /\ forall x, oid (ents m' x) = oid (ents m x) /\ null_pgm (ents m' x) = null_pgm (ents m x) /\ invalidated (ents m' x) = invalidated (ents m x).
Proof.
  assert (S1 : forall m o m', store m o = Some m' -> last_oid m' = last_oid m /\ keep m' = keep m /\ forall x, oid (ents m' x) = oid (ents m x) /\ null_pgm (ents m' x) = null_pgm (ents m x) /\ invalidated (ents m' x) = invalidated (ents m x)).
  { intros m o m' H. unfold store in H. destruct (push_back (objects m) o) as [[l [h|]]|]; try discriminate. inversion H; subst. cbn [last_oid keep ents]. split; [reflexivity|]. split; [reflexivity|].
    intros x. unfold set_ent. destruct (Nat.eqb x o) eqn:X; [apply Nat.eqb_eq in X; subst x; cbn; auto|auto]. }
  induction os as [|o os IH]; intros m m' H; cbn [store_all] in H; [inversion H; subst; auto|].
  destruct (store m o) as [m1|] eqn:E; [|discriminate]. destruct (S1 _ _ _ E) as (A1 & A2 & A3). destruct (IH _ _ H) as (B1 & B2 & B3).
  split; [congruence|]. split; [congruence|]. intros x. destruct (A3 x) as (? & ? & ?), (B3 x) as (? & ? & ?). repeat split; congruence.
Qed.
Lemma store_ents m o m' : store m o = Some m' ->
  last_oid m' = last_oid m /\ keep m' = keep m /\ forall x, oid (ents m' x) = oid (ents m x) /\ null_pgm (ents m' x) = null_pgm (ents m x) /\ invalidated (ents m' x) = invalidated (ents m x).
Proof. intros H. apply (store_all_ents [o]). cbn [store_all]. rewrite H. reflexivity. Qed.
Lemma highest_ext m m' os : (forall x, oid (ents m' x) = oid (ents m x)) -> highest_oid m' os = highest_oid m os.
Proof. intros H. unfold highest_oid. generalize 0. induction os as [|o os IH]; intros z; cbn [fold_left]; [reflexivity|]. rewrite H. apply IH. Qed.
Lemma highest_ge m os : 0 <= highest_oid m os /\ forall o, In o os -> oid (ents m o) <= highest_oid m os.
Proof.
  unfold highest_oid. assert (G : forall os z, z <= fold_left (fun h o => Z.max h (oid (ents m o))) os z /\ forall o, In o os -> oid (ents m o) <= fold_left (fun h o => Z.max h (oid (ents m o))) os z).
  { clear os. induction os as [|x os IH]; intros z; cbn [fold_left]; [split; [lia|intros o []]|]. destruct (IH (Z.max z (oid (ents m x)))) as (I1 & I2).
    split; [lia|]. intros o [->|H]; [lia|apply I2; exact H]. }
  apply G.
Qed.
Lemma load_ents m os m1 : load m os = Some m1 ->
  last_oid m1 = u32 (Z.max (highest_oid m os) (Z.of_nat (length os) - 1)) /\ keep m1 = keep m /\
  forall x, oid (ents m1 x) = oid (ents m x) /\ null_pgm (ents m1 x) = null_pgm (ents m x) /\ invalidated (ents m1 x) = invalidated (ents m x).
Proof.
  intros H. destruct os as [|r os]; [discriminate|]. cbn [load] in H. destruct (store m r) as [m2|] eqn:E; [|discriminate].
  destruct (store_ents _ _ _ E) as (A1 & A2 & A3). destruct (store_all_ents _ _ _ H) as (B1 & B2 & B3). cbn [last_oid keep ents] in B1, B2, B3.
  rewrite (highest_ext m m2) in B1 by (intros x; apply A3). split; [exact B1|]. split; [congruence|]. intros x. destruct (A3 x) as (? & ? & ?), (B3 x) as (? & ? & ?). repeat split; congruence.
Qed.
Lemma run_app ops1 : forall ops2 m, run m (ops1 ++ ops2) = match run m ops1 with Some m' => run m' ops2 | None => None end.
Proof. induction ops1 as [|x ops1 IH]; intros ops2 m; cbn [run app]; [reflexivity|]. destruct (run_op m x); [apply IH|reflexivity]. Qed.
Lemma bound_app a b : bound (a ++ b) = bound a ++ bound b.
Proof. unfold bound. apply flat_map_app. Qed.
Lemma bind_ents m o m' : bind m o = Some m' -> last_oid m' = u32 (last_oid m + 1) /\ keep m' = keep m /\
  forall x, oid (ents m' x) = (if Nat.eqb x o then u32 (last_oid m + 1) else oid (ents m x)) /\ null_pgm (ents m' x) = null_pgm (ents m x) /\ invalidated (ents m' x) = invalidated (ents m x).
Proof.
  unfold bind. set (m1 := mkmem _ _ _ _). intros H.
  assert (Q : last_oid m1 = u32 (last_oid m + 1) /\ keep m1 = keep m /\ forall x, oid (ents m1 x) = (if Nat.eqb x o then u32 (last_oid m + 1) else oid (ents m x)) /\ null_pgm (ents m1 x) = null_pgm (ents m x) /\ invalidated (ents m1 x) = invalidated (ents m x)).
  { split; [reflexivity|]. split; [reflexivity|]. intros x. unfold m1. cbn [ents]. unfold set_ent. destruct (Nat.eqb x o) eqn:X; [apply Nat.eqb_eq in X; subst x; cbn; auto|auto]. }
  destruct (null_pgm (ents m o)); [inversion H; subst; exact Q|]. destruct (store_ents _ _ _ H) as (A1 & A2 & A3). destruct Q as (Q1 & Q2 & Q3).
  split; [congruence|]. split; [congruence|]. intros x. destruct (A3 x) as (? & ? & ?), (Q3 x) as (? & ? & ?). repeat split; congruence.
Qed.
Lemma invalidate_ents m o m' : invalidate m o = Some m' -> last_oid m' = last_oid m /\ keep m' = keep m /\
  forall x, oid (ents m' x) = oid (ents m x) /\ null_pgm (ents m' x) = null_pgm (ents m x) /\ storage (ents m' x) = storage (ents m x) /\ invalidated (ents m' x) = if Nat.eqb x o then true else invalidated (ents m x).
Proof.
  unfold invalidate. destruct (invalidated (ents m o)) eqn:I.
  - intros H. inversion H; subst. split; [reflexivity|]. split; [reflexivity|]. intros x. destruct (Nat.eqb x o) eqn:X; [apply Nat.eqb_eq in X; subst; auto|auto].
  - intros H. assert (Q : ents m' = set_ent (ents m) o (mkentry (oid (ents m o)) (storage (ents m o)) (null_pgm (ents m o)) true) /\ last_oid m' = last_oid m /\ keep m' = keep m).
    { destruct (storage (ents m o)) as [h|]; [|inversion H; subst; auto]. destruct (keep m) eqn:K; [inversion H; subst; auto|]. destruct (erase (objects m) h) as [[l y]|]; [|discriminate]. inversion H; subst; auto. }
    destruct Q as (Q1 & Q2 & Q3). split; [exact Q2|]. split; [exact Q3|]. intros x. rewrite Q1. unfold set_ent. destruct (Nat.eqb x o) eqn:X; [apply Nat.eqb_eq in X; subst x; cbn; auto|auto].
Qed.
Lemma ids_unique os ops : forall m0 m1 m, load m0 os = Some m1 -> run m1 ops = Some m ->
  (forall o, In o os -> 0 <= oid (ents m0 o) < UNDEFINED_OID) ->
  (forall a b, In a os -> In b os -> oid (ents m0 a) = oid (ents m0 b) -> a = b) ->
  Z.max (highest_oid m0 os) (Z.of_nat (length os) - 1) + Z.of_nat (length (bound ops)) < UNDEFINED_OID ->
  last_oid m = Z.max (highest_oid m0 os) (Z.of_nat (length os) - 1) + Z.of_nat (length (bound ops)) /\
  (forall o, identified os ops o -> 0 <= oid (ents m o) <= last_oid m) /\
  (forall a b, identified os ops a -> identified os ops b -> oid (ents m a) = oid (ents m b) -> a = b).
Proof.
  intros m0 m1 m L R V D W. destruct (load_ents _ _ _ L) as (L1 & _ & L3). destruct (highest_ge m0 os) as (G0 & G1).
  set (top := Z.max (highest_oid m0 os) (Z.of_nat (length os) - 1)) in *. unfold UNDEFINED_OID in *.
  assert (T0 : 0 <= top) by lia. revert m R W.
  induction ops as [|x ops IH] using rev_ind; intros m R W.
  - cbn [run] in R. inversion R; subst m. split; [cbn [bound flat_map length]; rewrite L1; unfold u32; cbn in W; rewrite Z.mod_small by lia; lia|]. split.
    + intros o [H|[]]. destruct (L3 o) as (-> & _). pose proof (V o H). pose proof (G1 o H). rewrite L1. unfold u32. cbn in W. rewrite Z.mod_small by lia. lia.
    + intros a b [Ha|[]] [Hb|[]] E. destruct (L3 a) as (Qa & _), (L3 b) as (Qb & _). apply D; congruence.
  - rewrite run_app in R. destruct (run m1 ops) as [m2|] eqn:R2; [|discriminate]. rewrite bound_app in W |- *. rewrite app_length in *.
    destruct (IH m2 eq_refl) as (I1 & I2 & I3); [lia|]. cbn [run] in R. destruct (run_op m2 x) as [m3|] eqn:X; [|discriminate]. inversion R; subst m3.
    destruct x as [o|o]; cbn [run_op] in X; cbn [bound flat_map app length] in W |- *.
    + destruct (bind_ents _ _ _ X) as (B1 & _ & B3).
      assert (E : u32 (last_oid m2 + 1) = last_oid m2 + 1) by (unfold u32; apply Z.mod_small; lia). rewrite E in *.
      assert (O : forall y, identified os (ops ++ [Bind o]) y -> y <> o -> identified os ops y).
      { intros y [H|H] N; [left; exact H|]. rewrite bound_app in H. apply in_app_or in H. destruct H as [H|[H|[]]]; [right; exact H|congruence]. }
      split; [rewrite B1, I1; lia|]. split.
      * intros y H. rewrite B1. destruct (B3 y) as (-> & _). destruct (Nat.eqb y o) eqn:Y; [lia|]. apply Nat.eqb_neq in Y. pose proof (I2 y (O y H Y)). lia.
      * intros a b Ha Hb Q. destruct (B3 a) as (Qa & _), (B3 b) as (Qb & _). rewrite Qa, Qb in Q.
        destruct (Nat.eqb_spec a o) as [Ya|Ya], (Nat.eqb_spec b o) as [Yb|Yb].
        -- congruence.
        -- pose proof (I2 b (O b Hb Yb)). lia.
        -- pose proof (I2 a (O a Ha Ya)). lia.
        -- apply I3; auto.
    + destruct (invalidate_ents _ _ _ X) as (B1 & _ & B3).
      assert (O : forall y, identified os (ops ++ [Invalidate o]) y -> identified os ops y).
      { intros y [H|H]; [left; exact H|]. rewrite bound_app in H. apply in_app_or in H. destruct H as [H|[]]. right; exact H. }
      split; [rewrite B1, I1; lia|]. split.
      * intros y H. rewrite B1. destruct (B3 y) as (-> & _). apply I2, O, H.
      * intros a b Ha Hb Q. destruct (B3 a) as (Qa & _), (B3 b) as (Qb & _). apply I3; [apply O, Ha|apply O, Hb|congruence].
Qed.

(** *** What the memory lists *)
Lemma nodup_snd (l : list (nat * nat)) : NoDup (map fst l) -> (forall h h' o, In (h, o) l -> In (h', o) l -> h = h') -> NoDup (map snd l).
Proof.
  induction l as [|[h o] l IH]; intros N F; cbn [map snd fst] in *; [constructor|]. inversion N; subst. constructor.
  - intros H. apply in_map_iff in H. destruct H as ([h' o'] & E & H). cbn in E. subst o'. assert (h' = h) by (apply (F h' h o); [right; exact H|left; reflexivity]). subst h'.
    apply H1. apply in_map_iff. exists (h, o). auto.
  - apply IH; [assumption|]. intros a b c Ha Hb. apply (F a b c); right; assumption.
Qed.
(** [inv m os' bnd]: exactly the objects of [os'] and [bnd] that are not null programs are stored. *)
Definition Exact (m0 m : memory) (os : list nat) (ops : list op) : Prop := exists l fs, Rp (objects m) l fs /\ keep m = keep m0 /\
  (forall h o, In (h, o) l <-> storage (ents m o) = Some h /\ (keep m0 = true \/ invalidated (ents m o) = false)) /\
  (forall o, null_pgm (ents m o) = null_pgm (ents m0 o)) /\
  (forall o, storage (ents m o) <> None <-> In o os \/ In o (bound ops) /\ null_pgm (ents m0 o) = false) /\
  (forall o, invalidated (ents m o) = true <-> In (Invalidate o) ops).
Lemma store_exact m0 m os ops o m' os' ops' : Exact m0 m os ops -> storage (ents m o) = None -> invalidated (ents m o) = false -> store m o = Some m' ->
  (forall x, (In x os' \/ In x (bound ops') /\ null_pgm (ents m0 x) = false) <-> x = o \/ (In x os \/ In x (bound ops) /\ null_pgm (ents m0 x) = false)) ->
  (forall x, In (Invalidate x) ops' <-> In (Invalidate x) ops) ->
  Exact m0 m' os' ops'.
Proof.
  intros (l & fs & R & K & A & B & C & D) S I E H1 H2. destruct (store_spec m o l fs R) as (m1 & h & E1 & R1 & N & _ & K1 & Q). rewrite E in E1. inversion E1; subst m1.
  exists (l ++ [(h, o)]), (tl fs). split; [exact R1|]. split; [congruence|]. split; [|split; [|split]].
  - intros h' x. destruct (Q x) as (_ & Qi & _ & Qs). rewrite Qi, Qs. rewrite in_app_iff, A. cbn [In]. destruct (Nat.eqb x o) eqn:X.
    + apply Nat.eqb_eq in X. subst x. rewrite S, I. split; [intros [(? & _)|[W|[]]]; [discriminate|inversion W; auto]|intros (W & _); inversion W; auto].
    + apply Nat.eqb_neq in X. split; [intros [W|[W|[]]]; [exact W|inversion W; congruence]|auto].
  - intros x. destruct (Q x) as (_ & _ & -> & _). apply B.
  - intros x. destruct (Q x) as (_ & _ & _ & ->). rewrite H1. destruct (Nat.eqb x o) eqn:X; [apply Nat.eqb_eq in X; split; [auto|intros _; discriminate]|]. apply Nat.eqb_neq in X. rewrite C. tauto.
  - intros x. destruct (Q x) as (_ & -> & _ & _). rewrite D, H2. tauto.
Qed.
Lemma store_all_exact m0 os2 : forall m m' os1, Exact m0 m os1 [] -> NoDup (os1 ++ os2) -> store_all m os2 = Some m' -> Exact m0 m' (os1 ++ os2) [].
Proof.
  induction os2 as [|o os2 IH]; intros m m' os1 E N H; cbn [store_all] in H; [inversion H; subst; rewrite app_nil_r; exact E|].
  destruct (store m o) as [m1|] eqn:S; [|discriminate]. replace (os1 ++ o :: os2) with ((os1 ++ [o]) ++ os2) in * by (rewrite <- app_assoc; reflexivity).
  apply (IH m1); [|exact N|exact H].
  assert (No : ~ In o os1). { rewrite <- app_assoc in N. apply NoDup_remove_2 in N. intros Q. apply N. apply in_or_app. auto. }
  pose proof E as (l & fs & _ & _ & _ & _ & C & D).
  apply (store_exact m0 m os1 [] o); try assumption.
  - destruct (storage (ents m o)) eqn:St; [|reflexivity]. exfalso. destruct (proj1 (C o)) as [Q|(Q & _)]; [congruence|exact (No Q)|exact Q].
  - destruct (invalidated (ents m o)) eqn:Iv; [|reflexivity]. apply D in Iv. destruct Iv.
  - intros x. rewrite in_app_iff. cbn [In bound flat_map]. intuition congruence.
  - reflexivity.
Qed.
Lemma load_exact m0 os m1 : start m0 -> NoDup os -> load m0 os = Some m1 -> Exact m0 m1 os [].
Proof.
  intros (_ & E0 & H0) N H. destruct os as [|r os]; [discriminate|]. cbn [load] in H. destruct (store m0 r) as [m2|] eqn:S; [|discriminate].
  assert (X0 : Exact m0 m0 [] []).
  { exists [], []. rewrite E0. split; [apply rep_empty|]. split; [reflexivity|]. split; [|split; [reflexivity|split]].
    - intros h o. destruct (H0 o) as (Q & _). split; [intros []|]. intros (W & _). congruence.
    - intros o. destruct (H0 o) as (-> & _). cbn. intuition congruence.
    - intros o. destruct (H0 o) as (_ & ->). cbn. intuition congruence. }
  destruct (H0 r) as (Sr & Ir). pose proof (store_exact m0 m0 [] [] r m2 [r] [] X0 Sr Ir S) as X1.
  assert (X2 : Exact m0 m2 [r] []). { apply X1; [intros x; cbn [In bound flat_map]; intuition congruence|reflexivity]. }
  apply (store_all_exact m0 os (mkmem (u32 (Z.max (highest_oid m2 (r :: os)) (Z.of_nat (length (r :: os)) - 1))) (ents m2) (objects m2) (keep m2)) m1 [r]); [|exact N|exact H].
  destruct X2 as (l & fs & A1 & A2 & A3 & A4 & A5 & A6). exists l, fs. cbn [objects keep ents]. auto 10.
Qed.
Lemma run_exact m0 os ops : forall m1 m, Exact m0 m1 os [] -> registered_once os ops -> run m1 ops = Some m -> Exact m0 m os ops.
Proof.
  induction ops as [|x ops IH] using rev_ind; intros m1 m E O R; [cbn [run] in R; inversion R; subst; exact E|].
  rewrite run_app in R. destruct (run m1 ops) as [m2|] eqn:R2; [|discriminate]. cbn [run] in R. destruct (run_op m2 x) as [m3|] eqn:X; [|discriminate]. inversion R; subst m3.
  assert (O2 : registered_once os ops). { intros a o b Q. apply (O a o (b ++ [x])). rewrite Q, <- app_assoc. reflexivity. }
  pose proof (IH m1 m2 E O2 R2) as E2. destruct x as [o|o]; cbn [run_op] in X.
  - destruct (O ops o []) as (N1 & N2 & N3); [reflexivity|]. pose proof E2 as (l & fs & Rr & K & A & B & C & D).
    assert (N4 : ~ In o (bound ops)). { intros Q. unfold bound in Q. apply in_flat_map in Q. destruct Q as ([y|y] & Q1 & Q2); [|destruct Q2]. destruct Q2 as [->|[]]. exact (N2 Q1). }
    assert (So : storage (ents m2 o) = None). { destruct (storage (ents m2 o)) eqn:St; [|reflexivity]. exfalso. destruct (proj1 (C o)) as [Q|(Q & _)]; [congruence|exact (N1 Q)|exact (N4 Q)]. }
    assert (Io : invalidated (ents m2 o) = false). { destruct (invalidated (ents m2 o)) eqn:Iv; [|reflexivity]. exfalso. apply N3, D. exact Iv. }
    unfold bind in X. set (m3 := mkmem _ _ _ _) in X.
    assert (Qe : forall y, storage (ents m3 y) = storage (ents m2 y) /\ null_pgm (ents m3 y) = null_pgm (ents m2 y) /\ invalidated (ents m3 y) = invalidated (ents m2 y)).
    { intros y. unfold m3. cbn [ents]. unfold set_ent. destruct (Nat.eqb y o) eqn:Y; [apply Nat.eqb_eq in Y; subst y; cbn; auto|auto]. }
    assert (E3 : Exact m0 m3 os ops).
    { exists l, fs. split; [exact Rr|]. split; [exact K|]. split; [|split; [|split]].
      - intros h y. destruct (Qe y) as (-> & _ & ->). apply A.
      - intros y. destruct (Qe y) as (_ & -> & _). apply B.
      - intros y. destruct (Qe y) as (-> & _ & _). apply C.
      - intros y. destruct (Qe y) as (_ & _ & ->). apply D. }
    rewrite (B o) in X. destruct (null_pgm (ents m0 o)) eqn:Np.
    + inversion X; subst m. destruct E3 as (l3 & fs3 & R3 & K3 & A3 & B3 & C3 & D3). exists l3, fs3. split; [exact R3|]. split; [exact K3|]. split; [exact A3|]. split; [exact B3|]. split.
      * intros y. rewrite C3, bound_app, in_app_iff. cbn [bound flat_map app In]. intuition congruence.
      * intros y. rewrite D3, in_app_iff. cbn [In]. intuition congruence.
    + apply (store_exact m0 m3 os ops o); [exact E3|destruct (Qe o) as (-> & _); exact So|destruct (Qe o) as (_ & _ & ->); exact Io|exact X| |].
      * intros y. rewrite bound_app, in_app_iff. cbn [bound flat_map app In]. intuition congruence.
      * intros y. rewrite in_app_iff. cbn [In]. intuition congruence.
  - destruct (invalidate_ents _ _ _ X) as (_ & K' & Q). pose proof E2 as (l & fs & Rr & K & A & B & C & D).
    assert (Cc : forall l' fs', Rp (objects m) l' fs' -> (forall h y, In (h, y) l' <-> In (h, y) l /\ (keep m0 = true \/ y <> o)) -> Exact m0 m os (ops ++ [Invalidate o])).
    { intros l' fs' R' H'. exists l', fs'. split; [exact R'|]. split; [congruence|]. split; [|split; [|split]].
      - intros h y. rewrite H', A. destruct (Q y) as (_ & _ & -> & ->). destruct (Nat.eqb y o) eqn:Y; [apply Nat.eqb_eq in Y; subst y|apply Nat.eqb_neq in Y]; intuition congruence.
      - intros y. destruct (Q y) as (_ & -> & _). apply B.
      - intros y. destruct (Q y) as (_ & _ & -> & _). rewrite C, bound_app, in_app_iff. cbn [bound flat_map app In]. intuition congruence.
      - intros y. destruct (Q y) as (_ & _ & _ & ->). rewrite in_app_iff, <- D. cbn [In]. destruct (Nat.eqb y o) eqn:Y; [apply Nat.eqb_eq in Y; subst y|apply Nat.eqb_neq in Y]; intuition congruence. }
    destruct (invalidated (ents m2 o)) eqn:Io.
    + assert (m = m2) by (unfold invalidate in X; rewrite Io in X; congruence). subst m. apply (Cc l fs Rr). intros h y. split; [|tauto]. intros H. split; [exact H|].
      apply A in H. destruct H as (_ & [H|H]); [auto|]. right. intros ->. congruence.
    + destruct (storage (ents m2 o)) as [h0|] eqn:So.
      * destruct (invalidate_spec m2 o h0 l fs Rr (rep_nodup_locs _ _ _ Rr) Io So) as (m' & l1 & l2 & fs' & El & Ei & R' & _); [apply A; auto|]. rewrite X in Ei. inversion Ei; subst m'. rewrite K in R'.
        apply (Cc _ fs' R'). intros h y. destruct (keep m0) eqn:K0; [tauto|]. assert (Ol : forall h', In (h', o) l -> h' = h0). { intros h' H. apply A in H. destruct H as (H & _). congruence. }
        pose proof (rep_nodup_locs _ _ _ Rr) as ND. subst l. rewrite map_app in ND. cbn [map fst] in ND. apply NoDup_remove_2 in ND. rewrite <- map_app in ND. split.
        -- intros H. split; [apply in_app_or in H; apply in_or_app; cbn [In]; tauto|]. right. intros ->. assert (h = h0) by (apply Ol; apply in_app_or in H; apply in_or_app; cbn [In]; tauto). subst h.
           apply ND. apply in_map_iff. exists (h0, o). auto.
        -- intros (H & [H1|H1]); [discriminate|]. apply in_app_or in H. apply in_or_app. destruct H as [H|[H|H]]; [auto| |auto]. inversion H; congruence.
      * assert (Em : objects m = objects m2). { unfold invalidate in X. rewrite Io, So in X. inversion X. reflexivity. }
        apply (Cc l fs); [rewrite Em; exact Rr|]. intros h y. split; [|tauto]. intros H. split; [exact H|]. right. intros ->. apply A in H. destruct H. congruence.
Qed.
Lemma listed_exact m0 os ops m1 m : start m0 -> NoDup os -> registered_once os ops -> load m0 os = Some m1 -> run m1 ops = Some m ->
  exists l, listed m = Some l /\ NoDup l /\
    forall o, In o l <-> (In o os \/ In o (bound ops) /\ null_pgm (ents m0 o) = false) /\ (keep m0 = true \/ ~ In (Invalidate o) ops).
Proof.
  intros S N O L R. pose proof (run_exact m0 os ops m1 m (load_exact m0 os m1 S N L) O R) as (l & fs & Rr & K & A & B & C & D).
  exists (map snd l). unfold listed. rewrite (rep_iterate _ _ _ Rr). split; [reflexivity|]. split.
  - apply nodup_snd; [apply (rep_nodup_locs _ _ _ Rr)|]. intros h h' o H H'. apply A in H, H'. destruct H, H'. congruence.
  - intros o. rewrite in_map_iff, <- C, <- D. split.
    + intros ([h x] & E & H). cbn in E. subst x. apply A in H. destruct H as (H1 & H2). split; [congruence|]. destruct H2 as [H2|H2]; [auto|right; congruence].
    + intros (H1 & H2). destruct (storage (ents m o)) as [h|] eqn:St; [|contradiction]. exists (h, o). split; [reflexivity|]. apply A. split; [exact St|]. destruct H2 as [H2|H2]; [auto|]. right. destruct (invalidated (ents m o)); [exfalso; apply H2; reflexivity|reflexivity].
Qed.

(** *** Witnesses *)
Definition w_ents (f : nat -> Z) : nat -> entry := fun o => mkentry (f o) None false false.
Definition w_mem (f : nat -> Z) : memory := mkmem 0xFFFFFFFF (w_ents f) (@empty nat) false.
Lemma w_start f : start (w_mem f).
Proof. split; [reflexivity|]. split; [reflexivity|]. intros o. split; reflexivity. Qed.
(** An image with an unregistered referred object, as saved by r_comp::Image. *)
Lemma ids_undefined_refuted : exists m0 os ops m1 m a b, start m0 /\ NoDup os /\ load m0 os = Some m1 /\ run m1 ops = Some m /\
  (forall x y, In x os -> In y os -> oid (ents m0 x) = oid (ents m0 y) -> x = y) /\
  a <> b /\ identified os ops a /\ identified os ops b /\ storage (ents m a) <> None /\ storage (ents m b) <> None /\
  oid (ents m a) = oid (ents m b).
Proof.
  exists (w_mem (fun o => match o with O => 0 | _ => UNDEFINED_OID end)), [0; 1]%nat, [Bind 2%nat]. do 2 eexists. exists 0%nat, 2%nat.
  split; [apply w_start|]. split; [repeat constructor; cbn; intuition discriminate|]. split; [vm_compute; reflexivity|]. split; [vm_compute; reflexivity|].
  split; [intros x y [<-|[<-|[]]] [<-|[<-|[]]]; cbn; unfold UNDEFINED_OID; intros H; try reflexivity; discriminate H|].
  split; [discriminate|]. split; [left; cbn; auto|]. split; [right; cbn; auto|]. split; [vm_compute; discriminate|]. split; [vm_compute; discriminate|]. vm_compute. reflexivity.
Qed.
Lemma listed_refuted : exists m0 os ops m1 m l o, start m0 /\ keep m0 = false /\ NoDup os /\ load m0 os = Some m1 /\ run m1 ops = Some m /\
  ops = [Bind o; Bind o; Invalidate o] /\ ~ In o os /\ listed m = Some l /\ In o l.
Proof.
  exists (w_mem (fun _ => 0)), [0]%nat, [Bind 1; Bind 1; Invalidate 1]%nat. do 2 eexists. exists [0; 1]%nat, 1%nat.
  split; [apply w_start|]. split; [reflexivity|]. split; [repeat constructor; intros []|]. split; [vm_compute; reflexivity|]. split; [vm_compute; reflexivity|].
  split; [reflexivity|]. split; [cbn; intuition discriminate|]. split; [vm_compute; reflexivity|]. cbn. auto.
Qed.

Lemma ids_unique_top os ops top : forall m0 m1 m, load m0 os = Some m1 -> run m1 ops = Some m ->
  (forall o, In o os -> 0 <= oid (ents m0 o) <= top) ->
  (forall a b, In a os -> In b os -> oid (ents m0 a) = oid (ents m0 b) -> a = b) ->
  Z.of_nat (length os) <= top + 1 -> top + Z.of_nat (length (bound ops)) < UNDEFINED_OID ->
  (forall o, identified os ops o -> 0 <= oid (ents m o) < UNDEFINED_OID) /\
  (forall a b, identified os ops a -> identified os ops b -> oid (ents m a) = oid (ents m b) -> a = b).
Proof.
  intros m0 m1 m L R V D N W.
  assert (T : 0 <= top). { destruct os as [|r os]; [discriminate|]. cbn [length] in N. lia. }
  assert (H : highest_oid m0 os <= top).
  { unfold highest_oid. assert (G : forall l z, z <= top -> (forall o, In o l -> oid (ents m0 o) <= top) -> fold_left (fun h o => Z.max h (oid (ents m0 o))) l z <= top).
    { induction l as [|x l IH]; intros z Hz Hl; cbn [fold_left]; [exact Hz|]. apply IH; [|intros o Ho; apply Hl; right; exact Ho]. pose proof (Hl x (or_introl eq_refl)). lia. }
    apply G; [lia|]. intros o Ho. apply V. exact Ho. }
  destruct (ids_unique os ops m0 m1 m L R) as (A & B & C); [|exact D|lia|].
  - intros o Ho. pose proof (V o Ho). lia.
  - split; [|exact C]. intros o Ho. pose proof (B o Ho). lia.
Qed.
