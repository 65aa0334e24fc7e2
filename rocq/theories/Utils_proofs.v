From Verif Require Import Base Float32 Float32_facts Atom_model Atom_spec Atom_proofs Utils_model Utils_spec.

(** ** Code arrays *)
Lemma grow_length c i : length (grow c i) = Nat.max (length c) (S i).
Proof. unfold grow. rewrite app_length, repeat_length. lia. Qed.

Lemma put_some c i a : exists c', upd (grow c i) i a = Some c'.
Proof. apply upd_some. rewrite grow_length. lia. Qed.

Lemma put_eq c i a : upd (grow c i) i a = Some (put c i a).
Proof. unfold put. destruct (put_some c i a) as [c' E]. rewrite E. reflexivity. Qed.

Lemma put_length c i a : length (put c i a) = Nat.max (length c) (S i).
Proof. rewrite (upd_length _ _ _ _ (put_eq c i a)). apply grow_length. Qed.

Lemma put_same c i a : nth_error (put c i a) i = Some a.
Proof. exact (upd_same _ _ _ _ (put_eq c i a)). Qed.

Lemma put_other c i a j : i <> j -> (j < length c)%nat -> nth_error (put c i a) j = nth_error c j.
Proof.
  intros Hne Hj. rewrite (upd_other _ _ _ _ _ (put_eq c i a) Hne).
  unfold grow. apply nth_error_app1, Hj.
Qed.

Lemma resize_length c n : length (resize c n) = n.
Proof. unfold resize. rewrite firstn_length, app_length, repeat_length. lia. Qed.

Lemma nth_error_firstn {A} (l : list A) n j : (j < n)%nat -> nth_error (firstn n l) j = nth_error l j.
Proof.
  revert n j; induction l as [|a l IH]; intros [|n] [|j] H; cbn; try lia; auto.
  apply IH. lia.
Qed.

Lemma resize_nth c n j : (j < n)%nat -> (j < length c)%nat -> nth_error (resize c n) j = nth_error c j.
Proof.
  intros H1 H2. unfold resize. rewrite nth_error_firstn by assumption.
  apply nth_error_app1, H2.
Qed.

(** ** 64-bit values *)
Lemma lor_shift32 hi lo : 0 <= lo < 4294967296 -> Z.lor (Z.shiftl hi 32) lo = hi * 4294967296 + lo.
Proof.
  intros H. assert (D : Z.land (Z.shiftl hi 32) lo = 0).
  { apply Z.bits_inj'. intros n Hn. rewrite Z.land_spec, Z.bits_0.
    destruct (Z.lt_ge_cases n 32).
    - rewrite Z.shiftl_spec_low by lia. reflexivity.
    - destruct (Z.eq_dec lo 0) as [->|]; [rewrite Z.bits_0; apply andb_false_r|].
      rewrite (Z.bits_above_log2 lo n); [apply andb_false_r|lia|].
      apply Z.log2_lt_pow2; [lia|]. apply Z.lt_le_trans with (2^32); [exact (proj2 H)|].
      apply Z.pow_le_mono_r; lia. }
  rewrite <- Z.lxor_lor by exact D. rewrite <- Z.add_nocarry_lxor by exact D.
  rewrite shiftl_mul by lia. reflexivity.
Qed.

Lemma get_set_int64 c i v c' : is_i64 v -> SetInt64 c i v = Some c' -> GetInt64 c' i = Some v.
Proof.
  intros Hv H. unfold SetInt64 in H.
  destruct (upd c i (Z.shiftr (u64 v) 32)) as [c1|] eqn:E1; [|discriminate].
  unfold GetInt64, get.
  rewrite (upd_other _ _ i _ _ H) by lia.
  rewrite (upd_same _ _ _ _ E1), (upd_same _ _ _ _ H). f_equal.
  rewrite shiftr_div by lia. change (2^32) with 4294967296.
  change 0xFFFFFFFF with (Z.ones 32). rewrite Z.land_ones by lia. change (2^32) with 4294967296.
  unfold is_i64 in Hv. rewrite lor_shift32 by lia. unfold u64, i64. lia.
Qed.

Lemma set_int64_frame c i v c' j : SetInt64 c i v = Some c' -> j <> i -> j <> S i ->
  nth_error c' j = nth_error c j.
Proof.
  unfold SetInt64. destruct (upd c i _) as [c1|] eqn:E1; [|discriminate]. intros E2 H1 H2.
  rewrite (upd_other _ _ _ _ _ E2) by lia. apply (upd_other _ _ _ _ _ E1). lia.
Qed.

Lemma set_int64_length c i v c' : SetInt64 c i v = Some c' -> length c' = length c.
Proof.
  unfold SetInt64. destruct (upd c i _) as [c1|] eqn:E1; [|discriminate]. intros E2.
  rewrite (upd_length _ _ _ _ E2). apply (upd_length _ _ _ _ E1).
Qed.

Lemma set_int64_total c i v : (S i < length c)%nat -> exists c', SetInt64 c i v = Some c'.
Proof.
  intros H. unfold SetInt64.
  destruct (upd_some c i (Z.shiftr (u64 v) 32)) as [c1 E]; [lia|]. rewrite E.
  apply upd_some. rewrite (upd_length _ _ _ _ E). lia.
Qed.

(** A structure written at [i] with head [h]. *)
Lemma struct_write (c : code) (i : nat) (h v : Z) :
  is_i64 v ->
  exists c', SetInt64 (put (put c i h) (i + 2) 0) (S i) v = Some c' /\
  nth_error c' i = Some h /\ GetInt64 c' (S i) = Some v /\
  length c' = Nat.max (length c) (i + 3) /\ only_changes i 3 c c'.
Proof.
  intros Hv.
  destruct (set_int64_total (put (put c i h) (i + 2) 0) (S i) v) as [c' E].
  { rewrite !put_length. lia. }
  exists c'. split; [exact E|]. split; [|split; [|split]].
  - rewrite (set_int64_frame _ _ _ _ i E) by lia.
    rewrite put_other; [apply put_same|lia|rewrite put_length; lia].
  - exact (get_set_int64 _ _ _ _ Hv E).
  - rewrite (set_int64_length _ _ _ _ E), !put_length. lia.
  - intros j Hj Hlt. rewrite (set_int64_frame _ _ _ _ j E) by lia.
    rewrite put_other; [apply put_other; [lia|assumption]|lia|rewrite put_length; lia].
Qed.

Lemma set_timestamp_struct c i t : is_i64 t ->
  exists c', SetTimestampStruct c i t = Some c' /\
  nth_error c' i = Some ATimestamp /\ GetInt64 c' (S i) = Some t /\
  length c' = Nat.max (length c) (i + 3) /\ only_changes i 3 c c'.
Proof. intros. unfold SetTimestampStruct. apply struct_write. assumption. Qed.

Lemma set_timestamp c index p t : is_i64 t -> other_index c index p ->
  exists c', SetTimestamp c index t = Some c' /\ GetTimestamp c' index = Some t /\
  HasTimestamp c' index = true /\ only_changes (Z.to_nat (asIndex p)) 3 c c'.
Proof.
  intros Ht [Hp [Hd Ho]]. unfold SetTimestamp. rewrite Hp.
  destruct (struct_write c (Z.to_nat (asIndex p)) ATimestamp t Ht) as [c' [E [Hh [Hg [Hl Hf]]]]].
  cbn zeta. exists c'. split; [exact E|].
  assert (Hlt : (index < length c)%nat) by (apply nth_error_Some; unfold get in Hp; congruence).
  assert (Hp' : get c' index = Some p).
  { unfold get. rewrite (Hf index) by (lia || assumption). exact Hp. }
  split; [|split; [|exact Hf]].
  - unfold GetTimestamp. rewrite Hp'. exact Hg.
  - unfold HasTimestamp. destruct (Nat.leb_spec (length c') index); [lia|].
    rewrite Hp', Hd, Z.eqb_refl. cbn [negb].
    destruct (Nat.leb_spec (length c') (Z.to_nat (asIndex p) + 2)); [lia|].
    unfold get. rewrite Hh. reflexivity.
Qed.

Lemma set_duration c index p d : is_i64 d -> other_index c index p ->
  exists c', SetDuration c index d = Some c' /\ GetDuration c' index = Some d /\
  only_changes (Z.to_nat (asIndex p)) 3 c c'.
Proof.
  intros Ht [Hp [Hd Ho]]. unfold SetDuration. rewrite Hp.
  destruct (struct_write c (Z.to_nat (asIndex p)) ADuration d Ht) as [c' [E [Hh [Hg [Hl Hf]]]]].
  cbn zeta. exists c'. split; [exact E|].
  assert (Hlt : (index < length c)%nat) by (apply nth_error_Some; unfold get in Hp; congruence).
  split; [|exact Hf].
  unfold GetDuration, GetTimestamp, get. rewrite (Hf index) by (lia || assumption).
  unfold get in Hp. rewrite Hp. exact Hg.
Qed.

Lemma set_duration_struct c i d : is_i64 d ->
  exists c', SetDurationStruct c i d = Some c' /\
  nth_error c' i = Some ADuration /\ GetInt64 c' (S i) = Some d /\
  length c' = (i + 3)%nat /\
  (forall j, (j < i)%nat -> (j < length c)%nat -> nth_error c' j = nth_error c j).
Proof.
  intros Hd. unfold SetDurationStruct.
  destruct (set_int64_total (put (resize c (i + 3)) i ADuration) (S i) d) as [c' E].
  { rewrite put_length, resize_length. lia. }
  exists c'. split; [exact E|]. split; [|split; [|split]].
  - rewrite (set_int64_frame _ _ _ _ i E) by lia. apply put_same.
  - exact (get_set_int64 _ _ _ _ Hd E).
  - rewrite (set_int64_length _ _ _ _ E), put_length, resize_length. lia.
  - intros j Hj Hl. rewrite (set_int64_frame _ _ _ _ j E) by lia.
    rewrite put_other by (rewrite ?resize_length; lia). apply resize_nth; lia.
Qed.

Lemma duration_struct_drops :
  exists c i d c' j, is_i64 d /\ SetDurationStruct c i d = Some c' /\
    (i + 3 <= j < length c)%nat /\ nth_error c' j <> nth_error c j.
Proof.
  exists [Nil; Nil; Nil; Nil], 0%nat, 5. eexists. exists 3%nat.
  split; [unfold is_i64; lia|]. split; [vm_compute; reflexivity|].
  split; [cbn; lia|]. vm_compute. discriminate.
Qed.

(** ** Strings *)
Lemma ascii_land st ch k : 0 <= k -> 0 <= st < 2^k -> 0 <= ch ->
  Z.lor st (Z.shiftl ch k) = st + ch * 2^k.
Proof.
  intros Hk Hst Hch.
  assert (D : Z.land st (Z.shiftl ch k) = 0).
  { apply Z.bits_inj'. intros n Hn. rewrite Z.land_spec, Z.bits_0.
    destruct (Z.lt_ge_cases n k).
    - rewrite (Z.shiftl_spec_low _ _ _ H). apply andb_false_r.
    - destruct (Z.eq_dec st 0) as [->|]; [rewrite Z.bits_0; reflexivity|].
      rewrite (Z.bits_above_log2 st n); [reflexivity|lia|].
      apply Z.log2_lt_pow2; [lia|]. apply Z.lt_le_trans with (2^k); [lia|].
      apply Z.pow_le_mono_r; lia. }
  rewrite <- Z.lxor_lor by assumption. rewrite <- Z.add_nocarry_lxor by assumption.
  rewrite shiftl_mul by lia. reflexivity.
Qed.

(** The bytes contained in the words produced for [s] from state [(st, shift)],
    where [st] packs the bytes [pre]. *)
Fixpoint pack (l : list Z) : Z := match l with [] => 0 | a :: l' => a + 256 * pack l' end.

Definition pad4 (l : list Z) : list Z := firstn 4 (l ++ [0; 0; 0; 0]).

Lemma word_bytes_pack a b c d : is_u8 a -> is_u8 b -> is_u8 c -> is_u8 d ->
  word_bytes (pack [a; b; c; d]) = [a; b; c; d].
Proof. unfold is_u8, word_bytes; cbn [pack]; intros. repeat f_equal; lia. Qed.

Lemma string_words_step ch s st shift : 1 <= ch <= 127 -> 0 <= shift <= 24 -> 0 <= st < 2^shift ->
  string_words (ch :: s) st shift =
  if shift + 8 =? 32 then (st + ch * 2^shift) :: string_words s 0 0
  else string_words s (st + ch * 2^shift) (shift + 8).
Proof.
  intros Hc Hs Hst. cbn [string_words]. unfold sext8. destruct (Z.ltb_spec ch 128); [|lia].
  rewrite ascii_land by lia.
  assert (st + ch * 2^shift < 2 ^ (shift + 8)) by (rewrite Z.pow_add_r by lia; change (2^8) with 256; nia).
  assert (2 ^ (shift + 8) <= 2^32) by (apply Z.pow_le_mono_r; lia).
  change (2^32) with 4294967296 in *.
  unfold u32. rewrite Z.mod_small by lia. reflexivity.
Qed.

Lemma string_words_bytes s : Forall (fun ch => 1 <= ch <= 127) s ->
  firstn (length s) (concat (map word_bytes (string_words s 0 0))) = s /\
  Z.of_nat (length (string_words s 0 0)) = (Z.of_nat (length s) + 3) / 4.
Proof.
  remember (length s) as n eqn:Hn. revert s Hn.
  induction n as [n IH] using lt_wf_ind. intros s Hn Hs. subst n.
  destruct s as [|z [|z0 [|z1 [|z2 s]]]]; repeat match goal with H : Forall _ (_ :: _) |- _ => inversion H; clear H; subst end.
  - split; reflexivity.
  - rewrite string_words_step by lia. change (0 + 8 =? 32) with false. cbv iota.
    change (0 + 8) with 8. cbn [Z.eqb string_words map concat app length].
    change (2^0) with 1.
    replace (0 + z * 1) with (pack [z; 0; 0; 0]) by (cbn [pack]; lia).
    rewrite word_bytes_pack by (unfold is_u8; lia). split; reflexivity.
  - rewrite string_words_step by lia. change (0 + 8 =? 32) with false. cbv iota.
    rewrite string_words_step by (change (2^(0+8)) with 256; change (2^0) with 1; lia).
    change (0 + 8 + 8 =? 32) with false. cbv iota.
    change (0 + 8 + 8) with 16. cbn [Z.eqb string_words map concat app length].
    change (2^(0+8)) with 256; change (2^0) with 1.
    replace (0 + z * 1 + z0 * 256) with (pack [z; z0; 0; 0]) by (cbn [pack]; lia).
    rewrite word_bytes_pack by (unfold is_u8; lia). split; reflexivity.
  - rewrite string_words_step by lia. change (0 + 8 =? 32) with false. cbv iota.
    rewrite string_words_step by (change (2^(0+8)) with 256; change (2^0) with 1; lia).
    change (0 + 8 + 8 =? 32) with false. cbv iota.
    rewrite string_words_step by (change (2^(0+8+8)) with 65536; change (2^(0+8)) with 256; change (2^0) with 1; lia).
    change (0 + 8 + 8 + 8 =? 32) with false. cbv iota.
    change (0 + 8 + 8 + 8) with 24. cbn [Z.eqb string_words map concat app length].
    change (2^(0+8+8)) with 65536; change (2^(0+8)) with 256; change (2^0) with 1.
    replace (0 + z * 1 + z0 * 256 + z1 * 65536) with (pack [z; z0; z1; 0]) by (cbn [pack]; lia).
    rewrite word_bytes_pack by (unfold is_u8; lia). split; reflexivity.
  - rewrite string_words_step by lia. change (0 + 8 =? 32) with false. cbv iota.
    rewrite string_words_step by (change (2^(0+8)) with 256; change (2^0) with 1; lia).
    change (0 + 8 + 8 =? 32) with false. cbv iota.
    rewrite string_words_step by (change (2^(0+8+8)) with 65536; change (2^(0+8)) with 256; change (2^0) with 1; lia).
    change (0 + 8 + 8 + 8 =? 32) with false. cbv iota.
    rewrite string_words_step by (change (2^(0+8+8+8)) with 16777216; change (2^(0+8+8)) with 65536; change (2^(0+8)) with 256; change (2^0) with 1; lia).
    change (0 + 8 + 8 + 8 + 8 =? 32) with true. cbv iota.
    change (2^(0+8+8+8)) with 16777216; change (2^(0+8+8)) with 65536; change (2^(0+8)) with 256; change (2^0) with 1.
    replace (0 + z * 1 + z0 * 256 + z1 * 65536 + z2 * 16777216) with (pack [z; z0; z1; z2]) by (cbn [pack]; lia).
    destruct (IH (length s) ltac:(cbn; lia) s eq_refl) as [A B]; [assumption|].
    split.
    + cbn [map concat length]. rewrite word_bytes_pack by (unfold is_u8; lia).
      cbn [app firstn]. do 4 f_equal. exact A.
    + cbn [length]. lia.
Qed.

Lemma c_string_id s : Forall (fun ch => 1 <= ch <= 127) s -> c_string s = s.
Proof.
  induction 1 as [|ch s H Hs IH]; cbn; [reflexivity|]. destruct (Z.eqb_spec ch 0); [lia|]. congruence.
Qed.

Lemma put_words_spec ws : forall c i,
  (length (put_words c i ws) = if (length ws =? 0)%nat then length c else Nat.max (length c) (i + length ws)) /\
  (forall j, (j < length ws)%nat -> nth_error (put_words c i ws) (i + j) = nth_error ws j) /\
  (forall j, (j < i \/ i + length ws <= j)%nat -> (j < length c)%nat ->
     nth_error (put_words c i ws) j = nth_error c j).
Proof.
  induction ws as [|w ws IH]; intros c i.
  - cbn. repeat split; intros; auto; lia.
  - cbn [put_words length]. destruct (IH (put c i w) (S i)) as [L [S1 S2]].
    split; [|split].
    + rewrite L, put_length. destruct (length ws =? 0)%nat eqn:E; cbn [Nat.eqb]; lia.
    + intros [|j] Hj; cbn [nth_error].
      * rewrite Nat.add_0_r. rewrite S2; [apply put_same|lia|rewrite put_length; lia].
      * replace (i + S j)%nat with (S i + j)%nat by lia. apply S1. lia.
    + intros j Hj Hl. rewrite S2; [apply put_other; lia|lia|rewrite put_length; lia].
Qed.

Lemma firstn_skipn_nth {A} (l ws : list A) i :
  (forall j, (j < length ws)%nat -> nth_error l (i + j) = nth_error ws j) ->
  firstn (length ws) (skipn i l) = ws.
Proof.
  revert l i. induction ws as [|w ws IH]; intros l i H; [reflexivity|].
  pose proof (H 0%nat ltac:(cbn; lia)) as H0. rewrite Nat.add_0_r in H0. cbn in H0.
  assert (E : skipn i l = w :: skipn (S i) l).
  { clear - H0. revert l H0. induction i as [|i IH]; intros [|a l] H0; cbn in *; try discriminate.
    - congruence.
    - apply IH, H0. }
  rewrite E. cbn [firstn length]. f_equal. apply IH.
  intros j Hj. replace (S i + j)%nat with (i + S j)%nat by lia.
  exact (H (S j) ltac:(cbn; lia)).
Qed.

Lemma set_get_string c index p s :
  get c index = Some p -> getDescriptor p = I_PTR -> storable s ->
  (index < Z.to_nat (asIndex p) \/ Z.to_nat (asIndex p) + 1 + (length s + 3) / 4 <= index)%nat ->
  exists c', SetString c index s = Some c' /\ GetString c' index = Some s /\
    only_changes (Z.to_nat (asIndex p)) (1 + (length s + 3) / 4) c c'.
Proof.
  intros Hp Hd [Hlen Hs] Ho. unfold SetString. rewrite Hp.
  assert (Hu : u8 (Z.of_nat (length s)) = Z.of_nat (length s)) by (unfold u8; lia).
  rewrite Hu. cbn zeta. rewrite Nat2Z.id, firstn_all.
  set (si := Z.to_nat (asIndex p)) in *.
  set (ws := string_words s 0 0) in *.
  destruct (string_words_bytes s Hs) as [HB HL]. fold ws in HB, HL.
  assert (HL' : length ws = ((length s + 3) / 4)%nat) by lia.
  set (c1 := put c si (AString (Z.of_nat (length s)))).
  destruct (put_words_spec ws c1 (S si)) as [PL [P1 P2]].
  exists (put_words c1 (S si) ws). split; [reflexivity|].
  assert (Hlt : (index < length c)%nat) by (apply nth_error_Some; unfold get in Hp; congruence).
  assert (Hfr : only_changes si (1 + (length s + 3) / 4) c (put_words c1 (S si) ws)).
  { intros j Hj Hjl. rewrite P2 by (unfold c1; rewrite ?put_length; lia).
    unfold c1. apply put_other; lia. }
  split; [|exact Hfr].
  unfold GetString, get. rewrite (Hfr index) by lia. unfold get in Hp. rewrite Hp. fold si.
  rewrite P2 by (unfold c1; rewrite ?put_length; lia).
  unfold c1 at 1. rewrite put_same. cbn zeta.
  assert (HA : Z.land (AString (Z.of_nat (length s))) 0xFF = Z.of_nat (length s)).
  { assert (F : fits (VString (Z.of_nat (length s)))) by (cbn; unfold is_u8; lia).
    pose proof (read_back_build _ F ltac:(intros; discriminate)) as R.
    pose proof (build_eq _ F eq_refl) as BE. cbn [build dsc low] in BE. rewrite BE, land_255.
    change STRING with 198. cbn in F; unfold is_u8 in F. lia. }
  rewrite HA. destruct (Z.leb_spec 255 (Z.of_nat (length s))); [lia|].
  replace (Z.to_nat ((Z.of_nat (length s) + 3) / 4)) with (length ws) by lia.
  assert (PL' : (S si + length ws <= length (put_words c1 (S si) ws))%nat).
  { rewrite PL. unfold c1. rewrite put_length. destruct (length ws =? 0)%nat eqn:E; lia. }
  destruct (Nat.ltb_spec (length (put_words c1 (S si) ws)) (S si + length ws)); [lia|].
  rewrite (firstn_skipn_nth _ ws (S si) P1). rewrite Nat2Z.id, HB. f_equal.
  apply c_string_id, Hs.
Qed.

(** A two-character UTF-8 letter is corrupted. *)
Lemma string_refuted : exists c index s c',
  Forall is_u8 s /\ SetString c index s = Some c' /\ exists s', GetString c' index = Some s' /\ s' <> s.
Proof.
  exists [IPointer 1], 0%nat, [0xC3; 0xA9]. eexists. split; [|split].
  - repeat constructor; lia.
  - vm_compute. reflexivity.
  - eexists. split; [vm_compute; reflexivity|]. discriminate.
Qed.

(** A 255-character string makes the reader write past its buffer. *)
Lemma string_255_refuted : exists c index s c',
  Forall (fun ch => 1 <= ch <= 127) s /\ SetString c index s = Some c' /\ GetString c' index = None.
Proof.
  exists [IPointer 1], 0%nat, (repeat 65 255). eexists. split; [|split].
  - apply Forall_forall. intros x Hx. apply repeat_spec in Hx. lia.
  - vm_compute. reflexivity.
  - vm_compute. reflexivity.
Qed.

(** A 300-character ASCII string comes back truncated. *)
Lemma string_300_refuted : exists c index s c' s',
  Forall (fun ch => 1 <= ch <= 127) s /\ SetString c index s = Some c' /\
  GetString c' index = Some s' /\ s' <> s.
Proof.
  exists [IPointer 1], 0%nat, (repeat 65 300). eexists. eexists. split; [|split; [|split]].
  - apply Forall_forall. intros x Hx. apply repeat_spec in Hx. lia.
  - vm_compute. reflexivity.
  - vm_compute. reflexivity.
  - intros H. apply (f_equal (@length Z)) in H. vm_compute in H. discriminate.
Qed.

(** ** Resilience *)
Lemma resilience_spec ref now ttl upr k :
  0 < upr -> 0 < ttl -> ref <= now -> now + ttl - ref < 2^63 -> ttl / upr < 2^30 ->
  last_update ref upr now k ->
  let n := GetResilience ref now ttl upr in
  1 <= n /\ now + ttl <= ref + (k + n) * upr < now + ttl + upr.
Proof.
  intros Hu Ht Hr Hm Hb [K1 K2]. change (2^63) with 9223372036854775808 in Hm.
  change (2^30) with 1073741824 in Hb.
  unfold GetResilience. destruct (Z.eqb_spec ttl 0); [lia|]. destruct (Z.eqb_spec upr 0); [lia|].
  cbn [orb]. cbn zeta.
  assert (U1 : u64 (now - ref) = now - ref) by (unfold u64; apply Z.mod_small; lia).
  assert (U2 : u64 (now + ttl - ref) = now + ttl - ref) by (unfold u64; apply Z.mod_small; lia).
  rewrite U1, U2.
  assert (Ek : (now - ref) / upr = k).
  { symmetry. apply Z.div_unique with (now - ref - k * upr); lia. }
  rewrite Ek.
  set (D := now + ttl - ref) in *.
  pose proof (Z.div_mod D upr ltac:(lia)) as DM. pose proof (Z.mod_pos_bound D upr Hu) as MB.
  set (q := D / upr) in *. set (r := D mod upr) in *.
  set (nx := if 0 <? r then q + 1 else q).
  assert (Hnx : D <= nx * upr < D + upr) by (unfold nx; destruct (Z.ltb_spec 0 r); nia).
  pose proof (Z.div_mod ttl upr ltac:(lia)) as TM. pose proof (Z.mod_pos_bound ttl upr Hu) as TB.
  set (tq := ttl / upr) in *.
  assert (Hkn : k < nx) by nia.
  assert (Hup : nx - k <= tq + 2) by nia.
  assert (Hw : i32 (u64 (nx - k)) = nx - k) by (unfold i32, u64; lia).
  rewrite Hw. split; [lia|]. replace (k + (nx - k)) with nx by lia. unfold D in *. lia.
Qed.

Lemma resilience_mono ref now ttl1 ttl2 upr :
  0 < upr -> 0 < ttl1 <= ttl2 -> ref <= now -> now + ttl2 - ref < 2^63 -> ttl2 / upr < 2^30 ->
  GetResilience ref now ttl1 upr <= GetResilience ref now ttl2 upr.
Proof.
  intros Hu Ht Hr Hm Hb.
  assert (Hb1 : ttl1 / upr < 2^30).
  { apply Z.le_lt_trans with (ttl2 / upr); [apply Z.div_le_mono; lia|assumption]. }
  assert (LU : last_update ref upr now ((now - ref) / upr)).
  { pose proof (Z.div_mod (now - ref) upr ltac:(lia)). pose proof (Z.mod_pos_bound (now - ref) upr Hu).
    unfold last_update. split; nia. }
  pose proof (resilience_spec ref now ttl1 upr _ Hu ltac:(lia) Hr ltac:(lia) Hb1 LU) as A.
  pose proof (resilience_spec ref now ttl2 upr _ Hu ltac:(lia) Hr ltac:(lia) Hb LU) as B.
  cbn zeta in A, B. nia.
Qed.

Lemma resilience_trivial ref now ttl upr : ttl = 0 \/ upr = 0 -> GetResilience ref now ttl upr = 1.
Proof.
  intros H. unfold GetResilience.
  destruct (Z.eqb_spec ttl 0), (Z.eqb_spec upr 0); cbn; try reflexivity; lia.
Qed.

(** A deadline already in the past gives a resilience below 1. *)
Lemma resilience_negative_refuted : exists ref now ttl upr,
  ref <= now + ttl /\ ttl < 0 /\ 0 < upr /\ GetResilience ref now ttl upr < 1.
Proof. exists 0, 100, (-50), 10. vm_compute. repeat split; try reflexivity; discriminate. Qed.

Lemma trunc_ge1 m e : 8388608 <= Z.pos m -> -23 <= e ->
  1 <= (if 0 <=? e then Z.pos m * 2 ^ e else Z.pos m / 2 ^ (- e)).
Proof.
  intros Hm He. destruct (Z.leb_spec 0 e) as [P|P].
  - assert (0 < 2^e) by (apply Z.pow_pos_nonneg; lia). nia.
  - assert (B : 2 ^ (- e) <= 2 ^ 23) by (apply Z.pow_le_mono_r; lia).
    change (2^23) with 8388608 in B.
    apply Z.div_le_lower_bound; [apply Z.pow_pos_nonneg; lia|lia].
Qed.

Lemma key_one : key fone = 1065353216.
Proof. vm_compute. reflexivity. Qed.
Lemma valid_one : f32_valid fone = true.
Proof. vm_compute. reflexivity. Qed.

Lemma magn_ge_one m e : bounded prec emax m e = true -> 1065353216 <= magn m e ->
  8388608 <= Z.pos m /\ -23 <= e.
Proof.
  intros V L. apply bounded_spec in V. revert V L. unfold magn. generalize (Z.pos m). intros z V L.
  destruct (z <? 8388608) eqn:E; [apply Z.ltb_lt in E | apply Z.ltb_ge in E]; lia.
Qed.

Lemma f32_to_i32_ge1 f z : f32_valid f = true -> flt f fone = false -> f32_to_i32 f = Some z -> 1 <= z.
Proof.
  intros V L H. unfold f32_to_i32 in H.
  destruct f as [s|s| |s m e]; try discriminate H; try (destruct s; discriminate L).
  rewrite (flt_key _ _ V valid_one) in L by discriminate. rewrite key_one in L.
  unfold f32_valid in V; cbn [valid_binary] in V. cbn [key] in L. apply Z.ltb_ge in L.
  pose proof (magn_pos m e V) as MP.
  destruct s; [exfalso; lia|].
  destruct (magn_ge_one m e V L) as [H1 H2].
  pose proof (trunc_ge1 m e H1 H2) as T.
  cbn zeta in H. revert H T. generalize (if 0 <=? e then Z.pos m * 2 ^ e else Z.pos m / 2 ^ (- e)).
  intros v H T. destruct (_ && _); [|discriminate]. injection H as <-. exact T.
Qed.

Lemma resilience_conv_ge1 res o d n :
  f32_valid (fmul res (fdiv o d)) = true ->
  GetResilience_conv res o d = Some n -> 1 <= n.
Proof.
  intros V H. unfold GetResilience_conv in H.
  destruct (feqb o fzero); [injection H as <-; lia|].
  destruct (fle d o); [injection H as <-; lia|]. cbn zeta in H.
  destruct (flt (fmul res (fdiv o d)) fone) eqn:L; [injection H as <-; lia|].
  exact (f32_to_i32_ge1 _ _ V L H).
Qed.

(** Moving an object to a group that updates twice as often kills it after one
    update. *)
Lemma resilience_conv_refuted : exists res o d n,
  (0 < res /\ 0 < o /\ 0 < d) /\
  GetResilience_conv (f32_of_Z res) (f32_of_Z o) (f32_of_Z d) = Some n /\ n * d < res * o.
Proof. exists 10, 2, 1, 1. vm_compute. repeat split; reflexivity. Qed.

(** The resilience given to goals and predictions ignores the base period. *)
Lemma goal_res_refuted : exists ref now ttl upr base,
  0 < upr /\ 1 < base /\ 0 < ttl /\ ref <= now /\
  get_goal_pred_success_res ref now ttl upr <> GetResilience ref now ttl (upr * base).
Proof. exists 0, 0, 100000, 1, 50000. vm_compute. repeat split; try reflexivity; discriminate. Qed.

Lemma i32_lt x : i32 x < 2147483648.
Proof. unfold i32. lia. Qed.

Lemma goal_res_base1 ref now ttl upr :
  0 < upr -> 0 <= ttl -> ref <= now -> now + ttl - ref < 2^63 -> ttl / upr < 2^30 ->
  get_goal_pred_success_res ref now ttl upr = GetResilience ref now ttl (upr * 1).
Proof.
  intros Hu Ht Hr Hm Hb. unfold get_goal_pred_success_res. rewrite Z.mul_1_r.
  destruct (Z.eqb_spec ttl 0) as [->|N]; [rewrite resilience_trivial; auto|].
  assert (LU : last_update ref upr now ((now - ref) / upr)).
  { pose proof (Z.div_mod (now - ref) upr ltac:(lia)). pose proof (Z.mod_pos_bound (now - ref) upr Hu).
    unfold last_update. split; nia. }
  pose proof (resilience_spec ref now ttl upr _ Hu ltac:(lia) Hr Hm Hb LU) as A. cbn zeta in A.
  unfold u32. rewrite Z.mod_small; [reflexivity|].
  assert (GetResilience ref now ttl upr < 2147483648).
  { unfold GetResilience. destruct (_ || _); [lia|]. cbn zeta. apply i32_lt. }
  clear LU Hb Hm. lia.
Qed.

(** ** Update times *)
Lemma next_upr upr base ref now :
  0 < upr -> 0 < base -> ref <= now ->
  let t := get_next_upr_time upr base ref now in
  now < t <= now + upr * base /\ (exists k, t = ref + k * (upr * base)) /\
  (forall k, now < ref + k * (upr * base) -> t <= ref + k * (upr * base)).
Proof.
  intros Hu Hb Hr. cbn zeta. unfold get_next_upr_time. destruct (Z.eqb_spec upr 0); [lia|]. cbn zeta.
  set (p := upr * base) in *. assert (Hp : 0 < p) by (unfold p; nia).
  rewrite Z.rem_mod_nonneg by lia.
  pose proof (Z.div_mod (now - ref) p ltac:(lia)) as DM. pose proof (Z.mod_pos_bound (now - ref) p Hp) as MB.
  set (q := (now - ref) / p) in *. set (r := (now - ref) mod p) in *. clearbody p q r.
  split; [lia|]. split.
  - exists (q + 1). lia.
  - intros k Hk. assert (q < k) by nia. nia.
Qed.

Lemma prev_upr upr base ref now :
  0 < upr -> 0 < base -> ref <= now ->
  let t := get_prev_upr_time upr base ref now in
  now - upr * base < t <= now /\ (exists k, t = ref + k * (upr * base)) /\
  (forall k, ref + k * (upr * base) <= now -> ref + k * (upr * base) <= t).
Proof.
  intros Hu Hb Hr. cbn zeta. unfold get_prev_upr_time. destruct (Z.eqb_spec upr 0); [lia|]. cbn zeta.
  set (p := upr * base) in *. assert (Hp : 0 < p) by (unfold p; nia).
  rewrite Z.rem_mod_nonneg by lia.
  pose proof (Z.div_mod (now - ref) p ltac:(lia)) as DM. pose proof (Z.mod_pos_bound (now - ref) p Hp) as MB.
  set (q := (now - ref) / p) in *. set (r := (now - ref) mod p) in *. clearbody p q r.
  split; [lia|]. split.
  - exists q. lia.
  - intros k Hk. assert (k <= q) by nia. nia.
Qed.

Lemma never_upr base ref now :
  get_next_upr_time 0 base ref now = Utils_MaxTime /\ get_prev_upr_time 0 base ref now = Utils_MaxTime.
Proof. split; reflexivity. Qed.
