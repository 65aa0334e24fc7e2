(** Proofs about packing and unpacking. *)
From Verif Require Import Base Atom_model Atom_proofs Pack_model Pack_spec.

(** ** Atoms *)
Lemma u32_small x : 0 <= x < 4294967296 -> u32 x = x.
Proof. intros H. apply Z.mod_small. exact H. Qed.
Lemma u16_small x : 0 <= x < 65536 -> u16 x = x.
Proof. intros H. apply Z.mod_small. exact H. Qed.
Lemma ip_eq i : IPointer i = 0x84000000 + i mod 4096.
Proof.
  unfold IPointer. change (Z.land i 0x0FFF) with (asIndex i). rewrite idx_arith, shl24. unfold I_PTR. pose proof (Z.mod_pos_bound i 4096). rewrite u32_small by lia. lia.
Qed.
Lemma rp_eq i : RPointer i = 0x85000000 + i mod 4096.
Proof.
  unfold RPointer. change (Z.land i 0x0FFF) with (asIndex i). rewrite idx_arith, shl24. unfold R_PTR. pose proof (Z.mod_pos_bound i 4096). rewrite u32_small by lia. lia.
Qed.
Lemma ip_desc i : getDescriptor (IPointer i) = I_PTR.
Proof. rewrite desc_arith, ip_eq. pose proof (Z.mod_pos_bound i 4096). replace ((0x84000000 + i mod 4096) / 16777216) with 0x84; [reflexivity|]. apply (Z.div_unique _ _ _ (i mod 4096)); lia. Qed.
Lemma rp_desc i : getDescriptor (RPointer i) = R_PTR.
Proof. rewrite desc_arith, rp_eq. pose proof (Z.mod_pos_bound i 4096). replace ((0x85000000 + i mod 4096) / 16777216) with 0x85; [reflexivity|]. apply (Z.div_unique _ _ _ (i mod 4096)); lia. Qed.
Lemma ip_index i : asIndex (IPointer i) = i mod 4096.
Proof. rewrite idx_arith, ip_eq. change 0x84000000 with (540672 * 4096). rewrite Z.add_comm, Z.mod_add by lia. apply Z.mod_mod. lia. Qed.
Lemma rp_index i : asIndex (RPointer i) = i mod 4096.
Proof. rewrite idx_arith, rp_eq. change 0x85000000 with (544768 * 4096). rewrite Z.add_comm, Z.mod_add by lia. apply Z.mod_mod. lia. Qed.
Lemma ip_nat n : Z.of_nat n < 4096 -> Z.to_nat (asIndex (IPointer (Z.of_nat n))) = n.
Proof. intros H. rewrite ip_index, Z.mod_small by lia. lia. Qed.
Lemma rp_nat n : Z.of_nat n < 4096 -> Z.to_nat (asIndex (RPointer (Z.of_nat n))) = n.
Proof. intros H. rewrite rp_index, Z.mod_small by lia. lia. Qed.
Lemma ip_not_r i : (getDescriptor (IPointer i) =? R_PTR) = false.
Proof. rewrite ip_desc. reflexivity. Qed.
Lemma idx_range a : 0 <= asIndex a < 4096.
Proof. rewrite idx_arith. apply Z.mod_pos_bound. lia. Qed.
Lemma assign_arith a : asAssignmentIndex a = (a / 65536) mod 256.
Proof. unfold asAssignmentIndex. rewrite mask_ff0000. apply Z.mod_mod. lia. Qed.
Lemma ap_eq v i : 0 <= v < 256 -> AssignmentPointer v i = 0x8D000000 + v * 65536 + i mod 4096.
Proof.
  intros H. unfold AssignmentPointer. change (Z.land i 0x0FFF) with (asIndex i). rewrite idx_arith, shl24, shl16. unfold ASSIGN_PTR. pose proof (Z.mod_pos_bound i 4096). rewrite u32_small by lia. lia.
Qed.
Lemma ap_desc v i : 0 <= v < 256 -> getDescriptor (AssignmentPointer v i) = ASSIGN_PTR.
Proof. intros H. rewrite desc_arith, (ap_eq v i H). pose proof (Z.mod_pos_bound i 4096). replace ((0x8D000000 + v * 65536 + i mod 4096) / 16777216) with 0x8D; [reflexivity|]. apply (Z.div_unique _ _ _ (v * 65536 + i mod 4096)); lia. Qed.
Lemma ap_index v i : 0 <= v < 256 -> asIndex (AssignmentPointer v i) = i mod 4096.
Proof. intros H. rewrite idx_arith, (ap_eq v i H). replace (0x8D000000 + v * 65536 + i mod 4096) with (i mod 4096 + (577536 + v * 16) * 4096) by ring. rewrite Z.mod_add by lia. apply Z.mod_mod. lia. Qed.
Lemma ap_var v i : 0 <= v < 256 -> asAssignmentIndex (AssignmentPointer v i) = v.
Proof.
  intros H. rewrite assign_arith, (ap_eq v i H). pose proof (Z.mod_pos_bound i 4096). replace ((0x8D000000 + v * 65536 + i mod 4096) / 65536) with (36096 + v) by (apply (Z.div_unique _ _ _ (i mod 4096)); lia).
  change 36096 with (141 * 256). rewrite Z.add_comm, Z.mod_add by lia. apply Z.mod_small. exact H.
Qed.
Lemma var_range a : 0 <= asAssignmentIndex a < 256.
Proof. rewrite assign_arith. apply Z.mod_pos_bound. lia. Qed.
Lemma count_range a : 0 <= getAtomCount a < 256.
Proof.
  unfold getAtomCount. destruct (_ || _); [change 0xFF with (Z.ones 8); rewrite Z.land_ones by lia; apply Z.mod_pos_bound; lia|]. destruct (_ =? _); [rewrite mask_ff00; apply Z.mod_pos_bound; lia|].
  destruct (_ =? _); [lia|]. destruct (_ =? _); lia.
Qed.
(** Moving down undoes moving up. *)
Lemma shift_back n d a : movable n a -> Z.of_nat (n + d) <= 4096 -> shift (- Z.of_nat d) (shift (Z.of_nat d) a) = a.
Proof.
  intros (MI & MA) L. unfold shift at 2. pose proof (idx_range a) as IR. destruct (getDescriptor a =? I_PTR) eqn:E.
  - apply Z.eqb_eq in E. destruct (MI E) as (EA & B). unfold shift. rewrite ip_desc, Z.eqb_refl, ip_index. rewrite (u16_small (asIndex a + Z.of_nat d)) by lia. rewrite (Z.mod_small (asIndex a + Z.of_nat d)) by lia.
    replace (asIndex a + Z.of_nat d + - Z.of_nat d) with (asIndex a) by ring. rewrite u16_small by lia. symmetry. exact EA.
  - destruct (getDescriptor a =? ASSIGN_PTR) eqn:E2.
    + apply Z.eqb_eq in E2. destruct (MA E2) as (EA & B). pose proof (var_range a) as VR. unfold shift. rewrite ap_desc by exact VR. change (ASSIGN_PTR =? I_PTR) with false. rewrite Z.eqb_refl, ap_index, ap_var by exact VR.
      rewrite (u16_small (asIndex a + Z.of_nat d)) by lia. rewrite (Z.mod_small (asIndex a + Z.of_nat d)) by lia. replace (asIndex a + Z.of_nat d + - Z.of_nat d) with (asIndex a) by ring. rewrite u16_small by lia. symmetry. exact EA.
    + unfold shift. rewrite E, E2. reflexivity.
Qed.

Local Opaque IPointer RPointer AssignmentPointer getDescriptor asIndex asAssignmentIndex getAtomCount.

(** ** Vectors *)
Lemma get_write c : forall i v j, get (write c i v) j = if (j =? i)%nat then v else get c j.
Proof.
  unfold get. induction c as [|x c IH].
  - induction i as [|i IHi]; intros v [|j]; cbn; try reflexivity.
    + destruct j; reflexivity.
    + rewrite IHi. destruct j; reflexivity.
  - intros [|i] v [|j]; cbn; try reflexivity. apply IH.
Qed.
Lemma length_write c : forall i v, length (write c i v) = Nat.max (length c) (S i).
Proof.
  induction c as [|x c IH].
  - induction i as [|i IHi]; intros v; cbn; [reflexivity|]. rewrite IHi. cbn. lia.
  - intros [|i] v; cbn; [lia|]. rewrite IH. lia.
Qed.
Lemma get_same c i v : get (write c i v) i = v.
Proof. rewrite get_write, Nat.eqb_refl. reflexivity. Qed.
Lemma get_other c i v j : j <> i -> get (write c i v) j = get c j.
Proof. intros H. rewrite get_write. destruct (Nat.eqb_spec j i); [contradiction|reflexivity]. Qed.
Lemma list_eq (c d : list Z) : length c = length d -> (forall j, (j < length c)%nat -> get c j = get d j) -> c = d.
Proof. intros L H. apply (nth_ext c d blank blank L). exact H. Qed.
Lemma get_skipn c n j : get (skipn n c) j = get c (n + j).
Proof. unfold get. revert c. induction n as [|n IH]; intros c; [reflexivity|]. destruct c as [|x c]; cbn; [destruct j; reflexivity|]. apply IH. Qed.
Lemma get_firstn c n j : (j < n)%nat -> get (firstn n c) j = get c j.
Proof. unfold get. revert c j. induction n as [|n IH]; intros c j H; [lia|]. destruct c as [|x c]; [reflexivity|]. destruct j as [|j]; [reflexivity|]. cbn. apply IH. lia. Qed.
Lemma write_all_get l : forall c i j, get (write_all c i l) j = if ((i <=? j) && (j <? i + length l))%nat then get l (j - i) else get c j.
Proof.
  induction l as [|a l IH]; intros c i j; cbn [write_all length].
  - destruct ((i <=? j)%nat) eqn:A; cbn [andb]; [|reflexivity]. destruct (Nat.ltb_spec j (i + 0)); [apply Nat.leb_le in A; lia|reflexivity].
  - rewrite IH. destruct (Nat.leb_spec (S i) j), (Nat.ltb_spec j (S i + length l)), (Nat.leb_spec i j), (Nat.ltb_spec j (i + S (length l))); cbn [andb]; try lia.
    + replace (j - i)%nat with (S (j - S i)) by lia. reflexivity.
    + apply get_other. lia.
    + assert (j = i) by lia. subst j. rewrite get_same, Nat.sub_diag. reflexivity.
    + apply get_other. lia.
Qed.
Lemma write_all_length l : forall c i, l <> [] -> length (write_all c i l) = Nat.max (length c) (i + length l).
Proof.
  induction l as [|a l IH]; intros c i N; [contradiction|]. cbn [write_all length]. destruct l as [|b l]; [cbn; rewrite length_write; lia|]. rewrite IH by discriminate. rewrite length_write. cbn [length]. lia.
Qed.

(** ** What packing leaves *)
(** An atom of an object and the atom it is packed as. *)
Definition moved (offset : nat) (orefs R : list Z) (a b : Z) : Prop :=
  if getDescriptor a =? R_PTR then exists i r, (i < length R)%nat /\ b = RPointer (Z.of_nat i) /\ nth_error R i = Some r /\ nth_error orefs (Z.to_nat (asIndex a)) = Some r
  else if getDescriptor a =? I_PTR then b = IPointer (u16 (Z.of_nat offset + asIndex a)) else b = a.
Lemma moved_more offset orefs R R' a b : moved offset orefs R a b -> moved offset orefs (R ++ R') a b.
Proof.
  unfold moved. destruct (getDescriptor a =? R_PTR); [|exact (fun H => H)]. intros (i & r & L & B & N & O). exists i, r. split; [rewrite app_length; lia|]. split; [exact B|]. split; [|exact O]. rewrite nth_error_app1 by exact L. exact N.
Qed.
Lemma find_ref_some l : forall r i, find_ref l r = Some i -> (i < length l)%nat /\ nth_error l i = Some r.
Proof.
  induction l as [|x l IH]; intros r i H; [discriminate|]. cbn in H. destruct (Z.eqb_spec x r); [injection H as <-; subst; split; [cbn; lia|reflexivity]|].
  destruct (find_ref l r) as [k|] eqn:E; [|discriminate]. injection H as <-. destruct (IH _ _ E). cbn. split; [lia|assumption].
Qed.
Definition refs_in (orefs : list Z) (l : list Z) : Prop := forall a, In a l -> getDescriptor a = R_PTR -> (Z.to_nat (asIndex a) < length orefs)%nat.
Lemma pack_atoms_ok offset orefs l : forall c refs w, refs_in orefs l ->
  exists c' more, pack_atoms offset orefs l c refs w = Some (c', refs ++ more, w + length l)%nat /\ (length more <= length l)%nat /\
    (length c' <= Nat.max (length c) (w + length l))%nat /\
    (forall j, (j < w \/ w + length l <= j)%nat -> get c' j = get c j) /\
    (Z.of_nat (length (refs ++ more)) < 65536 -> forall k, (k < length l)%nat -> moved offset orefs (refs ++ more) (get l k) (get c' (w + k))).
Proof.
  induction l as [|a l IH]; intros c refs w RI.
  - exists c, []. cbn [pack_atoms length]. rewrite app_nil_r, Nat.add_0_r. split; [reflexivity|]. split; [lia|]. split; [lia|]. split; [reflexivity|]. intros _ k K. lia.
  - assert (RI' : refs_in orefs l) by (intros x I; apply RI; right; exact I). cbn [pack_atoms].
    assert (STEP : forall v refs1, moved offset orefs refs1 a v \/ ~ (Z.of_nat (length refs1) < 65536) -> (exists m1, refs1 = refs ++ m1 /\ (length m1 <= 1)%nat) ->
       exists c' more, pack_atoms offset orefs l (write c w v) refs1 (S w) = Some (c', refs ++ more, w + length (a :: l))%nat /\ (length more <= length (a :: l))%nat /\
         (length c' <= Nat.max (length c) (w + length (a :: l)))%nat /\ (forall j, (j < w \/ w + length (a :: l) <= j)%nat -> get c' j = get c j) /\
         (Z.of_nat (length (refs ++ more)) < 65536 -> forall k, (k < length (a :: l))%nat -> moved offset orefs (refs ++ more) (get (a :: l) k) (get c' (w + k)))).
    { intros v refs1 MV (m1 & -> & LM). destruct (IH (write c w v) (refs ++ m1) (S w) RI') as (c' & more & E & L1 & L2 & FR & MO). exists c', (m1 ++ more). rewrite <- app_assoc in E. cbn [length].
      rewrite E. split; [f_equal; f_equal; lia|]. split; [rewrite app_length; lia|]. split; [rewrite length_write in L2; lia|]. split.
      - intros j J. rewrite FR by lia. apply get_other. lia.
      - rewrite <- app_assoc in MO. intros LT [|k] K.
        + rewrite Nat.add_0_r. rewrite FR by lia. rewrite get_same. cbn [get nth]. rewrite app_assoc. apply moved_more. destruct MV as [MV|MV]; [exact MV|]. exfalso. apply MV. rewrite !app_length in *. lia.
        + replace (w + S k)%nat with (S w + k)%nat by lia. apply (MO LT). lia. }
    destruct (getDescriptor a =? R_PTR) eqn:ER.
    + pose proof ER as ER'. apply Z.eqb_eq in ER'. pose proof (RI a (or_introl eq_refl) ER') as B. destruct (nth_error orefs (Z.to_nat (asIndex a))) as [r|] eqn:NO; [|apply nth_error_None in NO; lia].
      destruct (find_ref refs r) as [i|] eqn:FI.
      * apply find_ref_some in FI. apply STEP; [left|exists []; rewrite app_nil_r; split; [reflexivity|cbn; lia]]. unfold moved. rewrite ER. exists i, r. repeat split; try apply FI. exact NO.
      * apply STEP; [|exists [r]; split; [reflexivity|cbn; lia]]. destruct (Z.lt_ge_cases (Z.of_nat (length (refs ++ [r]))) 65536) as [LT|GE]; [left|right; lia]. unfold moved. rewrite ER. exists (length refs), r.
        rewrite app_length in *. cbn [length] in *. split; [lia|]. rewrite u16_small by lia. split; [reflexivity|]. split; [rewrite nth_error_app2, Nat.sub_diag by lia; reflexivity|exact NO].
    + destruct (getDescriptor a =? I_PTR) eqn:EI; (apply STEP; [left; unfold moved; rewrite ER, EI; reflexivity|exists []; rewrite app_nil_r; split; [reflexivity|cbn; lia]]).
Qed.
Lemma reading_refs c j k vs rs : reading c j k vs rs -> forall p, In p vs -> getDescriptor (get c p) = R_PTR -> exists r, In r rs /\ get c p = RPointer (Z.of_nat r) /\ Z.of_nat r < 4096.
Proof.
  induction 1; intros p I D.
  - destruct I.
  - destruct I as [<-|I]; [exists r; split; [left; reflexivity|auto]|]. destruct (IHreading p I D) as (r' & A & B). exists r'. split; [right; exact A|exact B].
  - destruct I as [<-|I]; [rewrite H1, ip_desc in D; discriminate|]. apply in_app_iff in I. destruct I as [I|I].
    + destruct (IHreading1 p I D) as (r' & A & B). exists r'. split; [apply in_app_iff; auto|exact B].
    + destruct (IHreading2 p I D) as (r' & A & B). exists r'. split; [apply in_app_iff; auto|exact B].
  - destruct I as [<-|I]; [contradiction|]. apply IHreading; assumption.
Qed.
Lemma expression_refs o : expression o -> refs_in (o_refs o) (o_code o).
Proof.
  intros (vs & RD & CV) a I D. apply (In_nth _ _ blank) in I. destruct I as (p & P & <-). destruct (reading_refs _ _ _ _ _ RD p (CV p P) D) as (r & RI & E & B). unfold get in E. rewrite E, rp_nat by exact B. apply in_seq in RI. lia.
Qed.
Definition rep_payload (C R : list Z) (base : nat) (o : payload) : Prop := forall k, (k < length (o_code o))%nat -> moved base (o_refs o) R (get (o_code o) k) (get C (base + k)).
Definition rep_atom (C R : list Z) (frefs : list fref) (lo hi : nat) (a b : Z) : Prop :=
  if getDescriptor a =? R_PTR then exists e o, b = IPointer (u16 (Z.of_nat e)) /\ nth_error frefs (Z.to_nat (asIndex a)) = Some (New o) /\ (lo <= e)%nat /\ (e + length (o_code o) <= hi)%nat /\ rep_payload C R e o
  else b = a.
Lemma rep_payload_frame C R base o C' R' : rep_payload C R base o -> (forall j, (base <= j < base + length (o_code o))%nat -> get C' j = get C j) -> rep_payload C' (R ++ R') base o.
Proof. intros H F k K. rewrite F by lia. apply moved_more. apply H. exact K. Qed.
Lemma rep_atom_frame C R frefs lo hi a b C' R' lo' hi' : rep_atom C R frefs lo hi a b -> (lo' <= lo)%nat -> (hi <= hi')%nat -> (forall j, (lo <= j < hi)%nat -> get C' j = get C j) -> rep_atom C' (R ++ R') frefs lo' hi' a b.
Proof.
  unfold rep_atom. destruct (getDescriptor a =? R_PTR); [|exact (fun H _ _ _ => H)]. intros (e & o & B & N & L & U & P) L' U' F. exists e, o. split; [exact B|]. split; [exact N|]. split; [lia|]. split; [lia|].
  apply (rep_payload_frame C R); [exact P|]. intros j J. apply F. lia.
Qed.
Lemma skipn_nth {A} (l : list A) : forall s x, nth_error l s = Some x -> skipn s l = x :: skipn (S s) l.
Proof. induction l as [|y l IH]; intros [|s] x H; try discriminate; [injection H as <-; reflexivity|]. cbn [skipn]. apply IH. exact H. Qed.
Lemma pack_fact_atoms_ok frefs l : Z.of_nat (length frefs) <= 4096 -> Forall (fun x => match x with New o => expression o | Old _ => False end) frefs ->
  forall s m c refs w ext, filter (fun a => getDescriptor a =? R_PTR) l = map (fun r => RPointer (Z.of_nat r)) (seq s m) -> (s + m = length frefs)%nat -> (w + length l <= ext)%nat ->
  exists c' more ext', pack_fact_atoms frefs l c refs w ext = Some (c', refs ++ more, ext') /\ ext' = (ext + list_sum (map object_size (skipn s frefs)))%nat /\ (length more <= ext' - ext)%nat /\
    (length c' <= Nat.max (length c) ext')%nat /\ (forall j, (j < w \/ w + length l <= j < ext \/ ext' <= j)%nat -> get c' j = get c j) /\
    (Z.of_nat (length (refs ++ more)) < 65536 -> forall k, (k < length l)%nat -> rep_atom c' (refs ++ more) frefs ext ext' (get l k) (get c' (w + k))).
Proof.
  intros FEW OBJ. induction l as [|a l IH]; intros s m c refs w ext FL SM WE.
  - destruct m; [|discriminate]. exists c, [], ext. rewrite app_nil_r. cbn [pack_fact_atoms]. rewrite skipn_all2 by lia. cbn [map list_sum fold_right length]. rewrite Nat.add_0_r. split; [reflexivity|]. split; [reflexivity|]. split; [lia|]. split; [lia|]. split; [reflexivity|]. intros _ k K. lia.
  - cbn [pack_fact_atoms filter length] in *. destruct (getDescriptor a =? R_PTR) eqn:ER.
    + destruct m as [|m]; [discriminate|]. cbn [seq map] in FL. pose proof (f_equal (hd 0) FL) as EA. apply (f_equal (@tl Z)) in FL. cbn [hd tl] in EA, FL. subst a. assert (S4 : Z.of_nat s < 4096) by lia. rewrite rp_nat by exact S4.
      destruct (nth_error frefs s) as [x|] eqn:NX; [|apply nth_error_None in NX; lia]. pose proof (proj1 (Forall_forall _ _) OBJ x (nth_error_In _ _ NX)) as EX. destruct x as [o|]; [|contradiction]. unfold pack_fact_object.
      destruct (pack_atoms_ok ext (o_refs o) (o_code o) (write c w (IPointer (u16 (Z.of_nat ext)))) refs ext (expression_refs o EX)) as (c2 & m1 & E1 & LM1 & LC1 & FR1 & MV1). rewrite E1.
      destruct (IH (S s) m c2 (refs ++ m1) (S w) (ext + length (o_code o))%nat FL ltac:(lia) ltac:(lia)) as (c3 & m2 & ext3 & E2 & EX3 & LM2 & LC2 & FR2 & RP2). rewrite E2. exists c3, (m1 ++ m2), ext3.
      split; [rewrite app_assoc; reflexivity|]. split; [rewrite EX3, (skipn_nth _ _ _ NX); cbn [map list_sum fold_right object_size]; change (fold_right Nat.add 0%nat) with list_sum; lia|].
      split; [rewrite app_length; lia|]. split; [rewrite length_write in LC1; lia|]. split.
      * intros j J. rewrite FR2 by lia. rewrite FR1 by lia. apply get_other. lia.
      * rewrite app_assoc. intros LT [|k] K.
        -- rewrite Nat.add_0_r. cbn [get nth]. unfold rep_atom. rewrite ER. exists ext, o. split; [rewrite FR2 by lia; rewrite FR1 by lia; apply get_same|]. rewrite rp_nat by exact S4. split; [exact NX|]. split; [lia|]. split; [lia|].
           apply (rep_payload_frame c2 (refs ++ m1)); [|intros j J; apply FR2; lia]. intros k0 K0. apply MV1; [rewrite !app_length in *; lia|exact K0].
        -- replace (w + S k)%nat with (S w + k)%nat by lia. cbn [get nth]. rewrite <- (app_nil_r ((refs ++ m1) ++ m2)). apply (rep_atom_frame c3 ((refs ++ m1) ++ m2) frefs (ext + length (o_code o))%nat ext3); [apply RP2; [exact LT|lia]|lia|lia|reflexivity].
    + destruct (IH s m (write c w a) refs (S w) ext FL SM ltac:(lia)) as (c3 & m2 & ext3 & E2 & EX3 & LM2 & LC2 & FR2 & RP2). rewrite E2. exists c3, m2, ext3. split; [reflexivity|]. split; [exact EX3|]. split; [exact LM2|].
      split; [rewrite length_write in LC2; lia|]. split; [intros j J; rewrite FR2 by lia; apply get_other; lia|]. intros LT [|k] K.
      * rewrite Nat.add_0_r. cbn [get nth]. unfold rep_atom. rewrite ER. rewrite FR2 by lia. apply get_same.
      * replace (w + S k)%nat with (S w + k)%nat by lia. apply RP2; [exact LT|lia].
Qed.
Definition fact_size (f : fact) : nat := (length (f_code f) + list_sum (map object_size (f_refs f)))%nat.
(** The fact [f] is packed at [w]. *)
Definition rep_fact (C R : list Z) (w : nat) (f : fact) : Prop :=
  forall k, (k < length (f_code f))%nat -> rep_atom C R (f_refs f) (w + length (f_code f)) (w + fact_size f) (get (f_code f) k) (get C (w + k)).
Lemma rep_fact_frame C R w f C' R' : rep_fact C R w f -> (forall j, (w <= j < w + fact_size f)%nat -> get C' j = get C j) -> rep_fact C' (R ++ R') w f.
Proof.
  intros H F k K. assert (length (f_code f) <= fact_size f)%nat by (unfold fact_size; lia). rewrite F by lia. apply (rep_atom_frame C R (f_refs f) (w + length (f_code f)) (w + fact_size f)); [apply H; exact K|lia|lia|].
  intros j J. apply F. lia.
Qed.
Lemma pack_fact_ok f c refs w : simple_fact f ->
  exists c' more, pack_fact f c refs w = Some (c', refs ++ more, w + fact_size f)%nat /\ (length more <= fact_size f)%nat /\ (length c' <= Nat.max (length c) (w + fact_size f))%nat /\
    (forall j, (j < w \/ w + fact_size f <= j)%nat -> get c' j = get c j) /\ (Z.of_nat (length (refs ++ more)) < 65536 -> rep_fact c' (refs ++ more) w f).
Proof.
  intros [SZ FL RF FEW OBJ]. unfold pack_fact. destruct (pack_fact_atoms_ok (f_refs f) (f_code f) FEW OBJ 0 (length (f_refs f)) c refs w (w + length (f_code f)) RF eq_refl (Nat.le_refl _)) as (c' & more & ext' & E & EX & LM & LC & FR & RP).
  cbn [skipn] in EX. assert (EE : ext' = (w + fact_size f)%nat) by (unfold fact_size; lia). rewrite E, EE in *. exists c', more. split; [reflexivity|]. split; [unfold fact_size in *; lia|]. split; [exact LC|]. split; [intros j J; apply FR; unfold fact_size in *; lia|].
  intros LT k K. apply RP; assumption.
Qed.
(** The patterns are packed one after the other from [e]; [set + 1 + i] holds the
    position of pattern [i]. *)
Fixpoint rep_facts (C R : list Z) (set i e : nat) (fs : list fact) : Prop :=
  match fs with [] => True | f :: fs' => get C (set + i + 1) = IPointer (u16 (Z.of_nat e)) /\ rep_fact C R e f /\ rep_facts C R set (S i) (e + fact_size f) fs' end.
Definition facts_size (fs : list fact) : nat := list_sum (map fact_size fs).
Lemma rep_facts_frame fs : forall C R set i e C' R', rep_facts C R set i e fs ->
  (forall j, (set + i + 1 <= j < set + i + 1 + length fs \/ e <= j < e + facts_size fs)%nat -> get C' j = get C j) -> rep_facts C' (R ++ R') set i e fs.
Proof.
  induction fs as [|f fs IH]; intros C R set i e C' R' H F; [exact I|]. destruct H as (A & B & D). unfold facts_size in F. cbn [map list_sum fold_right length] in F. change (fold_right Nat.add 0%nat (map fact_size fs)) with (facts_size fs) in F. split; [rewrite F by lia; exact A|].
  split; [apply (rep_fact_frame C R); [exact B|intros j J; apply F; lia]|]. apply (IH C R); [exact D|]. intros j J. apply F. lia.
Qed.
Lemma pack_patterns_ok fs : forall hrefs set i c refs ext, Forall simple_fact fs -> (forall k f, nth_error fs k = Some f -> nth_error hrefs (i + k) = Some (F f)) -> (set + i + length fs < ext)%nat ->
  exists c' more, pack_patterns hrefs set i (length fs) c refs ext = Some (c', refs ++ more, ext + facts_size fs)%nat /\ (length more <= facts_size fs)%nat /\ (length c' <= Nat.max (length c) (ext + facts_size fs))%nat /\
    (forall j, (j < set + i + 1 \/ set + i + 1 + length fs <= j < ext \/ ext + facts_size fs <= j)%nat -> get c' j = get c j) /\
    (Z.of_nat (length (refs ++ more)) < 65536 -> rep_facts c' (refs ++ more) set i ext fs).
Proof.
  induction fs as [|f fs IH]; intros hrefs set i c refs ext SF HR SE.
  - exists c, []. cbn [length pack_patterns]. unfold facts_size. cbn [map list_sum fold_right length]. rewrite app_nil_r, Nat.add_0_r. split; [reflexivity|]. split; [lia|]. split; [lia|]. split; [reflexivity|]. intros _. exact I.
  - cbn [length pack_patterns] in *. pose proof (HR 0%nat f eq_refl) as H0. rewrite Nat.add_0_r in H0. rewrite H0. pose proof (Forall_inv SF) as H1. pose proof (Forall_inv_tail SF) as H2. unfold facts_size. cbn [map list_sum fold_right]. change (fold_right Nat.add 0%nat (map fact_size fs)) with (facts_size fs).
    destruct (pack_fact_ok f (write c (set + i + 1) (IPointer (u16 (Z.of_nat ext)))) refs ext H1) as (c1 & m1 & E1 & LM1 & LC1 & FR1 & RP1). rewrite E1.
    destruct (IH hrefs set (S i) c1 (refs ++ m1) (ext + fact_size f)%nat H2) as (c2 & m2 & E2 & LM2 & LC2 & FR2 & RP2); [intros k g N; replace (S i + k)%nat with (i + S k)%nat by lia; apply HR; exact N|lia|].
    rewrite E2. exists c2, (m1 ++ m2). split; [rewrite app_assoc; f_equal; f_equal; lia|]. split; [rewrite app_length; lia|]. split; [rewrite length_write in LC1; lia|]. split.
    + intros j J. rewrite FR2 by lia. rewrite FR1 by lia. apply get_other. lia.
    + rewrite app_assoc. intros LT. cbn [rep_facts]. split; [rewrite FR2 by lia; rewrite FR1 by lia; apply get_same|]. split.
      * apply (rep_fact_frame c1 (refs ++ m1)); [apply RP1; rewrite !app_length in *; lia|]. intros j J. apply FR2. lia.
      * apply RP2. exact LT.
Qed.

Lemma pack_groups_ok gs : forall hrefs set i c refs, (forall k g, nth_error gs k = Some g -> nth_error hrefs (index_at c (set + i + k)) = Some (G g)) -> (set + i + length gs <= length c)%nat -> Z.of_nat (length (refs ++ gs)) < 65536 ->
  exists c', pack_groups hrefs set i (length gs) c refs = Some (c', refs ++ gs) /\ length c' = length c /\ (forall j, (j < set + i \/ set + i + length gs <= j)%nat -> get c' j = get c j) /\
    (forall k, (k < length gs)%nat -> get c' (set + i + k) = RPointer (Z.of_nat (length refs + k))).
Proof.
  induction gs as [|g gs IH]; intros hrefs set i c refs HR LC LT.
  - exists c. rewrite app_nil_r. cbn [length pack_groups]. split; [reflexivity|]. split; [reflexivity|]. split; [reflexivity|]. intros k K. lia.
  - cbn [length pack_groups] in *. pose proof (HR 0%nat g eq_refl) as H0. rewrite Nat.add_0_r in H0. rewrite H0. destruct (IH hrefs set (S i) (write c (set + i) (RPointer (u16 (Z.of_nat (length refs))))) (refs ++ [g])) as (c' & E & L & FR & GT).
    + intros k x N. unfold index_at. rewrite get_other by lia. replace (set + S i + k)%nat with (set + i + S k)%nat by lia. exact (HR (S k) x N).
    + rewrite length_write. lia.
    + rewrite <- app_assoc. exact LT.
    + rewrite E, <- app_assoc. exists c'. split; [reflexivity|]. split; [rewrite L, length_write; lia|]. split; [intros j J; rewrite FR by lia; apply get_other; lia|]. intros [|k] K.
      * rewrite !Nat.add_0_r. rewrite FR by lia. rewrite get_same. f_equal. rewrite app_length in LT. cbn [length] in LT. apply u16_small. lia.
      * replace (set + i + S k)%nat with (set + S i + k)%nat by lia. rewrite GT by lia. f_equal. rewrite app_length. cbn [length]. lia.
Qed.
Lemma move_sets_get d c0 c j : get (move_sets d c0 c) j =
  if ((j =? HLP_FWD_GUARDS) || (j =? HLP_BWD_GUARDS) || (j =? HLP_OUT_GRPS))%nat then IPointer (u16 (asIndex (get c0 j) + d)) else get c j.
Proof.
  unfold move_sets. rewrite !get_write. destruct (Nat.eqb_spec j HLP_OUT_GRPS); [subst; reflexivity|]. destruct (Nat.eqb_spec j HLP_BWD_GUARDS); [subst; reflexivity|]. destruct (Nat.eqb_spec j HLP_FWD_GUARDS); [subst; reflexivity|]. reflexivity.
Qed.
Lemma move_sets_length d c0 c : length (move_sets d c0 c) = Nat.max (length c) 6.
Proof. unfold move_sets. rewrite !length_write. unfold HLP_FWD_GUARDS, HLP_BWD_GUARDS, HLP_OUT_GRPS. lia. Qed.
Definition header_set (j : nat) : bool := ((j =? HLP_FWD_GUARDS) || (j =? HLP_BWD_GUARDS) || (j =? HLP_OUT_GRPS))%nat.
Lemma header_iff j : header_set j = true <-> (3 <= j <= 5)%nat.
Proof. unfold header_set, HLP_FWD_GUARDS, HLP_BWD_GUARDS, HLP_OUT_GRPS. rewrite !orb_true_iff, !Nat.eqb_eq. lia. Qed.
(** The shape of a packed pattern. *)
Record shape (h : hlp) (fs : list fact) (gs : list Z) (C R : list Z) : Prop := {
  s_length : length C = (length (h_code h) + facts_size fs)%nat;
  s_head : forall j, (j <= index_at (h_code h) HLP_OBJS)%nat -> header_set j = false -> get C j = get (h_code h) j;
  s_sets : forall j, header_set j = true -> get C j = IPointer (u16 (asIndex (get (h_code h) j) + Z.of_nat (facts_size fs)));
  s_facts : rep_facts C R (index_at (h_code h) HLP_OBJS) 0 (index_at (h_code h) HLP_OBJS + length fs + 1) fs;
  s_tail : forall j, (index_at (h_code h) HLP_FWD_GUARDS <= j < length (h_code h))%nat -> (j <= index_at (h_code h) HLP_OUT_GRPS \/ index_at (h_code h) HLP_OUT_GRPS + length gs < j)%nat -> get C (j + facts_size fs) = shift (Z.of_nat (facts_size fs)) (get (h_code h) j);
  s_groups : forall k, (k < length gs)%nat -> get C (index_at (h_code h) HLP_OUT_GRPS + 1 + k + facts_size fs) = RPointer (Z.of_nat (length R - length gs + k));
  s_refs : exists R0, R = R0 ++ gs /\ (length R0 <= facts_size fs)%nat }.
Lemma pack_shape h fs gs : well_formed h fs gs -> Z.of_nat (length (h_code h) + facts_size fs) < 65536 ->
  exists C R, pack_hlp h = Some (mkpacked C R h) /\ shape h fs gs C R.
Proof.
  intros W LT. destruct W as [WR WF WS WC WP WN WSE WA WG WGC WGS WT]. unfold pack_hlp. cbn zeta. set (c := h_code h) in *. set (set_ := index_at c HLP_OBJS) in *. set (fwd := index_at c HLP_FWD_GUARDS) in *. set (grp := index_at c HLP_OUT_GRPS) in *. rewrite WC.
  destruct (pack_patterns_ok fs (h_refs h) set_ 0 c [] (set_ + length fs + 1) WF) as (c1 & R0 & E1 & LR & LC & FR1 & RP1).
  { intros k f N. cbn [Nat.add]. rewrite WR. rewrite nth_error_app1, nth_error_map, N; [reflexivity|]. rewrite map_length. apply nth_error_Some. congruence. }
  { lia. }
  assert (CF : Z.of_nat (length fs) < 256) by (rewrite <- WC; unfold count_at; pose proof (count_range (get c set_)); lia).
  assert (CG : Z.of_nat (length gs) < 256) by (rewrite <- WGC; unfold count_at; pose proof (count_range (get c grp)); lia).
  rewrite E1. cbn [app] in *. replace (set_ + length fs + 1 + facts_size fs - (set_ + length fs + 1))%nat with (facts_size fs) by lia. set (len := facts_size fs) in *.
  set (tr := map (shift (Z.of_nat len)) (skipn fwd c)). assert (LTR : length tr = (length c - fwd)%nat) by (unfold tr; rewrite map_length, skipn_length; reflexivity).
  set (c2 := write_all c1 (set_ + length fs + 1 + len) tr). assert (NE : tr <> []) by (intros Q; rewrite Q in LTR; cbn in LTR; lia).
  assert (L2 : length c2 = (length c + len)%nat) by (unfold c2; rewrite write_all_length by exact NE; lia).
  set (c3 := move_sets (Z.of_nat len) c2 c2). assert (L3 : length c3 = (length c + len)%nat) by (unfold c3; rewrite move_sets_length, L2; lia).
  assert (G2 : forall j, (j < set_ + length fs + 1 + len)%nat -> get c2 j = get c1 j).
  { intros j J. unfold c2. rewrite write_all_get. destruct (Nat.leb_spec (set_ + length fs + 1 + len) j); [lia|]. reflexivity. }
  assert (T2 : forall j, (fwd <= j < length c)%nat -> get c2 (j + len) = shift (Z.of_nat len) (get c j)).
  { intros j J. unfold c2. rewrite write_all_get, LTR. destruct (Nat.leb_spec (set_ + length fs + 1 + len) (j + len)); [|lia]. destruct (Nat.ltb_spec (j + len) (set_ + length fs + 1 + len + (length c - fwd))); [|lia]. cbn [andb].
    unfold tr. unfold get at 1. rewrite (nth_indep _ _ (shift (Z.of_nat len) blank)) by (fold tr; lia). rewrite map_nth. f_equal. fold (get (skipn fwd c) (j + len - (set_ + length fs + 1 + len))). rewrite get_skipn. f_equal. lia. }
  assert (G3 : forall j, header_set j = false -> get c3 j = get c2 j) by (intros j J; unfold c3; rewrite move_sets_get; fold (header_set j); rewrite J; reflexivity).
  assert (NH : forall j, (6 <= j)%nat -> header_set j = false) by (intros j J; destruct (header_set j) eqn:Q; [apply header_iff in Q; lia|reflexivity]).
  destruct (pack_groups_ok gs (h_refs h) (grp + len) 1 c3 R0) as (C & E2 & LCC & FR2 & GT2).
  { intros k g N. assert (KL : (k < length gs)%nat) by (apply nth_error_Some; congruence). unfold index_at. rewrite G3 by (apply NH; lia). replace (grp + len + 1 + k)%nat with ((grp + 1 + k) + len)%nat by lia. rewrite T2 by lia. rewrite WGS by exact KL. unfold shift. rewrite rp_desc.
    change (R_PTR =? I_PTR) with false. change (R_PTR =? ASSIGN_PTR) with false. cbv iota. rewrite rp_nat by lia. rewrite WR. rewrite nth_error_app2 by (rewrite map_length; lia). rewrite map_length. replace (length fs + k - length fs)%nat with k by lia. rewrite nth_error_map, N. reflexivity. }
  { rewrite L3. lia. }
  { rewrite app_length. lia. }
  rewrite WGC, E2. exists C, (R0 ++ gs). split; [reflexivity|]. constructor; fold c; fold set_; fold fwd; fold grp; fold len.
  - rewrite LCC. exact L3.
  - intros j J HJ. rewrite FR2 by lia. rewrite G3 by exact HJ. rewrite G2 by lia. apply FR1. lia.
  - intros j HJ. pose proof HJ as B. apply header_iff in B. rewrite FR2 by lia. unfold c3. rewrite move_sets_get. fold (header_set j). rewrite HJ. f_equal. f_equal. f_equal. f_equal. rewrite G2 by lia. apply FR1. lia.
  - apply (rep_facts_frame fs c1 R0); [apply RP1; lia|]. intros j J. fold len in J. rewrite FR2 by lia. rewrite G3 by (apply NH; lia). apply G2. lia.
  - intros j J K. rewrite FR2 by lia. rewrite G3 by (apply NH; lia). apply T2. exact J.
  - intros k K. replace (grp + 1 + k + len)%nat with (grp + len + 1 + k)%nat by lia. rewrite GT2 by exact K. f_equal. rewrite app_length. lia.
  - exists R0. split; [reflexivity|exact LR].
Qed.

(** ** What unpacking finds *)
Lemma count_ptr a : getDescriptor a = I_PTR \/ getDescriptor a = R_PTR -> getAtomCount a = 0.
Proof. Local Transparent getAtomCount. unfold getAtomCount. intros [-> | ->]; reflexivity. Qed.
Local Opaque getAtomCount.
Lemma moved_count offset orefs R a b : moved offset orefs R a b -> getAtomCount b = getAtomCount a.
Proof.
  unfold moved. destruct (getDescriptor a =? R_PTR) eqn:ER.
  - apply Z.eqb_eq in ER. intros (i & r & _ & -> & _). rewrite !count_ptr; [reflexivity|auto|right; apply rp_desc].
  - destruct (getDescriptor a =? I_PTR) eqn:EI; intros ->; [|reflexivity]. apply Z.eqb_eq in EI. rewrite !count_ptr; [reflexivity|auto|left; apply ip_desc].
Qed.
Lemma firstn_snoc {A} (l : list A) : forall n x, nth_error l n = Some x -> firstn n l ++ [x] = firstn (S n) l.
Proof. induction l as [|y l IH]; intros [|n] x H; try discriminate; [injection H as <-; reflexivity|]. cbn [firstn app]. f_equal. apply IH. exact H. Qed.
Lemma seq_app_inv rs1 : forall rs r0 m, rs1 ++ rs = seq r0 m -> exists m1 m2, m = (m1 + m2)%nat /\ rs1 = seq r0 m1 /\ rs = seq (r0 + m1) m2.
Proof.
  induction rs1 as [|x rs1 IH]; intros rs r0 m H; [exists 0%nat, m; rewrite Nat.add_0_r; auto|]. destruct m as [|m]; [discriminate|]. cbn [app seq] in H. injection H as -> H. destruct (IH _ _ _ H) as (m1 & m2 & -> & -> & ->).
  exists (S m1), m2. split; [lia|]. split; [reflexivity|]. f_equal. lia.
Qed.
Lemma reading_first c j k vs rs : reading c j (S k) vs rs -> (j < length c)%nat.
Proof. intros H. inversion H; assumption. Qed.
Definition filled (c0 : list Z) (vs : list nat) (o o' : list Z) : Prop :=
  (forall p, In p vs -> get o' p = get c0 p) /\ (forall p, ~ In p vs -> get o' p = get o p) /\ (forall p, In p vs -> (p < length o')%nat) /\ (length o <= length o')%nat /\ (length o' <= Nat.max (length o) (length c0))%nat.
Lemma filled_nil c0 o : filled c0 [] o o.
Proof. repeat split; try contradiction; lia. Qed.
Lemma filled_cons c0 j o v vs o' : (j < length c0)%nat -> v = get c0 j -> filled c0 vs (write o j v) o' -> filled c0 (j :: vs) o o'.
Proof.
  intros J -> (A & B & C & D & E). rewrite length_write in D, E. repeat split; try lia.
  - intros p [<-|I]; [|apply A; exact I]. destruct (in_dec Nat.eq_dec j vs) as [I|N]; [apply A; exact I|]. rewrite B by exact N. apply get_same.
  - intros p N. rewrite B by (intros I; apply N; right; exact I). apply get_other. intros ->. apply N. left. reflexivity.
  - intros p [<-|I]; [lia|]. apply C. exact I.
Qed.
Lemma filled_app c0 vs1 vs2 o o1 o2 : filled c0 vs1 o o1 -> filled c0 vs2 o1 o2 -> filled c0 (vs1 ++ vs2) o o2.
Proof.
  intros (A & B & C & D & E) (A' & B' & C' & D' & E'). repeat split; try lia.
  - intros p I. destruct (in_dec Nat.eq_dec p vs2) as [I2|N2]; [apply A'; exact I2|]. rewrite B' by exact N2. apply A. apply in_app_iff in I. tauto.
  - intros p N. rewrite in_app_iff in N. rewrite B', B by tauto. reflexivity.
  - intros p I. apply in_app_iff in I. destruct I as [I|I]; [specialize (C p I); lia|apply C'; exact I].
Qed.
Lemma unpack_atoms_ok c0 j k vs rs : reading c0 j k vs rs -> forall orefs C R base, rep_payload C R base (mkpayload c0 orefs) -> Z.of_nat (base + length c0) <= 4096 -> Z.of_nat (length R) <= 4096 ->
  forall r0 m, rs = seq r0 m -> (r0 + m <= length orefs)%nat -> exists N, forall fuel, (N <= fuel)%nat -> forall o, o_refs o = firstn r0 orefs ->
  exists o', unpack_atoms (unpack_code fuel C R base) C R base (base + j) k o = Some o' /\ o_refs o' = firstn (r0 + m) orefs /\ filled c0 vs (o_code o) (o_code o').
Proof.
  induction 1 as [j|j k r vs rs J R4 EG RD IH|j k i vs1 rs1 vs rs J I4 EG RD1 IH1 RD2 IH2|j k vs rs J NR NI RD IH]; intros orefs C R base RP B4 LR r0 m SQ RM.
  - destruct m; [|discriminate]. exists 0%nat. intros fuel _ o OR. exists o. rewrite Nat.add_0_r. split; [reflexivity|]. split; [exact OR|apply filled_nil].
  - destruct m as [|m]; [discriminate|]. cbn [seq] in SQ. injection SQ as -> SQ. destruct (IH orefs C R base RP B4 LR (S r0) m SQ ltac:(lia)) as (N & HN). exists N. intros fuel LF o OR.
    pose proof (RP j J) as M. cbn [o_code o_refs] in M. unfold moved in M. rewrite EG, rp_desc, Z.eqb_refl in M. destruct M as (i & x & IL & EB & NR & NO). rewrite rp_nat in NO by exact R4.
    destruct (HN fuel LF (mkpayload (write (o_code o) j (get c0 j)) (o_refs o ++ [x]))) as (o' & E & OR' & FI).
    { cbn [o_refs]. rewrite OR. apply firstn_snoc. exact NO. }
    exists o'. cbn [unpack_atoms]. rewrite EB, rp_desc, Z.eqb_refl, rp_nat by lia. rewrite NR. rewrite OR at 1. rewrite firstn_length, Nat.min_l by (assert (r0 < length orefs)%nat by (apply nth_error_Some; congruence); lia).
    rewrite u16_small by lia. rewrite <- EG. replace (base + j - base)%nat with j by lia. replace (S (base + j)) with (base + S j)%nat by lia. split; [exact E|]. split; [rewrite OR'; f_equal; lia|]. apply (filled_cons c0 j _ (get c0 j)); [exact J|reflexivity|exact FI].
  - destruct (seq_app_inv _ _ _ _ SQ) as (m1 & m2 & -> & S1 & S2). destruct (IH1 orefs C R base RP B4 LR r0 m1 S1 ltac:(lia)) as (N1 & HN1). destruct (IH2 orefs C R base RP B4 LR (r0 + m1)%nat m2 S2 ltac:(lia)) as (N2 & HN2). exists (Nat.max (S N1) N2). intros fuel LF o OR.
    destruct fuel as [|f]; [lia|]. assert (IC : (i < length c0)%nat) by (rewrite Nat.add_1_r in RD1; exact (reading_first _ _ _ _ _ RD1)).
    pose proof (RP j J) as M. cbn [o_code o_refs] in M. unfold moved in M. rewrite EG, ip_desc in M. change (I_PTR =? R_PTR) with false in M. rewrite Z.eqb_refl, ip_index, Z.mod_small, u16_small in M by lia. rewrite <- Nat2Z.inj_add in M.
    destruct (HN1 f ltac:(lia) (mkpayload (write (o_code o) j (get c0 j)) (o_refs o)) OR) as (o1 & E1 & OR1 & FI1).
    destruct (HN2 (S f) ltac:(lia) o1 OR1) as (o2 & E2 & OR2 & FI2).
    exists o2. cbn [unpack_atoms]. rewrite M, ip_desc. change (I_PTR =? R_PTR) with false. rewrite Z.eqb_refl. cbv iota. rewrite ip_nat by lia. cbn [unpack_code]. destruct (Nat.ltb_spec (base + i) base); [lia|].
    assert (CT : count_at C (base + i) = count_at c0 i) by (unfold count_at; f_equal; pose proof (RP i IC) as MI; cbn [o_code o_refs] in MI; apply moved_count in MI; exact MI).
    rewrite CT. rewrite ip_index, Z.mod_small by lia. replace (Z.of_nat (base + i) - Z.of_nat base) with (Z.of_nat i) by lia. rewrite u16_small by lia. rewrite <- EG. replace (base + j - base)%nat with j by lia. rewrite E1.
    replace (S (base + j)) with (base + S j)%nat by lia. split; [exact E2|]. split; [rewrite OR2; f_equal; lia|]. apply (filled_cons c0 j _ (get c0 j)); [exact J|reflexivity|]. cbn [o_code] in FI1. exact (filled_app _ _ _ _ _ _ FI1 FI2).
  - destruct (IH orefs C R base RP B4 LR r0 m SQ RM) as (N & HN). exists N. intros fuel LF o OR. pose proof (RP j J) as M. cbn [o_code o_refs] in M. unfold moved in M. apply Z.eqb_neq in NR, NI. rewrite NR, NI in M.
    destruct (HN fuel LF (mkpayload (write (o_code o) j (get c0 j)) (o_refs o)) OR) as (o' & E & OR' & FI). exists o'. cbn [unpack_atoms]. rewrite M, NR, NI. replace (base + j - base)%nat with j by lia. replace (S (base + j)) with (base + S j)%nat by lia.
    split; [exact E|]. split; [exact OR'|]. apply (filled_cons c0 j _ (get c0 j)); [exact J|reflexivity|exact FI].
Qed.
Lemma unpack_object_ok o C R base : expression o -> rep_payload C R base o -> Z.of_nat (base + length (o_code o)) <= 4096 -> Z.of_nat (length R) <= 4096 ->
  exists N, forall fuel, (N <= fuel)%nat -> unpack_fact_object fuel C R base = Some o.
Proof.
  destruct o as [c0 orefs]. intros (vs & RD & CV) RP B LR. cbn [o_code o_refs] in *. assert (I0 : (0 < length c0)%nat) by (rewrite Nat.add_1_r in RD; exact (reading_first _ _ _ _ _ RD)).
  destruct (unpack_atoms_ok c0 0 _ vs _ RD orefs C R base RP B LR 0 (length orefs) eq_refl (Nat.le_refl _)) as (N & HN). exists (S N). intros fuel LF. destruct fuel as [|f]; [lia|]. unfold unpack_fact_object. cbn [unpack_code].
  destruct (Nat.ltb_spec base base); [lia|]. assert (CT : count_at C base = count_at c0 0).
  { unfold count_at. f_equal. pose proof (RP 0%nat I0) as MI. cbn [o_code o_refs] in MI. rewrite Nat.add_0_r in MI. apply moved_count in MI. exact MI. }
  rewrite CT. destruct (HN f ltac:(lia) (mkpayload [] []) eq_refl) as (o' & E & OR & (A & _ & D & _ & G)). rewrite Nat.add_0_r in E. rewrite E. f_equal. destruct o' as [c' r']. cbn [o_code o_refs length] in *. rewrite Nat.add_0_l, firstn_all in OR. subst r'. f_equal.
  apply list_eq.
  - assert (Q : (length c0 - 1 < length c0)%nat) by lia. pose proof (D (length c0 - 1)%nat (CV _ Q)). lia.
  - intros p P. apply A. apply CV. lia.
Qed.

Lemma unpack_fact_atoms_ok f C R w : simple_fact f -> rep_fact C R w f -> Z.of_nat (w + fact_size f) <= 4096 -> Z.of_nat (length R) <= 4096 ->
  forall l pre s m, f_code f = pre ++ l -> filter (fun a => getDescriptor a =? R_PTR) l = map (fun r => RPointer (Z.of_nat r)) (seq s m) -> (s + m = length (f_refs f))%nat ->
  exists N, forall fuel, (N <= fuel)%nat -> unpack_fact_atoms fuel C R (w + length pre) (length l) (mkfact pre (firstn s (f_refs f))) = Some f.
Proof.
  intros SF RP W4 LR. pose proof (sf_few _ SF) as FEW. induction l as [|a l IH]; intros pre s m EC FL SM.
  - exists 0%nat. intros fuel _. cbn [length unpack_fact_atoms]. destruct m; [|discriminate]. rewrite app_nil_r in EC. rewrite Nat.add_0_r in SM. subst s. rewrite firstn_all, <- EC. destruct f; reflexivity.
  - assert (KL : (length pre < length (f_code f))%nat) by (rewrite EC, app_length; cbn [length]; lia). pose proof (RP _ KL) as M. assert (GA : get (f_code f) (length pre) = a) by (rewrite EC; unfold get; rewrite app_nth2, Nat.sub_diag by lia; reflexivity).
    rewrite GA in M. unfold rep_atom in M. cbn [filter] in FL. cbn [length unpack_fact_atoms]. rewrite <- (app_assoc pre [a] l) in EC || (change (a :: l) with ([a] ++ l) in EC; rewrite app_assoc in EC).
    clear GA. destruct (getDescriptor a =? R_PTR) eqn:ER.
    + destruct m as [|m]; [discriminate|]. cbn [seq map] in FL. pose proof (f_equal (hd 0) FL) as EA. apply (f_equal (@tl Z)) in FL. cbn [hd tl] in EA, FL. subst a. assert (S4 : Z.of_nat s < 4096) by lia. rewrite rp_nat in M by exact S4. destruct M as (e & o & EB & NO & LO & HI & RPO).
      pose proof (proj1 (Forall_forall _ _) (sf_objects _ SF) (New o) (nth_error_In _ _ NO)) as EX. cbv beta iota in EX.
      assert (OC : (0 < length (o_code o))%nat) by (destruct EX as (vs & RD & _); rewrite Nat.add_1_r in RD; exact (reading_first _ _ _ _ _ RD)).
      destruct (unpack_object_ok o C R e EX RPO ltac:(lia) LR) as (N1 & HN1). destruct (IH (pre ++ [RPointer (Z.of_nat s)]) (S s) m EC FL ltac:(lia)) as (N2 & HN2). exists (Nat.max N1 N2). intros fuel LF.
      rewrite u16_small in EB by lia. rewrite EB, ip_desc, Z.eqb_refl, ip_nat by lia. rewrite HN1 by lia. cbn [f_code f_refs]. rewrite firstn_length, Nat.min_l by lia. rewrite u16_small by lia. rewrite (firstn_snoc _ _ _ NO).
      specialize (HN2 fuel ltac:(lia)). rewrite app_length in HN2. cbn [length] in HN2. replace (S (w + length pre)) with (w + (length pre + 1))%nat by lia. exact HN2.
    + destruct (IH (pre ++ [a]) s m EC FL SM) as (N & HN). exists N. intros fuel LF. rewrite M. assert (NI : (getDescriptor a =? I_PTR) = false) by (apply Z.eqb_neq; apply (sf_flat _ SF); rewrite EC; apply in_app_iff; left; apply in_app_iff; right; left; reflexivity).
      rewrite NI, ER. cbn [f_code f_refs]. specialize (HN fuel LF). rewrite app_length in HN. cbn [length] in HN. replace (S (w + length pre)) with (w + (length pre + 1))%nat by lia. exact HN.
Qed.
Lemma unpack_fact_ok f C R w : simple_fact f -> rep_fact C R w f -> Z.of_nat (w + fact_size f) <= 4096 -> Z.of_nat (length R) <= 4096 ->
  exists N, forall fuel, (N <= fuel)%nat -> unpack_fact fuel C R w = Some f.
Proof.
  intros SF RP W4 LR. destruct (unpack_fact_atoms_ok f C R w SF RP W4 LR (f_code f) [] 0 (length (f_refs f)) eq_refl (sf_refs _ SF) eq_refl) as (N & HN). exists N. intros fuel LF. unfold unpack_fact.
  assert (CT : (count_at C w + 1)%nat = length (f_code f)).
  { rewrite (sf_size _ SF). f_equal. unfold count_at. f_equal. assert (L0 : (0 < length (f_code f))%nat) by (rewrite (sf_size _ SF); lia). pose proof (RP 0%nat L0) as M. rewrite Nat.add_0_r in M. unfold rep_atom in M.
    destruct (getDescriptor (get (f_code f) 0) =? R_PTR) eqn:ER; [|rewrite M; reflexivity]. destruct M as (e & o & -> & _). apply Z.eqb_eq in ER. rewrite !count_ptr; [reflexivity|right; exact ER|left; apply ip_desc]. }
  rewrite CT. specialize (HN fuel LF). cbn [length firstn] in HN. rewrite Nat.add_0_r in HN. exact HN.
Qed.
Lemma unpack_patterns_ok fs : forall C R set i e, Forall simple_fact fs -> rep_facts C R set i e fs -> Z.of_nat (e + facts_size fs) <= 4096 -> Z.of_nat (length R) <= 4096 -> (length fs > 0 -> set + i + length fs < e)%nat ->
  exists N, forall fuel, (N <= fuel)%nat -> forall h, (set + i + 1 + length fs <= length (h_code h))%nat -> Z.of_nat (length (h_refs h) + length fs) < 65536 ->
  exists u, unpack_patterns fuel C R set (S i) (length fs) h = Some (mkhlp u (h_refs h ++ map F fs)) /\ length u = length (h_code h) /\
    (forall j, (j < set + i + 1 \/ set + i + 1 + length fs <= j)%nat -> get u j = get (h_code h) j) /\ (forall k, (k < length fs)%nat -> get u (set + i + 1 + k) = RPointer (Z.of_nat (length (h_refs h) + k))).
Proof.
  induction fs as [|f fs IH]; intros C R set i e SF RP E4 LR SE.
  - exists 0%nat. intros fuel _ h LH LT. exists (h_code h). cbn [length unpack_patterns map]. rewrite app_nil_r. split; [destruct h; reflexivity|]. split; [reflexivity|]. split; [reflexivity|]. intros k K. lia.
  - cbn [length] in *. destruct RP as (PA & PF & PS). pose proof (Forall_inv SF) as SF1. pose proof (Forall_inv_tail SF) as SF2. unfold facts_size in E4. cbn [map list_sum fold_right] in E4. change (fold_right Nat.add 0%nat (map fact_size fs)) with (facts_size fs) in E4.
    assert (FP : (0 < fact_size f)%nat) by (unfold fact_size; rewrite (sf_size _ SF1); lia).
    destruct (unpack_fact_ok f C R e SF1 PF ltac:(lia) LR) as (N1 & HN1). destruct (IH C R set (S i) (e + fact_size f)%nat SF2 PS ltac:(lia) LR ltac:(lia)) as (N2 & HN2). exists (Nat.max N1 N2). intros fuel LF h LH LT. cbn [unpack_patterns map].
    unfold index_at at 1. replace (set + S i)%nat with (set + i + 1)%nat by lia. rewrite PA. rewrite u16_small, ip_nat by lia. rewrite HN1 by lia.
    destruct (HN2 fuel ltac:(lia) (mkhlp (write (h_code h) (set + i + 1) (RPointer (u16 (Z.of_nat (length (h_refs h)))))) (h_refs h ++ [F f]))) as (u & E & LU & FR & GT).
    { cbn [h_code]. rewrite length_write. lia. }
    { cbn [h_refs]. rewrite app_length. cbn [length]. lia. }
    cbn [h_code h_refs] in *. rewrite <- app_assoc in E. cbn [app] in E. rewrite E. exists u. split; [reflexivity|]. split; [rewrite LU, length_write; lia|]. split.
    + intros j J. rewrite FR by lia. apply get_other. lia.
    + intros [|k] K.
      * rewrite !Nat.add_0_r. rewrite FR by lia. rewrite get_same, u16_small by lia. reflexivity.
      * replace (set + i + 1 + S k)%nat with (set + S i + 1 + k)%nat by lia. rewrite GT by lia. rewrite app_length. cbn [length]. f_equal. lia.
Qed.
Lemma unpack_groups_ok gs : forall C R set i h, (forall k g, nth_error gs k = Some g -> nth_error R (index_at C (set + i + k)) = Some g) -> (set + i + length gs <= length (h_code h))%nat -> Z.of_nat (length (h_refs h) + length gs) < 65536 ->
  exists u, unpack_groups C R set i (length gs) h = Some (mkhlp u (h_refs h ++ map G gs)) /\ length u = length (h_code h) /\
    (forall j, (j < set + i \/ set + i + length gs <= j)%nat -> get u j = get (h_code h) j) /\ (forall k, (k < length gs)%nat -> get u (set + i + k) = RPointer (Z.of_nat (length (h_refs h) + k))).
Proof.
  induction gs as [|g gs IH]; intros C R set i h HR LH LT.
  - exists (h_code h). cbn [length unpack_groups map]. rewrite app_nil_r. split; [destruct h; reflexivity|]. split; [reflexivity|]. split; [reflexivity|]. intros k K. lia.
  - cbn [length unpack_groups map] in *. pose proof (HR 0%nat g eq_refl) as H0. rewrite Nat.add_0_r in H0. rewrite H0.
    destruct (IH C R set (S i) (mkhlp (write (h_code h) (set + i) (RPointer (u16 (Z.of_nat (length (h_refs h)))))) (h_refs h ++ [G g]))) as (u & E & LU & FR & GT).
    { intros k x N. replace (set + S i + k)%nat with (set + i + S k)%nat by lia. exact (HR (S k) x N). }
    { cbn [h_code]. rewrite length_write. lia. }
    { cbn [h_refs]. rewrite app_length. cbn [length]. lia. }
    cbn [h_code h_refs] in *. rewrite <- app_assoc in E. cbn [app] in E. rewrite E. exists u. split; [reflexivity|]. split; [rewrite LU, length_write; lia|]. split.
    + intros j J. rewrite FR by lia. apply get_other. lia.
    + intros [|k] K.
      * rewrite !Nat.add_0_r. rewrite FR by lia. rewrite get_same, u16_small by lia. reflexivity.
      * replace (set + i + S k)%nat with (set + S i + k)%nat by lia. rewrite GT by lia. rewrite app_length. cbn [length]. f_equal. lia.
Qed.
Lemma shift_up_ok len k : forall i c, (len <= i)%nat -> (i + k <= length c)%nat ->
  length (shift_up len i k c) = length c /\
  (forall j, (j < i - len \/ i - len + k <= j)%nat -> get (shift_up len i k c) j = get c j) /\
  (forall t, (t < k)%nat -> get (shift_up len i k c) (i - len + t) = shift (- Z.of_nat len) (get c (i + t))).
Proof.
  induction k as [|k IH]; intros i c LI LC.
  - cbn [shift_up]. split; [reflexivity|]. split; [reflexivity|]. intros t T. lia.
  - cbn [shift_up]. destruct (IH (S i) (write c (i - len) (shift (- Z.of_nat len) (get c i))) ltac:(lia)) as (A & B & D); [rewrite length_write; lia|]. split; [rewrite A, length_write; lia|]. split.
    + intros j J. rewrite B by lia. apply get_other. lia.
    + intros [|t] T.
      * rewrite !Nat.add_0_r. rewrite B by lia. apply get_same.
      * replace (i - len + S t)%nat with (S i - len + t)%nat by lia. rewrite D by lia. f_equal. destruct (Nat.eq_dec (S i + t) (i - len)); [lia|]. rewrite get_other by lia. f_equal. lia.
Qed.
Lemma count_assign a : getDescriptor a = ASSIGN_PTR -> getAtomCount a = 0.
Proof. Local Transparent getAtomCount. unfold getAtomCount. intros ->. reflexivity. Qed.
Local Opaque getAtomCount.
Lemma shift_count d a : getAtomCount (shift d a) = getAtomCount a.
Proof.
  unfold shift. destruct (getDescriptor a =? I_PTR) eqn:EI; [apply Z.eqb_eq in EI; rewrite !count_ptr; [reflexivity|auto|left; apply ip_desc]|].
  destruct (getDescriptor a =? ASSIGN_PTR) eqn:EA; [|reflexivity]. apply Z.eqb_eq in EA. rewrite !count_assign; [reflexivity|exact EA|apply ap_desc; apply var_range].
Qed.
Lemma unpack_shape h fs gs C R extra : well_formed h fs gs -> shape h fs gs C R -> Z.of_nat (length (h_code h) + facts_size fs) <= 4096 -> (length extra <= 1)%nat ->
  exists N, forall fuel, (N <= fuel)%nat -> unpack_hlp fuel C (R ++ extra) = Some h.
Proof.
  intros W S LT LX. destruct W as [WR WF WS WC WP WN WSE WA WG WGC WGS WT]. destruct S as [SL SH SS SF ST SG (R0 & -> & LR0)]. set (c := h_code h) in *. set (set_ := index_at c HLP_OBJS) in *. set (fwd := index_at c HLP_FWD_GUARDS) in *. set (grp := index_at c HLP_OUT_GRPS) in *. set (len := facts_size fs) in *.
  assert (NH : forall j, (j < 3 \/ 6 <= j)%nat -> header_set j = false) by (intros j J; destruct (header_set j) eqn:Q; [apply header_iff in Q; lia|reflexivity]).
  assert (I2 : index_at C HLP_OBJS = set_) by (unfold index_at; rewrite SH; [reflexivity|unfold HLP_OBJS; lia|reflexivity]).
  assert (C2 : count_at C set_ = length fs) by (unfold count_at; rewrite SH; [exact WC|lia|apply NH; lia]).
  assert (SETS : forall j, In j [HLP_FWD_GUARDS; HLP_BWD_GUARDS; HLP_OUT_GRPS] -> get C j = IPointer (asIndex (get c j) + Z.of_nat len) /\ asIndex (get C j) = asIndex (get c j) + Z.of_nat len /\ index_at C j = (index_at c j + len)%nat).
  { intros j J. destruct (WSE j J) as (_ & B). pose proof (idx_range (get c j)) as IR. unfold index_at in B. assert (HJ : header_set j = true) by (apply header_iff; cbn in J; unfold HLP_FWD_GUARDS, HLP_BWD_GUARDS, HLP_OUT_GRPS in J; lia).
    rewrite (SS j HJ). rewrite u16_small by lia. split; [reflexivity|]. unfold index_at. rewrite (SS j HJ), u16_small, ip_index, Z.mod_small by lia. split; lia. }
  assert (I5 : index_at C HLP_OUT_GRPS = (grp + len)%nat) by (apply SETS; cbn; auto). assert (I3 : index_at C HLP_FWD_GUARDS = (fwd + len)%nat) by (apply SETS; cbn; auto).
  assert (C5 : count_at C (grp + len) = length gs) by (unfold count_at; rewrite ST by lia; rewrite shift_count; exact WGC).
  assert (CF : Z.of_nat (length fs) < 256) by (rewrite <- WC; unfold count_at; pose proof (count_range (get c set_)); lia).
  assert (CG : Z.of_nat (length gs) < 256) by (rewrite <- WGC; unfold count_at; pose proof (count_range (get c grp)); lia).
  pose proof (rep_facts_frame fs C (R0 ++ gs) set_ 0 (set_ + length fs + 1) C extra SF (fun j _ => eq_refl)) as SF'.
  destruct (unpack_patterns_ok fs C ((R0 ++ gs) ++ extra) set_ 0 (set_ + length fs + 1) WF SF') as (N & HN); [fold len; lia|rewrite !app_length; lia|lia|].
  exists N. intros fuel LF. unfold unpack_hlp. cbn zeta. rewrite I2, C2. destruct (HN fuel LF (mkhlp C [])) as (u1 & E1 & L1 & F1 & G1); [cbn [h_code]; lia|cbn [h_refs length]; lia|]. rewrite E1, I5, C5. cbn [h_code h_refs app length] in *.
  destruct (unpack_groups_ok gs C ((R0 ++ gs) ++ extra) (grp + len + 1) 0 (mkhlp u1 (map F fs))) as (u2 & E2 & L2 & F2 & G2).
  { intros k g NK. assert (KL : (k < length gs)%nat) by (apply nth_error_Some; congruence). rewrite Nat.add_0_r. unfold index_at. replace (grp + len + 1 + k)%nat with (grp + 1 + k + len)%nat by lia. rewrite SG by exact KL. rewrite app_length, rp_nat by lia.
    replace (length R0 + length gs - length gs + k)%nat with (length R0 + k)%nat by lia. rewrite nth_error_app1 by (rewrite app_length; lia). rewrite nth_error_app2 by lia. replace (length R0 + k - length R0)%nat with k by lia. exact NK. }
  { cbn [h_code]. lia. }
  { cbn [h_refs]. rewrite map_length. lia. }
  rewrite E2, I3. cbn [h_code h_refs] in *. rewrite map_length in G2. replace (fwd + len - (set_ + length fs + 1))%nat with len by lia.
  destruct (shift_up_ok len (length C - (fwd + len)) (fwd + len) u2) as (L3 & F3 & G3); [lia|lia|]. set (u3 := shift_up len (fwd + len) (length C - (fwd + len)) u2) in *. replace (fwd + len - len)%nat with fwd in * by lia.
  f_equal. rewrite <- WR. assert (EC : firstn (length C - len) (move_sets (- Z.of_nat len) C u3) = c); [|rewrite EC; unfold c; destruct h; reflexivity].
  assert (LF3 : length (firstn (length C - len) (move_sets (- Z.of_nat len) C u3)) = length c) by (rewrite firstn_length, move_sets_length; lia).
  apply list_eq; [exact LF3|]. rewrite LF3. intros j J. rewrite get_firstn by lia. rewrite move_sets_get. fold (header_set j). destruct (header_set j) eqn:HJ.
  - apply header_iff in HJ. assert (IJ : In j [HLP_FWD_GUARDS; HLP_BWD_GUARDS; HLP_OUT_GRPS]) by (cbn; unfold HLP_FWD_GUARDS, HLP_BWD_GUARDS, HLP_OUT_GRPS; lia). destruct (SETS j IJ) as (_ & AI & _). destruct (WSE j IJ) as (WI & _). rewrite AI.
    replace (asIndex (get c j) + Z.of_nat len + - Z.of_nat len) with (asIndex (get c j)) by ring. pose proof (idx_range (get c j)). rewrite u16_small by lia. symmetry. exact WI.
  - destruct (Nat.lt_ge_cases j fwd) as [JF|JF].
    + rewrite F3 by lia. rewrite F2 by lia. destruct (Nat.le_gt_cases j set_) as [JS|JS].
      * rewrite F1 by lia. apply SH; [exact JS|exact HJ].
      * replace j with (set_ + 0 + 1 + (j - set_ - 1))%nat by lia. rewrite G1 by lia. symmetry. replace (set_ + 0 + 1 + (j - set_ - 1))%nat with (set_ + 1 + (j - set_ - 1))%nat by lia. apply WP. lia.
    + replace j with (fwd + (j - fwd))%nat at 1 by lia. rewrite G3 by lia. replace (fwd + len + (j - fwd))%nat with (j + len)%nat by lia.
      destruct (Nat.le_gt_cases j grp) as [JG|JG]; [|destruct (Nat.le_gt_cases j (grp + length gs)) as [JH|JH]].
      * rewrite F2 by lia. rewrite F1 by lia. rewrite ST by lia. apply (shift_back (length c)); [apply WT; lia|lia].
      * replace (j + len)%nat with (grp + len + 1 + 0 + (j - grp - 1))%nat by lia. rewrite G2 by lia. unfold shift. rewrite rp_desc. change (R_PTR =? I_PTR) with false. change (R_PTR =? ASSIGN_PTR) with false. cbv iota.
        replace j with (grp + 1 + (j - grp - 1))%nat at 2 by lia. symmetry. apply WGS. lia.
      * rewrite F2 by lia. rewrite F1 by lia. rewrite ST by lia. apply (shift_back (length c)); [apply WT; lia|lia].
Qed.
Lemma sizes h fs : packed_size h fs = (length (h_code h) + facts_size fs)%nat.
Proof. reflexivity. Qed.
Lemma round_trip h fs gs : well_formed h fs gs -> Z.of_nat (packed_size h fs) <= 4096 ->
  exists p, pack_hlp h = Some p /\ p_hidden p = h /\ length (p_code p) = packed_size h fs /\
    forall extra, (length extra <= 1)%nat -> exists N, forall fuel, (N <= fuel)%nat -> unpack_hlp fuel (p_code p) (p_refs p ++ extra) = Some h.
Proof.
  intros W L. rewrite sizes in *. destruct (pack_shape h fs gs W ltac:(lia)) as (C & R & E & S). exists (mkpacked C R h). split; [exact E|]. split; [reflexivity|]. split; [exact (s_length _ _ _ _ _ S)|]. intros extra LX. exact (unpack_shape h fs gs C R extra W S L LX).
Qed.

(** ** Cases *)
(** A model of two facts, about objects with references and an inner set, with guards
    and an output group. *)
Definition fact0 : list Z := [AObject 10 5; RPointer 0; VLPointer 1; VLPointer 2; Float 0x3F800000; Float 0x3F800000].
Definition object0 (a b : Z) : payload := mkpayload [AObject 11 4; RPointer 0; RPointer 1; IPointer 5; Float 0; ASet 2; VLPointer 3; RPointer 2] [a; b; 9].
Definition facts0 : list fact := [mkfact fact0 [New (object0 100 101)]; mkfact fact0 [New (object0 101 102)]].
Definition model0 : hlp := mkhlp
  ([AModel 20 8; IPointer 6; IPointer 7; IPointer 10; IPointer 12; IPointer 13; ASet 0; ASet 2; RPointer 0; RPointer 1] ++
   [ASet 1; AssignmentPointer 3 15; ASet 0; ASet 1; RPointer 2; Operator 30 2; VLPointer 1; IPointer 18; ADuration; 0; 100000]) (map F facts0 ++ [G 200]).
Lemma object0_expression a b : expression (object0 a b).
Proof.
  exists [0; 1; 2; 3; 5; 6; 7; 4]%nat. split.
  - cbn [o_code o_refs object0 length seq]. change (count_at [AObject 11 4; RPointer 0; RPointer 1; IPointer 5; Float 0; ASet 2; VLPointer 3; RPointer 2] 0 + 1)%nat with 5%nat.
    apply read_atom; [cbn; lia|vm_compute; discriminate|vm_compute; discriminate|]. apply read_ref; [cbn; lia|cbn; lia|reflexivity|]. apply read_ref; [cbn; lia|cbn; lia|reflexivity|].
    change [5; 6; 7; 4]%nat with ([5; 6; 7] ++ [4])%nat. change [2%nat] with ([2] ++ [])%nat.
    apply (read_ptr _ 3 1 5); [cbn; lia|cbn; lia|reflexivity| |].
    + change (count_at [AObject 11 4; RPointer 0; RPointer 1; IPointer 5; Float 0; ASet 2; VLPointer 3; RPointer 2] 5 + 1)%nat with 3%nat.
      apply read_atom; [cbn; lia|vm_compute; discriminate|vm_compute; discriminate|]. apply read_atom; [cbn; lia|vm_compute; discriminate|vm_compute; discriminate|]. apply read_ref; [cbn; lia|cbn; lia|reflexivity|]. constructor.
    + apply read_atom; [cbn; lia|vm_compute; discriminate|vm_compute; discriminate|]. constructor.
  - cbn [o_code object0]. intros p L. cbn [length] in L. cbn. lia.
Qed.
Lemma fact0_simple o : expression o -> simple_fact (mkfact fact0 [New o]).
Proof.
  intros E. constructor; cbn [f_code f_refs].
  - reflexivity.
  - intros a I. cbn in I. repeat (destruct I as [<-|I]; [vm_compute; discriminate|]). contradiction.
  - reflexivity.
  - cbn. lia.
  - constructor; [exact E|constructor].
Qed.
Lemma movable_dec n a : (if getDescriptor a =? I_PTR then (a =? IPointer (asIndex a)) && (Z.to_nat (asIndex a) <? n)%nat
  else if getDescriptor a =? ASSIGN_PTR then (a =? AssignmentPointer (asAssignmentIndex a) (asIndex a)) && (Z.to_nat (asIndex a) <? n)%nat else true) = true -> movable n a.
Proof.
  unfold movable. destruct (getDescriptor a =? I_PTR) eqn:E1.
  - apply Z.eqb_eq in E1. rewrite andb_true_iff, Z.eqb_eq, Nat.ltb_lt. intros H. split; [intros _; exact H|]. intros E2. rewrite E1 in E2. discriminate E2.
  - apply Z.eqb_neq in E1. destruct (getDescriptor a =? ASSIGN_PTR) eqn:E2.
    + rewrite andb_true_iff, Z.eqb_eq, Nat.ltb_lt. intros H. split; [intros X; contradiction|intros _; exact H].
    + apply Z.eqb_neq in E2. intros _. split; intros X; contradiction.
Qed.
Lemma model0_well_formed : well_formed model0 facts0 [200].
Proof.
  constructor.
  - reflexivity.
  - unfold facts0. constructor; [apply fact0_simple, object0_expression|]. constructor; [apply fact0_simple, object0_expression|constructor].
  - vm_compute. lia.
  - reflexivity.
  - intros i L. cbn in L. destruct i as [|[|i]]; [reflexivity|reflexivity|lia].
  - reflexivity.
  - intros i I. cbn in I. destruct I as [<-|[<-|[<-|[]]]]; (split; [reflexivity|vm_compute; lia]).
  - vm_compute. lia.
  - vm_compute. lia.
  - reflexivity.
  - intros j L. cbn in L. destruct j as [|j]; [reflexivity|lia].
  - intros i (L1 & L2). assert (X : forallb (fun i => let a := get (h_code model0) i in let n := length (h_code model0) in
      if getDescriptor a =? I_PTR then (a =? IPointer (asIndex a)) && (Z.to_nat (asIndex a) <? n)%nat
      else if getDescriptor a =? ASSIGN_PTR then (a =? AssignmentPointer (asAssignmentIndex a) (asIndex a)) && (Z.to_nat (asIndex a) <? n)%nat else true) (seq 0 (length (h_code model0))) = true) by (vm_compute; reflexivity).
    apply movable_dec. rewrite forallb_forall in X. apply X. apply in_seq. lia.
Qed.
(** One fact about an object, and a guard with a duration. *)
Definition small (f : fact) (low : Z) : hlp := mkhlp
  ([AModel 20 8; IPointer 6; IPointer 7; IPointer 9; IPointer 11; IPointer 12; ASet 0; ASet 1; RPointer 0] ++
   [ASet 1; AssignmentPointer 3 14; ASet 0; ASet 1; RPointer 1; Operator 30 2; VLPointer 1; IPointer 17; ADuration; 0; low]) [F f; G 200].
Definition twice : payload := mkpayload [AObject 11 2; RPointer 0; RPointer 0] [100].
Definition packed_of (h : hlp) : packed := match pack_hlp h with Some p => p | None => mkpacked [] [] h end.
Definition unpacked_of (h : hlp) : hlp := match unpack_hlp 20 (p_code (packed_of h)) (p_refs (packed_of h)) with Some h => h | None => mkhlp [] [] end.
Lemma twice_refuted : exists h f o p h', h_refs h = [F f; G 200] /\ f_refs f = [New o] /\ (exists vs, reading (o_code o) 0 (count_at (o_code o) 0 + 1) vs [0; 0]%nat) /\
  pack_hlp h = Some p /\ unpack_hlp 20 (p_code p) (p_refs p) = Some h' /\ h_refs h' = [F (mkfact (f_code f) [New (mkpayload [AObject 11 2; RPointer 0; RPointer 1] [100; 100])]); G 200] /\ h' <> h.
Proof.
  pose (h := small (mkfact fact0 [New twice]) 100000). exists h, (mkfact fact0 [New twice]), twice, (packed_of h), (unpacked_of h).
  split; [reflexivity|]. split; [reflexivity|]. split.
  { exists [0; 1; 2]%nat. change (count_at (o_code twice) 0 + 1)%nat with 3%nat. apply read_atom; [cbn; lia|vm_compute; discriminate|vm_compute; discriminate|]. apply read_ref; [cbn; lia|cbn; lia|reflexivity|]. apply read_ref; [cbn; lia|cbn; lia|reflexivity|]. constructor. }
  split; [vm_compute; reflexivity|]. split; [vm_compute; reflexivity|]. split; [vm_compute; reflexivity|]. vm_compute. discriminate.
Qed.
Lemma duration_refuted : exists h f p h' n, h_refs h = [F f; G 200] /\ simple_fact f /\ get (h_code h) n = ADuration /\ get (h_code h) (n + 2) = 2214600000 /\
  pack_hlp h = Some p /\ unpack_hlp 20 (p_code p) (p_refs p) = Some h' /\ get (h_code h') n = ADuration /\ get (h_code h') (n + 2) = 2214595904.
Proof.
  pose (f := mkfact fact0 [New (object0 100 101)]). pose (h := small f 2214600000). exists h, f, (packed_of h), (unpacked_of h), 17%nat.
  split; [reflexivity|]. split; [apply fact0_simple, object0_expression|]. split; [reflexivity|]. split; [reflexivity|].
  split; [vm_compute; reflexivity|]. split; [vm_compute; reflexivity|]. split; vm_compute; reflexivity.
Qed.
