From Verif Require Import Base Float32 Atom_model Utils_model Bp_model Bp_spec Bp_proofs Bp2_proofs Bp3_proofs Abs_model Abs_spec Abs_proofs Abs2_proofs.
Local Open Scope nat_scope.

Section Abs.
Variable ftol : spec_float.
Variable ttol : Z.
Variable fuel : nat.
Variable C : classes.
Variables user kept : Z -> bool.
Variable same : obj -> obj -> bool.
Hypothesis same_spec : forall a b, same a b = true -> a = b.
Hypothesis fuel_pos : 0 < fuel.
Hypothesis DC : distinct C.

Local Notation object := (abstract_object ftol ttol fuel C user same).
Local Notation member := (abstract_member ftol ttol fuel C user same).
Local Notation near := (near ftol ttol).
Local Notation blur := (blur C user).
Local Notation pattern := (pattern C user).
Local Notation parts := (parts C user).
Local Notation plain := (plain C user kept).
Local Notation below := (below kept).
Local Notation subst := (subst kept).

(** Everything fits. *)
Definition room (x : dest) (st : state) : Prop :=
  ext x <= limit /\ length (links x) <= limit /\ Forall fits (links x) /\ length (entries st) <= limit.
Lemma room_back : forall x st x' st', grows x st x' st' -> room x' st' -> room x st.
Proof.
  intros x st x' st' (A & (l & L) & es & E) (R1 & R2 & R3 & R4). rewrite L in R2, R3. rewrite E in R4.
  rewrite app_length in R2, R4. apply Forall_app in R3. split; [lia|]. split; [lia|]. split; [apply R3|lia].
Qed.

(** A word was written at [w], with what it points to behind the old end: it says [p]. *)
Record post (x : dest) (st : state) (sigma : nat -> term) (w : nat) (x' : dest) (st' : state) (sigma' : nat -> term) (p b : term) : Prop := {
  p_agree : agree (length (entries st)) sigma sigma';
  p_holds : holds_es (entries st') sigma';
  p_frame : forall k, k < ext x -> k <> w -> mem_of x' k = mem_of x k;
  p_word : raw (mem_of x' w) = false;
  p_new : forall k, ext x <= k < ext x' -> raw (mem_of x' k) = false;
  p_whole : Forall whole (links x) -> Forall whole (links x');
  p_reads : exists tr, shows (within (ext x) (ext x')) (within (ext x) (ext x')) (mem_of x') (mem_of x' w) tr /\ means starts (links x') tr p;
  p_below : below (length (entries st')) p;
  p_near : near (subst sigma' p) b }.

Definition step_ok (rel : term -> Prop) (w : nat) (b : term) (f : step) : Prop :=
  growing f /\ forall x st sigma x' st', f x st = Some (x', st') -> w < ext x -> holds_es (entries st) sigma -> room x' st' ->
    exists sigma' p, post x st sigma w x' st' sigma' p b /\ rel p.

(** The same when the first [n0] variables stand for what [s0] gives. *)
Definition step_from (n0 : nat) (s0 : nat -> term) (rel : term -> Prop) (w : nat) (b : term) (f : step) : Prop :=
  growing f /\ forall x st sigma x' st', f x st = Some (x', st') -> w < ext x -> holds_es (entries st) sigma -> room x' st' ->
    n0 <= length (entries st) -> agree n0 s0 sigma ->
    exists sigma' p, post x st sigma w x' st' sigma' p b /\ rel p.
Lemma step_any : forall n0 s0 rel w b f, step_ok rel w b f -> step_from n0 s0 rel w b f.
Proof. intros n0 s0 rel w b f (G & H). split; [exact G|]. intros x st sigma x' st' E L HS R _ _. apply H; assumption. Qed.

Inductive slots_ok (n0 : nat) (s0 : nat -> term) : nat -> list step -> list (term -> Prop) -> list term -> Prop :=
| steps_nil : forall s, slots_ok n0 s0 s [] [] []
| steps_cons : forall s f fs r rs b bs, step_from n0 s0 r s b f -> slots_ok n0 s0 (S s) fs rs bs -> slots_ok n0 s0 s (f :: fs) (r :: rs) (b :: bs).

Lemma steps_growing : forall n0 s0 s fs rs bs, slots_ok n0 s0 s fs rs bs -> Forall growing fs.
Proof. intros n0 s0 s fs rs bs H; induction H; constructor; [apply H|assumption]. Qed.

Record posts (x : dest) (st : state) (sigma : nat -> term) (s n : nat) (x' : dest) (st' : state) (sigma' : nat -> term) (ps bs : list term) : Prop := {
  q_agree : agree (length (entries st)) sigma sigma';
  q_holds : holds_es (entries st') sigma';
  q_frame : forall k, k < ext x -> k < s \/ s + n <= k -> mem_of x' k = mem_of x k;
  q_word : forall k, s <= k < s + n -> raw (mem_of x' k) = false;
  q_new : forall k, ext x <= k < ext x' -> raw (mem_of x' k) = false;
  q_whole : Forall whole (links x) -> Forall whole (links x');
  q_reads : exists trs, Forall2 (shows (within (ext x) (ext x')) (within (ext x) (ext x')) (mem_of x')) (words (mem_of x') s n) trs /\
    Forall2 (means starts (links x')) trs ps;
  q_below : Forall (below (length (entries st'))) ps;
  q_near : Forall2 near (map (subst sigma') ps) bs }.

Lemma chain_ok : forall n0 s0 s fs rs bs, slots_ok n0 s0 s fs rs bs -> forall x st sigma x' st',
  chain fs x st = Some (x', st') -> s + length fs <= ext x -> holds_es (entries st) sigma -> room x' st' ->
  n0 <= length (entries st) -> agree n0 s0 sigma ->
  exists sigma' ps, posts x st sigma s (length fs) x' st' sigma' ps bs /\ Forall2 (fun r (p : term) => r p) rs ps.
Proof.
  intros n0 s0 s fs rs bs H; induction H as [s|s f fs r rs b bs Hf Hs IH]; intros x st sigma x' st' E L HS R LN AG; cbn [chain] in E.
  - injection E as <- <-. exists sigma, []. split; [|constructor]. cbn [length]. constructor.
    + intros y _; reflexivity.
    + exact HS.
    + reflexivity.
    + intros; lia.
    + intros; lia.
    + trivial.
    + exists []. split; constructor.
    + constructor.
    + constructor.
  - destruct (f x st) as [[x1 st1]|] eqn:E1; [|discriminate]. destruct Hf as (Gf & Hf).
    pose proof (Gf _ _ _ _ E1) as G1. pose proof (chain_grows fs (steps_growing _ _ _ _ _ _ Hs) _ _ _ _ E) as G2.
    cbn [length] in L.
    destruct (Hf x st sigma x1 st1 E1 ltac:(lia) HS (room_back _ _ _ _ G2 R) LN AG) as (s1 & p & P & RP).
    destruct G1 as (X1 & _ & es1 & ES1). 
    destruct (IH x1 st1 s1 x' st' E ltac:(lia) (p_holds _ _ _ _ _ _ _ _ _ P) R) as (s2 & ps & Q & RQ).
    { rewrite ES1, app_length. lia. }
    { intros y Y. rewrite AG by exact Y. apply (p_agree _ _ _ _ _ _ _ _ _ P). lia. }
    destruct G2 as (X2 & (l2 & LK) & es2 & ES2).
    exists s2, (p :: ps). split; [|constructor; assumption].
    destruct P as [A1 H1 F1 W1 N1 WH1 (tr & S1 & M1) B1 NR1]. destruct Q as [A2 H2 F2 W2 N2 WH2 (trs & S2 & M2) B2 NR2].
    assert (K : mem_of x' s = mem_of x1 s) by (apply F2; lia).
    cbn [length]. constructor.
    + intros y Y. rewrite A1 by exact Y. apply A2. rewrite ES1, app_length. lia.
    + exact H2.
    + intros k K1 K2. rewrite F2 by lia. apply F1; lia.
    + intros k K1. destruct (Nat.eq_dec k s) as [->|D]; [rewrite K; exact W1|]. apply W2. lia.
    + intros k K1. destruct (Nat.ltb_spec k (ext x1)) as [D|D]; [|apply N2; lia]. rewrite F2 by lia. apply N1. lia.
    + auto.
    + exists (tr :: trs). rewrite words_cons. split; constructor.
      * rewrite K. apply (shows_weaken (within (ext x) (ext x1)) (within (ext x) (ext x1))); [unfold within; intros; lia|unfold within; intros; lia|].
        apply (shows_agree _ _ (mem_of x1)); [| |exact S1]; intros i (I1 & I2); symmetry; apply F2; lia.
      * revert S2. apply Forall2_weaken. intros a t0. apply shows_weaken; unfold within; intros; lia.
      * rewrite LK. apply means_more. exact M1.
      * exact M2.
    + constructor; [|exact B2]. apply (below_more kept (length (entries st1))); [rewrite ES2, app_length; lia|exact B1].
    + cbn [map]. constructor; [|exact NR2].
      rewrite <- (subst_agree kept s1 s2 (length (entries st1)) p B1 A2). exact NR1.
Qed.

(** * Members *)
Lemma put_word_post : forall x st sigma w v st' sigma' p b, w < ext x ->
  agree (length (entries st)) sigma sigma' -> holds_es (entries st') sigma' ->
  raw v = false -> getDescriptor v <> I_PTR -> means starts (links x) (Leaf v) p ->
  below (length (entries st')) p -> near (subst sigma' p) b ->
  post x st sigma w (put_word x w v) st' sigma' p b.
Proof.
  intros [[d e] l] st sigma w v st' sigma' p b L A H R I M B N. cbn [put_word]. constructor; cbn [ext links mem_of fst snd] in *.
  - exact A.
  - exact H.
  - intros k _ K. apply write_neq. exact K.
  - rewrite write_eq. exact R.
  - intros; lia.
  - trivial.
  - exists (Leaf v). rewrite write_eq. split; [constructor; exact I|exact M].
  - exact B.
  - exact N.
Qed.

Lemma raw_desc : forall w, raw w = true -> getDescriptor w = TIMESTAMP \/ getDescriptor w = DURATION \/ getDescriptor w = STRING.
Proof.
  clear. intros w R. unfold raw in R. cbv zeta in R. rewrite !orb_true_iff, !Z.eqb_eq in R. tauto.
Qed.
Lemma desc_not_raw : forall w, getDescriptor w <> TIMESTAMP -> getDescriptor w <> DURATION -> getDescriptor w <> STRING -> raw w = false.
Proof. intros w A B D. destruct (raw w) eqn:R; [|reflexivity]. apply raw_desc in R. tauto. Qed.
Lemma vl_not_raw : forall w, getDescriptor w = VL_PTR -> raw w = false.
Proof. intros w D. apply desc_not_raw; rewrite D; discriminate. Qed.

Lemma var_post : forall x st sigma w r t, w < ext x -> holds_es (entries st) sigma -> length (snd r) <= limit ->
  got ftol ttol (entries st) sigma r t ->
  exists sigma' y, post x st sigma w (put_word x w (fst r)) (with_entries st (snd r)) sigma' (TVar y) t.
Proof.
  intros x st sigma w r t L H LM (y & s1 & E & Y & H1 & A & N). exists s1, y. rewrite E.
  assert (y < limit) as YL by lia.
  apply put_word_post; try assumption.
  - apply vl_not_raw. apply vlptr_desc. exact YL.
  - rewrite vlptr_desc by exact YL. discriminate.
  - pose proof (means_var starts (links x) (VLPointer (Z.of_nat y)) (vlptr_desc y YL)) as M. rewrite vlptr_place in M by exact YL. exact M.
Qed.

Lemma put_ref_post : forall x st sigma w r st' sigma' p b, w < ext x -> S (length (links x)) <= limit ->
  agree (length (entries st)) sigma sigma' -> holds_es (entries st') sigma' ->
  whole r -> says starts r p -> below (length (entries st')) p -> near (subst sigma' p) b ->
  post x st sigma w (put_ref x w r) st' sigma' p b.
Proof.
  intros [[d e] l] st sigma w r st' sigma' p b L LL A H W SY B N. cbn [put_ref]. constructor; cbn [ext links mem_of fst snd] in *.
  - exact A.
  - exact H.
  - intros k _ K. apply write_neq. exact K.
  - rewrite write_eq. apply desc_not_raw; rewrite rptr_desc by lia; discriminate.
  - intros; lia.
  - intro F. apply Forall_app. split; [exact F|]. constructor; [exact W|constructor].
  - exists (Leaf (RPointer (Z.of_nat (length l)))). rewrite write_eq. split; [constructor; rewrite rptr_desc by lia; discriminate|].
    destruct SY as (tr & ts & -> & Q & S0 & M). apply means_ref with (tr := tr); try assumption; [apply rptr_desc; lia|].
    rewrite rptr_place, nth_error_app2, Nat.sub_diag by lia. reflexivity.
  - exact B.
  - exact N.
Qed.

Definition top (t p : term) : Prop :=
  match t with
  | TObj h ts => match fates C h with Some fs => exists ps, p = TObj h ps /\ parts fs ts ps | None => p = t end
  | _ => False
  end.

Lemma distinct_ne : c_ont C <> c_ent C /\
  (forall x, In x [c_fact C; c_antifact C; c_cmd C; c_mkval C; c_imdl C; c_icst C] -> c_ont C <> x /\ c_ent C <> x).
Proof.
  destruct DC as (N & _). inversion N as [|? ? N1 N']; subst. inversion N' as [|? ? N2 _]; subst. split.
  - intro E. apply N1. left. symmetry; exact E.
  - intros x I. split; intro E; [apply N1; right|apply N2]; rewrite E; exact I.
Qed.
Lemma no_fates : forall h, asOpcode h = c_ont C \/ asOpcode h = c_ent C -> fates C h = None.
Proof.
  intros h H. unfold fates. cbv zeta. destruct distinct_ne as (_ & D).
  assert (K : forall x, In x [c_fact C; c_antifact C; c_cmd C; c_mkval C; c_imdl C; c_icst C] -> (asOpcode h =? x)%Z = false).
  { intros x I. apply Z.eqb_neq. destruct (D x I) as (D1 & D2). destruct H as [-> | ->]; assumption. }
  rewrite !K by (cbn; tauto). reflexivity.
Qed.

Lemma plain_closed : forall h ts, fates C h = None -> plain (TObj h ts) -> closed kept (TObj h ts).
Proof. intros h ts F P. cbn [Abs_spec.plain] in P. rewrite F in P. exact P. Qed.
Lemma blur_other : forall h ts, fates C h = None -> blur (TObj h ts) = TObj h ts.
Proof. intros h ts F. cbn [Abs_spec.blur]. rewrite F. reflexivity. Qed.

Definition object_ok (d : nat) : Prop := forall o first st o' st' t sigma,
  object d o false first st = Some (o', st') -> says starts o t -> whole o -> plain t -> holds_es (entries st) sigma ->
  fits o' -> length (entries st') <= limit ->
  exists sigma' p, agree (length (entries st)) sigma sigma' /\ holds_es (entries st') sigma' /\
    says starts o' p /\ whole o' /\ below (length (entries st')) p /\ top t p /\ near (subst sigma' p) (blur t).

Definition member_ok (d : nat) : Prop := forall o i first w tr t,
  shows (starts o) anywhere (word o) (word o i) tr -> means starts (refs o) tr t -> plain t -> Forall whole (refs o) ->
  step_ok (pattern t) w (blur t) (fun x st => member d o i x w first st).

Lemma atom_parts : forall m ws trs ts l, Forall2 (shows anywhere anywhere m) ws trs -> Forall2 (means starts l) trs ts -> Forall atom_term ts ->
  ts = map TAtom ws /\ Forall plain_word ws.
Proof.
  intros m ws trs ts l S; revert ts; induction S as [|a tr ws trs Ha Hl IH]; intros ts M F; inversion M; subst.
  - split; [reflexivity|constructor].
  - inversion F as [|? ? F1 F2]; subst. destruct (IH _ ltac:(eassumption) F2) as (-> & P).
    destruct y; cbn in F1; try contradiction.
    match goal with Q : means starts l tr (TAtom _) |- _ => inversion Q; subst end. inversion Ha; subst.
    split; [reflexivity|constructor; assumption].
Qed.

Lemma set_like_desc : forall h, set_like user h = true -> user (asOpcode h) = false /\ (getDescriptor h = SET \/ getDescriptor h = OBJECT).
Proof.
  intros h H. unfold set_like in H. apply andb_true_iff in H. destruct H as (H1 & H2). apply negb_true_iff in H1.
  rewrite orb_true_iff, !Z.eqb_eq in H2. auto.
Qed.

Lemma steps_map : forall d o first si e, (forall j tr t, shows (starts o) anywhere (word o) (word o (si + j)) tr -> means starts (refs o) tr t -> plain t ->
    step_ok (pattern t) (e + j) (blur t) (fun x st => member d o (si + j) x (e + j) first st)) ->
  forall n j trs ts, Forall2 (shows (starts o) anywhere (word o)) (words (word o) (si + j) n) trs -> Forall2 (means starts (refs o)) trs ts -> Forall plain ts ->
  slots_ok 0 (fun _ => TVar 0) (e + j) (map (fun j x st => member d o (si + j) x (e + j) first st) (seq j n)) (map pattern ts) (map blur ts).
Proof.
  intros d o first si e H n; induction n as [|n IH]; intros j trs ts SH M P.
  - inversion SH; subst. inversion M; subst. constructor.
  - rewrite words_cons in SH. inversion SH; subst. inversion M; subst. inversion P; subst. cbn [seq map]. constructor.
    + apply step_any. eapply H; eassumption.
    + replace (S (e + j)) with (e + S j) by lia. eapply IH; [replace (si + S j) with (S (si + j)) by lia| |]; eassumption.
Qed.

Lemma rels_pattern : forall ts ps, Forall2 (fun r (p : term) => r p) (map pattern ts) ps -> Forall2 pattern ts ps.
Proof. intros ts; induction ts as [|t ts IH]; intros ps F; inversion F; subst; constructor; auto. Qed.

Lemma member_step : forall d, object_ok d -> member_ok d -> member_ok (S d).
Proof.
  intros d IHo IHm o i first w tr t S0 M P W. split.
  { apply abstract_grows. }
  intros x st sigma x' st' E L H R. rewrite member_eq in E. cbv zeta in E.
  assert (KV : forall r, got ftol ttol (entries st) sigma r (blur t) -> (forall y, pattern t (TVar y)) ->
     Some (put_var x w st r) = Some (x', st') -> exists sigma' p, post x st sigma w x' st' sigma' p (blur t) /\ pattern t p).
  { intros r G PT E0. unfold put_var in E0. injection E0 as <- <-. destruct R as (_ & _ & _ & R4). cbn [with_entries entries] in R4.
    destruct (var_post x st sigma w r (blur t) L H R4 G) as (s1 & y & PO). exists s1, (TVar y). split; [exact PO|apply PT]. }
  assert (KS : forall f, flat_at (word o) (place (word o i)) (blur t) -> (forall y, pattern t (TVar y)) ->
     option_map (put_var x w st) (get_structure_variable ftol ttol fuel (entries st) (word o) (place (word o i)) f) = Some (x', st') ->
     exists sigma' p, post x st sigma w x' st' sigma' p (blur t) /\ pattern t p).
  { intros f FL PT E0. destruct (get_structure_variable ftol ttol fuel (entries st) (word o) (place (word o i)) f) as [r|] eqn:G; [|discriminate].
    apply (KV r); [|exact PT|exact E0]. eapply structure_got; eassumption. }
  inversion M as [? ? D|? v r trs ts D N Q S1 M1|? v D1 D2|? h ws|? h trs ts NH M1]; subst.
  - contradiction.
  - (* a reference *)
    inversion S0 as [? NI| |]; subst. rewrite D in E. rewrite N in E. cbv beta iota in E. rewrite Z.eqb_refl in E.
    assert (SY : says starts r (TObj (word r 0) ts)) by (exists trs, ts; auto).
    assert (WR : whole r) by (rewrite Forall_forall in W; apply W; eapply nth_error_In; exact N).
    assert (KR : forall st1 r' sigma' p, x' = put_ref x w r' -> st1 = st' -> agree (length (entries st)) sigma sigma' -> holds_es (entries st') sigma' ->
       says starts r' p -> whole r' -> below (length (entries st')) p -> near (subst sigma' p) (blur (TObj (word r 0) ts)) ->
       post x st sigma w x' st' sigma' p (blur (TObj (word r 0) ts))).
    { intros st1 r' s1 p -> _ A1 H1 SY1 W1 B1 N1. apply put_ref_post; try assumption.
      destruct R as (_ & R2 & _). destruct x as [[m e] l]. cbn [put_ref links snd] in R2 |- *. rewrite app_length in R2. cbn [length] in R2. lia. }
    destruct (asOpcode (word r 0%nat) =? c_ont C)%Z eqn:E1.
    { apply Z.eqb_eq in E1. assert (FN : fates C (word r 0) = None) by (apply no_fates; left; exact E1).
      pose proof (plain_closed _ _ FN P) as CL. injection E as <- <-. exists sigma, (TObj (word r 0) ts). split.
      - apply (KR st r); auto.
        + intros y _; reflexivity.
        + apply closed_below. exact CL.
        + rewrite closed_subst by exact CL. rewrite blur_other by exact FN. apply near_refl.
      - apply pattern_other; [|exact FN]. rewrite E1. exact (proj1 distinct_ne). }
    destruct (asOpcode (word r 0%nat) =? c_ent C)%Z eqn:E2.
    { apply Z.eqb_eq in E2. assert (FN : fates C (word r 0) = None) by (apply no_fates; right; exact E2).
      eapply KV; [|intro y; apply pattern_entity; exact E2|exact E]. rewrite blur_other by exact FN.
      apply object_got; [exact same_spec|exact H|]. exact (says_weaken starts free Bp2_proofs.steps_ok _ _ SY). }
    destruct (object d r false first st) as [[r' st1]|] eqn:EO; [|discriminate]. injection E as <- <-.
    assert (FT : fits r').
    { destruct R as (_ & _ & R3 & _). destruct x as [[m e] l]. cbn [put_ref links snd] in R3. apply Forall_app in R3. destruct R3 as (_ & R3).
      inversion R3; assumption. }
    destruct (IHo r first st r' st1 _ sigma EO SY WR P H FT ltac:(apply R)) as (s1 & p & A1 & H1 & SY1 & W1 & B1 & T1 & N1).
    exists s1, p. split; [apply (KR st1 r'); auto|].
    cbn [top] in T1. destruct (fates C (word r 0)) as [fs|] eqn:FN.
    + destruct T1 as (ps & -> & PS). eapply pattern_object; eassumption.
    + subst p. apply pattern_other; [apply Z.eqb_neq; exact E2|exact FN].
  - (* an atom *)
    inversion S0 as [? NI| |]; subst. apply Z.eqb_neq in D2, NI. rewrite D2, NI in E.
    eapply KV; [|intro; apply pattern_atom|exact E]. apply atom_got; [exact H|exact P].
  - (* raw data *)
    inversion S0 as [|? D Q RW A|]; subst. rewrite D in E. change (I_PTR =? R_PTR)%Z with false in E. rewrite Z.eqb_refl in E. cbv iota in E.
    set (h := word o (place (word o i))) in *.
    assert (NS : ((getDescriptor h =? SET) || (getDescriptor h =? OBJECT))%Z = false).
    { apply orb_false_iff. split; apply Z.eqb_neq; intro X; apply raw_desc in RW; rewrite X in RW; destruct RW as [Y|[Y|Y]]; discriminate Y. }
    rewrite NS in E.
    assert (FL : flat_at (word o) (place (word o i)) (blur (TRaw h (words (word o) (place (word o i) + 1) (count h))))).
    { split; [apply raw_not_ptr; exact RW|]. split; [apply raw_not_vl; exact RW|]. fold h. rewrite RW. split; [reflexivity|exact P]. }
    destruct (user (asOpcode h)); (eapply KS; [exact FL|intro; apply pattern_raw|exact E]).
  - (* a structure *)
    inversion S0 as [| |? ? D Q RW NP A F2]; subst. rewrite D in E. change (I_PTR =? R_PTR)%Z with false in E. rewrite Z.eqb_refl in E. cbv iota in E.
    set (h := word o (place (word o i))) in *. set (si := place (word o i)) in *.
    cbn [Abs_spec.plain] in P. destruct (set_like user h) eqn:SL.
    + destruct (set_like_desc h SL) as (US & DH). rewrite US in E.
      assert (((getDescriptor h =? SET) || (getDescriptor h =? OBJECT))%Z = true) as Y.
      { apply orb_true_iff. rewrite !Z.eqb_eq. exact DH. }
      rewrite Y in E. destruct x as [[m e] l]. cbn [ext fst snd] in L. rewrite fold_all in P.
      assert (SO : slots_ok 0 (fun _ => TVar 0) (e + 1) (map (fun j x st => member d o (si + j) x (e + j) first st) (seq 1 (count h))) (map pattern ts) (map blur ts)).
      { apply (steps_map d o first si e) with (trs := trs); try assumption. intros j tr0 t0 S2 M2 P2. apply (IHm o (si + j) first (e + j) tr0 t0); assumption. }
      pose proof (chain_grows _ (steps_growing _ _ _ _ _ _ SO) _ _ _ _ E) as G.
      destruct (chain_ok _ _ _ _ _ _ SO _ st sigma x' st' E) as (s1 & ps & PO & RL).
      { rewrite map_length, seq_length. cbn [ext fst snd]. lia. }
      { exact H. }
      { exact R. }
      { lia. }
      { intros y0 Y0; lia. }
      rewrite map_length, seq_length in PO. destruct PO as [A1 H1 F1 W1 N1 WH1 (trs1 & S2 & M2) B1 NR1]. cbn [ext links mem_of fst snd] in *.
      destruct G as (GX & _). cbn [ext fst snd] in GX.
      assert (EL : e < limit) by (destruct R as (R1 & _); lia).
      assert (MW : mem_of x' w = ptr e).
      { rewrite F1 by lia. rewrite write_neq by lia. apply write_eq. }
      assert (ME : mem_of x' e = h).
      { rewrite F1 by lia. apply write_eq. }
      exists s1, (TStr h ps). split; [constructor; cbn [ext links mem_of fst snd]|].
      * exact A1.
      * exact H1.
      * intros k K1 K2. rewrite F1 by lia. rewrite !write_neq by lia. reflexivity.
      * rewrite MW. apply desc_not_raw; rewrite ptr_desc by exact EL; discriminate.
      * intros k K. destruct (Nat.eq_dec k e) as [->|D1]; [rewrite ME; exact RW|].
        destruct (Nat.ltb_spec k (e + count h + 1)) as [D2|D2]; [apply W1; lia|apply N1; lia].
      * exact WH1.
      * exists (Bp_spec.Node h trs1). split; [|apply means_str; assumption]. rewrite MW.
        pose proof (shows_node (within e (ext x')) (within e (ext x')) (mem_of x') (ptr e) trs1) as SN.
        rewrite ptr_place, ME in SN by exact EL. apply SN; clear SN.
        -- apply ptr_desc. exact EL.
        -- unfold within; lia.
        -- exact RW.
        -- exact NP.
        -- unfold within; intros; lia.
        -- revert S2. apply Forall2_weaken. intros a t0. apply shows_weaken; unfold within; intros; lia.
      * cbn [Abs_proofs.below]. rewrite fold_all. exact B1.
      * cbn [Bp_spec.subst Abs_spec.blur]. rewrite SL. apply near_str. exact NR1.
      * apply pattern_set; [exact SL|]. apply rels_pattern. exact RL.
    + assert (FL : flat_at (word o) si (blur (TStr h ts))).
      { cbn [Abs_spec.blur]. rewrite SL. split; [exact NP|]. split; [exact NH|]. fold h. rewrite RW.
        assert (S3 : Forall2 (shows anywhere anywhere (word o)) (words (word o) (si + 1) (count h)) trs).
        { revert F2. apply Forall2_weaken. intros a b. apply shows_weaken; intros; exact Logic.I. }
        destruct (atom_parts _ _ _ _ _ S3 M1 P) as (-> & PW). split; [reflexivity|exact PW]. }
      assert (PT : forall y, pattern (TStr h ts) (TVar y)) by (intro; apply pattern_value; exact SL).
      unfold set_like in SL. destruct (user (asOpcode h)); [eapply KS; eassumption|]. cbn [negb andb] in SL. rewrite SL in E.
      eapply KS; eassumption.
Qed.

(** * Objects *)
Lemma wild_ok : forall n0 s0 i, step_from n0 s0 (eq (TAtom (Wildcard 0))) i (TAtom (Wildcard 0)) (wild i).
Proof.
  intros n0 s0 i. apply step_any. split; [apply wild_grows; assumption|]. intros x st sigma x' st' E L H R. injection E as <- <-.
  exists sigma, (TAtom (Wildcard 0)). split; [|reflexivity]. apply put_word_post; try assumption.
  - intros y _; reflexivity.
  - reflexivity.
  - discriminate.
  - apply means_atom; discriminate.
  - exact Logic.I.
  - apply near_refl.
Qed.

Lemma keep_ok : forall n0 s0 o i, plain_word (word o i) -> step_from n0 s0 (eq (TAtom (word o i))) i (TAtom (word o i)) (keep o i).
Proof.
  intros n0 s0 o i (P1 & P2 & P3 & P4). apply step_any. split; [apply keep_grows; assumption|]. intros x st sigma x' st' E L H R. injection E as <- <-.
  exists sigma, (TAtom (word o i)). split; [|reflexivity]. apply put_word_post; try assumption.
  - intros y _; reflexivity.
  - apply means_atom; assumption.
  - exact Logic.I.
  - apply near_refl.
Qed.

(** The variable of a time known before. *)
Definition given (i a : nat) : step := fun x st => Some (put_word x i (VLPointer (Z.of_nat a)), st).
Lemma given_ok : forall n0 s0 i a, a < n0 -> step_from n0 s0 (eq (TVar a)) i (s0 a) (given i a).
Proof.
  intros n0 s0 i a A. split.
  { intros x st x' st' E. injection E as <- <-. destruct x as [[m e] l]. split; [cbn; lia|]. split; exists []; symmetry; apply app_nil_r. }
  intros x st sigma x' st' E L H R LN AG. injection E as <- <-. destruct R as (_ & _ & _ & R4). assert (AL : a < limit) by lia.
  exists sigma, (TVar a). split; [|reflexivity]. apply put_word_post; try assumption.
  - intros y _; reflexivity.
  - apply vl_not_raw. apply vlptr_desc. exact AL.
  - rewrite vlptr_desc by exact AL. discriminate.
  - pose proof (means_var starts (links x) (VLPointer (Z.of_nat a)) (vlptr_desc a AL)) as M. rewrite vlptr_place in M by exact AL. exact M.
  - cbn. lia.
  - cbn. rewrite AG by exact A. apply near_refl.
Qed.

(** An object without raw data is read word by word. *)
Lemma steps_all : forall m n, (forall k, 1 <= k < n -> raw (m k) = false) -> forall k, 1 <= k < n -> steps m n 1 k.
Proof.
  intros m n H k; induction k as [|k IH]; intros K; [lia|].
  destruct k as [|k]; [apply steps_here; lia|]. replace (S (S k)) with (S k + 1) by lia. apply steps_next; [apply IH; lia|apply H; lia|lia].
Qed.
Lemma steps_bound : forall m n k, steps m n 1 k -> 1 <= k < n.
Proof. intros m n k H; induction H; lia. Qed.

Lemma whole_all : forall m n l, (forall k, 1 <= k < n -> raw (m k) = false) -> Forall whole l -> whole (Obj m n l).
Proof.
  intros m n l H F. constructor.
  - intros k S1 R. rewrite H in R; [discriminate|]. exact (steps_bound _ _ _ S1).
  - apply Forall_forall. exact F.
Qed.

Lemma object_chain : forall n0 s0 fs rs bs h st sigma o' st', slots_ok n0 s0 1 fs rs bs -> length fs = count h ->
  finish (chain fs (fresh h (count h)) st) = Some (o', st') -> holds_es (entries st) sigma -> fits o' -> length (entries st') <= limit ->
  n0 <= length (entries st) -> agree n0 s0 sigma ->
  exists sigma' ps, agree (length (entries st)) sigma sigma' /\ holds_es (entries st') sigma' /\
    says starts o' (TObj h ps) /\ whole o' /\ Forall (below (length (entries st'))) ps /\
    Forall2 (fun r (p : term) => r p) rs ps /\ Forall2 near (map (subst sigma') ps) bs.
Proof.
  intros n0 s0 fs rs bs h st sigma o' st' SO LN E H F LE NN AG. apply finish_inv in E. destruct E as (x1 & E & EQ).
  pose proof (chain_grows _ (steps_growing _ _ _ _ _ _ SO) _ _ _ _ E) as G.
  destruct (chain_ok _ _ _ _ _ _ SO _ st sigma x1 st' E) as (s1 & ps & PO & RL); try assumption.
  { cbn [fresh ext fst snd]. lia. }
  { subst o'. destruct x1 as [[m e] l]. cbn in F |- *. inversion F; subst. split; [assumption|]. split; [assumption|]. split; [|assumption].
    apply Forall_forall. assumption. }
  destruct PO as [A1 H1 F1 W1 N1 WH1 (trs1 & S2 & M2) B1 NR1]. rewrite LN in *.
  destruct G as (GX & _). destruct x1 as [[m e] l]. cbn [fresh ext links mem_of fst snd] in *. subst o'.
  assert (HD : m 0 = h). { rewrite F1 by lia. apply write_eq. }
  assert (NR : forall k, 1 <= k < e -> raw (m k) = false).
  { intros k K. destruct (Nat.ltb_spec k (count h + 1)); [apply W1; lia|apply N1; lia]. }
  exists s1, ps. split; [exact A1|]. split; [exact H1|]. split; [|split; [|split; [exact B1|split; [exact RL|exact NR1]]]].
  - exists trs1, ps. cbn [word size refs]. rewrite HD. split; [reflexivity|]. split; [|split; [|exact M2]].
    + intros j J. apply steps_all; [exact NR|]. cbn [size]. lia.
    + revert S2. apply Forall2_weaken. intros a t0. apply shows_weaken; unfold within; intros i I; [|exact Logic.I].
      apply steps_all; [exact NR|]. cbn [size]. lia.
  - apply whole_all; [exact NR|]. apply WH1. constructor.
Qed.

Lemma part_of : forall o h ts i t, says starts o (TObj h ts) -> nth_error ts i = Some t ->
  exists tr, shows (starts o) anywhere (word o) (word o (S i)) tr /\ means starts (refs o) tr t.
Proof.
  intros o h ts i t (trs & ts0 & E & _ & S1 & M1) N. injection E as -> <-. change 1 with (1 + 0) in S1.
  assert (K : forall k n trs ts, Forall2 (shows (starts o) anywhere (word o)) (words (word o) k n) trs -> Forall2 (means starts (refs o)) trs ts ->
    forall i, nth_error ts i = Some t -> exists tr, shows (starts o) anywhere (word o) (word o (k + i)) tr /\ means starts (refs o) tr t).
  { clear. intros k n; revert k; induction n as [|n IH]; intros k trs ts S1 M1 i N.
    - inversion S1; subst. inversion M1; subst. destruct i; discriminate.
    - rewrite words_cons in S1. inversion S1; subst. inversion M1; subst. destruct i as [|i]; cbn in N.
      + injection N as <-. rewrite Nat.add_0_r. eauto.
      + replace (k + S i) with (S k + i) by lia. eapply IH; eassumption. }
  exact (K _ _ _ _ S1 M1 _ N).
Qed.
Lemma says_count : forall o h ts, says starts o (TObj h ts) -> h = word o 0 /\ length ts = count h.
Proof.
  clear. intros o h ts (trs & ts0 & E & _ & S1 & M1). injection E as -> <-. split; [reflexivity|].
  apply Forall2_len in S1. apply Forall2_len in M1. rewrite words_length in S1. lia.
Qed.
Lemma whole_refs : forall o, whole o -> Forall whole (refs o).
Proof. intros o H. inversion H; subst. apply Forall_forall. assumption. Qed.

Lemma mem_step : forall d n0 s0 o h ts i t first, member_ok d -> says starts o (TObj h ts) -> whole o -> nth_error ts i = Some t -> plain t ->
  step_from n0 s0 (pattern t) (S i) (blur t) (fun x st => member d o (S i) x (S i) first st).
Proof.
  intros d n0 s0 o h ts i t first IH SY W N P. destruct (part_of _ _ _ _ _ SY N) as (tr & S1 & M1).
  apply step_any. eapply IH; try eassumption. apply whole_refs. exact W.
Qed.

Lemma word_part : forall o h ts i t, says starts o (TObj h ts) -> nth_error ts i = Some t -> atom_term t -> t = TAtom (word o (S i)) /\ plain_word (word o (S i)).
Proof.
  intros o h ts i t SY N A. destruct (part_of _ _ _ _ _ SY N) as (tr & S1 & M1). destruct t; cbn in A; try contradiction.
  inversion M1; subst. inversion S1; subst. split; [reflexivity|exact A].
Qed.

(** The state after a fact is closed: the same values. *)
Lemma close_entries : forall x st x' st', close_fact x st = Some (x', st') -> x' = x /\ entries st' = entries st.
Proof.
  intros [[m e] l] st x' st' E. unfold close_fact in E. destruct (fwd st); injection E as <- <-; split; reflexivity.
Qed.

(** A fact without synchronisation is five members. *)
Lemma fact_chain : forall m1 m2 m3 w4 w5 x st r st', (forall x st, m1 x st = m1 x st) ->
  finish (chain [m1; chain [m2; m3]; w4; w5; close_fact] x st) = Some (r, st') ->
  exists st1, finish (chain [m1; m2; m3; w4; w5] x st) = Some (r, st1) /\ entries st' = entries st1.
Proof.
  intros m1 m2 m3 w4 w5 x st r st' _ E. cbn [chain] in E |- *.
  destruct (m1 x st) as [[x1 st1]|]; [|discriminate]. destruct (m2 x1 st1) as [[x2 st2]|]; [|discriminate].
  destruct (m3 x2 st2) as [[x3 st3]|]; [|discriminate]. destruct (w4 x3 st3) as [[x4 st4]|]; [|discriminate].
  destruct (w5 x4 st4) as [[x5 st5]|]; [|discriminate]. destruct (close_fact x5 st5) as [[x6 st6]|] eqn:EC; [|discriminate].
  apply close_entries in EC. destruct EC as (-> & EC). exists st5. destruct x5 as [[m e] l]. cbn [finish] in E |- *. injection E as <- <-. split; [reflexivity|exact EC].
Qed.

Lemma below_obj : forall n h ps, Forall (below n) ps -> below n (TObj h ps).
Proof. intros n h ps F. cbn [Abs_proofs.below]. right. rewrite fold_all. exact F. Qed.

Lemma object_step : forall d, member_ok d -> object_ok (S d).
Proof.
  intros d IHm o first st o' st' t sigma E SY W P H F LE.
  destruct t as [| | | |h ts]; try (destruct SY as (? & ? & SY & _); discriminate).
  destruct (says_count _ _ _ SY) as (HH & LC). subst h. set (h := word o 0) in *.
  rewrite object_eq in E. cbv zeta in E. fold h in E.
  cbn [Abs_spec.plain] in P. cbn [top Abs_spec.blur].
  assert (OP : entries (open_fact st) = entries st) by (unfold open_fact; destruct (fwd st); reflexivity).
  assert (PT : forall l, fold_right (fun t P => plain t /\ P) True l -> Forall plain l) by (intros l; rewrite fold_all; trivial).
  assert (KO : forall (st0 : state) fs l rs sigma' (ps : list term), fates C h = Some fs -> kept h = false -> entries st0 = entries st' ->
     agree (length (entries st)) sigma sigma' -> holds_es (entries st0) sigma' ->
     says starts o' (TObj h ps) -> whole o' -> Forall (below (length (entries st0))) ps ->
     Forall2 (fun r (p : term) => r p) rs ps -> Forall2 near (map (subst sigma') ps) l ->
     (Forall2 (fun r (p : term) => r p) rs ps -> parts fs ts ps) ->
     map (fun '(f, t) => match f with Blank => TAtom (Wildcard 0) | _ => t end) (combine fs (map blur ts)) = l ->
     exists sigma' p, agree (length (entries st)) sigma sigma' /\ holds_es (entries st') sigma' /\ says starts o' p /\ whole o' /\
       below (length (entries st')) p /\
       match fates C h with Some fs => exists ps, p = TObj h ps /\ parts fs ts ps | None => p = TObj h ts end /\
       near (subst sigma' p) (match fates C h with
         | Some fs => TObj h (map (fun '(f, t) => match f with Blank => TAtom (Wildcard 0) | _ => t end) (combine fs (map blur ts)))
         | None => TObj h ts end)).
  { intros st0 fs l rs s1 ps FF KP ES A1 H1 SY1 W1 B1 RL NR PP ML. exists s1, (TObj h ps). rewrite FF. rewrite <- ES.
    split; [exact A1|]. split; [exact H1|]. split; [exact SY1|]. split; [exact W1|]. split; [apply below_obj; exact B1|]. split; [exists ps; auto|].
    cbn [Bp_spec.subst]. rewrite KP. rewrite ML. apply near_obj. exact NR. }
  destruct (fates C h) as [fs|] eqn:FF.
  2:{ unfold fates in FF. cbv zeta in FF.
      destruct ((asOpcode h =? c_fact C)%Z); [discriminate FF|]. destruct ((asOpcode h =? c_antifact C)%Z); [discriminate FF|].
      cbn [orb] in FF. destruct ((asOpcode h =? c_cmd C)%Z); [discriminate FF|]. destruct ((asOpcode h =? c_mkval C)%Z); [discriminate FF|].
      destruct (((asOpcode h =? c_imdl C) || (asOpcode h =? c_icst C))%Z) eqn:EI; [discriminate FF|].
      injection E as <- <-. exists sigma, (TObj h ts).
      split; [intros y _; reflexivity|]. split; [exact H|]. split; [exact SY|]. split; [exact W|]. split; [apply closed_below; exact P|].
      split; [reflexivity|]. rewrite closed_subst by exact P. apply near_refl. }
  destruct P as (KP & LF & PF & PC & PA). apply PT in PA.
  assert (MS : forall i t first, nth_error ts i = Some t -> step_from 0 sigma (pattern t) (S i) (blur t) (fun x st => member d o (S i) x (S i) first st)).
  { intros i t f N. eapply mem_step; try eassumption. rewrite Forall_forall in PA. apply PA. eapply nth_error_In; exact N. }
  assert (FACT : forall c, c = asOpcode h -> (asOpcode h = c_fact C \/ asOpcode h = c_antifact C) -> fs = [Vary; Vary; Vary; Blank; Blank] ->
    finish (chain [fun x st => member d o 1 x 1 first st; timings (fun i x st => member d o i x i first st) false; wild 4; wild 5; close_fact]
      (fresh (AObject c 5) 5) (open_fact st)) = Some (o', st') ->
    exists sigma' p, agree (length (entries st)) sigma sigma' /\ holds_es (entries st') sigma' /\ says starts o' p /\ whole o' /\
       below (length (entries st')) p /\ (exists ps, p = TObj h ps /\ parts fs ts ps) /\
       near (subst sigma' p) (TObj h (map (fun '(f, t) => match f with Blank => TAtom (Wildcard 0) | _ => t end) (combine fs (map blur ts))))).
  { intros c -> HF -> EF. rewrite <- (PF HF) in EF. cbn [length] in LF.
    destruct ts as [|t1 [|t2 [|t3 [|t4 [|t5 [|]]]]]]; try discriminate LF.
    destruct (fact_chain (fun x st => member d o 1 x 1 first st) (fun x st => member d o 2 x 2 first st) (fun x st => member d o 3 x 3 first st) (wild 4) (wild 5)
       (fresh h 5) (open_fact st) o' st' (fun _ _ => eq_refl)) as (st1 & E1 & ES).
    { unfold timings in EF. cbn [chain] in EF |- *.
      destruct (member d o 1 (fresh h 5) 1 first (open_fact st)) as [[x1 st1]|]; [|discriminate EF]. destruct (fwd st1) as [[? ?]|]; exact EF. }
    rewrite <- OP in H. replace (fresh h 5) with (fresh h (count h)) in E1 by (rewrite <- LC; reflexivity).
    destruct (object_chain 0 sigma _ _ _ h (open_fact st) sigma o' st1
      (steps_cons _ _ _ _ _ _ _ _ _ (MS 0 t1 first eq_refl) (steps_cons _ _ _ _ _ _ _ _ _ (MS 1 t2 first eq_refl)
        (steps_cons _ _ _ _ _ _ _ _ _ (MS 2 t3 first eq_refl) (steps_cons _ _ _ _ _ _ _ _ _ (wild_ok 0 sigma 4)
        (steps_cons _ _ _ _ _ _ _ _ _ (wild_ok 0 sigma 5) (steps_nil _ _ _)))))))
      as (s1 & ps & A1 & H1 & SY1 & W1 & B1 & RL & NR); [cbn [length] in LC |- *; congruence|exact E1|exact H|exact F|rewrite <- ES; exact LE|lia|intros y Y; lia|].
    rewrite OP in A1. eapply (KO st1); try eassumption; [reflexivity|symmetry; exact ES| |reflexivity].
    intros RL'. inversion RL' as [|? ? ? ? R1 RA]; subst. inversion RA as [|? ? ? ? R2 RB]; subst. inversion RB as [|? ? ? ? R3 RC]; subst.
    inversion RC as [|? ? ? ? R4 RD]; subst. inversion RD as [|? ? ? ? R5 RE]; subst. inversion RE; subst.
    repeat (first [apply parts_nil|apply parts_vary; [assumption|]|apply parts_blank]). }
  unfold fates in FF. cbv zeta in FF.
  destruct (asOpcode h =? c_fact C)%Z eqn:E1; cbn [orb] in FF.
  { apply Z.eqb_eq in E1. injection FF as <-. exact (FACT _ (eq_sym E1) (or_introl E1) eq_refl E). }
  destruct (asOpcode h =? c_antifact C)%Z eqn:E2.
  { apply Z.eqb_eq in E2. injection FF as <-. exact (FACT _ (eq_sym E2) (or_intror E2) eq_refl E). }
  clear FACT PF.
  destruct (asOpcode h =? c_cmd C)%Z eqn:E3.
  { apply Z.eqb_eq in E3. injection FF as <-. cbn [length] in LF. destruct ts as [|t1 [|t2 [|t3 [|]]]]; try discriminate LF.
    replace (fresh h 3) with (fresh h (count h)) in E by (rewrite <- LC; reflexivity).
    destruct (word_part o h _ 0 t1 SY eq_refl (PC E3)) as (T1 & PW).
    destruct (object_chain 0 sigma _ _ _ h st sigma o' st'
      (steps_cons _ _ _ _ _ _ _ _ _ (keep_ok 0 sigma o 1 PW) (steps_cons _ _ _ _ _ _ _ _ _ (MS 1 t2 0%Z eq_refl)
        (steps_cons _ _ _ _ _ _ _ _ _ (wild_ok 0 sigma 3) (steps_nil _ _ _)))))
      as (s1 & ps & A1 & H1 & SY1 & W1 & B1 & RL & NR); [cbn [length] in LC |- *; congruence|exact E|exact H|exact F|exact LE|lia|intros y Y; lia|].
    eapply (KO st'); try eassumption; [reflexivity|reflexivity| |rewrite T1; reflexivity].
    intros RL'. inversion RL' as [|? ? ? ? R1 RA]; subst. inversion RA as [|? ? ? ? R2 RB]; subst. inversion RB as [|? ? ? ? R3 RC]; subst. inversion RC; subst.
    apply parts_same. apply parts_vary; [assumption|]. apply parts_blank. apply parts_nil. }
  destruct (asOpcode h =? c_mkval C)%Z eqn:E4.
  { injection FF as <-. cbn [length] in LF. destruct ts as [|t1 [|t2 [|t3 [|t4 [|]]]]]; try discriminate LF.
    replace (fresh h 4) with (fresh h (count h)) in E by (rewrite <- LC; reflexivity).
    destruct (object_chain 0 sigma _ _ _ h st sigma o' st'
      (steps_cons _ _ _ _ _ _ _ _ _ (MS 0 t1 0%Z eq_refl) (steps_cons _ _ _ _ _ _ _ _ _ (MS 1 t2 0%Z eq_refl)
        (steps_cons _ _ _ _ _ _ _ _ _ (MS 2 t3 0%Z eq_refl) (steps_cons _ _ _ _ _ _ _ _ _ (wild_ok 0 sigma 4) (steps_nil _ _ _))))))
      as (s1 & ps & A1 & H1 & SY1 & W1 & B1 & RL & NR); [cbn [length] in LC |- *; congruence|exact E|exact H|exact F|exact LE|lia|intros y Y; lia|].
    eapply (KO st'); try eassumption; [reflexivity|reflexivity| |reflexivity].
    intros RL'. inversion RL' as [|? ? ? ? R1 RA]; subst. inversion RA as [|? ? ? ? R2 RB]; subst. inversion RB as [|? ? ? ? R3 RC]; subst.
    inversion RC as [|? ? ? ? R4 RD]; subst. inversion RD; subst.
    repeat (first [apply parts_nil|apply parts_vary; [assumption|]|apply parts_blank]). }
  destruct (((asOpcode h =? c_imdl C) || (asOpcode h =? c_icst C))%Z); [|discriminate FF].
  injection FF as <-. cbn [length] in LF. destruct ts as [|t1 [|t2 [|t3 [|t4 [|t5 [|]]]]]]; try discriminate LF.
  replace (fresh h 5) with (fresh h (count h)) in E by (rewrite <- LC; reflexivity).
  destruct (object_chain 0 sigma _ _ _ h st sigma o' st'
    (steps_cons _ _ _ _ _ _ _ _ _ (MS 0 t1 0%Z eq_refl) (steps_cons _ _ _ _ _ _ _ _ _ (MS 1 t2 0%Z eq_refl)
      (steps_cons _ _ _ _ _ _ _ _ _ (MS 2 t3 (-1)%Z eq_refl) (steps_cons _ _ _ _ _ _ _ _ _ (wild_ok 0 sigma 4)
      (steps_cons _ _ _ _ _ _ _ _ _ (wild_ok 0 sigma 5) (steps_nil _ _ _)))))))
    as (s1 & ps & A1 & H1 & SY1 & W1 & B1 & RL & NR); [cbn [length] in LC |- *; congruence|exact E|exact H|exact F|exact LE|lia|intros y Y; lia|].
  eapply (KO st'); try eassumption; [reflexivity|reflexivity| |reflexivity].
  intros RL'. inversion RL' as [|? ? ? ? R1 RA]; subst. inversion RA as [|? ? ? ? R2 RB]; subst. inversion RB as [|? ? ? ? R3 RC]; subst.
  inversion RC as [|? ? ? ? R4 RD]; subst. inversion RD as [|? ? ? ? R5 RE]; subst. inversion RE; subst.
  repeat (first [apply parts_nil|apply parts_vary; [assumption|]|apply parts_blank]).
Qed.

Lemma abstract_ok : forall d, object_ok d /\ member_ok d.
Proof.
  intro d; induction d as [|d (IHo & IHm)].
  - split.
    + intros o first st o' st' t sigma E. discriminate.
    + intros o i first w tr t _ _ _ _. split; [apply abstract_grows|]. intros x st sigma x' st' E. discriminate.
  - split; [apply object_step|apply member_step]; assumption.
Qed.
End Abs.
