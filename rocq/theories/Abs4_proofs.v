From Verif Require Import Base Float32 Atom_model Utils_model Bp_model Bp_spec Bp_proofs Bp2_proofs Bp3_proofs Abs_model Abs_spec Abs_proofs Abs2_proofs Abs3_proofs.
Local Open Scope nat_scope.

(** * The map as the patterns read it *)
Lemma atoms_show : forall m ws, Forall plain_word ws -> Forall2 (shows anywhere anywhere m) ws (map Leaf ws).
Proof. intros m ws F; induction F as [|w ws H F IH]; cbn; constructor; [constructor; apply H|exact IH]. Qed.
Lemma atoms_mean : forall l ws, Forall plain_word ws -> Forall2 (means free l) (map Leaf ws) (map TAtom ws).
Proof. intros l ws F; induction F as [|w ws (_ & _ & H1 & H2) F IH]; cbn; constructor; [apply means_atom; assumption|exact IH]. Qed.
Lemma leaves_flat : forall ws, list_max (map height (map Leaf ws)) = 0.
Proof. intros ws; induction ws as [|w ws IH]; cbn; [reflexivity|exact IH]. Qed.
Lemma leaves_tame : forall ws, fold_right (fun t P => tame t /\ P) True (map Leaf ws).
Proof. intros ws; induction ws as [|w ws IH]; cbn; auto. Qed.
Lemma limit_pos : 0 < limit.
Proof. pose proof limit_is. lia. Qed.

Lemma held_stands : forall fuel x e t, 0 < fuel -> held x e t -> stands fuel x (value_of e) t.
Proof.
  intros fuel x e t FP H. destruct e as [|a|m n|o]; cbn [value_of stands held] in *.
  - exact H.
  - destruct H as (-> & _ & H1 & H2 & H3). auto.
  - destruct H as (_ & D1 & D2 & H). pose proof (ptr_place 0 limit_pos) as PP. destruct (raw (m 0)) eqn:R.
    + destruct H as (-> & F). exists (Raw (m 0) (words m 1 (count (m 0)))). split; [|split; [exact F|split; [exact FP|intro; apply means_raw]]].
      pose proof (shows_raw anywhere anywhere m (ptr 0)) as S0. rewrite PP in S0. apply S0; try exact Logic.I; [apply ptr_desc; exact limit_pos|exact R|intros; exact Logic.I].
    + destruct H as (-> & F). exists (Bp_spec.Node (m 0) (map Leaf (words m 1 (count (m 0))))). split; [|split; [apply leaves_tame|split]].
      * pose proof (shows_node anywhere anywhere m (ptr 0)) as S0. rewrite PP in S0.
        apply S0; try exact Logic.I; [apply ptr_desc; exact limit_pos|exact R|exact D1|intros; exact Logic.I|apply atoms_show; exact F].
      * cbn [height]. rewrite leaves_flat. lia.
      * intro l. apply means_str; [exact D2|apply atoms_mean; exact F].
  - exact H.
Qed.

Lemma holds_stands : forall fuel st sigma, 0 < fuel -> holds st sigma -> forall x, x < limit -> stands fuel x (values st x) (sigma x).
Proof.
  intros fuel st sigma FP H x _. specialize (H x). unfold values. destruct (nth_error (entries st) x) as [e|]; [apply held_stands; assumption|exact H].
Qed.

Section Abs.
Variable ftol : spec_float.
Variable ttol : Z.
Variable fuel : nat.
Variable C : classes.
Variables user kept : Z -> bool.
Variable same : obj -> obj -> bool.
Hypothesis same_spec : forall a b, same a b = true -> a = b.
Hypothesis fuel_pos : 0 < fuel.
Hypothesis DC : distinct C.

Local Notation object := (abstract_object ftol ttol fuel C user same).
Local Notation member := (abstract_member ftol ttol fuel C user same).
Local Notation near := (near ftol ttol).
Local Notation blur := (blur C user).
Local Notation pattern := (pattern C user).
Local Notation plain := (plain C user kept).
Local Notation subst := (subst kept).

Lemma top_pattern : forall t p, top C user t p -> (forall h ts, t = TObj h ts -> asOpcode h <> c_ent C) -> pattern t p.
Proof.
  intros t p H N. destruct t as [| | | |h ts]; cbn [top] in H; try contradiction. destruct (fates C h) as [fs|] eqn:F.
  - destruct H as (ps & -> & H). eapply pattern_object; eassumption.
  - subst p. apply pattern_other; [exact (N _ _ eq_refl)|exact F].
Qed.

Lemma abstract_spec : forall d o first st o' st' t sigma,
  object d o false first st = Some (o', st') -> says starts o t -> whole o -> plain t -> holds st sigma ->
  fits o' -> length (entries st') <= limit ->
  exists sigma' p, (forall x, x < length (entries st) -> sigma x = sigma' x) /\ holds st' sigma' /\ says starts o' p /\ whole o' /\
    near (subst sigma' p) (blur t) /\ ((forall h ts, t = TObj h ts -> asOpcode h <> c_ent C) -> pattern t p).
Proof.
  intros d o first st o' st' t sigma E SY W P H F L.
  destruct (proj1 (abstract_ok ftol ttol fuel C user kept same same_spec fuel_pos DC d) o first st o' st' t sigma E SY W P H F L)
    as (s1 & p & A1 & H1 & SY1 & W1 & _ & T1 & N1).
  exists s1, p. split; [exact A1|]. split; [exact H1|]. split; [exact SY1|]. split; [exact W1|]. split; [exact N1|]. apply top_pattern. exact T1.
Qed.

Lemma round_trip : forall d o first st o' st' t sigma r,
  object d o false first st = Some (o', st') -> says starts o t -> whole o -> plain t -> holds st sigma ->
  fits o' -> length (entries st') <= limit ->
  bind_pattern fuel kept (values st') o' = Some r -> fits r ->
  exists t', says free r t' /\ near t' (blur t).
Proof.
  intros d o first st o' st' t sigma r E SY W P H F L EB FR.
  destruct (abstract_spec _ _ _ _ _ _ _ _ E SY W P H F L) as (s1 & p & _ & H1 & SY1 & W1 & N1 & _).
  exists (subst s1 p). split; [|exact N1].
  eapply bind_pattern_spec; try eassumption. apply holds_stands; assumption.
Qed.

(** * Timings *)
Definition steady (f : step) : Prop := forall x st x' st' p, fwd st = Some p -> f x st = Some (x', st') -> fwd st' = Some p.
Lemma chain_steady : forall l, Forall steady l -> steady (chain l).
Proof.
  intros l F; induction F as [|f l Hf Hl IH]; intros x st x' st' p E E1; cbn [chain] in E1; [injection E1 as _ <-; exact E|].
  destruct (f x st) as [[x1 st1]|] eqn:E2; [|discriminate]. eapply IH; [|exact E1]. eapply Hf; eassumption.
Qed.
Lemma wild_steady : forall i, steady (wild i).
Proof. intros i x st x' st' p E E1. injection E1 as _ <-. exact E. Qed.
Lemma keep_steady : forall o i, steady (keep o i).
Proof. intros o i x st x' st' p E E1. injection E1 as _ <-. exact E. Qed.
Lemma close_steady : steady close_fact.
Proof. intros x st x' st' p E E1. unfold close_fact in E1. rewrite E in E1. injection E1 as _ <-. exact E. Qed.
Lemma timings_steady : forall m b, (forall i, steady (m i)) -> steady (timings m b).
Proof.
  intros m b H x st x' st' p E E1. unfold timings in E1. rewrite E in E1. destruct p as [u v].
  destruct b; [injection E1 as _ <-; exact E|]. eapply (chain_steady [m 2; m 3]); [|exact E|exact E1]. constructor; [apply H|constructor; [apply H|constructor]].
Qed.
Lemma open_steady : forall st p, fwd st = Some p -> open_fact st = st.
Proof. intros st p E. unfold open_fact. rewrite E. reflexivity. Qed.
Lemma var_steady : forall x w st r x' st' p, fwd st = Some p -> put_var x w st r = (x', st') -> fwd st' = Some p.
Proof. intros x w st r x' st' p E E1. unfold put_var in E1. injection E1 as _ <-. exact E. Qed.

Lemma abstract_steady : forall d,
  (forall o sync first st o' st' p, fwd st = Some p -> object d o sync first st = Some (o', st') -> fwd st' = Some p) /\
  (forall o i w first, steady (fun x st => member d o i x w first st)).
Proof.
  induction d as [|d [IHo IHm]]; [split; [intros ? ? ? ? ? ? ? ? E; discriminate E|intros ? ? ? ? ? ? ? ? ? ? E; discriminate E]|]. split.
  - intros o sync first st o' st' p F E. rewrite object_eq in E. cbv zeta in E. rewrite (open_steady _ _ F) in E.
    assert (K : forall l x, Forall steady l -> finish (chain l x st) = Some (o', st') -> fwd st' = Some p).
    { intros l x G E1. apply finish_inv in E1. destruct E1 as (x1 & E1 & _). eapply chain_steady; eassumption. }
    assert (G : forall f i, steady (fun x st => member d o i x i f st)) by (intros; apply IHm).
    repeat match type of E with (if ?b then _ else _) = _ => destruct b end; try (eapply K; [|exact E]);
      try (repeat first [apply Forall_nil|apply Forall_cons]; try apply wild_steady; try apply keep_steady; try apply close_steady;
           try apply G; try (apply timings_steady; intro; apply G)).
    injection E as _ <-. exact F.
  - intros o i w first x st x' st' p F E. rewrite member_eq in E. cbv zeta in E.
    assert (K : forall r, Some (put_var x w st r) = Some (x', st') -> fwd st' = Some p).
    { intros r E0. unfold put_var in E0. injection E0 as _ <-. exact F. }
    destruct (getDescriptor (word o i) =? R_PTR)%Z.
    { destruct (nth_error (refs o) (place (word o i))) as [r|]; [|discriminate].
      destruct (asOpcode (word r 0%nat) =? c_ont C)%Z; [injection E as _ <-; exact F|].
      destruct (asOpcode (word r 0%nat) =? c_ent C)%Z; [exact (K _ E)|].
      destruct (object d r false first st) as [[r' st1]|] eqn:E1; [|discriminate]. injection E as _ <-. eapply IHo; eassumption. }
    destruct (getDescriptor (word o i) =? I_PTR)%Z; [|exact (K _ E)].
    assert (KS : forall f, option_map (put_var x w st) (get_structure_variable ftol ttol fuel (entries st) (word o) (place (word o i)) f) = Some (x', st') ->
      fwd st' = Some p).
    { intros f E0. destruct (get_structure_variable ftol ttol fuel (entries st) (word o) (place (word o i)) f) as [r|]; [exact (K _ E0)|discriminate]. }
    destruct (user _); [exact (KS _ E)|]. destruct (_ || _); [|exact (KS _ E)]. destruct x as [[m e] l].
    eapply chain_steady; [|exact F|exact E]. apply Forall_forall. intros f I. apply in_map_iff in I. destruct I as (j & <- & _). apply IHm.
Qed.

(** Without facts, only values are added. *)
Definition quiet (st st' : state) : Prop := first_index st' = first_index st /\ fwd st' = fwd st.
Lemma quiet_trans : forall a b c, quiet a b -> quiet b c -> quiet a c.
Proof. intros a b c (A & B) (D & F). split; congruence. Qed.

Lemma member_quiet : forall d,
  (forall o sync first st o' st' t, object d o sync first st = Some (o', st') -> says starts o t -> plain t -> no_fact C t -> quiet st st') /\
  (forall o i x w first st x' st' tr t, member d o i x w first st = Some (x', st') -> shows (starts o) anywhere (word o) (word o i) tr ->
    means starts (refs o) tr t -> plain t -> no_fact C t -> quiet st st').
Proof.
  assert (Q0 : forall st, quiet st st) by (split; reflexivity).
  induction d as [|d [IHo IHm]]; [split; [intros ? ? ? ? ? ? ? E; discriminate E|intros ? ? ? ? ? ? ? ? ? ? E; discriminate E]|]. split.
  - intros o sync first st o' st' t E SY P NF.
    destruct t as [| | | |h ts]; try (destruct SY as (? & ? & SY & _); discriminate).
    destruct (says_count _ _ _ SY) as (HH & LC). subst h. set (h := word o 0) in *.
    rewrite object_eq in E. cbv zeta in E. fold h in E. cbn [Abs_spec.plain] in P. cbn [no_fact] in NF. destruct NF as ((NF1 & NF2) & NF).
    unfold fates in P, NF. cbv zeta in P, NF.
    apply Z.eqb_neq in NF1, NF2. rewrite NF1, NF2 in E, P, NF. cbn [orb] in P, NF.
    assert (MS : forall fs : list fate, kept h = false /\ length ts = length fs /\
        (asOpcode h = c_fact C \/ asOpcode h = c_antifact C -> h = AObject (asOpcode h) 5) /\
        (asOpcode h = c_cmd C -> match ts with [] => True | f :: _ => atom_term f end) /\
        fold_right (fun t P => plain t /\ P) True ts ->
        (Some fs = None \/ fold_right (fun t P => no_fact C t /\ P) True ts) ->
        forall i f x st x' st', i < length fs -> member d o (S i) x (S i) f st = Some (x', st') -> quiet st st').
    { intros fs (_ & LF & _ & _ & PA) [NX|NX]; [discriminate NX|]. intros i f x st0 x' st1 LI E0. rewrite fold_all in PA, NX.
      destruct (nth_error ts i) as [t|] eqn:N; [|apply nth_error_None in N; lia].
      destruct (part_of _ _ _ _ _ SY N) as (tr & S1 & M1). rewrite Forall_forall in PA, NX. pose proof (nth_error_In _ _ N).
      eapply IHm; try eassumption; auto. }
    assert (SQ : forall l x, Forall (fun f => forall x st x' st', f x st = Some (x', st') -> quiet st st') l ->
        finish (chain l x st) = Some (o', st') -> quiet st st').
    { intros l x F E0. apply finish_inv in E0. destruct E0 as (x1 & E0 & _). clear E. revert x st E0.
      induction F as [|f l Hf Hl IH]; intros x st E0; cbn [chain] in E0; [injection E0 as _ <-; apply Q0|].
      destruct (f x st) as [[x2 st2]|] eqn:E2; [|discriminate]. eapply quiet_trans; [eapply Hf; exact E2|eapply IH; exact E0]. }
    assert (W0 : forall i x st x' st', wild i x st = Some (x', st') -> quiet st st') by (intros i x st0 x' st1 E0; injection E0 as _ <-; apply Q0).
    destruct (asOpcode h =? c_cmd C)%Z.
    { eapply SQ; [|exact E]. repeat first [apply Forall_nil|apply Forall_cons]; [|intros x0 st0 x1 st1 E0; eapply (MS _ P NF); [|exact E0]; cbn; lia|apply W0].
      intros x st0 x' st1 E0; injection E0 as _ <-; apply Q0. }
    destruct (asOpcode h =? c_mkval C)%Z.
    { eapply SQ; [|exact E]. repeat first [apply Forall_nil|apply Forall_cons]; try apply W0; (intros x0 st0 x1 st1 E0; eapply (MS _ P NF); [|exact E0]; cbn; lia). }
    destruct ((asOpcode h =? c_imdl C) || (asOpcode h =? c_icst C))%Z.
    { eapply SQ; [|exact E]. repeat first [apply Forall_nil|apply Forall_cons]; try apply W0; (intros x0 st0 x1 st1 E0; eapply (MS _ P NF); [|exact E0]; cbn; lia). }
    injection E as _ <-. apply Q0.
  - intros o i x w first st x' st' tr t E S0 M P NF. rewrite member_eq in E. cbv zeta in E.
    assert (K : forall r, Some (put_var x w st r) = Some (x', st') -> quiet st st').
    { intros r E0. injection E0 as _ <-. split; reflexivity. }
    assert (KS : forall f, option_map (put_var x w st) (get_structure_variable ftol ttol fuel (entries st) (word o) (place (word o i)) f) = Some (x', st') ->
      quiet st st').
    { intros f E0. destruct (get_structure_variable ftol ttol fuel (entries st) (word o) (place (word o i)) f) as [r|]; [exact (K _ E0)|discriminate]. }
    destruct (getDescriptor (word o i) =? R_PTR)%Z eqn:DR.
    { apply Z.eqb_eq in DR. destruct (nth_error (refs o) (place (word o i))) as [r|] eqn:NR; [|discriminate].
      destruct (asOpcode (word r 0%nat) =? c_ont C)%Z; [injection E as _ <-; apply Q0|].
      destruct (asOpcode (word r 0%nat) =? c_ent C)%Z; [exact (K _ E)|].
      destruct (object d r false first st) as [[r' st1]|] eqn:E1; [|discriminate]. injection E as _ <-.
      assert (SY : says starts r t).
      { inversion S0; subst; try (rewrite DR in *; discriminate). inversion M; subst.
        - rewrite DR in *. discriminate.
        - replace o0 with r in * by congruence. exists tr, ts. auto.
        - contradiction. }
      eapply IHo; eassumption. }
    destruct (getDescriptor (word o i) =? I_PTR)%Z eqn:DI; [|exact (K _ E)]. apply Z.eqb_eq in DI.
    destruct (user (asOpcode (word o (place (word o i))))) eqn:U; [exact (KS _ E)|].
    destruct (((getDescriptor (word o (place (word o i))) =? SET) || (getDescriptor (word o (place (word o i))) =? OBJECT))%Z) eqn:SL; [|exact (KS _ E)].
    destruct x as [[m e] l].
    inversion S0 as [? NI|? D Q RW A|? trs D Q RW NP A F2]; subst.
    { contradiction. }
    { apply raw_desc in RW. rewrite orb_true_iff, !Z.eqb_eq in SL. exfalso. destruct SL as [SL|SL]; rewrite SL in RW; destruct RW as [Y|[Y|Y]]; discriminate Y. }
    inversion M as [| | | |? h trs0 ts NH M1]; subst. cbn [Abs_spec.plain no_fact] in P, NF.
    unfold set_like in P. rewrite U, SL in P. cbn [negb andb] in P. rewrite fold_all in P, NF.
    revert E. generalize (write (write m w (ptr e)) e (word o (place (word o i))), e + count (word o (place (word o i))) + 1, l).
    set (si := place (word o i)) in *. set (n := count (word o si)) in *.
    assert (KK : forall n j trs ts x st, Forall2 (shows (starts o) anywhere (word o)) (words (word o) (si + j) n) trs ->
      Forall2 (means starts (refs o)) trs ts -> Forall plain ts -> Forall (no_fact C) ts ->
      chain (map (fun j x st => member d o (si + j) x (e + j) first st) (seq j n)) x st = Some (x', st') -> quiet st st').
    { clear - IHm Q0. intros n; induction n as [|n IH]; intros j trs ts x st S1 M1 P1 N1 E; cbn [seq map chain] in E; [injection E as _ <-; apply Q0|].
      destruct (member d o (si + j) x (e + j) first st) as [[x1 st1]|] eqn:E1; [|discriminate].
      rewrite words_cons in S1. inversion S1; subst. inversion M1; subst. inversion P1; subst. inversion N1; subst.
      eapply quiet_trans; [eapply IHm; eassumption|]. eapply (IH (S j)); [replace (si + S j) with (S (si + j)) by lia| | | |]; eassumption. }
    intros x0 E0. eapply (KK n 1); try eassumption.
Qed.
End Abs.
