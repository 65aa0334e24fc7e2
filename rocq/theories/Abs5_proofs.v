From Verif Require Import Base Float32 Atom_model Utils_model Bp_model Bp_spec Bp_proofs Bp2_proofs Bp3_proofs Abs_model Abs_spec Abs_proofs Abs2_proofs Abs3_proofs Abs4_proofs.
Local Open Scope nat_scope.

Section Abs.
Variable ftol : spec_float.
Variable ttol : Z.
Variable fuel : nat.
Variable C : classes.
Variables user kept : Z -> bool.
Variable same : obj -> obj -> bool.
Hypothesis same_spec : forall a b, same a b = true -> a = b.
Hypothesis fuel_pos : 0 < fuel.
Hypothesis DC : distinct C.

Local Notation object := (abstract_object ftol ttol fuel C user same).
Local Notation member := (abstract_member ftol ttol fuel C user same).
Local Notation near := (near ftol ttol).
Local Notation blur := (blur C user).
Local Notation pattern := (pattern C user).
Local Notation plain := (plain C user kept).
Local Notation subst := (subst kept).

Lemma fact_fates : forall h, asOpcode h = c_fact C \/ asOpcode h = c_antifact C -> fates C h = Some [Vary; Vary; Vary; Blank; Blank].
Proof.
  intros h H. unfold fates. cbv zeta. assert (((asOpcode h =? c_fact C) || (asOpcode h =? c_antifact C))%Z = true) as ->; [|reflexivity].
  apply orb_true_iff. rewrite !Z.eqb_eq. exact H.
Qed.
Lemma fact_eq : forall d o sync first st, asOpcode (word o 0) = c_fact C \/ asOpcode (word o 0) = c_antifact C ->
  object (S d) o sync first st =
  finish (chain [fun x st => member d o 1 x 1 first st; timings (fun i x st => member d o i x i first st) sync; wild 4; wild 5; close_fact]
    (fresh (AObject (asOpcode (word o 0)) 5) 5) (open_fact st)).
Proof.
  intros d o sync first st [H|H]; rewrite object_eq; cbv zeta; rewrite H.
  - rewrite Z.eqb_refl. reflexivity.
  - destruct (c_antifact C =? c_fact C)%Z eqn:E; [apply Z.eqb_eq in E; rewrite <- E; reflexivity|]. rewrite Z.eqb_refl. reflexivity.
Qed.

(** A fact in step with the first one. *)
Lemma sync_spec : forall d o first st o' st' h t1 t2 t3 t4 t5 sigma a b,
  object d o true first st = Some (o', st') -> says starts o (TObj h [t1; t2; t3; t4; t5]) -> whole o -> plain (TObj h [t1; t2; t3; t4; t5]) ->
  asOpcode h = c_fact C \/ asOpcode h = c_antifact C ->
  holds st sigma -> fwd st = Some (a, b) -> a < length (entries st) -> b < length (entries st) ->
  fits o' -> length (entries st') <= limit ->
  exists sigma' p, (forall x, x < length (entries st) -> sigma x = sigma' x) /\ holds st' sigma' /\ fwd st' = Some (a, b) /\ whole o' /\
    says starts o' (TObj h [p; TVar a; TVar b; TAtom (Wildcard 0); TAtom (Wildcard 0)]) /\ pattern t1 p /\
    near (subst sigma' (TObj h [p; TVar a; TVar b; TAtom (Wildcard 0); TAtom (Wildcard 0)]))
         (TObj h [blur t1; sigma a; sigma b; TAtom (Wildcard 0); TAtom (Wildcard 0)]).
Proof.
  intros d o first st o' st' h t1 t2 t3 t4 t5 sigma a b E SY W P HF H FW LA LB F LE.
  pose proof (proj1 (abstract_steady ftol ttol fuel C user same d) _ _ _ _ _ _ _ FW E) as FW'.
  destruct d as [|d]; [discriminate E|]. destruct (says_count _ _ _ SY) as (HH & LC). rewrite HH in *. set (h0 := word o 0) in *.
  rewrite fact_eq in E by exact HF. fold h0 in E. rewrite (open_steady _ _ FW) in E.
  cbn [Abs_spec.plain] in P. rewrite (fact_fates _ HF) in P. destruct P as (KP & _ & PF & _ & PA). cbn [fold_right] in PA. destruct PA as (P1 & _).
  rewrite <- (PF HF) in E.
  set (n0 := length (entries st)).
  assert (M1 : step_from ftol ttol kept n0 sigma (pattern t1) 1 (blur t1) (fun x st => member d o 1 x 1 first st)).
  { eapply (mem_step ftol ttol fuel C user kept same d n0 sigma o h0 _ 0 t1 first); try eassumption; [|reflexivity].
    apply (abstract_ok ftol ttol fuel C user kept same same_spec fuel_pos DC d). }
  assert (E1 : exists st1, finish (chain [fun x st => member d o 1 x 1 first st; given 2 a; given 3 b; wild 4; wild 5] (fresh h0 5) st) = Some (o', st1) /\ entries st' = entries st1).
  { cbn [chain] in E |- *. destruct (member d o 1 (fresh h0 5) 1 first st) as [[x1 st1]|] eqn:EM; [|discriminate E].
    assert (FW1 : fwd st1 = Some (a, b)) by (eapply (proj2 (abstract_steady ftol ttol fuel C user same d)); [exact FW|exact EM]).
    unfold timings in E. rewrite FW1 in E. destruct x1 as [[m e] l]. unfold given. cbn [given put_word wild] in E |- *. unfold close_fact in E. rewrite FW1 in E.
    cbn [finish] in E |- *. injection E as <- <-. exists st1. split; reflexivity. }
  destruct E1 as (st1 & E1 & ES). replace (fresh h0 5) with (fresh h0 (count h0)) in E1 by (rewrite <- LC; reflexivity).
  destruct (object_chain ftol ttol fuel user kept same same_spec fuel_pos n0 sigma _ _ _ h0 st sigma o' st1
    (steps_cons _ _ _ _ _ _ _ _ _ _ _ _ M1 (steps_cons _ _ _ _ _ _ _ _ _ _ _ _ (given_ok ftol ttol fuel user kept fuel_pos n0 sigma 2 a LA)
      (steps_cons _ _ _ _ _ _ _ _ _ _ _ _ (given_ok ftol ttol fuel user kept fuel_pos n0 sigma 3 b LB)
      (steps_cons _ _ _ _ _ _ _ _ _ _ _ _ (wild_ok ftol ttol fuel user kept fuel_pos n0 sigma 4)
      (steps_cons _ _ _ _ _ _ _ _ _ _ _ _ (wild_ok ftol ttol fuel user kept fuel_pos n0 sigma 5) (steps_nil _ _ _ _ _ _)))))))
    as (s1 & ps & A1 & H1 & SY1 & W1 & B1 & RL & NR);
    [cbn [length] in LC |- *; congruence|exact E1|exact H|exact F|rewrite <- ES; exact LE|unfold n0; lia|intros y _; reflexivity|].
  inversion RL as [|? p ? ? R1 RA]; subst. inversion RA as [|? ? ? ? R2 RB]; subst. inversion RB as [|? ? ? ? R3 RC]; subst.
  inversion RC as [|? ? ? ? R4 RD]; subst. inversion RD as [|? ? ? ? R5 RE]; subst. inversion RE; subst.
  exists s1, p. split; [exact A1|]. split; [|split; [exact FW'|split; [exact W1|split; [exact SY1|split; [exact R1|]]]]].
  - unfold holds. rewrite ES. exact H1.
  - cbn [Bp_spec.subst]. rewrite KP. apply near_obj. exact NR.
Qed.

(** The first fact. *)
Lemma var_word : forall o i h ps a, says starts o (TObj h ps) -> nth_error ps i = Some (TVar a) -> place (word o (S i)) = a.
Proof.
  intros o i h ps a SY N. destruct (part_of _ _ _ _ _ SY N) as (tr & S1 & M1). inversion M1; subst. inversion S1; subst. reflexivity.
Qed.

Lemma first_spec : forall d o first st o' st' h t1 h2 w2 h3 w3 t4 t5 sigma,
  object d o false first st = Some (o', st') -> says starts o (TObj h [t1; TRaw h2 w2; TRaw h3 w3; t4; t5]) -> whole o ->
  plain (TObj h [t1; TRaw h2 w2; TRaw h3 w3; t4; t5]) -> asOpcode h = c_fact C \/ asOpcode h = c_antifact C ->
  holds st sigma -> fwd st = None -> no_fact C t1 -> fits o' -> length (entries st') <= limit ->
  exists p a b, says starts o' (TObj h [p; TVar a; TVar b; TAtom (Wildcard 0); TAtom (Wildcard 0)]) /\ pattern t1 p /\
    fwd st' = Some (a, b) /\ first_index st' = length (entries st).
Proof.
  intros d o first st o' st' h t1 h2 w2 h3 w3 t4 t5 sigma E SY W P HF H FW NF F LE.
  destruct (proj1 (abstract_ok ftol ttol fuel C user kept same same_spec fuel_pos DC d) o first st o' st' _ sigma E SY W P H F LE)
    as (s1 & p & A1 & H1 & SY1 & W1 & _ & T1 & N1).
  cbn [top] in T1. rewrite (fact_fates _ HF) in T1. destruct T1 as (ps & -> & PS).
  inversion PS as [|? ? p1 ? ? Q1 PS1| |]; subst. inversion PS1 as [|? ? p2 ? ? Q2 PS2| |]; subst. inversion PS2 as [|? ? p3 ? ? Q3 PS3| |]; subst.
  inversion PS3 as [| | |? ? ? ? PS4]; subst. inversion PS4 as [| | |? ? ? ? PS5]; subst. inversion PS5; subst.
  inversion Q2 as [|? ? a| | | | |]; subst. inversion Q3 as [|? ? b| | | | |]; subst.
  exists p1, a, b. split; [exact SY1|]. split; [exact Q1|].
  destruct d as [|d]; [discriminate E|]. destruct (says_count _ _ _ SY) as (HH & LC). rewrite HH in *. set (h0 := word o 0) in *.
  rewrite fact_eq in E by exact HF. fold h0 in E.
  cbn [Abs_spec.plain] in P. rewrite (fact_fates _ HF) in P. destruct P as (KP & _ & PF & _ & PA). cbn [fold_right] in PA. destruct PA as (P1 & P2 & P3 & _).
  assert (MQ : forall i t x st x' st', nth_error [t1; TRaw h2 w2; TRaw h3 w3; t4; t5] i = Some t -> plain t -> no_fact C t ->
    member d o (S i) x (S i) first st = Some (x', st') -> quiet st st').
  { intros i t x st0 x' st0' N PT NT E0. destruct (part_of _ _ _ _ _ SY N) as (tr & S1 & M1).
    eapply (proj2 (member_quiet ftol ttol fuel C user kept same same_spec fuel_pos d)); try eassumption. }
  assert (EO : open_fact st = mkst (entries st) (length (entries st)) None) by (unfold open_fact; rewrite FW; reflexivity).
  cbn [chain] in E. destruct (member d o 1 (fresh (AObject (asOpcode h0) 5) 5) 1 first (open_fact st)) as [[x1 st1]|] eqn:EM; [|discriminate E].
  pose proof (MQ 0 t1 _ _ _ _ eq_refl P1 NF EM) as (QA & QB). rewrite EO in QA, QB. cbn [first_index fwd] in QA, QB.
  unfold timings in E. rewrite QB in E. cbn [chain] in E.
  destruct (member d o 2 x1 2 first st1) as [[x2 st2]|] eqn:EM2; [|discriminate E].
  pose proof (MQ 1 _ _ _ _ _ eq_refl P2 Logic.I EM2) as (QA2 & QB2).
  destruct (member d o 3 x2 3 first st2) as [[x3 st3]|] eqn:EM3; [|discriminate E].
  pose proof (MQ 2 _ _ _ _ _ eq_refl P3 Logic.I EM3) as (QA3 & QB3).
  destruct x3 as [[m e] l]. cbn [wild put_word] in E. unfold close_fact in E. rewrite QB3, QB2, QB in E. cbn [finish] in E. injection E as E <-.
  cbn [fwd first_index]. split; [|congruence].
  pose proof (var_word _ 1 _ _ _ SY1 eq_refl) as V2. pose proof (var_word _ 2 _ _ _ SY1 eq_refl) as V3. rewrite <- E in V2, V3. cbn [word] in V2, V3.
  rewrite V2, V3. reflexivity.
Qed.

(** * The same value, the same variable *)
Lemma search_app : forall test es es' is, Forall (fun i => i < length es) is -> search test (es ++ es') is = search test es is.
Proof.
  intros test es es' is F; induction F as [|i is L F IH]; cbn [search]; [reflexivity|]. rewrite nth_error_app1 by exact L. rewrite IH. reflexivity.
Qed.
Lemma search_cut : forall test es is is', search test es (is ++ is') = match search test es is with Some i => Some i | None => search test es is' end.
Proof.
  intros test es is is'; induction is as [|i is IH]; cbn [search app]; [reflexivity|]. destruct (nth_error es i) as [e|]; [|exact IH].
  destruct (test e); [reflexivity|exact IH].
Qed.
Lemma seq_below : forall n m, n <= m -> Forall (fun i => i < m) (seq 0 n).
Proof. clear. intros n m L. apply Forall_forall. intros i I. apply in_seq in I. lia. Qed.
Lemma search_more : forall test es es' i, search test es (seq 0 (length es)) = Some i -> search test (es ++ es') (seq 0 (length (es ++ es'))) = Some i.
Proof.
  intros test es es' i E. rewrite app_length, seq_app, search_cut, search_app by (apply seq_below; apply le_n). rewrite E. reflexivity.
Qed.
Lemma found_again : forall test es e es' r, test e = true -> found (search test es (seq 0 (length es))) es e = r ->
  found (search test (snd r ++ es') (seq 0 (length (snd r ++ es')))) (snd r ++ es') e = (fst r, snd r ++ es').
Proof.
  intros test es e es' r T E. destruct (search test es (seq 0 (length es))) as [i|] eqn:S1; cbn [found] in E; subst r; cbn [fst snd].
  - rewrite (search_more _ _ _ _ S1). reflexivity.
  - assert (S2 : search test (es ++ [e]) (seq 0 (length (es ++ [e]))) = Some (length es)).
    { rewrite app_length, seq_app, search_cut, search_app, S1 by (apply seq_below; apply le_n). cbn [length seq search]. rewrite Nat.add_0_l, nth_error_app2, Nat.sub_diag by apply le_n.
      cbn [nth_error]. rewrite T. reflexivity. }
    rewrite (search_more _ _ _ _ S2). reflexivity.
Qed.
Lemma near_word_refl : forall a, near_word ftol a a = true.
Proof. intro a. unfold near_word. rewrite Z.eqb_refl. reflexivity. Qed.

Lemma atom_again : forall es a es', 
  get_atom_variable ftol (snd (get_atom_variable ftol es a) ++ es') a = (fst (get_atom_variable ftol es a), snd (get_atom_variable ftol es a) ++ es').
Proof. intros es a es'. apply (found_again (fun e => contains_atom ftol e a) es (EAtom a)); [apply near_word_refl|reflexivity]. Qed.
Lemma object_again : (forall o, same o o = true) -> forall es a es',
  get_object_variable same (snd (get_object_variable same es a) ++ es') a = (fst (get_object_variable same es a), snd (get_object_variable same es a) ++ es').
Proof. intros R es a es'. apply (found_again (fun e => contains_object same e a) es (EObj a)); [apply R|reflexivity]. Qed.

Lemma flat_same : forall src si src' si' t, flat_at src si t -> flat_at src' si' t -> forall k, k <= count (src si) -> src (si + k) = src' (si' + k).
Proof.
  clear. intros src si src' si' t (_ & _ & A) (_ & _ & B).
  assert (K : src si = src' si' /\ words src (si + 1) (count (src si)) = words src' (si' + 1) (count (src si))).
  { destruct (raw (src si)), (raw (src' si')); destruct A as (A & _); destruct B as (B & _); rewrite A in B; try discriminate B.
    - pose proof (f_equal (fun t => match t with TRaw h _ => h | _ => 0%Z end) B) as B1. pose proof (f_equal (fun t => match t with TRaw _ l => l | _ => [] end) B) as B2.
      cbv beta iota in B1, B2. rewrite <- B1 in B2. auto.
    - pose proof (f_equal (fun t => match t with TStr h _ => h | _ => 0%Z end) B) as B1. pose proof (f_equal (fun t => match t with TStr _ l => l | _ => [] end) B) as B2.
      cbv beta iota in B1, B2. rewrite <- B1 in B2. split; [exact B1|]. clear - B2.
      revert B2. generalize (words src (si + 1) (count (src si))) (words src' (si' + 1) (count (src si))). intros l; induction l as [|a l IH]; intros [|b l'] E; try discriminate; [reflexivity|].
      injection E as -> E. f_equal. apply IH. exact E. }
  destruct K as (K1 & K2). intros [|k] L; [rewrite !Nat.add_0_r; exact K1|].
  assert (Q : forall n m m' i j, words m i n = words m' j n -> forall k, k < n -> m (i + k) = m' (j + k)).
  { clear. induction n as [|n IH]; intros m m' i j E k L; [lia|]. rewrite !words_cons in E. injection E as E1 E2. destruct k as [|k]; [rewrite !Nat.add_0_r; exact E1|].
    replace (i + S k) with (S i + k) by lia. replace (j + S k) with (S j + k) by lia. apply IH; [exact E2|lia]. }
  replace (si + S k) with (si + 1 + k) by lia. replace (si' + S k) with (si' + 1 + k) by lia. eapply Q; [exact K2|lia].
Qed.

Lemma contains_same : forall x e u src si src' si' t, held x e u -> flat_at src si t -> flat_at src' si' t ->
  contains_structure ftol ttol e src si = contains_structure ftol ttol e src' si'.
Proof.
  intros x e u src si src' si' t H A B. pose proof (flat_same _ _ _ _ _ A B) as Q. clear A B.
  destruct e as [| |m n|]; [reflexivity|reflexivity| |reflexivity]. cbn [held contains_structure] in *. destruct H as (EN & _).
  pose proof (Q 0 ltac:(lia)) as Q0. rewrite !Nat.add_0_r in Q0. rewrite <- Q0.
  destruct (m 0%nat =? src si)%Z eqn:EH; [|reflexivity]. cbn [negb]. apply Z.eqb_eq in EH. rewrite EH in EN.
  destruct (getDescriptor (m 0%nat) =? TIMESTAMP)%Z eqn:ET.
  - assert (count (src si) = 2) as C2 by (rewrite <- EH; apply Z.eqb_eq in ET; unfold count, getAtomCount; cbv zeta; rewrite ET; reflexivity).
    unfold time_in. rewrite !Q by lia. reflexivity.
  - assert (X : forall (f g : nat -> bool) l, (forall k, In k l -> f k = g k) -> forallb f l = forallb g l).
    { clear. intros f g l H; induction l as [|a l IH]; [reflexivity|]. cbn [forallb]. rewrite H by (left; reflexivity). f_equal. apply IH. intros; apply H; right; assumption. }
    apply X. intros k I. apply in_seq in I. rewrite Q by lia. reflexivity.
Qed.

Hypothesis ttol_pos : (0 < ttol)%Z.
Lemma held_flat : forall x m n t, held x (EStruct m n) t -> flat_at m 0 t.
Proof. intros x m n t (_ & A & B & D). split; [exact A|]. split; [exact B|]. exact D. Qed.
Lemma contains_self : forall m n, contains_structure ftol ttol (EStruct m n) m 0 = true.
Proof.
  intros m n. cbn [contains_structure]. rewrite Z.eqb_refl. cbn [negb]. destruct (_ =? TIMESTAMP)%Z.
  - unfold Synchronous. rewrite Z.sub_diag. apply Z.ltb_lt. exact ttol_pos.
  - apply forallb_forall. intros i _. apply near_word_refl.
Qed.
Lemma search_ext : forall f g es is, (forall i e, nth_error es i = Some e -> f e = g e) -> search f es is = search g es is.
Proof.
  intros f g es is H; induction is as [|i is IH]; cbn [search]; [reflexivity|]. destruct (nth_error es i) as [e|] eqn:N; [|exact IH].
  rewrite (H i e N), IH. reflexivity.
Qed.

Lemma structure_zero : forall es src si, get_structure_variable ftol ttol fuel es src si 0 =
  match search (fun e => contains_structure ftol ttol e src si) es (seq 0 (length es)) with
  | Some i => Some (VLPointer (Z.of_nat i), es)
  | None => match copy_structure fuel src (fun _ => UndefinedAtom) 0 si with Some (m, n) => Some (found None es (EStruct m n)) | None => None end
  end.
Proof.
  intros es src si. unfold get_structure_variable. cbv zeta. destruct es as [|e es]; [reflexivity|].
  change ((0 <=? 0)%Z && (0 <? length (e :: es)))%bool with true. cbv iota.
  assert ((Z.of_nat (length (e :: es)) <? 0)%Z = false) as -> by (apply Z.ltb_ge; lia). change (Z.to_nat 0) with 0.
  change (0 =? length (e :: es)) with false. cbv iota. rewrite Nat.sub_0_r. cbn [seq]. rewrite app_nil_r. reflexivity.
Qed.

Lemma structure_again : forall es sigma src si src' si' t r es' s2, holds_es es sigma -> flat_at src si t -> flat_at src' si' t ->
  get_structure_variable ftol ttol fuel es src si 0 = Some r -> holds_es (snd r ++ es') s2 ->
  get_structure_variable ftol ttol fuel (snd r ++ es') src' si' 0 = Some (fst r, snd r ++ es').
Proof.
  intros es sigma src si src' si' t r es' s2 H A B E H2. rewrite structure_zero in E |- *.
  assert (X : forall i e, nth_error (snd r ++ es') i = Some e -> contains_structure ftol ttol e src' si' = contains_structure ftol ttol e src si).
  { intros i e N. specialize (H2 i). rewrite N in H2. symmetry. eapply contains_same; eassumption. }
  rewrite (search_ext _ (fun e => contains_structure ftol ttol e src si) _ _ X).
  destruct (search (fun e => contains_structure ftol ttol e src si) es (seq 0 (length es))) as [i|] eqn:SE.
  - injection E as <-. cbn [fst snd]. rewrite (search_more _ _ _ _ SE). reflexivity.
  - destruct (flat_copy fuel fuel_pos src si t A) as (m & n & EC & HE). rewrite EC in E. injection E as <-. cbn [found fst snd] in *.
    assert (S2 : search (fun e => contains_structure ftol ttol e src si) (es ++ [EStruct m n]) (seq 0 (length (es ++ [EStruct m n]))) = Some (length es)).
    { rewrite app_length, seq_app, search_cut, search_app, SE by (apply seq_below; apply le_n). cbn [length seq search].
      rewrite Nat.add_0_l, nth_error_app2, Nat.sub_diag by apply le_n. cbn [nth_error].
      rewrite (contains_same 0 _ t src si m 0 t (HE 0) A (held_flat _ _ _ _ (HE 0))), contains_self. reflexivity. }
    rewrite (search_more _ _ _ _ S2). reflexivity.
Qed.

Lemma value_flat : forall o i t, word_says o i t -> plain t -> is_value user t ->
  (exists a, t = TAtom a /\ word o i = a /\ getDescriptor a <> R_PTR /\ getDescriptor a <> I_PTR) \/
  (getDescriptor (word o i) = I_PTR /\ flat_at (word o) (place (word o i)) t /\
   user (asOpcode (word o (place (word o i)))) || negb ((getDescriptor (word o (place (word o i))) =? SET) || (getDescriptor (word o (place (word o i))) =? OBJECT))%Z = true).
Proof.
  intros o i t (tr & S0 & M) P V.
  inversion M as [? ? D|? v r trs ts D N Q S1 M1|? v D1 D2|? h ws|? h trs ts NH M1]; subst; cbn [is_value] in V; try contradiction.
  - left. inversion S0 as [? NI| |]; subst. eauto.
  - right. inversion S0 as [|? D Q RW A|]; subst. split; [exact D|]. split.
    + split; [apply raw_not_ptr; exact RW|]. split; [apply raw_not_vl; exact RW|]. rewrite RW. split; [reflexivity|exact P].
    + assert (NS : ((getDescriptor (word o (place (word o i))) =? SET) || (getDescriptor (word o (place (word o i))) =? OBJECT))%Z = false).
      { apply orb_false_iff. split; apply Z.eqb_neq; intro X; apply raw_desc in RW; rewrite X in RW; destruct RW as [Y|[Y|Y]]; discriminate Y. }
      rewrite NS. apply orb_true_r.
  - right. inversion S0 as [| |? ? D Q RW NP A F2]; subst. split; [exact D|]. cbn [Abs_spec.plain] in P. rewrite V in P. split.
    + split; [exact NP|]. split; [exact NH|]. rewrite RW.
      assert (S3 : Forall2 (shows anywhere anywhere (word o)) (words (word o) (place (word o i) + 1) (count (word o (place (word o i))))) trs).
      { revert F2. apply Forall2_weaken. intros a b. apply shows_weaken; intros; exact Logic.I. }
      destruct (atom_parts _ _ _ _ _ S3 M1 P) as (-> & PW). split; [reflexivity|exact PW].
    + unfold set_like in V. apply andb_false_iff in V. rewrite negb_false_iff in V. apply orb_true_iff. destruct V as [V|V]; [left; exact V|right].
      apply negb_true_iff. exact V.
Qed.

Lemma value_member : forall d o i t x w st x' st', word_says o i t -> plain t -> is_value user t -> member d o i x w 0 st = Some (x', st') ->
  (exists a, t = TAtom a /\ (x', st') = put_var x w st (get_atom_variable ftol (entries st) a)) \/
  (exists r, flat_at (word o) (place (word o i)) t /\ get_structure_variable ftol ttol fuel (entries st) (word o) (place (word o i)) 0 = Some r /\ (x', st') = put_var x w st r).
Proof.
  intros d o i t x w st x' st' WS P V E. destruct d as [|d]; [discriminate E|]. rewrite member_eq in E. cbv zeta in E.
  destruct (value_flat o i t WS P V) as [(a & -> & WA & D1 & D2)|(D & FL & U)].
  - left. exists a. split; [reflexivity|]. rewrite WA in E. apply Z.eqb_neq in D1, D2. rewrite D1, D2 in E. injection E as E1 E2. unfold put_var. congruence.
  - right. rewrite D in E. change (I_PTR =? R_PTR)%Z with false in E. rewrite Z.eqb_refl in E. cbv iota in E.
    destruct (get_structure_variable ftol ttol fuel (entries st) (word o) (place (word o i)) 0) as [r|] eqn:G.
    + exists r. split; [exact FL|]. split; [reflexivity|].
      destruct (user _); [injection E as E1 E2; unfold put_var; congruence|]. cbn [orb] in U. apply negb_true_iff in U. rewrite U in E.
      injection E as E1 E2; unfold put_var; congruence.
    + destruct (user _); [discriminate E|]. cbn [orb] in U. apply negb_true_iff in U. rewrite U in E. discriminate E.
Qed.

Lemma put_mem : forall x w v, mem_of (put_word x w v) w = v.
Proof. intros [[m e] l] w v. cbn. apply write_eq. Qed.

Lemma share_value : forall d o i x w st x1 st1 d' o' i' x2 w' st2 x3 st3 t sigma s2 es,
  word_says o i t -> word_says o' i' t -> plain t -> is_value user t -> holds st sigma ->
  member d o i x w 0 st = Some (x1, st1) ->
  entries st2 = entries st1 ++ es -> holds st2 s2 ->
  member d' o' i' x2 w' 0 st2 = Some (x3, st3) ->
  mem_of x3 w' = mem_of x1 w /\ entries st3 = entries st2.
Proof.
  intros d o i x w st x1 st1 d' o' i' x2 w' st2 x3 st3 t sigma s2 es WS WS' P V H E EE H2 E'.
  destruct (value_member _ _ _ _ _ _ _ _ _ WS P V E) as [(a & -> & E1)|(r & FL & G & E1)];
    destruct (value_member _ _ _ _ _ _ _ _ _ WS' P V E') as [(a' & T & E2)|(r' & FL' & G' & E2)].
  - injection T as <-. unfold put_var in E1, E2. injection E1 as -> ->. injection E2 as -> ->. rewrite !put_mem. cbn [with_entries entries] in *.
    rewrite EE, atom_again. split; reflexivity.
  - exfalso. destruct FL' as (_ & _ & FL'). destruct (raw _); destruct FL' as (X & _); discriminate X.
  - exfalso. subst t. destruct FL as (_ & _ & FL). destruct (raw _); destruct FL as (X & _); discriminate X.
  - unfold put_var in E1, E2. injection E1 as -> ->. injection E2 as -> ->. rewrite !put_mem. cbn [with_entries entries] in *.
    unfold holds in H2. rewrite EE in G', H2. rewrite (structure_again _ sigma _ _ _ _ t r es s2 H FL FL' G H2) in G'. injection G' as <-. cbn [fst snd]. split; [reflexivity|symmetry; exact EE].
Qed.

Lemma share_entity : (forall o, same o o = true) -> forall d o i x w first st x1 st1 d' o' i' x2 w' first' st2 x3 st3 r es,
  getDescriptor (word o i) = R_PTR -> nth_error (refs o) (place (word o i)) = Some r -> asOpcode (word r 0) = c_ent C ->
  getDescriptor (word o' i') = R_PTR -> nth_error (refs o') (place (word o' i')) = Some r ->
  member d o i x w first st = Some (x1, st1) -> entries st2 = entries st1 ++ es ->
  member d' o' i' x2 w' first' st2 = Some (x3, st3) ->
  mem_of x3 w' = mem_of x1 w /\ entries st3 = entries st2.
Proof.
  intros R d o i x w first st x1 st1 d' o' i' x2 w' first' st2 x3 st3 r es D N O D' N' E EE E'.
  assert (NE : (c_ent C =? c_ont C)%Z = false).
  { apply Z.eqb_neq. intro X. apply (proj1 (distinct_ne C DC)). symmetry. exact X. }
  destruct d as [|d]; [discriminate E|]. destruct d' as [|d']; [discriminate E'|]. rewrite member_eq in E, E'. cbv zeta in E, E'.
  rewrite D, N in E. rewrite D', N' in E'. rewrite Z.eqb_refl, O, NE, Z.eqb_refl in E, E'. unfold put_var in E, E'.
  injection E as <- <-. injection E' as <- <-. rewrite !put_mem. cbn [with_entries entries] in *. rewrite EE, object_again by exact R. split; reflexivity.
Qed.
End Abs.
