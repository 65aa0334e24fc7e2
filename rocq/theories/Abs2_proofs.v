From Verif Require Import Base Float32 Atom_model Utils_model Bp_model Bp_spec Bp_proofs Bp2_proofs Bp3_proofs Abs_model Abs_spec Abs_proofs.
Local Open Scope nat_scope.

Section Abs.
Variable ftol : spec_float.
Variable ttol : Z.
Variable fuel : nat.
Variable C : classes.
Variable user : Z -> bool.
Variable same : obj -> obj -> bool.

Local Notation object := (abstract_object ftol ttol fuel C user same).
Local Notation member := (abstract_member ftol ttol fuel C user same).

Lemma finish_inv : forall r o st, finish r = Some (o, st) -> exists x, r = Some (x, st) /\ o = Obj (mem_of x) (ext x) (links x).
Proof. intros [[[[d e] l] s]|] o st E; [|discriminate]. injection E as <- <-. exists (d, e, l). split; reflexivity. Qed.

Lemma wild_grows : forall i, growing (wild i).
Proof.
  intros i x st x' st' E. injection E as <- <-. destruct x as [[d e] l]. split; [cbn; lia|].
  split; exists []; symmetry; apply app_nil_r.
Qed.
Lemma keep_grows : forall o i, growing (keep o i).
Proof.
  intros o i x st x' st' E. injection E as <- <-. destruct x as [[d e] l]. split; [cbn; lia|].
  split; exists []; symmetry; apply app_nil_r.
Qed.
Lemma close_grows : growing close_fact.
Proof.
  intros x st x' st' E. unfold close_fact in E. destruct x as [[d e] l]. destruct (fwd st).
  - injection E as <- <-. apply grows_refl.
  - injection E as <- <-. split; [lia|]. split; exists []; symmetry; apply app_nil_r.
Qed.
Lemma timings_grows : forall m sync, growing (m 2) -> growing (m 3) -> growing (timings m sync).
Proof.
  intros m sync G2 G3 x st x' st' E. unfold timings in E.
  assert (K : chain [m 2; m 3] x st = Some (x', st') -> grows x st x' st').
  { apply chain_grows. repeat (constructor; try assumption). }
  destruct (fwd st) as [[a b]|]; [|exact (K E)]. destruct sync; [|exact (K E)].
  injection E as <- <-. destruct x as [[d e] l]. split; [cbn; lia|]. split; exists []; symmetry; apply app_nil_r.
Qed.
Lemma var_grows : forall x w st r, (exists es, snd r = entries st ++ es) -> grows x st (fst (put_var x w st r)) (snd (put_var x w st r)).
Proof.
  intros [[d e] l] w st [v es'] (es & E). cbn [snd fst] in E. subst es'. cbn. split; [cbn; lia|].
  split; [exists []; symmetry; apply app_nil_r|exists es; reflexivity].
Qed.
Lemma put_ref_grows : forall x w r st, grows x st (put_ref x w r) st.
Proof. intros [[d e] l] w r st. split; [cbn; lia|]. split; [exists [r]; reflexivity|exists []; symmetry; apply app_nil_r]. Qed.

Lemma atom_grows : forall es a, exists es2, snd (get_atom_variable ftol es a) = es ++ es2.
Proof.
  intros es a. unfold get_atom_variable. destruct (found _ es (EAtom a)) as [v es'] eqn:E. apply found_grows in E. exact E.
Qed.
Lemma object_grows : forall es o, exists es2, snd (get_object_variable same es o) = es ++ es2.
Proof.
  intros es o. unfold get_object_variable. destruct (found _ es (EObj o)) as [v es'] eqn:E. apply found_grows in E. exact E.
Qed.
Lemma structure_grows : forall es src si first r, get_structure_variable ftol ttol fuel es src si first = Some r -> exists es2, snd r = es ++ es2.
Proof.
  intros es src si first r E. unfold get_structure_variable in E. cbv zeta in E.
  assert (K : match copy_structure fuel src (fun _ => UndefinedAtom) 0 si with Some (m, n) => Some (found None es (EStruct m n)) | None => None end = Some r ->
              exists es2, snd r = es ++ es2).
  { clear E. destruct (copy_structure fuel src (fun _ => UndefinedAtom) 0 si) as [[m n]|]; [|discriminate].
    intro E. injection E as <-. exists [EStruct m n]. reflexivity. }
  destruct ((0 <=? first)%Z && (0 <? length es))%bool; [|exact (K E)].
  destruct (_ =? length es); [discriminate|]. destruct (search _ es _) as [i|]; [|exact (K E)].
  injection E as <-. exists []. symmetry; apply app_nil_r.
Qed.

Lemma object_eq : forall d o sync first st, object (S d) o sync first st =
  let h := word o 0 in
  let op := asOpcode h in
  let mb first i x st := member d o i x i first st in
  let fact c :=
    finish (chain [mb first 1; timings (mb first) sync; wild 4; wild 5; close_fact] (fresh (AObject c 5) 5) (open_fact st)) in
  if (op =? c_fact C)%Z then fact (c_fact C)
  else if (op =? c_antifact C)%Z then fact (c_antifact C)
  else if (op =? c_cmd C)%Z then finish (chain [keep o 1; mb 0%Z 2; wild 3] (fresh h 3) st)
  else if (op =? c_mkval C)%Z then finish (chain [mb 0%Z 1; mb 0%Z 2; mb 0%Z 3; wild 4] (fresh h 4) st)
  else if ((op =? c_imdl C) || (op =? c_icst C))%Z then
    finish (chain [mb 0%Z 1; mb 0%Z 2; mb (-1)%Z 3; wild 4; wild 5] (fresh h 5) st)
  else Some (o, st).
Proof. reflexivity. Qed.

Lemma member_eq : forall d o i x w first st, member (S d) o i x w first st =
  let a := word o i in
  let si := place a in
  if (getDescriptor a =? R_PTR)%Z then
    match nth_error (refs o) si with
    | None => None
    | Some r =>
        let op := asOpcode (word r 0) in
        if (op =? c_ont C)%Z then Some (put_ref x w r, st)
        else if (op =? c_ent C)%Z then Some (put_var x w st (get_object_variable same (entries st) r))
        else
          match object d r false first st with
          | Some (r', st) => Some (put_ref x w r', st)
          | None => None
          end
    end
  else if (getDescriptor a =? I_PTR)%Z then
    let h := word o si in
    if user (asOpcode h) then option_map (put_var x w st) (get_structure_variable ftol ttol fuel (entries st) (word o) si 0)
    else if ((getDescriptor h =? SET) || (getDescriptor h =? OBJECT))%Z then
      let '(m, e, l) := x in
      chain (map (fun j x st => member d o (si + j) x (e + j) first st) (seq 1 (count h)))
        (write (write m w (ptr e)) e h, e + count h + 1, l) st
    else option_map (put_var x w st) (get_structure_variable ftol ttol fuel (entries st) (word o) si first)
  else Some (put_var x w st (get_atom_variable ftol (entries st) a)).
Proof. reflexivity. Qed.

Definition more (st st' : state) : Prop := exists es, entries st' = entries st ++ es.

Lemma abstract_grows : forall d,
  (forall o sync first st o' st', object d o sync first st = Some (o', st') -> more st st') /\
  (forall o i w first, growing (fun x st => member d o i x w first st)).
Proof.
  induction d as [|d [IHo IHm]]; [split; intros; [discriminate|intros ? ? ? ? E; discriminate E]|]. split.
  - intros o sync first st o' st' E. rewrite object_eq in E. cbv zeta in E.
    assert (K : forall l x st0, Forall growing l -> entries st0 = entries st -> finish (chain l x st0) = Some (o', st') -> more st st').
    { intros l x st0 F E0 E1. apply finish_inv in E1. destruct E1 as (x1 & E1 & _). apply chain_grows in E1; [|exact F].
      destruct E1 as (_ & _ & es & E1). exists es. rewrite E1, E0. reflexivity. }
    assert (OP : entries (open_fact st) = entries st) by (unfold open_fact; destruct (fwd st); reflexivity).
    assert (G : forall f i, growing (fun x st => member d o i x i f st)) by (intros; apply IHm).
    repeat match type of E with (if ?b then _ else _) = _ => destruct b end;
      try (eapply K; [|exact OP|exact E]); try (eapply K; [|reflexivity|exact E]);
      try (repeat first [apply Forall_nil|apply Forall_cons]; try apply wild_grows; try apply keep_grows; try apply close_grows;
           try apply G; try (apply timings_grows; apply G)).
    injection E as <- <-. exists []. symmetry; apply app_nil_r.
  - intros o i w first x st x' st' E. rewrite member_eq in E. cbv zeta in E.
    assert (K : forall r, (exists es, snd r = entries st ++ es) -> Some (put_var x w st r) = Some (x', st') -> grows x st x' st').
    { intros r H E0. pose proof (var_grows x w st r H) as V. destruct (put_var x w st r) as [x1 st1]. injection E0 as <- <-. exact V. }
    destruct (getDescriptor (word o i) =? R_PTR)%Z.
    { destruct (nth_error (refs o) (place (word o i))) as [r|]; [|discriminate].
      destruct (asOpcode (word r 0%nat) =? c_ont C)%Z; [injection E as <- <-; apply put_ref_grows|].
      destruct (asOpcode (word r 0%nat) =? c_ent C)%Z; [exact (K _ (object_grows _ _) E)|].
      destruct (object d r false first st) as [[r' st1]|] eqn:E1; [|discriminate]. injection E as <- <-.
      apply IHo in E1. destruct E1 as (es & E1). destruct x as [[m e] l]. split; [cbn; lia|]. split; [exists [r']; reflexivity|exists es; exact E1]. }
    destruct (getDescriptor (word o i) =? I_PTR)%Z; [|exact (K _ (atom_grows _ _) E)].
    assert (KS : forall f, option_map (put_var x w st) (get_structure_variable ftol ttol fuel (entries st) (word o) (place (word o i)) f) = Some (x', st') ->
      grows x st x' st').
    { intros f E0. destruct (get_structure_variable ftol ttol fuel (entries st) (word o) (place (word o i)) f) as [r|] eqn:G; [|discriminate].
      apply structure_grows in G. exact (K r G E0). }
    destruct (user (asOpcode (word o (place (word o i))))); [exact (KS _ E)|].
    destruct ((getDescriptor (word o (place (word o i))) =? SET) || (getDescriptor (word o (place (word o i))) =? OBJECT))%Z; [|exact (KS _ E)].
    destruct x as [[m e] l]. apply chain_grows in E.
    + destruct E as (A & L & es). split; [cbn in A |- *; lia|]. split; assumption.
    + rewrite Forall_forall. intros f F. apply in_map_iff in F. destruct F as (j & <- & _). apply IHm.
Qed.

End Abs.

(** * Variables for values *)
Section Values.
Variable ftol : spec_float.
Variable ttol : Z.
Lemma search_some : forall test es is i, search test es is = Some i -> exists e, nth_error es i = Some e /\ test e = true.
Proof.
  intros test es is; induction is as [|j is IH]; intros i E; cbn [search] in E; [discriminate|].
  destruct (nth_error es j) as [e|] eqn:N; [|exact (IH i E)]. destruct (test e) eqn:T; [|exact (IH i E)].
  injection E as <-. exists e. split; assumption.
Qed.

Definition holds_es (es : list entry) (sigma : nat -> term) : Prop :=
  forall x, match nth_error es x with Some e => held x e (sigma x) | None => sigma x = TVar x end.
Definition agree (n : nat) (s s' : nat -> term) : Prop := forall y, y < n -> s y = s' y.

(** A value has a variable. *)
Definition got (es : list entry) (sigma : nat -> term) (r : Z * list entry) (t : term) : Prop :=
  exists x sigma', fst r = VLPointer (Z.of_nat x) /\ x < length (snd r) /\ holds_es (snd r) sigma' /\
    agree (length es) sigma sigma' /\ near ftol ttol (sigma' x) t.

Lemma got_old : forall es sigma i t, holds_es es sigma -> i < length es -> near ftol ttol (sigma i) t ->
  got es sigma (VLPointer (Z.of_nat i), es) t.
Proof. intros es sigma i t H L N. exists i, sigma. split; [reflexivity|]. split; [exact L|]. split; [exact H|]. split; [intros y _; reflexivity|exact N]. Qed.

Lemma got_new : forall es sigma e t t', holds_es es sigma -> held (length es) e t -> near ftol ttol t t' ->
  got es sigma (VLPointer (Z.of_nat (length es)), es ++ [e]) t'.
Proof.
  intros es sigma e t t' H HE N. exists (length es), (fun y => if y =? length es then t else sigma y).
  split; [reflexivity|]. split; [cbn [snd]; rewrite app_length; cbn; lia|]. split.
  - intro x. cbn [snd]. destruct (Nat.eqb_spec x (length es)) as [->|D].
    + rewrite nth_error_app2, Nat.sub_diag by lia. exact HE.
    + specialize (H x). destruct (Nat.ltb_spec x (length es)) as [L|L].
      * rewrite nth_error_app1 by exact L. exact H.
      * rewrite (proj2 (nth_error_None (es ++ [e]) x)) by (rewrite app_length; cbn; lia).
        rewrite (proj2 (nth_error_None es x)) in H by lia. exact H.
  - split; [intros y L; destruct (Nat.eqb_spec y (length es)); [lia|reflexivity]|]. rewrite Nat.eqb_refl. exact N.
Qed.

Lemma atom_got : forall es sigma a, holds_es es sigma -> plain_word a -> got es sigma (get_atom_variable ftol es a) (TAtom a).
Proof.
  intros es sigma a H P. unfold get_atom_variable, found.
  destruct (search _ es _) as [i|] eqn:S.
  - apply search_some in S. destruct S as (e & N & T). apply got_old; [exact H|apply nth_error_Some; rewrite N; discriminate|].
    specialize (H i). rewrite N in H. destruct e; try discriminate. destruct H as (-> & _). apply near_atom. exact T.
  - apply (got_new es sigma (EAtom a) (TAtom a)); [exact H|split; [reflexivity|exact P]|apply near_refl].
Qed.

Variable same : obj -> obj -> bool.
Hypothesis same_spec : forall a b, same a b = true -> a = b.

Lemma object_got : forall es sigma o t, holds_es es sigma -> says free o t -> got es sigma (get_object_variable same es o) t.
Proof.
  intros es sigma o t H SY. unfold get_object_variable, found.
  destruct (search _ es _) as [i|] eqn:S.
  - apply search_some in S. destruct S as (e & N & T). apply got_old; [exact H|apply nth_error_Some; rewrite N; discriminate|].
    specialize (H i). rewrite N in H. destruct e as [| | |p]; try discriminate. apply same_spec in T. subst p.
    rewrite (says_det o (sigma i) t H SY). apply near_refl.
  - apply (got_new es sigma (EObj o) t); [exact H|exact SY|apply near_refl].
Qed.

(** A structure in a code that can be held. *)
Definition flat_at (src : mem) (si : nat) (t : term) : Prop :=
  getDescriptor (src si) <> I_PTR /\ getDescriptor (src si) <> VL_PTR /\
  if raw (src si) then t = TRaw (src si) (words src (si + 1) (count (src si))) /\
                       Forall (fun w => getDescriptor w <> I_PTR) (words src (si + 1) (count (src si)))
  else t = TStr (src si) (map TAtom (words src (si + 1) (count (src si)))) /\ Forall plain_word (words src (si + 1) (count (src si))).

Lemma copy_words_flat : forall copy src si start n i dst e,
  (forall k, i <= k < i + n -> getDescriptor (src (si + k)) <> I_PTR) ->
  exists d, copy_words copy src si start i n dst e = Some (d, e) /\
    (forall k, i <= k < i + n -> d (start + k) = src (si + k)) /\
    (forall j, j < start + i \/ start + i + n <= j -> d j = dst j).
Proof.
  intros copy src si start; induction n as [|n IH]; intros i dst e F; cbn [copy_words].
  - exists dst. split; [reflexivity|]. split; [intros; lia|reflexivity].
  - assert (getDescriptor (src (si + i)) <> I_PTR) as N by (apply F; lia). apply Z.eqb_neq in N. rewrite N.
    destruct (IH (S i) (write dst (start + i) (src (si + i))) e) as (d & E & A & B); [intros; apply F; lia|].
    exists d. split; [exact E|]. split.
    + intros k K. destruct (Nat.eq_dec k i) as [->|D]; [|apply A; lia]. rewrite B by lia. apply write_eq.
    + intros j J. rewrite B by lia. apply write_neq. lia.
Qed.

Lemma words_in : forall (P : Z -> Prop) m i n, Forall P (words m i n) <-> forall k, i <= k < i + n -> P (m k).
Proof.
  intros P m i n; revert i; induction n as [|n IH]; intro i.
  - split; [intros; lia|constructor].
  - rewrite words_cons. split.
    + intros F k K. inversion F; subst. destruct (Nat.eq_dec k i) as [->|D]; [assumption|]. apply (proj1 (IH (S i))); [assumption|lia].
    + intro F. constructor; [apply F; lia|]. apply IH. intros k K. apply F; lia.
Qed.

Lemma words_shift : forall m m' i j n, (forall k, k < n -> m (i + k) = m' (j + k)) -> words m i n = words m' j n.
Proof.
  intros m m' i j n; revert i j; induction n as [|n IH]; intros i j H; [reflexivity|]. rewrite !words_cons. f_equal.
  - specialize (H 0 ltac:(lia)). rewrite !Nat.add_0_r in H. exact H.
  - apply IH. intros k K. specialize (H (S k) ltac:(lia)). replace (S i + k) with (i + S k) by lia.
    replace (S j + k) with (j + S k) by lia. exact H.
Qed.

Variable fuel : nat.
Hypothesis fuel_pos : 0 < fuel.

Lemma flat_copy : forall src si t, flat_at src si t ->
  exists m n, copy_structure fuel src (fun _ => UndefinedAtom) 0 si = Some (m, n) /\ forall x, held x (EStruct m n) t.
Proof.
  intros src si t (N1 & N2 & F). pose proof fuel_pos as FP. revert FP. generalize fuel as fu. intros [|f] FP; [lia|]. cbn [copy_structure].
  assert (G : forall k, 0 <= k < 0 + (1 + count (src si)) -> getDescriptor (src (si + k)) <> I_PTR).
  { intros [|k] K; [rewrite Nat.add_0_r; exact N1|].
    destruct (raw (src si)); destruct F as (_ & F); [|]; rewrite words_in in F; specialize (F (si + S k) ltac:(lia)); [exact F|].
    destruct F as (_ & F & _). exact F. }
  destruct (copy_words_flat (copy_structure f src) src si 0 (1 + count (src si)) 0 (fun _ => UndefinedAtom) (0 + (1 + count (src si))) G) as (d & E & A & _).
  exists d, (0 + (1 + count (src si))). split; [exact E|]. intro x. cbn [held].
  assert (d 0 = src si) as D0 by (specialize (A 0 ltac:(lia)); rewrite !Nat.add_0_r in A; exact A).
  assert (words d 1 (count (src si)) = words src (si + 1) (count (src si))) as W.
  { apply words_shift. intros k K. specialize (A (S k) ltac:(lia)). replace (si + 1 + k) with (si + S k) by lia. exact A. }
  rewrite D0. split; [lia|]. split; [exact N1|]. split; [exact N2|]. rewrite W. exact F.
Qed.

Lemma contains_near : forall x e src si t u, held x e t -> flat_at src si u -> contains_structure ftol ttol e src si = true -> near ftol ttol t u.
Proof.
  intros x e src si t u H (N1 & N2 & F) E. destruct e as [| |m n|]; [discriminate E|discriminate E| |discriminate E]. cbn [contains_structure held] in *.
  destruct (m 0%nat =? src si)%Z eqn:EH; [|discriminate]. apply Z.eqb_eq in EH. cbn [negb] in E.
  destruct H as (EN & _ & _ & H). rewrite EH in *.
  destruct (getDescriptor (src si) =? TIMESTAMP)%Z eqn:ET.
  - assert (raw (src si) = true) as R by (unfold raw; cbv zeta; rewrite ET; reflexivity).
    rewrite R in *. destruct H as (-> & _). destruct F as (-> & _).
    assert (count (src si) = 2) as C2.
    { apply Z.eqb_eq in ET. unfold count, getAtomCount. cbv zeta. rewrite ET. reflexivity. }
    rewrite C2. cbn [words seq map]. apply near_time; [apply Z.eqb_eq; exact ET|].
    unfold time_in in E. replace (S (si + 1)) with (si + 2) by lia. exact E.
  - assert (Forall2 (fun a b => near_word ftol a b = true) (words m 1 (count (src si))) (words src (si + 1) (count (src si)))) as W.
    { rewrite forallb_forall in E. replace (n - 1) with (count (src si)) in E by lia. clear - E.
      assert (forall k, k < count (src si) -> near_word ftol (m (1 + k)) (src (si + 1 + k)) = true) as E1.
      { intros k K. replace (si + 1 + k) with (si + (1 + k)) by lia. apply E. apply in_seq. lia. }
      clear E. revert E1. generalize (count (src si)) as n. intro n. generalize (si + 1) as j. generalize 1 as i.
      induction n as [|n IH]; intros i j E; [constructor|]. rewrite !words_cons. constructor.
      - specialize (E 0 ltac:(lia)). rewrite !Nat.add_0_r in E. exact E.
      - apply IH. intros k K. specialize (E (S k) ltac:(lia)). replace (S i + k) with (i + S k) by lia.
        replace (S j + k) with (j + S k) by lia. exact E. }
    destruct (raw (src si)).
    + destruct H as (-> & _). destruct F as (-> & _). apply near_words. exact W.
    + destruct H as (-> & _). destruct F as (-> & _). apply near_str. clear - W.
      induction W; cbn [map]; constructor; [apply near_atom; assumption|assumption].
Qed.

Lemma structure_got : forall es sigma src si first r t, holds_es es sigma -> flat_at src si t ->
  get_structure_variable ftol ttol fuel es src si first = Some r -> got es sigma r t.
Proof.
  intros es sigma src si first r t H F E. unfold get_structure_variable in E. cbv zeta in E.
  destruct (flat_copy src si t F) as (m & n & EC & HE). rewrite EC in E.
  assert (K : Some (found None es (EStruct m n)) = Some r -> got es sigma r t).
  { intro E0. injection E0 as <-. apply (got_new es sigma (EStruct m n) t); [exact H|apply HE|apply near_refl]. }
  destruct ((0 <=? first)%Z && (0 <? length es))%bool; [|exact (K E)].
  destruct (_ =? length es); [discriminate|]. destruct (search _ es _) as [i|] eqn:S; [|exact (K E)].
  injection E as <-. apply search_some in S. destruct S as (e & N & T).
  apply got_old; [exact H|apply nth_error_Some; rewrite N; discriminate|]. specialize (H i). rewrite N in H.
  exact (contains_near i e src si (sigma i) t H F T).
Qed.
End Values.
