From Verif Require Import Base Float32 Atom_model Utils_model Bp_model Bp_spec Bp_proofs Bp2_proofs Bp3_proofs Abs_model Abs_spec.
Local Open Scope nat_scope.

(** * Meanings are unique *)
Lemma shows_det : forall m t w t', shows anywhere anywhere m w t -> shows anywhere anywhere m w t' -> t = t'.
Proof.
  intros m t; induction t as [x|h ws|h ts F] using tree_nested; intros w t' A B.
  - inversion A; subst. inversion B; subst; try contradiction; reflexivity.
  - inversion A as [|? D O R K|]; subst. inversion B as [|? D' O' R' K'|? ? D' O' R' N' K' F']; subst; try contradiction; [reflexivity|].
    rewrite R in R'; discriminate.
  - inversion A as [| |? ? D O R N K F2]; subst.
    inversion B as [|? D' O' R' K'|? ts' D' O' R' N' K' F']; subst; try contradiction; [rewrite R in R'; discriminate|].
    f_equal. clear - F F2 F'. revert ts' F'.
    induction F2 as [|a t l ts Ha Hl IH]; intros ts' F'; inversion F'; subst; [reflexivity|]. inversion F; subst. f_equal; eauto.
Qed.

Lemma shows_list_det : forall ok okr ok' okr' m ws ts ts', Forall2 (shows ok okr m) ws ts -> Forall2 (shows ok' okr' m) ws ts' -> ts = ts'.
Proof.
  intros ok okr ok' okr' m ws ts ts' A; revert ts'; induction A as [|a t l ts Ha Hl IH]; intros ts' B; inversion B; subst; [reflexivity|].
  f_equal; [|auto].
  apply (shows_det m t a); [apply (shows_weaken ok okr)|apply (shows_weaken ok' okr')]; try assumption; intros; exact Logic.I.
Qed.

Ltac clash :=
  match goal with
  | A : getDescriptor ?w = _, B : getDescriptor ?w = _ |- _ => rewrite A in B; discriminate B
  | |- _ => contradiction
  end.

Lemma means_det : forall l tr t, means free l tr t -> forall t', means free l tr t' -> t = t'.
Proof.
  apply (means_nested free (fun l tr t => forall t', means free l tr t' -> t = t')).
  - intros l w D t' M. inversion M; subst; try reflexivity; clash.
  - intros l w o tr ts D N _ S0 M IH t' M'. inversion M' as [|? ? o' tr' ts' D' N' _ S' M2| | |]; subst; try clash.
    rewrite N in N'. injection N' as <-. f_equal.
    assert (tr = tr') as <-.
    { eapply shows_list_det; eassumption. }
    clear - IH M2. revert ts' M2. induction IH as [|a t tr ts Ha Hl IH]; intros ts' M2; inversion M2; subst; [reflexivity|].
    f_equal; auto.
  - intros l w D1 D2 t' M. inversion M; subst; try reflexivity; clash.
  - intros l h ws t' M. inversion M; reflexivity.
  - intros l h tr ts N M IH t' M'. inversion M' as [| | | |? ? ? ts' N' M2]; subst. f_equal.
    clear - IH M2. revert ts' M2. induction IH as [|a t tr ts Ha Hl IH]; intros ts' M2; inversion M2; subst; [reflexivity|].
    f_equal; auto.
Qed.

Lemma says_det : forall o t t', says free o t -> says free o t' -> t = t'.
Proof.
  intros o t t' (tr & ts & -> & _ & S1 & M1) (tr' & ts' & -> & _ & S2 & M2). f_equal.
  assert (tr = tr') as <-.
  { eapply shows_list_det; eassumption. }
  clear - M1 M2. revert ts' M2. induction M1 as [|a t tr ts Ha Hl IH]; intros ts' M2; inversion M2; subst; [reflexivity|].
  f_equal; [eapply means_det; eassumption|auto].
Qed.

(** * Terms *)
Section TermInd.
Variable P : term -> Prop.
Hypothesis HV : forall x, P (TVar x).
Hypothesis HA : forall w, P (TAtom w).
Hypothesis HR : forall h ws, P (TRaw h ws).
Hypothesis HS : forall h ts, Forall P ts -> P (TStr h ts).
Hypothesis HO : forall h ts, Forall P ts -> P (TObj h ts).
Fixpoint term_nested (t : term) : P t :=
  let go := fix go l := match l return Forall P l with
                        | [] => Forall_nil P
                        | a :: l => Forall_cons a (term_nested a) (go l)
                        end in
  match t with
  | TVar x => HV x
  | TAtom w => HA w
  | TRaw h ws => HR h ws
  | TStr h ts => HS h ts (go ts)
  | TObj h ts => HO h ts (go ts)
  end.
End TermInd.

Lemma fold_all : forall A (P : A -> Prop) l, fold_right (fun t Q => P t /\ Q) True l <-> Forall P l.
Proof.
  intros A P l; induction l as [|a l IH]; cbn; [split; [constructor|trivial]|].
  rewrite IH. split; [intros [X Y]; constructor; assumption|intro X; inversion X; subst; split; assumption].
Qed.

(** Variables of a pattern, but in what is kept, are below a bound. *)
Fixpoint below (kept : Z -> bool) (n : nat) (t : term) : Prop :=
  match t with
  | TVar x => x < n
  | TAtom _ | TRaw _ _ => True
  | TStr h ts => fold_right (fun t P => below kept n t /\ P) True ts
  | TObj h ts => kept h = true \/ fold_right (fun t P => below kept n t /\ P) True ts
  end.

Lemma below_more : forall kept n n' t, n <= n' -> below kept n t -> below kept n' t.
Proof.
  intros kept n n' t L; induction t as [x|w|h ws|h ts F|h ts F] using term_nested; cbn; trivial; [lia| |].
  - rewrite !fold_all. rewrite !Forall_forall in *. intros H t I. apply F; auto.
  - rewrite !fold_all. rewrite !Forall_forall in *. intros [H|H]; [left; exact H|right]. intros t I. apply F; auto.
Qed.

Lemma closed_below : forall kept n t, closed kept t -> below kept n t.
Proof.
  intros kept n t; induction t as [x|w|h ws|h ts F|h ts F] using term_nested; cbn; trivial; [contradiction| |].
  - rewrite !fold_all. rewrite !Forall_forall in *. intros H t I. apply F; auto.
  - rewrite !fold_all. rewrite !Forall_forall in *. intros [H|H]; [left; exact H|right]. intros t I. apply F; auto.
Qed.

Lemma map_id_in : forall A (f : A -> A) l, Forall (fun x => f x = x) l -> map f l = l.
Proof. intros A f l F; induction F; cbn; congruence. Qed.

Lemma closed_subst : forall kept s t, closed kept t -> subst kept s t = t.
Proof.
  intros kept s t; induction t as [x|w|h ws|h ts F|h ts F] using term_nested; cbn; trivial; [contradiction| |].
  - rewrite fold_all, Forall_forall. rewrite Forall_forall in F. intro H. f_equal. apply map_id_in. rewrite Forall_forall. auto.
  - rewrite fold_all. destruct (kept h); [reflexivity|]. intros [H|H]; [discriminate|]. f_equal. apply map_id_in.
    rewrite Forall_forall in *. auto.
Qed.

Lemma subst_agree : forall kept s s' n t, below kept n t -> (forall y, y < n -> s y = s' y) -> subst kept s t = subst kept s' t.
Proof.
  intros kept s s' n t; induction t as [x|w|h ws|h ts F|h ts F] using term_nested; cbn; intros B A; trivial.
  - apply A; exact B.
  - rewrite fold_all in B. f_equal. apply map_ext_in. rewrite Forall_forall in *. auto.
  - rewrite fold_all in B. destruct (kept h); [reflexivity|]. destruct B as [B|B]; [discriminate|]. f_equal. apply map_ext_in.
    rewrite Forall_forall in *. auto.
Qed.

Lemma count_small : forall w, count w <= 255.
Proof.
  intro w. unfold count. assert (getAtomCount w <= 255)%Z as H; [|lia]. unfold getAtomCount. cbv zeta.
  assert (L : forall k, (Z.land k 255 <= 255)%Z).
  { intro k. change 255%Z with (Z.ones 8) at 1. rewrite Z.land_ones by lia. pose proof (Z.mod_pos_bound k (2 ^ 8) ltac:(lia)). lia. }
  repeat match goal with |- ((if ?b then _ else _) <= _)%Z => destruct b end; try apply L; try lia.
  replace (Z.land w 65280) with (Z.shiftl (Z.land (Z.shiftr w 8) 255) 8).
  - rewrite Z.shiftr_shiftl_l by lia. rewrite Z.shiftl_0_r. apply L.
  - rewrite Z.shiftl_land. change (Z.shiftl 255 8) with 65280%Z.
    apply Z.bits_inj'. intros n N. rewrite !Z.land_spec.
    destruct (Z.ltb_spec n 8) as [Q|Q].
    + assert (Z.testbit 65280 n = false) as ->.
      { assert (n = 0 \/ n = 1 \/ n = 2 \/ n = 3 \/ n = 4 \/ n = 5 \/ n = 6 \/ n = 7)%Z as X by lia.
        destruct X as [->|[->|[->|[->|[->|[->|[->| ->]]]]]]]; reflexivity. }
      rewrite !andb_false_r. reflexivity.
    + rewrite Z.shiftl_spec by lia. rewrite Z.shiftr_spec by lia. replace (n - 8 + 8)%Z with n by lia. reflexivity.
Qed.

(** * Growth: nothing is taken away *)
Definition ext (x : dest) : nat := snd (fst x).
Definition links (x : dest) : list obj := snd x.
Definition mem_of (x : dest) : mem := fst (fst x).

Definition grows (x : dest) (st : state) (x' : dest) (st' : state) : Prop :=
  ext x <= ext x' /\ (exists l, links x' = links x ++ l) /\ exists es, entries st' = entries st ++ es.

Lemma grows_refl : forall x st, grows x st x st.
Proof. intros x st; split; [lia|]. split; exists []; rewrite app_nil_r; reflexivity. Qed.
Lemma grows_trans : forall x st x1 st1 x2 st2, grows x st x1 st1 -> grows x1 st1 x2 st2 -> grows x st x2 st2.
Proof.
  intros x st x1 st1 x2 st2 (A & (l & L) & es & E) (A' & (l' & L') & es' & E'). split; [lia|].
  rewrite L', L, E', E. split; [exists (l ++ l')|exists (es ++ es')]; symmetry; apply app_assoc.
Qed.
Definition step : Type := dest -> state -> option (dest * state).
Definition growing (f : step) : Prop := forall x st x' st', f x st = Some (x', st') -> grows x st x' st'.

Lemma chain_grows : forall l, Forall growing l -> growing (chain l).
Proof.
  intros l F; induction F as [|f l Hf Hl IH]; intros x st x' st' E; cbn [chain] in E.
  - injection E as <- <-. apply grows_refl.
  - destruct (f x st) as [[x1 st1]|] eqn:E1; [|discriminate]. eapply grows_trans; [apply Hf; exact E1|apply IH; exact E].
Qed.
Lemma chain_app : forall l l' x st, chain (l ++ l') x st =
  match chain l x st with Some (x, st) => chain l' x st | None => None end.
Proof.
  induction l as [|f l IH]; intros l' x st; cbn [app chain]; [reflexivity|]. destruct (f x st) as [[x1 st1]|]; [apply IH|reflexivity].
Qed.

Lemma put_word_grows : forall x i w st es, grows x st (put_word x i w) (with_entries st (entries st ++ es)).
Proof. intros [[d e] l] i w st es. split; [cbn; lia|]. split; [exists []; symmetry; apply app_nil_r|exists es; reflexivity]. Qed.

Lemma found_grows : forall r es e v es', found r es e = (v, es') -> exists es2, es' = es ++ es2.
Proof. intros [i|] es e v es' E; injection E as _ <-; [exists []; symmetry; apply app_nil_r|exists [e]; reflexivity]. Qed.
