From Coq Require Import List ZArith Bool Arith Lia.
From Verif Require Import Gd_model Gd_spec.
Import ListNotations.

Section ExprInd.
Variable P : expr -> Prop.
Hypothesis HV : forall x, P (Var x).
Hypothesis HL : forall v, P (Lit v).
Hypothesis HO : forall f args, Forall P args -> P (Op f args).
Hypothesis HS : forall k args, Forall P args -> P (Str k args).

Fixpoint expr_nested (e : expr) : P e :=
  match e with
  | Var x => HV x
  | Lit v => HL v
  | Op f args =>
      HO f args ((fix go l := match l return Forall P l with
                              | [] => Forall_nil P
                              | a :: l => Forall_cons a (expr_nested a) (go l)
                              end) args)
  | Str k args =>
      HS k args ((fix go l := match l return Forall P l with
                              | [] => Forall_nil P
                              | a :: l => Forall_cons a (expr_nested a) (go l)
                              end) args)
  end.
End ExprInd.

Section G.
Variable ops : nat -> list val -> option val.
Variable first : nat.

Notation eval := (eval ops).
Notation denotes := (denotes ops).

Lemma all_some_iff : forall s args vs,
  Forall (fun e => forall v, eval s e = Some v <-> denotes s e v) args ->
  (all_some (map (eval s) args) = Some vs <-> Forall2 (denotes s) args vs).
Proof.
  intros s args; induction args as [|a args IH]; intros vs F; cbn.
  - split; intro H.
    + injection H as <-; constructor.
    + inversion H; reflexivity.
  - inversion F as [|? ? Fa Fl]; subst.
    split; intro H.
    + destruct (eval s a) eqn:E; [|discriminate].
      destruct (all_some (map (eval s) args)) eqn:E2; [|discriminate].
      injection H as <-. constructor; [apply Fa; reflexivity|apply IH; [exact Fl|reflexivity]].
    + inversion H as [|? ? ? ? D1 D2]; subst.
      apply Fa in D1; rewrite D1. apply (IH l' Fl) in D2; rewrite D2; reflexivity.
Qed.

Lemma eval_denotes : forall s e v, eval s e = Some v <-> denotes s e v.
Proof.
  intros s e; induction e as [x|w|f args F|k args F] using expr_nested; intro v; cbn.
  - split; intro H; [constructor; exact H|inversion H; assumption].
  - split; intro H; [injection H as <-; constructor|inversion H; reflexivity].
  - split; intro H.
    + destruct (all_some (map (eval s) args)) eqn:E; [|discriminate].
      apply (all_some_iff s args l F) in E. econstructor; eassumption.
    + inversion H as [| |? ? vs ? D O|]; subst.
      apply (all_some_iff s args vs F) in D. rewrite D; exact O.
  - split; intro H.
    + destruct (all_some (map (eval s) args)) eqn:E; [|discriminate].
      apply (all_some_iff s args l F) in E. injection H as <-. constructor; assumption.
    + inversion H as [| | |? ? vs D]; subst.
      apply (all_some_iff s args vs F) in D. rewrite D; reflexivity.
Qed.

(* Bindings only grow. *)
Definition below (s s' : env) : Prop := forall x v, s x = Some v -> s' x = Some v.

Lemma below_refl : forall s, below s s.
Proof. intros s x v H; exact H. Qed.

Lemma below_trans : forall a b c, below a b -> below b c -> below a c.
Proof. intros a b c H1 H2 x v H; apply H2, H1, H. Qed.

Lemma denotes_below : forall s s' e v, below s s' -> denotes s e v -> denotes s' e v.
Proof.
  intros s s' e; induction e as [x|w|f args F|k args F] using expr_nested; intros v B D.
  - inversion D; subst; constructor; apply B; assumption.
  - inversion D; subst; constructor.
  - inversion D as [| |? ? vs ? D2 O|]; subst. apply denotes_op with vs; [|exact O].
    clear D O. induction D2; constructor; inversion F; subst; auto.
  - inversion D as [| | |? ? vs D2]; subst. apply denotes_str.
    clear D. induction D2; constructor; inversion F; subst; auto.
Qed.

Lemma set_eq : forall s x v, set s x v x = Some v.
Proof. intros; unfold set; rewrite Nat.eqb_refl; reflexivity. Qed.

Lemma set_neq : forall s x y v, y <> x -> set s x v y = s y.
Proof. intros s x y v H; unfold set. apply Nat.eqb_neq in H; rewrite H; reflexivity. Qed.

Lemma below_set : forall s x v, s x = None -> below s (set s x v).
Proof.
  intros s x v N y w H. destruct (Nat.eq_dec y x) as [->|E]; [congruence|].
  rewrite set_neq; assumption.
Qed.

Lemma copied_ground : forall s e v, ground ops e -> eval s e = Some v -> copied ops s e = v.
Proof.
  intros s e; induction e as [x|w|f args F|k args F] using expr_nested; intros v G E.
  - inversion G.
  - cbn in E; injection E as <-; reflexivity.
  - inversion G as [|? ? H|]; subst.
    assert (one_word v) as N.
    { cbn in E. destruct (all_some (map (eval s) args)) as [vs|]; [|discriminate]. exact (H vs v E). }
    cbn [copied]. rewrite E. destruct v; cbn in N; try contradiction; reflexivity.
  - inversion G as [| |? ? Ga]; subst. cbn in E |- *.
    destruct (all_some (map (eval s) args)) as [vs|] eqn:Q; [|discriminate].
    injection E as <-. f_equal. clear G. revert vs Q.
    induction args as [|a args IH]; intros vs Q; cbn in Q |- *; [injection Q as <-; reflexivity|].
    inversion F as [|? ? F1 F2]; subst.
    destruct (eval s a) as [w|] eqn:Ea; [|discriminate].
    destruct (all_some (map (eval s) args)) as [ws|] eqn:Es; [|discriminate].
    injection Q as <-. f_equal.
    + apply F1; [apply Ga; left; reflexivity|reflexivity].
    + apply IH; [exact F2|intros c Hc; apply Ga; right; exact Hc|reflexivity].
Qed.

(* What a definite assignment gives. *)
Lemma assigned_definite : forall s e v, definite ops e -> eval s e = Some v ->
  assigned ops s e = Some v.
Proof.
  intros s e v D E. inversion D as [z|f args H|args G]; subst.
  - exact E.
  - assert (number_or_structure v) as N.
    { cbn in E. destruct (all_some (map (eval s) args)) as [vs|]; [|discriminate].
      exact (H vs v E). }
    cbn [assigned]. rewrite E. destruct v; cbn in N; try contradiction; reflexivity.
  - cbn [assigned]. f_equal. apply copied_ground; assumption.
Qed.

Lemma eval_assign : forall s x e, definite ops e ->
  eval_guard ops first s (Assign x e) =
  match eval s e with
  | Some v => Some (set s x v)
  | None => if counted_bound first s x then Some s else None
  end.
Proof.
  intros s x e D. cbn [eval_guard].
  assert (evaluates ops s e = match eval s e with Some _ => true | None => false end) as ->
    by (destruct e; try reflexivity; inversion D).
  destruct (eval s e) as [v|] eqn:E; [|reflexivity].
  rewrite (assigned_definite s e v D E). reflexivity.
Qed.

Lemma counted_given : forall s x, counted_bound first s x = true <-> given first s x.
Proof.
  intros s x; unfold counted_bound, given. rewrite orb_true_iff, Nat.ltb_lt.
  destruct (s x); split; intros [H|H]; auto; try discriminate; try (right; congruence); congruence.
Qed.

Lemma counted_false : forall s x, counted_bound first s x = false <-> ~ given first s x.
Proof.
  intros s x. rewrite <- counted_given. destruct (counted_bound first s x); split; congruence.
Qed.

(* Bindings change only at the targets. *)
Lemma guard_elsewhere : forall s g s' y,
  eval_guard ops first s g = Some s' -> ~ In y (targets [g]) -> s' y = s y.
Proof.
  intros s [e|x e] s' y E N; cbn in E.
  - destruct (eval s e) as [[]|]; try destruct b; congruence.
  - cbn in N. assert (y <> x) as Hn by (intros ->; apply N; left; reflexivity).
    destruct (evaluates ops s e).
    + destruct (assigned ops s e); injection E as <-; [apply set_neq; exact Hn|reflexivity].
    + destruct (counted_bound first s x); [injection E as <-; reflexivity|discriminate].
Qed.

Lemma targets_app : forall l1 l2, targets (l1 ++ l2) = targets l1 ++ targets l2.
Proof.
  induction l1 as [|[e|x e] l1 IH]; intro l2; cbn; [reflexivity|apply IH|rewrite IH; reflexivity].
Qed.

Lemma targets_cons : forall g l, targets (g :: l) = targets [g] ++ targets l.
Proof. intros [e|x e] l; reflexivity. Qed.

Lemma guards_elsewhere : forall gs s s' y,
  eval_guards ops first s gs = Some s' -> ~ In y (targets gs) -> s' y = s y.
Proof.
  induction gs as [|g gs IH]; intros s s' y E N; cbn [eval_guards] in E.
  - injection E as <-; reflexivity.
  - destruct (eval_guard ops first s g) as [s1|] eqn:E1; [|discriminate].
    rewrite targets_cons, in_app_iff in N.
    rewrite (IH s1 s' y E) by tauto. apply (guard_elsewhere s g); tauto.
Qed.

(* A bound variable stays bound. *)
Lemma guard_stays : forall s g s' y,
  eval_guard ops first s g = Some s' -> s y <> None -> s' y <> None.
Proof.
  intros s [e|x e] s' y E N; cbn in E.
  - destruct (eval s e) as [[]|]; try destruct b; congruence.
  - destruct (evaluates ops s e).
    + destruct (assigned ops s e); injection E as <-; [|exact N].
      destruct (Nat.eq_dec y x) as [->|D]; [rewrite set_eq; discriminate|rewrite set_neq; assumption].
    + destruct (counted_bound first s x); [injection E as <-; exact N|discriminate].
Qed.

Lemma guards_stay : forall gs s s' y,
  eval_guards ops first s gs = Some s' -> s y <> None -> s' y <> None.
Proof.
  induction gs as [|g gs IH]; intros s s' y E N; cbn [eval_guards] in E.
  - injection E as <-; exact N.
  - destruct (eval_guard ops first s g) as [s1|] eqn:E1; [|discriminate].
    apply (IH s1 s' y E). exact (guard_stays s g s1 y E1 N).
Qed.

(* Guards whose targets are fresh hold of the bindings they leave. *)
Lemma guards_satisfied : forall gs s s',
  eval_guards ops first s gs = Some s' ->
  NoDup (targets gs) -> (forall x, In x (targets gs) -> ~ given first s x) ->
  definite_assignments ops gs ->
  below s s' /\ forall g, In g gs -> satisfied ops s' g.
Proof.
  induction gs as [|g gs IH]; intros s s' E ND FR DA; cbn [eval_guards] in E.
  - injection E as <-. split; [apply below_refl|intros g []].
  - destruct (eval_guard ops first s g) as [s1|] eqn:E1; [|discriminate].
    assert (DA' : definite_assignments ops gs) by (intros x e I; apply (DA x e); right; exact I).
    destruct g as [e|x e].
    + cbn in ND, FR. cbn in E1.
      assert (exists v, eval s e = Some v /\ v <> VBool false /\ s1 = s) as (v & Ev & Nv & ->).
      { destruct (eval s e) as [v|]; [|discriminate].
        exists v. destruct v; try destruct b; try discriminate; injection E1 as <-; repeat split; discriminate. }
      destruct (IH s s' E ND FR DA') as [B S1]. split; [exact B|].
      intros g [<-|I]; [|apply S1; exact I].
      exists v. split; [|exact Nv]. apply (denotes_below s); [exact B|]. apply eval_denotes; exact Ev.
    + cbn in ND, FR. inversion ND as [|? ? NI ND']; subst.
      assert (~ given first s x) as NG by (apply FR; left; reflexivity).
      assert (definite ops e) as De by (apply (DA x e); left; reflexivity).
      rewrite (eval_assign s x e De) in E1.
      apply counted_false in NG as NC. rewrite NC in E1.
      destruct (eval s e) as [v|] eqn:Ev; [|discriminate].
      injection E1 as <-.
      assert (s x = None) as Nx.
      { destruct (s x) eqn:Q; [|reflexivity]. exfalso; apply NG; right; rewrite Q; discriminate. }
      destruct (IH (set s x v) s' E ND') as [B S1]; [|exact DA'|].
      { intros y Iy [Hl|Hn]; [exact (FR y (or_intror Iy) (or_introl Hl))|].
        assert (y <> x) as Hd by (intros ->; contradiction).
        rewrite set_neq in Hn by exact Hd. exact (FR y (or_intror Iy) (or_intror Hn)). }
      assert (below s s') as B0 by (apply (below_trans s (set s x v)); [apply below_set; exact Nx|exact B]).
      split; [exact B0|].
      intros g [<-|I]; [|apply S1; exact I].
      exists v. split; [apply (denotes_below s); [exact B0|apply eval_denotes; exact Ev]|].
      apply B, set_eq.
Qed.
End G.
