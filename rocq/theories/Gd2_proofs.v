From Coq Require Import List ZArith Bool Arith Lia.
From Verif Require Import Gd_model Gd_spec Gd_proofs.
Import ListNotations.

(* First assignments. *)
Lemma first_assign_some : forall gs x i j e,
  first_assign gs x i = Some (j, e) ->
  exists l1 l2, gs = l1 ++ Assign x e :: l2 /\ ~ In x (targets l1) /\ j = i + length l1.
Proof.
  induction gs as [|[e0|y e0] gs IH]; intros x i j e H; cbn in H.
  - discriminate.
  - destruct (IH x (S i) j e H) as (l1 & l2 & -> & N & ->).
    exists (Test e0 :: l1), l2. repeat split; [exact N|cbn; lia].
  - destruct (Nat.eqb y x) eqn:E.
    + apply Nat.eqb_eq in E; subst. injection H as <- <-.
      exists [], gs. repeat split; [intros []|cbn; lia].
    + apply Nat.eqb_neq in E.
      destruct (IH x (S i) j e H) as (l1 & l2 & -> & N & ->).
      exists (Assign y e0 :: l1), l2. repeat split; [intros [Q|Q]; contradiction|cbn; lia].
Qed.

Lemma first_assign_at : forall l1 l2 x e i,
  ~ In x (targets l1) ->
  first_assign (l1 ++ Assign x e :: l2) x i = Some (i + length l1, e).
Proof.
  induction l1 as [|[e0|y e0] l1 IH]; intros l2 x e i N; cbn.
  - rewrite Nat.eqb_refl. f_equal; f_equal; lia.
  - rewrite IH by exact N. f_equal; f_equal; lia.
  - cbn in N. assert (y <> x) as D by tauto. apply Nat.eqb_neq in D; rewrite D.
    rewrite IH by tauto. f_equal; f_equal; lia.
Qed.

Lemma in_targets : forall gs x, In x (targets gs) ->
  exists l1 e l2, gs = l1 ++ Assign x e :: l2 /\ ~ In x (targets l1).
Proof.
  induction gs as [|[e0|y e0] gs IH]; intros x H; cbn in H.
  - destruct H.
  - destruct (IH x H) as (l1 & e & l2 & -> & N). exists (Test e0 :: l1), e, l2. split; [reflexivity|exact N].
  - destruct (Nat.eq_dec y x) as [->|D].
    + exists [], e0, gs. split; [reflexivity|intros []].
    + destruct H as [H|H]; [contradiction|].
      destruct (IH x H) as (l1 & e & l2 & -> & N).
      exists (Assign y e0 :: l1), e, l2. split; [reflexivity|]. intros [Q|Q]; contradiction.
Qed.

Lemma first_for_targets : forall gs x e, first_for gs x e -> In x (targets gs).
Proof.
  intros gs x e (l1 & l2 & -> & _). rewrite targets_app, in_app_iff. right; left; reflexivity.
Qed.

Lemma first_for_unique : forall gs x e e', first_for gs x e -> first_for gs x e' -> e = e'.
Proof.
  intros gs x e e' (l1 & l2 & E & N) (m1 & m2 & E' & N').
  pose proof (first_assign_at l1 l2 x e 0 N) as A.
  pose proof (first_assign_at m1 m2 x e' 0 N') as A'.
  rewrite <- E in A. rewrite <- E' in A'. congruence.
Qed.

(* Scanning an expression. *)
Lemma scan_location_true : forall var e,
  scan_location var e = Some true <-> (forall y, operand y e -> var y = Some true).
Proof.
  intros var e; induction e as [x|w|f args F|k args F] using expr_nested; cbn.
  - split; [intros H y O; inversion O; subst; exact H|intro H; apply H; constructor].
  - split; [intros _ y O; inversion O|reflexivity].
  - split.
    + intros H y O. inversion O as [|? ? a I Oa]; subst. clear O.
      induction args as [|b args IH]; [destruct I|].
      inversion F; subst. cbn in H.
      destruct (scan_location var b) as [[]|] eqn:E; try discriminate.
      destruct I as [->|I]; [apply H2; [reflexivity|exact Oa]|apply IH; assumption].
    + intro H. induction args as [|b args IH]; [reflexivity|].
      inversion F; subst. cbn.
      rewrite (proj2 H2). { apply IH; [assumption|]. intros y O; apply H; inversion O; subst.
        econstructor; [right; eassumption|assumption]. }
      intros y O; apply H. econstructor; [left; reflexivity|exact O].
  - split; [intros _ y O; inversion O|reflexivity].
Qed.

Lemma scan_location_le : forall (var var' : nat -> option bool) e b,
  (forall y c, var y = Some c -> var' y = Some c) ->
  scan_location var e = Some b -> scan_location var' e = Some b.
Proof.
  intros var var' e b M; revert b; induction e as [x|w|f args F|k args F] using expr_nested; cbn; intros b H.
  - apply M, H.
  - exact H.
  - induction args as [|a args IH]; [exact H|].
    inversion F; subst. cbn in *.
    destruct (scan_location var a) as [c|] eqn:E; [|discriminate].
    rewrite (H2 c eq_refl). destruct c; [apply IH; assumption|exact H].
  - exact H.
Qed.

Lemma scan_location_ends : forall (var : nat -> option bool) e,
  (forall y, operand y e -> var y <> None) -> scan_location var e <> None.
Proof.
  intros var e; induction e as [x|w|f args F|k args F] using expr_nested; cbn; intros H.
  - apply H; constructor.
  - discriminate.
  - induction args as [|a args IH]; [discriminate|].
    inversion F; subst. cbn.
    assert (scan_location var a <> None) as N.
    { apply H2. intros y O; apply H; econstructor; [left; reflexivity|exact O]. }
    destruct (scan_location var a) as [[]|]; [|discriminate|congruence].
    apply IH; [assumption|]. intros y O; apply H; inversion O; subst.
    econstructor; [right; eassumption|assumption].
  - discriminate.
Qed.

(* The same for a family of answers that settle. *)
Lemma scan_location_settles : forall (var : nat -> nat -> option bool) e,
  (forall y, operand y e -> exists n0, forall n, n0 <= n -> var n y = Some true) ->
  exists n0, forall n, n0 <= n -> scan_location (var n) e = Some true.
Proof.
  intros var e H.
  assert (exists n0, forall n, n0 <= n -> forall y, operand y e -> var n y = Some true) as (n0 & Hn).
  { induction e as [x|w|f args F|k args F] using expr_nested.
    - destruct (H x (operand_var x)) as (n0 & Hn). exists n0. intros n L y O. inversion O; subst. apply Hn, L.
    - exists 0. intros n L y O; inversion O.
    - induction args as [|a args IH].
      + exists 0. intros n L y O; inversion O as [|? ? ? I0 ?]; destruct I0.
      + inversion F as [|? ? F1 F2]; subst.
        destruct F1 as (n1 & N1).
        { intros y O; apply H; econstructor; [left; reflexivity|exact O]. }
        destruct (IH F2) as (n2 & N2).
        { intros y O; apply H; inversion O; subst. econstructor; [right; eassumption|assumption]. }
        exists (Nat.max n1 n2). intros n L y O. inversion O as [|? ? b I Ob]; subst.
        destruct I as [->|I]; [apply N1; [lia|exact Ob]|].
        apply N2; [lia|]. econstructor; eassumption.
    - exists 0. intros n L y O; inversion O. }
  exists n0. intros n L. apply scan_location_true. apply Hn, L.
Qed.

Section Scan.
Variable first : nat.
Variable s : env.
Variable gs : list guard.

Notation given := (given first s).
Notation obtainable := (obtainable first s gs).
Notation sv := (scan_variable first s gs).

Lemma scan_variable_eq : forall n parent x,
  sv n parent x =
  if counted_bound first s x then Some true else
  match first_assign gs x 1 with
  | None => Some false
  | Some (j, e) =>
      if Nat.eqb j parent then Some false
      else match n with
           | O => None
           | S n => scan_location (sv n j) e
           end
  end.
Proof. intros [|n] parent x; reflexivity. Qed.

Lemma scan_variable_le : forall n m parent x b,
  n <= m -> sv n parent x = Some b -> sv m parent x = Some b.
Proof.
  induction n as [|n IH]; intros m parent x b L H; rewrite scan_variable_eq in *;
    destruct (counted_bound first s x); try exact H;
    destruct (first_assign gs x 1) as [[j e]|]; try exact H;
    destruct (Nat.eqb j parent); try exact H; try discriminate.
  destruct m as [|m]; [lia|].
  apply (scan_location_le (sv n j)); [|exact H].
  intros y c Hc. apply IH; [lia|exact Hc].
Qed.

Lemma scan_variable_true : forall n parent x, sv n parent x = Some true -> obtainable x.
Proof.
  induction n as [|n IH]; intros parent x H; rewrite scan_variable_eq in H.
  - destruct (counted_bound first s x) eqn:C.
    + apply obtainable_given, counted_given, C.
    + destruct (first_assign gs x 1) as [[j e]|]; [|discriminate].
      destruct (Nat.eqb j parent); discriminate.
  - destruct (counted_bound first s x) eqn:C.
    + apply obtainable_given, counted_given, C.
    + destruct (first_assign gs x 1) as [[j e]|] eqn:F; [|discriminate].
      destruct (Nat.eqb j parent); [discriminate|].
      apply first_assign_some in F as (l1 & l2 & E & N & _).
      apply obtainable_assigned with e; [exists l1, l2; split; assumption|].
      intros y O. apply (IH j y). exact (proj1 (scan_location_true _ _) H y O).
Qed.

Lemma self_not : forall x e, first_for gs x e -> operand x e -> ~ given x -> ~ obtainable x.
Proof.
  intros x e F O NG H. revert e F O NG.
  induction H as [x G|x e' F' H IH]; intros e F O NG; [contradiction|].
  rewrite (first_for_unique gs x e' e F' F) in *.
  exact (IH x O e F O NG).
Qed.

(* The place of the first assignment. *)
Definition place_of (x j : nat) : Prop :=
  exists l1 e l2, gs = l1 ++ Assign x e :: l2 /\ ~ In x (targets l1) /\ j = S (length l1).

Lemma place_same : forall x y j, place_of x j -> place_of y j -> x = y.
Proof.
  intros x y j (l1 & e & l2 & E & _ & J) (m1 & e' & m2 & E' & _ & J').
  assert (length l1 = length m1) as L by lia. rewrite E in E'.
  assert (nth_error (l1 ++ Assign x e :: l2) (length l1) = Some (Assign x e)) as A
    by (rewrite nth_error_app2, Nat.sub_diag; [reflexivity|lia]).
  rewrite E', L in A. rewrite nth_error_app2, Nat.sub_diag in A by lia. cbn in A. congruence.
Qed.

Lemma obtainable_scanned : forall x, obtainable x ->
  forall parent, (~ given x -> ~ place_of x parent) ->
  exists n0, forall n, n0 <= n -> sv n parent x = Some true.
Proof.
  intros x H; induction H as [x G|x e F H IH]; intros parent NP.
  - exists 0. intros n _. rewrite scan_variable_eq. apply counted_given in G; rewrite G; reflexivity.
  - destruct (counted_bound first s x) eqn:C.
    { exists 0. intros n _. rewrite scan_variable_eq, C; reflexivity. }
    assert (~ given x) as NG by (apply counted_false; exact C).
    destruct F as (l1 & l2 & E & N).
    assert (first_for gs x e) as FF by (exists l1, l2; split; assumption).
    assert (PX : place_of x (S (length l1))).
    { exists l1, e, l2. repeat split; assumption. }
    destruct (scan_location_settles (fun n => sv n (S (length l1))) e) as (n0 & Hn).
    { intros y O. apply (IH y O). intros NGy PY.
      assert (y = x) as -> by (apply (place_same y x (S (length l1))); assumption).
      apply (self_not x e FF O NG). apply obtainable_assigned with e; [exact FF|exact H]. }
    exists (S n0). intros [|n] L; [lia|].
    rewrite scan_variable_eq, C.
    rewrite E at 1. rewrite (first_assign_at l1 l2 x e 1 N). cbn [Nat.add].
    destruct (Nat.eqb (S (length l1)) parent) eqn:Q.
    + apply Nat.eqb_eq in Q; subst parent. exfalso; exact (NP NG PX).
    + apply Hn; lia.
Qed.

(* The whole set. *)
Lemma scan_from_true : forall n l i,
  scan_from first s gs n l i = Some true ->
  forall g, In g l ->
  match g with
  | Test e => forall y, operand y e -> obtainable y
  | Assign x e => given x \/ forall y, operand y e -> obtainable y
  end.
Proof.
  intros n l; induction l as [|g0 l IH]; intros i H g I; [destruct I|].
  destruct g0 as [e|x e]; cbn in H.
  - destruct (scan_location (sv n i) e) as [[]|] eqn:Q; try discriminate.
    destruct I as [<-|I]; [|apply (IH (S i) H g I)].
    intros y O. apply (scan_variable_true n i y). exact (proj1 (scan_location_true _ _) Q y O).
  - destruct (scan_location (sv n i) e) as [[]|] eqn:Q; try discriminate.
    + destruct I as [<-|I]; [|apply (IH (S i) H g I)].
      right. intros y O. apply (scan_variable_true n i y). exact (proj1 (scan_location_true _ _) Q y O).
    + destruct (counted_bound first s x) eqn:C; [|discriminate].
      destruct I as [<-|I]; [|apply (IH (S i) H g I)].
      left. apply counted_given, C.
Qed.

Lemma scan_true_obtainable : forall n,
  scan_guards first s n gs = Some true -> operands_obtainable first s gs.
Proof. intros n H g I. exact (scan_from_true n gs 1 H g I). Qed.

(* Ends, if ranked. *)
Lemma ranked_variable : forall r, ranked first s gs r ->
  forall k x, r x < k -> forall parent n, k <= n -> sv n parent x <> None.
Proof.
  intros r R; induction k as [|k IH]; intros x L parent n Ln; [lia|].
  rewrite scan_variable_eq. destruct (counted_bound first s x) eqn:C; [discriminate|].
  destruct (first_assign gs x 1) as [[j e]|] eqn:F; [|discriminate].
  destruct (Nat.eqb j parent); [discriminate|].
  destruct n as [|n]; [lia|].
  apply scan_location_ends. intros y O.
  destruct (counted_bound first s y) eqn:Cy.
  - rewrite scan_variable_eq, Cy; discriminate.
  - apply IH; [|lia].
    apply first_assign_some in F as (l1 & l2 & E & N & _).
    assert (r y < r x); [|lia].
    apply (R x e y); [exists l1, l2; split; assumption|exact O| |]; apply counted_false; assumption.
Qed.

Lemma scan_from_ends : forall n l i,
  (forall parent x, sv n parent x <> None) -> scan_from first s gs n l i <> None.
Proof.
  intros n l; induction l as [|[e|x e] l IH]; intros i H; cbn.
  - discriminate.
  - assert (scan_location (sv n i) e <> None) as N by (apply scan_location_ends; intros; apply H).
    destruct (scan_location (sv n i) e) as [[]|]; [apply IH, H|discriminate|congruence].
  - assert (scan_location (sv n i) e <> None) as N by (apply scan_location_ends; intros; apply H).
    destruct (scan_location (sv n i) e) as [[]|]; [apply IH, H| |congruence].
    destruct (counted_bound first s x); [apply IH, H|discriminate].
Qed.

Lemma scan_from_le : forall n m l i b, n <= m ->
  scan_from first s gs n l i = Some b -> scan_from first s gs m l i = Some b.
Proof.
  intros n m l; induction l as [|[e|x e] l IH]; intros i b L H; cbn in *.
  - exact H.
  - destruct (scan_location (sv n i) e) as [c|] eqn:Q; [|discriminate].
    rewrite (scan_location_le (sv n i) (sv m i) e c); [|intros y d; apply scan_variable_le; exact L|exact Q].
    destruct c; [apply IH; assumption|exact H].
  - destruct (scan_location (sv n i) e) as [c|] eqn:Q; [|discriminate].
    rewrite (scan_location_le (sv n i) (sv m i) e c); [|intros y d; apply scan_variable_le; exact L|exact Q].
    destruct c; [apply IH; assumption|].
    destruct (counted_bound first s x); [apply IH; assumption|exact H].
Qed.

(* A bound for the ranks of the variables assigned. *)
Lemma rank_bound : forall (r : nat -> nat) l, exists k, forall x, In x l -> r x < k.
Proof.
  intros r l; induction l as [|a l (k & IH)]; [exists 0; intros x []|].
  exists (Nat.max (S (r a)) k). intros x [<-|I]; [lia|]. specialize (IH x I); lia.
Qed.

Lemma ranked_all : forall r, ranked first s gs r ->
  exists n0, forall n, n0 <= n -> forall parent x, sv n parent x <> None.
Proof.
  intros r R. destruct (rank_bound r (targets gs)) as (k & K).
  exists k. intros n L parent x.
  destruct (in_dec Nat.eq_dec x (targets gs)) as [I|NI].
  - apply (ranked_variable r R k); [apply K; exact I|exact L].
  - rewrite scan_variable_eq. destruct (counted_bound first s x); [discriminate|].
    destruct (first_assign gs x 1) as [[j e]|] eqn:F; [|discriminate].
    apply first_assign_some in F as (l1 & l2 & E & _ & _). exfalso; apply NI.
    rewrite E, targets_app, in_app_iff. right; left; reflexivity.
Qed.

Lemma scan_ends : forall r, ranked first s gs r ->
  exists b, scan_answers first s gs b.
Proof.
  intros r R. destruct (ranked_all r R) as (n0 & H).
  assert (scan_from first s gs n0 gs 1 <> None) as N by (apply scan_from_ends, (H n0 (le_n _))).
  destruct (scan_from first s gs n0 gs 1) as [b|] eqn:Q; [|congruence].
  exists b, n0. intros m L. exact (scan_from_le n0 m gs 1 b L Q).
Qed.

(* Obtainable operands: the answer is true, if each expression of an assignment
   of a given variable has an end. *)
Lemma scan_from_obtainable : forall l l0,
  gs = l0 ++ l ->
  operands_obtainable first s gs ->
  (forall g e x, In g gs -> g = Assign x e -> given x ->
     exists n0, forall i n, n0 <= n -> scan_location (sv n i) e <> None) ->
  exists n0, forall n, n0 <= n -> scan_from first s gs n l (S (length l0)) = Some true.
Proof.
  induction l as [|g l IH]; intros l0 E OO EN.
  { exists 0; reflexivity. }
  destruct (IH (l0 ++ [g])) as (n1 & N1); [rewrite <- app_assoc; exact E|exact OO|exact EN|].
  rewrite app_length in N1; cbn [length] in N1. rewrite Nat.add_1_r in N1.
  assert (In g gs) as I by (rewrite E, in_app_iff; right; left; reflexivity).
  assert (NPT : forall y e, g = Test e -> ~ place_of y (S (length l0))).
  { intros y e -> (m1 & e' & m2 & E' & _ & J).
    assert (nth_error gs (length l0) = Some (Test e)) as A
      by (rewrite E, nth_error_app2, Nat.sub_diag; [reflexivity|lia]).
    rewrite E' in A. replace (length l0) with (length m1) in A by lia.
    rewrite nth_error_app2, Nat.sub_diag in A by lia. discriminate. }
  assert (NPA : forall y x e, g = Assign x e -> place_of y (S (length l0)) -> y = x /\ first_for gs x e).
  { intros y x e -> (m1 & e' & m2 & E' & N & J).
    assert (nth_error gs (length l0) = Some (Assign x e)) as A
      by (rewrite E, nth_error_app2, Nat.sub_diag; [reflexivity|lia]).
    rewrite E' in A. replace (length l0) with (length m1) in A by lia.
    rewrite nth_error_app2, Nat.sub_diag in A by lia. cbn in A.
    injection A as -> ->. split; [reflexivity|]. exists m1, m2; split; assumption. }
  assert (NOT : forall i e b n, scan_location (sv n i) e = Some b -> scan_location (sv n i) e <> None) by congruence.
  destruct g as [e|x e].
  - pose proof (OO _ I) as O; cbn in O.
    destruct (scan_location_settles (fun n => sv n (S (length l0))) e) as (n2 & N2).
    { intros y Oy. apply obtainable_scanned; [apply O; exact Oy|]. intros _. apply (NPT y e eq_refl). }
    exists (Nat.max n1 n2). intros n L. cbn [scan_from].
    rewrite N2 by lia. apply N1; lia.
  - destruct (counted_bound first s x) eqn:C.
    + destruct (EN _ e x I eq_refl) as (n2 & N2); [apply counted_given, C|].
      exists (Nat.max n1 n2). intros n L. cbn [scan_from].
      assert (scan_location (sv n (S (length l0))) e <> None) as Q by (apply N2; lia).
      destruct (scan_location (sv n (S (length l0))) e) as [[]|]; [apply N1; lia| |congruence].
      rewrite C. apply N1; lia.
    + assert (~ given x) as NG by (apply counted_false; exact C).
      destruct (OO _ I) as [G|O]; [contradiction|].
      destruct (scan_location_settles (fun n => sv n (S (length l0))) e) as (n2 & N2).
      { intros y Oy. apply obtainable_scanned; [apply O; exact Oy|]. intros NGy PY.
        destruct (NPA y x e eq_refl PY) as [-> FF].
        exact (self_not x e FF Oy NG (O x Oy)). }
      exists (Nat.max n1 n2). intros n L. cbn [scan_from].
      rewrite N2 by lia. apply N1; lia.
Qed.

Lemma obtainable_scan_true : forall r, ranked first s gs r ->
  operands_obtainable first s gs -> scan_answers first s gs true.
Proof.
  intros r R OO. destruct (scan_from_obtainable gs [] eq_refl OO) as (n0 & H).
  - intros g e x I -> G. destruct (ranked_all r R) as (k & K).
    exists k. intros i n L. apply scan_location_ends. intros y _. apply K, L.
  - exists n0. exact H.
Qed.

Lemma scan_exact : forall r, ranked first s gs r ->
  (scan_answers first s gs true <-> operands_obtainable first s gs) /\
  (scan_answers first s gs false <-> ~ operands_obtainable first s gs).
Proof.
  intros r R. split; split.
  - intros (n & H). apply (scan_true_obtainable n), H, le_n.
  - apply (obtainable_scan_true r R).
  - intros (n & H) OO. destruct (obtainable_scan_true r R OO) as (m & M).
    specialize (H (n + m) ltac:(lia)). specialize (M (n + m) ltac:(lia)). congruence.
  - intro N. destruct (scan_ends r R) as ([|] & A); [|exact A].
    exfalso. apply N. destruct A as (n & H). apply (scan_true_obtainable n), H, le_n.
Qed.
End Scan.
