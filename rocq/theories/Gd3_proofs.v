From Coq Require Import List ZArith Bool Arith Lia.
From Verif Require Import Gd_model Gd_spec Gd_proofs Gd2_proofs.
Import ListNotations.

Section E.
Variable ops : nat -> list val -> option val.
Variable first : nat.

Notation eval := (eval ops).
Notation denotes := (denotes ops).

Lemma denotes_bound : forall s e v y, denotes s e v -> occurs y e -> s y <> None.
Proof.
  intros s e; induction e as [x|w|f args F|k args F] using expr_nested; intros v y D O.
  - inversion O; subst. inversion D; subst. congruence.
  - inversion O.
  - inversion O as [|? ? a I Oa|]; subst. inversion D as [| |? ? vs ? D2 _|]; subst. clear D O.
    induction D2 as [|a0 v0 args vs Da Dl IH]; [destruct I|].
    inversion F as [|? ? F1 F2]; subst.
    destruct I as [->|I]; [exact (F1 v0 y Da Oa)|exact (IH F2 I)].
  - inversion O as [| |? ? a I Oa]; subst. inversion D as [| | |? ? vs D2]; subst. clear D O.
    induction D2 as [|a0 v0 args vs Da Dl IH]; [destruct I|].
    inversion F as [|? ? F1 F2]; subst.
    destruct I as [->|I]; [exact (F1 v0 y Da Oa)|exact (IH F2 I)].
Qed.

Lemma eval_bound : forall s e v y, eval s e = Some v -> occurs y e -> s y <> None.
Proof. intros s e v y E. apply (denotes_bound s e v). apply eval_denotes, E. Qed.

Lemma operand_occurs : forall y e, operand y e -> occurs y e.
Proof.
  intros y e O; induction O as [|f args a I O IH]; [constructor|econstructor; eassumption].
Qed.

Lemma eval_agree : forall s s' e, (forall y, occurs y e -> s y = s' y) -> eval s e = eval s' e.
Proof.
  intros s s' e; induction e as [x|w|f args F|k args F] using expr_nested; intro A.
  - apply A; constructor.
  - reflexivity.
  - assert (map (eval s) args = map (eval s') args) as M.
    { induction args as [|a args IH]; [reflexivity|].
      inversion F as [|? ? F1 F2]; subst. cbn. f_equal.
      - apply F1. intros y O; apply A; econstructor; [left; reflexivity|exact O].
      - apply IH; [exact F2|]. intros y O; apply A; inversion O; subst.
        econstructor; [right; eassumption|assumption]. }
    cbn. rewrite M; reflexivity.
  - assert (map (eval s) args = map (eval s') args) as M.
    { induction args as [|a args IH]; [reflexivity|].
      inversion F as [|? ? F1 F2]; subst. cbn. f_equal.
      - apply F1. intros y O; apply A; econstructor; [left; reflexivity|exact O].
      - apply IH; [exact F2|]. intros y O; apply A; inversion O; subst.
        econstructor; [right; eassumption|assumption]. }
    cbn. rewrite M; reflexivity.
Qed.

Lemma occurs_dec : forall y e, occurs y e \/ ~ occurs y e.
Proof.
  intros y e; induction e as [x|w|f args F|k args F] using expr_nested.
  - destruct (Nat.eq_dec x y) as [->|N]; [left; constructor|right; intro O; inversion O; congruence].
  - right; intro O; inversion O.
  - assert ((exists a, In a args /\ occurs y a) \/ ~ (exists a, In a args /\ occurs y a)) as [(a & I & O)|N].
    { induction F as [|a args F1 F2 IH]; [right; intros (a & [] & _)|].
      destruct F1 as [O|N]; [left; exists a; split; [left; reflexivity|exact O]|].
      destruct IH as [(b & I & O)|N2]; [left; exists b; split; [right; exact I|exact O]|].
      right. intros (b & [<-|I] & O); [contradiction|]. apply N2; exists b; split; assumption. }
    + left; econstructor; eassumption.
    + right; intro O; inversion O; subst. apply N; eexists; split; eassumption.
  - assert ((exists a, In a args /\ occurs y a) \/ ~ (exists a, In a args /\ occurs y a)) as [(a & I & O)|N].
    { induction F as [|a args F1 F2 IH]; [right; intros (a & [] & _)|].
      destruct F1 as [O|N]; [left; exists a; split; [left; reflexivity|exact O]|].
      destruct IH as [(b & I & O)|N2]; [left; exists b; split; [right; exact I|exact O]|].
      right. intros (b & [<-|I] & O); [contradiction|]. apply N2; exists b; split; assumption. }
    + left; econstructor; eassumption.
    + right; intro O; inversion O; subst. apply N; eexists; split; eassumption.
Qed.

Lemma eval_guards_app : forall l1 l2 s s',
  eval_guards ops first s (l1 ++ l2) = Some s' ->
  exists s1, eval_guards ops first s l1 = Some s1 /\ eval_guards ops first s1 l2 = Some s'.
Proof.
  induction l1 as [|g l1 IH]; intros l2 s s' H; cbn in H.
  - exists s. split; [reflexivity|exact H].
  - cbn. destruct (eval_guard ops first s g) as [s0|]; [|discriminate]. apply IH, H.
Qed.

Lemma evaluates_some : forall s e, (forall y, e <> Var y) -> evaluates ops s e = true ->
  exists v, eval s e = Some v.
Proof.
  intros s e N H. destruct e as [x|v|f args|k args]; [exfalso; exact (N x eq_refl)|..];
    unfold evaluates in H;
    match type of H with match ?t with _ => _ end = _ => destruct t as [r|] eqn:Q; [exists r; reflexivity|discriminate] end.
Qed.

Lemma written_not_var : forall gs x e, as_written gs -> In (Assign x e) gs -> forall y, e <> Var y.
Proof. intros gs x e W I y ->. exact (W x y I). Qed.

(* When the guards succeed, a guard that assigns a variable not given uses
   variables bound before it. *)
Lemma success_before : forall gs s s' l1 l2 x e y,
  as_written gs -> eval_guards ops first s gs = Some s' ->
  gs = l1 ++ Assign x e :: l2 -> ~ In x (targets l1) -> ~ given first s x ->
  occurs y e -> s y <> None \/ In y (targets l1).
Proof.
  intros gs s s' l1 l2 x e y W E G N NG O. subst gs.
  destruct (eval_guards_app _ _ _ _ E) as (s1 & E1 & E2).
  assert (s1 x = s x) as Sx by (apply (guards_elsewhere ops first l1 s s1 x E1 N)).
  cbn in E2. destruct (evaluates ops s1 e) eqn:Q.
  - destruct (evaluates_some s1 e) as (v & Ev); [|exact Q|].
    { apply (written_not_var _ x e W). rewrite in_app_iff; right; left; reflexivity. }
    pose proof (eval_bound s1 e v y Ev O) as B.
    destruct (in_dec Nat.eq_dec y (targets l1)) as [I|NI]; [right; exact I|left].
    rewrite <- (guards_elsewhere ops first l1 s s1 y E1 NI). exact B.
  - assert (counted_bound first s1 x = false) as C.
    { apply counted_false. intros [L|H]; apply NG; [left; exact L|right; rewrite <- Sx; exact H]. }
    rewrite C in E2. discriminate.
Qed.

Definition place (gs : list guard) (x : nat) : nat :=
  match first_assign gs x 1 with Some (j, _) => j | None => 0 end.

Lemma place_at : forall l1 l2 x e, ~ In x (targets l1) ->
  place (l1 ++ Assign x e :: l2) x = S (length l1).
Proof. intros l1 l2 x e N. unfold place. rewrite first_assign_at by exact N. reflexivity. Qed.

Lemma place_below : forall l1 l2 y, In y (targets l1) -> place (l1 ++ l2) y <= length l1.
Proof.
  intros l1 l2 y I. destruct (in_targets l1 y I) as (a & e & b & -> & N).
  rewrite <- app_assoc. cbn [app]. rewrite place_at by exact N. rewrite app_length; cbn [length]; lia.
Qed.

Lemma success_place : forall gs s s' x e y,
  as_written gs -> eval_guards ops first s gs = Some s' ->
  first_for gs x e -> occurs y e -> ~ given first s x -> s y = None ->
  place gs y < place gs x.
Proof.
  intros gs s s' x e y W E (l1 & l2 & G & N) O NGx Ny.
  destruct (success_before gs s s' l1 l2 x e y W E G N NGx O) as [B|I]; [congruence|].
  rewrite G, place_at by exact N. pose proof (place_below l1 (Assign x e :: l2) y I). lia.
Qed.

Lemma not_given_none : forall s x, ~ given first s x -> s x = None.
Proof.
  intros s x N. destruct (s x) eqn:Q; [|reflexivity]. exfalso; apply N; right; congruence.
Qed.

Lemma success_ranked : forall gs s s',
  as_written gs -> eval_guards ops first s gs = Some s' -> ranked first s gs (place gs).
Proof.
  intros gs s s' W E x e y F O NGx NGy.
  apply (success_place gs s s' x e y W E F); [apply operand_occurs, O|exact NGx|apply not_given_none, NGy].
Qed.

(* Every variable assigned is obtainable. *)
Lemma success_obtainable : forall gs s s',
  as_written gs -> eval_guards ops first s gs = Some s' ->
  forall n x, place gs x < n -> In x (targets gs) -> obtainable first s gs x.
Proof.
  intros gs s s' W E; induction n as [|n IH]; intros x L I; [lia|].
  destruct (counted_bound first s x) eqn:C; [apply obtainable_given, counted_given, C|].
  assert (~ given first s x) as NG by (apply counted_false; exact C).
  destruct (in_targets gs x I) as (l1 & e & l2 & G & N).
  assert (first_for gs x e) as F by (exists l1, l2; split; assumption).
  apply obtainable_assigned with e; [exact F|].
  intros y O. apply operand_occurs in O.
  destruct (success_before gs s s' l1 l2 x e y W E G N NG O) as [B|Iy].
  - apply obtainable_given; right; exact B.
  - assert (In y (targets gs)) as Iy' by (rewrite G, targets_app, in_app_iff; left; exact Iy).
    apply IH; [|exact Iy']. rewrite G in *. rewrite place_at in L by exact N.
    pose proof (place_below l1 (Assign x e :: l2) y Iy). lia.
Qed.

Lemma success_operands : forall gs s s',
  as_written gs -> NoDup (targets gs) -> eval_guards ops first s gs = Some s' ->
  operands_obtainable first s gs.
Proof.
  intros gs s s' W ND E g I.
  apply in_split in I as (l1 & l2 & G).
  assert (OB : forall s1 y, eval_guards ops first s l1 = Some s1 -> s1 y <> None -> obtainable first s gs y).
  { intros s1 y E1 B. destruct (in_dec Nat.eq_dec y (targets gs)) as [I|NI].
    - apply (success_obtainable gs s s' W E (S (place gs y))); [lia|exact I].
    - apply obtainable_given; right.
      rewrite <- (guards_elsewhere ops first l1 s s1 y E1); [exact B|].
      intro Q; apply NI. rewrite G, targets_app, in_app_iff; left; exact Q. }
  assert (E' := E). rewrite G in E'.
  destruct (eval_guards_app _ _ _ _ E') as (s1 & E1 & E2). cbn in E2.
  destruct g as [e|x e].
  - intros y O. apply (OB s1 y E1). cbn in E2.
    destruct (eval s1 e) as [v|] eqn:Q; [|discriminate].
    apply (eval_bound s1 e v y Q), operand_occurs, O.
  - cbn in E2.
    assert (~ In x (targets l1)) as N.
    { rewrite G, targets_app in ND. cbn in ND. apply NoDup_remove_2 in ND.
      intro Q; apply ND; rewrite in_app_iff; left; exact Q. }
    destruct (evaluates ops s1 e) eqn:Q.
    + right. intros y O. apply (OB s1 y E1).
      destruct (evaluates_some s1 e) as (v & Ev); [|exact Q|].
      { apply (written_not_var _ x e W). rewrite G, in_app_iff; right; left; reflexivity. }
      apply (eval_bound s1 e v y Ev), operand_occurs, O.
    + left. destruct (counted_bound first s1 x) eqn:C; [|discriminate].
      apply counted_given in C. destruct C as [L|B]; [left; exact L|right].
      rewrite <- (guards_elsewhere ops first l1 s s1 x E1 N). exact B.
Qed.

Lemma success_scanned : forall gs s s',
  as_written gs -> NoDup (targets gs) -> eval_guards ops first s gs = Some s' ->
  scan_answers first s gs true.
Proof.
  intros gs s s' W ND E. apply (obtainable_scan_true first s gs (place gs)).
  - exact (success_ranked gs s s' W E).
  - exact (success_operands gs s s' W ND E).
Qed.

(* Evaluation succeeds on guards scanned, written in order, with operators that
   never fail. *)
Lemma eval_total : forall s e, never_failing ops -> (forall y, occurs y e -> s y <> None) ->
  exists v, eval s e = Some v.
Proof.
  intros s e NF; induction e as [x|w|f args F|k args F] using expr_nested; intro B.
  - cbn. specialize (B x (occurs_var x)). destruct (s x) as [v|]; [exists v; reflexivity|congruence].
  - exists w; reflexivity.
  - assert (exists vs, all_some (map (eval s) args) = Some vs) as (vs & E).
    { induction args as [|a args IH]; [exists []; reflexivity|].
      inversion F as [|? ? F1 F2]; subst.
      destruct F1 as (v & Ev). { intros y O; apply B; econstructor; [left; reflexivity|exact O]. }
      destruct (IH F2) as (vs & Es).
      { intros y O; apply B; inversion O; subst. econstructor; [right; eassumption|assumption]. }
      exists (v :: vs). cbn. rewrite Ev, Es; reflexivity. }
    cbn. rewrite E. destruct (NF f vs) as (v & Ev & _). exists v; exact Ev.
  - assert (exists vs, all_some (map (eval s) args) = Some vs) as (vs & E).
    { induction args as [|a args IH]; [exists []; reflexivity|].
      inversion F as [|? ? F1 F2]; subst.
      destruct F1 as (v & Ev). { intros y O; apply B; econstructor; [left; reflexivity|exact O]. }
      destruct (IH F2) as (vs & Es).
      { intros y O; apply B; inversion O; subst. econstructor; [right; eassumption|assumption]. }
      exists (v :: vs). cbn. rewrite Ev, Es; reflexivity. }
    cbn. rewrite E. eexists; reflexivity.
Qed.

Lemma obtainable_or : forall s gs y, obtainable first s gs y -> given first s y \/ In y (targets gs).
Proof.
  intros s gs y O; inversion O as [? G|? e F _]; subst; [left; exact G|right; apply (first_for_targets gs y e F)].
Qed.

Lemma scanned_success : forall gs s n,
  scan_guards first s n gs = Some true ->
  (forall x, x < first -> s x <> None) ->
  in_order s gs -> literals_bound s gs -> tests_apply_operators gs ->
  definite_assignments ops gs -> never_failing ops ->
  exists s', eval_guards ops first s gs = Some s'.
Proof.
  intros gs s n SC TB IO LB TA DA NF.
  apply scan_true_obtainable in SC.
  assert (forall l2 l1 s1, gs = l1 ++ l2 ->
            (forall x, s x <> None -> s1 x <> None) ->
            (forall x, In x (targets l1) -> s1 x <> None) ->
            exists s', eval_guards ops first s1 l2 = Some s') as H.
  { induction l2 as [|g l2 IH]; intros l1 s1 G K T; [exists s1; reflexivity|].
    assert (In g gs) as I by (rewrite G, in_app_iff; right; left; reflexivity).
    assert (BV : (forall y, operand y (body g) -> obtainable first s gs y) ->
                 forall y, occurs y (body g) -> s1 y <> None).
    { intros OB y O. destruct (s y) as [v|] eqn:Q; [apply K; congruence|].
      destruct (LB g y I O) as [Oy|B]; [|congruence].
      destruct (obtainable_or s gs y (OB y Oy)) as [[L|B]|It]; [exfalso; exact (TB y L Q)|congruence|].
      apply T. exact (IO l1 g l2 y G O Q It). }
    assert (ST : forall s2, eval_guard ops first s1 g = Some s2 ->
                 (forall x, In x (targets [g]) -> s2 x <> None) ->
                 exists s', eval_guards ops first s1 (g :: l2) = Some s').
    { intros s2 E2 T2. cbn. rewrite E2. apply (IH (l1 ++ [g]) s2).
      - rewrite <- app_assoc; exact G.
      - intros x B. apply (guard_stays ops first s1 g s2 x E2), K, B.
      - intros x Ix. rewrite targets_app, in_app_iff in Ix. destruct Ix as [Ix|Ix].
        + apply (guard_stays ops first s1 g s2 x E2), T, Ix.
        + apply T2, Ix. }
    pose proof (SC g I) as O. destruct g as [e|x e].
    - destruct (TA e I) as (f & args & ->).
      destruct (eval_total s1 (Op f args) NF (BV O)) as (v & Ev).
      assert (v <> VBool false) as Nv.
      { cbn in Ev. destruct (all_some (map (eval s1) args)) as [vs|]; [|discriminate].
        destruct (NF f vs) as (w & Ew & Nw). congruence. }
      apply (ST s1); [|intros x []]. cbn [eval_guard]. rewrite Ev.
      destruct v as [| [|] | | | | | |]; congruence || reflexivity.
    - assert (definite ops e) as De by (apply (DA x e); exact I).
      destruct (eval s1 e) as [v|] eqn:Ev.
      + apply (ST (set s1 x v)).
        * rewrite (eval_assign ops first s1 x e De), Ev. reflexivity.
        * intros z [<-|[]]. rewrite set_eq; discriminate.
      + destruct O as [Gx|O].
        * assert (s x <> None) as Bx by (destruct Gx as [L|B]; [apply TB, L|exact B]).
          apply (ST s1).
          -- rewrite (eval_assign ops first s1 x e De), Ev.
             assert (counted_bound first s1 x = true) as ->; [|reflexivity].
             apply counted_given; right; apply K, Bx.
          -- intros z [<-|[]]. apply K, Bx.
        * destruct (eval_total s1 e NF (BV O)) as (v & Q). congruence. }
  exact (H gs [] s eq_refl (fun x B => B) (fun x B => match B with end)).
Qed.

(* An assignment. *)
Lemma assignment_binds : forall s x e s',
  definite ops e -> ~ given first s x ->
  eval_guard ops first s (Assign x e) = Some s' ->
  exists v, denotes s e v /\ s' x = Some v.
Proof.
  intros s x e s' D NG E. rewrite (eval_assign ops first s x e D) in E.
  destruct (eval s e) as [v|] eqn:Q.
  - injection E as <-. exists v. split; [apply eval_denotes, Q|apply set_eq].
  - apply counted_false in NG. rewrite NG in E. discriminate.
Qed.

(* Forward timings. *)
Lemma last_in : forall gs x e, last_assign gs x = Some e -> In (Assign x e) gs.
Proof.
  induction gs as [|[e0|y e0] gs IH]; intros x e H; cbn in H.
  - discriminate.
  - right; apply IH, H.
  - destruct (last_assign gs x) as [e1|] eqn:Q.
    + injection H as <-. right; apply IH, Q.
    + destruct (Nat.eqb y x) eqn:E; [|discriminate]. apply Nat.eqb_eq in E; subst. injection H as <-. left; reflexivity.
Qed.

Lemma last_found : forall gs x, In x (targets gs) -> exists e, last_assign gs x = Some e.
Proof.
  induction gs as [|[e0|y e0] gs IH]; intros x H; cbn in H.
  - destruct H.
  - apply IH, H.
  - cbn. destruct (last_assign gs x) as [e1|] eqn:Q; [exists e1; reflexivity|].
    destruct H as [->|H]; [rewrite Nat.eqb_refl; exists e0; reflexivity|].
    destruct (IH x H) as (e & E); congruence.
Qed.

Lemma found_times : forall s gs x s',
  assigned_times ops gs x -> first <= x -> s x = None ->
  eval_found ops first s gs x = Some s' ->
  time_bound s' x /\ forall y, y <> x -> s' y = s y.
Proof.
  intros s gs x s' A L N E. unfold eval_found in E.
  destruct (last_assign gs x) as [e|] eqn:Q; [|discriminate].
  destruct (A e (last_in gs x e Q)) as (f & args & -> & T).
  assert (~ given first s x) as NG by (intros [H|H]; [lia|congruence]).
  apply counted_false in NG. cbn [eval_guard evaluates assigned] in E. rewrite NG in E.
  destruct (eval s (Op f args)) as [v|] eqn:Ev; [|discriminate].
  assert (exists t, v = VTime t) as (t & ->).
  { cbn in Ev. destruct (all_some (map (eval s) args)) as [vs|]; [|discriminate]. exact (T vs v Ev). }
  injection E as <-. split; [exists t; apply set_eq|]. intros y D; apply set_neq, D.
Qed.

Lemma has_time_iff : forall s x, has_time s x = true <-> time_bound s x.
Proof.
  intros s x; unfold has_time, time_bound. destruct (s x) as [[]|]; split; try discriminate;
    try (intros (? & H); discriminate); try (intros _; eexists; reflexivity); reflexivity.
Qed.

Lemma fwd_timings_sound : forall s gs a b s',
  a <> b -> first <= a -> first <= b ->
  (s a <> None -> time_bound s a) -> (s b <> None -> time_bound s b) ->
  assigned_times ops gs a -> assigned_times ops gs b ->
  fwd_timings ops first s gs a b = Some s' ->
  time_bound s' a /\ time_bound s' b.
Proof.
  intros s gs a b s' D La Lb Ta Tb Aa Ab E. unfold fwd_timings in E.
  assert (AP : forall t t', (t a <> None -> time_bound t a) -> time_bound t b ->
                 fwd_after_part ops first t gs a = Some t' -> time_bound t' a /\ time_bound t' b).
  { intros t t' Hta Htb Q. unfold fwd_after_part in Q.
    destruct (has_time t a) eqn:Ha; [injection Q as <-; split; [apply has_time_iff, Ha|exact Htb]|].
    assert (t a = None) as N.
    { destruct (t a) as [w|] eqn:Q2; [|reflexivity]. exfalso.
      assert (time_bound t a) as X by (apply Hta; congruence). apply has_time_iff in X. congruence. }
    destruct (found_times t gs a t' Aa La N Q) as [X Y]. split; [exact X|].
    destruct Htb as (v & V). exists v. rewrite Y by congruence. exact V. }
  destruct (has_time s b) eqn:Hb.
  - apply has_time_iff in Hb. exact (AP s s' Ta Hb E).
  - assert (s b = None) as N.
    { destruct (s b) as [w|] eqn:Q2; [|reflexivity]. exfalso.
      assert (time_bound s b) as X by (apply Tb; congruence). apply has_time_iff in X. congruence. }
    destruct (last_assign gs b) as [eb|] eqn:LB; [|discriminate].
    destruct (eval_found ops first s gs b) as [s1|] eqn:E1.
    + destruct (found_times s gs b s1 Ab Lb N E1) as [X Y].
      apply (AP s1 s'); [|exact X|exact E]. rewrite (Y a D). intro H.
      destruct (Ta H) as (v & V). exists v. rewrite (Y a D). exact V.
    + destruct (eval_found ops first s gs a) as [s1|] eqn:E2; [|discriminate].
      destruct (eval_found ops first s1 gs b) as [s2|] eqn:E3; [|discriminate].
      assert (time_bound s1 a /\ s1 b = None) as [X1 N1].
      { destruct (s a) as [w|] eqn:Qa.
        - (* already a time: evaluated again *)
          assert (time_bound s a) as Xa by (apply Ta; congruence).
          unfold eval_found in E2. destruct (last_assign gs a) as [e|] eqn:Q; [|discriminate].
          destruct (Aa e (last_in gs a e Q)) as (f & args & -> & T).
          cbn [eval_guard evaluates assigned] in E2.
          destruct (eval s (Op f args)) as [v|] eqn:Ev.
          + assert (exists t, v = VTime t) as (t & ->).
            { cbn in Ev. destruct (all_some (map (eval s) args)) as [vs|]; [|discriminate]. exact (T vs v Ev). }
            injection E2 as <-. split; [exists t; apply set_eq|rewrite set_neq; [exact N|congruence]].
          + destruct (counted_bound first s a); [|discriminate]. injection E2 as <-. split; assumption.
        - destruct (found_times s gs a s1 Aa La Qa E2) as [X Y]. split; [exact X|].
          rewrite Y by congruence. exact N. }
      destruct (found_times s1 gs b s2 Ab Lb N1 E3) as [X Y].
      apply (AP s2 s'); [|exact X|exact E]. intros _.
      destruct X1 as (v & V). exists v. rewrite (Y a D). exact V.
Qed.

Lemma nodup_first : forall gs x e, NoDup (targets gs) -> In (Assign x e) gs -> first_for gs x e.
Proof.
  intros gs x e ND I. apply in_split in I as (l1 & l2 & ->). exists l1, l2. split; [reflexivity|].
  rewrite targets_app in ND. cbn in ND. apply NoDup_remove_2 in ND.
  intro Q; apply ND; rewrite in_app_iff; left; exact Q.
Qed.

Lemma in_targets_of : forall gs x e, In (Assign x e) gs -> In x (targets gs).
Proof.
  intros gs x e I. apply in_split in I as (l1 & l2 & ->). rewrite targets_app, in_app_iff; right; left; reflexivity.
Qed.

Lemma fwd_timings_complete : forall s gs a b s',
  as_written gs -> definite_assignments ops gs ->
  NoDup (targets gs) -> (forall x, In x (targets gs) -> ~ given first s x) ->
  In a (targets gs) -> In b (targets gs) -> a <> b ->
  uses_only s gs a b -> uses_only s gs b a ->
  eval_guards ops first s gs = Some s' ->
  exists s'', fwd_timings ops first s gs a b = Some s'' /\ s'' a = s' a /\ s'' b = s' b.
Proof.
  intros s gs a b s' W DA ND FR Ia Ib D Ua Ub E.
  destruct (guards_satisfied ops first gs s s' E ND FR DA) as [B SAT].
  destruct (last_found gs a Ia) as (ea & La). destruct (last_found gs b Ib) as (eb & Lb).
  assert (Ina := last_in gs a ea La). assert (Inb := last_in gs b eb Lb).
  destruct (SAT _ Ina) as (va & Da & Sa). destruct (SAT _ Inb) as (vb & Db & Sb).
  apply eval_denotes in Da, Db.
  assert (NGa := FR a Ia). assert (NGb := FR b Ib).
  assert (Na := not_given_none s a NGa). assert (Nb := not_given_none s b NGb).
  assert (dea : definite ops ea) by (apply (DA a ea Ina)).
  assert (deb : definite ops eb) by (apply (DA b eb Inb)).
  assert (GA : forall t x e v, definite ops e -> eval t e = Some v ->
             eval_guard ops first t (Assign x e) = Some (set t x v)).
  { intros t x e v De Ev. rewrite (eval_assign ops first t x e De), Ev. reflexivity. }
  assert (PLa : forall y, occurs y ea -> s y = None -> place gs y < place gs a).
  { intros y O Ny. apply (success_place gs s s' a ea y W E (nodup_first gs a ea ND Ina) O NGa Ny). }
  assert (PLb : forall y, occurs y eb -> s y = None -> place gs y < place gs b).
  { intros y O Ny. apply (success_place gs s s' b eb y W E (nodup_first gs b eb ND Inb) O NGb Ny). }
  assert (KS : forall y, s y <> None -> s' y = s y).
  { intros y H. destruct (s y) as [w|] eqn:Q; [apply B, Q|congruence]. }
  rewrite Sa, Sb. unfold fwd_timings, fwd_after_part, eval_found.
  assert (has_time s b = false) as -> by (unfold has_time; rewrite Nb; reflexivity).
  rewrite La, Lb.
  destruct (eval s eb) as [w|] eqn:Eb.
  - assert (w = vb) as ->.
    { apply eval_denotes in Eb. apply (denotes_below ops s s' eb w B) in Eb. apply eval_denotes in Eb. congruence. }
    rewrite (GA s b eb vb deb Eb).
    assert (has_time (set s b vb) a = false) as ->
      by (unfold has_time; rewrite set_neq by exact D; rewrite Na; reflexivity).
    assert (eval (set s b vb) ea = Some va) as Ea.
    { rewrite <- Da. apply eval_agree. intros y O.
      destruct (Ua ea y Ina O) as [H| ->].
      - rewrite set_neq by (intros ->; congruence). symmetry; apply KS, H.
      - rewrite set_eq; symmetry; exact Sb. }
    rewrite (GA _ a ea va dea Ea).
    eexists. split; [reflexivity|]. rewrite set_eq. split; [reflexivity|].
    rewrite set_neq by congruence. apply set_eq.
  - assert (eval_guard ops first s (Assign b eb) = None) as ->.
    { rewrite (eval_assign ops first s b eb deb), Eb.
      apply counted_false in NGb. rewrite NGb. reflexivity. }
    assert (occurs a eb) as Oa.
    { destruct (occurs_dec a eb) as [O|NO]; [exact O|exfalso].
      assert (eval s eb = eval s' eb) as Q; [|congruence].
      apply eval_agree. intros y O. destruct (Ub eb y Inb O) as [H| ->]; [|contradiction].
      symmetry; apply KS, H. }
    assert (eval s ea = Some va) as Ea.
    { rewrite <- Da. apply eval_agree. intros y O.
      destruct (Ua ea y Ina O) as [H| ->]; [symmetry; apply KS, H|exfalso].
      pose proof (PLa b O Nb). pose proof (PLb a Oa Na). lia. }
    rewrite (GA s a ea va dea Ea).
    assert (eval (set s a va) eb = Some vb) as Eb2.
    { rewrite <- Db. apply eval_agree. intros y O.
      destruct (Ub eb y Inb O) as [H| ->].
      - rewrite set_neq by (intros ->; congruence). symmetry; apply KS, H.
      - rewrite set_eq; symmetry; exact Sa. }
    rewrite (GA _ b eb vb deb Eb2).
    destruct (has_time (set (set s a va) b vb) a) eqn:HT.
    + eexists. split; [reflexivity|]. rewrite set_eq. split; [|reflexivity].
      rewrite set_neq by exact D. apply set_eq.
    + assert (eval (set (set s a va) b vb) ea = Some va) as Ea2.
      { rewrite <- Ea. apply eval_agree. intros y O.
        destruct (Ua ea y Ina O) as [H| ->].
        - rewrite set_neq by (intros ->; congruence). rewrite set_neq by (intros ->; congruence). reflexivity.
        - exfalso. pose proof (PLa b O Nb). pose proof (PLb a Oa Na). lia. }
      rewrite (GA _ a ea va dea Ea2).
      eexists. split; [reflexivity|]. rewrite set_eq. split; [reflexivity|].
      rewrite set_neq by congruence. apply set_eq.
Qed.
End E.
