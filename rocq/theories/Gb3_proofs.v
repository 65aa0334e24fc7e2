(** What the guards of learned models do. *)
From Verif Require Import Base Float32 Atom_model Utils_model Op_model Gd_model Gb_model Gb_spec Gb2_proofs.
From Verif Require Op_spec Op_proofs Gd_proofs.

(** ** The operators *)
Lemma nat_neq : forall x y, 0 <= x -> 0 <= y -> x <> y -> Z.to_nat x <> Z.to_nat y.
Proof. intros x y X Y N E. apply N. apply Z2Nat.inj; assumption. Qed.
Lemma operator_of : forall o, opcodes_ok o ->
  operator o (Z.to_nat (o_add o)) = Some Add /\ operator o (Z.to_nat (o_sub o)) = Some Sub.
Proof.
  intros o (Oa & Os & Om & Od & Oi & N). unfold operator, op_ok in *. rewrite Nat.eqb_refl. split; [reflexivity|].
  rewrite (proj2 (Nat.eqb_neq _ _)), Nat.eqb_refl; [reflexivity|]. apply nat_neq; try lia.
  inversion N as [|? ? H _]; subst. intros E. apply H. left. congruence.
Qed.
Lemma count_time : forall t, is_i64 t -> count (store (TimeRes t)) = Some t.
Proof. intros t H. exact (proj1 (Op_proofs.denotes_count _ _ (Op_proofs.store_time t H))). Qed.
Lemma count_dur : forall t, is_i64 t -> count (store (DurRes t)) = Some t.
Proof. intros t H. exact (proj1 (Op_proofs.denotes_count _ _ (Op_proofs.store_dur t H))). Qed.
Lemma add_time : forall o t d, opcodes_ok o -> is_i64 t -> is_i64 d -> is_i64 (t + d) ->
  ops o (Z.to_nat (o_add o)) [VTime t; VDuration d] = Some (VTime (t + d)).
Proof.
  intros o t d Ho T D S0. unfold ops. rewrite (proj1 (operator_of o Ho)). cbn [words Op_model.eval].
  unfold add. pose proof (count_time t T) as CT. pose proof (count_dur d D) as CD.
  set (l := store (TimeRes t)) in *. set (r := store (DurRes d)) in *.
  assert (heads l r = fun f => f ATimestamp ADuration) as -> by reflexivity.
  replace (isFloat ATimestamp) with false by reflexivity. replace (is_time ATimestamp) with true by reflexivity.
  replace (isFloat ADuration) with false by reflexivity. replace (is_dur ADuration) with true by reflexivity.
  cbv iota. rewrite CT, CD. unfold with2, with1, time_in, with1. rewrite Op_proofs.in_i64_some by assumption. reflexivity.
Qed.
Lemma sub_time : forall o t d, opcodes_ok o -> is_i64 t -> is_i64 d -> is_i64 (t - d) ->
  ops o (Z.to_nat (o_sub o)) [VTime t; VDuration d] = Some (VTime (t - d)).
Proof.
  intros o t d Ho T D S0. unfold ops. rewrite (proj2 (operator_of o Ho)). cbn [words Op_model.eval].
  unfold sub. pose proof (count_time t T) as CT. pose proof (count_dur d D) as CD.
  set (l := store (TimeRes t)) in *. set (r := store (DurRes d)) in *.
  assert (heads l r = fun f => f ATimestamp ADuration) as -> by reflexivity.
  replace (isFloat ATimestamp) with false by reflexivity. replace (is_time ATimestamp) with true by reflexivity. replace (is_time ADuration) with false by reflexivity.
  replace (isFloat ADuration) with false by reflexivity. replace (is_dur ADuration) with true by reflexivity.
  cbv iota. rewrite CT, CD. unfold with2, with1, time_in, with1. rewrite Op_proofs.in_i64_some by assumption. reflexivity.
Qed.

(** ** One guard *)
Lemma gets_value : forall o first s y f l x, Gd_model.eval (ops o) s (Op f l) = Some x -> bindable x ->
  eval_guard (ops o) first s (gets y (Op f l)) = Some (Gd_model.set s (Z.to_nat y) x).
Proof.
  intros o first s y f l x E B. unfold gets, eval_guard, evaluates, assigned. rewrite E. destruct x; try contradiction; reflexivity.
Qed.
Lemma eval_op2 : forall o s f x y, Gd_model.eval (ops o) s (op2 f x y) = two o f (Gd_model.eval (ops o) s x) (Gd_model.eval (ops o) s y).
Proof.
  intros o s f x y. unfold op2, two. cbn [Gd_model.eval map all_some].
  destruct (Gd_model.eval (ops o) s x) as [a|]; [|reflexivity]. destruct (Gd_model.eval (ops o) s y) as [b|]; reflexivity.
Qed.
Lemma gets_plus : forall o first s y x t p, opcodes_ok o -> is s x (VTime t) -> is_i64 t -> is_i64 p -> is_i64 (t + p) ->
  eval_guard (ops o) first s (gets y (plus o (v x) (dur p))) = Some (Gd_model.set s (Z.to_nat y) (VTime (t + p))).
Proof.
  intros o first s y x t p Ho X T P S0. apply gets_value; [|exact Logic.I]. change (Op _ _) with (op2 (o_add o) (v x) (dur p)).
  rewrite eval_op2. cbn [Gd_model.eval v dur]. rewrite X. cbn [two]. apply add_time; assumption.
Qed.
Lemma gets_minus : forall o first s y x t p, opcodes_ok o -> is s x (VTime t) -> is_i64 t -> is_i64 p -> is_i64 (t - p) ->
  eval_guard (ops o) first s (gets y (minus o (v x) (dur p))) = Some (Gd_model.set s (Z.to_nat y) (VTime (t - p))).
Proof.
  intros o first s y x t p Ho X T P S0. apply gets_value; [|exact Logic.I]. change (Op _ _) with (op2 (o_sub o) (v x) (dur p)).
  rewrite eval_op2. cbn [Gd_model.eval v dur]. rewrite X. cbn [two]. apply sub_time; assumption.
Qed.
Lemma guards_app : forall o first l1 l2 s, eval_guards (ops o) first s (l1 ++ l2) =
  match eval_guards (ops o) first s l1 with Some s => eval_guards (ops o) first s l2 | None => None end.
Proof.
  intros o first. induction l1 as [|g l1 IH]; intros l2 s; [reflexivity|]. cbn [app eval_guards].
  destruct (eval_guard (ops o) first s g); [apply IH|reflexivity].
Qed.

(** ** The variables *)
Definition nats (m : mdl) : list nat := map Z.to_nat (variables m).
Lemma nodup_nats : forall m, mdl_ok m -> distinct m -> NoDup (nats m).
Proof.
  intros m ((L0 & L1 & L2) & (R0 & R1 & R2)) D. unfold nats, distinct, variables, var_ok in *.
  set (l := _ ++ _) in *. assert (F : Forall (fun x => 0 <= x) l).
  { subst l. apply Forall_app. split; [destruct (has_tpl m); repeat constructor; lia|repeat constructor; lia]. }
  clearbody l. clear -D F. induction l as [|a l IH]; [constructor|]. inversion D; subst. inversion F; subst. cbn. constructor; [|auto].
  intros I. apply in_map_iff in I. destruct I as (y & E & I). apply Z2Nat.inj in E; [subst; contradiction| |assumption].
  rewrite Forall_forall in F. apply F. right; assumption.
Qed.
(** The five variables that all models with times have, and the nine of those with templates. *)
Lemma times_nodup : forall m, mdl_ok m -> distinct m ->
  NoDup (map Z.to_nat [t0 m; t1 m; after (rhs m); before (rhs m); member (rhs m)]).
Proof.
  intros m O D. pose proof (nodup_nats m O D) as N. unfold nats, variables, t0, t1 in *. destruct (has_tpl m); cbn [app map] in *;
  repeat rewrite NoDup_cons_iff in *; cbn [In] in *; intuition congruence.
Qed.
Lemma tpl_nodup : forall m, mdl_ok m -> distinct m -> has_tpl m = true ->
  NoDup (map Z.to_nat [q0; t0 m; t1 m; after (lhs m); before (lhs m); member (lhs m); after (rhs m); before (rhs m); member (rhs m)]).
Proof. intros m O D T. pose proof (nodup_nats m O D) as N. unfold nats, variables, t0, t1, q0 in *. rewrite T in *. exact N. Qed.

(** ** The times *)
Ltac differ N := let E := fresh in intro E; clear - N E; cbn [map] in N; repeat rewrite NoDup_cons_iff in N; cbn [In] in N; first [tauto | symmetry in E; tauto].
Section Build.
Variables (o : opcodes) (m : mdl) (first : nat).
Hypotheses (Ho : opcodes_ok o) (Hm : mdl_ok m) (Hd : distinct m).
Notation put2 s x a y b := (Gd_model.set (Gd_model.set s (Z.to_nat x) (VTime a)) (Z.to_nat y) (VTime b)).

Lemma fwd_times_eval : forall s p a e, is_i64 p -> is s (t0 m) (VTime a) -> is s (t1 m) (VTime e) ->
  is_i64 a -> is_i64 e -> is_i64 (a + p) -> is_i64 (e + p) ->
  eval_guards (ops o) first s (fwd_times o m p) = Some (put2 s (after (rhs m)) (a + p) (before (rhs m)) (e + p)).
Proof using Ho Hm Hd.
  intros s p a e P A E Ia Ie Sa Se. pose proof (times_nodup m Hm Hd) as N. unfold fwd_times. cbn [eval_guards].
  rewrite (gets_plus o first s _ _ a p) by assumption.
  rewrite (gets_plus o first _ _ _ e p); try assumption; [reflexivity|]. unfold is. rewrite Gd_proofs.set_neq; [exact E|differ N].
Qed.
Lemma bwd_times_eval : forall s p a e, is_i64 p -> is s (after (rhs m)) (VTime a) -> is s (before (rhs m)) (VTime e) ->
  is_i64 a -> is_i64 e -> is_i64 (a - p) -> is_i64 (e - p) ->
  eval_guards (ops o) first s (bwd_times o m p) = Some (put2 s (t0 m) (a - p) (t1 m) (e - p)).
Proof using Ho Hm Hd.
  intros s p a e P A E Ia Ie Sa Se. pose proof (times_nodup m Hm Hd) as N. unfold bwd_times. cbn [eval_guards].
  rewrite (gets_minus o first s _ _ a p) by assumption.
  rewrite (gets_minus o first _ _ _ e p); try assumption; [reflexivity|]. unfold is. rewrite Gd_proofs.set_neq; [exact E|differ N].
Qed.
Lemma cause_times_eval : forall s d p a e, has_tpl m = true -> is_i64 d -> is_i64 p -> is s (after (rhs m)) (VTime a) -> is s (before (rhs m)) (VTime e) ->
  is_i64 a -> is_i64 e -> is_i64 (a - d) -> is_i64 (e - p) ->
  eval_guards (ops o) first s (cause_times o m d p) = Some (put2 s (after (lhs m)) (a - d) (before (lhs m)) (e - p)).
Proof using Ho Hm Hd.
  intros s d p a e T D P A E Ia Ie Sa Se. pose proof (tpl_nodup m Hm Hd T) as N. unfold cause_times. cbn [eval_guards].
  rewrite (gets_minus o first s _ _ a d) by assumption.
  rewrite (gets_minus o first _ _ _ e p); try assumption; [reflexivity|]. unfold is. rewrite Gd_proofs.set_neq; [exact E|differ N].
Qed.

(** ** The guards of a builder, split *)
Lemma shape : forall b p F B, period b = Some p -> written o b m = Some (F, B) -> exists fr cs br,
  F = fwd_times o m p ++ fr /\ B = bwd_times o m p ++ cs ++ br /\
  ((valued b = false /\ fr = []) \/
   (valued b = true /\ exists f x y, fr = [gets (member (rhs m)) (op2 f x y)] /\ forall s, Gd_model.eval (ops o) s (op2 f x y) = prediction o b m s)) /\
  (constant b = false -> cs = match delay b with Some d => cause_times o m d p | None => [] end /\
    ((infers b = false /\ br = []) \/
     (infers b = true /\ exists e, br = [gets (member (lhs m)) e] /\
       forall s x, inference o b m s = Some x -> bindable x -> eval_guard (ops o) first s (gets (member (lhs m)) e) = Some (Gd_model.set s (Z.to_nat (member (lhs m))) x)))).
Proof using.
  assert (G : forall y f e1 e2 (s : env) x w, Gd_model.eval (ops o) s (op2 f e1 e2) = x -> x = Some w -> bindable w ->
    eval_guard (ops o) first s (gets y (op2 f e1 e2)) = Some (Gd_model.set s (Z.to_nat y) w)).
  { intros y f e1 e2 s x w E X W. apply gets_value; [|exact W]. fold (op2 f e1 e2). congruence. }
  intros b p F B P W. destruct b as [|p'|p' off|p' off cd|a p' off|a p' k off|p' off [x|h args|]]; try discriminate; injection P as ->; injection W as <- <-.
  - exists [], [], []. split; [reflexivity|]. split; [reflexivity|]. split; [auto|]. intros _. auto.
  - exists [gets (member (rhs m)) (plus o (v q0) (op2 (o_mul o) (v (member (lhs m))) (dur p)))], (cause_times o m off p),
      [gets (member (lhs m)) (op2 (o_div o) (minus o (v (member (rhs m))) (v q0)) (dur p))].
    split; [reflexivity|]. split; [reflexivity|]. split.
    + right. split; [reflexivity|]. do 3 eexists. split; [reflexivity|]. intros s. rewrite !eval_op2. reflexivity.
    + intros _. split; [reflexivity|]. right. split; [reflexivity|]. eexists. split; [reflexivity|].
      intros s x I Bx. eapply G; [|exact I|exact Bx]. unfold inference. rewrite eval_op2. unfold minus. rewrite eval_op2. reflexivity.
  - exists [], (cause_times o m off p), []. split; [reflexivity|]. split; [reflexivity|]. split; [auto|]. intros _. auto.
  - exists [gets (member (rhs m)) (fwd_op o a (v q0) (v (member (lhs m))))], (cause_times o m off p),
      [gets (member (lhs m)) (bwd_op o a (v (member (rhs m))) (v q0))].
    split; [reflexivity|]. split; [reflexivity|]. split.
    + right. split; [reflexivity|]. do 3 eexists. split; [reflexivity|]. intros s. rewrite eval_op2. destruct a; reflexivity.
    + intros _. split; [reflexivity|]. right. split; [reflexivity|]. eexists. split; [reflexivity|].
      intros s x I Bx. eapply G; [|exact I|exact Bx]. rewrite eval_op2. destruct a; reflexivity.
  - exists [gets (member (rhs m)) (fwd_op o a (v q0) (Lit (VFloat k)))],
      [gets (after (rhs m)) (minus o (v (after (rhs m))) (dur off)); gets (before (rhs m)) (minus o (v (before (rhs m))) (dur p))],
      [gets q0 (bwd_op o a (v (member (rhs m))) (Lit (VFloat k)))].
    split; [reflexivity|]. split; [reflexivity|]. split; [|discriminate].
    right. split; [reflexivity|]. do 3 eexists. split; [reflexivity|]. intros s. rewrite eval_op2. destruct a; reflexivity.
  - exists [], (cause_times o m off p). eexists. split; [reflexivity|]. split; [reflexivity|]. split; [auto|]. intros _. split; [reflexivity|].
    right. split; [reflexivity|]. eexists. split; [reflexivity|].
    intros s x0 E Bx. injection E as <-. apply gets_value; [|exact Logic.I]. cbn [Gd_model.eval map all_some ops]. rewrite Nat.eqb_refl. reflexivity.
  - exists [], (cause_times o m off p). eexists. split; [reflexivity|]. split; [reflexivity|]. split; [auto|]. intros _. split; [reflexivity|].
    right. split; [reflexivity|]. eexists. split; [reflexivity|].
    intros s x0 E Bx. injection E as <-. unfold gets, eval_guard, evaluates, assigned. cbn [Gd_model.eval].
    assert (all_some (map (Gd_model.eval (ops o) s) (map (fun x => Lit (VFloat x)) args)) = Some (map VFloat args)) as ->.
    { clear. induction args as [|a l IH]; [reflexivity|]. cbn [map all_some Gd_model.eval]. rewrite IH. reflexivity. }
    cbn [copied]. rewrite map_map. reflexivity.
Qed.
Lemma written_complete : forall b, complete b -> exists F B, written o b m = Some (F, B).
Proof using. intros [|p|p off|p off cd|a p off|a p k off|p off [x|h args|]] C; try contradiction; do 2 eexists; reflexivity. Qed.
End Build.
