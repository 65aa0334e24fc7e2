(* Proofs on models that are built on others. *)
From Coq Require Import List Bool Arith Lia.
From Verif Require Import Net_model Net_spec.
Import ListNotations.

Lemma gone_in : forall s n, is_gone s n = true <-> In n (gone s).
Proof.
  intros s n. unfold is_gone. rewrite existsb_exists. split; [intros (x & I & E); apply Nat.eqb_eq in E; subst; exact I|]. intros I. exists n. split; [exact I|apply Nat.eqb_refl].
Qed.
Lemma sides_gone : forall net s n, existsb (fun c => match c with Some m => is_gone s m | None => false end) (controllers (net n)) = true <-> exists m, on net n m /\ In m (gone s).
Proof.
  intros net s n. unfold on, controllers. cbn. rewrite orb_false_r, orb_true_iff. split.
  - intros [H|H]; [destruct (lhs (net n)) as [m|]|destruct (rhs (net n)) as [m|]]; try discriminate; apply gone_in in H; exists m; auto.
  - intros (m & [E|E] & I); rewrite E; [left|right]; apply gone_in, I.
Qed.
Lemma step_gone : forall net s e n, In n (gone (step net s e)) <->
  In n (gone s) \/ e = Kill n \/ e = Offer n /\ top (net n) = false /\ exists m, on net n m /\ In m (gone s).
Proof.
  intros net s e n. destruct e as [k|k]; cbn [step].
  - cbn. split; [intros [-> | H]; auto|]. intros [H | [H | (H & _)]]; [right; exact H|left; injection H; auto|discriminate].
  - destruct (top (net k)) eqn:T.
    { cbn [gone]. split; [auto|]. intros [H | [H | (H & F & _)]]; [exact H|discriminate|]. injection H as ->. congruence. }
    unfold become. destruct (is_gone s k) eqn:G.
    + split; [auto|]. intros [H | [H | (H & _)]]; [exact H|discriminate|]. injection H as ->. apply gone_in, G.
    + destruct (existsb _ (controllers (net k))) eqn:X; cbn [gone].
      * apply sides_gone in X. split; [intros [<- | H]; auto|]. intros [H | [H | (H & _)]]; [right; exact H|discriminate|left; injection H; auto].
      * split; [auto|]. intros [H | [H | (H & _ & M)]]; [exact H|discriminate|]. injection H as ->. apply sides_gone in M. congruence.
Qed.
Lemma run_snoc : forall net es e, run net (es ++ [e]) = step net (run net es) e.
Proof. intros. unfold run. rewrite fold_left_app. reflexivity. Qed.
Lemma stays : forall net es s n, In n (gone s) -> In n (gone (fold_left (step net) es s)).
Proof. intros net es. induction es as [|e es IH]; intros s n H; [exact H|]. cbn. apply IH, step_gone. left. exact H. Qed.

(* Only what is built on something that was invalidated disappears. *)
Lemma only : forall net es n, In n (gone (run net es)) -> exists m l, In (Kill m) es /\ Way net m l n /\ inner net l /\ (forall k, In k l -> In (Offer k) es).
Proof.
  intros net es. induction es as [|e es IH] using rev_ind; intros n H; [destruct H|]. rewrite run_snoc in H. apply step_gone in H.
  assert (W : forall m, (exists k l, In (Kill k) es /\ Way net k l m /\ inner net l /\ (forall j, In j l -> In (Offer j) es)) -> exists k l, In (Kill k) (es ++ [e]) /\ Way net k l m /\ inner net l /\ (forall j, In j l -> In (Offer j) (es ++ [e]))).
  { intros m (k & l & A & B & D & C). exists k, l. split; [apply in_or_app; left; exact A|split; [exact B|split; [exact D|]]]. intros j J. apply in_or_app. left. apply C, J. }
  destruct H as [H | [-> | (-> & T & m & O & I)]].
  - apply W, IH, H.
  - exists n, []. split; [apply in_or_app; right; left; reflexivity|split; [constructor|split; intros k []]].
  - destruct (W m (IH m I)) as (k & l & A & B & D & C). exists k, (l ++ [n]). split; [exact A|split; [econstructor; eassumption|split]].
    { intros j J. apply in_app_or in J. destruct J as [J | [<- | []]]; [apply D, J|exact T]. }
    intros j J. apply in_app_or in J. destruct J as [J | [<- | []]]; [apply C, J|apply in_or_app; right; left; reflexivity].
Qed.
Lemma come_app : forall l1 l2 es, Come (l1 ++ l2) es -> exists e1 e2, es = e1 ++ e2 /\ Come l1 e1 /\ Come l2 e2.
Proof.
  intros l1 l2 es H. remember (l1 ++ l2) as l eqn:E. revert l1 E. induction H as [es|l e es H IH|n l es H IH]; intros l1 E.
  - destruct l1; [|discriminate]. cbn in E. subst l2. exists [], es. repeat constructor.
  - destruct (IH l1 E) as (e1 & e2 & -> & A & B). exists (e :: e1), e2. split; [reflexivity|]. split; [apply CSkip; exact A|exact B].
  - destruct l1 as [|x l1]; cbn in E.
    + exists [], (Offer n :: es). subst l2. split; [reflexivity|]. split; [apply CNil|apply CTake; exact H].
    + injection E as -> E. destruct (IH l1 E) as (e1 & e2 & -> & A & B). exists (Offer x :: e1), e2. split; [reflexivity|]. split; [apply CTake; exact A|exact B].
Qed.
Lemma come_one : forall k es, Come [k] es -> exists e1 e2, es = e1 ++ Offer k :: e2.
Proof.
  intros k es H. remember [k] as l eqn:E. induction H as [es|l e es H IH|n l es H IH]; [discriminate| |].
  - destruct (IH E) as (e1 & e2 & ->). exists (e :: e1), e2. reflexivity.
  - injection E as -> _. exists [], es. reflexivity.
Qed.
Lemma all_way : forall net m l n, Way net m l n -> inner net l -> forall s es, In m (gone s) -> Come l es -> In n (gone (fold_left (step net) es s)).
Proof.
  intros net m l n W. induction W as [|l n k W IH O]; intros T s es G C.
  - apply stays, G.
  - apply come_app in C. destruct C as (e1 & e2 & -> & A & B). apply come_one in B. destruct B as (e3 & e4 & ->). rewrite !fold_left_app. cbn [fold_left]. apply stays, step_gone.
    right. right. split; [reflexivity|]. split; [apply T, in_or_app; right; left; reflexivity|]. exists n. split; [exact O|]. apply stays. apply IH; try assumption. intros j J. apply T, in_or_app. left. exact J.
Qed.
Lemma everything : forall net m l n e1 e2, Way net m l n -> inner net l -> Come l e2 -> In n (gone (run net (e1 ++ Kill m :: e2))).
Proof.
  intros net m l n e1 e2 W T C. unfold run. rewrite fold_left_app. cbn [fold_left]. eapply all_way; [exact W|exact T| |exact C]. left. reflexivity.
Qed.
Lemma taken_iff : forall net es n, top (net n) = false -> taken (run net (es ++ [Offer n])) =
  taken (run net es) ++ (if in_dec Nat.eq_dec n (gone (run net (es ++ [Offer n]))) then [] else [n]).
Proof.
  intros net es n T. destruct (in_dec Nat.eq_dec n (gone (run net (es ++ [Offer n])))) as [I|I]; rewrite run_snoc in *; cbn [step] in *; rewrite T in *; unfold become in *.
  - destruct (is_gone (run net es) n) eqn:G; [rewrite app_nil_r; reflexivity|]. destruct (existsb _ (controllers (net n))); [cbn; rewrite app_nil_r; reflexivity|].
    cbn in I. apply gone_in in I. congruence.
  - destruct (is_gone (run net es) n) eqn:G; [exfalso; apply I, gone_in, G|]. destruct (existsb _ (controllers (net n))); [exfalso; apply I; left; reflexivity|]. reflexivity.
Qed.
(* No input is taken any more by what is built on something that is gone. *)
Lemma not_taken : forall net es n m, top (net n) = false -> on net n m -> In m (gone (run net es)) -> taken (run net (es ++ [Offer n])) = taken (run net es).
Proof.
  intros net es n m T O I. rewrite taken_iff by exact T. destruct (in_dec Nat.eq_dec n _) as [J|J]; [apply app_nil_r|]. exfalso. apply J. rewrite run_snoc. apply step_gone. right. right. split; [reflexivity|]. split; [exact T|]. exists m. auto.
Qed.
