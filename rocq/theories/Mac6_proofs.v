(** Proofs on pending conditions. *)
From Coq Require Import String.
From Verif Require Import Base Ppr_model Ppr_spec Mac_model Mac_spec Mac_proofs Mac2_proofs.
Local Open Scope Z_scope.

Lemma defined_spec : forall s d, found (find (macros s) d) || found (find (counters s) d) = true <-> defined s d.
Proof.
  intros s d. unfold defined. destruct (find (macros s) d) as [m|]; [cbn; split; [eauto|reflexivity]|].
  destruct (find (counters s) d) as [n|]; cbn; [split; [eauto|reflexivity]|].
  split; [discriminate|]. intros [[x E]|[x E]]; discriminate E.
Qed.
Lemma active_spec : forall s c, active s c = true <-> holds_now s c.
Proof.
  intros s [d b]. unfold active, holds_now. cbn [fst snd]. destruct b; rewrite <- defined_spec; [|reflexivity].
  destruct (_ || _); cbn; intuition discriminate.
Qed.
Lemma all_active_spec : forall s, all_active s <-> Forall (holds_now s) (conds s).
Proof.
  intros s. unfold all_active. rewrite forallb_forall, Forall_forall. split; intros H x I; apply active_spec; auto.
Qed.
Lemma else_flips : forall s d b, holds_now s (d, negb b) <-> ~ holds_now s (d, b).
Proof. intros s d b. rewrite <- !active_spec. unfold active. cbn [fst snd]. destruct b, (_ || _); cbn; intuition discriminate. Qed.

Lemma pending_skips : forall files s x l, known s [] = false -> kind_of x <> Condition -> ~ Forall (holds_now s) (conds s) ->
  processed files s (x :: l) (Ok 0 (x :: l) s).
Proof.
  intros files s x l K Kx N. apply processed_0. apply (root_pass files s (x :: l) 0 (x :: l) true s K); [|discriminate].
  exists 1%nat. intros f L. destruct f as [|f]; [lia|]. rewrite each_eq. cbv zeta.
  rewrite <- all_active_spec in N. unfold all_active in N. apply not_true_is_false in N. rewrite N.
  destruct (kind_of x); try reflexivity. congruence.
Qed.
Lemma condition_pends : forall s x cs, pends (conds s) x cs -> condition s x = Some (set_conds s cs).
Proof.
  intros s x cs H. unfold condition. destruct H as [a l E A|a l E A|d b l E A|c l E A]; rewrite E, A; reflexivity.
Qed.
Lemma pending_after : forall files s l1 x l2 cs, Forall (holds_now s) (conds s) -> Forall (passive s) l1 -> known s [] = false ->
  kind_of x = Condition -> pends (conds s) x cs -> processed files s (l1 ++ x :: l2) (Ok 0 (l1 ++ x :: l2) (set_conds s cs)).
Proof.
  intros files s l1 x l2 cs A F K Kx P. apply condition_stops; try assumption; [apply all_active_spec, A|apply condition_pends, P].
Qed.
Lemma pending_first : forall files s x l cs, known s [] = false -> kind_of x = Condition -> pends (conds s) x cs ->
  processed files s (x :: l) (Ok 0 (x :: l) (set_conds s cs)).
Proof.
  intros files s x l cs K Kx P. apply processed_0. apply (root_pass files s (x :: l) 0 (x :: l) true (set_conds s cs) K); [|discriminate].
  exists 1%nat. intros f L. destruct f as [|f]; [lia|]. rewrite each_eq. cbv zeta. rewrite Kx. cbn [is]. rewrite (condition_pends s x cs P). reflexivity.
Qed.
