(** Lemmas for the operators on vectors (C150 to C155): memory, pointers, results. *)
From Verif Require Import Base Float32 Float32_facts Float32_round Atom_model Atom_proofs Op_model Bp_model Vec_model Vec_spec.
Local Open Scope nat_scope.
Local Set Default Proof Using "Type".

(** ** Memory that grows *)
Definition le_mem (m M : memory) : Prop :=
  (forall i w, code_ m i = Some w -> code_ M i = Some w) /\ exists l, cells M = cells m ++ l.
Definition move (m M : memory) (c : context) : context :=
  match inside c with Values a => if a =? address_ m then mkc (Values (address_ M)) (at_ c) else c | _ => c end.

Section Memory.
Context (bound : nat -> nat -> option Z).
Notation fetch := (fetch bound).
Notation dereference := (dereference bound).
Notation leads := (leads bound).

Lemma fetch_le m M c w : le_mem m M -> fetch m c = Some w -> fetch M (move m M c) = Some w.
Proof.
  intros (C & l & L) F. destruct c as [[|a|x] i]; unfold Vec_model.fetch, move in *; cbn [inside at_] in *.
  - apply C, F.
  - destruct (a =? address_ m) eqn:A; [|discriminate]. cbn [inside at_]. rewrite Nat.eqb_refl, L.
    rewrite nth_error_app1; [exact F|apply nth_error_Some; congruence].
  - exact F.
Qed.
Lemma child_move m M c i : move m M (child c i) = child (move m M c) i.
Proof. destruct c as [[|a|x] j]; unfold move, child; cbn [inside at_]; try reflexivity. destruct (a =? address_ m); reflexivity. Qed.
Lemma move_id m M c : match inside c with Values _ => address_ M = address_ m | _ => True end -> move m M c = c.
Proof. destruct c as [[|a|x] j]; unfold move; cbn [inside at_]; try reflexivity. intros E. destruct (Nat.eqb_spec a (address_ m)) as [->|]; [rewrite E|]; reflexivity. Qed.

Lemma leads_deref m M n c d : leads m n c d -> le_mem m M -> forall fuel, n < fuel -> dereference fuel M (move m M c) = Some (move m M d).
Proof.
  intros L LE. induction L as [n c w F N1 N2 N3|n c d w F D L IH|n c d w F D L IH|n c d w F D L IH]; intros fuel H; (destruct fuel as [|fuel]; [lia|]); cbn [Vec_model.dereference];
    rewrite (fetch_le _ _ _ _ LE F).
  - apply Z.eqb_neq in N1, N2, N3. rewrite N1, N2, N3. reflexivity.
  - rewrite D, Z.eqb_refl. rewrite <- (IH fuel) by lia. f_equal.
    destruct c as [[|a|x] j]; unfold move; cbn [inside at_]; try reflexivity. destruct (a =? address_ m) eqn:A; reflexivity.
  - rewrite D. cbn. rewrite <- (IH fuel) by lia. reflexivity.
  - rewrite D. cbn. rewrite <- (IH fuel) by lia. unfold move; cbn [inside at_]. rewrite Nat.eqb_refl. reflexivity.
Qed.
Lemma leads_word m n c d : leads m n c d -> exists w, fetch m d = Some w.
Proof. induction 1; eauto. Qed.
Lemma leads_le m M n c d : leads m n c d -> le_mem m M -> leads M n (move m M c) (move m M d).
Proof.
  intros L LE. induction L as [n c w F N1 N2 N3|n c d w F D L IH|n c d w F D L IH|n c d w F D L IH].
  - eapply Here; eauto using fetch_le.
  - eapply Inside; eauto using fetch_le. replace (mkc (inside (move m M c)) (place w)) with (move m M (mkc (inside c) (place w))); [exact IH|].
    destruct c as [[|a|x] j]; unfold move; cbn [inside at_]; try reflexivity. destruct (a =? address_ m) eqn:A; reflexivity.
  - eapply Variable_; eauto using fetch_le.
  - eapply Value; eauto using fetch_le. unfold move at 1 in IH. cbn [inside at_] in IH. rewrite Nat.eqb_refl in IH. exact IH.
Qed.

Lemma number_le m M n fuel c i x : number_at bound m n (child c i) x -> le_mem m M -> n < fuel -> move m M c = c ->
  number bound fuel M c i = Some x.
Proof.
  intros (d & w & L & F & _ & A) LE H V. unfold number, word_of.
  pose proof (leads_deref _ _ _ _ _ L LE fuel H) as E. rewrite child_move, V in E. rewrite E, (fetch_le _ _ _ _ LE F), A. reflexivity.
Qed.
End Memory.

(** ** Pushes *)
Section Push.
Context (grown : nat -> nat) (expr : bool) (here : nat).
Notation push := (push grown).
Notation add_part := (add_part grown expr).
Notation add_parts := (add_parts grown expr).
Definition pushes (l : list Z) (m : memory) : memory := fold_left (fun m a => push a m) l m.

Lemma pushes_spec l : forall m, cells (pushes l m) = cells m ++ l /\ code_ (pushes l m) = code_ m /\
  (length (cells m) + length l <= capacity m -> address_ (pushes l m) = address_ m /\ capacity (pushes l m) = capacity m).
Proof.
  induction l as [|a l IH]; intros m; cbn [pushes fold_left].
  - rewrite app_nil_r. auto.
  - destruct (IH (push a m)) as (A & B & C). fold (pushes l (push a m)). rewrite A, B. unfold Vec_model.push in *.
    destruct (length (cells m) <? capacity m) eqn:T; cbn [cells code_ capacity address_] in *; rewrite <- app_assoc; (split; [reflexivity|split; [reflexivity|]]); intros H; cbn [length] in H.
    + rewrite app_length in C. cbn [length] in C. destruct C as (C & D); [lia|]. auto.
    + apply Nat.ltb_ge in T. lia.
Qed.
Lemma add_parts_eq l : forall s, add_parts l s = mks (pushes l (mem s)) (results s ++ if expr then l else []).
Proof.
  induction l as [|a l IH]; intros s; cbn [Vec_model.add_parts].
  - destruct s as [m r]. cbn. f_equal. destruct expr; rewrite app_nil_r; reflexivity.
  - rewrite IH. unfold Vec_model.add_part, keep. cbn [mem results]. f_equal. destruct expr; [rewrite <- app_assoc; reflexivity|rewrite !app_nil_r; reflexivity].
Qed.
Lemma add_parts_app l k s : add_parts (l ++ k) s = add_parts k (add_parts l s).
Proof. revert s. induction l as [|a l IH]; intros s; [reflexivity|]. cbn [app Vec_model.add_parts]. apply IH. Qed.

Lemma parts_run f vs : forall i s,
  (forall j x, nth_error vs j = Some x -> forall l, length l = j -> f (add_parts l s) (i + j) = Some x) ->
  parts grown expr f i (length vs) s = Some (add_parts (map Float vs) s).
Proof.
  induction vs as [|x vs IH]; intros i s H; [reflexivity|]. cbn [length parts map Vec_model.add_parts].
  pose proof (H 0 x eq_refl [] eq_refl) as E. cbn [Vec_model.add_parts] in E. rewrite Nat.add_0_r in E. rewrite E. apply IH.
  intros j y N l L. replace (S i + j) with (i + S j) by lia. apply (H (S j) y N (Float x :: l)). cbn [length]. lia.
Qed.
End Push.
