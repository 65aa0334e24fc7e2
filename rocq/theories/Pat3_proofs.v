(** Template parameters, and programs for which the claims fail. *)
From Verif Require Import Base Pat_model Pat_spec Pat2_proofs.
Local Open Scope nat_scope.

Section Params.
Context (w : world).

(** Only variables are replaced. *)
Lemma tpl_only fuel : forall p k i j m p', patch_tpl w fuel p k i j m = Some p' ->
  length p' = length p /\ forall x v, nth_error p x = Some v -> v <> Wild -> nth_error p' x = Some v.
Proof.
  induction fuel as [|fuel IH]; intros p k i j m p' H; [discriminate|]. cbn [patch_tpl] in H.
  destruct m as [|m]; [injection H as <-; auto|].
  destruct (nth_error p (k + j)) as [u|] eqn:Eu; [|discriminate].
  assert (Next : patch_tpl w fuel p k i (S j) m = Some p' -> length p' = length p /\ forall x v, nth_error p x = Some v -> v <> Wild -> nth_error p' x = Some v)
    by (intros E; exact (IH _ _ _ _ _ _ E)).
  destruct u as [z| | |s|r|s|s|nn s|q s|kk nn]; try exact (Next H).
  - destruct (IH _ _ _ _ _ _ H) as (L & V). rewrite write_length in L. split; [exact L|]. intros x v Hx Hv. apply V; [|exact Hv].
    rewrite write_other; [exact Hx|]. intros ->. congruence.
  - injection H as <-. auto.
  - destruct (nth_error p s) as [h|]; [|discriminate]. destruct (word_of w (instance w) (i + j)) as [v|]; [|discriminate].
    destruct (as_index v) as [t|]; [|discriminate]. destruct (patch_tpl w fuel p s t 1 (count h)) as [p1|] eqn:E1; [|discriminate].
    destruct (IH _ _ _ _ _ _ E1) as (L1 & V1). destruct (IH _ _ _ _ _ _ H) as (L & V). split; [congruence|].
    intros x u Hx Hu. apply V; [apply V1; assumption|exact Hu].
Qed.

Context (ks : nat -> nat) (t a : nat).
Lemma params_ok fuel : forall m p j p',
  (forall x, j <= x < j + m -> nth_error p (t + x) = Some (Ip (ks x))) ->
  (forall x y, j <= x < j + m -> j <= y < j + m -> ks x = ks y -> x = y) ->
  (forall x y, j <= x < j + m -> j <= y < j + m -> t + x <> ks y + 1) ->
  (forall x, j <= x < j + m -> ks x + 1 < length p) ->
  patch_params w fuel p t a j m = Some p' ->
  length p' = length p /\
  (forall x, j <= x < j + m -> nth_error p' (ks x + 1) = Some (Gp ((a + x) mod 4096))) /\
  (forall x v, nth_error p x = Some v -> v <> Wild -> (forall y, j <= y < j + m -> x <> ks y + 1) -> nth_error p' x = Some v).
Proof.
  induction m as [|m IH]; intros p j p' H1 H2 H3 H4 H; cbn [patch_params] in H.
  - injection H as <-. split; [reflexivity|]. split; [intros x Hx; lia|auto].
  - rewrite (H1 j ltac:(lia)) in H. destruct (word_of w (instance w) (a + j)) as [v|]; [|discriminate]. cbn [as_index] in H.
    destruct (as_index v) as [i|]; [|discriminate]. destruct (nth_error p (ks j)) as [h|]; [|discriminate].
    destruct (patch_tpl w fuel p (ks j) i 1 (count h)) as [p1|] eqn:E1; [|discriminate].
    destruct (tpl_only _ _ _ _ _ _ _ E1) as (L1 & V1).
    assert (W : forall x, x <> ks j + 1 -> nth_error (write p1 (ks j + 1) (Gp ((a + j) mod 4096))) x = nth_error p1 x) by (intros x Hx; apply write_other; exact Hx).
    destruct (IH (write p1 (ks j + 1) (Gp ((a + j) mod 4096))) (S j) p') as (L & P & V); [| | | |exact H|].
    { intros x Hx. rewrite W by (apply H3; lia). apply V1; [apply H1; lia|discriminate]. }
    { intros x y Hx Hy. apply H2; lia. }
    { intros x y Hx Hy. apply H3; lia. }
    { intros x Hx. rewrite write_length, L1. apply H4. lia. }
    rewrite write_length, L1 in L. split; [exact L|]. split.
    + intros x Hx. destruct (Nat.eq_dec x j) as [->|N]; [|apply P; lia].
      apply V; [apply write_same; rewrite L1; apply H4; lia|discriminate|].
      intros y Hy E. assert (j = y) by (apply H2; lia). lia.
    + intros x u Hx Hu Hn. apply V; [|exact Hu|intros y Hy; apply Hn; lia]. rewrite W; [exact (V1 _ _ Hx Hu)|]. apply Hn. lia.
Qed.

Lemma tpl_args_ok fuel p p' s n : nth_error p 1 = Some (Ip t) -> word_of w (instance w) 2 = Some (Ip a) -> nth_error p t = Some (Head s n) ->
  (forall x, 1 <= x <= n -> nth_error p (t + x) = Some (Ip (ks x))) ->
  (forall x y, 1 <= x <= n -> 1 <= y <= n -> ks x = ks y -> x = y) ->
  (forall x y, 1 <= x <= n -> 1 <= y <= n -> t + x <> ks y + 1) ->
  (forall x, 1 <= x <= n -> ks x + 1 < length p) -> a + n < 4096 ->
  patch_tpl_args w fuel p = Some p' ->
  (forall x f d, 1 <= x <= n -> dereference w f p' (Ref (instance w) (a + x)) = Some d -> dereference w (S f) p' (Stem (ks x + 1)) = Some d) /\
  (forall x v, nth_error p x = Some v -> v <> Wild -> (forall y, 1 <= y <= n -> x <> ks y + 1) -> nth_error p' x = Some v).
Proof.
  intros E1 E2 E3 H1 H2 H3 H4 Ha H. unfold patch_tpl_args in H. rewrite E1, E2 in H. cbn [as_index] in H. rewrite E3 in H. cbn [count] in H.
  destruct (params_ok fuel n p 1 p') as (_ & P & V); [| | | |exact H|].
  - intros x Hx. apply H1. lia.
  - intros x y Hx Hy. apply H2; lia.
  - intros x y Hx Hy. apply H3; lia.
  - intros x Hx. apply H4. lia.
  - split.
    + intros x f d Hx Hd. cbn [dereference fetch]. rewrite (P x ltac:(lia)). rewrite Nat.mod_small by lia. exact Hd.
    + intros x v Hx Hv Hn. apply V; [exact Hx|exact Hv|]. intros y Hy. apply Hn. lia.
Qed.
End Params.

(** * Programs for which the claims fail *)

Definition one (c : list word) : world := mkw (fun o => if o =? 1 then Some (mko c []) else None) 0 0 [1].

(** A variable used twice. *)
Lemma repeat_refuted : exists w p k o x y, nth_error p (k + 1) = Some Wild /\ nth_error p (k + 2) = Some (Vl (k + 1)) /\
  word_of w o 1 = Some (Leaf x) /\ word_of w o 2 = Some (Leaf y) /\ x <> y /\ fits w 9 p k o = Some true.
Proof.
  exists (one [Head 1 2; Leaf 1; Leaf 2]), [Head 1 2; Wild; Vl 1], 0, 1, 1%Z, 2%Z.
  split; [reflexivity|]. split; [reflexivity|]. split; [reflexivity|]. split; [reflexivity|]. split; [lia|]. reflexivity.
Qed.

(** Times. *)
Definition t_wild : Z := (5 * 2 ^ 32 + 130 * 2 ^ 24)%Z.
Definition t_other : Z := (5 * 2 ^ 32 + 7)%Z.
Definition t_far : Z := (5 * 2 ^ 32 + 132 * 2 ^ 24 + 9)%Z.
Lemma time_refuted : exists t t', (t <> t' /\ 0 <= t < 2 ^ 63 /\ 0 <= t' < 2 ^ 63)%Z /\
  fits (one ([Head 1 1; Ip 2] ++ time_words t')) 9 ([Head 1 1; Ip 2] ++ time_words t) 0 1 = Some true.
Proof. exists t_wild, t_other. split; [|vm_compute; reflexivity]. unfold t_wild, t_other. split; lia. Qed.
Lemma time_undefined : exists t, (0 <= t < 2 ^ 63)%Z /\
  forall fuel, fits (one ([Head 1 1; Ip 2] ++ time_words t)) fuel ([Head 1 1; Ip 2] ++ time_words t) 0 1 = None.
Proof.
  exists t_far. split; [unfold t_far; lia|]. intros fuel.
  assert (E : time_words t_far = [Head 417333248 2; Leaf 5; Ip 9]) by (vm_compute; reflexivity). rewrite E. cbn [app].
  set (c := [Head 1 1; Ip 2; Head 417333248 2; Leaf 5; Ip 9]).
  assert (D9 : forall f, dereference (one c) f c (Stem 9) = None) by (intros [|f]; reflexivity).
  assert (D4 : forall f, dereference (one c) f c (Stem 4) = None).
  { intros [|f]; [reflexivity|]. cbn [dereference fetch]. change (nth_error c 4) with (Some (Ip 9)). cbv iota beta. cbn [move]. apply D9. }
  destruct fuel as [|f]; [reflexivity|]. unfold fits.
  destruct f as [|f]; [reflexivity|]. destruct f as [|f]; [reflexivity|].
  cbn [matches fetch]. change (nth_error c 0) with (Some (Head 1 1)). change (word_of (one c) 1 0) with (Some (Head 1 1)). cbn [count Nat.eqb negb Z.eqb Pos.eqb members child plus].
  assert (Dp : dereference (one c) (S (S f)) c (Stem 1) = Some (Stem 2)) by reflexivity.
  assert (Di : dereference (one c) (S (S f)) c (Ref 1 1) = Some (Ref 1 2)) by reflexivity.
  rewrite Dp, Di. cbn [both fetch].
  change (nth_error c 2) with (Some (Head 417333248 2)). change (word_of (one c) 1 2) with (Some (Head 417333248 2)).
  cbn [count Nat.eqb negb]. rewrite Z.eqb_refl. cbn [members child plus].
  assert (Dp3 : dereference (one c) (S f) c (Stem 3) = Some (Stem 3)) by reflexivity.
  assert (Di3 : dereference (one c) (S f) c (Ref 1 3) = Some (Ref 1 3)) by reflexivity.
  rewrite Dp3, Di3. cbn [both fetch].
  change (nth_error c 3) with (Some (Leaf 5)). change (word_of (one c) 1 3) with (Some (Leaf 5)). cbn [word_eqb]. rewrite Z.eqb_refl.
  rewrite D4. reflexivity.
Qed.

(** A set that ends with [::]. *)
Lemma tail_refuted : exists w p k o i s, nth_error p k = Some (Head s 2) /\ nth_error p (k + 1) = Some Wild /\ nth_error p (k + 2) = Some Tail /\
  word_of w o i = Some (Head s 3) /\ fits w 9 p 0 o = Some false /\ nth_error p 0 = Some (Head 1 1) /\ nth_error p 1 = Some (Ip k) /\
  word_of w o 0 = Some (Head 1 1) /\ word_of w o 1 = Some (Ip i).
Proof.
  exists (one [Head 1 1; Ip 2; Head 7 3; Leaf 1; Leaf 2; Leaf 3]), [Head 1 1; Ip 2; Head 7 2; Wild; Tail], 2, 1, 2, 7%Z.
  repeat split; reflexivity.
Qed.

(** A long program. *)
Definition far_p : list word := repeat (Leaf 0) 256 ++ [Head 1 1; Ip 258; Head 2 1; Wild].
Definition far_w : world := mkw (fun o =>
  match o with 1 => Some (mko [Head 1 1; Rp 0] [2]) | 2 => Some (mko [Head 2 1; Leaf 9] []) | 3 => Some (mko far_p []) | _ => None end) 3 0 [1].
Lemma far_at : At far_p 256 [1; 1] 259.
Proof.
  eapply at_in; [reflexivity|lia|intros x Hx; lia|reflexivity|]. change 259 with (258 + 1).
  eapply at_last; [reflexivity|lia|intros x Hx; lia|reflexivity].
Qed.
Lemma far_refuted : exists w p k p' path v o o' i' d, (forall o b, heap w o = Some b -> length (code b) <= 4096) /\ inputs w = [o] /\ length p <= 4096 /\
  fits w 9 p k o = Some true /\ bind w 9 p k = Some p' /\ At p k path v /\ Follow w o 0 path o' i' /\
  dereference w 9 p' (Stem v) = Some d /\ fetch w p' d = Some (Leaf 0) /\ word_of w o' i' = Some (Leaf 9).
Proof.
  destruct (bind far_w 9 far_p 256) as [p'|] eqn:E; [|exfalso; revert E; vm_compute; discriminate].
  exists far_w, far_p, 256, p', [1; 1], 259, 1, 2, 1, (Ref 3 1).
  split. { intros o b H. destruct o as [|[|[|[|o]]]]; cbn in H; try discriminate; injection H as <-.
    all: apply Nat.leb_le; vm_compute; reflexivity. }
  split; [reflexivity|]. split; [unfold far_p; rewrite app_length, repeat_length; cbn [length]; lia|].
  split; [vm_compute; reflexivity|]. split; [exact E|]. split; [exact far_at|].
  split. { eapply f_ref; [reflexivity|reflexivity|]. exact (f_last far_w 2 0 1). }
  assert (E' : bind far_w 9 far_p 256 = Some (repeat (Leaf 0) 256 ++ [Inp 0 0; Inp 0 1; Dinp 1 0; Dinp 1 1])) by (vm_compute; reflexivity).
  rewrite E in E'. injection E' as ->. split; [vm_compute; reflexivity|]. split; reflexivity.
Qed.

(** A parameter with a structure. *)
Definition tpl_p : list word :=
  [Head 1 4; Ip 5; Leaf 0; Leaf 0; Leaf 0; Head 7 1; Ip 7; Head 8 2; Ip 10; Ip 13; Head 9 2; Leaf 5; Wild; Head 7 0].
Definition tpl_w : world := mkw (fun o =>
  match o with 0 => Some (mko [Head 2 3; Rp 0; Ip 4; Leaf 0; Head 7 1; Ip 6; Head 9 2; Leaf 5; Leaf 42] [3]) | 3 => Some (mko tpl_p []) | _ => None end) 3 0 [].
Lemma tpl_refuted : exists w p p' k j q s i v d, (* the parameter [j] is the pattern at [q], its skeleton is at [s]; the argument is the structure at [i] *)
  nth_error p 1 = Some (Ip k) /\ nth_error p (k + j) = Some (Ip q) /\ nth_error p (q + 1) = Some (Ip s) /\
  word_of w (instance w) 2 = Some (Ip 4) /\ word_of w (instance w) (4 + j) = Some (Ip i) /\
  At p s [2] v /\ Follow w (instance w) i [2] (instance w) (i + 2) /\
  matches w 9 p (Stem s) (Ref (instance w) i) = Some true /\
  patch_tpl_args w 9 p = Some p' /\ dereference w 9 p' (Stem v) = Some d /\ fetch w p' d = Some (Leaf 5) /\ word_of w (instance w) (i + 2) = Some (Leaf 42).
Proof.
  destruct (patch_tpl_args tpl_w 9 tpl_p) as [p'|] eqn:E; [|exfalso; revert E; vm_compute; discriminate].
  exists tpl_w, tpl_p, p', 5, 1, 7, 10, 6, 12, (Ref 0 7).
  split; [reflexivity|]. split; [reflexivity|]. split; [reflexivity|]. split; [reflexivity|]. split; [reflexivity|].
  split. { change 12 with (10 + 2). eapply at_last; [reflexivity|lia| |reflexivity]. intros x Hx. assert (x = 1) by lia. subst. discriminate. }
  split; [exact (f_last tpl_w 0 6 2)|]. split; [vm_compute; reflexivity|]. split; [exact E|].
  assert (E' : patch_tpl_args tpl_w 9 tpl_p = Some [Head 1 4; Ip 5; Leaf 0; Leaf 0; Leaf 0; Head 7 1; Ip 7; Head 8 2; Gp 5; Ip 13; Head 9 2; Leaf 5; Gp 7; Head 7 0])
    by (vm_compute; reflexivity).
  rewrite E in E'. injection E' as ->. split; [reflexivity|]. split; reflexivity.
Qed.
