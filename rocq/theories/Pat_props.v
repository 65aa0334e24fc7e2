(** Properties C163 to C165: patterns, their variables, parameters of templates. *)
From Verif Require Import Base Pat_model Pat_spec Pat_proofs Pat2_proofs Pat3_proofs.
Local Open Scope nat_scope.

(** C163. An input matches the skeleton of a pattern if and only if it conforms to it. *)
Theorem C163_repeat_refuted : exists w p k o x y, nth_error p (k + 1) = Some Wild /\ nth_error p (k + 2) = Some (Vl (k + 1)) /\
  word_of w o 1 = Some (Leaf x) /\ word_of w o 2 = Some (Leaf y) /\ x <> y /\ fits w 9 p k o = Some true.
Proof. exact repeat_refuted. Qed.
Print Assumptions C163_repeat_refuted.
Theorem C163_time_refuted : exists t t', (t <> t' /\ 0 <= t < 2 ^ 63 /\ 0 <= t' < 2 ^ 63)%Z /\
  fits (one ([Head 1 1; Ip 2] ++ time_words t')) 9 ([Head 1 1; Ip 2] ++ time_words t) 0 1 = Some true.
Proof. exact time_refuted. Qed.
Print Assumptions C163_time_refuted.
Theorem C163_same_time_refuted : exists t, (0 <= t < 2 ^ 63)%Z /\
  forall fuel, fits (one ([Head 1 1; Ip 2] ++ time_words t)) fuel ([Head 1 1; Ip 2] ++ time_words t) 0 1 = None.
Proof. exact time_undefined. Qed.
Print Assumptions C163_same_time_refuted.
Theorem C163_tail_refuted : exists w p k o i s, nth_error p k = Some (Head s 2) /\ nth_error p (k + 1) = Some Wild /\ nth_error p (k + 2) = Some Tail /\
  word_of w o i = Some (Head s 3) /\ fits w 9 p 0 o = Some false /\ nth_error p 0 = Some (Head 1 1) /\ nth_error p 1 = Some (Ip k) /\
  word_of w o 0 = Some (Head 1 1) /\ word_of w o 1 = Some (Ip i).
Proof. exact tail_refuted. Qed.
Print Assumptions C163_tail_refuted.
(** Missing: variables used twice stand for anything; [::] stands for one member; words of times
    are taken as other words are; the match is assumed to end. *)
Theorem C163_fits_partial : forall w p fuel k o t b s n,
  nth_error p k = Some (Head s n) -> Reads w p (Stem k) t -> fits w fuel p k o = Some b -> (b = true <-> Fits w o 0 t).
Proof. exact fits_says. Qed.
Print Assumptions C163_fits_partial.

Definition ex_p : list word := [Head 1 2; Ip 3; Wild; Head 2 2; Leaf 7; Wild].
Definition ex_w : world := mkw (fun o =>
  match o with 1 => Some (mko [Head 1 2; Rp 0; Leaf 3] [2]) | 2 => Some (mko [Head 2 2; Leaf 7; Leaf 42] [])
             | 4 => Some (mko [Head 1 2; Rp 0; Leaf 3] [5]) | 5 => Some (mko [Head 2 2; Leaf 8; Leaf 42] []) | _ => None end) 3 0 [1].
Lemma ex_reads : Reads ex_w ex_p (Stem 0) (TNode 1 [TNode 2 [TLeaf 7; TAny]; TAny]).
Proof.
  apply R_node; [reflexivity|]. intros j t Hj. destruct j as [|[|j]]; cbn in Hj.
  - injection Hj as <-. eapply R_ptr; [reflexivity|exact I|]. apply R_node; [reflexivity|].
    intros j t Hj. destruct j as [|[|j]]; cbn in Hj.
    + injection Hj as <-. apply R_leaf. reflexivity.
    + injection Hj as <-. apply R_wild. reflexivity.
    + destruct j; discriminate.
  - injection Hj as <-. apply R_wild. reflexivity.
  - destruct j; discriminate.
Qed.
Example C163_example : Reads ex_w ex_p (Stem 0) (TNode 1 [TNode 2 [TLeaf 7; TAny]; TAny]) /\
  fits ex_w 9 ex_p 0 1 = Some true /\ fits ex_w 9 ex_p 0 4 = Some false.
Proof. split; [exact ex_reads|]. split; reflexivity. Qed.

(** C164. Once an input has matched, each variable of the pattern denotes the member of the
    input at the same place, and the rest of the program is as it was. *)
Theorem C164_far_refuted : exists w p k p' path v o o' i' d, (forall o b, heap w o = Some b -> length (code b) <= 4096) /\ inputs w = [o] /\ length p <= 4096 /\
  fits w 9 p k o = Some true /\ bind w 9 p k = Some p' /\ At p k path v /\ Follow w o 0 path o' i' /\
  dereference w 9 p' (Stem v) = Some d /\ fetch w p' d = Some (Leaf 0) /\ word_of w o' i' = Some (Leaf 9).
Proof. exact far_refuted. Qed.
Print Assumptions C164_far_refuted.
(** Missing: programs beyond 256 words and inputs beyond 256. *)
Theorem C164_denotes_partial : forall w p before o fuel k p' F, Small w p -> inputs w = before ++ [o] ->
  Laid p k F -> NoDup F -> bind w fuel p k = Some p' ->
  forall path v o' i' fuel d, At p k path v -> Follow w o 0 path o' i' -> dereference w fuel p' (Ref o' i') = Some d ->
    exists fuel, dereference w fuel p' (Stem v) = Some d.
Proof. exact (fun w p before o fuel k p' F Hs Hi HF HN H => proj2 (bind_ok w p before o Hs Hi fuel k p' F HF HN H)). Qed.
Print Assumptions C164_denotes_partial.
Theorem C164_kept_partial : forall w p before o fuel k p' F, Small w p -> inputs w = before ++ [o] ->
  Laid p k F -> NoDup F -> bind w fuel p k = Some p' -> forall x, ~ In x F -> nth_error p' x = nth_error p x.
Proof. exact (fun w p before o fuel k p' F Hs Hi HF HN H => proj1 (bind_ok w p before o Hs Hi fuel k p' F HF HN H)). Qed.
Print Assumptions C164_kept_partial.

Lemma ex_small : Small ex_w ex_p.
Proof.
  split; [cbn; lia|]. split; [cbn; lia|]. split.
  - intros o b H. destruct o as [|[|[|[|[|[|o]]]]]]; cbn in H; try discriminate; injection H as <-; apply Nat.leb_le; vm_compute; reflexivity.
  - intros o i r H. destruct o as [|[|[|[|[|[|o]]]]]]; cbn in H; try discriminate; destruct i as [|[|[|i]]]; cbn in H; try discriminate;
      try (injection H as <-; cbn; discriminate); destruct i; discriminate.
Qed.
Lemma ex_laid : Laid ex_p 0 [0; 1; 3; 4; 5; 2].
Proof.
  eapply laid; [reflexivity|]. change [1; 3; 4; 5; 2] with (1 :: [3; 4; 5] ++ [2]). eapply members_in; [reflexivity| |].
  - eapply laid; [reflexivity|]. eapply members_word; [reflexivity|discriminate|intros i; discriminate|].
    eapply members_word; [reflexivity|discriminate|intros i; discriminate|]. apply members_none.
  - eapply members_word; [reflexivity|discriminate|intros i; discriminate|]. apply members_none.
Qed.
Example C164_example : Small ex_w ex_p /\ Laid ex_p 0 [0; 1; 3; 4; 5; 2] /\ NoDup [0; 1; 3; 4; 5; 2] /\
  At ex_p 0 [1; 2] 5 /\ Follow ex_w 1 0 [1; 2] 2 2 /\
  exists p', bind ex_w 9 ex_p 0 = Some p' /\ dereference ex_w 9 p' (Stem 5) = Some (Ref 2 2) /\ fetch ex_w p' (Ref 2 2) = Some (Leaf 42).
Proof.
  split; [exact ex_small|]. split; [exact ex_laid|].
  split. { repeat constructor; cbn; intuition discriminate. }
  split. { eapply at_in; [reflexivity|lia|intros x Hx; lia|reflexivity|]. change 5 with (3 + 2).
    eapply at_last; [reflexivity|lia| |reflexivity]. intros x Hx. assert (x = 1) by lia. subst. discriminate. }
  split. { eapply f_ref; [reflexivity|reflexivity|]. exact (f_last ex_w 2 0 2). }
  eexists. split; [vm_compute; reflexivity|]. split; reflexivity.
Qed.

(** C165. In an instance of a program with parameters each parameter, and each variable in it,
    denotes the argument, or the member of the argument, at the same place. *)
Theorem C165_structure_refuted : exists w p p' k j q s i v d,
  nth_error p 1 = Some (Ip k) /\ nth_error p (k + j) = Some (Ip q) /\ nth_error p (q + 1) = Some (Ip s) /\
  word_of w (instance w) 2 = Some (Ip 4) /\ word_of w (instance w) (4 + j) = Some (Ip i) /\
  At p s [2] v /\ Follow w (instance w) i [2] (instance w) (i + 2) /\
  matches w 9 p (Stem s) (Ref (instance w) i) = Some true /\
  patch_tpl_args w 9 p = Some p' /\ dereference w 9 p' (Stem v) = Some d /\ fetch w p' d = Some (Leaf 5) /\ word_of w (instance w) (i + 2) = Some (Leaf 42).
Proof. exact tpl_refuted. Qed.
Print Assumptions C165_structure_refuted.
(** Missing: variables within a parameter. *)
Theorem C165_argument_partial : forall w ks t a fuel p p' s n,
  nth_error p 1 = Some (Ip t) -> word_of w (instance w) 2 = Some (Ip a) -> nth_error p t = Some (Head s n) ->
  (forall x, 1 <= x <= n -> nth_error p (t + x) = Some (Ip (ks x))) ->
  (forall x y, 1 <= x <= n -> 1 <= y <= n -> ks x = ks y -> x = y) ->
  (forall x y, 1 <= x <= n -> 1 <= y <= n -> t + x <> ks y + 1) ->
  (forall x, 1 <= x <= n -> ks x + 1 < length p) -> a + n < 4096 ->
  patch_tpl_args w fuel p = Some p' ->
  (forall x f d, 1 <= x <= n -> dereference w f p' (Ref (instance w) (a + x)) = Some d -> dereference w (S f) p' (Stem (ks x + 1)) = Some d) /\
  (forall x v, nth_error p x = Some v -> v <> Wild -> (forall y, 1 <= y <= n -> x <> ks y + 1) -> nth_error p' x = Some v).
Proof. exact tpl_args_ok. Qed.
Print Assumptions C165_argument_partial.

(** Two parameters; the arguments are structures. *)
Definition ex_tpl : list word := [Head 1 4; Ip 5; Leaf 0; Leaf 0; Leaf 0; Head 7 2; Ip 8; Ip 11; Head 8 2; Wild; Leaf 1; Head 8 2; Wild; Leaf 1].
Definition ex_args : world := mkw (fun o =>
  match o with 0 => Some (mko [Head 2 3; Rp 0; Ip 4; Leaf 0; Head 7 2; Ip 7; Ip 9; Head 9 1; Leaf 5; Head 9 1; Leaf 6] [3]) | 3 => Some (mko ex_tpl []) | _ => None end) 3 0 [].
Definition ex_ks (x : nat) : nat := if x =? 1 then 8 else 11.
Example C165_example : (forall x, 1 <= x <= 2 -> nth_error ex_tpl (5 + x) = Some (Ip (ex_ks x))) /\
  (forall x y, 1 <= x <= 2 -> 1 <= y <= 2 -> ex_ks x = ex_ks y -> x = y) /\
  (forall x y, 1 <= x <= 2 -> 1 <= y <= 2 -> 5 + x <> ex_ks y + 1) /\
  exists p', patch_tpl_args ex_args 9 ex_tpl = Some p' /\
    dereference ex_args 9 p' (Stem 9) = Some (Ref 0 7) /\ dereference ex_args 9 p' (Stem 12) = Some (Ref 0 9).
Proof.
  assert (D : forall x, 1 <= x <= 2 -> x = 1 \/ x = 2) by (intros; lia).
  split. { intros x Hx. destruct (D x Hx) as [-> | ->]; reflexivity. }
  split. { intros x y Hx Hy. destruct (D x Hx) as [-> | ->]; destruct (D y Hy) as [-> | ->]; cbn; lia. }
  split. { intros x y Hx Hy. destruct (D x Hx) as [-> | ->]; destruct (D y Hy) as [-> | ->]; cbn; lia. }
  eexists. split; [vm_compute; reflexivity|]. split; reflexivity.
Qed.
