(** Proofs about notifications of reductions. *)
From Verif Require Import Base Cmd_model Cmd_spec.
Local Open Scope nat_scope.

Lemma put_same k w f : put k w f k = Some w.
Proof. unfold put. rewrite Nat.eqb_refl. reflexivity. Qed.
Lemma put_other k w f j : j <> k -> put k w f j = f j.
Proof. intros N. unfold put. destruct (j =? k) eqn:E; [apply Nat.eqb_eq in E; congruence|reflexivity]. Qed.

Lemma put_parts_out i n : forall k a f j, j < a \/ a + n <= j -> put_parts i k n a f j = f j.
Proof.
  induction n as [|n IH]; intros k a f j H; cbn; [reflexivity|].
  rewrite IH by lia. apply put_other. lia.
Qed.
Lemma put_parts_in i n : forall k a f j, j < n -> put_parts i k n a f (a + j) = Some (Part i (k + j)).
Proof.
  induction n as [|n IH]; intros k a f j H; [lia|]. cbn. destruct j as [|j].
  - rewrite put_parts_out by lia. rewrite !Nat.add_0_r. apply put_same.
  - replace (a + S j) with (S a + j) by lia. rewrite IH by lia. do 2 f_equal. lia.
Qed.
Lemma put_inputs_out n : forall k f j, j < 5 + k \/ 5 + k + n <= j -> put_inputs k n f j = f j.
Proof. induction n as [|n IH]; intros k f j H; [reflexivity|]. cbn -[Nat.add]. rewrite IH by lia. apply put_other. lia. Qed.
Lemma put_inputs_in n : forall k f j, j < n -> put_inputs k n f (5 + k + j) = Some (RPtr (k + j)).
Proof.
  induction n as [|n IH]; intros k f j H; [lia|]. cbn -[Nat.add]. destruct j as [|j].
  - rewrite put_inputs_out by lia. rewrite !Nat.add_0_r. apply put_same.
  - replace (5 + k + S j) with (5 + S k + j) by lia. rewrite IH by lia. replace (S k + j) with (k + S j) by lia. reflexivity.
Qed.

Lemma add_ref_ext r l : exists s, add_ref r l = l ++ s /\ length s <= 1.
Proof. unfold add_ref. destruct existsb; [exists []|exists [r]]; cbn; rewrite ?app_nil_r; split; auto. Qed.
Lemma add_refs_ext us : forall l, exists s, fold_left (fun l o => add_ref (RObj (Old o)) l) us l = l ++ s /\ length s <= length us.
Proof.
  induction us as [|u us IH]; intros l; cbn.
  - exists []. rewrite app_nil_r. auto.
  - destruct (add_ref_ext (RObj (Old u)) l) as (s & -> & L). destruct (IH (l ++ s)) as (s2 & -> & L2).
    exists (s ++ s2). rewrite app_assoc, app_length. split; [reflexivity|lia].
Qed.

Section Note.
Context (executes : nat -> bool) (program : nat) (inputs : list nat) (code_size : nat) (groups : list nat) (notify : bool).
Context (now reference period tolerance : Z).
Context (sizes : nat -> nat) (n0 : note) (C : nat).
Let a := 6 + length inputs.
Notation second_pass := (second_pass executes now reference period tolerance).
Notation execute := (execute executes now reference period tolerance).

Definition says_in (n : note) (k : nat) (x : item) : Prop :=
  match x with
  | Command i => exists e, words n k = Some (WI e) /\ a + 1 + C <= e /\ e + sizes i <= ei n /\ forall j, j < sizes i -> words n (e + j) = Some (Part i j)
  | FactOf i b => exists r, words n k = Some (WR r) /\ nth_error (refs n) r = Some (RFact i b)
  end.
Record inv (n : note) (its : list item) : Prop := mkinv {
  inv_wi : wi n = a + 1 + length its;
  inv_ei : a + 1 + C <= ei n;
  inv_low : forall k, k < a -> words n k = words n0 k;
  inv_refs : exists s, refs n = refs n0 ++ s;
  inv_says : forall k x, nth_error its k = Some x -> says_in n (a + S k) x }.

Lemma says_keep n n' k x : (forall j, j < ei n -> j <> wi n -> words n' j = words n j) ->
  (exists s, refs n' = refs n ++ s) -> ei n <= ei n' -> a + 1 + C <= ei n -> wi n < a + 1 + C -> k < wi n ->
  says_in n k x -> says_in n' k x.
Proof.
  intros W [s R] E E0 I K S. destruct x as [i|i b]; cbn in *.
  - destruct S as (e & S1 & S2 & S3 & S4). exists e. rewrite W by lia. repeat split; auto; try lia.
    intros j J. rewrite W by lia. apply S4; exact J.
  - destruct S as (r & S1 & S2). exists r. rewrite W by lia. split; [exact S1|]. rewrite R, nth_error_app1; [exact S2|].
    apply nth_error_Some. congruence.
Qed.

Lemma inv_command n its i p : inv n its -> length its < C -> ei n < 4096 -> sizes i = size p ->
  inv (tell_command i p n) (its ++ [Command i]).
Proof.
  intros [Hw He Hl Hr Hs] L B Z.
  assert (W : wi n < a + 1 + C) by lia.
  assert (K : forall j, j < ei n -> j <> wi n -> words (tell_command i p n) j = words n j).
  { intros j J N. cbn. rewrite put_parts_out by lia. apply put_other; exact N. }
  assert (R : exists s, refs (tell_command i p n) = refs n ++ s).
  { cbn. destruct (add_refs_ext (uses p) (refs n)) as (s & E & _). eauto. }
  constructor.
  - cbn -[Nat.add]. rewrite app_length. cbn. lia.
  - cbn -[Nat.add]. lia.
  - intros k J. rewrite K by lia. apply Hl; exact J.
  - destruct Hr as [s1 E1]. destruct R as [s2 E2]. exists (s1 ++ s2). rewrite E2, E1, app_assoc. reflexivity.
  - intros k x N. destruct (Nat.lt_ge_cases k (length its)) as [J|J].
    + rewrite nth_error_app1 in N by exact J. eapply says_keep; eauto; try lia. cbn. lia.
    + rewrite nth_error_app2 in N by exact J. destruct (k - length its) as [|m] eqn:D; [|destruct m; discriminate].
      injection N as <-. replace (a + S k) with (wi n) by lia. cbn -[Nat.add]. exists (ei n).
      rewrite put_parts_out by lia. rewrite put_same. unfold IPtr. rewrite Nat.mod_small by exact B.
      split; [reflexivity|]. split; [exact He|]. split; [lia|].
      intros j Q. rewrite Z in Q. rewrite put_parts_in by exact Q. reflexivity.
Qed.
Lemma inv_fact n its i b : inv n its -> length its < C -> length (refs n) < 4096 ->
  inv (tell_fact i b n) (its ++ [FactOf i b]).
Proof.
  intros [Hw He Hl Hr Hs] L B.
  assert (W : wi n < a + 1 + C) by lia.
  assert (K : forall j, j < ei n -> j <> wi n -> words (tell_fact i b n) j = words n j).
  { intros j J N. cbn. apply put_other; exact N. }
  constructor.
  - cbn -[Nat.add]. rewrite app_length. cbn. lia.
  - cbn -[Nat.add]. lia.
  - intros k J. rewrite K by lia. apply Hl; exact J.
  - destruct Hr as [s1 E1]. cbn. rewrite E1, <- app_assoc. eauto.
  - intros k x N. destruct (Nat.lt_ge_cases k (length its)) as [J|J].
    + rewrite nth_error_app1 in N by exact J. eapply says_keep; eauto; try lia; cbn; eauto.
    + rewrite nth_error_app2 in N by exact J. destruct (k - length its) as [|m] eqn:D; [|destruct m; discriminate].
      injection N as <-. replace (a + S k) with (wi n) by lia. cbn -[Nat.add]. exists (length (refs n)).
      rewrite put_same. unfold RPtr. rewrite Nat.mod_small by exact B. split; [reflexivity|].
      rewrite nth_error_app2, Nat.sub_diag by lia. reflexivity.
Qed.

Definition words_left (l : list production) : nat := fold_right (fun p n => size p + n) 0 l.
Definition refs_left (l : list production) : nat := fold_right (fun p n => 1 + length (uses p) + n) 0 l.

Lemma told_command_size i p n : ei (tell_command i p n) = ei n + size p /\ length (refs (tell_command i p n)) <= length (refs n) + length (uses p).
Proof.
  cbn. split; [reflexivity|]. destruct (add_refs_ext (uses p) (refs n)) as (s & -> & L). rewrite app_length. lia.
Qed.

Lemma second_inv red l : forall i s n its, told s = Some n -> inv n its -> Forall plain l -> Forall no_long_probe l ->
  (forall k p, nth_error l k = Some p -> sizes (i + k) = size p) ->
  count s = length its + cmd_count l -> count s <= C -> ei n + words_left l < 4096 -> length (refs n) + refs_left l < 4096 ->
  forall s', second_pass red i l s = Some (s', true) ->
  exists n' , told s' = Some n' /\ inv n' (its ++ all_news executes i l) /\ count s' = length (its ++ all_news executes i l).
Proof.
  induction l as [|p l IH]; intros i s n its T I P L Z Ct Cc W R s' H; cbn [Cmd_model.second_pass all_news] in *.
  - injection H as <-. exists n. rewrite app_nil_r. split; [exact T|]. split; [exact I|]. cbn in Ct. lia.
  - inversion P as [|? ? P1 P2]; inversion L as [|? ? L1 L2]; subst.
    assert (Z0 : sizes i = size p) by (rewrite <- (Z 0 p eq_refl); f_equal; lia).
    assert (ZS : forall k q, nth_error l k = Some q -> sizes (S i + k) = size q).
    { intros k q Q. rewrite <- (Z (S k) q Q). f_equal. lia. }
    assert (CO : counted (what p) + cmd_count l = cmd_count (p :: l)) by reflexivity.
    assert (WO : size p + words_left l = words_left (p :: l)) by reflexivity.
    assert (RO : 1 + length (uses p) + refs_left l = refs_left (p :: l)) by reflexivity.
    destruct (told_command_size i p n) as [EC RC].
    remember (tell_command i p n) as nc eqn:NC.
    unfold Cmd_model.execute, telling in H. unfold plain in P1. unfold no_long_probe in L1. rewrite T in H.
    destruct (what p) as [o v|o v|g v|g v| |m| | |d|] eqn:Wh; try (destruct P1; fail); cbn [news option_map] in *.
    + destruct v.
      * rewrite <- NC in H. assert (J : inv nc (its ++ [Command i])) by (subst nc; apply inv_command; auto; cbn [counted] in CO; lia).
        match type of H with ?f ?st = _ => destruct (IH (S i) st nc (its ++ [Command i]) eq_refl J P2 L2 ZS) with (s' := s') as (n' & A & B & D) end; [..|exact H|].
        -- cbn [count]. rewrite app_length. cbn [length]. cbn [counted] in CO. lia.
        -- cbn [count]. exact Cc.
        -- lia.
        -- lia.
        -- exists n'. rewrite app_assoc. auto.
      * match type of H with ?f ?st = _ => destruct (IH (S i) st n its eq_refl I P2 L2 ZS) with (s' := s') as (n' & A & B & D) end; [..|exact H|]; try (cbn [count told counted] in *; lia).
        exists n'. auto.
    + rewrite <- NC in H. assert (J : inv nc (its ++ [Command i])) by (subst nc; apply inv_command; auto; cbn [counted] in CO; lia).
      match type of H with ?f ?st = _ => destruct (IH (S i) st nc (its ++ [Command i]) eq_refl J P2 L2 ZS) with (s' := s') as (n' & A & B & D) end; [..|exact H|].
      * cbn [count]. rewrite app_length. cbn [length]. cbn [counted] in CO. lia.
      * cbn [count]. exact Cc.
      * lia.
      * lia.
      * exists n'. rewrite app_assoc. auto.
    + match type of H with ?f ?st = _ => destruct (IH (S i) st n its eq_refl I P2 L2 ZS) with (s' := s') as (n' & A & B & D) end; [..|exact H|]; try (cbn [count told counted] in *; lia).
      exists n'. auto.
    + match type of H with ?f ?st = _ => destruct (IH (S i) st n its eq_refl I P2 L2 ZS) with (s' := s') as (n' & A & B & D) end; [..|exact H|]; try (cbn [count told counted] in *; lia).
      exists n'. auto.
    + destruct (m =? 255); [discriminate|].
      match type of H with ?f ?st = _ => destruct (IH (S i) st n its eq_refl I P2 L2 ZS) with (s' := s') as (n' & A & B & D) end; [..|exact H|]; try (cbn [count told counted] in *; lia).
      exists n'. auto.
    + rewrite <- NC in H. cbn [counted] in CO.
      assert (J : inv nc (its ++ [Command i])) by (subst nc; apply inv_command; auto; lia).
      assert (J2 : inv (tell_fact i (executes d) nc) ((its ++ [Command i]) ++ [FactOf i (executes d)])).
      { apply inv_fact; [exact J| |lia]. rewrite app_length. cbn [length]. lia. }
      match type of H with ?f ?st = _ => destruct (IH (S i) st (tell_fact i (executes d) nc) ((its ++ [Command i]) ++ [FactOf i (executes d)]) eq_refl J2 P2 L2 ZS) with (s' := s') as (n' & A & B & D) end; [..|exact H|].
      * cbn [count]. rewrite !app_length. cbn [length]. lia.
      * cbn [count]. exact Cc.
      * cbn [ei tell_fact]. lia.
      * cbn [refs tell_fact]. rewrite app_length. cbn [length]. lia.
      * exists n'. replace (its ++ [Command i; FactOf i (executes d)] ++ all_news executes (S i) l)
          with (((its ++ [Command i]) ++ [FactOf i (executes d)]) ++ all_news executes (S i) l) by (rewrite <- !app_assoc; reflexivity). auto.
Qed.
End Note.

Section Whole.
Context (executes : nat -> bool) (program : nat) (inputs : list nat) (code_size : nat) (groups : list nat) (notify : bool).
Context (now reference period tolerance : Z).
Notation inject_productions := (inject_productions executes program inputs code_size groups notify now reference period tolerance).

Lemma totals l : word_total inputs l = 7 + length inputs + (cmd_count l + words_left l) /\ ref_total inputs l = 1 + length inputs + refs_left l.
Proof.
  unfold word_total, ref_total. split; [|reflexivity]. f_equal. unfold cmd_count, words_left.
  induction l as [|p l IH]; cbn [fold_right]; [reflexivity|]. rewrite IH. lia.
Qed.

Theorem told_partial red l e n : Forall plain l -> Forall no_long_probe l ->
  cmd_count l < 256 -> length inputs < 256 -> word_total inputs l < 4096 -> ref_total inputs l < 4096 ->
  inject_productions red true l = Some (true, e, Some n) ->
  tells (sizes_of l) n (all_news executes 0 l) /\ tells_inputs n inputs /\ tells_program n program.
Proof.
  intros P L Cc Ci W R H. destruct (totals l) as [TW TR]. unfold Cmd_model.inject_productions in H. rewrite andb_false_r in H.
  destruct (first_pass code_size red l) as [[|]|]; try discriminate.
  destruct (second_pass executes now reference period tolerance red 0 l (mks [] (start_note program inputs groups notify l) (cmd_count l))) as [[s [|]]|] eqn:Sp; try discriminate.
  destruct (start_note program inputs groups notify l) as [n1|] eqn:N1.
  2: { exfalso. assert (told s = None).
       { clear -Sp. revert Sp. generalize 0 as i. cut (forall i s0, told s0 = None -> second_pass executes now reference period tolerance red i l s0 = Some (s, true) -> told s = None).
         { intros Q i. apply Q. reflexivity. }
         induction l as [|p l IH]; intros i s0 T H; cbn in H; [injection H as <-; exact T|].
         unfold execute, telling in H. rewrite T in H. destruct (what p) as [o v|o v|g v|g v| |m| | |d|]; cbn in H; try discriminate;
           try (eapply IH; [|exact H]; cbn; auto; fail).
         - destruct v; (eapply IH; [|exact H]; cbn; auto).
         - destruct (m =? 255); [discriminate|]. eapply IH; [|exact H]; cbn; auto. }
       unfold finish in H. rewrite H0 in H. discriminate. }
  assert (In1 : n1 = mkn (put (6 + length inputs) (SetOf (cmd_count l)) (words (get_mk_rdx program inputs))) (refs (get_mk_rdx program inputs)) (S (6 + length inputs)) (S (6 + length inputs) + cmd_count l)).
  { unfold start_note in N1. destruct (_ && _)%bool; [|discriminate]. injection N1 as <-. reflexivity. }
  set (n0 := get_mk_rdx program inputs) in *.
  assert (I : inv inputs (sizes_of l) n0 (cmd_count l) n1 []).
  { subst n1. constructor; cbn [wi ei words refs length].
    - lia.
    - lia.
    - intros k K. apply put_other. lia.
    - exists []. rewrite app_nil_r. reflexivity.
    - intros k x X. destruct k; discriminate. }
  destruct (second_inv executes inputs now reference period tolerance (sizes_of l) n0 (cmd_count l) red l 0 _ n1 [] (eq_refl : told (mks [] (Some n1) (cmd_count l)) = Some n1) I P L) with (s' := s)
    as (n' & Tn & In' & Cn); auto.
  - intros k p K. unfold sizes_of. cbn. rewrite K. reflexivity.
  - subst n1. cbn [ei]. lia.
  - subst n1. cbn [refs]. subst n0. unfold get_mk_rdx. cbn [refs length]. rewrite map_length. lia.
  - cbn [app] in In', Cn. unfold finish in H. rewrite Tn in H. injection H as <- <-. destruct In' as [Iw Ie Il [rs Ir] Is].
    assert (CL : length (all_news executes 0 l) <= cmd_count l).
    { clear. generalize 0. induction l as [|p l IH]; intros i; cbn [all_news]; [cbn; lia|]. rewrite app_length. specialize (IH (S i)).
      change (cmd_count (p :: l)) with (counted (what p) + cmd_count l).
      enough (length (news executes i (what p)) <= counted (what p)) by lia.
      destruct (what p) as [o v|o v|g v|g v| |m| | |d|]; cbn; try lia. destruct v; cbn; lia. }
    assert (Low : forall k, k < 6 + length inputs -> put (6 + length inputs) (SetOf (count s)) (words n') k = words n0 k).
    { intros k K. rewrite put_other by lia. apply Il; exact K. }
    split; [|split].
    + exists (6 + length inputs). cbn [words refs]. split; [|split].
      * rewrite Low by lia. subst n0. unfold get_mk_rdx. cbn [words]. rewrite put_inputs_out by lia.
        unfold put. cbn [Nat.eqb]. unfold IPtr. rewrite Nat.mod_small by lia. reflexivity.
      * rewrite put_same. unfold SetOf. rewrite Cn, Nat.mod_small by lia. reflexivity.
      * intros k x X. specialize (Is k x X). destruct x as [i|i b]; cbn [says says_in words refs] in *.
        -- destruct Is as (e0 & A & B & D & F). exists e0. rewrite put_other by lia. split; [exact A|]. intros j J. rewrite put_other by lia. apply F; exact J.
        -- destruct Is as (r & A & B). exists r. rewrite put_other by lia. auto.
    + exists 5. cbn [words refs]. split; [|split].
      * rewrite Low by lia. subst n0. unfold get_mk_rdx. cbn [words]. rewrite put_inputs_out by lia. reflexivity.
      * rewrite Low by lia. subst n0. unfold get_mk_rdx. cbn [words]. rewrite put_inputs_out by lia.
        unfold put. cbn [Nat.eqb]. unfold SetOf. rewrite Nat.mod_small by exact Ci. reflexivity.
      * intros k o K. assert (KL : k < length inputs) by (apply nth_error_Some; congruence).
        exists (S k). rewrite Low by lia. subst n0. unfold get_mk_rdx in *. cbn [words refs] in *.
        replace (5 + S k) with (5 + 1 + k) by lia. rewrite put_inputs_in by exact KL. unfold RPtr. rewrite Nat.mod_small by lia.
        split; [reflexivity|]. rewrite Ir. cbn. rewrite nth_error_app1 by (rewrite map_length; exact KL).
        rewrite nth_error_map, K. reflexivity.
    + exists 0. cbn [words refs]. rewrite Low by lia. subst n0. unfold get_mk_rdx in *. cbn [words refs] in *.
      rewrite put_inputs_out by lia. split; [reflexivity|]. rewrite Ir. reflexivity.
Qed.
End Whole.
