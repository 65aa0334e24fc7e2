(** Lemmas about injection, atomic states, components and ratings. *)
From Verif Require Import Base Utils_model Utils_proofs Af_model Af_spec.
Local Open Scope nat_scope.

(** * Injection *)
Section Inject.
Context (morph : Z -> Z -> Z -> Z) (base ref tol : Z).
Notation inject_input := (Af_model.inject_input morph base ref tol).

Notation right_view := (Af_spec.right_view morph).
Lemma per_group_right : forall f s fixed w origin v gs, payload f = payload (i_fact v) -> positive f = positive (i_fact v) ->
  fixed = match i_sync v with Granted => Some 1%Z | _ => None end ->
  Forall2 (right_view origin v) gs (per_group morph f s fixed w origin v gs).
Proof.
  intros f s fixed w origin v gs P1 P2 F. revert w. induction gs as [|g gs IH]; intro w; cbn; constructor; [|apply IH].
  unfold Af_spec.right_view. cbn. repeat split; try assumption. rewrite F. destruct (i_sync v); reflexivity.
Qed.
Lemma per_group_watched : forall f s fixed w origin v g gs, map snd (per_group morph f s fixed w origin v (g :: gs)) = w :: map (fun _ => false) gs.
Proof.
  intros f s fixed w origin v g gs. cbn. f_equal. induction gs as [|g' gs IH]; [reflexivity|]. cbn. rewrite IH. reflexivity.
Qed.
Lemma per_group_fact : forall f s fixed w origin v gs x, In x (per_group morph f s fixed w origin v gs) -> i_fact (fst x) = f /\ i_sync (fst x) = s.
Proof. intros f s fixed w origin v gs. revert w. induction gs as [|g gs IH]; intros w x []; [subst x; split; reflexivity|eapply IH; eassumption]. Qed.

Lemma injected_right : forall now ctpx_on origin v g gs, i_sync v <> GrantedOnce ->
  exists l, inject_input now ctpx_on origin v (g :: gs) = Some l /\ Forall2 (right_view origin v) (g :: gs) l /\
    map snd l = watched ctpx_on v :: map (fun _ => false) gs.
Proof.
  intros now ctpx_on origin v g gs N. unfold Af_model.inject_input. destruct (i_sync v) eqn:S1; try congruence;
    (eexists; split; [reflexivity|]); (split; [apply per_group_right; rewrite ?S1; reflexivity|]); rewrite per_group_watched; unfold watched; rewrite S1; rewrite ?andb_false_r, ?andb_true_r; reflexivity.
Qed.

Lemma injected_times : forall now ctpx_on origin v g gs l x, (0 < g_upr g)%Z -> (0 < base)%Z -> (ref <= now)%Z ->
  inject_input now ctpx_on origin v (g :: gs) = Some l -> In x l ->
  match i_sync v with
  | Once => i_fact (fst x) = i_fact v /\ i_sync (fst x) = Once
  | Periodic | Granted =>
      (after (i_fact (fst x)) <= now < before (i_fact (fst x)))%Z /\ (before (i_fact (fst x)) = after (i_fact (fst x)) + g_upr g * base)%Z /\
      (exists k, after (i_fact (fst x)) = ref + k * (g_upr g * base))%Z
  | Hold =>
      (after (i_fact (fst x)) = now + 2 * tol)%Z /\ (before (i_fact (fst x)) = now + g_upr g * base)%Z /\ i_sync (fst x) = Once
  | GrantedOnce => False
  end.
Proof.
  intros now ctpx_on origin v g gs l x U Bp R E I0. unfold Af_model.inject_input in E.
  assert (P : (0 < g_upr g * base)%Z) by (apply Z.mul_pos_pos; assumption).
  assert (T : let a := get_prev_upr_time (g_upr g) base ref now in (a <= now < get_next_upr_time (g_upr g) base ref now)%Z /\
     (get_next_upr_time (g_upr g) base ref now = a + g_upr g * base)%Z /\ exists k, (a = ref + k * (g_upr g * base))%Z).
  { cbn zeta. unfold get_prev_upr_time, get_next_upr_time. destruct (Z.eqb_spec (g_upr g) 0); [lia|]. cbn zeta.
    pose proof (Z.rem_bound_pos (now - ref) (g_upr g * base)) as H. pose proof (Z.quot_rem' (now - ref) (g_upr g * base)) as Q.
    set (p := (g_upr g * base)%Z) in *. set (r := Z.rem (now - ref) p) in *. set (k := ((now - ref) ÷ p)%Z) in *. split; [lia|]. split; [lia|]. exists k. lia. }
  cbn zeta in T. destruct (i_sync v) eqn:S1; try discriminate; apply (f_equal (fun o => match o with Some y => y | None => [] end)) in E; cbn beta iota in E; subst l; destruct (per_group_fact _ _ _ _ _ _ _ _ I0) as (F & Y); rewrite F; cbn [after before]; auto.
Qed.
End Inject.

(** * Atomic states *)
Lemma jobs_killed : forall hold l s, killed s = true -> jobs hold l s = s.
Proof. intros hold l; induction l as [|i l IH]; intros s K; [reflexivity|]. cbn. unfold job at 2. rewrite K. apply IH. exact K. Qed.
Lemma jobs_until : forall hold l s, killed s = false -> let (k, d) := until l in
  stored (jobs hold l s) = rev (List.filter kept k) ++ stored s /\
  signalled (jobs hold l s) = signalled s ++ match d with Some i => match a_sort i with Fresh Contradicts => [i] | _ => [] end | None => [] end /\
  killed (jobs hold l s) = match d with Some _ => true | None => false end /\
  dead (jobs hold l s) = (dead s || match d with Some i => match a_sort i with Fresh Contradicts => hold | Fresh Confirms => negb hold | _ => false end | None => false end)%bool /\
  source_dead (jobs hold l s) = (source_dead s || match d with Some i => match a_sort i with Fresh Contradicts => hold | _ => false end | None => false end)%bool.
Proof.
  intros hold l; induction l as [|i l IH]; intros s K.
  - cbn. rewrite app_nil_r, !orb_false_r. auto.
  - cbn [until jobs fold_left]. fold (jobs hold l (job hold s i)). unfold job. rewrite K. destruct (decisive i) eqn:D.
    + assert (KK : killed (react hold i s) = true) by (unfold decisive in D; unfold react; destruct (a_sort i) as [| |[] []|[]]; try discriminate; reflexivity).
      rewrite jobs_killed by exact KK. unfold decisive in D. unfold react. destruct (a_sort i) as [| |[] []|[]]; try discriminate; cbn; rewrite ?app_nil_r, ?orb_false_r; destruct hold; rewrite ?orb_false_r, ?orb_true_r; auto.
    + assert (KK : killed (react hold i s) = false) by (unfold decisive in D; unfold react; destruct (a_sort i) as [| |[] []|[]]; try discriminate; exact K).
      pose proof (IH _ KK) as Q. destruct (until l) as [k d]. destruct Q as (Q1 & Q2 & Q3 & Q4 & Q5). rewrite Q1, Q2, Q3, Q4, Q5.
      unfold decisive in D. unfold react, kept. cbn [List.filter]. destruct (a_sort i) as [| |[] []|[]]; try discriminate; cbn; rewrite <- ?app_assoc; auto.
Qed.
Lemma one_signal : forall hold l, length (signalled (jobs hold l watching)) <= 1.
Proof.
  intros hold l. pose proof (jobs_until hold l watching eq_refl) as Q. destruct (until l) as [k d]. destruct Q as (_ & -> & _). cbn.
  destruct d as [i|]; [destruct (a_sort i) as [| | |[]]|]; cbn; lia.
Qed.

Lemma react_killed : forall hold i s, killed s = true -> killed (react hold i s) = true.
Proof. intros hold i s K. unfold react. destruct (a_sort i) as [| |[] []|[]]; cbn; auto. Qed.
Lemma react_signalled : forall hold i s, length (signalled (react hold i s)) <= S (length (signalled s)).
Proof. intros hold i s. unfold react. destruct (a_sort i) as [| |[] []|[]]; cbn; rewrite ?app_length; cbn; lia. Qed.
Lemma removed_length : forall i w, existsb (fun j => a_id j =? a_id i) w = true -> S (length (removed i w)) = length w.
Proof. intros i w. induction w as [|j w IH]; cbn; [discriminate|]. destruct (a_id j =? a_id i); [reflexivity|]. intro H. cbn. rewrite IH; [reflexivity|exact H]. Qed.
Lemma killed_threads : forall hold ps s w s' w', killed s = true -> threads hold ps (s, w) = Some (s', w') ->
  killed s' = true /\ length (signalled s') + length w' <= length (signalled s) + length w.
Proof.
  intros hold ps; induction ps as [|p ps IH]; intros s w s' w' K E; cbn in E; [injection E as <- <-; auto|].
  destruct p as [i|i]; cbn in E.
  - rewrite K in E. cbn in E. exact (IH _ _ _ _ K E).
  - destruct (existsb (fun j => a_id j =? a_id i) w) eqn:X; [|discriminate]. destruct (IH _ _ _ _ (react_killed hold i s K) E) as (Q1 & Q2). split; [exact Q1|].
    pose proof (react_signalled hold i s). pose proof (removed_length i w X). lia.
Qed.
Lemma late_check : forall hold i ps s w, killed s = true -> threads hold (Check i :: ps) (s, w) = threads hold ps (s, w).
Proof. intros hold i ps s w K. cbn. rewrite K. reflexivity. Qed.
(** With one thread, the jobs are done one after the other. *)
Lemma one_thread : forall hold l s, (forall i, In i l -> a_sort i <> Gone) ->
  exists ps, threads hold ps (s, []) = Some (jobs hold l s, []).
Proof.
  intros hold l; induction l as [|i l IH]; intros s N; [exists []; reflexivity|].
  destruct (IH (job hold s i)) as (ps & E); [intros j J; apply N; right; exact J|].
  destruct (killed s) eqn:K.
  - exists ps. change (jobs hold (i :: l) s) with (jobs hold l (job hold s i)). rewrite <- E. unfold job. rewrite K. reflexivity.
  - exists (Check i :: Body i :: ps). change (jobs hold (i :: l) s) with (jobs hold l (job hold s i)). rewrite <- E. clear E. cbn. rewrite K. cbn. pose proof (N i (or_introl eq_refl)) as G.
    assert (H : match a_sort i with Gone => true | _ => false end = false) by (destruct (a_sort i); congruence). rewrite H. cbn. rewrite Nat.eqb_refl. cbn. unfold job. rewrite K. reflexivity.
Qed.

(** * Components *)
Definition grow (c c' : comp) : Prop := o_id c' = o_id c /\ o_parts c' = o_parts c /\ (discarded c = true -> discarded c' = true).
Lemma grows_refl : forall cs, Forall2 grow cs cs.
Proof. induction cs as [|c cs IH]; constructor; [repeat split; auto|exact IH]. Qed.
Lemma grows_trans : forall a b c, Forall2 grow a b -> Forall2 grow b c -> Forall2 grow a c.
Proof.
  intros a b c F. revert c. induction F as [|x y a b (P1 & P2 & P3) F IH]; intros c G; inversion G as [|? z ? c' (Q1 & Q2 & Q3) G2]; subst; constructor; [|apply IH; exact G2].
  split; [congruence|]. split; [congruence|]. auto.
Qed.
Lemma grows_remains : forall a b p, Forall2 grow a b -> remains b p -> remains a p.
Proof.
  intros a b p F (c & I0 & P & D). induction F as [|x y a b (P1 & P2 & P3) F IH]; [destruct I0|]. destruct I0 as [-> |I0].
  - exists x. split; [left; reflexivity|]. split; [congruence|]. destruct (discarded x) eqn:X; [rewrite (P3 eq_refl) in D; discriminate|reflexivity].
  - destruct (IH I0) as (z & Z & Q). exists z. split; [right; exact Z|exact Q].
Qed.
Lemma grows_ids : forall a b, Forall2 grow a b -> map o_id b = map o_id a /\ map o_parts b = map o_parts a.
Proof. intros a b F. induction F as [|x y a b (P1 & P2 & _) F (I1 & I2)]; [auto|]. cbn. rewrite P1, P2, I1, I2. auto. Qed.
Lemma grows_nth : forall a b k c, Forall2 grow a b -> nth_error b k = Some c -> exists c0, nth_error a k = Some c0 /\ grow c0 c.
Proof. intros a b k c F. revert k. induction F as [|x y a b P F IH]; intros [|k] E; cbn in *; try discriminate; [injection E as <-; exists x; auto|exact (IH k E)]. Qed.
Lemma grows_in : forall a b c, Forall2 grow a b -> In c b -> exists c0, In c0 a /\ grow c0 c.
Proof. intros a b c F I0. apply In_nth_error in I0. destruct I0 as (k & E). destruct (grows_nth _ _ _ _ F E) as (c0 & E0 & G). exists c0. split; [eapply nth_error_In; exact E0|exact G]. Qed.
Lemma grows_nth' : forall a b k c, Forall2 grow a b -> nth_error a k = Some c -> exists c1, nth_error b k = Some c1 /\ grow c c1.
Proof. intros a b k c F. revert k. induction F as [|x y a b P F IH]; intros [|k] E; cbn in *; try discriminate; [injection E as <-; exists y; auto|exact (IH k E)]. Qed.

(** The inputs of an instance that are found. *)
Definition hit (ps : list nat) (c : comp) : bool := (negb (discarded c) && existsb (Nat.eqb (o_id c)) ps)%bool.
Lemma found_at_in : forall ps k c j, In j (found_at ps k c) <-> j = k /\ hit ps c = true.
Proof.
  intros ps k c j. unfold found_at, hit. destruct (discarded c); cbn; [split; [intros []|intros (_ & Q); discriminate]|].
  rewrite in_flat_map. split.
  - intros (p & I0 & Q). destruct (Nat.eqb_spec p (o_id c)) as [E|]; [|destruct Q]. destruct Q as [Q|[]]. split; [auto|]. apply existsb_exists. exists p. split; [exact I0|]. subst p. apply Nat.eqb_refl.
  - intros (-> & Q). apply existsb_exists in Q. destruct Q as (p & I0 & E). apply Nat.eqb_eq in E. exists p. split; [exact I0|]. rewrite E, Nat.eqb_refl. left. reflexivity.
Qed.
Definition found_from (n : nat) (ps : list nat) (cs : list comp) : list nat :=
  flat_map (fun kc => found_at ps (fst kc) (snd kc)) (combine (seq n (length cs)) cs).
Lemma found_from_in : forall ps cs n j, In j (found_from n ps cs) <-> exists i c, j = n + i /\ nth_error cs i = Some c /\ hit ps c = true.
Proof.
  intros ps cs; induction cs as [|c cs IH]; intros n j; cbn.
  - split; [intros []|intros (i & c & _ & E & _); destruct i; discriminate].
  - rewrite in_app_iff. fold (found_from (S n) ps cs). rewrite found_at_in, IH. split.
    + intros [(-> & H)|(i & c' & -> & E & H)]; [exists 0, c; split; [lia|auto]|exists (S i), c'; split; [lia|auto]].
    + intros ([|i] & c' & -> & E & H); cbn in E; [injection E as <-; left; split; [lia|exact H]|right; exists i, c'; split; [lia|auto]].
Qed.
Fixpoint total (l : list nat) : nat := match l with [] => 0 | x :: l => x + total l end.
Lemma found_from_length : forall ps cs n, length (found_from n ps cs) <= total (map (fun i => count_occ Nat.eq_dec ps i) (map o_id cs)).
Proof.
  intros ps cs; induction cs as [|c cs IH]; intro n; cbn; [lia|]. rewrite app_length. fold (found_from (S n) ps cs). specialize (IH (S n)).
  assert (H : length (found_at ps n c) <= count_occ Nat.eq_dec ps (o_id c)).
  { unfold found_at. destruct (discarded c); [cbn; lia|]. clear. induction ps as [|p ps IH]; [cbn; lia|]. cbn. rewrite app_length. destruct (Nat.eqb_spec p (o_id c)), (Nat.eq_dec p (o_id c)); try congruence; cbn; lia. }
  lia.
Qed.
Lemma total_count : forall ps ids, NoDup ids -> total (map (fun i => count_occ Nat.eq_dec ps i) ids) <= length ps.
Proof.
  intros ps ids N. induction ps as [|p ps IH].
  - cbn. clear N. induction ids as [|i ids IH]; cbn; lia.
  - assert (H : total (map (fun i => count_occ Nat.eq_dec (p :: ps) i) ids) = total (map (fun i => count_occ Nat.eq_dec ps i) ids) + count_occ Nat.eq_dec ids p).
    { clear. induction ids as [|i ids IH]; [reflexivity|]. cbn [map total]. rewrite IH. cbn [count_occ]. destruct (Nat.eq_dec p i), (Nat.eq_dec i p); try congruence; lia. }
    rewrite H. pose proof (proj1 (NoDup_count_occ Nat.eq_dec ids) N p). cbn. lia.
Qed.
Definition mark (ps : list nat) (c : comp) : comp := if hit ps c then discard c else c.
Lemma mark_map : forall ps f cs n, (forall i c, nth_error cs i = Some c -> existsb (Nat.eqb (n + i)) f = hit ps c) ->
  map (fun kc => if existsb (Nat.eqb (fst kc)) f then discard (snd kc) else snd kc) (combine (seq n (length cs)) cs) = map (mark ps) cs.
Proof.
  intros ps f cs; induction cs as [|c cs IH]; intros n H; [reflexivity|]. cbn. rewrite IH.
  - f_equal. unfold mark. rewrite <- (H 0 c eq_refl), Nat.add_0_r. reflexivity.
  - intros i c' E. rewrite <- (H (S i) c' E). f_equal. f_equal. lia.
Qed.
Lemma filter_icst_spec : forall ps k cs c, NoDup (map o_id cs) -> nth_error cs k = Some c ->
  filter_icst_components ps k cs = if existsb (hit ps) cs then Some (map (mark ps) cs) else discard_at k cs.
Proof.
  intros ps k cs c N E. unfold filter_icst_components. change (found ps cs) with (found_from 0 ps cs).
  assert (L : (length ps <? length (found_from 0 ps cs)) = false).
  { apply Nat.ltb_ge. etransitivity; [apply found_from_length|apply total_count; exact N]. }
  rewrite L. destruct (found_from 0 ps cs) as [|x r] eqn:F.
  - assert (X : existsb (hit ps) cs = false).
    { destruct (existsb (hit ps) cs) eqn:X; [|reflexivity]. exfalso. apply existsb_exists in X. destruct X as (c' & I0 & H). apply In_nth_error in I0. destruct I0 as (i & I0).
      assert (Q : In (0 + i) (found_from 0 ps cs)) by (apply found_from_in; exists i, c'; auto). rewrite F in Q. destruct Q. }
    rewrite X. reflexivity.
  - rewrite <- F. assert (Q : In x (found_from 0 ps cs)) by (rewrite F; left; reflexivity). apply found_from_in in Q. destruct Q as (i & c' & _ & I0 & H).
    assert (X : existsb (hit ps) cs = true) by (apply existsb_exists; exists c'; split; [eapply nth_error_In; exact I0|exact H]). rewrite X. f_equal.
    apply mark_map. intros i' c2 E2. apply eq_true_iff_eq. rewrite existsb_exists. split.
    + intros (j & J & Q). apply Nat.eqb_eq in Q. subst j. apply found_from_in in J. destruct J as (i2 & c3 & Q & E3 & H3). assert (i' = i2) by lia. subst. congruence.
    + intro H2. exists (0 + i'). split; [apply found_from_in; exists i', c2; auto|apply Nat.eqb_refl].
Qed.
Lemma discard_at_spec : forall k cs c, nth_error cs k = Some c -> exists cs', discard_at k cs = Some cs' /\ Forall2 grow cs cs' /\
  nth_error cs' k = Some (discard c) /\ forall c', In c' cs' -> In c' cs \/ c' = discard c.
Proof.
  induction k as [|k IH]; intros [|x cs] c E; cbn in E; try discriminate; cbn.
  - injection E as ->. eexists. split; [reflexivity|]. split; [constructor; [repeat split; auto|apply grows_refl]|]. split; [reflexivity|]. intros c' [<-|I0]; [right; reflexivity|left; right; exact I0].
  - destruct (IH _ _ E) as (cs' & -> & G & N & I1). eexists. split; [reflexivity|]. split; [constructor; [repeat split; auto|exact G]|]. split; [exact N|].
    intros c' [<-|I0]; [left; left; reflexivity|]. destruct (I1 c' I0) as [I2|I2]; [left; right; exact I2|right; exact I2].
Qed.

(** What holds when the instances before [k] were handled. *)
Definition so_far (k : nat) (before cs : list comp) : Prop :=
  Forall2 grow before cs /\
  (forall i c ps, i < k -> nth_error cs i = Some c -> o_parts c = Some ps -> discarded c = false ->
     (forall p, In p ps -> ~ remains cs p) /\ exists p c', In p ps /\ In c' before /\ o_id c' = p) /\
  (forall c, In c cs -> discarded c = true ->
     (exists c' ps, In c' before /\ o_parts c' = Some ps /\ In (o_id c) ps) \/
     (exists ps, o_parts c = Some ps /\ forall p, In p ps -> ~ remains cs p)).

Lemma so_far_step : forall k before cs c ps, so_far k before cs -> NoDup (map o_id before) -> nth_error cs k = Some c -> o_parts c = Some ps ->
  exists cs', filter_icst_components ps k cs = Some cs' /\ so_far (S k) before cs'.
Proof.
  intros k before cs c ps (G & P & Q) N E PS. assert (N2 : NoDup (map o_id cs)) by (rewrite (proj1 (grows_ids _ _ G)); exact N).
  rewrite (filter_icst_spec ps k cs c N2 E). destruct (grows_nth _ _ _ _ G E) as (c0 & E0 & G01 & G02 & _).
  destruct (existsb (hit ps) cs) eqn:X.
  - eexists. split; [reflexivity|].
    assert (GM : Forall2 grow cs (map (mark ps) cs)).
    { clear. induction cs as [|x cs IH]; constructor; [|exact IH]. unfold mark. destruct (hit ps x); repeat split; auto. }
    assert (NP : forall p, In p ps -> ~ remains (map (mark ps) cs) p).
    { intros p IP (c1 & I1 & ID & D). apply in_map_iff in I1. destruct I1 as (x & MX & IX). unfold mark in MX. destruct (hit ps x) eqn:H; subst c1; [discriminate|].
      unfold hit in H. rewrite D in H. cbn in H. assert (H2 : existsb (Nat.eqb (o_id x)) ps = true) by (apply existsb_exists; exists p; split; [exact IP|apply Nat.eqb_eq; exact ID]). congruence. }
    split; [exact (grows_trans _ _ _ G GM)|]. split.
    + intros i c1 ps1 L E1 PS1 D1. destruct (grows_nth _ _ _ _ GM E1) as (c2 & E2 & H1 & H2 & H3).
      destruct (Nat.eq_dec i k) as [-> |NE].
      * assert (c2 = c) by congruence. subst c2. assert (ps1 = ps) by congruence. subst ps1. split; [exact NP|].
        apply existsb_exists in X. destruct X as (x & IX & HX). unfold hit in HX. apply andb_true_iff in HX. destruct HX as (_ & HX). apply existsb_exists in HX. destruct HX as (p & IP & EP). apply Nat.eqb_eq in EP.
        destruct (grows_in _ _ _ G IX) as (x0 & IX0 & GX & _). exists p, x0. split; [exact IP|]. split; [exact IX0|]. congruence.
      * destruct (P i c2 ps1) as (P1 & P2); [lia|exact E2|congruence| |].
        { destruct (discarded c2) eqn:D2; [rewrite (H3 eq_refl) in D1; discriminate|reflexivity]. }
        split; [|exact P2]. intros p IP R. exact (P1 p IP (grows_remains _ _ _ GM R)).
    + intros c1 I1 D1. apply in_map_iff in I1. destruct I1 as (x & MX & IX). unfold mark in MX. destruct (hit ps x) eqn:H; subst c1.
      * left. exists c0, ps. split; [eapply nth_error_In; exact E0|]. split; [congruence|]. unfold hit in H. apply andb_true_iff in H. destruct H as (_ & H). apply existsb_exists in H. destruct H as (p & IP & EP). apply Nat.eqb_eq in EP. cbn. rewrite EP. exact IP.
      * destruct (Q x IX D1) as [Q1|(ps1 & Q1 & Q2)]; [left; exact Q1|right]. exists ps1. split; [exact Q1|]. intros p IP R. exact (Q2 p IP (grows_remains _ _ _ GM R)).
  - destruct (discard_at_spec k cs c E) as (cs' & -> & GM & EK & IK). eexists. split; [reflexivity|]. split; [exact (grows_trans _ _ _ G GM)|]. split.
    + intros i c1 ps1 L E1 PS1 D1. destruct (grows_nth _ _ _ _ GM E1) as (c2 & E2 & H1 & H2 & H3).
      destruct (Nat.eq_dec i k) as [-> |NE]; [assert (c1 = discard c) by congruence; subst c1; discriminate|].
      destruct (P i c2 ps1) as (P1 & P2); [lia|exact E2|congruence| |].
      { destruct (discarded c2) eqn:D2; [rewrite (H3 eq_refl) in D1; discriminate|reflexivity]. }
      split; [|exact P2]. intros p IP R. exact (P1 p IP (grows_remains _ _ _ GM R)).
    + intros c1 I1 D1. destruct (IK c1 I1) as [I2|I2].
      * destruct (Q c1 I2 D1) as [Q1|(ps1 & Q1 & Q2)]; [left; exact Q1|right]. exists ps1. split; [exact Q1|]. intros p IP R. exact (Q2 p IP (grows_remains _ _ _ GM R)).
      * subst c1. right. exists ps. split; [exact PS|]. intros p IP R. apply (grows_remains _ _ _ GM) in R. destruct R as (x & IX & ID & DX).
        assert (X2 : existsb (hit ps) cs = true).
        { apply existsb_exists. exists x. split; [exact IX|]. unfold hit. rewrite DX. cbn. apply existsb_exists. exists p. split; [exact IP|apply Nat.eqb_eq; exact ID]. }
        congruence.
Qed.
Lemma so_far_all : forall m k before cs, so_far k before cs -> NoDup (map o_id before) ->
  (forall i, k <= i < k + m -> exists c ps, nth_error cs i = Some c /\ o_parts c = Some ps) ->
  exists cs', filter_all k (seq k m) cs = Some cs' /\ so_far (k + m) before cs'.
Proof.
  induction m as [|m IH]; intros k before cs SF N H; cbn.
  - exists cs. split; [reflexivity|]. rewrite Nat.add_0_r. exact SF.
  - destruct (H k) as (c & ps & E & PS); [lia|]. rewrite E, PS. destruct (so_far_step _ _ _ _ _ SF N E PS) as (cs1 & -> & SF1).
    replace (k + S m) with (S k + m) by lia. apply IH; [exact SF1|exact N|]. intros i L. destruct (H i) as (c1 & ps1 & E1 & PS1); [lia|].
    destruct SF as (G & _). destruct SF1 as (G1 & _). destruct (grows_nth _ _ _ _ G E1) as (c2 & E2 & _ & Q2 & _). destruct (grows_nth' _ _ _ _ G1 E2) as (c3 & E3 & _ & Q3 & _).
    exists c3, ps1. split; [exact E3|]. congruence.
Qed.
Lemma instances_first : forall is rest, (forall c, In c is -> o_parts c <> None) -> (forall c, In c rest -> o_parts c = None) -> instances_of (is ++ rest) = seq 0 (length is).
Proof.
  intros is rest HI HR. unfold instances_of.
  assert (R : forall n, flat_map (fun kc : nat * comp => match o_parts (snd kc) with Some _ => [fst kc] | None => [] end) (combine (seq n (length rest)) rest) = []).
  { induction rest as [|c rest IH]; intro n; [reflexivity|]. cbn. rewrite (HR c (or_introl eq_refl)). apply IH. intros x X. apply HR. right. exact X. }
  assert (Q : forall n, flat_map (fun kc : nat * comp => match o_parts (snd kc) with Some _ => [fst kc] | None => [] end) (combine (seq n (length (is ++ rest))) (is ++ rest)) = seq n (length is)).
  { induction is as [|c is IH]; intro n; [apply R|]. cbn. pose proof (HI c (or_introl eq_refl)) as H. destruct (o_parts c); [|congruence]. cbn. f_equal. apply IH. intros x X. apply HI. right. exact X. }
  apply Q.
Qed.
Lemma assemble_tidy : forall is rest, (forall c, In c is -> o_parts c <> None) -> (forall c, In c rest -> o_parts c = None) ->
  NoDup (map o_id (is ++ rest)) -> (forall c, In c (is ++ rest) -> discarded c = false) ->
  exists cs, assemble (is ++ rest) = Some cs /\ map o_id cs = map o_id (is ++ rest) /\ map o_parts cs = map o_parts (is ++ rest) /\ tidy (is ++ rest) cs.
Proof.
  intros is rest HI HR N D. unfold assemble. rewrite (instances_first is rest HI HR).
  destruct (so_far_all (length is) 0 (is ++ rest) (is ++ rest)) as (cs & -> & G & P & Q).
  - split; [apply grows_refl|]. split; [intros i c ps L; lia|]. intros c I0 DC. rewrite (D c I0) in DC. discriminate.
  - exact N.
  - intros i L. destruct (nth_error is i) as [c|] eqn:E; [|apply nth_error_None in E; lia]. pose proof (HI c (nth_error_In _ _ E)) as H. destruct (o_parts c) as [ps|] eqn:PS; [|congruence].
    exists c, ps. split; [|exact PS]. rewrite nth_error_app1; [exact E|]. apply nth_error_Some. congruence.
  - exists cs. split; [reflexivity|]. destruct (grows_ids _ _ G) as (I1 & I2). split; [exact I1|]. split; [exact I2|]. split; [|exact Q].
    intros c ps I0 PS DC. apply In_nth_error in I0. destruct I0 as (i & E). apply (P i c ps); [|exact E|exact PS|exact DC].
    destruct (grows_nth _ _ _ _ G E) as (c0 & E0 & _ & Q2 & _). destruct (Nat.ltb_spec i (length is)) as [L|L]; [lia|]. exfalso.
    rewrite nth_error_app2 in E0 by exact L. apply nth_error_In in E0. apply HR in E0. congruence.
Qed.

(** * Ratings *)
Lemma u32_id : forall x, (0 <= x < 4294967296)%Z -> u32 x = x.
Proof. intros x H. unfold u32. apply Z.mod_small. exact H. Qed.
Lemma rated_spec : forall l r, (0 <= positives r <= evidences r)%Z -> (evidences r + Z.of_nat (length l) < 4294967296)%Z ->
  exists r', rated l r = Some r' /\ (evidences r' = evidences r + Z.of_nat (length l))%Z /\
    (positives r' = positives r + Z.of_nat (length (List.filter (fun b => b) l)))%Z /\
    (l <> [] -> rate r' = (positives r' / evidences r')%Z).
Proof.
  induction l as [|b l IH]; intros r P L.
  - exists r. split; [reflexivity|]. cbn. split; [lia|]. split; [lia|]. congruence.
  - cbn [length] in L. cbn [rated]. unfold add_evidence.
    assert (E1 : u32 (evidences r + 1) = (evidences r + 1)%Z) by (apply u32_id; lia). assert (E2 : u32 (positives r + 1) = (positives r + 1)%Z) by (apply u32_id; lia).
    rewrite E1, E2. destruct (Z.eqb_spec (evidences r + 1) 0); [lia|]. cbn zeta.
    set (p := if b then (positives r + 1)%Z else positives r).
    destruct (IH (mkrating (evidences r + 1) p (p / (evidences r + 1)))) as (r' & R & Q1 & Q2 & Q3); [cbn; unfold p; destruct b; lia|cbn; lia|].
    exists r'. split; [exact R|]. cbn [evidences positives rate] in *. split; [cbn; lia|]. split; [cbn; unfold p in Q2; destruct b; cbn; lia|]. intros _.
    destruct l as [|b' l]; [|apply Q3; discriminate]. cbn in R. injection R as <-. reflexivity.
Qed.
Lemma rate_whole : forall l, (0 < length l) -> (Z.of_nat (length l) < 4294967296)%Z ->
  exists r, rated l unrated = Some r /\ rate r = (if forallb (fun b => b) l then 1 else 0)%Z.
Proof.
  intros l L B. destruct (rated_spec l unrated) as (r & R & Q1 & Q2 & Q3); [cbn; lia|cbn; lia|]. exists r. split; [exact R|].
  rewrite Q3 by (intros ->; cbn in L; lia). rewrite Q1, Q2. cbn [evidences positives unrated]. rewrite !Z.add_0_l.
  assert (LE : length (List.filter (fun b : bool => b) l) <= length l) by (clear; induction l as [|[] l IH]; cbn; lia).
  destruct (forallb (fun b => b) l) eqn:F.
  - assert (E : List.filter (fun b : bool => b) l = l) by (clear - F; induction l as [|[] l IH]; cbn in *; [reflexivity|rewrite IH; auto|discriminate]).
    rewrite E. apply Z.div_same. lia.
  - assert (LT : length (List.filter (fun b : bool => b) l) < length l).
    { clear - F. induction l as [|[] l IH]; cbn in *; [discriminate|apply IH in F; lia|]. assert (length (List.filter (fun b : bool => b) l) <= length l) by (clear; induction l as [|[] l IH]; cbn; lia). lia. }
    apply Z.div_small. lia.
Qed.
