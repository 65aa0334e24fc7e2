(** What learned models predict and infer. *)
From Verif Require Import Base Float32 Atom_model Utils_model Op_model Gd_model Gb_model Gb_spec Gb2_proofs Gb3_proofs.
From Verif Require Gd_spec Gd_proofs.

Lemma setting_reads : forall o b m c w c' p, setting o b m c w -> finish o b m c w = Some c' -> period b = Some p ->
  is_i64 p /\ exists F B, written o b m = Some (F, B) /\ (forall first s, forward o first c' s = eval_guards (ops o) first s F) /\
  (forall first s, backward o first c' s = eval_guards (ops o) first s B).
Proof.
  intros o b m c w c' p (Ho & Hm & Hb & Hh & Hd & Hc) E P.
  split; [destruct b as [|p'|p' off|p' off cd|a p' off|a p' k off|p' off val]; try discriminate; injection P as ->; cbn in Hb; tauto|].
  destruct (written_complete o m b Hc) as (F & B & W). exists F, B. split; [exact W|].
  destruct (builder_reads o b m c w F B Ho Hm Hb Hh W) as (c2 & E2 & G3 & G4 & _).
  assert (c2 = c') as -> by congruence. unfold forward, backward, runs. rewrite G3, G4. auto.
Qed.
Lemma delay_tpl : forall b m d, builder_ok b m -> delay b = Some d -> has_tpl m = true /\ is_i64 d.
Proof. intros [|p|p off|p off cd|a p off|a p k off|p off val] m d H E; try discriminate; injection E as ->; cbn in H; tauto. Qed.
Lemma infers_delay : forall b, infers b = true -> exists d, delay b = Some d.
Proof. intros [|p|p off|p off cd|a p off|a p k off|p off val] H; try discriminate; eexists; reflexivity. Qed.
Lemma valued_tpl : forall b m, builder_ok b m -> valued b = true -> has_tpl m = true.
Proof. intros [|p|p off|p off cd|a p off|a p k off|p off val] m H E; try discriminate; cbn in H; tauto. Qed.
Lemma prediction_ext : forall o b m s s', at_ s' q0 = at_ s q0 -> at_ s' (member (lhs m)) = at_ s (member (lhs m)) -> prediction o b m s' = prediction o b m s.
Proof. intros o b m s s' A B. unfold prediction. rewrite A, B. reflexivity. Qed.
Lemma inference_ext : forall o b m s s', at_ s' q0 = at_ s q0 -> at_ s' (member (rhs m)) = at_ s (member (rhs m)) -> inference o b m s' = inference o b m s.
Proof. intros o b m s s' A B. unfold inference. rewrite A, B. reflexivity. Qed.

(** ** Forward *)
Lemma forward_ok : forall o b m c w c' first s p a e, setting o b m c w -> finish o b m c w = Some c' -> period b = Some p ->
  is s (t0 m) (VTime a) -> is s (t1 m) (VTime e) -> is_i64 a -> is_i64 e -> is_i64 (a + p) -> is_i64 (e + p) ->
  (valued b = true -> exists x, prediction o b m s = Some x /\ bindable x) ->
  exists s', forward o first c' s = Some s' /\ is s' (after (rhs m)) (VTime (a + p)) /\ is s' (before (rhs m)) (VTime (e + p)) /\
    (valued b = true -> at_ s' (member (rhs m)) = prediction o b m s) /\
    (forall y, y <> Z.to_nat (after (rhs m)) -> y <> Z.to_nat (before (rhs m)) -> (valued b = true -> y <> Z.to_nat (member (rhs m))) -> s' y = s y).
Proof.
  intros o b m c w c' first s p a e H E P A T Ia Ie Sa Se V. destruct (setting_reads _ _ _ _ _ _ _ H E P) as (Ip & F & B & W & Fw & _).
  destruct H as (Ho & Hm & Hb & Hh & Hd & Hc). pose proof (times_nodup m Hm Hd) as N.
  destruct (shape o m first b p F B P W) as (fr & cs & br & -> & _ & Fr & _). rewrite Fw. rewrite guards_app.
  rewrite (fwd_times_eval o m first Ho Hm Hd s p a e) by assumption.
  destruct Fr as [[Vf ->]|[Vt (f & x & y & -> & Ev)]].
  - eexists. split; [reflexivity|]. unfold is. rewrite Vf. split; [rewrite Gd_proofs.set_neq; [apply Gd_proofs.set_eq|differ N]|].
    split; [apply Gd_proofs.set_eq|]. split; [discriminate|]. intros y N1 N2 _. rewrite !Gd_proofs.set_neq; auto.
  - destruct (V Vt) as (z & Ez & Bz). pose proof (tpl_nodup m Hm Hd (valued_tpl b m Hb Vt)) as N9. cbn [eval_guards].
    set (s1 := Gd_model.set _ _ _). assert (X : prediction o b m s1 = Some z).
    { rewrite (prediction_ext o b m s s1); [exact Ez| |]; unfold at_, s1; rewrite !Gd_proofs.set_neq; try reflexivity; differ N9. }
    rewrite <- Ev in X. rewrite (gets_value o first s1 _ _ _ z X Bz). eexists. split; [reflexivity|]. unfold is, at_.
    split; [rewrite !Gd_proofs.set_neq; [unfold s1; rewrite Gd_proofs.set_neq; [apply Gd_proofs.set_eq|differ N]|differ N]|].
    split; [rewrite Gd_proofs.set_neq; [apply Gd_proofs.set_eq|differ N]|].
    split; [intros _; rewrite Gd_proofs.set_eq; symmetry; exact Ez|]. intros y0 N1 N2 N3. unfold s1. rewrite !Gd_proofs.set_neq; auto.
Qed.
(** The times, whenever the guards succeed. *)
Lemma forward_times : forall o b m c w c' first s s' p a e, setting o b m c w -> finish o b m c w = Some c' -> period b = Some p ->
  is s (t0 m) (VTime a) -> is s (t1 m) (VTime e) -> is_i64 a -> is_i64 e -> is_i64 (a + p) -> is_i64 (e + p) ->
  forward o first c' s = Some s' -> is s' (after (rhs m)) (VTime (a + p)) /\ is s' (before (rhs m)) (VTime (e + p)) /\
  is s' (t0 m) (VTime a) /\ is s' (t1 m) (VTime e).
Proof.
  intros o b m c w c' first s s' p a e H E P A T Ia Ie Sa Se R. destruct (setting_reads _ _ _ _ _ _ _ H E P) as (Ip & F & B & W & Fw & _).
  destruct H as (Ho & Hm & Hb & Hh & Hd & Hc). pose proof (times_nodup m Hm Hd) as N.
  destruct (shape o m first b p F B P W) as (fr & cs & br & -> & _ & Fr & _). rewrite Fw in R. rewrite guards_app in R.
  rewrite (fwd_times_eval o m first Ho Hm Hd s p a e) in R by assumption.
  assert (X : forall y, y <> Z.to_nat (member (rhs m)) -> s' y = Gd_model.set (Gd_model.set s (Z.to_nat (after (rhs m))) (VTime (a + p))) (Z.to_nat (before (rhs m))) (VTime (e + p)) y).
  { intros y Ny. destruct Fr as [[_ ->]|[_ (f & x & z & -> & _)]]; [cbn in R; injection R as <-; reflexivity|].
    apply (Gd_proofs.guards_elsewhere _ _ _ _ _ _ R). cbn. intros [I0|[]]. congruence. }
  unfold is. rewrite !X by differ N. split; [rewrite Gd_proofs.set_neq; [apply Gd_proofs.set_eq|differ N]|]. split; [apply Gd_proofs.set_eq|].
  split; rewrite !Gd_proofs.set_neq; try assumption; differ N.
Qed.

(** ** Backward *)
Lemma backward_ok : forall o b m c w c' first s p a e, setting o b m c w -> finish o b m c w = Some c' -> period b = Some p -> constant b = false ->
  is s (after (rhs m)) (VTime a) -> is s (before (rhs m)) (VTime e) -> is_i64 a -> is_i64 e -> is_i64 (a - p) -> is_i64 (e - p) ->
  (forall d, delay b = Some d -> is_i64 (a - d)) ->
  (infers b = true -> exists x, inference o b m s = Some x /\ bindable x) ->
  exists s', backward o first c' s = Some s' /\ is s' (t0 m) (VTime (a - p)) /\ is s' (t1 m) (VTime (e - p)) /\
    (forall d, delay b = Some d -> is s' (after (lhs m)) (VTime (a - d)) /\ is s' (before (lhs m)) (VTime (e - p))) /\
    (infers b = true -> at_ s' (member (lhs m)) = inference o b m s) /\
    (forall y, ~ In y (map Z.to_nat ([t0 m; t1 m] ++ match delay b with Some _ => [after (lhs m); before (lhs m)] | None => [] end ++
                                     if infers b then [member (lhs m)] else [])) -> s' y = s y).
Proof.
  intros o b m c w c' first s p a e H E P C A T Ia Ie Sa Se Sd V. destruct (setting_reads _ _ _ _ _ _ _ H E P) as (Ip & F & B & W & _ & Bw).
  destruct H as (Ho & Hm & Hb & Hh & Hd & Hc). pose proof (times_nodup m Hm Hd) as N.
  destruct (shape o m first b p F B P W) as (fr & cs & br & _ & -> & _ & Br). destruct (Br C) as [-> Br']. clear Br. rewrite Bw. rewrite guards_app.
  rewrite (bwd_times_eval o m first Ho Hm Hd s p a e) by assumption. set (s1 := Gd_model.set _ _ _). rewrite guards_app.
  assert (A1 : is s1 (after (rhs m)) (VTime a)) by (unfold is, s1; rewrite !Gd_proofs.set_neq; [exact A|differ N..]).
  assert (T1 : is s1 (before (rhs m)) (VTime e)) by (unfold is, s1; rewrite !Gd_proofs.set_neq; [exact T|differ N..]).
  assert (B0 : s1 (Z.to_nat (t0 m)) = Some (VTime (a - p))) by (unfold s1; rewrite Gd_proofs.set_neq; [apply Gd_proofs.set_eq|differ N]).
  assert (B1 : s1 (Z.to_nat (t1 m)) = Some (VTime (e - p))) by apply Gd_proofs.set_eq.
  assert (Other : forall y, y <> Z.to_nat (t0 m) -> y <> Z.to_nat (t1 m) -> s1 y = s y) by (intros; unfold s1; rewrite !Gd_proofs.set_neq; auto).
  clearbody s1. destruct (delay b) as [d|] eqn:Ed.
  - destruct (delay_tpl b m d Hb Ed) as [Tp Id]. pose proof (tpl_nodup m Hm Hd Tp) as N9.
    rewrite (cause_times_eval o m first Ho Hm Hd s1 d p a e) by auto. set (s2 := Gd_model.set _ _ _).
    assert (C0 : s2 (Z.to_nat (after (lhs m))) = Some (VTime (a - d))) by (unfold s2; rewrite Gd_proofs.set_neq; [apply Gd_proofs.set_eq|differ N9]).
    assert (C1 : s2 (Z.to_nat (before (lhs m))) = Some (VTime (e - p))) by apply Gd_proofs.set_eq.
    assert (Other2 : forall y, y <> Z.to_nat (after (lhs m)) -> y <> Z.to_nat (before (lhs m)) -> s2 y = s1 y) by (intros; unfold s2; rewrite !Gd_proofs.set_neq; auto).
    clearbody s2. destruct Br' as [[If ->]|[It (x & -> & Ev)]].
    + eexists. split; [reflexivity|]. rewrite If. unfold is.
      split; [rewrite Other2; [exact B0|differ N9..]|]. split; [rewrite Other2; [exact B1|differ N9..]|].
      split; [intros d' Ed'; assert (d' = d) as -> by congruence; auto|]. split; [discriminate|].
      cbn [map app In]. intros y Ny. rewrite Other2, Other; try reflexivity; intros ->; apply Ny; auto 10.
    + destruct (V It) as (z & Ez & Bz). cbn [eval_guards].
      assert (X : inference o b m s2 = Some z) by (rewrite (inference_ext o b m s s2); [exact Ez| |]; unfold at_; rewrite Other2, Other; try reflexivity; differ N9).
      rewrite (Ev s2 z X Bz). eexists. split; [reflexivity|]. rewrite It. unfold is, at_.
      split; [rewrite Gd_proofs.set_neq, Other2; [exact B0|differ N9..]|]. split; [rewrite Gd_proofs.set_neq, Other2; [exact B1|differ N9..]|].
      split; [intros d' Ed'; assert (d' = d) as -> by congruence; split; rewrite Gd_proofs.set_neq; try assumption; differ N9|].
      split; [intros _; rewrite Gd_proofs.set_eq; symmetry; exact Ez|].
      cbn [map app In]. intros y Ny. rewrite Gd_proofs.set_neq, Other2, Other; try reflexivity; intros ->; apply Ny; auto 10.
  - destruct (infers b) eqn:If; [exfalso; destruct (infers_delay b If); congruence|].
    destruct Br' as [[_ ->]|[It _]]; [|discriminate]. eexists. split; [reflexivity|]. split; [exact B0|]. split; [exact B1|].
    split; [discriminate|]. split; [discriminate|]. cbn [map app In]. intros y Ny. apply Other; intros ->; apply Ny; auto 10.
Qed.
Lemma backward_rest : forall o b m p F B, builder_ok b m -> period b = Some p -> written o b m = Some (F, B) ->
  exists r, B = bwd_times o m p ++ r /\ (r = [] \/ (has_tpl m = true /\
    forall y, In y (Gd_spec.targets r) -> In y (map Z.to_nat [q0; after (lhs m); before (lhs m); member (lhs m); after (rhs m); before (rhs m)]))).
Proof.
  intros o b m p F B Hb P W. destruct b as [|p'|p' off|p' off cd|a p' off|a p' k off|p' off [x|h args|]]; try discriminate; injection P as ->; injection W as _ <-; cbn in Hb;
  eexists; (split; [reflexivity|]); try (left; reflexivity); right; (split; [tauto|]); cbn; tauto.
Qed.
Lemma backward_times : forall o b m c w c' first s s' p a e, setting o b m c w -> finish o b m c w = Some c' -> period b = Some p ->
  is s (after (rhs m)) (VTime a) -> is s (before (rhs m)) (VTime e) -> is_i64 a -> is_i64 e -> is_i64 (a - p) -> is_i64 (e - p) ->
  backward o first c' s = Some s' -> is s' (t0 m) (VTime (a - p)) /\ is s' (t1 m) (VTime (e - p)).
Proof.
  intros o b m c w c' first s s' p a e H E P A T Ia Ie Sa Se R. destruct (setting_reads _ _ _ _ _ _ _ H E P) as (Ip & F & B & W & _ & Bw).
  destruct H as (Ho & Hm & Hb & Hh & Hd & Hc). pose proof (times_nodup m Hm Hd) as N.
  destruct (backward_rest o b m p F B Hb P W) as (r & -> & Rr). rewrite Bw in R. rewrite guards_app in R.
  rewrite (bwd_times_eval o m first Ho Hm Hd s p a e) in R by assumption. revert R. set (s1 := Gd_model.set _ _ _). intros R.
  assert (B0 : s1 (Z.to_nat (t0 m)) = Some (VTime (a - p))) by (unfold s1; rewrite Gd_proofs.set_neq; [apply Gd_proofs.set_eq|differ N]).
  assert (B1 : s1 (Z.to_nat (t1 m)) = Some (VTime (e - p))) by apply Gd_proofs.set_eq.
  clearbody s1. destruct Rr as [->|[Tp Tg]]; [injection R as <-; auto|]. pose proof (tpl_nodup m Hm Hd Tp) as N9.
  assert (X : forall y, ~ In y (map Z.to_nat [q0; after (lhs m); before (lhs m); member (lhs m); after (rhs m); before (rhs m)]) -> s' y = s1 y).
  { intros y Ny. apply (Gd_proofs.guards_elsewhere _ _ _ _ _ _ R). intros I. apply Ny, Tg, I. }
  unfold is. rewrite !X; [auto| |]; cbn [map In]; clear - N9; cbn [map] in N9; repeat rewrite NoDup_cons_iff in N9; cbn [In] in N9; intuition congruence.
Qed.

(** ** There and back *)
Lemma round_trip : forall o b m c w c' first s s1 s2 p a e, setting o b m c w -> finish o b m c w = Some c' -> period b = Some p ->
  is s (t0 m) (VTime a) -> is s (t1 m) (VTime e) -> is_i64 a -> is_i64 e -> is_i64 (a + p) -> is_i64 (e + p) ->
  forward o first c' s = Some s1 -> backward o first c' s1 = Some s2 -> is s2 (t0 m) (VTime a) /\ is s2 (t1 m) (VTime e).
Proof.
  intros o b m c w c' first s s1 s2 p a e H E P A T Ia Ie Sa Se F B.
  destruct (forward_times _ _ _ _ _ _ _ _ _ _ _ _ H E P A T Ia Ie Sa Se F) as (A1 & T1 & _).
  replace a with (a + p - p) by lia. replace e with (e + p - p) by lia.
  apply (backward_times o b m c w c' first s1 s2 p _ _ H E P A1 T1); try assumption; [replace (a + p - p) with a by lia|replace (e + p - p) with e by lia]; assumption.
Qed.

(** ** Observations *)
Lemma chosen_period : forall target cause consequent b, chosen target cause consequent b -> period b = Some (period_of target consequent) /\
  (forall d, delay b = Some d -> d = t_after consequent - t_after cause).
Proof.
  intros target cause consequent b H. destruct H as [action|tol imdl k q0 q1 b i H|tol s q0 q1 b H].
  - destruct action; split; try reflexivity; [|discriminate]. intros d E. injection E as <-. reflexivity.
  - unfold find_imdl in H. destruct (get imdl k) as [h|]; [|discriminate].
    destruct (search _ _ _ _ _); [injection H as <- _; split; [reflexivity|]; intros d E; injection E as <-; unfold period_of; lia|].
    destruct (feqb _ _); [discriminate|]. destruct (search _ _ _ _ _); [|discriminate].
    injection H as <- _; split; [reflexivity|]; intros d E; injection E as <-; unfold period_of; lia.
  - unfold find_mk_val in H. destruct (isFloat s); [|discriminate].
    destruct (Equal _ _ _); [injection H as <-; split; [reflexivity|]; intros d E; injection E as <-; unfold period_of; lia|].
    destruct (negb _); injection H as <-; split; try reflexivity; discriminate.
Qed.
Lemma predicts_observation : forall o b m c w c' first s s' target cause consequent, setting o b m c w -> finish o b m c w = Some c' ->
  chosen target cause consequent b -> is s (t0 m) (VTime (t_after target)) -> is s (t1 m) (VTime (t_before target)) ->
  within target -> within consequent -> is_i64 (t_before target + period_of target consequent) -> forward o first c' s = Some s' ->
  is s' (after (rhs m)) (VTime (t_after consequent)) /\
  (is s' (before (rhs m)) (VTime (t_before consequent)) <-> t_before consequent - t_after consequent = t_before target - t_after target).
Proof.
  intros o b m c w c' first s s' target cause consequent H E C A T [I1 I2] [I3 I4] I5 F. destruct (chosen_period _ _ _ _ C) as [P _].
  destruct (forward_times _ _ _ _ _ _ _ _ _ _ _ _ H E P A T I1 I2 ltac:(unfold period_of; replace (_ + _) with (t_after consequent) by lia; assumption) I5 F) as (A1 & T1 & _).
  unfold period_of in *. replace (t_after target + (t_after consequent - t_after target)) with (t_after consequent) in A1 by lia. split; [exact A1|].
  unfold is in *. rewrite T1. split; [intros X; injection X; lia|]. intros X. do 2 f_equal. lia.
Qed.
Lemma infers_observation : forall o b m c w c' first s target cause consequent, setting o b m c w -> finish o b m c w = Some c' ->
  chosen target cause consequent b -> constant b = false ->
  is s (after (rhs m)) (VTime (t_after consequent)) -> is s (before (rhs m)) (VTime (t_before consequent)) ->
  within target -> within cause -> within consequent -> is_i64 (t_before consequent - period_of target consequent) ->
  (infers b = true -> exists x, inference o b m s = Some x /\ bindable x) ->
  exists s', backward o first c' s = Some s' /\ is s' (t0 m) (VTime (t_after target)) /\
    (delay b <> None -> is s' (after (lhs m)) (VTime (t_after cause))) /\
    (infers b = true -> at_ s' (member (lhs m)) = inference o b m s).
Proof.
  intros o b m c w c' first s target cause consequent H E C K A T [I1 I2] [I3 I4] [I5 I6] I7 V. destruct (chosen_period _ _ _ _ C) as [P D].
  assert (X : t_after consequent - period_of target consequent = t_after target) by (unfold period_of; lia).
  assert (Y : forall d, delay b = Some d -> t_after consequent - d = t_after cause) by (intros d Hd; apply D in Hd; lia).
  destruct (backward_ok o b m c w c' first s _ (t_after consequent) (t_before consequent) H E P K A T I5 I6) as (s' & B & B0 & B1 & Cs & Vs & _); auto.
  { rewrite X. assumption. } { intros d Hd. rewrite (Y d Hd). assumption. }
  exists s'. split; [exact B|]. rewrite X in B0. split; [exact B0|]. split; [|exact Vs].
  destruct (delay b) as [d|] eqn:Ed; [|congruence]. intros _. destruct (Cs d eq_refl) as [C0 _]. rewrite (Y d eq_refl) in C0. exact C0.
Qed.
