(* Proofs on defeated requirements and on monitors. *)
From Coq Require Import ZArith QArith List Bool Arith Lia.
From Verif Require Import Sto_model Sto_spec Sto_proofs.
Import ListNotations.
Open Scope Z_scope.

Section Run.
Context (clash chains : nat -> nat -> bool).
Notation run := (run clash chains).
Notation step := (step clash chains).

Lemma mixed_run : forall es, (0 <? wr (demands (run es)))%nat && (0 <? sr (demands (run es)))%nat = mixed es.
Proof.
  induction es as [|e es IH] using rev_ind; [reflexivity|]. rewrite run_snoc. unfold mixed. rewrite fold_left_app. unfold Sto_model.step. cbn [demands fold_left].
  fold (mixed es). rewrite <- IH. destruct e; cbn [step_reqs]; try reflexivity.
  - destruct sim, neg; reflexivity.
  - unfold store. destruct (rneg r), (rsims r); reflexivity.
  - destruct (rneg r); reflexivity.
  - destruct (_ && _) eqn:E; cbn [wr sr]; rewrite E; reflexivity.
Qed.

Lemma grounded_snoc : forall es e p g, grounded (es ++ [e]) p g <-> grounded es p g \/ (e = Attach p g /\ mixed es = true).
Proof.
  intros. split.
  - intros (e1 & e2 & H & M). apply snoc_split in H. destruct H as [(-> & -> & <-)|(e2' & -> & ->)]; [right; auto|left; exists e1, e2'; auto].
  - intros [(e1 & e2 & -> & M)|(-> & M)]; [exists e1, (e2 ++ [e]); rewrite <- app_assoc; auto|exists es, []; auto].
Qed.
Lemma links_run : forall es p g, In (p, g) (links (demands (run es))) <-> grounded es p g.
Proof.
  induction es as [|e es IH] using rev_ind; intros p g.
  - split; [intros []|]. intros (e1 & e2 & H & _). destruct e1; discriminate.
  - rewrite grounded_snoc, <- IH, run_snoc. unfold Sto_model.step. cbn [demands].
    destruct e; cbn [step_reqs]; try (split; [auto|intros [H|(H & _)]; [exact H|discriminate]]; fail).
    + destruct sim, neg; (split; [auto|intros [H|(H & _)]; [exact H|discriminate]]).
    + unfold store. destruct (rneg r), (rsims r); (split; [auto|intros [H|(H & _)]; [exact H|discriminate]]).
    + destruct (rneg r); (split; [auto|intros [H|(H & _)]; [exact H|discriminate]]).
    + pose proof (mixed_run es) as M. destruct (_ && _); cbn [links].
      * split; [intros [H|H]; [injection H as -> ->; auto|auto]|intros [H|(H & _)]; [right; exact H|injection H as -> ->; left; reflexivity]].
      * split; [auto|intros [H|(_ & H)]; [exact H|congruence]].
Qed.

Lemma stored_in : forall sim neg es r, In r (stored sim neg es) <-> In (Store r) es /\ rneg r = neg /\ is_sim r = sim.
Proof.
  intros. unfold stored. rewrite <- in_rev, in_flat_map. split.
  - intros (e & E & H). destruct e; try destruct H. destruct (Bool.eqb (rneg r0) neg && Bool.eqb (is_sim r0) sim) eqn:X; [|destruct H]. destruct H as [<-|[]].
    apply andb_prop in X. destruct X as (X & Y). apply eqb_prop in X. apply eqb_prop in Y. auto.
  - intros (E & <- & <-). exists (Store r). split; [exact E|]. rewrite !eqb_reflx. left. reflexivity.
Qed.
Lemma spos_from : forall es r, In r (spos (demands (run es))) -> In (Store r) es /\ rneg r = false.
Proof.
  induction es as [|e es IH] using rev_ind; intros r H; [destruct H|]. rewrite run_snoc in H. unfold Sto_model.step in H. cbn [demands] in H.
  assert (K : In r (spos (demands (run es))) -> In (Store r) (es ++ [e]) /\ rneg r = false) by (intros X; apply IH in X; split; [apply in_or_app; left|]; apply X).
  destruct e; cbn [step_reqs] in H; auto.
  - destruct sim, neg; auto. cbn [spos] in H. apply sweep_in in H. auto.
  - unfold store in H. destruct (rneg r0) eqn:R, (rsims r0) eqn:Q; auto. cbn [spos] in H. unfold push in H. destruct H as [<-|H]; [|apply filter_In in H; destruct H; auto].
    split; [apply in_or_app; right; left; reflexivity|exact R].
  - destruct (rneg r0); auto.
  - destruct (_ && _); auto.
Qed.
Lemma spos_has : forall es r, In (Store r) es -> rneg r = false -> is_sim r = true -> current es r = true -> In r (spos (demands (run es))).
Proof.
  intros es r I N Sm C. destruct (kept_reqs clash chains es) as (_ & _ & E & _).
  assert (In r (filter (current es) (spos (demands (run es))))); [|apply filter_In in H; apply H].
  rewrite E. apply filter_In. split; [|exact C]. apply stored_in. auto.
Qed.

Lemma used_iff : forall es g, used (demands (run es)) g = true <-> exists q, grounded es q g.
Proof.
  intros. unfold used. rewrite existsb_exists. split.
  - intros ((q, g') & H & E). cbn in E. apply Nat.eqb_eq in E. subst g'. exists q. apply links_run. exact H.
  - intros (q & H). exists (q, g). split; [apply links_run; exact H|apply Nat.eqb_refl].
Qed.

Lemma defeats_iff : forall es r g, In g (defeats clash (demands (run es)) r) <->
  mixed es = true /\ (exists q, grounded es q g) /\ exists e, rid e = g /\ In e (spos (demands (run es))) /\ opposes clash e r.
Proof.
  intros es r g. unfold defeats. rewrite mixed_run. split.
  - intros H. destruct (rneg r) eqn:N; [|destruct H]. destruct (rsims r) as [|sim [|? ?]] eqn:Sm; try destruct H. destruct (mixed es); [|destruct H].
    apply in_map_iff in H. destruct H as (e & E & H). apply filter_In in H. destruct H as (I & H).
    apply andb_prop in H. destruct H as (H & Q). apply andb_prop in H. destruct H as (H & C). apply andb_prop in H. destruct H as (U & X).
    split; [reflexivity|]. split; [apply used_iff; rewrite <- E; exact U|]. exists e. split; [exact E|]. split; [exact I|].
    split; [apply (spos_from es); exact I|]. split; [exact N|]. split; [|split; [exact C|apply Qle_bool_iff; exact Q]].
    exists sim. split; [exact Sm|]. apply existsb_exists in X. destruct X as (y & Y & X). apply Nat.eqb_eq in X. subst y. exact Y.
  - intros (M & U & e & <- & I & _ & N & (sim & Sm & X) & C & Q). rewrite N, Sm, M. apply in_map. apply filter_In. split; [exact I|].
    rewrite C. apply used_iff in U. rewrite U. rewrite andb_true_r, andb_true_l, (proj2 (Qle_bool_iff _ _) Q), andb_true_r.
    apply existsb_exists. exists sim. split; [exact X|apply Nat.eqb_refl].
Qed.

Lemma defeated_run : forall es g, In g (defeated (demands (run es))) <->
  exists e1 r e2, es = e1 ++ Store r :: e2 /\ In g (defeats clash (demands (run e1)) r).
Proof.
  induction es as [|e es IH] using rev_ind; intros g.
  - split; [intros []|]. intros (e1 & r & e2 & H & _). destruct e1; discriminate.
  - rewrite run_snoc. unfold Sto_model.step. cbn [demands].
    assert (P : (exists e1 r e2, es ++ [e] = e1 ++ Store r :: e2 /\ In g (defeats clash (demands (run e1)) r)) <->
                In g (defeated (demands (run es))) \/ (exists r, e = Store r /\ In g (defeats clash (demands (run es)) r))).
    { rewrite IH. split.
      - intros (e1 & r & e2 & H & D). apply snoc_split in H. destruct H as [(-> & -> & <-)|(e2' & -> & ->)]; [right; eauto|left; eauto 6].
      - intros [(e1 & r & e2 & -> & D)|(r & -> & D)]; [exists e1, r, (e2 ++ [e]); rewrite <- app_assoc; auto|exists es, r, []; auto]. }
    rewrite P.
    destruct e; cbn [step_reqs]; try (split; [auto|intros [H|(? & H & _)]; [exact H|discriminate]]; fail).
    + destruct sim, neg; (split; [auto|intros [H|(? & H & _)]; [exact H|discriminate]]).
    + assert (D : defeated (store clash (clock (run es)) r (demands (run es))) = defeated (demands (run es)) ++ defeats clash (demands (run es)) r)
        by (unfold store; destruct (rneg r), (rsims r); reflexivity).
      rewrite D, in_app_iff. split; [intros [H|H]; eauto|intros [H|(r0 & H & K)]; [auto|injection H as ->; auto]].
    + destruct (rneg r); (split; [auto|intros [H|(? & H & _)]; [exact H|discriminate]]).
    + destruct (_ && _); (split; [auto|intros [H|(? & H & _)]; [exact H|discriminate]]).
Qed.

Lemma falls_iff : forall es p, falls (demands (run es)) p = true <-> exists g, grounded es p g /\ In g (defeated (demands (run es))).
Proof.
  intros. unfold falls. rewrite existsb_exists. split.
  - intros ((q, g) & H & E). cbn in E. apply andb_prop in E. destruct E as (E & F). apply Nat.eqb_eq in E. subst q.
    exists g. split; [apply links_run; exact H|]. apply existsb_exists in F. destruct F as (y & Y & F). apply Nat.eqb_eq in F. subst y. exact Y.
  - intros (g & H & D). exists (p, g). split; [apply links_run; exact H|]. cbn. rewrite Nat.eqb_refl. apply existsb_exists. exists g. split; [exact D|apply Nat.eqb_refl].
Qed.

Lemma falls_sound : forall es p, falls (demands (run es)) p = true ->
  exists e1 r e2 e q, es = e1 ++ Store r :: e2 /\ In (Store e) e1 /\ opposes clash e r /\ mixed e1 = true /\
    grounded e1 q (rid e) /\ grounded es p (rid e).
Proof.
  intros es p H. apply falls_iff in H. destruct H as (g & G & D). apply defeated_run in D. destruct D as (e1 & r & e2 & E & D).
  apply defeats_iff in D. destruct D as (M & (q & Q) & e & <- & I & O). exists e1, r, e2, e, q. repeat split; auto; try apply O. eapply spos_from; exact I.
Qed.
Lemma falls_complete : forall e1 r e2 e p q, In (Store e) e1 -> current e1 e = true -> opposes clash e r -> mixed e1 = true ->
  grounded e1 q (rid e) -> grounded (e1 ++ Store r :: e2) p (rid e) -> falls (demands (run (e1 ++ Store r :: e2))) p = true.
Proof.
  intros e1 r e2 e p q I C O M Q G. apply falls_iff. exists (rid e). split; [exact G|]. apply defeated_run. exists e1, r, e2. split; [reflexivity|].
  apply defeats_iff. split; [exact M|]. split; [exists q; exact Q|]. exists e. split; [reflexivity|]. split; [|exact O].
  apply spos_has; auto; [apply O|]. destruct O as (_ & _ & (sim & _ & X) & _). unfold is_sim. destruct (rsims e); [destruct X|reflexivity].
Qed.

Lemma others_stand : forall es r p, rneg r = false \/ length (rsims r) <> 1%nat ->
  falls (demands (run (es ++ [Store r]))) p = falls (demands (run es)) p.
Proof.
  intros es r p H. rewrite run_snoc. unfold Sto_model.step. cbn [demands step_reqs].
  assert (D : defeats clash (demands (run es)) r = []).
  { unfold defeats. destruct (rneg r); [|reflexivity]. destruct (rsims r) as [|? [|? ?]]; try reflexivity. destruct H as [H|H]; [discriminate|]. exfalso. apply H. reflexivity. }
  unfold store, falls. rewrite D, app_nil_r. destruct (rneg r), (rsims r); reflexivity.
Qed.

(* Monitors. *)
Lemma guards_fold : forall es s, guards (fold_left step es s) = fold_left (fun g e => step_mons chains e g) es (guards s).
Proof. induction es as [|e es IH]; intros s; [reflexivity|]. cbn [fold_left]. rewrite IH. reflexivity. Qed.

Lemma signal_spec : forall g r l m, NoDup l ->
  mem m (fst (signal chains g r l)) = mem m l && negb (mem m g) && negb (chains m (rid r)) /\
  told_of m (map (fun x => (x, r)) (snd (signal chains g r l))) = (if mem m l && negb (mem m g) then [r] else []) /\
  (forall x, In x (fst (signal chains g r l)) -> In x l) /\ NoDup (fst (signal chains g r l)).
Proof.
  intros g r l m. induction l as [|x l IH]; intros N; [repeat split; auto; constructor|]. inversion N as [|? ? X N']; subst.
  destruct (IH N') as (A & B & C & D). cbn [signal]. destruct (signal chains g r l) as [rest sig]. cbn [fst snd] in *.
  assert (Ml : (m =? x)%nat = true -> mem m l = false).
  { intros E. apply Nat.eqb_eq in E. subst x. apply not_true_iff_false. intros F. apply X. apply existsb_exists in F. destruct F as (y & Y & F). apply Nat.eqb_eq in F. subst y. exact Y. }
  assert (Cx : forall y, In y (x :: rest) -> In y (x :: l)) by (intros y [<-|Y]; [left; reflexivity|right; auto]).
  assert (Dx : NoDup (x :: rest)) by (constructor; auto).
  change (existsb (Nat.eqb x) g) with (mem x g). change (mem m (x :: l)) with ((m =? x)%nat || mem m l).
  destruct (m =? x)%nat eqn:E.
  - rewrite (Ml eq_refl) in *. apply Nat.eqb_eq in E. subst x. cbn [orb andb] in *.
    destruct (mem m g); cbn [negb andb] in *; cbn [fst snd map]; [repeat split; auto; intros; right; auto|].
    assert (T : told_of m ((m, r) :: map (fun x => (x, r)) sig) = [r]) by (unfold told_of in *; cbn; rewrite Nat.eqb_refl, B; reflexivity).
    destruct (chains m (rid r)); cbn [fst snd map]; repeat split; auto; [intros; right; auto|].
    cbn. rewrite Nat.eqb_refl. reflexivity.
  - cbn [orb]. assert (T : told_of m ((x, r) :: map (fun x => (x, r)) sig) = told_of m (map (fun x => (x, r)) sig)).
    { unfold told_of. cbn. rewrite Nat.eqb_sym, E. reflexivity. }
    destruct (mem x g); cbn [fst snd map]; [repeat split; auto; intros; right; auto|].
    destruct (chains x (rid r)); cbn [fst snd map]; rewrite T; repeat split; auto; [intros; right; auto|].
    cbn. rewrite E. exact A.
Qed.

Lemma mem_in : forall m l, mem m l = true <-> In m l.
Proof.
  intros. unfold mem. rewrite existsb_exists. split; [intros (y & Y & E); apply Nat.eqb_eq in E; subst; exact Y|intros H; exists m; split; [exact H|apply Nat.eqb_refl]].
Qed.
Lemma mem_remove : forall m x l, mem m (remove Nat.eq_dec x l) = negb (x =? m)%nat && mem m l.
Proof.
  intros. induction l as [|y l IH]; cbn [remove]; [destruct (_ =? _)%nat; reflexivity|].
  destruct (Nat.eq_dec x y) as [<-|Ne]; rewrite ?IH; unfold mem in *; cbn; rewrite ?IH.
  - rewrite Nat.eqb_sym. destruct (m =? x)%nat; reflexivity.
  - destruct (Nat.eqb_spec m y); [subst y|]; cbn; [destruct (Nat.eqb_spec x m); [congruence|reflexivity]|reflexivity].
Qed.
Lemma remove_nodup : forall x l, NoDup l -> NoDup (remove Nat.eq_dec x l).
Proof.
  induction l as [|y l IH]; intros N; [constructor|]. inversion N; subst. cbn. destruct (Nat.eq_dec x y); [auto|]. constructor; [|auto].
  intros H. apply in_remove in H. destruct H. auto.
Qed.

Lemma told_app : forall m l k, told_of m (l ++ k) = told_of m l ++ told_of m k.
Proof. intros. unfold told_of. apply flat_map_app. Qed.

Lemma heard_fold : forall m es s, NoDup (waits es) -> NoDup (waiting s) -> (forall x, In x (waiting s) -> ~ In x (waits es)) ->
  told_of m (told (fold_left (fun g e => step_mons chains e g) es s)) =
  told_of m (told s) ++ heard chains m (mem m (waiting s)) (mem m (gone s)) es.
Proof.
  intros m. induction es as [|e es IH]; intros s W N D; [cbn; rewrite app_nil_r; reflexivity|].
  cbn [fold_left heard]. unfold waits in W, D. cbn [flat_map] in W, D. fold (waits es) in W, D.
  destruct e; cbn [step_mons app] in *; try (apply IH; assumption).
  - destruct (rneg r) eqn:R; cbn [negb andb]; [apply IH; assumption|].
    destruct (signal_spec (gone s) r (waiting s) m N) as (A & B & C & E).
    destruct (signal chains (gone s) r (waiting s)) as [rest sig]. cbn [fst snd] in *.
    rewrite IH; cbn [waiting gone told]; auto. rewrite told_app, B, A, <- app_assoc. f_equal.
    destruct (mem m (waiting s)); cbn [andb]; [|reflexivity]. destruct (mem m (gone s)); reflexivity.
  - inversion W as [|? ? X W']; subst. rewrite IH; cbn [waiting gone told]; auto.
    + change (mem m (m0 :: waiting s)) with ((m =? m0)%nat || mem m (waiting s)). rewrite (Nat.eqb_sym m m0). destruct (m0 =? m)%nat; reflexivity.
    + constructor; [|exact N]. intros Y. apply (D m0 Y). left. reflexivity.
    + intros x [<-|Y]; [exact X|]. intros Z1. apply (D x Y). right. exact Z1.
  - rewrite IH; cbn [waiting gone told]; auto.
    + rewrite mem_remove. destruct (m0 =? m)%nat; reflexivity.
    + apply remove_nodup, N.
    + intros x X. apply in_remove in X. apply D, X.
  - rewrite IH; cbn [waiting gone told]; auto.
    change (mem m (m0 :: gone s)) with ((m =? m0)%nat || mem m (gone s)). rewrite (Nat.eqb_sym m m0). destruct (m0 =? m)%nat; reflexivity.
Qed.
Lemma heard_run : forall es m, NoDup (waits es) -> told_of m (told (guards (run es))) = heard chains m false false es.
Proof.
  intros es m W. unfold Sto_model.run. rewrite guards_fold, heard_fold; [reflexivity|exact W|constructor|intros x []].
Qed.
End Run.
