From Verif Require Import Base Pgm_model Pgm_spec.
From Coq Require Import Permutation.

Lemma erase_perm : forall p l, In p l -> Permutation l (p :: erase p l).
Proof.
  induction l as [|q l IH]; cbn [In erase]; intro H; [contradiction|].
  destruct (Nat.eqb q p) eqn:E.
  - apply Nat.eqb_eq in E. subst q. apply Permutation_refl.
  - apply Nat.eqb_neq in E. destruct H as [H|H]; [congruence|].
    apply Permutation_trans with (q :: p :: erase p l); [apply perm_skip; auto|apply perm_swap].
Qed.
Lemma NoDup_map_filter : forall {A B} (f : A -> B) (g : A -> bool) l, NoDup (map f l) -> NoDup (map f (filter g l)).
Proof.
  induction l as [|x l IH]; cbn; intro H; [constructor|]. inversion H as [|? ? N D]; subst.
  destruct (g x); cbn; auto. constructor; auto.
  intro I. apply N. apply in_map_iff in I. destruct I as (y & E & I). apply filter_In in I. apply in_map_iff. exists y. tauto.
Qed.
Lemma NoDup_app_intro : forall {A} (l l' : list A), NoDup l -> NoDup l' -> (forall x, In x l -> ~ In x l') -> NoDup (l ++ l').
Proof.
  induction l as [|x l IH]; cbn; intros l' D D' X; [exact D'|]. inversion D as [|? ? N D1]; subst. constructor.
  - rewrite in_app_iff. intros [I|I]; [contradiction|]. exact (X x (or_introl eq_refl) I).
  - apply IH; auto.
Qed.
Lemma NoDup_app_l : forall {A} (l l' : list A), NoDup (l ++ l') -> NoDup l.
Proof.
  induction l as [|x l IH]; cbn; intros l' D; [constructor|]. inversion D as [|? ? N D']; subst. constructor; [|eauto].
  intro I. apply N. apply in_or_app. left. exact I.
Qed.

Section Program.
Variable pats : list nat.
Variable pmatch : history -> nat -> nat -> bool.
Variable guards : history -> bool.
Variable cf : config.
Variable s : list moment.
Hypothesis distinct : NoDup pats.
Hypothesis str : stream s.

Notation comb := (combination pats pmatch).
Definition live (o : overlay) : bool := negb (dead o).
(** What is true of the overlays that wait, before the k-th input. *)
Definition good (k : nat) (o : overlay) : Prop :=
  comb (hist o) /\ (forall x, In x (hist o) -> (snd x < k)%nat) /\ Permutation (map fst (hist o) ++ waiting o) pats /\
  (pats <> [] -> waiting o <> []) /\ birth o = match hist o with [] => 0 | x :: _ => when s (snd x) end.
Definition hists (l : list overlay) : list history := map hist (filter live l).
Definition inv (k : nat) (l : list overlay) : Prop := (forall o, In o l -> live o = true -> good k o) /\ NoDup (hists l).

Definition passes (k : nat) (o : overlay) : bool := negb (is_invalidated cf (gone_at s k) o || expired cf (when s k) o).
Definition next (k : nat) (o : overlay) : list overlay :=
  let '(o', f, _) := reduce_overlay pmatch guards o k (when s k) in match f with Some x => [x; o'] | None => [o'] end.
Definition fires (k : nat) (o : overlay) : list history := snd (reduce_overlay pmatch guards o k (when s k)).

Lemma sweep_split : forall k l al fr ke fi al', sweep pmatch guards cf k (when s k) (gone_at s k) l al = (fr, ke, fi, al') ->
  exists l1 l2, l = l1 ++ l2 /\ Permutation (fr ++ ke) (flat_map (next k) (filter (passes k) l1) ++ l2) /\
  fi = flat_map (fires k) (filter (passes k) l1) /\ (run_once cf = false -> al = true -> l2 = [] /\ al' = true).
Proof.
  intro k. induction l as [|o r IH]; intros al fr ke fi al' H; cbn [sweep] in H.
  - injection H as <- <- <- <-. exists [], []. split; [reflexivity|]. split; [apply Permutation_refl|]. auto.
  - destruct (is_invalidated cf (gone_at s k) o || expired cf (when s k) o) eqn:E.
    + destruct (IH _ _ _ _ _ H) as (l1 & l2 & -> & P & F & A). exists (o :: l1), l2.
      assert (PO : passes k o = false) by (unfold passes; rewrite E; reflexivity). cbn [app filter]. rewrite PO. auto.
    + assert (PO : passes k o = true) by (unfold passes; rewrite E; reflexivity).
      destruct (reduce_overlay pmatch guards o k (when s k)) as [[o' f] fd] eqn:R.
      set (a1 := al && negb (run_once cf && negb (match fd with [] => true | _ => false end))) in H.
      assert (NX : next k o = match f with Some x => [x; o'] | None => [o'] end) by (unfold next; rewrite R; reflexivity).
      assert (FX : fires k o = fd) by (unfold fires; rewrite R; reflexivity).
      destruct (negb a1) eqn:NA.
      * injection H as <- <- <- <-. exists [o], r. split; [reflexivity|]. cbn [filter]. rewrite PO. cbn [flat_map].
        rewrite NX, FX, !app_nil_r. split; [destruct f; cbn; apply Permutation_refl|]. split; [reflexivity|].
        intros Q ->. subst a1. rewrite Q in NA. discriminate.
      * destruct (sweep pmatch guards cf k (when s k) (gone_at s k) r a1) as [[[fr1 ke1] fi1] al1] eqn:S1. injection H as <- <- <- <-.
        destruct (IH _ _ _ _ _ S1) as (l1 & l2 & -> & P & F & A). exists (o :: l1), l2. split; [reflexivity|].
        cbn [filter]. rewrite PO. cbn [flat_map]. rewrite NX, FX. split.
        -- destruct f as [x|]; cbn [app].
           ++ rewrite <- app_assoc. cbn [app]. apply Permutation_trans with (x :: (fr1 ++ o' :: ke1)); [apply Permutation_sym, Permutation_middle|].
              apply perm_skip. apply Permutation_trans with (o' :: (fr1 ++ ke1)); [apply Permutation_sym, Permutation_middle|].
              apply perm_skip. exact P.
           ++ rewrite app_nil_r. apply Permutation_trans with (o' :: (fr1 ++ ke1)); [apply Permutation_sym, Permutation_middle|].
              apply perm_skip. exact P.
        -- split; [rewrite F; reflexivity|]. intros Q ->. apply A; [exact Q|]. subst a1. rewrite Q. reflexivity.
Qed.

(** One overlay. *)
Lemma find_waiting : forall o k p, match_ pmatch o k = Some p -> In p (waiting o) /\ pmatch (hist o) p k = true.
Proof. unfold match_. intros o k p H. apply find_some in H. exact H. Qed.
Lemma good_step : forall k o p, (k < length s)%nat -> good k o -> match_ pmatch o k = Some p ->
  comb (hist o ++ [(p, k)]) /\ good (S k) (offspring_of o p) /\
  Permutation (map fst (hist o ++ [(p, k)]) ++ erase p (waiting o)) pats /\
  (erase p (waiting o) = [] -> complete pats (hist o ++ [(p, k)])) /\
  forall d, erase p (waiting o) <> [] -> good (S k) (mkpo (hist o ++ [(p, k)]) (erase p (waiting o)) (if birth o =? 0 then when s k else birth o) d).
Proof.
  intros k o p K (C & L & P & W & B) M. apply find_waiting in M. destruct M as [I M].
  assert (ND : NoDup (map fst (hist o) ++ waiting o)) by (apply (Permutation_NoDup (Permutation_sym P)); exact distinct).
  assert (IP : In p pats) by (apply (Permutation_in _ P); apply in_or_app; right; exact I).
  assert (NI : ~ In p (map fst (hist o))).
  { intro J. apply in_split in J. destruct J as (a & b & J). rewrite J in ND. rewrite <- app_assoc in ND. cbn in ND.
    apply NoDup_remove_2 in ND. apply ND. rewrite !in_app_iff. right. right. exact I. }
  assert (C' : comb (hist o ++ [(p, k)])) by (constructor; assumption).
  assert (P' : Permutation (map fst (hist o ++ [(p, k)]) ++ erase p (waiting o)) pats).
  { apply Permutation_trans with (map fst (hist o) ++ waiting o); [|exact P]. rewrite map_app, <- app_assoc. apply Permutation_app_head.
    cbn. apply Permutation_sym, erase_perm. exact I. }
  split; [exact C'|]. split.
  - split; [exact C|]. split; [intros x X; specialize (L x X); lia|]. split; [|split].
    + cbn [offspring_of hist waiting]. apply Permutation_trans with (map fst (hist o) ++ waiting o); [|exact P]. apply Permutation_app_head.
      apply Permutation_trans with (p :: erase p (waiting o)); [apply Permutation_sym, Permutation_cons_append|apply Permutation_sym, erase_perm; exact I].
    + intros _ N. cbn in N. destruct (erase p (waiting o)); discriminate.
    + cbn. exact B.
  - split; [exact P'|]. split.
    + intro E. rewrite E, app_nil_r in P'. apply Permutation_length in P'. rewrite map_length in P'. exact P'.
    + intros d NE. split; [exact C'|]. split; [|split; [exact P'|split; [intros _; exact NE|]]].
      * intros x X. apply in_app_or in X. destruct X as [X|[<-|[]]]; [specialize (L x X); lia|cbn; lia].
      * cbn [hist birth]. rewrite B. destruct (hist o) as [|x h] eqn:EH; [reflexivity|].
        cbn [app]. destruct (when s (snd x) =? 0) eqn:Z0; [|reflexivity].
        exfalso. destruct str as (T & _). specialize (T (snd x)). specialize (L x (or_introl eq_refl)). assert (0 < when s (snd x)) by (apply T; lia). lia.
Qed.
Lemma good_weaken : forall k o, good k o -> good (S k) o.
Proof. intros k o (C & L & R). split; [exact C|]. split; [intros x X; specialize (L x X); lia|exact R]. Qed.

Lemma next_good : forall k o x, (k < length s)%nat -> good k o -> In x (next k o) -> live o = true -> live x = true -> good (S k) x.
Proof.
  intros k o x K G I LO LX. unfold next, reduce_overlay in I. destruct (match_ pmatch o k) as [p|] eqn:M.
  - destruct (good_step k o p K G M) as (C & GO & P & _ & GN).
    destruct (erase p (waiting o)) as [|w ws] eqn:E.
    + destruct I as [<-|[<-|[]]]; [exact GO|discriminate].
    + destruct I as [<-|[<-|[]]]; [exact GO|]. apply GN. discriminate.
  - destruct I as [<-|[]]. exact (good_weaken _ _ G).
Qed.
(** The histories that an overlay leaves. *)
Lemma next_hist : forall k o h, In h (hists (next k o)) -> h = hist o \/ exists p, h = hist o ++ [(p, k)].
Proof.
  intros k o h I. unfold hists in I. apply in_map_iff in I. destruct I as (x & <- & I). apply filter_In in I. destruct I as [I _].
  unfold next, reduce_overlay in I. destruct (match_ pmatch o k) as [p|]; [|destruct I as [<-|[]]; auto].
  destruct (erase p (waiting o)); destruct I as [<-|[<-|[]]]; cbn; eauto.
Qed.
Lemma next_nodup : forall k o, NoDup (hists (next k o)).
Proof.
  intros k o. unfold next, reduce_overlay, hists. destruct (match_ pmatch o k) as [p|].
  - destruct (erase p (waiting o)) as [|w ws]; cbn.
    + constructor; [intros []|constructor].
    + constructor; [|constructor; [intros []|constructor]]. intros [E|[]]. apply (f_equal (@length _)) in E. rewrite app_length in E. cbn in E. lia.
  - cbn. destruct (live o); cbn; constructor; [intros []|constructor].
Qed.
Lemma hists_app : forall l l', hists (l ++ l') = hists l ++ hists l'.
Proof. intros. unfold hists. rewrite filter_app, map_app. reflexivity. Qed.
Lemma hists_perm : forall l l', Permutation l l' -> Permutation (hists l) (hists l').
Proof.
  intros l l' P. unfold hists. apply Permutation_map. induction P; cbn; auto.
  - destruct (live x); auto.
  - destruct (live x), (live y); auto. apply perm_swap.
  - eapply Permutation_trans; eauto.
Qed.
Lemma flat_hist : forall k K h, In h (hists (flat_map (next k) K)) -> exists o, In o K /\ (h = hist o \/ exists p, h = hist o ++ [(p, k)]).
Proof.
  induction K as [|o K IH]; cbn [flat_map]; intros h I; [destruct I|]. rewrite hists_app in I. apply in_app_or in I. destruct I as [I|I].
  - exists o. split; [left; reflexivity|]. exact (next_hist _ _ _ I).
  - destruct (IH h I) as (o' & J & H). exists o'. split; [right; exact J|exact H].
Qed.
Lemma step_nodup : forall k K l2, (forall o, In o (K ++ l2) -> live o = true -> forall x, In x (hist o) -> (snd x < k)%nat) -> (forall o, In o K -> live o = true) ->
  NoDup (hists (K ++ l2)) -> NoDup (hists (flat_map (next k) K ++ l2)).
Proof.
  induction K as [|o K IH]; cbn [flat_map app]; intros l2 L LV D; [exact D|].
  assert (LO : live o = true) by (apply LV; left; reflexivity).
  unfold hists in D. cbn [filter] in D. rewrite LO in D. cbn [map] in D. inversion D as [|? ? N D']; subst.
  rewrite <- app_assoc, hists_app. apply NoDup_app_intro.
  - apply next_nodup.
  - apply IH; [intros q Q; apply L; right; exact Q|intros q Q; apply LV; right; exact Q|exact D'].
  - intros h I J. rewrite hists_app in J.
    assert (OK : forall q, In q (K ++ l2) -> live q = true -> hist q <> hist o).
    { intros q Q LQ E. apply N. apply in_map_iff. exists q. split; [exact E|]. apply filter_In. auto. }
    assert (LT : forall x, In x (hist o) -> (snd x < k)%nat) by (apply L; [left; reflexivity|exact LO]).
    assert (LQ : forall q, In q (K ++ l2) -> live q = true -> forall x, In x (hist q) -> (snd x < k)%nat) by (intros q Q; apply L; right; exact Q).
    assert (J' : exists q, In q (K ++ l2) /\ live q = true /\ (h = hist q \/ exists p, h = hist q ++ [(p, k)])).
    { apply in_app_or in J. destruct J as [J|J].
      - destruct (flat_hist _ _ _ J) as (q & Q & E). exists q. split; [apply in_or_app; left; exact Q|]. split; [apply LV; right; exact Q|exact E].
      - unfold hists in J. apply in_map_iff in J. destruct J as (q & <- & Q). apply filter_In in Q. exists q. split; [apply in_or_app; right; tauto|]. split; [tauto|auto]. }
    destruct J' as (q & Q & LV' & E).
    apply next_hist in I. destruct I as [->|(p & ->)]; destruct E as [E|(p' & E)].
    + exact (OK q Q LV' (eq_sym E)).
    + specialize (LT (p', k)). rewrite E in LT. assert (k < k)%nat by (apply LT; apply in_or_app; right; left; reflexivity). lia.
    + specialize (LQ q Q LV' (p, k)). rewrite <- E in LQ. assert (k < k)%nat by (apply LQ; apply in_or_app; right; left; reflexivity). lia.
    + apply app_inj_tail in E. destruct E as [E _]. exact (OK q Q LV' (eq_sym E)).
Qed.

Lemma passes_live : forall k o, passes k o = true -> live o = true.
Proof. unfold passes, is_invalidated, live. intros k o H. destruct (dead o); [discriminate|reflexivity]. Qed.
Lemma step_inv : forall k c c' fi, (k < length s)%nat -> inv k (overlays c) -> reduce pmatch guards cf c k (when s k) (gone_at s k) = (c', fi) -> inv (S k) (overlays c').
Proof.
  intros k c c' fi K [A B] H. unfold reduce in H. destruct (sweep _ _ _ _ _ _ _ _) as [[[fr ke] f1] al] eqn:E. injection H as <- <-.
  destruct (sweep_split _ _ _ _ _ _ _ E) as (l1 & l2 & L & P & _ & _). cbn [overlays].
  set (Kp := filter (passes k) l1) in *.
  assert (LV : forall o, In o Kp -> live o = true) by (intros o O; apply filter_In in O; apply (passes_live k); tauto).
  assert (IK : forall o, In o (Kp ++ l2) -> In o (overlays c)).
  { intros o O. rewrite L. apply in_or_app. apply in_app_or in O. destruct O as [O|O]; [left; apply filter_In in O; tauto|right; exact O]. }
  split.
  - intros x X LX. apply (Permutation_in _ P) in X. apply in_app_or in X. destruct X as [X|X].
    + apply in_flat_map in X. destruct X as (o & O & X). apply (next_good k o x K); auto. apply A; auto. apply IK. apply in_or_app. left. exact O.
    + apply good_weaken. apply A; auto. apply IK. apply in_or_app. right. exact X.
  - apply (Permutation_NoDup (Permutation_sym (hists_perm _ _ P))). apply step_nodup; auto.
    + intros o O LO. apply A; auto.
    + rewrite L in B. rewrite hists_app in *. unfold Kp.
      assert (Q : NoDup (hists (filter (passes k) l1 ++ l2))).
      { clear - B. induction l1 as [|o l1 IH]; [exact B|]. cbn [filter app] in *. unfold hists in B. cbn [filter] in B. fold (hists l2) in B.
        destruct (passes k o) eqn:PO.
        - pose proof (passes_live k o PO) as LO. rewrite LO in B. cbn [map app] in B. inversion B as [|? ? N D]; subst.
          unfold hists. cbn [app filter]. rewrite LO. cbn [map]. constructor; [|apply IH; exact D].
          intro I. apply N. rewrite filter_app, map_app in I. apply in_app_or in I. apply in_or_app. destruct I as [I|I]; [left|right; exact I].
          apply in_map_iff in I. destruct I as (y & E & I). apply filter_In in I. destruct I as [I LY]. apply filter_In in I. apply in_map_iff. exists y. split; [exact E|]. apply filter_In. tauto.
        - apply IH. destruct (live o); [|exact B]. cbn [map app] in B. inversion B; assumption. }
      rewrite hists_app in Q. exact Q.
Qed.

Lemma comb_last : forall h, comb h -> h <> [] -> exists h' p k, h = h' ++ [(p, k)] /\ comb h' /\ forall x, In x h' -> (snd x < k)%nat.
Proof. intros h C NE. destruct C as [|h p k C I N L M]; [congruence|]. exists h, p, k. auto. Qed.
Lemma comb_first : forall h, comb h -> forall y t, h = y :: t -> forall x, In x h -> (snd y <= snd x)%nat.
Proof.
  induction 1 as [|h p k C IH I N L M]; intros y t E x X; [discriminate|].
  apply in_app_or in X. destruct h as [|z h].
  - cbn in E. injection E as <- <-. destruct X as [[]|[<-|[]]]. lia.
  - cbn in E. injection E as <- E. destruct X as [X|[<-|[]]].
    + exact (IH z h eq_refl x X).
    + specialize (L z (or_introl eq_refl)). cbn. lia.
Qed.
Lemma passes_ok : forall k o, (k < length s)%nat -> good k o -> passes k o = true ->
  (0 < tsc cf -> forall x, In x (hist o) -> when s k - when s (snd x) <= tsc cf) /\
  (volatile cf = true -> forall x, In x (hist o) -> gone_at s k (snd x) = false).
Proof.
  intros k o K (C & L & _ & _ & B) P. unfold passes in P. apply negb_true_iff, orb_false_iff in P. destruct P as [P1 P2]. split.
  - intros T x X. unfold expired in P2. destruct (0 <? tsc cf) eqn:E; [|lia]. cbn [andb] in P2.
    destruct (hist o) as [|y t] eqn:EH; [destruct X|]. rewrite B in P2.
    assert (LY : (snd y < k)%nat) by (apply L; left; reflexivity).
    assert (LX : (snd x < k)%nat) by (apply L; exact X).
    destruct str as (PO & MO & _). assert (0 < when s (snd y)) by (apply PO; lia).
    pose proof (comb_first _ C y t eq_refl x X) as F. assert (when s (snd y) <= when s (snd x)) by (apply MO; lia).
    destruct (0 <? when s (snd y)) eqn:E2; [|lia]. cbn in P2. lia.
  - intros V x X. unfold is_invalidated in P1. rewrite V in P1. apply orb_false_iff in P1. destruct P1 as [_ P1]. cbn [andb] in P1.
    destruct (gone_at s k (snd x)) eqn:G; [|reflexivity]. exfalso.
    assert (existsb (fun y => gone_at s k (snd y)) (hist o) = true) by (apply existsb_exists; exists x; auto). congruence.
Qed.
Lemma fires_inv : forall k o h, In h (fires k o) -> exists p, match_ pmatch o k = Some p /\ erase p (waiting o) = [] /\ h = hist o ++ [(p, k)] /\ guards h = true.
Proof.
  intros k o h I. unfold fires, reduce_overlay in I. destruct (match_ pmatch o k) as [p|] eqn:M; [|destruct I].
  destruct (erase p (waiting o)) as [|w ws] eqn:E; [|destruct I]. cbn [snd] in I.
  destruct (guards (hist o ++ [(p, k)])) eqn:G; [|destruct I]. destruct I as [<-|[]]. exists p. auto.
Qed.
Lemma fires_sound : forall k o h, (k < length s)%nat -> good k o -> passes k o = true -> In h (fires k o) -> must_fire pats pmatch guards cf s h.
Proof.
  intros k o h K G P I. destruct (fires_inv _ _ _ I) as (p & M & E & -> & GD).
  destruct (good_step k o p K G M) as (C & _ & _ & CO & _). destruct (passes_ok k o K G P) as [T V]. destruct G as (_ & L & _).
  split; [exact C|]. split; [exact (CO E)|]. split; [exact GD|]. destruct str as (PO & MO & GM). split; [|split].
  - intros x X. apply in_app_or in X. destruct X as [X|[<-|[]]]; [specialize (L x X); lia|exact K].
  - intros T0 x y X Y. specialize (T T0). apply in_app_or in X. apply in_app_or in Y. destruct Y as [Y|[<-|[]]]; destruct X as [X|[<-|[]]]; cbn [snd].
    + specialize (T x X). pose proof (L y Y) as LY. assert (when s (snd y) <= when s k) by (apply MO; lia). lia.
    + pose proof (L y Y) as LY. assert (when s (snd y) <= when s k) by (apply MO; lia). lia.
    + exact (T x X).
    + lia.
  - intros V0 x y X Y XY. specialize (V V0). apply in_app_or in X. apply in_app_or in Y. destruct Y as [Y|[<-|[]]]; destruct X as [X|[<-|[]]]; cbn [snd] in *.
    + destruct (gone_at s (snd y) (snd x)) eqn:Q; [|reflexivity]. pose proof (L y Y) as LY.
      rewrite <- (V x X). symmetry. apply (GM (snd y) k); [lia|exact Q].
    + specialize (L y Y). lia.
    + exact (V x X).
    + lia.
Qed.
Lemma fires_nodup : forall k K, NoDup (map hist K) -> NoDup (flat_map (fires k) K).
Proof.
  induction K as [|o K IH]; cbn [flat_map map]; intro D; [constructor|]. inversion D as [|? ? N D']; subst.
  apply NoDup_app_intro; [|auto|].
  - unfold fires, reduce_overlay. destruct (match_ pmatch o k); [|constructor]. destruct (erase _ _); [|constructor]. cbn. destruct (guards _); constructor; [intros []|constructor].
  - intros h I J. apply in_flat_map in J. destruct J as (q & Q & J). destruct (fires_inv _ _ _ I) as (p & _ & _ & -> & _). destruct (fires_inv _ _ _ J) as (p' & _ & _ & E & _).
    apply app_inj_tail in E. destruct E as [E _]. apply N. rewrite E. apply in_map. exact Q.
Qed.
Lemma nodup_keep : forall k l l', NoDup (hists (l ++ l')) -> NoDup (map hist (filter (passes k) l)).
Proof.
  intros k l l' D. rewrite hists_app in D. apply NoDup_app_l in D. unfold hists in D.
  assert (E : filter (passes k) (filter live l) = filter (passes k) l).
  { clear. induction l as [|o l IH]; [reflexivity|]. cbn [filter]. destruct (live o) eqn:L.
    - cbn [filter]. rewrite IH. reflexivity.
    - destruct (passes k o) eqn:P; [rewrite (passes_live k o P) in L; discriminate|exact IH]. }
  rewrite <- E. apply NoDup_map_filter. exact D.
Qed.
Lemma step_fires : forall k c c' fi, (k < length s)%nat -> inv k (overlays c) -> reduce pmatch guards cf c k (when s k) (gone_at s k) = (c', fi) ->
  NoDup fi /\ forall h, In h fi -> must_fire pats pmatch guards cf s h /\ ends_at h k.
Proof.
  intros k c c' fi K [A B] H. unfold reduce in H. destruct (sweep _ _ _ _ _ _ _ _) as [[[fr ke] f1] al] eqn:E. injection H as <- <-.
  destruct (sweep_split _ _ _ _ _ _ _ E) as (l1 & l2 & L & P & F & _). subst f1. split.
  - apply fires_nodup. apply (nodup_keep k l1 l2). rewrite <- L. exact B.
  - intros h I. apply in_flat_map in I. destruct I as (o & O & I). apply filter_In in O. destruct O as [O PO]. split.
    + apply (fires_sound k o); auto. apply A; [rewrite L; apply in_or_app; left; exact O|exact (passes_live k o PO)].
    + destruct (fires_inv _ _ _ I) as (p & _ & _ & -> & _). eexists. eexists. reflexivity.
Qed.
Lemma skipn_cons_nth : forall {A} (l : list A) k x r d, skipn k l = x :: r -> (k < length l)%nat /\ nth k l d = x /\ skipn (S k) l = r.
Proof.
  induction l as [|y l IH]; intros k x r d H; [rewrite skipn_nil in H; discriminate|]. destruct k as [|k]; cbn in H.
  - injection H as -> ->. cbn. split; [lia|auto].
  - destruct (IH k x r d H) as (L & N & S1). cbn [length nth]. split; [lia|]. split; [exact N|exact S1].
Qed.
Lemma run_sound : forall r k c, skipn k s = r -> inv k (overlays c) ->
  NoDup (snd (run pmatch guards cf c k r)) /\
  forall h, In h (snd (run pmatch guards cf c k r)) -> must_fire pats pmatch guards cf s h /\ exists j, (k <= j)%nat /\ ends_at h j.
Proof.
  induction r as [|[now gone] r IH]; intros k c SK I; cbn [run]; [split; [constructor|intros h []]|].
  destruct (skipn_cons_nth s k _ _ (0, fun _ => false) SK) as (K & N & SK').
  assert (W : when s k = now) by (unfold when; rewrite N; reflexivity). assert (G : gone_at s k = gone) by (unfold gone_at; rewrite N; reflexivity).
  destruct (reduce pmatch guards cf c k now gone) as [c1 f1] eqn:R. rewrite <- W, <- G in R.
  destruct (step_fires k c c1 f1 K I R) as [D1 S1]. pose proof (step_inv k c c1 f1 K I R) as I1.
  destruct (IH (S k) c1 SK' I1) as [D2 S2]. destruct (run pmatch guards cf c1 (S k) r) as [c2 f2]. cbn [snd] in *. split.
  - apply NoDup_app_intro; auto. intros h H1 H2. destruct (S1 h H1) as [_ (a & b & E1)]. destruct (S2 h H2) as [_ (j & J & a' & b' & E2)].
    rewrite E1 in E2. apply app_inj_tail in E2. destruct E2 as [_ E2]. injection E2 as _ E2. lia.
  - intros h H. apply in_app_or in H. destruct H as [H|H].
    + destruct (S1 h H) as [M E]. split; [exact M|]. exists k. split; [lia|exact E].
    + destruct (S2 h H) as [M (j & J & E)]. split; [exact M|]. exists j. split; [lia|exact E].
Qed.
Lemma start_inv : inv 0 (overlays (start pats)).
Proof.
  split; [|cbn; constructor; [intros []|constructor]]. intros o [<-|[]] _. split; [constructor|]. split; [intros x []|]. split; [apply Permutation_refl|]. split; [auto|reflexivity].
Qed.
Theorem fired_sound : forall h, In h (fired pats pmatch guards cf s) -> must_fire pats pmatch guards cf s h.
Proof. intros h H. exact (proj1 (proj2 (run_sound s 0 (start pats) eq_refl start_inv) h H)). Qed.
Theorem fired_once : NoDup (fired pats pmatch guards cf s).
Proof. exact (proj1 (run_sound s 0 (start pats) eq_refl start_inv)). Qed.

(** Completeness. *)
Hypothesis one : unambiguous pats pmatch.
Hypothesis again : run_once cf = false.
Definition holds (j : nat) (x : nat * nat) : Prop :=
  (0 < tsc cf -> when s j - when s (snd x) <= tsc cf) /\ (volatile cf = true -> gone_at s j (snd x) = false).
Definition alive_until (k : nat) (h : history) : Prop := forall x j, In x h -> (snd x < j < k)%nat -> holds j x.
Definition covers (k : nat) (l : list overlay) : Prop :=
  forall h, comb h -> (forall x, In x h -> (snd x < k)%nat) -> (length h < length pats)%nat -> alive_until k h -> In h (hists l).
Lemma comb_nodup : forall h, comb h -> NoDup (map fst h) /\ incl (map fst h) pats.
Proof.
  induction 1 as [|h p k C [D S1] I N L M]; [split; [constructor|intros x []]|]. rewrite map_app. cbn [map fst]. split.
  - apply NoDup_app_intro; [exact D|constructor; [intros []|constructor]|]. intros x X [<-|[]]. contradiction.
  - intros x X. apply in_app_or in X. destruct X as [X|[<-|[]]]; auto.
Qed.
Lemma holds_passes : forall k o, (k < length s)%nat -> live o = true -> good k o -> (forall x, In x (hist o) -> holds k x) -> passes k o = true.
Proof.
  intros k o K LV (C & L & _ & _ & B) H. unfold passes. apply negb_true_iff, orb_false_iff. split.
  - unfold is_invalidated. unfold live in LV. destruct (dead o); [discriminate|]. cbn [orb]. destruct (volatile cf) eqn:V; [|reflexivity]. cbn [andb].
    destruct (existsb (fun x => gone_at s k (snd x)) (hist o)) eqn:E; [|reflexivity]. apply existsb_exists in E. destruct E as (x & X & G).
    destruct (H x X) as [_ H2]. rewrite (H2 V) in G. discriminate.
  - unfold expired. destruct (0 <? tsc cf) eqn:T; [|reflexivity]. cbn [andb]. rewrite B. destruct (hist o) as [|x t]; [reflexivity|].
    destruct (H x (or_introl eq_refl)) as [H1 _]. assert (when s k - when s (snd x) <= tsc cf) by (apply H1; lia).
    destruct (tsc cf <? when s k - when s (snd x)) eqn:Q; [lia|]. apply andb_false_r.
Qed.
(** The pattern that an input matches is found. *)
Lemma found : forall k o p, good k o -> comb (hist o ++ [(p, k)]) -> match_ pmatch o k = Some p.
Proof.
  intros k o p (C & L & P & _) C'.
  assert (D : exists h q j, hist o ++ [(p, k)] = h ++ [(q, j)] /\ In q pats /\ ~ In q (map fst h) /\ pmatch h q j = true).
  { inversion C' as [E|h q j C2 I N L2 M E]; [destruct (hist o); discriminate|]. exists h, q, j. auto. }
  destruct D as (h & q & j & E & I & N & M). apply app_inj_tail in E. destruct E as [<- E]. injection E as <- <-.
  assert (W : In p (waiting o)).
  { apply (Permutation_in _ (Permutation_sym P)) in I. apply in_app_or in I. destruct I; [contradiction|assumption]. }
  unfold match_. destruct (find (fun p0 => pmatch (hist o) p0 k) (waiting o)) as [q|] eqn:F.
  - apply find_some in F. destruct F as [WQ MQ]. f_equal.
    assert (ND : NoDup (map fst (hist o) ++ waiting o)) by (apply (Permutation_NoDup (Permutation_sym P)); exact distinct).
    apply (one (hist o) q p k); auto.
    + apply (Permutation_in _ P). apply in_or_app. right. exact WQ.
    + intro J. apply in_split in J. destruct J as (a & b & J). rewrite J in ND. rewrite <- app_assoc in ND. cbn in ND.
      apply NoDup_remove_2 in ND. apply ND. rewrite !in_app_iff. right. right. exact WQ.
  - pose proof (find_none _ _ F p W) as X. cbn in X. congruence.
Qed.
Lemma comb_prefix : forall h p k, comb (h ++ [(p, k)]) -> comb h /\ forall x, In x h -> (snd x < k)%nat.
Proof.
  intros h p k C. inversion C as [E|h' q j C2 I N L2 M E]; [destruct h; discriminate|].
  apply app_inj_tail in E. destruct E as [<- E]. injection E as <- <-. auto.
Qed.
Lemma in_hists : forall h l, In h (hists l) -> exists o, In o l /\ live o = true /\ hist o = h.
Proof. intros h l I. unfold hists in I. apply in_map_iff in I. destruct I as (o & E & I). apply filter_In in I. exists o. tauto. Qed.
Lemma hists_in : forall l o, In o l -> live o = true -> In (hist o) (hists l).
Proof. intros l o I L. unfold hists. apply in_map. apply filter_In. auto. Qed.
Lemma step_covers : forall k c c' fi, (k < length s)%nat -> is_alive c = true -> inv k (overlays c) -> covers k (overlays c) ->
  reduce pmatch guards cf c k (when s k) (gone_at s k) = (c', fi) -> is_alive c' = true /\ covers (S k) (overlays c') /\
  forall h, must_fire pats pmatch guards cf s h -> ends_at h k -> In h fi.
Proof.
  intros k c c' fi K AL [A B] CV H. unfold reduce in H. destruct (sweep _ _ _ _ _ _ _ _) as [[[fr ke] f1] al] eqn:E. injection H as <- <-.
  destruct (sweep_split _ _ _ _ _ _ _ E) as (l1 & l2 & L & P & F & AA). destruct (AA again AL) as [-> ->]. rewrite app_nil_r in L, P. cbn [overlays is_alive].
  split; [reflexivity|]. split.
  - intros h C LT LEN AU.
    assert (T : forall h0, comb h0 -> (forall x, In x h0 -> (snd x < k)%nat) -> (length h0 < length pats)%nat -> alive_until k h0 -> (forall x, In x h0 -> holds k x) ->
       exists o, In o l1 /\ live o = true /\ hist o = h0 /\ good k o /\ In o (filter (passes k) l1)).
    { intros h0 C0 L0 N0 U0 H0. pose proof (CV h0 C0 L0 N0 U0) as I. rewrite L in I. apply in_hists in I. destruct I as (o & O & LO & E0).
      assert (G : good k o) by (apply A; [rewrite L; exact O|exact LO]). exists o. split; [exact O|]. split; [exact LO|]. split; [exact E0|]. split; [exact G|].
      apply filter_In. split; [exact O|]. apply holds_passes; auto. rewrite E0. exact H0. }
    apply (Permutation_in (l := hists (flat_map (next k) (filter (passes k) l1)))); [apply hists_perm, Permutation_sym; exact P|].
    destruct h as [|y t] eqn:EH; [|rewrite <- EH in *; destruct (comb_last h C ltac:(congruence)) as (h0 & p & j & E1 & C0 & L0)].
    + destruct (T [] C ltac:(intros x []) LEN ltac:(intros x j []) ltac:(intros x [])) as (o & O & LO & E0 & G & FO).
      unfold next. (* the empty history stays *)
      assert (Q : exists x, In x (next k o) /\ live x = true /\ hist x = []).
      { unfold next, reduce_overlay. destruct (match_ pmatch o k) as [p|]; [|exists o; cbn; auto].
        destruct (erase p (waiting o)); exists (offspring_of o p); cbn; auto. }
      destruct Q as (x & X & LX & EX). rewrite <- EX. apply hists_in; [|exact LX]. apply in_flat_map. exists o. auto.
    + destruct (Nat.lt_ge_cases j k) as [J|J].
      * (* an old history stays *)
        assert (LK : forall x, In x h -> (snd x < k)%nat).
        { intros x X. rewrite E1 in X. apply in_app_or in X. destruct X as [X|[<-|[]]]; [specialize (L0 x X); lia|exact J]. }
        destruct (T h C LK LEN) as (o & O & LO & E0 & G & FO).
        { intros x i X I. apply AU; [exact X|lia]. }
        { intros x X. apply AU; [exact X|]. specialize (LK x X). lia. }
        assert (Q : exists x, In x (next k o) /\ live x = true /\ hist x = h).
        { unfold next, reduce_overlay. destruct (match_ pmatch o k) as [q|]; [|exists o; cbn; auto].
          destruct (erase q (waiting o)); exists (offspring_of o q); cbn; auto. }
        destruct Q as (x & X & LX & EX). rewrite <- EX. apply hists_in; [|exact LX]. apply in_flat_map. exists o. auto.
      * assert (j = k) as ->. { specialize (LT (p, j)). rewrite E1 in LT. assert (j < S k)%nat by (apply LT; apply in_or_app; right; left; reflexivity). lia. }
        assert (IN0 : forall x, In x h0 -> In x h) by (intros x X; rewrite E1; apply in_or_app; left; exact X).
        destruct (T h0 C0 L0) as (o & O & LO & E0 & G & FO).
        { rewrite E1, app_length in LEN. cbn in LEN. lia. }
        { intros x i X I. apply AU; [auto|lia]. }
        { intros x X. apply AU; [auto|]. specialize (L0 x X). lia. }
        assert (M : match_ pmatch o k = Some p) by (apply (found k o p G); rewrite E0, <- E1; exact C).
        destruct (good_step k o p K G M) as (_ & _ & _ & CO & _).
        assert (Q : exists x, In x (next k o) /\ live x = true /\ hist x = h).
        { unfold next, reduce_overlay. rewrite M. destruct (erase p (waiting o)) as [|w ws] eqn:EW.
          - exfalso. specialize (CO eq_refl). rewrite E0, <- E1 in CO. unfold complete in CO. lia.
          - eexists. split; [right; left; reflexivity|]. cbn. rewrite E0, <- E1. auto. }
        destruct Q as (x & X & LX & EX). rewrite <- EX. apply hists_in; [|exact LX]. apply in_flat_map. exists o. auto.
  - intros h (C & CP & GD & (IS1 & IS2 & IS3)) (h0 & p & ->). destruct (comb_prefix _ _ _ C) as [C0 L0].
    assert (IK : In (p, k) (h0 ++ [(p, k)])) by (apply in_or_app; right; left; reflexivity).
    assert (HJ : forall x j, In x h0 -> (snd x < j <= k)%nat -> holds j x).
    { intros x j X J. assert (IX : In x (h0 ++ [(p, k)])) by (apply in_or_app; left; exact X). destruct str as (_ & MO & GM). split.
      - intro T. pose proof (IS2 T x (p, k) IX IK) as Q. cbn [snd] in Q. assert (when s j <= when s k) by (apply MO; lia). lia.
      - intro V. assert (XK : (snd x < snd (p, k))%nat) by (cbn; lia). pose proof (IS3 V x (p, k) IX IK XK) as Q. cbn [snd] in Q.
        destruct (gone_at s j (snd x)) eqn:G; [|reflexivity]. rewrite <- Q. symmetry. apply (GM j k); [lia|exact G]. }
    unfold complete in CP. rewrite app_length in CP. cbn in CP.
    assert (I : In h0 (hists l1)).
    { rewrite <- L. apply CV; auto; [lia|]. intros x j X J. apply HJ; [exact X|lia]. }
    apply in_hists in I. destruct I as (o & O & LO & E0). assert (G : good k o) by (apply A; [rewrite L; exact O|exact LO]).
    assert (FO : In o (filter (passes k) l1)).
    { apply filter_In. split; [exact O|]. apply holds_passes; auto. intros x X. rewrite E0 in X. apply HJ; [exact X|]. specialize (L0 x X). lia. }
    assert (M : match_ pmatch o k = Some p) by (apply (found k o p G); rewrite E0; exact C).
    subst f1. apply in_flat_map. exists o. split; [exact FO|]. unfold fires, reduce_overlay. rewrite M.
    destruct (good_step k o p K G M) as (_ & _ & PM & _). apply Permutation_length in PM. rewrite app_length, map_length, app_length, E0 in PM. cbn [length] in PM.
    destruct (erase p (waiting o)) as [|w ws]; [|cbn [length] in PM; lia]. cbn [snd]. rewrite E0, GD. left. reflexivity.
Qed.
Lemma run_complete : forall r k c, skipn k s = r -> is_alive c = true -> inv k (overlays c) -> covers k (overlays c) ->
  forall h j, must_fire pats pmatch guards cf s h -> (k <= j)%nat -> ends_at h j -> In h (snd (run pmatch guards cf c k r)).
Proof.
  induction r as [|[now gone] r IH]; intros k c SK AL I CV h j MF J EN; cbn [run].
  - exfalso. destruct MF as (_ & _ & _ & IS & _). destruct EN as (h' & p & ->). specialize (IS (p, j)).
    assert (j < length s)%nat by (apply IS; apply in_or_app; right; left; reflexivity).
    apply (f_equal (@length _)) in SK. rewrite skipn_length in SK. cbn in SK. lia.
  - destruct (skipn_cons_nth s k _ _ (0, fun _ => false) SK) as (K & N & SK').
    assert (W : when s k = now) by (unfold when; rewrite N; reflexivity). assert (G : gone_at s k = gone) by (unfold gone_at; rewrite N; reflexivity).
    destruct (reduce pmatch guards cf c k now gone) as [c1 f1] eqn:R. rewrite <- W, <- G in R.
    pose proof (step_inv k c c1 f1 K I R) as I1. destruct (step_covers k c c1 f1 K AL I CV R) as (AL1 & CV1 & FI).
    pose proof (fun Q => IH (S k) c1 SK' AL1 I1 CV1 h j MF Q EN) as IH'.
    destruct (run pmatch guards cf c1 (S k) r) as [c2 f2]. cbn [snd] in *. apply in_or_app.
    destruct (Nat.eq_dec k j) as [->|NE]; [left; exact (FI h MF EN)|right; apply IH'; lia].
Qed.
Theorem fired_complete : pats <> [] -> forall h, must_fire pats pmatch guards cf s h -> In h (fired pats pmatch guards cf s).
Proof.
  intros NE h MF. pose proof MF as (C & CP & _). unfold complete in CP.
  destruct (comb_last h C) as (h0 & p & j & E & _); [intros ->; cbn in CP; destruct pats; [congruence|discriminate]|].
  apply (run_complete s 0 (start pats) eq_refl eq_refl start_inv) with (j := j); [|exact MF|lia|exists h0, p; exact E].
  intros h' _ L0 _ _. cbn. left. destruct h' as [|x t]; [reflexivity|]. specialize (L0 x (or_introl eq_refl)). lia.
Qed.
End Program.

(** Run-once programs. *)
Section Once.
Variable pats : list nat.
Variable pmatch : history -> nat -> nat -> bool.
Variable guards : history -> bool.
Lemma sweep_once : forall cf k now gone l al fr ke fi al', run_once cf = true -> sweep pmatch guards cf k now gone l al = (fr, ke, fi, al') -> (length fi <= 1)%nat.
Proof.
  intros cf k now gone. induction l as [|o r IH]; intros al fr ke fi al' RO H; cbn [sweep] in H; [injection H as <- <- <- <-; cbn; lia|].
  destruct (is_invalidated cf gone o || expired cf now o); [exact (IH _ _ _ _ _ RO H)|].
  destruct (reduce_overlay pmatch guards o k now) as [[o' f] fd] eqn:R. rewrite RO in H. cbn [andb] in H.
  assert (L : (length fd <= 1)%nat).
  { unfold reduce_overlay in R. destruct (match_ pmatch o k); [|injection R as <- <- <-; cbn; lia].
    destruct (erase _ _); injection R as <- <- <-; [destruct (guards _)|]; cbn; lia. }
  destruct fd as [|x fd].
  - destruct (negb (al && negb (negb true))) eqn:N; [injection H as <- <- <- <-; cbn; lia|].
    destruct (sweep pmatch guards cf k now gone r _) as [[[fr1 ke1] fi1] al1] eqn:S1. injection H as <- <- <- <-. cbn [app]. exact (IH _ _ _ _ _ RO S1).
  - replace (al && negb (negb false)) with false in H by (destruct al; reflexivity). cbn [negb] in H. injection H as <- <- <- <-. exact L.
Qed.
Theorem once_per_input : forall cf c k now gone, run_once cf = true -> (length (snd (reduce pmatch guards cf c k now gone)) <= 1)%nat.
Proof.
  intros cf c k now gone RO. unfold reduce. destruct (sweep _ _ _ _ _ _ _ _) as [[[fr ke] fi] al] eqn:E. exact (sweep_once _ _ _ _ _ _ _ _ _ _ RO E).
Qed.
Lemma sweep_alive : forall cf k now gone l al fr ke fi al', run_once cf = true -> sweep pmatch guards cf k now gone l al = (fr, ke, fi, al') -> fi <> [] -> al' = false.
Proof.
  intros cf k now gone. induction l as [|o r IH]; intros al fr ke fi al' RO H NE; cbn [sweep] in H; [injection H as <- <- <- <-; congruence|].
  destruct (is_invalidated cf gone o || expired cf now o); [exact (IH _ _ _ _ _ RO H NE)|].
  destruct (reduce_overlay pmatch guards o k now) as [[o' f] fd] eqn:R. rewrite RO in H. cbn [andb] in H. destruct fd as [|x fd].
  - destruct (negb (al && negb (negb true))) eqn:N; [injection H as <- <- <- <-; congruence|].
    destruct (sweep pmatch guards cf k now gone r _) as [[[fr1 ke1] fi1] al1] eqn:S1. injection H as <- <- <- <-. exact (IH _ _ _ _ _ RO S1 NE).
  - replace (al && negb (negb false)) with false in H by (destruct al; reflexivity). cbn [negb] in H. injection H as <- <- <- <-. reflexivity.
Qed.
Theorem once_then_dead : forall cf c k now gone, run_once cf = true -> snd (reduce pmatch guards cf c k now gone) <> [] -> is_alive (fst (reduce pmatch guards cf c k now gone)) = false.
Proof.
  intros cf c k now gone RO. unfold reduce. destruct (sweep _ _ _ _ _ _ _ _) as [[[fr ke] fi] al] eqn:E. cbn. exact (sweep_alive _ _ _ _ _ _ _ _ _ _ RO E).
Qed.
End Once.

(** Anti-programs. *)
Section AntiProgram.
Variable pats : list nat.
Variable pmatch : history -> nat -> nat -> bool.
Variable guards : history -> bool.
Variable scope : Z.
Variable ro : bool.
Notation comb := (combination pats pmatch).

Lemma anti_reduce_success : forall a k now b, success a = false -> success (anti_reduce pats pmatch guards scope a k now b) = false /\ aalive (anti_reduce pats pmatch guards scope a k now b) = aalive a.
Proof. intros a k now b S1. unfold anti_reduce. destruct (anti_sweep _ _ _ _) as [[fr ke] [|]]; cbn; auto. Qed.
Lemma signal_fires : forall a, success a = false -> aalive a = true -> snd (signal pats ro a) = true /\ success (fst (signal pats ro a)) = false /\ aalive (fst (signal pats ro a)) = negb ro /\ jobs (fst (signal pats ro a)) = jobs a.
Proof. intros a S1 A. unfold signal. rewrite A, S1. destruct ro; cbn; auto. Qed.
Lemma signal_dead : forall a, aalive a = false -> signal pats ro a = (a, false).
Proof. intros a A. unfold signal. rewrite A. reflexivity. Qed.
Lemma run_jobs_dead : forall n a, aalive a = false -> run_jobs pats ro a n = (a, O).
Proof. induction n as [|n IH]; intros a A; cbn [run_jobs]; [reflexivity|]. rewrite (signal_dead a A), (IH a A). reflexivity. Qed.
Lemma run_jobs_fires : forall n a, success a = false -> aalive a = true ->
  snd (run_jobs pats ro a n) = (if ro then Nat.min 1 n else n) /\ success (fst (run_jobs pats ro a n)) = false /\ jobs (fst (run_jobs pats ro a n)) = jobs a /\
  aalive (fst (run_jobs pats ro a n)) = (negb ro || (n =? 0)%nat).
Proof.
  induction n as [|n IH]; intros a S1 A; cbn [run_jobs].
  - destruct ro; cbn; auto.
  - destruct (signal_fires a S1 A) as (F & S2 & A2 & J2). destruct (signal pats ro a) as [a1 f]. cbn [fst snd] in *. subst f.
    destruct ro eqn:R.
    + cbn in A2. assert (RD : run_jobs pats true a1 n = (a1, O)) by (clear - A2; revert a1 A2; induction n as [|n IH]; intros a1 A2; cbn [run_jobs]; [reflexivity|]; unfold signal; rewrite A2; cbn [negb]; rewrite (IH a1 A2); reflexivity). rewrite RD. cbn. auto.
    + cbn in A2. destruct (IH a1 S2 A2) as (N & S3 & J3 & A3). destruct (run_jobs pats false a1 n) as [a2 c]. cbn [fst snd] in *. split; [lia|]. split; [exact S3|]. split; [congruence|]. rewrite A3. reflexivity.
Qed.
(** Nothing keeps a job from firing. *)
Theorem job_fires : forall es t a, fst (arun pats pmatch guards scope ro (anti_start pats scope t) 0 es) = a -> aalive a = true -> forall now,
  snd (tick pats ro a now) = (let n := length (filter (fun u => u <=? now) (jobs a)) in if ro then Nat.min 1 n else n).
Proof.
  intros es t a E A now. unfold tick.
  assert (S1 : forall es k b, success b = false -> success (fst (arun pats pmatch guards scope ro b k es)) = false).
  { clear. induction es as [|[u ac|u] es IH]; intros k b S1; cbn [arun]; [exact S1| |].
    - apply IH. apply anti_reduce_success. exact S1.
    - unfold tick. set (b0 := mkanti _ _ _ _ _). set (n := length (filter (fun t => t <=? u) _)).
      assert (S2 : success (fst (run_jobs pats ro b0 n)) = false).
      { destruct (bool_dec (aalive b) true) as [AB|AB]; [|apply not_true_is_false in AB].
        - apply (run_jobs_fires n b0); [exact S1|exact AB].
        - rewrite (run_jobs_dead n b0 AB). exact S1. }
      destruct (run_jobs pats ro b0 n) as [b1 c]. cbn [fst] in S2. specialize (IH k b1 S2). destruct (arun pats pmatch guards scope ro b1 k es). exact IH. }
  apply run_jobs_fires; [|exact A]. cbn [success]. rewrite <- E. apply S1. reflexivity.
Qed.
Lemma run_once_fires : forall es k b, ro = true -> success b = false -> (length (snd (arun pats pmatch guards scope ro b k es)) <= 1)%nat /\ (aalive b = false -> snd (arun pats pmatch guards scope ro b k es) = []).
Proof.
  intros es k b RO. revert k b. induction es as [|[u ac|u] es IH]; intros k b S1; cbn [arun]; [cbn; split; [lia|auto]| |].
  - destruct (anti_reduce_success b k u ac S1) as [S2 A2]. destruct (IH (S k) _ S2) as [L D]. split; [exact L|]. intro A. apply D. rewrite A2. exact A.
  - unfold tick. set (b0 := mkanti _ _ _ _ _). set (n := length (filter (fun t => t <=? u) _)). destruct (bool_dec (aalive b) true) as [AB|AB]; [|apply not_true_is_false in AB].
    + destruct (run_jobs_fires n b0 S1 AB) as (N & S2 & _ & A2). destruct (run_jobs pats ro b0 n) as [b1 c]. cbn [fst snd] in *. rewrite RO in N, A2. cbn [negb orb] in A2.
      specialize (IH k b1 S2). destruct (arun pats pmatch guards scope ro b1 k es) as [b2 fs]. cbn [snd] in *. split; [|intro Q; congruence].
      rewrite app_length, repeat_length. destruct n as [|n].
      * cbn in N. destruct IH. lia.
      * cbn in A2. destruct IH as [_ D]. rewrite (D A2). cbn in N |- *. lia.
    + rewrite (run_jobs_dead n b0 AB). specialize (IH k b0 S1). destruct (arun pats pmatch guards scope ro b0 k es) as [b2 fs]. cbn [snd] in *. destruct IH as [L D]. split; [exact L|]. intros _. rewrite (D AB). reflexivity.
Qed.
Theorem anti_once : forall es t, ro = true -> (length (snd (arun pats pmatch guards scope ro (anti_start pats scope t) 0 es)) <= 1)%nat.
Proof. intros es t RO. exact (proj1 (run_once_fires es 0 (anti_start pats scope t) RO eq_refl)). Qed.

(** While nothing occurs: one firing in all. *)
Definition quiet (es : list event) : Prop := Forall (fun e => match e with Tick _ => True | _ => False end) es.
Lemma quiet_count : forall es k b, success b = false -> quiet es ->
  (length (snd (arun pats pmatch guards scope ro b k es)) <= length (jobs b))%nat.
Proof.
  induction es as [|[u ac|u] es IH]; intros k b S1 Q; cbn [arun]; [cbn; lia|inversion Q as [|? ? F ?]; destruct F|].
  inversion Q as [|? ? _ Q']; subst. unfold tick. set (b0 := mkanti _ _ _ _ _). set (n := length (filter (fun t => t <=? u) _)).
  assert (L : (length (jobs b0) + n = length (jobs b))%nat).
  { subst b0 n. cbn [jobs]. clear. induction (jobs b) as [|t l IH]; [reflexivity|]. cbn [filter]. destruct (u <? t) eqn:E1; destruct (t <=? u) eqn:E2; cbn [length]; lia. }
  assert (H : success (fst (run_jobs pats ro b0 n)) = false /\ (snd (run_jobs pats ro b0 n) <= n)%nat /\ jobs (fst (run_jobs pats ro b0 n)) = jobs b0).
  { destruct (bool_dec (aalive b) true) as [AB|AB]; [|apply not_true_is_false in AB].
    - destruct (run_jobs_fires n b0 S1 AB) as (N & S2 & J2 & _). split; [exact S2|]. split; [rewrite N; destruct ro; lia|exact J2].
    - rewrite (run_jobs_dead n b0 AB). split; [exact S1|]. split; [cbn; lia|reflexivity]. }
  destruct H as (S2 & N & J2). destruct (run_jobs pats ro b0 n) as [b1 c]. cbn [fst snd] in *. specialize (IH k b1 S2 Q').
  destruct (arun pats pmatch guards scope ro b1 k es) as [b2 fs]. cbn [snd] in *. rewrite app_length, repeat_length. rewrite J2 in IH. lia.
Qed.
Theorem silent_after_one : forall es t, quiet es -> (length (snd (arun pats pmatch guards scope ro (anti_start pats scope t) 0 es)) <= 1)%nat.
Proof. intros es t Q. exact (quiet_count es 0 (anti_start pats scope t) eq_refl Q). Qed.

(** Occurrences are noticed, if the guards of the program never fail. *)
Hypothesis distinct : NoDup pats.
Hypothesis some : pats <> [].
Hypothesis one : unambiguous pats pmatch.
Hypothesis unguarded : forall h, comb h -> complete pats h -> guards h = true.
Definition agood (k0 k : nat) (o : overlay) : Prop :=
  dead o = false /\ comb (hist o) /\ from k0 (hist o) /\ (forall x, In x (hist o) -> (snd x < k)%nat) /\ Permutation (map fst (hist o) ++ waiting o) pats /\ waiting o <> [].
Definition acovers (k0 k : nat) (l : list overlay) : Prop :=
  forall h, comb h -> from k0 h -> (forall x, In x h -> (snd x < k)%nat) -> (length h < length pats)%nat -> exists o, In o l /\ hist o = h.
Definition anext (k : nat) (o : overlay) : list overlay :=
  let '(o', v) := anti_reduce_overlay pmatch guards o k in match v with Offspring f => [f; o'] | _ => [o'] end.
Definition completes (k : nat) (o : overlay) : Prop := exists p, match_ pmatch o k = Some p /\ erase p (waiting o) = [] /\ guards (hist o ++ [(p, k)]) = true.
Lemma anti_sweep_split : forall k l fr ke b, (forall o, In o l -> dead o = false) -> anti_sweep pmatch guards k l = (fr, ke, b) ->
  (b = true <-> exists o, In o l /\ completes k o) /\ (b = false -> Permutation (fr ++ ke) (flat_map (anext k) l)).
Proof.
  intro k. induction l as [|o r IH]; intros fr ke b D H; cbn [anti_sweep] in H.
  - injection H as <- <- <-. split; [split; [discriminate|intros (o & [] & _)]|intros _; apply Permutation_refl].
  - rewrite (D o (or_introl eq_refl)) in H. specialize (fun fr ke b => IH fr ke b (fun q Q => D q (or_intror Q))).
    destruct (anti_reduce_overlay pmatch guards o k) as [o' v] eqn:R.
    assert (CV : completes k o <-> v = Restarted).
    { unfold completes. unfold anti_reduce_overlay in R. destruct (match_ pmatch o k) as [p|].
      - destruct (erase p (waiting o)) as [|w ws] eqn:EW.
        + injection R as <- <-. split.
          * intros (q & E & _ & G). injection E as <-. rewrite G. reflexivity.
          * destruct (guards (hist o ++ [(p, k)])) eqn:G; [|discriminate]. intros _. exists p. auto.
        + injection R as <- <-. split; [intros (q & E & E2 & _); injection E as <-; rewrite EW in E2; discriminate|discriminate].
      - injection R as <- <-. split; [intros (q & E & _); discriminate|discriminate]. }
    assert (NX : anext k o = match v with Offspring f => [f; o'] | _ => [o'] end) by (unfold anext; rewrite R; reflexivity).
    destruct v as [|f|].
    + destruct (anti_sweep pmatch guards k r) as [[fr1 ke1] b1] eqn:S1. injection H as <- <- <-. destruct (IH _ _ _ eq_refl) as [I P]. split.
      * rewrite I. split; [intros (q & Q & C); exists q; split; [right; exact Q|exact C]|intros (q & [<-|Q] & C); [apply CV in C; discriminate|exists q; auto]].
      * intro B. cbn [flat_map]. rewrite NX. cbn [app]. apply Permutation_trans with (o' :: (fr1 ++ ke1)); [apply Permutation_sym, Permutation_middle|]. apply perm_skip. exact (P B).
    + destruct (anti_sweep pmatch guards k r) as [[fr1 ke1] b1] eqn:S1. injection H as <- <- <-. destruct (IH _ _ _ eq_refl) as [I P]. split.
      * rewrite I. split; [intros (q & Q & C); exists q; split; [right; exact Q|exact C]|intros (q & [<-|Q] & C); [apply CV in C; discriminate|exists q; auto]].
      * intro B. cbn [flat_map]. rewrite NX. cbn [app]. rewrite <- app_assoc. cbn [app].
        apply Permutation_trans with (f :: (fr1 ++ o' :: ke1)); [apply Permutation_sym, Permutation_middle|]. apply perm_skip.
        apply Permutation_trans with (o' :: (fr1 ++ ke1)); [apply Permutation_sym, Permutation_middle|]. apply perm_skip. exact (P B).
    + injection H as <- <- <-. split; [|discriminate]. split; [|reflexivity]. intros _. exists o. split; [left; reflexivity|]. apply CV. reflexivity.
Qed.
Lemma agood_facts : forall k0 k o p, (k0 <= k)%nat -> agood k0 k o -> match_ pmatch o k = Some p ->
  In p (waiting o) /\ comb (hist o ++ [(p, k)]) /\ from k0 (hist o ++ [(p, k)]) /\ Permutation (map fst (hist o ++ [(p, k)]) ++ erase p (waiting o)) pats.
Proof.
  intros k0 k o p K (D & C & F & L & P & W) M. unfold match_ in M. apply find_some in M. destruct M as [I M].
  assert (ND : NoDup (map fst (hist o) ++ waiting o)) by (apply (Permutation_NoDup (Permutation_sym P)); exact distinct).
  split; [exact I|]. split; [|split].
  - constructor; auto.
    + apply (Permutation_in _ P). apply in_or_app. right. exact I.
    + intro J. apply in_split in J. destruct J as (a & b & J). rewrite J in ND. rewrite <- app_assoc in ND. cbn in ND.
      apply NoDup_remove_2 in ND. apply ND. rewrite !in_app_iff. right. right. exact I.
  - intros x X. apply in_app_or in X. destruct X as [X|[<-|[]]]; [exact (F x X)|exact K].
  - apply Permutation_trans with (map fst (hist o) ++ waiting o); [|exact P]. rewrite map_app, <- app_assoc. apply Permutation_app_head.
    cbn. apply Permutation_sym, erase_perm. exact I.
Qed.
Lemma afound : forall k o p, Permutation (map fst (hist o) ++ waiting o) pats -> comb (hist o) -> comb (hist o ++ [(p, k)]) -> match_ pmatch o k = Some p.
Proof.
  intros k o p P C C'.
  assert (D : exists h q j, hist o ++ [(p, k)] = h ++ [(q, j)] /\ In q pats /\ ~ In q (map fst h) /\ pmatch h q j = true).
  { inversion C' as [E|h q j C2 I N L2 M E]; [destruct (hist o); discriminate|]. exists h, q, j. auto. }
  destruct D as (h & q & j & E & I & N & M). apply app_inj_tail in E. destruct E as [<- E]. injection E as <- <-.
  assert (W : In p (waiting o)).
  { apply (Permutation_in _ (Permutation_sym P)) in I. apply in_app_or in I. destruct I; [contradiction|assumption]. }
  unfold match_. destruct (find (fun p0 => pmatch (hist o) p0 k) (waiting o)) as [q|] eqn:F.
  - apply find_some in F. destruct F as [WQ MQ]. f_equal.
    assert (ND : NoDup (map fst (hist o) ++ waiting o)) by (apply (Permutation_NoDup (Permutation_sym P)); exact distinct).
    apply (one (hist o) q p k); auto.
    + apply (Permutation_in _ P). apply in_or_app. right. exact WQ.
    + intro J. apply in_split in J. destruct J as (a & b & J). rewrite J in ND. rewrite <- app_assoc in ND. cbn in ND.
      apply NoDup_remove_2 in ND. apply ND. rewrite !in_app_iff. right. right. exact WQ.
  - pose proof (find_none _ _ F p W) as X. cbn in X. congruence.
Qed.
Lemma completes_iff : forall k0 k l, (k0 <= k)%nat -> (forall o, In o l -> agood k0 k o) -> acovers k0 k l ->
  ((exists o, In o l /\ completes k o) <-> exists h, comb h /\ complete pats h /\ from k0 h /\ ends_at h k).
Proof.
  intros k0 k l K A CV. split.
  - intros (o & O & p & M & E & G). destruct (agood_facts k0 k o p K (A o O) M) as (I & C & F & P). exists (hist o ++ [(p, k)]).
    split; [exact C|]. split; [|split; [exact F|eexists; eexists; reflexivity]].
    rewrite E, app_nil_r in P. apply Permutation_length in P. rewrite map_length in P. exact P.
  - intros (h & C & CP & F & h0 & p & ->). 
    assert (C0 : comb h0 /\ forall x, In x h0 -> (snd x < k)%nat).
    { inversion C as [E|h' q j C2 I N L2 M E]; [destruct h0; discriminate|]. apply app_inj_tail in E. destruct E as [<- E]. injection E as <- <-. auto. }
    destruct C0 as [C0 L0]. pose proof CP as CP'. unfold complete in CP'. rewrite app_length in CP'. cbn in CP'.
    destruct (CV h0 C0) as (o & O & E); [intros x X; apply F; apply in_or_app; left; exact X|exact L0|lia|].
    exists o. split; [exact O|]. pose proof (A o O) as G. destruct G as (D & CO & FO & LO & P & W).
    assert (M : match_ pmatch o k = Some p) by (apply afound; [exact P|exact CO|rewrite E; exact C]).
    exists p. split; [exact M|]. rewrite E. split; [|apply unguarded; assumption].
    destruct (agood_facts k0 k o p K (A o O) M) as (_ & _ & _ & PM). apply Permutation_length in PM. rewrite app_length, map_length, app_length, E in PM. cbn [length] in PM.
    destruct (erase p (waiting o)); [reflexivity|cbn [length] in PM; lia].
Qed.
Lemma anext_step : forall k0 k l l', (k0 <= k)%nat -> (forall o, In o l -> agood k0 k o) -> acovers k0 k l -> ~ (exists o, In o l /\ completes k o) ->
  Permutation l' (flat_map (anext k) l) -> (forall o, In o l' -> agood k0 (S k) o) /\ acovers k0 (S k) l'.
Proof.
  intros k0 k l l' K A CV NC P.
  assert (NE : forall o p, In o l -> match_ pmatch o k = Some p -> erase p (waiting o) <> []).
  { intros o p O M E. destruct (agood_facts k0 k o p K (A o O) M) as (_ & C & _ & PM). apply NC. exists o. split; [exact O|]. exists p. split; [exact M|]. split; [exact E|].
    apply unguarded; [exact C|]. rewrite E, app_nil_r in PM. apply Permutation_length in PM. rewrite map_length in PM. exact PM. }
  split.
  - intros x X. apply (Permutation_in _ P) in X. apply in_flat_map in X. destruct X as (o & O & X). pose proof (A o O) as G. unfold anext, anti_reduce_overlay in X.
    destruct (match_ pmatch o k) as [p|] eqn:M.
    + specialize (NE o p O M). destruct (agood_facts k0 k o p K G M) as (I & C & F & PM). destruct G as (D & CO & FO & LO & PO & W).
      destruct (erase p (waiting o)) as [|w ws] eqn:EW; [congruence|]. destruct X as [<-|[<-|[]]].
      * split; [reflexivity|]. split; [exact CO|]. split; [exact FO|]. split; [intros y Y; specialize (LO y Y); lia|]. split.
        -- cbn [offspring_of hist waiting]. apply Permutation_trans with (map fst (hist o) ++ waiting o); [|exact PO]. apply Permutation_app_head.
           apply Permutation_trans with (p :: erase p (waiting o)); [apply Permutation_sym, Permutation_cons_append|apply Permutation_sym, erase_perm; exact I].
        -- cbn [offspring_of waiting]. destruct (erase p (waiting o)); discriminate.
      * split; [reflexivity|]. split; [exact C|]. split; [exact F|]. split; [|split; [exact PM|discriminate]].
        intros y Y. apply in_app_or in Y. destruct Y as [Y|[<-|[]]]; [specialize (LO y Y); lia|cbn; lia].
    + destruct X as [<-|[]]. destruct G as (D & CO & FO & LO & PO & W). split; [exact D|]. split; [exact CO|]. split; [exact FO|]. split; [intros y Y; specialize (LO y Y); lia|auto].
  - intros h C F L LEN.
    assert (STAY : forall o, In o l -> exists x, In x l' /\ hist x = hist o).
    { intros o O. assert (Q : exists x, In x (anext k o) /\ hist x = hist o).
      { unfold anext, anti_reduce_overlay. destruct (match_ pmatch o k) as [p|] eqn:M; [|exists o; cbn; auto]. specialize (NE o p O M).
        destruct (erase p (waiting o)) as [|w ws] eqn:EW; [congruence|]. eexists. split; [left; reflexivity|reflexivity]. }
      destruct Q as (x & X & E). exists x. split; [|exact E]. apply (Permutation_in _ (Permutation_sym P)). apply in_flat_map. exists o. auto. }
    assert (Q : (forall x, In x h -> (snd x < k)%nat) \/ exists h0 p, h = h0 ++ [(p, k)] /\ comb h0 /\ forall x, In x h0 -> (snd x < k)%nat).
    { destruct C as [|h0 p j C I N L0 M]; [left; intros x []|]. destruct (Nat.lt_ge_cases j k) as [J|J].
      - left. intros x X. apply in_app_or in X. destruct X as [X|[<-|[]]]; [specialize (L0 x X); lia|exact J].
      - right. exists h0, p. assert (j < S k)%nat by (apply (L (p, j)); apply in_or_app; right; left; reflexivity). assert (j = k) as -> by lia. auto. }
    destruct Q as [Q|(h0 & p & -> & C0 & L0)].
    + destruct (CV h C F Q LEN) as (o & O & E). destruct (STAY o O) as (x & X & EX). exists x. split; [exact X|congruence].
    + rewrite app_length in LEN. cbn in LEN.
      destruct (CV h0 C0) as (o & O & E); [intros x X; apply F; apply in_or_app; left; exact X|exact L0|lia|].
      destruct (A o O) as (D & CO & FO & LO & PO & W).
      assert (M : match_ pmatch o k = Some p) by (apply afound; [exact PO|exact CO|rewrite E; exact C]).
      assert (Q : exists x, In x (anext k o) /\ hist x = h0 ++ [(p, k)]).
      { unfold anext, anti_reduce_overlay. rewrite M. specialize (NE o p O M). destruct (erase p (waiting o)) as [|w ws] eqn:EW; [congruence|].
        eexists. split; [right; left; reflexivity|]. cbn. rewrite E. reflexivity. }
      destruct Q as (x & X & EX). exists x. split; [|exact EX]. apply (Permutation_in _ (Permutation_sym P)). apply in_flat_map. exists o. auto.
Qed.
Definition ainv (k0 k : nat) (a : anti) : Prop := (forall o, In o (alist a) -> agood k0 k o) /\ acovers k0 k (alist a).
Lemma fresh_ainv : forall k a, alist a = [fresh pats] -> ainv k k a.
Proof.
  intros k a E. unfold ainv. rewrite E. split.
  - intros o [<-|[]]. split; [reflexivity|]. split; [constructor|]. split; [intros x []|]. split; [intros x []|]. split; [apply Permutation_refl|exact some].
  - intros h C F L _. exists (fresh pats). split; [left; reflexivity|]. cbn. destruct h as [|x h]; [reflexivity|].
    specialize (F x (or_introl eq_refl)). specialize (L x (or_introl eq_refl)). lia.
Qed.
Lemma anti_step : forall k0 k a now, (k0 <= k)%nat -> ainv k0 k a ->
  ((exists h, comb h /\ complete pats h /\ from k0 h /\ ends_at h k) -> alist (anti_reduce pats pmatch guards scope a k now true) = [fresh pats] /\ jobs (anti_reduce pats pmatch guards scope a k now true) = jobs a ++ [now + scope]) /\
  (~ (exists h, comb h /\ complete pats h /\ from k0 h /\ ends_at h k) -> ainv k0 (S k) (anti_reduce pats pmatch guards scope a k now true) /\ jobs (anti_reduce pats pmatch guards scope a k now true) = jobs a).
Proof.
  intros k0 k a now K [A CV]. unfold anti_reduce. destruct (anti_sweep pmatch guards k (alist a)) as [[fr ke] b] eqn:E.
  destruct (anti_sweep_split k (alist a) fr ke b) as [B P]; [intros o O; apply (A o O)|exact E|].
  pose proof (completes_iff k0 k (alist a) K A CV) as CI. split.
  - intro H. apply CI in H. apply B in H. subst b. split; reflexivity.
  - intro H. assert (NC : ~ exists o, In o (alist a) /\ completes k o) by (intro Q; apply H; apply CI; exact Q).
    destruct b; [exfalso; apply NC; apply B; reflexivity|]. split; [|reflexivity]. unfold ainv. cbn [alist].
    apply (anext_step k0 k (alist a)); auto.
Qed.
Lemma feed_cons : forall a k t ts, feed pats pmatch guards scope ro a k (t :: ts) = feed pats pmatch guards scope ro (anti_reduce pats pmatch guards scope a k t true) (S k) ts.
Proof. reflexivity. Qed.
Lemma feed_quiet : forall ts k0 k a, (k0 <= k)%nat -> ainv k0 k a -> (forall h j, comb h -> complete pats h -> from k0 h -> ends_at h j -> (k <= j)%nat -> (k + length ts <= j)%nat) ->
  ainv k0 (k + length ts) (feed pats pmatch guards scope ro a k ts) /\ jobs (feed pats pmatch guards scope ro a k ts) = jobs a.
Proof.
  induction ts as [|t ts IH]; intros k0 k a K I N.
  - cbn. rewrite Nat.add_0_r. auto.
  - rewrite feed_cons. destruct (anti_step k0 k a t K I) as [_ Q].
    destruct Q as [I1 J1]. { intros (h & C & CP & F & E). specialize (N h k C CP F E (le_n k)). cbn in N. lia. }
    destruct (IH k0 (S k) (anti_reduce pats pmatch guards scope a k t true)) as [I2 J2]; [lia|exact I1| |].
    + intros h j C CP F E J. specialize (N h j C CP F E ltac:(lia)). cbn in N. lia.
    + cbn [length]. replace (k + S (length ts))%nat with (S k + length ts)%nat by lia. split; [exact I2|congruence].
Qed.
(** The first occurrence since the last restart restarts; nothing else does. *)
Theorem noticed : forall a k0 ts now, alist a = [fresh pats] ->
  (forall h j, comb h -> complete pats h -> from k0 h -> ends_at h j -> (k0 + length ts <= j)%nat) ->
  jobs (feed pats pmatch guards scope ro a k0 ts) = jobs a /\
  ((exists h, comb h /\ complete pats h /\ from k0 h /\ ends_at h (k0 + length ts)) ->
     alist (feed pats pmatch guards scope ro a k0 (ts ++ [now])) = [fresh pats] /\ jobs (feed pats pmatch guards scope ro a k0 (ts ++ [now])) = jobs a ++ [now + scope]) /\
  (~ (exists h, comb h /\ complete pats h /\ from k0 h /\ ends_at h (k0 + length ts)) -> jobs (feed pats pmatch guards scope ro a k0 (ts ++ [now])) = jobs a).
Proof.
  intros a k0 ts now E N. destruct (feed_quiet ts k0 k0 a (le_n _) (fresh_ainv k0 a E)) as [I J].
  { intros h j C CP F EN _. exact (N h j C CP F EN). }
  assert (FA : forall ts a k, feed pats pmatch guards scope ro a k (ts ++ [now]) = anti_reduce pats pmatch guards scope (feed pats pmatch guards scope ro a k ts) (k + length ts) now true).
  { clear. induction ts as [|t ts IH]; intros a k; [cbn; rewrite Nat.add_0_r; reflexivity|]. cbn [app]. rewrite !feed_cons, IH. cbn [length]. f_equal. lia. }
  rewrite FA. destruct (anti_step k0 (k0 + length ts) _ now ltac:(lia) I) as [Q1 Q2]. split; [exact J|]. split.
  - intro H. rewrite <- J. exact (Q1 H).
  - intro H. rewrite <- J. exact (proj2 (Q2 H)).
Qed.
End AntiProgram.

(** Input-less programs. *)
Section InputLess.
Variable scope : Z.
Variable ro : bool.
Hypothesis pos : 0 < scope.
Definition pending (t : Z) (a : inputless) : Prop := ijobs a = [] \/ exists u, ijobs a = [u] /\ t + scope <= u.
Lemma itick_cases : forall a now host t, pending t a -> 
  (snd (itick scope ro a now host) = O /\ pending t (fst (itick scope ro a now host))) \/
  (snd (itick scope ro a now host) = 1%nat /\ t + scope <= now /\ pending now (fst (itick scope ro a now host))).
Proof.
  intros a now host t [E|(u & E & U)]; unfold itick; rewrite E; cbn [filter length].
  - left. cbn. split; [reflexivity|left; reflexivity].
  - destruct (now <? u) eqn:C.
    + assert (u <=? now = false) as -> by lia. cbn. left. split; [reflexivity|]. right. exists u. auto.
    + assert (u <=? now = true) as -> by lia. cbn [length irun_jobs]. unfold isignal. cbn [killed active ijobs].
      destruct (negb (killed a) && active a).
      * right. cbn. split; [reflexivity|]. split; [lia|]. unfold pending. cbn. destruct (negb ro && host); cbn; [right; exists (now + scope); split; [reflexivity|lia]|left; reflexivity].
      * left. cbn. split; [reflexivity|]. left. reflexivity.
Qed.
Lemma itick_active : forall a now host, active a = true -> active (fst (itick scope ro a now host)) = true.
Proof.
  intros a now host A. unfold itick. generalize (length (filter (fun t => t <=? now) (ijobs a))). intro n.
  assert (G : forall n b, active b = true -> active (fst (irun_jobs scope ro b now host n)) = true).
  { clear. induction n as [|n IH]; intros b B; cbn [irun_jobs]; [exact B|]. assert (B1 : active (fst (isignal scope ro b now host)) = true) by (unfold isignal; destruct (negb (killed b) && active b); exact B).
    destruct (isignal scope ro b now host) as [b1 f]. cbn [fst] in B1. specialize (IH b1 B1). destruct (irun_jobs scope ro b1 now host n). exact IH. }
  apply G. exact A.
Qed.
Lemma irun_apart : forall es a t, stays_on es -> active a = true -> pending t a -> apart scope t (snd (irun scope ro a es)).
Proof.
  induction es as [|[u| |u h] es IH]; intros a t Q A P; cbn [irun]; [exact Logic.I| |inversion Q as [|? ? F ?]; destruct F; reflexivity|].
  - inversion Q as [|? ? _ Q']; subst. unfold activate. rewrite A. apply IH; assumption.
  - inversion Q as [|? ? _ Q']; subst. pose proof (itick_cases a u h t P) as C. pose proof (itick_active a u h A) as A1. destruct (itick scope ro a u h) as [a1 n]. cbn [fst snd] in C, A1.
    destruct C as [[-> P1]|(-> & L & P1)]; [specialize (IH a1 t Q' A1 P1)|specialize (IH a1 u Q' A1 P1)]; destruct (irun scope ro a1 es) as [a2 fs]; cbn [snd repeat app] in *; [exact IH|].
    split; [exact L|exact IH].
Qed.
Theorem il_apart : forall es t, stays_on es -> apart scope t (snd (irun scope ro idle (Activate t :: es))).
Proof. intros es t Q. cbn [irun]. apply irun_apart; [exact Q|reflexivity|]. right. exists (t + scope). split; [reflexivity|lia]. Qed.
Lemma il_every : forall n t a, ro = false -> killed a = false -> active a = true -> ijobs a = [t + scope] ->
  snd (irun scope ro a (map (fun i => Passes (t + scope * Z.of_nat i) true) (seq 1 n))) = map (fun i => t + scope * Z.of_nat i) (seq 1 n).
Proof.
  induction n as [|n IH]; intros t a RO K A J; [reflexivity|]. cbn [seq map irun].
  assert (T : itick scope ro a (t + scope * Z.of_nat 1) true = (mkil false true [(t + scope) + scope], 1%nat)).
  { unfold itick. rewrite J. cbn [filter]. change (Z.of_nat 1) with 1. rewrite Z.mul_1_r.
    assert (t + scope <? t + scope = false) as -> by lia. assert (t + scope <=? t + scope = true) as -> by lia. cbn [length irun_jobs]. unfold isignal. cbn [killed active ijobs]. rewrite K, A, RO. reflexivity. }
  rewrite T. specialize (IH (t + scope) (mkil false true [(t + scope) + scope]) RO eq_refl eq_refl eq_refl).
  rewrite <- seq_shift, !map_map.
  assert (E : forall l, map (fun x => Passes (t + scope * Z.of_nat (S x)) true) l = map (fun i => Passes (t + scope + scope * Z.of_nat i) true) l) by (intro l; apply map_ext; intro x; f_equal; lia).
  assert (E2 : forall l, map (fun x => t + scope * Z.of_nat (S x)) l = map (fun i => t + scope + scope * Z.of_nat i) l) by (intro l; apply map_ext; intro x; lia).
  rewrite E, E2. destruct (irun scope ro _ _) as [a2 fs]. cbn [snd] in *. rewrite IH. cbn. f_equal.
Qed.
Theorem il_period : forall n t, ro = false ->
  snd (irun scope ro idle (Activate t :: map (fun i => Passes (t + scope * Z.of_nat i) true) (seq 1 n))) = map (fun i => t + scope * Z.of_nat i) (seq 1 n).
Proof. intros n t RO. cbn [irun]. apply il_every; auto. Qed.
Lemma irun_jobs_once : forall n a now host, ro = true -> (snd (irun_jobs scope ro a now host n) <= 1)%nat /\
  (killed a = true -> irun_jobs scope ro a now host n = (a, O)) /\ ((0 < snd (irun_jobs scope ro a now host n))%nat -> killed (fst (irun_jobs scope ro a now host n)) = true).
Proof.
  induction n as [|n IH]; intros a now host RO; cbn [irun_jobs]; [cbn; split; [lia|split; [auto|lia]]|].
  unfold isignal. destruct (killed a) eqn:K; cbn [negb andb].
  - destruct (IH a now host RO) as (_ & D & _). rewrite (D K). cbn. split; [lia|]. split; [auto|lia].
  - destruct (active a).
    + set (b := mkil _ _ _). destruct (IH b now host RO) as (_ & D & _). rewrite (D RO). cbn. split; [lia|]. split; [discriminate|]. intros _. exact RO.
    + destruct (IH a now host RO) as (L & D & F). destruct (irun_jobs scope ro a now host n) as [a2 c]. cbn [fst snd plus] in *. split; [exact L|]. split; [discriminate|exact F].
Qed.
Lemma irun_once : forall es a, ro = true -> (length (snd (irun scope ro a es)) <= 1)%nat /\ (killed a = true -> snd (irun scope ro a es) = []).
Proof.
  induction es as [|[u| |u h] es IH]; intros a RO; cbn [irun]; [cbn; split; [lia|auto]| | |].
  - destruct (IH (activate scope a u) RO) as [L D]. split; [exact L|]. intro K. apply D. unfold activate. destruct (active a); exact K.
  - destruct (IH (deactivate a) RO) as [L D]. split; [exact L|]. intro K. apply D. exact K.
  - unfold itick. set (b := mkil (killed a) (active a) _). set (n := length (filter (fun t => t <=? u) _)). destruct (irun_jobs_once n b u h RO) as (L1 & D1 & F1).
    destruct (irun_jobs scope ro b u h n) as [b1 c]. cbn [fst snd] in *. destruct (IH b1 RO) as [L2 D2]. destruct (irun scope ro b1 es) as [b2 fs]. cbn [snd] in *.
    rewrite app_length, repeat_length. split.
    + destruct c as [|c]; [lia|]. rewrite (D2 (F1 ltac:(lia))). cbn. lia.
    + intro K. specialize (D1 K). injection D1 as -> ->. rewrite (D2 K). reflexivity.
Qed.
Theorem il_once : forall es, ro = true -> (length (snd (irun scope ro idle es)) <= 1)%nat.
Proof. intros es RO. exact (proj1 (irun_once es idle RO)). Qed.
End InputLess.

(** Witnesses. *)
Definition two_patterns : history -> nat -> nat -> bool := fun _ p k => (Nat.eqb p 1 || Nat.eqb k 0)%bool.
Definition moments (l : list Z) : list moment := map (fun t => (t, fun _ : nat => false)) l.
Lemma nth_moments : forall l k, gone_at (moments l) k = fun _ => false.
Proof. intros l k. unfold gone_at, moments. revert k. induction l as [|t l IH]; intros [|k]; cbn; auto. Qed.
Lemma ambiguous_missed : exists pats pmatch guards cf s h, NoDup pats /\ stream s /\ run_once cf = false /\
  must_fire pats pmatch guards cf s h /\ ~ In h (fired pats pmatch guards cf s).
Proof.
  exists [1%nat; 2%nat], two_patterns, (fun _ => true), (mkcfg 0 false false), (moments [1; 2]), [(2%nat, 0%nat); (1%nat, 1%nat)].
  split; [constructor; [intros [?|[]]; discriminate|constructor; [intros []|constructor]]|].
  split. { split; [|split].
    - intros [|[|i]] L; [reflexivity|reflexivity|cbn in L; lia].
    - intros [|[|i]] [|[|j]] L; cbn in L |- *; unfold when; cbn; lia.
    - intros i j x _. rewrite nth_moments. discriminate. }
  split; [reflexivity|]. split.
  - split; [|split; [reflexivity|split; [reflexivity|split; [|split]]]].
    + change [(2%nat, 0%nat); (1%nat, 1%nat)] with (([] ++ [(2%nat, 0%nat)]) ++ [(1%nat, 1%nat)]). constructor; cbn; auto; [|intros [E|[]]; discriminate|intros x [<-|[]]; cbn; lia].
      change [(2%nat, 0%nat)] with ([] ++ [(2%nat, 0%nat)]). constructor; cbn; auto; [constructor|intros x []].
    + intros x [<-|[<-|[]]]; cbn; lia.
    + cbn. lia.
    + discriminate.
  - vm_compute. intros [].
Qed.
Lemma run_once_twice : exists pats pmatch guards cf s, run_once cf = true /\ stream s /\ length (fired pats pmatch guards cf s) = 2%nat.
Proof.
  exists [1%nat], (fun _ _ _ => true), (fun _ => true), (mkcfg 0 true false), (moments [1; 2]). split; [reflexivity|]. split; [|vm_compute; reflexivity].
  split; [|split].
  - intros [|[|i]] L; [reflexivity|reflexivity|cbn in L; lia].
  - intros [|[|i]] [|[|j]] L; cbn in L |- *; unfold when; cbn; lia.
  - intros i j x _. rewrite nth_moments. discriminate.
Qed.
Lemma one_input : forall k, combination [1%nat] (fun _ _ _ => true) [(1%nat, k)].
Proof. intro k. change [(1%nat, k)] with ([] ++ [(1%nat, k)]). constructor; cbn; auto; [constructor|intros x []]. Qed.
Lemma old_job_fires : exists pats pmatch guards scope es t h, 0 < scope /\ In t (snd (arun pats pmatch guards scope false (anti_start pats scope 0) 0 es)) /\
  occurrence pats pmatch guards h /\ h <> [] /\ forall x, In x h -> t - scope < arrival es (snd x) <= t.
Proof.
  exists [1%nat], (fun _ _ _ => true), (fun _ => true), 10, [Input 5 true; Tick 10], 10, [(1%nat, 0%nat)].
  split; [lia|]. split; [left; reflexivity|]. split; [split; [apply one_input|split; reflexivity]|]. split; [discriminate|].
  intros x [<-|[]]. cbn. lia.
Qed.
Lemma guard_failure_blinds : exists pats pmatch guards scope k h, 0 < scope /\ occurrence pats pmatch guards h /\ ends_at h k /\ h <> [] /\
  forall ts, length ts = S k -> jobs (feed pats pmatch guards scope false (anti_start pats scope 0) 0 ts) = jobs (anti_start pats scope 0).
Proof.
  exists [1%nat], (fun _ _ _ => true), (fun h => match h with [(_, O)] => false | _ => true end), 10, 1%nat, [(1%nat, 1%nat)].
  split; [lia|]. split; [split; [apply one_input|split; reflexivity]|]. split; [exists [], 1%nat; reflexivity|]. split; [discriminate|].
  intros [|a [|b [|c ts]]] L; try discriminate L. reflexivity.
Qed.
Lemma no_second_watch : exists pats pmatch guards scope es, 0 < scope /\ es = [Tick 10; Tick 20; Tick 30; Tick 40] /\ scope = 10 /\
  snd (arun pats pmatch guards scope false (anti_start pats scope 0) 0 es) = [10].
Proof. exists [1%nat], (fun _ _ _ => true), (fun _ => true), 10, [Tick 10; Tick 20; Tick 30; Tick 40]. split; [lia|]. split; [reflexivity|]. split; reflexivity. Qed.
Lemma freed_overlay : exists pats pmatch guards scope es, sound (fst (arun pats pmatch guards scope false (anti_start pats scope 0) 0 es)) = false /\
  alist (fst (arun pats pmatch guards scope false (anti_start pats scope 0) 0 es)) <> [].
Proof. exists [1%nat], (fun _ _ _ => true), (fun _ => true), 10, [Tick 10]. split; [reflexivity|discriminate]. Qed.
Lemma reactivated_twice : exists scope es, 0 < scope /\ ~ apart scope 0 (snd (irun scope false idle (Activate 0 :: es))).
Proof.
  exists 10, [Deactivate; Activate 5; Passes 10 true; Passes 15 true; Passes 20 true]. split; [lia|].
  assert (E : snd (irun 10 false idle [Activate 0; Deactivate; Activate 5; Passes 10 true; Passes 15 true; Passes 20 true]) = [10; 15; 20]) by reflexivity.
  rewrite E. cbn. lia.
Qed.

(** While no input is accepted, a run-once anti-program keeps its overlay. *)
Lemma sweep_none : forall pmatch guards k l, (forall h p j, pmatch h p j = false) -> (forall o, In o l -> dead o = false) -> anti_sweep pmatch guards k l = ([], l, false).
Proof.
  intros pmatch guards k l N. induction l as [|o r IH]; intro D; cbn [anti_sweep]; [reflexivity|]. rewrite (D o (or_introl eq_refl)).
  unfold anti_reduce_overlay. assert (match_ pmatch o k = None) as ->.
  { unfold match_. destruct (find _ _) as [p|] eqn:F; [|reflexivity]. apply find_some in F. destruct F as [_ F]. rewrite N in F. discriminate. }
  rewrite IH; [reflexivity|]. intros q Q. apply D. right. exact Q.
Qed.
Theorem kept_overlay : forall pats pmatch guards scope es t, (forall h p j, pmatch h p j = false) ->
  sound (fst (arun pats pmatch guards scope true (anti_start pats scope t) 0 es)) = true.
Proof.
  intros pats pmatch guards scope es t N.
  assert (G : forall es k a, alist a = [fresh pats] -> sound a = true -> sound (fst (arun pats pmatch guards scope true a k es)) = true).
  { clear es t. induction es as [|[u ac|u] es IH]; intros k a L S1; cbn [arun]; [exact S1| |].
    - apply IH; unfold anti_reduce; rewrite (sweep_none pmatch guards k (alist a) N); cbn; auto; rewrite L; intros o [<-|[]]; reflexivity.
    - unfold tick. set (b := mkanti _ _ _ _ _). set (n := length (filter (fun t => t <=? u) _)).
      assert (H : forall n b, alist b = [fresh pats] -> sound b = true -> alist (fst (run_jobs pats true b n)) = [fresh pats] /\ sound (fst (run_jobs pats true b n)) = true).
      { clear. induction n as [|n IH]; intros b L S1; cbn [run_jobs]; [auto|].
        assert (H : alist (fst (signal pats true b)) = [fresh pats] /\ sound (fst (signal pats true b)) = true).
        { unfold signal. destruct (aalive b); cbn; [|auto]. destruct (success b); cbn; [auto|]. rewrite L. auto. }
        destruct H as [H1 H2]. destruct (signal pats true b) as [b1 f]. cbn [fst] in *. destruct (IH b1 H1 H2) as [I1 I2]. destruct (run_jobs pats true b1 n) as [b2 c]. auto. }
      destruct (H n b L S1) as [H1 H2]. destruct (run_jobs pats true b n) as [b1 c]. cbn [fst] in *. specialize (IH k b1 H1 H2).
      destruct (arun pats pmatch guards scope true b1 k es). exact IH. }
  apply G; reflexivity.
Qed.
