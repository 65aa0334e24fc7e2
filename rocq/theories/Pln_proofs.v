(* Lemmas on planning. *)
From Coq Require Import ZArith List Bool Lia.
From Verif Require Import Pln_model Pln_spec.
Import ListNotations.
Local Open Scope Z_scope.

Lemma sub_mode now self s t o c sub :
  sub_sim now self s t o c = Some sub -> mode sub <> MRoot.
Proof.
  unfold sub_sim. destruct (mode s); destruct o; intros H; try discriminate;
  injection H as <-; cbn; discriminate.
Qed.

Lemma sub_facts now self s t o c sub :
  sub_sim now self s t o c = Some sub ->
  thz sub = t /\ opp sub = o /\ root sub = root s /\ ctl sub = Some self /\ req sub = false /\
  up sub = Some s /\
  (mode s = MRoot -> cfd sub = c /\ before sub = now + t) /\
  (mode s <> MRoot -> cfd sub = cfd s /\ before sub = before s) /\
  (mode sub = MMandatory <-> mode s = MMandatory \/ o = true) /\
  (mode s = MMandatory -> o = false).
Proof.
  unfold sub_sim. destruct (mode s) eqn:M; destruct o; intros H; try discriminate;
  injection H as <-; cbn; repeat split; intros; auto; try congruence;
  try (destruct H; congruence); try (exfalso; congruence).
Qed.

Lemma lhs_real e o s sb x :
  In x (abduce_lhs e o s sb) ->
  ev e = Fail /\ guards e = true /\
  exists inj, x = Goal (flip o (lhs e)) (if sb then set_before (till (flip o (lhs e))) s else s) (till (flip o (lhs e))) inj /\
              (inj = true <-> pev e <> Pos).
Proof.
  unfold abduce_lhs. destruct (guards e); [|intros []].
  destruct (ev e); try (intros []; fail).
  intros H. split; [reflexivity|]. split; [reflexivity|].
  destruct (pev e); destruct H as [H|[]]; subst x; eexists; (split; [reflexivity|]);
  split; intros; congruence.
Qed.

Lemma lhs_sim mo e now self g o s l x :
  In x (fst (abduce_simulated_lhs mo e now self g o s l)) ->
  guards e = true /\ ev e = Fail /\ pev e = Fail /\
  ((cmd e = true /\ x = SimCmd (flip o (lhs e)) (Sm (mode s) (thz s) o (root s) (Some self) (cfd s) (before s) false g)
                               (Z.max now (before s - Z.quot (thz s) 2)))
   \/ (cmd e = false /\ x = SimGoal (flip o (lhs e)) s (now + thz s) /\ fst (register mo s (flip o (lhs e)) l) = true)).
Proof.
  unfold abduce_simulated_lhs, simulated_outcome. destruct (guards e); [|intros []].
  destruct (ev e); try (intros []; fail).
  destruct (pev e); try (intros []; fail).
  cbv zeta. destruct (cmd e).
  - cbn [fst]. intros [H|[]]. subst. repeat split. left. split; reflexivity.
  - destruct (register mo s (flip o (lhs e)) l) as [fresh l'] eqn:R. destruct fresh; cbn [fst]; intros H;
    [|destruct H]. destruct H as [H|[]]. subst. repeat split. right. split; [reflexivity|]. split; reflexivity.
Qed.

Lemma imdl_sim mo e now s l x :
  In x (fst (abduce_simulated_imdl mo e now s l)) ->
  x = SimNeed (imdl e) s (now + thz s).
Proof.
  unfold abduce_simulated_imdl. destruct (req s).
  - intros [H|[]]. auto.
  - destruct (register mo s (imdl e) l) as [[|] l']; cbn; intros H; [destruct H as [H|[]]; auto|destruct H].
Qed.

(* Everything a call can do. *)
Inductive Did (e : env) (now : Z) (self : nat) (o : bool) (sub : sim) (s : sim) (x : effect) : Prop :=
| DCmd : guards e = true -> ev e = Fail -> pev e = Fail -> cmd e = true ->
    x = SimCmd (flip o (lhs e)) (Sm (mode sub) (thz sub) o (root sub) (Some self) (cfd sub) (before sub) false (Some s))
               (Z.max now (before sub - Z.quot (thz sub) 2)) -> Did e now self o sub s x
| DGoal : guards e = true -> ev e = Fail -> pev e = Fail -> cmd e = false ->
    x = SimGoal (flip o (lhs e)) sub (now + thz sub) -> Did e now self o sub s x
| DNeed b : x = SimNeed (imdl e) (if b : bool then set_req sub else sub) (now + thz sub) -> Did e now self o sub s x.

Lemma abduce_in mo h e now self g o c l x :
  0 <= h ->
  In x (fst (abduce mo h e now self g o c l)) ->
  allowed e = true /\
  ((real x = true /\ (g = None \/ exists s, g = Some s /\ mode s = MRoot /\ thz s <= allowance h) /\
    (forall s', sim_of x = Some s' -> mode s' = MRoot /\ thz s' = 0 /\ opp s' = o /\ root s' = self /\ up s' = g) /\
    ((exists inj, ev e = Fail /\ x = Goal (flip o (lhs e)) (Sm MRoot 0 o self None 0 0 false g) (till (flip o (lhs e))) inj /\
                  (inj = true <-> pev e <> Pos)) \/ premise x = false))
   \/ (exists s, g = Some s /\ mode s <> MRoot /\ thz s <= allowance h /\ x = SimStop (flip o (lhs e)) s)
   \/ (exists s sub, g = Some s /\ allowance h < thz s /\
         sub_sim now self s (thz s - allowance h) o c = Some sub /\ Did e now self o sub s x)).
Proof.
  intros Hh. unfold abduce.
  destruct (allowed e); [|intros []]. cbn [negb]. cbv zeta. intros H. split; [reflexivity|].
  destruct (allowance h <? match g with Some s => thz s | None => 0 end) eqn:T.
  - apply Z.ltb_lt in T. destruct g as [s|]; [|destruct H].
    destruct (sub_sim now self s (thz s - allowance h) o c) as [sub|] eqn:Q; [|destruct H].
    right. right. exists s, sub. split; [reflexivity|]. split; [exact T|]. split; [exact Q|].
    pose proof (sub_mode _ _ _ _ _ _ _ Q) as M.
    assert (L : In x (fst (abduce_simulated_lhs mo e now self (Some s) o sub l)) -> Did e now self o sub s x).
    { intros I. apply lhs_sim in I. destruct I as [G [E [P [[C I]|[C [I _]]]]]];
      [eapply DCmd|eapply DGoal]; eassumption. }
    assert (N : forall b l', In x (fst (abduce_simulated_imdl mo e now (if b : bool then set_req sub else sub) l')) -> Did e now self o sub s x).
    { intros b l' I. apply imdl_sim in I. apply DNeed with b. rewrite I. destruct b; reflexivity. }
    assert (L2 : In x (fst (let '(a, l1) := abduce_simulated_lhs mo e now self (Some s) o sub l in
                      if cmd e then let '(b, l2) := abduce_simulated_imdl mo e now sub l1 in (a ++ b, l2) else (a, l1))) ->
                 Did e now self o sub s x).
    { intros I. destruct (abduce_simulated_lhs mo e now self (Some s) o sub l) as [a l1] eqn:A.
      destruct (cmd e).
      - destruct (abduce_simulated_imdl mo e now sub l1) as [b l2] eqn:B. cbn [fst] in I.
        apply in_app_or in I. destruct I as [I|I]; [apply L; cbn; exact I|].
        apply (N false l1). rewrite B. exact I.
      - apply L. cbn. exact I. }
    destruct (c_s e); destruct (mode sub) eqn:MS; try congruence; auto;
    destruct (sim_c_s e); auto; try (apply (N true l); exact H).
  - apply Z.ltb_ge in T.
    assert (A0 : 0 <= allowance h) by (apply Z.quot_pos; lia).
    destruct (match g with Some s => mode s | None => MRoot end) eqn:M.
    + left.
      assert (G : g = None \/ exists s, g = Some s /\ mode s = MRoot /\ thz s <= allowance h).
      { destruct g as [s|]; [right; exists s; auto|left; reflexivity]. }
      assert (R1 : In x (abduce_lhs e o (Sm MRoot 0 o self None 0 0 false g) false) ->
        real x = true /\ (g = None \/ exists s, g = Some s /\ mode s = MRoot /\ thz s <= allowance h) /\
        (forall s', sim_of x = Some s' -> mode s' = MRoot /\ thz s' = 0 /\ opp s' = o /\ root s' = self /\ up s' = g) /\
        ((exists inj, ev e = Fail /\ x = Goal (flip o (lhs e)) (Sm MRoot 0 o self None 0 0 false g) (till (flip o (lhs e))) inj /\
                  (inj = true <-> pev e <> Pos)) \/ premise x = false)).
      { intros I. apply lhs_real in I. destruct I as [E [Gd [inj [X J]]]]. subst x. cbn [real sim_of].
        split; [reflexivity|]. split; [exact G|]. split.
        - intros s' Q. injection Q as <-. repeat split.
        - left. exists inj. auto. }
      assert (R2 : In x (abduce_imdl e (set_req (Sm MRoot 0 o self None 0 0 false g))) ->
        real x = true /\ (g = None \/ exists s, g = Some s /\ mode s = MRoot /\ thz s <= allowance h) /\
        (forall s', sim_of x = Some s' -> mode s' = MRoot /\ thz s' = 0 /\ opp s' = o /\ root s' = self /\ up s' = g) /\
        ((exists inj, ev e = Fail /\ x = Goal (flip o (lhs e)) (Sm MRoot 0 o self None 0 0 false g) (till (flip o (lhs e))) inj /\
                  (inj = true <-> pev e <> Pos)) \/ premise x = false)).
      { intros I. destruct I as [I|[]]. subst x. cbn [real sim_of].
        split; [reflexivity|]. split; [exact G|]. split.
        - intros s' Q. injection Q as <-. repeat split.
        - right. reflexivity. }
      destruct (c_s e); cbn [fst] in H; auto.
    + right. left. destruct g as [s|]; [|discriminate]. destruct H as [H|[]].
      exists s. split; [reflexivity|]. split; [congruence|]. split; [exact T|]. symmetry; exact H.
    + right. left. destruct g as [s|]; [|discriminate]. destruct H as [H|[]].
      exists s. split; [reflexivity|]. split; [congruence|]. split; [exact T|]. symmetry; exact H.
Qed.

(* The simulated goals of one step through a model. *)
Lemma abduce_simulated_in mo h e now self s o c l x k' s' :
  0 <= h ->
  In x (fst (abduce mo h e now self (Some s) o c l)) -> simulated x = Some (k', s') ->
  allowance h < thz s /\
  exists sub, sub_sim now self s (thz s - allowance h) o c = Some sub /\
    (s' = sub \/ (k' = true /\ s' = set_req sub)).
Proof.
  intros Hh I Q. destruct (abduce_in _ _ _ _ _ _ _ _ _ _ Hh I) as [_ [[R _]|[[s1 [_ [_ [_ X]]]]|[s1 [sub [G [T [Sb D]]]]]]]].
  - destruct x; discriminate.
  - subst x. discriminate.
  - injection G as <-. split; [exact T|]. exists sub. split; [exact Sb|].
    destruct D as [_ _ _ _ X|_ _ _ _ X|b X]; subst x; cbn in Q; try discriminate.
    + injection Q as <- <-. left. reflexivity.
    + injection Q as <- <-. destruct b; [right; split; reflexivity|left; reflexivity].
Qed.

Lemma cst_goals_in mo s o t s' : forall members l,
  In (t, s') (fst (cst_goals mo s o members l)) -> s' = s.
Proof.
  induction members as [|[[u k] p] r IH]; intros l; cbn [cst_goals]; [intros []|].
  destruct k; try apply IH; destruct p; try apply IH;
  (destruct (register mo s (flip o u) l) as [fresh l1];
   specialize (IH l1); destruct (cst_goals mo s o r l1) as [a l2]; cbn [fst] in *;
   destruct fresh; [intros [H|H]; [congruence|auto]|auto]).
Qed.

Lemma cst_facts now s o :
  let s' := cst_sim now s o in
  thz s' = thz s /\ root s' = root s /\ mode s' <> MRoot /\ opp s' = o /\ up s' = Some s /\ cfd s' = cfd s /\
  (mode s <> MRoot -> before s' = before s /\ mode s' = mode s).
Proof.
  cbv zeta. unfold cst_sim. destruct (mode s) eqn:M; cbn; repeat split; auto; try congruence.
  destruct o; discriminate.
Qed.

Lemma recheck_in mo e now self s l x k' s' :
  In x (fst (check_simulated mo e now self s l)) -> simulated x = Some (k', s') ->
  k' = false /\ s' = copy s.
Proof.
  unfold check_simulated. intros I Q.
  assert (L : In x (fst (abduce_simulated_lhs mo e now self (up s) (opp s) (copy s) l)) -> k' = false /\ s' = copy s).
  { intros J. apply lhs_sim in J. destruct J as [_ [_ [_ [[_ X]|[_ [X _]]]]]]; subst x; cbn in Q; try discriminate.
    injection Q as <- <-. split; reflexivity. }
  destruct (c_s e); try (destruct I; fail); destruct (guards e); try (destruct I; fail); auto.
Qed.

Lemma models_nonneg w : 0 <= models w.
Proof. induction w as [|[o|o|] w IH]; cbn [models]; lia. Qed.

(* Time. *)
Lemma branch_time mo h s0 w k s :
  0 <= h -> Branch mo h s0 w k s ->
  thz s = thz s0 - models w * allowance h /\ (0 < models w -> models w * allowance h < thz s0).
Proof.
  intros Hh B. induction B as [|w k s e now self o c l x k' s' B IH I Q|w s now o ms l t s' B IH I|w s e now self l x k' s' B IH I Q].
  - cbn. split; lia.
  - destruct (abduce_simulated_in _ _ _ _ _ _ _ _ _ _ _ _ Hh I Q) as [T [sub [Sb X]]].
    apply sub_facts in Sb. destruct Sb as [Tz _].
    assert (E : thz s' = thz sub) by (destruct X as [X|[_ X]]; subst s'; reflexivity).
    destruct IH as [IH1 IH2]. cbn [models]. split; [lia|]. intros _. lia.
  - unfold cst_abduce in I. apply cst_goals_in in I. subst s'. destruct (cst_facts now s o) as [E _].
    cbn [models]. rewrite E. exact IH.
  - destruct (recheck_in _ _ _ _ _ _ _ _ _ I Q) as [_ X]. subst s'. cbn [models]. cbn. exact IH.
Qed.

Lemma branch_mets mo h s0 w k s :
  Branch mo h s0 w k s -> mets w + (if k then 1 else 0) <= models w.
Proof.
  intros B. induction B as [|w k s e now self o c l x k' s' B IH I Q|w s now o ms l t s' B IH I|w s e now self l x k' s' B IH I Q].
  - cbn. lia.
  - cbn [mets models]. destruct k, k'; lia.
  - cbn [mets models]. exact IH.
  - destruct (recheck_in _ _ _ _ _ _ _ _ _ I Q) as [X _]. subst k'. cbn [mets models]. cbn iota in *. lia.
Qed.

Lemma branch_bound mo h s0 w k s :
  2 <= h -> Branch mo h s0 w k s -> 0 < models w -> models w < thz s0 /\ mets w < thz s0.
Proof.
  intros Hh B P. destruct (branch_time mo h s0 w k s ltac:(lia) B) as [_ T]. specialize (T P).
  assert (A : 1 <= allowance h) by (apply Z.quot_le_lower_bound; lia).
  pose proof (branch_mets _ _ _ _ _ _ B) as N. destruct k; nia.
Qed.

(* Modes. *)
Lemma branch_mode mo h s0 w k s :
  0 <= h -> Branch mo h s0 w k s -> w <> [] -> mode s <> MRoot.
Proof.
  intros Hh B. destruct B as [|w k s e now self o c l x k' s' B I Q|w s now o ms l t s' B I|w s e now self l x k' s' B I Q]; intros W.
  - congruence.
  - destruct (abduce_simulated_in _ _ _ _ _ _ _ _ _ _ _ _ Hh I Q) as [T [sub [Sb X]]].
    apply sub_mode in Sb. destruct X as [X|[_ X]]; subst s'; exact Sb.
  - unfold cst_abduce in I. apply cst_goals_in in I. subst s'. apply (cst_facts now s o).
  - destruct (recheck_in _ _ _ _ _ _ _ _ _ I Q) as [_ X]. subst s'. cbn.
    remember true as kk. revert Heqkk.
    clear - Hh B. induction B as [|w k s e now self o c l x k' s' B IH I Q|w s now o ms l t s' B IH I|w s e now self l x k' s' B IH I Q]; intros K.
    + discriminate.
    + destruct (abduce_simulated_in _ _ _ _ _ _ _ _ _ _ _ _ Hh I Q) as [T [sub [Sb X]]].
      apply sub_mode in Sb. destruct X as [X|[_ X]]; subst s'; exact Sb.
    + discriminate.
    + destruct (recheck_in _ _ _ _ _ _ _ _ _ I Q) as [X _]. congruence.
Qed.

Lemma plain_tail x w : plain (x :: w) -> plain w.
Proof. intros P o I. apply (P o). right. exact I. Qed.

Lemma branch_opposites mo h s0 w k s :
  0 <= h -> mode s0 = MRoot -> Branch mo h s0 w k s -> plain w ->
  0 <= opposites w <= 1 /\ (mode s = MMandatory <-> opposites w = 1).
Proof.
  intros Hh M0 B. induction B as [|w k s e now self o c l x k' s' B IH I Q|w s now o ms l t s' B IH I|w s e now self l x k' s' B IH I Q]; intros P.
  - cbn. rewrite M0. split; [lia|]. split; [discriminate|lia].
  - specialize (IH (plain_tail _ _ P)).
    destruct (abduce_simulated_in _ _ _ _ _ _ _ _ _ _ _ _ Hh I Q) as [T [sub [Sb X]]].
    apply sub_facts in Sb. destruct Sb as [_ [_ [_ [_ [_ [_ [_ [_ [MM MO]]]]]]]]].
    assert (E : mode s' = mode sub) by (destruct X as [X|[_ X]]; subst s'; reflexivity).
    rewrite E. rewrite MM. destruct IH as [B1 B2]. cbn [opposites].
    destruct o.
    + assert (mode s <> MMandatory) by (intros Z1; apply MO in Z1; discriminate).
      assert (opposites w = 0) by (destruct (Z.eq_dec (opposites w) 1) as [Z1|Z1]; [apply B2 in Z1; contradiction|lia]).
      split; [lia|]. split; intros; [lia|right; reflexivity].
    + split; [exact B1|]. rewrite <- B2. split; [intros [Z1|Z1]; [exact Z1|discriminate]|auto].
  - exfalso. apply (P o). left. reflexivity.
  - specialize (IH (plain_tail _ _ P)).
    destruct (recheck_in _ _ _ _ _ _ _ _ _ I Q) as [_ X]. subst s'. cbn. exact IH.
Qed.

(* What is inherited. *)
Lemma branch_root mo h s0 w k s : 0 <= h -> Branch mo h s0 w k s -> root s = root s0.
Proof.
  intros Hh B. induction B as [|w k s e now self o c l x k' s' B IH I Q|w s now o ms l t s' B IH I|w s e now self l x k' s' B IH I Q].
  - reflexivity.
  - destruct (abduce_simulated_in _ _ _ _ _ _ _ _ _ _ _ _ Hh I Q) as [T [sub [Sb X]]].
    apply sub_facts in Sb. destruct Sb as [_ [_ [R _]]].
    destruct X as [X|[_ X]]; subst s'; cbn; congruence.
  - unfold cst_abduce in I. apply cst_goals_in in I. subst s'. destruct (cst_facts now s o) as [_ [R _]]. congruence.
  - destruct (recheck_in _ _ _ _ _ _ _ _ _ I Q) as [_ X]. subst s'. cbn. exact IH.
Qed.

Lemma branch_solution mo h s0 w k s : 0 <= h -> mode s0 <> MRoot -> Branch mo h s0 w k s ->
  mode s <> MRoot /\ cfd s = cfd s0 /\ before s = before s0.
Proof.
  intros Hh M0 B. induction B as [|w k s e now self o c l x k' s' B IH I Q|w s now o ms l t s' B IH I|w s e now self l x k' s' B IH I Q].
  - auto.
  - destruct IH as [I1 [I2 I3]]. destruct (abduce_simulated_in _ _ _ _ _ _ _ _ _ _ _ _ Hh I Q) as [T [sub [Sb X]]].
    pose proof (sub_mode _ _ _ _ _ _ _ Sb) as MS.
    apply sub_facts in Sb. destruct Sb as [_ [_ [_ [_ [_ [_ [_ [R _]]]]]]]]. destruct (R I1) as [R1 R2].
    destruct X as [X|[_ X]]; subst s'; cbn; (split; [exact MS|split; congruence]).
  - destruct IH as [I1 [I2 I3]]. unfold cst_abduce in I. apply cst_goals_in in I. subst s'.
    destruct (cst_facts now s o) as [_ [_ [MS [_ [_ [C R]]]]]]. destruct (R I1) as [R1 R2].
    split; [exact MS|split; congruence].
  - destruct (recheck_in _ _ _ _ _ _ _ _ _ I Q) as [_ X]. subst s'. cbn. exact IH.
Qed.

Lemma first_step mo h s0 e now self o c l x k s : 0 <= h -> mode s0 = MRoot ->
  In x (fst (abduce mo h e now self (Some s0) o c l)) -> simulated x = Some (k, s) ->
  cfd s = c /\ before s = now + (thz s0 - allowance h) /\ ctl s = Some self.
Proof.
  intros Hh M I Q. destruct (abduce_simulated_in _ _ _ _ _ _ _ _ _ _ _ _ Hh I Q) as [T [sub [Sb X]]].
  apply sub_facts in Sb. destruct Sb as [_ [_ [_ [CT [_ [_ [R _]]]]]]]. destruct (R M) as [R1 R2].
  destruct X as [X|[_ X]]; subst s; cbn; auto.
Qed.

(* Simulations do not act. *)
Lemma abduce_simulation mo h e now self s o c l x : 0 <= h ->
  mode s <> MRoot \/ allowance h < thz s ->
  In x (fst (abduce mo h e now self (Some s) o c l)) -> real x = false.
Proof.
  intros Hh M I. destruct (abduce_in _ _ _ _ _ _ _ _ _ _ Hh I) as [_ [[R [G _]]|[[s1 [_ [_ [_ X]]]]|[s1 [sub [G [T [Sb D]]]]]]]].
  - destruct G as [G|[s1 [G [G1 G2]]]]; [discriminate|]. injection G as <-.
    destruct M; [contradiction|lia].
  - subst x. reflexivity.
  - destruct D as [_ _ _ _ X|_ _ _ _ X|b X]; subst x; reflexivity.
Qed.

Lemma check_simulation mo e now self s l x :
  In x (fst (check_simulated mo e now self s l)) -> real x = false.
Proof.
  unfold check_simulated. intros I.
  assert (L : In x (fst (abduce_simulated_lhs mo e now self (up s) (opp s) (copy s) l)) -> real x = false).
  { intros J. apply lhs_sim in J. destruct J as [_ [_ [_ [[_ X]|[_ [X _]]]]]]; subst x; reflexivity. }
  destruct (c_s e); try (destruct I; fail); destruct (guards e); try (destruct I; fail); auto.
Qed.

Lemma branch_no_action mo h s0 w k s e now self o c l x : 0 <= h ->
  Branch mo h s0 w k s -> w <> [] ->
  In x (fst (abduce mo h e now self (Some s) o c l) ++ fst (check_simulated mo e now self s l)) ->
  real x = false.
Proof.
  intros Hh B W I. apply in_app_or in I. destruct I as [I|I].
  - eapply abduce_simulation; [exact Hh| |exact I]. left. eapply branch_mode; eassumption.
  - eapply check_simulation; exact I.
Qed.

Lemma real_only mo h e now self g o c l x : 0 <= h ->
  In x (fst (abduce mo h e now self g o c l)) -> real x = true ->
  (g = None \/ exists s, g = Some s /\ mode s = MRoot /\ thz s <= allowance h) /\
  exists s', sim_of x = Some s' /\ mode s' = MRoot /\ thz s' = 0 /\ opp s' = o /\ root s' = self /\ up s' = g.
Proof.
  intros Hh I R. destruct (abduce_in _ _ _ _ _ _ _ _ _ _ Hh I) as [_ [[_ [G [S' _]]]|[[s1 [_ [_ [_ X]]]]|[s1 [sub [G [T [Sb D]]]]]]]].
  - split; [exact G|]. destruct x; try discriminate; eexists; (split; [reflexivity|]); apply S'; reflexivity.
  - subst x. discriminate.
  - destruct D as [_ _ _ _ X|_ _ _ _ X|b X]; subst x; discriminate.
Qed.

(* A real goal gives real sub-goals through models. *)
Lemma real_gives mo h e now self g o c l :
  0 <= h -> (g = None \/ exists s, g = Some s /\ mode s = MRoot /\ thz s <= allowance h) ->
  (forall x, In x (fst (abduce mo h e now self g o c l)) -> real x = true) /\
  (allowed e = true -> c_s e <> NoReq -> c_s e <> WeakEnabled ->
     exists s', In (Need (imdl e) s') (fst (abduce mo h e now self g o c l))) /\
  (allowed e = true -> c_s e = NoReq \/ c_s e = WeakEnabled -> guards e = true -> ev e = Fail ->
     exists s' inj, In (Goal (flip o (lhs e)) s' (till (lhs e)) inj) (fst (abduce mo h e now self g o c l)) /\
                    (inj = true <-> pev e <> Pos)).
Proof.
  intros Hh G.
  assert (A0 : 0 <= allowance h) by (apply Z.quot_pos; lia).
  assert (T : allowance h <? match g with Some s => thz s | None => 0 end = false).
  { apply Z.ltb_ge. destruct G as [G|[s [G [_ G2]]]]; subst g; lia. }
  assert (M : match g with Some s => mode s | None => MRoot end = MRoot).
  { destruct G as [G|[s [G [G2 _]]]]; subst g; auto. }
  split.
  - intros x I. destruct (abduce_in _ _ _ _ _ _ _ _ _ _ Hh I) as [_ [[R _]|[[s1 [G1 [G2 [G3 X]]]]|[s1 [sub [G1 [G2 _]]]]]]].
    + exact R.
    + exfalso. subst g. destruct G as [G|[s [G [Ga _]]]]; [discriminate|]. injection G as <-. contradiction.
    + exfalso. subst g. apply Z.ltb_ge in T. lia.
  - unfold abduce. rewrite T, M. split.
    + intros Al N1 N2. rewrite Al. cbn [negb]. cbv zeta.
      destruct (c_s e); try congruence; eexists; left; reflexivity.
    + intros Al C Gd Ev. rewrite Al. cbn [negb]. cbv zeta.
      assert (E : fst (match c_s e with
          | WeakEnabled | NoReq => (abduce_lhs e o (Sm MRoot 0 o self None 0 0 false g) false, l)
          | _ => (abduce_imdl e (set_req (Sm MRoot 0 o self None 0 0 false g)), l) end)
          = abduce_lhs e o (Sm MRoot 0 o self None 0 0 false g) false).
      { destruct C as [C|C]; rewrite C; reflexivity. }
      rewrite E. unfold abduce_lhs. rewrite Gd, Ev.
      destruct (pev e); (eexists; eexists; split; [left; reflexivity|split; congruence]).
Qed.

(* What is known is not pursued. *)
Lemma known_not_pursued mo h e now self g o c l x : 0 <= h ->
  In x (fst (abduce mo h e now self g o c l)) -> premise x = true ->
  ev e = Fail /\
  (pev e = Pos -> exists t s d, x = Goal t s d false) /\
  (forall t s d b, x = Goal t s d b -> (b = true <-> pev e <> Pos)).
Proof.
  intros Hh I P. destruct (abduce_in _ _ _ _ _ _ _ _ _ _ Hh I) as [_ [[R [_ [_ Y]]]|[[s1 [_ [_ [_ X]]]]|[s1 [sub [G [T [Sb D]]]]]]]].
  - destruct Y as [[inj [E [X J]]]|Y]; [|congruence]. subst x. split; [exact E|]. split.
    + intros Pp. destruct inj; [|eauto]. assert (true = true) as Z1 by reflexivity. apply J in Z1. contradiction.
    + intros t s d b Q. injection Q as _ _ _ <-. exact J.
  - subst x. discriminate.
  - destruct D as [_ E Q _ X|_ E Q _ X|b X]; subst x; try discriminate;
    (split; [exact E|split; [congruence|intros; discriminate]]).
Qed.
