(* Further lemmas on planning, and witnesses. *)
From Coq Require Import ZArith List Bool Lia.
From Verif Require Import Pln_model Pln_spec Pln_proofs.
Import ListNotations.
Local Open Scope Z_scope.

(* Targets are pursued once. *)
Definition plist (es : list effect) : list target :=
  flat_map (fun x => match pursued x with Some t => [t] | None => [] end) es.

Lemma plist_app a b : plist (a ++ b) = plist a ++ plist b.
Proof. apply flat_map_app. Qed.

Lemma sub_root now self s t o c sub :
  sub_sim now self s t o c = Some sub -> root_sim sub = root_sim s.
Proof.
  unfold sub_sim. destruct (mode s) eqn:M; destruct o; intros H; try discriminate; injection H as <-; try rewrite M; reflexivity.
Qed.

Lemma set_req_root s : mode s <> MRoot -> root_sim (set_req s) = root_sim s.
Proof. destruct s as [m t o r c cf b rq u]; cbn. destruct m; congruence. Qed.

Definition Added (mo : nat -> nat -> bool) (a : list effect) (l l' : list target) : Prop :=
  (plist a = [] /\ l' = l) \/
  (exists t, plist a = [t] /\ existsb (same mo t) l = false /\ l' = l ++ [t]).

Lemma register_added mo s t l : root_sim s <> None ->
  (register mo s t l = (false, l) /\ existsb (same mo t) l = true) \/
  (register mo s t l = (true, l ++ [t]) /\ existsb (same mo t) l = false).
Proof.
  unfold register. destruct (root_sim s); [|congruence]. intros _.
  destruct (existsb (same mo t) l); auto.
Qed.

Lemma lhs_added mo e now self g o s l : root_sim s <> None ->
  Added mo (fst (abduce_simulated_lhs mo e now self g o s l)) l (snd (abduce_simulated_lhs mo e now self g o s l)) /\
  (cmd e = true -> plist (fst (abduce_simulated_lhs mo e now self g o s l)) = [] /\
                   snd (abduce_simulated_lhs mo e now self g o s l) = l).
Proof.
  intros R. unfold abduce_simulated_lhs, simulated_outcome.
  destruct (guards e); [|split; [left|]; split; reflexivity].
  destruct (ev e); try (split; [left|]; split; reflexivity).
  destruct (pev e); try (split; [left|]; split; reflexivity).
  cbv zeta. destruct (cmd e); [split; [left|]; split; reflexivity|].
  split; [|discriminate].
  destruct (register_added mo s (flip o (lhs e)) l R) as [[E X]|[E X]]; rewrite E; cbn [fst snd].
  - left. split; reflexivity.
  - right. exists (flip o (lhs e)). split; [reflexivity|]. split; [exact X|reflexivity].
Qed.

Lemma imdl_added mo e now s l : root_sim s <> None ->
  Added mo (fst (abduce_simulated_imdl mo e now s l)) l (snd (abduce_simulated_imdl mo e now s l)).
Proof.
  intros R. unfold abduce_simulated_imdl. destruct (req s) eqn:Q.
  - left. cbn. rewrite Q. split; reflexivity.
  - destruct (register_added mo s (imdl e) l R) as [[E X]|[E X]]; rewrite E; cbn [fst snd].
    + left. split; reflexivity.
    + right. exists (imdl e). cbn. rewrite Q. split; [reflexivity|]. split; [exact X|reflexivity].
Qed.

Lemma lhs_real_plist e o s sb : plist (abduce_lhs e o s sb) = [].
Proof.
  unfold abduce_lhs. destruct (guards e); [|reflexivity]. destruct (ev e); try reflexivity.
  destruct (pev e); reflexivity.
Qed.

Lemma abduce_added mo h e now self s o c l : root_sim s <> None ->
  Added mo (fst (abduce mo h e now self (Some s) o c l)) l (snd (abduce mo h e now self (Some s) o c l)).
Proof.
  intros R. unfold abduce. destruct (allowed e); [|left; split; reflexivity]. cbn [negb]. cbv zeta.
  destruct (allowance h <? thz s).
  - destruct (sub_sim now self s (thz s - allowance h) o c) as [sub|] eqn:Q; [|left; split; reflexivity].
    pose proof (sub_mode _ _ _ _ _ _ _ Q) as MS. pose proof (sub_root _ _ _ _ _ _ _ Q) as RS.
    assert (R1 : root_sim sub <> None) by congruence.
    assert (R2 : root_sim (set_req sub) <> None) by (rewrite set_req_root by exact MS; exact R1).
    destruct (lhs_added mo e now self (Some s) o sub l R1) as [A1 A2].
    pose proof (imdl_added mo e now (set_req sub) l R2) as A3.
    assert (A4 : Added mo
      (fst (let '(a, l1) := abduce_simulated_lhs mo e now self (Some s) o sub l in
            if cmd e then let '(b, l2) := abduce_simulated_imdl mo e now sub l1 in (a ++ b, l2) else (a, l1))) l
      (snd (let '(a, l1) := abduce_simulated_lhs mo e now self (Some s) o sub l in
            if cmd e then let '(b, l2) := abduce_simulated_imdl mo e now sub l1 in (a ++ b, l2) else (a, l1)))).
    { destruct (abduce_simulated_lhs mo e now self (Some s) o sub l) as [a l1]. cbn [fst snd] in A1, A2.
      destruct (cmd e); [|exact A1]. destruct (A2 eq_refl) as [P L]. subst l1.
      pose proof (imdl_added mo e now sub l R1) as A5.
      destruct (abduce_simulated_imdl mo e now sub l) as [b l2]. cbn [fst snd] in *.
      unfold Added in *. rewrite plist_app, P. exact A5. }
    destruct (c_s e); destruct (mode sub); try congruence; auto;
    destruct (sim_c_s e); auto.
  - destruct (mode s); [|left; split; reflexivity|left; split; reflexivity].
    destruct (c_s e); cbn [fst snd]; left; (split; [|reflexivity]); try apply lhs_real_plist; reflexivity.
Qed.

Inductive Fresh (mo : nat -> nat -> bool) : list target -> list target -> Prop :=
| F0 l : Fresh mo l []
| F1 l t ts : existsb (same mo t) l = false -> Fresh mo (l ++ [t]) ts -> Fresh mo l (t :: ts).

Lemma calls_fresh mo h : forall cs l,
  (forall c, In c cs -> root_sim (cgoal c) <> None) -> Fresh mo l (plist (calls mo h cs l)).
Proof.
  induction cs as [|c cs IH]; intros l R; cbn [calls]; [constructor|].
  pose proof (abduce_added mo h (cenv c) (cnow c) (cself c) (cgoal c) (copp c) (ccfd c) l (R c (or_introl eq_refl))) as A.
  destruct (abduce mo h (cenv c) (cnow c) (cself c) (Some (cgoal c)) (copp c) (ccfd c) l) as [a l'].
  cbn [fst snd] in A. rewrite plist_app.
  specialize (IH l' (fun d I => R d (or_intror I))).
  destruct A as [[P L]|[t [P [N L]]]]; rewrite P; subst l'; cbn [app]; [exact IH|].
  constructor; assumption.
Qed.

Lemma fresh_in mo : forall ts l, Fresh mo l ts -> forall u t, In u ts -> In t l -> same mo u t = false.
Proof.
  induction ts as [|x ts IH]; intros l F u t U T; [destruct U|]. inversion F as [|l0 t0 ts0 N F' E1 E2]; subst.
  destruct U as [U|U].
  - subst x. destruct (same mo u t) eqn:Q; [|reflexivity].
    assert (existsb (same mo u) l = true) by (apply existsb_exists; eauto). congruence.
  - apply (IH _ F' u t U). apply in_or_app. left. exact T.
Qed.

Lemma fresh_pair mo : forall ts l, Fresh mo l ts -> forall a b c t u, ts = a ++ t :: b ++ u :: c -> same mo u t = false.
Proof.
  induction ts as [|x ts IH]; intros l F a b c t u E; [destruct a; discriminate|].
  inversion F as [|l0 t0 ts0 N F' E1 E2]; subst. destruct a as [|y a].
  - injection E as -> ->. apply (fresh_in mo _ _ F' u t).
    + apply in_or_app. right. left. reflexivity.
    + apply in_or_app. right. left. reflexivity.
  - injection E as -> ->. eapply IH; [exact F'|reflexivity].
Qed.

Lemma calls_once mo h cs l :
  (forall c, In c cs -> root_sim (cgoal c) <> None) ->
  forall a x b y d t u, calls mo h cs l = a ++ x :: b ++ y :: d ->
  pursued x = Some t -> pursued y = Some u -> same mo u t = false.
Proof.
  intros R a x b y d t u E X Y. pose proof (calls_fresh mo h cs l R) as F. rewrite E in F.
  rewrite plist_app in F. change (x :: b ++ y :: d) with ([x] ++ b ++ [y] ++ d) in F.
  rewrite !plist_app in F. unfold plist at 2 in F. cbn [flat_map] in F. rewrite X in F.
  cbn [app] in F. replace (plist [y]) with [u] in F by (unfold plist; cbn; rewrite Y; reflexivity).
  eapply fresh_pair; [exact F|]. cbn [app]. reflexivity.
Qed.

Lemma calls_not_held mo h cs l :
  (forall c, In c cs -> root_sim (cgoal c) <> None) ->
  forall y u t, In y (calls mo h cs l) -> pursued y = Some u -> In t l -> same mo u t = false.
Proof.
  intros R y u t I Y T. eapply fresh_in; [apply (calls_fresh mo h cs l R)| |exact T].
  unfold plist. apply in_flat_map. exists y. split; [exact I|]. rewrite Y. left. reflexivity.
Qed.

(* A goal is dropped only for one with the same object. *)
Lemma dropped_why mo h e now self s o c l :
  allowed e = true -> allowance h < thz s -> (mode s = MMandatory -> o = false) ->
  c_s e = NoReq \/ c_s e = WeakEnabled -> guards e = true -> ev e = Fail -> pev e = Fail -> cmd e = false ->
  root_sim s <> None ->
  (exists s', In (SimGoal (flip o (lhs e)) s' (now + (thz s - allowance h))) (fst (abduce mo h e now self (Some s) o c l)))
  \/ (exists u, In u l /\ anti u = anti (flip o (lhs e)) /\ mo (obj (lhs e)) (obj u) = true).
Proof.
  intros Al T M C Gd E P Cm R. unfold abduce. rewrite Al. cbn [negb]. cbv zeta.
  apply Z.ltb_lt in T. rewrite T.
  assert (Q : exists sub, sub_sim now self s (thz s - allowance h) o c = Some sub).
  { unfold sub_sim. destruct (mode s) eqn:MM; try (eexists; reflexivity). rewrite (M eq_refl). eexists; reflexivity. }
  destruct Q as [sub Q]. rewrite Q.
  pose proof (sub_mode _ _ _ _ _ _ _ Q) as MS. pose proof (sub_root _ _ _ _ _ _ _ Q) as RS.
  assert (TZ : thz sub = thz s - allowance h) by (apply sub_facts in Q; apply Q).
  assert (R1 : root_sim sub <> None) by congruence.
  assert (X : (exists s', In (SimGoal (flip o (lhs e)) s' (now + (thz s - allowance h)))
                (fst (abduce_simulated_lhs mo e now self (Some s) o sub l)))
    \/ (exists u, In u l /\ anti u = anti (flip o (lhs e)) /\ mo (obj (lhs e)) (obj u) = true)).
  { unfold abduce_simulated_lhs. rewrite Gd, E, P. cbv zeta. rewrite Cm.
    destruct (register_added mo sub (flip o (lhs e)) l R1) as [[F X]|[F X]]; rewrite F; cbn [fst].
    - right. apply existsb_exists in X. destruct X as [u [U W]]. unfold same in W.
      apply andb_prop in W. destruct W as [W1 W2]. apply eqb_prop in W1.
      exists u. split; [exact U|]. split; [congruence|exact W2].
    - left. exists sub. left. rewrite TZ. reflexivity. }
  destruct (abduce_simulated_lhs mo e now self (Some s) o sub l) as [a l1]. cbn [fst] in X.
  destruct C as [C|C]; rewrite C; rewrite ?Cm; destruct (mode sub); try congruence; exact X.
Qed.

(* Commands signalled again. *)
Lemma signal_first mo t ds : forall l,
  (forall p, In p l -> mo t (fst p) = false) -> signal mo t ds l = (l ++ [(t, ds)], true).
Proof.
  induction l as [|[u vs] l IH]; intros N; cbn [signal]; [reflexivity|].
  pose proof (N (u, vs) (or_introl eq_refl)) as N0. cbn [fst] in N0. rewrite N0.
  rewrite IH; [reflexivity|]. intros p I. apply N. right. exact I.
Qed.

Lemma signal_again mo t ds u vs r : forall a,
  (forall p, In p a -> mo t (fst p) = false) -> mo t u = true ->
  exists vs', signal mo t ds (a ++ (u, vs) :: r) = (a ++ (u, vs') :: r, false) /\
    (forall d, In d vs' <-> In d vs /\ In d ds).
Proof.
  induction a as [|[v ws] a IH]; intros N M; cbn [signal app].
  - rewrite M. eexists. split; [reflexivity|]. intros d. rewrite filter_In. rewrite existsb_exists.
    split; intros [H1 H2]; (split; [exact H1|]).
    + destruct H2 as [x [X1 X2]]. apply Nat.eqb_eq in X2. subst. exact X1.
    + exists d. split; [exact H2|apply Nat.eqb_refl].
  - pose proof (N (v, ws) (or_introl eq_refl)) as N0. cbn [fst] in N0. rewrite N0.
    destruct (IH (fun p I => N p (or_intror I)) M) as [vs' [E F]]. rewrite E. exists vs'. split; [reflexivity|exact F].
Qed.

Lemma signal_defeated mo t ds u vs r a w :
  (forall p, In p a -> mo t (fst p) = false) -> mo t u = true ->
  exists vs', signal mo t ds (a ++ (u, vs) :: r) = (a ++ (u, vs') :: r, false) /\
    (defeated w vs' -> defeated w vs /\ defeated w ds) /\
    ((exists d, In d vs /\ In d ds /\ In d w) -> defeated w vs').
Proof.
  intros N M. destruct (signal_again mo t ds u vs r a N M) as [vs' [E F]]. exists vs'. split; [exact E|]. split.
  - intros [d [D W]]. apply F in D. destruct D as [D1 D2]. split; exists d; auto.
  - intros [d [D1 [D2 W]]]. exists d. split; [apply F; auto|exact W].
Qed.

Lemma signal_witness :
  exists mo t ds u vs vs' w,
    signal mo t ds [(u, vs)] = ([(u, vs')], false) /\
    defeated w vs /\ defeated w ds /\ ~ defeated w vs'.
Proof.
  exists Nat.eqb, 0%nat, [2%nat], 0%nat, [1%nat], (@nil nat), [1%nat; 2%nat].
  split; [reflexivity|]. split; [exists 1%nat; cbn; auto|]. split; [exists 2%nat; cbn; auto|].
  intros [d [[] _]].
Qed.

(* Outcomes of predictions. *)
Lemma alive_in l c : In c (alive l) <-> In (c, false) l.
Proof.
  unfold alive. rewrite in_map_iff. split.
  - intros [[d b] [E I]]. apply filter_In in I. destruct I as [I N]. cbn in *. subst d. destruct b; [discriminate|exact I].
  - intros I. exists (c, false). split; [reflexivity|]. apply filter_In. auto.
Qed.

Lemma marks_in groups success evidence x :
  In x (flat_map (fun g => Mark g success :: (if evidence : bool then [] else [Absent g])) groups) <->
  exists g, In g groups /\ (x = Mark g success \/ (evidence = false /\ x = Absent g)).
Proof.
  rewrite in_flat_map. split.
  - intros [g [G I]]. exists g. split; [exact G|]. destruct I as [I|I]; [left; auto|].
    destruct evidence; [destruct I|]. destruct I as [I|[]]. right. auto.
  - intros [g [G I]]. exists g. split; [exact G|]. destruct I as [I|[I1 I2]]; [left; auto|].
    right. rewrite I1. left. auto.
Qed.

Lemma req_in m p success rate x :
  In x (fst (req_outcome m p success rate)) <->
  (x = Rate success /\ (success = true \/ rate = true)) \/
  exists r, lookup p m = Some r /\ exists c,
    (weakly r c /\ x = Tell c success (weak_allowed r)) \/
    (strongly r c /\ x = Tell c (negb success) (strong_allowed r)).
Proof.
  unfold req_outcome.
  assert (A : In x (if success then [Rate true] else if rate then [Rate false] else []) <->
              (x = Rate success /\ (success = true \/ rate = true))).
  { destruct success, rate; cbn; split; intros H; try (destruct H as [H|[]]; subst; auto);
    try (destruct H as [H1 H2]; auto); try contradiction. destruct H2; discriminate. }
  destruct (lookup p m) as [r|]; cbn [fst].
  - rewrite in_app_iff, A, in_app_iff, !in_map_iff. split.
    + intros [H|[[c [H1 H2]]|[c [H1 H2]]]]; [left; exact H| |]; right; exists r; (split; [reflexivity|]); exists c;
      apply alive_in in H2; [left|right]; split; auto.
    + intros [H|[r' [E [c H]]]]; [left; exact H|]. injection E as <-. right.
      destruct H as [[H1 H2]|[H1 H2]]; [left|right]; exists c; (split; [auto|apply alive_in; exact H1]).
  - rewrite A. split; [auto|]. intros [H|[r [E _]]]; [exact H|discriminate].
Qed.

Lemma pred_in groups requirement m p success evidence full rate x :
  In x (fst (pred_outcome groups requirement m p success evidence full rate)) <->
  (full = true /\
    ((x = Rate success /\ (success = true \/ rate = true)) \/
     exists r, lookup p m = Some r /\ exists c,
       (weakly r c /\ x = Tell c success (weak_allowed r)) \/
       (strongly r c /\ x = Tell c (negb success) (strong_allowed r)))) \/
  (requirement = false /\
    exists g, In g groups /\ (x = Mark g success \/ (evidence = false /\ x = Absent g))).
Proof.
  unfold pred_outcome. destruct full.
  - destruct (req_outcome m p success rate) as [a m'] eqn:Q.
    assert (A : In x a <-> In x (fst (req_outcome m p success rate))) by (rewrite Q; reflexivity).
    rewrite req_in in A. destruct requirement; cbn [fst].
    + rewrite A. split; [auto|]. intros [[_ H]|[H _]]; [exact H|discriminate].
    + rewrite in_app_iff, A, marks_in. split.
      * intros [H|H]; [left; split; [reflexivity|exact H]|right; split; [reflexivity|exact H]].
      * intros [[_ H]|[_ H]]; [left; exact H|right; exact H].
  - destruct requirement; cbn [fst].
    + split; [intros []|]. intros [[H _]|[H _]]; discriminate.
    + rewrite in_app_iff, marks_in. split; [intros [[]|H]; auto|]. intros [[H _]|[_ H]]; [discriminate|auto].
Qed.

Lemma erase_keys p q : forall m, In q (map fst (erase p m)) -> In q (map fst m).
Proof.
  induction m as [|[k r] m IH]; cbn [erase]; [auto|]. destruct (Nat.eqb k p).
  - intros I. right. exact I.
  - cbn. intros [I|I]; auto.
Qed.

Lemma lookup_none p : forall m, lookup p m = None <-> ~ In p (map fst m).
Proof.
  induction m as [|[k r] m IH]; cbn [lookup map]; [split; auto|].
  destruct (Nat.eqb k p) eqn:E.
  - apply Nat.eqb_eq in E. subst. split; [discriminate|]. intros N. exfalso. apply N. left. reflexivity.
  - apply Nat.eqb_neq in E. rewrite IH. cbn. intuition.
Qed.

Lemma erase_none p : forall m, NoDup (map fst m) -> lookup p (erase p m) = None.
Proof.
  induction m as [|[k r] m IH]; cbn [erase]; intros N; [reflexivity|].
  cbn in N. inversion N as [|? ? N1 N2]; subst. destruct (Nat.eqb k p) eqn:E.
  - apply Nat.eqb_eq in E. subst. apply lookup_none. exact N1.
  - cbn [lookup]. rewrite E. auto.
Qed.

Lemma erase_other p q : forall m, q <> p -> lookup q (erase p m) = lookup q m.
Proof.
  induction m as [|[k r] m IH]; cbn [erase lookup]; intros N; [reflexivity|].
  destruct (Nat.eqb k p) eqn:E.
  - apply Nat.eqb_eq in E. subst. destruct (Nat.eqb p q) eqn:F; [apply Nat.eqb_eq in F; congruence|reflexivity].
  - cbn [lookup]. rewrite IH by exact N. reflexivity.
Qed.

Lemma pred_kept groups requirement m p success evidence full rate :
  snd (pred_outcome groups requirement m p success evidence full rate) =
  if full then erase p m else m.
Proof.
  assert (Z1 : forall m, lookup p m = None -> erase p m = m).
  { induction m0 as [|[k r] m0 IH]; cbn [erase lookup]; [reflexivity|].
    destruct (Nat.eqb k p); [discriminate|]. intros H. rewrite IH by exact H. reflexivity. }
  unfold pred_outcome, req_outcome. destruct full.
  - destruct (lookup p m) eqn:L; destruct requirement; cbn [snd]; auto; rewrite Z1; auto.
  - destruct requirement; reflexivity.
Qed.

Lemma outcome_forgets groups requirement m p success evidence rate :
  NoDup (map fst m) ->
  let m' := snd (pred_outcome groups requirement m p success evidence true rate) in
  lookup p m' = None /\ (forall q, q <> p -> lookup q m' = lookup q m).
Proof.
  intros N m'. subst m'. rewrite pred_kept. split; [apply erase_none; exact N|]. intros q Q. apply erase_other. exact Q.
Qed.

Lemma no_tell groups requirement : forall rs m p c b f,
  (forall r, In r rs -> rpred r = p) -> lookup p m = None ->
  ~ In (Tell c b f) (fst (reports groups requirement m rs)).
Proof.
  induction rs as [|r rs IH]; intros m p c b f A L; cbn [reports]; [intros []|].
  pose proof (A r (or_introl eq_refl)) as P.
  destruct (pred_outcome groups requirement m (rpred r) (rsuccess r) (revidence r) (rfull r) (rrate r)) as [a m1] eqn:Q.
  assert (M : lookup p m1 = None).
  { replace m1 with (snd (pred_outcome groups requirement m (rpred r) (rsuccess r) (revidence r) (rfull r) (rrate r))) by (rewrite Q; reflexivity).
    rewrite pred_kept. destruct (rfull r); [|exact L]. rewrite P. apply lookup_none. intros I. apply erase_keys in I.
    apply lookup_none in L. contradiction. }
  specialize (IH m1 p c b f (fun x I => A x (or_intror I)) M).
  destruct (reports groups requirement m1 rs) as [d m2]. cbn [fst] in *.
  intros I. apply in_app_or in I. destruct I as [I|I]; [|contradiction].
  replace a with (fst (pred_outcome groups requirement m (rpred r) (rsuccess r) (revidence r) (rfull r) (rrate r))) in I by (rewrite Q; reflexivity).
  apply pred_in in I. destruct I as [[_ [[I _]|[r' [E _]]]]|[_ [g [_ [I|[_ I]]]]]]; try discriminate.
  rewrite P in E. congruence.
Qed.

Lemma told_once groups requirement m r rs :
  NoDup (map fst m) -> rfull r = true -> (forall x, In x rs -> rpred x = rpred r) ->
  exists b, fst (reports groups requirement m (r :: rs)) =
      fst (pred_outcome groups requirement m (rpred r) (rsuccess r) (revidence r) true (rrate r)) ++ b /\
    forall c s f, ~ In (Tell c s f) b.
Proof.
  intros N F A. cbn [reports]. rewrite F.
  destruct (outcome_forgets groups requirement m (rpred r) (rsuccess r) (revidence r) (rrate r) N) as [L _].
  destruct (pred_outcome groups requirement m (rpred r) (rsuccess r) (revidence r) true (rrate r)) as [a m1].
  cbn [fst snd] in *.
  pose proof (fun c s f => no_tell groups requirement rs m1 (rpred r) c s f A L) as T.
  destruct (reports groups requirement m1 rs) as [b m2]. cbn [fst] in *. exists b. split; [reflexivity|exact T].
Qed.

Lemma kept_witness :
  exists groups m p success, NoDup (map fst m) /\ lookup p m <> None /\
    lookup p (snd (pred_outcome groups false m p success true false true)) <> None.
Proof.
  exists [], [(0%nat, Reqs [(1%nat, false)] true [] true)], 0%nat, true.
  split; [repeat constructor; intros []|]. split; cbn; discriminate.
Qed.

(* The time of a root. *)
Lemma sim_thz_bound h m x : 0 <= h -> 0 <= m ->
  0 <= get_sim_thz h m x <= m /\ (0 < get_sim_thz h m x -> get_sim_thz h m x + h <= x).
Proof.
  intros Hh Hm. unfold get_sim_thz. destruct (h <? x) eqn:A; [|lia].
  apply Z.ltb_lt in A. destruct (m <? x - h) eqn:B; [apply Z.ltb_lt in B|apply Z.ltb_ge in B]; lia.
Qed.

(* Without an allowance, simulated chaining has no end. *)
Definition t0 : target := Tg false 0 0 10.
Definition need : env := Env true WeakDisabled WeakDisabled true Fail Fail false t0 t0.
Definition s_root (t : Z) : sim := Sm MRoot t false 7 None 0 0 false None.

Lemma endless n : exists w s, Branch Nat.eqb 1 (s_root 1) w (match n with O => false | _ => true end) s /\
  models w = Z.of_nat n /\ thz s = 1.
Proof.
  induction n as [|n [w [s [B [M T]]]]].
  - exists [], (s_root 1). split; [constructor|]. split; reflexivity.
  - assert (X : exists s', In (SimNeed t0 s' (0 + 1)) (fst (abduce Nat.eqb 1 need 0 0 (Some s) false 0 [])) /\ thz s' = 1).
    { unfold abduce. cbn [allowed need negb]. cbv zeta. rewrite T. cbn [allowance].
      change (allowance 1 <? 1) with true. cbv iota.
      unfold sub_sim. destruct (mode s); cbn; eexists; (split; [left; reflexivity|reflexivity]). }
    destruct X as [s' [I T']]. exists (Through false :: w), s'. split; [|split; [|exact T']].
    + eapply Model; [exact B|exact I|reflexivity].
    + cbn [models]. rewrite M. lia.
Qed.

Lemma endless_witness :
  exists mo h s0, 0 <= h /\ forall n : nat, exists w k s, Branch mo h s0 w k s /\ models w = Z.of_nat n.
Proof.
  exists Nat.eqb, 1, (s_root 1). split; [lia|]. intros n. destruct (endless n) as [w [s [B [M _]]]]. eauto.
Qed.

(* Opposites of composite states are not counted. *)
Definition free : env := Env true NoReq NoReq true Fail Fail false t0 t0.
Definition s_opt : sim := Sm MOptional 95 false 7 (Some 0%nat) 1 95 false (Some (s_root 100)).
Definition s_man : sim := Sm MMandatory 95 true 7 (Some 0%nat) 1 95 false (Some (s_root 100)).

Lemma opt_branch : Branch Nat.eqb 10 (s_root 100) [Through false] false s_opt.
Proof.
  eapply Model with (e := free) (now := 0) (self := 0%nat) (c := 1) (l := []); [constructor| |].
  - vm_compute. left. reflexivity.
  - reflexivity.
Qed.
Lemma man_branch : Branch Nat.eqb 10 (s_root 100) [Through true] false s_man.
Proof.
  eapply Model with (e := free) (now := 0) (self := 0%nat) (c := 1) (l := []); [constructor| |].
  - vm_compute. left. reflexivity.
  - reflexivity.
Qed.

Lemma opposite_witness :
  exists mo h s0 w1 s1 w2 s2,
    0 <= h /\ mode s0 = MRoot /\
    Branch mo h s0 w1 false s1 /\ opposites w1 = 1 /\ mode s1 = MOptional /\
    Branch mo h s0 w2 false s2 /\ opposites w2 = 2.
Proof.
  exists Nat.eqb, 10, (s_root 100), [Composite true; Through false], (cst_sim 0 s_opt true),
         [Composite true; Through true], (cst_sim 0 s_man true).
  split; [lia|]. split; [reflexivity|]. split; [|split; [reflexivity|split; [reflexivity|split; [|reflexivity]]]].
  - eapply State with (now := 0) (members := [(t0, Fail, Fail)]) (l := []); [exact opt_branch|left; reflexivity].
  - eapply State with (now := 0) (members := [(t0, Fail, Fail)]) (l := []); [exact man_branch|left; reflexivity].
Qed.

(* A real goal on a composite state leads to nothing real. *)
Lemma composite_only_simulated mo h now s o members l t s' :
  0 <= h -> In (t, s') (fst (cst_abduce mo now s o members l)) ->
  mode s' <> MRoot /\ thz s' = thz s /\
  forall e now' self o' c l' x, In x (fst (abduce mo h e now' self (Some s') o' c l')) ->
    real x = false /\ (thz s <= allowance h -> x = SimStop (flip o' (lhs e)) s').
Proof.
  intros Hh I. unfold cst_abduce in I. apply cst_goals_in in I. subst s'.
  destruct (cst_facts now s o) as [T [_ [M _]]]. split; [exact M|]. split; [exact T|].
  intros e now' self o' c l' x J. split.
  - eapply abduce_simulation; [exact Hh|left; exact M|exact J].
  - intros Z1. destruct (abduce_in _ _ _ _ _ _ _ _ _ _ Hh J) as [_ [[_ [G _]]|[[s1 [G [_ [_ X]]]]|[s1 [sub [G [T1 _]]]]]]].
    + destruct G as [G|[s1 [G [G1 _]]]]; [discriminate|]. injection G as <-. contradiction.
    + injection G as <-. exact X.
    + injection G as <-. lia.
Qed.

Lemma composite_witness :
  exists mo now s members t s',
    mode s = MRoot /\ thz s = 0 /\ In (t, s') (fst (cst_abduce mo now s false members [])) /\
    forall h e now' self o' c l' x, 0 <= h -> In x (fst (abduce mo h e now' self (Some s') o' c l')) ->
      real x = false /\ simulated x = None.
Proof.
  exists Nat.eqb, 0, (s_root 0), [(t0, Fail, Fail)], t0, (cst_sim 0 (s_root 0) false).
  assert (I : In (t0, cst_sim 0 (s_root 0) false) (fst (cst_abduce Nat.eqb 0 (s_root 0) false [(t0, Fail, Fail)] []))) by (left; reflexivity).
  split; [reflexivity|]. split; [reflexivity|]. split; [exact I|].
  intros h e now' self o' c l' x Hh J.
  destruct (composite_only_simulated Nat.eqb h 0 (s_root 0) false _ [] _ _ Hh I) as [_ [_ X]].
  destruct (X e now' self o' c l' x J) as [X1 X2]. split; [exact X1|].
  rewrite X2; [reflexivity|]. cbn. apply Z.quot_pos; lia.
Qed.

(* Nobody is told. *)
Lemma never_told mo h e now self g o c l b : 0 <= h ->
  ~ In (Told b) (fst (abduce mo h e now self g o c l)).
Proof.
  intros Hh I. destruct (abduce_in _ _ _ _ _ _ _ _ _ _ Hh I) as [_ [[R _]|[[s1 [_ [_ [_ X]]]]|[s1 [sub [G [T [Sb D]]]]]]]].
  - discriminate.
  - discriminate.
  - destruct D as [_ _ _ _ X|_ _ _ _ X|k X]; discriminate.
Qed.

Definition known : env := Env true NoReq NoReq true Pos Fail false t0 t0.
Lemma untold_witness :
  exists mo h e now self s o c l,
    0 <= h /\ allowed e = true /\ guards e = true /\ c_s e = NoReq /\ ev e = Pos /\
    mode s = MOptional /\ allowance h < thz s /\
    fst (abduce mo h e now self (Some s) o c l) = [].
Proof.
  exists Nat.eqb, 10, known, 0, 0%nat, s_opt, false, 1, [].
  split; [lia|]. repeat split; try reflexivity.
Qed.

(* The same object at another time is not pursued. *)
Definition later : env := Env true NoReq NoReq true Fail Fail false (Tg false 0 1000 1010) t0.
Lemma time_witness :
  exists mo h e1 e2 now self s o c,
    0 <= h /\ allowance h < thz s /\ root_sim s <> None /\
    till (lhs e1) < from (lhs e2) /\
    let '(a, l) := abduce mo h e1 now self (Some s) o c [] in
    (exists s' d, a = [SimGoal (lhs e1) s' d]) /\
    fst (abduce mo h e2 now self (Some s) o c l) = [] /\
    (exists s' d, fst (abduce mo h e2 now self (Some s) o c []) = [SimGoal (lhs e2) s' d]).
Proof.
  exists Nat.eqb, 10, free, later, 0, 0%nat, (s_root 100), false, 1.
  split; [lia|]. split; [reflexivity|]. split; [discriminate|]. split; [reflexivity|].
  vm_compute. split; [eauto|]. split; [reflexivity|eauto].
Qed.

(* Requirements are pursued again and again. *)
Lemma need_twice_witness :
  exists mo h cs t s1 s2 d1 d2,
    (forall c, In c cs -> root_sim (cgoal c) <> None) /\
    calls mo h cs [] = [SimNeed t s1 d1; SimNeed t s2 d2].
Proof.
  exists Nat.eqb, 10, [Call need 0 0 (s_root 100) false 1; Call need 0 0 (s_root 100) false 1].
  eexists. eexists. eexists. eexists. eexists. split.
  - intros c [H|[H|[]]]; subst c; discriminate.
  - vm_compute. reflexivity.
Qed.

(* Commands. *)
Lemma command_time mo h s0 w k s e now self o c l t s' at_ : 0 <= h -> 0 <= thz s0 ->
  Branch mo h s0 w k s ->
  In (SimCmd t s' at_) (fst (abduce mo h e now self (Some s) o c l)) ->
  t = flip o (lhs e) /\ cmd e = true /\ ev e = Fail /\ pev e = Fail /\
  mode s' <> MRoot /\ root s' = root s0 /\ ctl s' = Some self /\ opp s' = o /\ up s' = Some s /\
  thz s' = thz s0 - (models w + 1) * allowance h /\
  now <= at_ /\ (now <= before s' -> at_ <= before s').
Proof.
  intros Hh H0 B I. pose proof (branch_time _ _ _ _ _ _ Hh B) as [TT _]. pose proof (branch_root _ _ _ _ _ _ Hh B) as RR.
  destruct (abduce_in _ _ _ _ _ _ _ _ _ _ Hh I) as [_ [[R _]|[[s1 [_ [_ [_ X]]]]|[s1 [sub [G [T [Sb D]]]]]]]].
  - discriminate.
  - discriminate.
  - injection G as <-. destruct D as [Gd E P C X|_ _ _ _ X|b X]; try discriminate.
    pose proof (sub_mode _ _ _ _ _ _ _ Sb) as MS. apply sub_facts in Sb.
    destruct Sb as [Tz [_ [Rt _]]]. injection X as -> -> ->. cbn.
    assert (Q : 0 <= Z.quot (thz sub) 2) by (apply Z.quot_pos; lia).
    repeat split; auto; try congruence; try lia.
Qed.

(* How often. *)
Lemma filter_tells f c1 c2 (l : list nat) (F : forall c a b, f (Tell c a b) = false) :
  filter f (map (fun c => Tell c c1 c2) l) = [].
Proof. induction l as [|x l IH]; cbn; [reflexivity|]. rewrite F. exact IH. Qed.

Lemma filter_marks f success (evidence : bool) groups :
  length (filter f (flat_map (fun g => Mark g success :: (if evidence then [] else [Absent g])) groups)) =
  (length (filter (fun g => f (Mark g success)) groups) +
   (if evidence then 0 else length (filter (fun g => f (Absent g)) groups)))%nat.
Proof.
  induction groups as [|g gs IH]; [destruct evidence; reflexivity|].
  cbn [flat_map]. rewrite filter_app, app_length, IH.
  destruct evidence; cbn [filter]; destruct (f (Mark g success)); cbn [length]; try lia;
  destruct (f (Absent g)); cbn [length]; lia.
Qed.

Lemma filter_all {A} (l : list A) : filter (fun _ => true) l = l.
Proof. induction l as [|x l IH]; cbn; congruence. Qed.
Lemma filter_no {A} (l : list A) : filter (fun _ => false) l = [].
Proof. induction l as [|x l IH]; cbn; congruence. Qed.

Lemma req_filter f m p success rate (F : forall c a b, f (Tell c a b) = false) :
  length (filter f (fst (req_outcome m p success rate))) =
  if f (Rate success) then (if success || rate then 1%nat else 0%nat) else 0%nat.
Proof.
  unfold req_outcome.
  assert (A : length (filter f (if success then [Rate true] else if rate then [Rate false] else [])) =
    if f (Rate success) then (if success || rate then 1%nat else 0%nat) else 0%nat).
  { destruct success, rate; cbn; destruct (f _); reflexivity. }
  destruct (lookup p m); cbn [fst]; [|exact A].
  rewrite !filter_app, !app_length, A, !filter_tells by exact F. cbn [length]. lia.
Qed.

Lemma outcome_counts groups m p success evidence full rate :
  let a := fst (pred_outcome groups false m p success evidence full rate) in
  length (filter is_mark a) = length groups /\
  length (filter is_absent a) = (if evidence then 0%nat else length groups) /\
  length (filter is_rate a) = (if full && (success || rate) then 1%nat else 0%nat).
Proof.
  cbv zeta. unfold pred_outcome.
  assert (R : forall f, (forall c a b, f (Tell c a b) = false) ->
     length (filter f (fst (if full then req_outcome m p success rate else ([], m)))) =
     if full then (if f (Rate success) then (if success || rate then 1%nat else 0%nat) else 0%nat) else 0%nat).
  { intros f F. destruct full; [apply req_filter; exact F|reflexivity]. }
  destruct (if full then req_outcome m p success rate else ([], m)) as [a m']. cbn [fst] in *.
  rewrite !filter_app, !app_length, !R by reflexivity. rewrite !filter_marks. cbn.
  rewrite !filter_all, !filter_no. cbn [length].
  destruct full, evidence; cbn; repeat split; lia.
Qed.

(* A call makes one goal, or a command and a goal. *)
Lemma abduce_few mo h e now self g o c l :
  (length (fst (abduce mo h e now self g o c l)) <= 2)%nat.
Proof.
  assert (L1 : forall o s sb, (length (abduce_lhs e o s sb) <= 1)%nat).
  { intros. unfold abduce_lhs. destruct (guards e); [|cbn; lia]. destruct (ev e); try (cbn; lia). destruct (pev e); cbn; lia. }
  assert (L2 : forall s, (length (fst (abduce_simulated_lhs mo e now self g o s l)) <= 1)%nat).
  { intros. unfold abduce_simulated_lhs, simulated_outcome. destruct (guards e); [|cbn; lia].
    destruct (ev e); try (cbn; lia). destruct (pev e); try (cbn; lia). cbv zeta. destruct (cmd e); [cbn; lia|].
    destruct (register mo s (flip o (lhs e)) l) as [[|] l']; cbn; lia. }
  assert (L3 : forall s l, (length (fst (abduce_simulated_imdl mo e now s l)) <= 1)%nat).
  { intros. unfold abduce_simulated_imdl. destruct (req s); [cbn; lia|].
    destruct (register mo s (imdl e) l0) as [[|] l']; cbn; lia. }
  unfold abduce. destruct (negb (allowed e)); [cbn; lia|]. cbv zeta.
  destruct (allowance h <? _).
  - destruct g as [s|]; [|cbn; lia].
    destruct (sub_sim now self s (thz s - allowance h) o c) as [sub|]; [|cbn; lia].
    assert (L4 : (length (fst (let '(a, l1) := abduce_simulated_lhs mo e now self (Some s) o sub l in
            if cmd e then let '(b, l2) := abduce_simulated_imdl mo e now sub l1 in (a ++ b, l2) else (a, l1))) <= 2)%nat).
    { specialize (L2 sub). destruct (abduce_simulated_lhs mo e now self (Some s) o sub l) as [a l1]. cbn [fst] in L2.
      destruct (cmd e); [|cbn [fst]; lia]. specialize (L3 sub l1).
      destruct (abduce_simulated_imdl mo e now sub l1) as [b l2]. cbn [fst] in *. rewrite app_length. lia. }
    specialize (L1 o sub true). specialize (L2 sub). specialize (L3 (set_req sub) l).
    destruct (c_s e); destruct (mode sub); cbn [fst]; auto; try lia;
    destruct (sim_c_s e); cbn [fst]; try lia; cbn; lia.
  - destruct (match g with Some s => mode s | None => MRoot end).
    + specialize (L1 o (Sm MRoot 0 o self None 0 0 false g) false). destruct (c_s e); cbn [fst]; try lia; cbn; lia.
    + destruct g; cbn; lia.
    + destruct g; cbn; lia.
Qed.
