(** Proofs about the commands of programs: what is carried out, facts of devices, paths, red. *)
From Verif Require Import Base Cmd_model Cmd_spec.
Local Open Scope nat_scope.

(** * What is carried out *)
Section Carry.
Context (executes : nat -> bool) (program : nat) (inputs : list nat) (code_size : nat) (groups : list nat) (notify : bool).
Context (now reference period tolerance : Z).
Let t := (fact_after now reference period tolerance, fact_before now reference period).
Notation inject_productions := (inject_productions executes program inputs code_size groups notify now reference period tolerance).
Notation second_pass := (second_pass executes now reference period tolerance).
Notation execute := (execute executes now reference period tolerance).

Definition right_obj (red : bool) (p : production) : Prop := red = true -> given p.

Lemma object_of_right red i p a : right_obj red p ->
  (exists b, what p = Inj a b) \/ (exists n, what p = Ejt a n) -> object_of red i a = described i a.
Proof.
  intros R H. destruct a as [o|c]; [reflexivity|]. cbn. destruct red; [|reflexivity].
  specialize (R eq_refl). unfold given in R. destruct H as [[b E]|[n E]]; rewrite E in R; destruct R.
Qed.

Lemma execute_one red i p s : right_obj red p -> known p -> no_long_probe p ->
  exists s', execute red i p s = Some (s', true) /\ done s' = done s ++ meant executes t i (what p) /\
    (told s' = None <-> told s = None).
Proof.
  intros R K L. unfold known in K. unfold no_long_probe in L.
  unfold Cmd_model.execute, telling. destruct (what p) as [a v|a n|g v|g v| |n| | |d|] eqn:W; try congruence.
  - destruct v; eexists; (split; [reflexivity|]); cbn.
    + rewrite (object_of_right red i p a R) by (left; eauto). split; [reflexivity|]. destruct (told s); cbn; split; congruence.
    + rewrite app_nil_r. split; [reflexivity|tauto].
  - eexists; (split; [reflexivity|]); cbn. rewrite (object_of_right red i p a R) by (right; eauto). split; [reflexivity|].
    destruct (told s); cbn; split; congruence.
  - eexists; (split; [reflexivity|]); cbn. split; [destruct g; reflexivity|tauto].
  - eexists; (split; [reflexivity|]); cbn. split; [destruct g; reflexivity|tauto].
  - eexists; (split; [reflexivity|]); cbn. rewrite app_nil_r. split; [reflexivity|tauto].
  - destruct (n =? 255) eqn:N; [apply Nat.eqb_eq in N; subst; congruence|].
    eexists; (split; [reflexivity|]); cbn. split; [reflexivity|tauto].
  - eexists; (split; [reflexivity|]); cbn. split; [reflexivity|tauto].
  - eexists; (split; [reflexivity|]); cbn. split; [reflexivity|]. destruct (told s); cbn; split; congruence.
  - eexists; (split; [reflexivity|]); cbn. rewrite app_nil_r. split; [reflexivity|tauto].
Qed.

Lemma second_all red l : forall i s, Forall (right_obj red) l -> Forall known l -> Forall no_long_probe l ->
  exists s', second_pass red i l s = Some (s', true) /\ done s' = done s ++ all_meant executes t i l /\
    (told s' = None <-> told s = None).
Proof.
  induction l as [|p l IH]; intros i s R K L; cbn.
  - exists s. rewrite app_nil_r. tauto.
  - inversion R; inversion K; inversion L; subst.
    destruct (execute_one red i p s) as (s1 & E & D & T); auto. rewrite E.
    destruct (IH (S i) s1) as (s2 & E2 & D2 & T2); auto. exists s2. rewrite E2, D2, D, app_assoc. tauto.
Qed.

Lemma first_code l : first_pass code_size false l = Some (forallb ok l).
Proof.
  induction l as [|p l IH]; cbn; [reflexivity|]. destruct (ok p); cbn; [|reflexivity].
  rewrite IH. destruct (what p) as [[?|?] ?|[?|?] ?|? ?|? ?| |?| | |?|]; reflexivity.
Qed.
Lemma first_given l : Forall given l -> first_pass code_size true l = Some true.
Proof.
  induction l as [|p l IH]; cbn; [reflexivity|]. intros F. inversion F as [|? ? G F']; subst.
  unfold given in G. destruct (what p) as [[?|?] ?|[?|?] ?|? ?|? ?| |?| | |?|]; try (apply IH; assumption); destruct G.
Qed.

Lemma meant_no_note i c : filter not_note (meant executes t i c) = meant executes t i c.
Proof. destruct c as [a v|a n|g v|g v| |n| | |d|]; try reflexivity; cbn; [destruct v|destruct g|destruct g|destruct (executes d)]; reflexivity. Qed.
Lemma all_meant_no_note l : forall i, carried_out (all_meant executes t i l) = all_meant executes t i l.
Proof.
  induction l as [|p l IH]; intros i; cbn; [reflexivity|]. unfold carried_out in *. rewrite filter_app, meant_no_note, IH. reflexivity.
Qed.
Lemma notes_no_effect gs : carried_out (map Notified gs) = [].
Proof. induction gs; cbn; auto. Qed.
Lemma notes_notified gs : notified (map Notified gs) = gs.
Proof. unfold notified. induction gs as [|g gs IH]; cbn; [reflexivity|]. rewrite IH; reflexivity. Qed.
Lemma meant_notified i c : notified (meant executes t i c) = [].
Proof. destruct c as [a v|a n|g v|g v| |n| | |d|]; try reflexivity; cbn; [destruct v|destruct g|destruct g|destruct (executes d)]; reflexivity. Qed.
Lemma all_meant_notified l : forall i, notified (all_meant executes t i l) = [].
Proof.
  unfold notified. induction l as [|p l IH]; intros i; cbn; [reflexivity|]. rewrite flat_map_app, IH.
  pose proof (meant_notified i (what p)) as M. unfold notified in M. rewrite M. reflexivity.
Qed.

Lemma passed_all red l : Forall (right_obj red) l -> Forall known l -> Forall no_long_probe l ->
  first_pass code_size red l = Some true ->
  exists e n, inject_productions red true l = Some (true, e, n) /\ carried_out e = all_meant executes t 0 l /\
    (n <> None <-> (groups <> [] /\ notify = true /\ cmd_count l <> 0)) /\
    notified e = match n with Some _ => groups | None => [] end.
Proof.
  intros R K L F. unfold Cmd_model.inject_productions. rewrite andb_false_r, F.
  destruct (second_all red l 0 (mks [] (start_note program inputs groups notify l) (cmd_count l)) R K L) as (s & E & D & T).
  cbn in E. rewrite E. cbn in D, T.
  assert (X : start_note program inputs groups notify l <> None <-> (groups <> [] /\ notify = true /\ cmd_count l <> 0)).
  { unfold start_note. destruct groups as [|g gs]; cbn; [split; [congruence|tauto]|].
    destruct (cmd_count l); cbn; [split; [congruence|intros (_ & _ & ?); lia]|].
    destruct notify; cbn; (split; [intros; repeat split; congruence|intros (_ & ? & _); congruence]). }
  unfold finish. destruct (told s) as [n|] eqn:Tn.
  - eexists _, _. split; [reflexivity|]. rewrite D. unfold carried_out, notified. rewrite filter_app, flat_map_app.
    pose proof (all_meant_no_note l 0) as A1. pose proof (notes_no_effect groups) as A2.
    pose proof (all_meant_notified l 0) as A3. pose proof (notes_notified groups) as A4.
    unfold carried_out, notified in *. rewrite A1, A2, A3, A4, app_nil_r. repeat split; try (apply X; intros Q; apply T in Q; congruence); try congruence.
  - eexists _, _. split; [reflexivity|]. rewrite D. split; [apply all_meant_no_note|]. split; [|apply all_meant_notified].
    rewrite <- X. rewrite (proj1 T eq_refl). tauto.
Qed.

Theorem together_partial l : Forall known l -> Forall no_long_probe l ->
  (forallb ok l = true ->
     exists e n, inject_productions false true l = Some (true, e, n) /\ carried_out e = all_meant executes t 0 l) /\
  (forallb ok l = false -> inject_productions false true l = Some (false, [], None)).
Proof.
  intros K L. split; intros O.
  - destruct (passed_all false l) as (e & n & E & C & _); auto.
    + apply Forall_forall. intros ? _ H. discriminate.
    + rewrite first_code, O. reflexivity.
    + eauto.
  - unfold Cmd_model.inject_productions. cbn [andb]. rewrite first_code, O. reflexivity.
Qed.

Theorem computed_partial l : Forall known l -> Forall no_long_probe l -> Forall given l ->
  (exists e n, inject_productions true true l = Some (true, e, n) /\ carried_out e = all_meant executes t 0 l) /\
  inject_productions true false l = Some (false, [], None).
Proof.
  intros K L G. split; [|reflexivity].
  destruct (passed_all true l) as (e & n & E & C & _); auto.
  - eapply Forall_impl; [|exact G]. intros p H _. exact H.
  - apply first_given; assumption.
  - eauto.
Qed.

Theorem notified_partial l : Forall known l -> Forall no_long_probe l -> forallb ok l = true ->
  exists e n, inject_productions false true l = Some (true, e, n) /\
    (n <> None <-> (groups <> [] /\ notify = true /\ cmd_count l <> 0)) /\
    notified e = match n with Some _ => groups | None => [] end.
Proof.
  intros K L O. destruct (passed_all false l) as (e & n & E & _ & X & Y); auto.
  - apply Forall_forall. intros ? _ H. discriminate.
  - rewrite first_code, O. reflexivity.
  - eauto.
Qed.
End Carry.

(** * Facts of devices *)
Theorem times_partial now reference period tolerance :
  (reference <= now)%Z -> (0 < period)%Z -> (0 <= tolerance)%Z -> (2 * tolerance < period)%Z ->
  let a := fact_after now reference period tolerance in let b := fact_before now reference period in
  (now <= a < b)%Z /\ (b <= now + period)%Z /\ (exists k, b = reference + k * period)%Z /\ (a <= now + 2 * tolerance)%Z.
Proof.
  intros N P T W. cbv zeta. unfold fact_after, fact_before, frame_start.
  rewrite Z.rem_mod_nonneg by lia. set (x := (now - reference)%Z).
  pose proof (Z.mod_pos_bound x period P) as M. pose proof (Z.div_mod x period ltac:(lia)) as D.
  split; [clear D; remember (x mod period)%Z as y; lia|]. split; [clear D; remember (x mod period)%Z as y; lia|].
  split; [|clear D; remember (x mod period)%Z as y; lia]. exists (x / period + 1)%Z.
  remember (x mod period)%Z as y. remember (x / period)%Z as z. subst x. lia.
Qed.

(** * Paths *)
Lemma dereference_leads h fuel : forall c d, dereference fuel h c = Some d ->
  (forall e r, hops h c e -> in_view e = true -> fetch h e <> Some (Rp r)) -> leads h c d.
Proof.
  induction fuel as [|fuel IH]; intros c d H S; cbn in H; [discriminate|].
  destruct (fetch h c) as [[k n|i|r|z]|] eqn:F; try discriminate.
  - injection H as <-. eapply leads_head; eauto.
  - eapply leads_in; [exact F|]. apply IH; [exact H|]. intros e r P. apply S. eapply hops_in; eauto.
  - destruct (objects h (c_obj c)) as [b|] eqn:B; [|discriminate].
    destruct (nth_error (references b) r) as [o|] eqn:R; [|discriminate]. injection H as <-.
    eapply leads_ref; eauto. destruct (in_view c) eqn:V; [|reflexivity].
    exfalso. apply (S c r (hops_here h c) V F).
  - injection H as <-. eapply leads_leaf; eauto.
Qed.

Lemma leads_dereference h c d : leads h c d ->
  (forall e r, hops h c e -> in_view e = true -> fetch h e <> Some (Rp r)) ->
  exists f, forall fuel, f <= fuel -> dereference fuel h c = Some d.
Proof.
  induction 1 as [c i d F _ IH|c r b o F V B R|c r v b o F V W B R|c k n F|c z F]; intros S.
  - destruct IH as [f H]. { intros e r P. apply S. eapply hops_in; eauto. }
    exists (1 + f). intros [|fuel] Q; [lia|]. cbn. rewrite F. apply H. lia.
  - exists 1. intros [|fuel] Q; [lia|]. cbn. rewrite F, B, R. reflexivity.
  - exfalso. apply (S c r (hops_here h c) V F).
  - exists 1. intros [|fuel] Q; [lia|]. cbn. rewrite F. reflexivity.
  - exists 1. intros [|fuel] Q; [lia|]. cbn. rewrite F. reflexivity.
Qed.

Lemma stays_view h c v p : stays h c (ToView :: p) -> c_view c = Some v -> stays h (mkc (c_obj c) (c_view c) true 0) p.
Proof.
  intros S V q i s e d r E P. apply (S (ToView :: q) i s); [rewrite E; reflexivity|]. eapply path_view; eauto.
Qed.
Lemma stays_member h c j e p : stays h c (ToMember j :: p) -> leads h (member c j) e -> stays h e p.
Proof.
  intros S L q i s e' d r E P. apply (S (ToMember j :: q) i s); [rewrite E; reflexivity|]. eapply path_member; eauto.
Qed.
Lemma stays_here h c j p : stays h c (ToMember j :: p) ->
  forall e r, hops h (member c j) e -> in_view e = true -> fetch h e <> Some (Rp r).
Proof. intros S e r P V. apply (S [] j p c e r); auto. constructor. Qed.

Lemma walk_path h fuel p : forall c d, stays h c p -> walk fuel h c p = Some (At d) -> path_to h c p d.
Proof.
  induction p as [|[|i] p IH]; intros c d S H; cbn in H.
  - injection H as <-. constructor.
  - destruct (c_view c) as [v|] eqn:V; [|discriminate]. eapply path_view; [exact V|]. rewrite V. apply IH; [|exact H].
    pose proof (stays_view h c v p S V) as Q. rewrite V in Q. exact Q.
  - destruct (dereference fuel h (member c i)) as [e|] eqn:D; [|discriminate].
    pose proof (dereference_leads h fuel _ _ D (stays_here h c i p S)) as L.
    eapply path_member; [exact L|]. apply IH; [|exact H]. eapply stays_member; eauto.
Qed.
Lemma path_walk h p c d : path_to h c p d -> stays h c p -> exists f, forall fuel, f <= fuel ->
  walk fuel h c p = Some (At d) /\ go fuel h c p = Some d.
Proof.
  induction 1 as [c|c v p d V _ IH|c i e p d L _ IH]; intros S.
  - exists 0. intros fuel _. split; reflexivity.
  - destruct (IH (stays_view h c v p S V)) as [f H]. exists f. intros fuel Q. cbn. rewrite V.
    specialize (H fuel Q). rewrite V in H. exact H.
  - destruct (leads_dereference h _ _ L (stays_here h c i p S)) as [f1 H1].
    destruct (IH (stays_member h c i e p S L)) as [f2 H2]. exists (f1 + f2). intros fuel Q. cbn.
    rewrite H1 by lia. apply H2. lia.
Qed.

Theorem path_partial h c p d : stays h c p ->
  ((exists fuel, walk fuel h c p = Some (At d)) <-> path_to h c p d).
Proof.
  intros S. split.
  - intros [fuel H]. eapply walk_path; eauto.
  - intros P. destruct (path_walk h p c d P S) as [f H]. exists f. apply H. lia.
Qed.

(** The view is asked of an object that has none here. *)
Theorem undefined_path h fuel p : forall c, stays h c p -> walk fuel h c p = Some Undefined ->
  exists q s e, p = q ++ ToView :: s /\ path_to h c q e /\ c_view e = None.
Proof.
  induction p as [|[|i] p IH]; intros c S H; cbn in H; [discriminate| |].
  - destruct (c_view c) as [v|] eqn:V.
    + pose proof (stays_view h c v p S V) as Q. rewrite V in Q.
      destruct (IH _ Q H) as (q & s & e & E & P & N). exists (ToView :: q), s, e. split; [rewrite E; reflexivity|]. split; [|exact N].
      eapply path_view; [exact V|]. rewrite V. exact P.
    + exists [], p, c. split; [reflexivity|]. split; [constructor|exact V].
  - destruct (dereference fuel h (member c i)) as [e|] eqn:D; [|discriminate].
    pose proof (dereference_leads h fuel _ _ D (stays_here h c i p S)) as L.
    destruct (IH _ (stays_member h c i e p S L) H) as (q & s & e' & E & P & N).
    exists (ToMember i :: q), s, e'. split; [rewrite E; reflexivity|]. split; [eapply path_member; eauto|exact N].
Qed.

Theorem target_partial h c p d m k n : stays h c p -> path_to h c p d ->
  (in_view d = false -> at_ d = 0 /\ k = KObject) -> (in_view d = true -> at_ d = 0) ->
  fetch h d = Some (Head k n) -> (in_view d = true -> k = KSet) ->
  exists f, forall fuel, f <= fuel -> get_member fuel h c p m = named h d m /\ named h d m <> None.
Proof.
  intros S P A B F K. destruct (path_walk h p c d P S) as [f H]. exists f. intros fuel Q.
  unfold get_member, named. rewrite (proj2 (H fuel Q)), F. destruct (in_view d) eqn:V.
  - rewrite (K eq_refl). unfold fetch in F. rewrite V in F. destruct (c_view d) as [v|]; [|discriminate].
    destruct (views h v) as [b|]; [|discriminate]. rewrite (B eq_refl). cbn. split; congruence.
  - destruct (A eq_refl) as [Z ->]. rewrite Z. cbn. split; congruence.
Qed.

(** * red *)
Lemma accepts_fits s x : definite s -> accepts s x = fits s x.
Proof.
  intros [A G]. unfold accepts, fits. rewrite A. destruct (skeleton s x); [|reflexivity]. cbn.
  unfold guards_pass, guards_true. specialize (G x). induction (guards s x) as [|g l IH]; cbn; [reflexivity|].
  destruct g as [|[|]]; cbn; [reflexivity| |exfalso; apply G; left; reflexivity].
  apply IH. intros Q. apply G. right. exact Q.
Qed.

Lemma reduce_all s l r : definite s -> (forall x, In (Some x) l -> fits s x = true) ->
  reduce s (l ++ r) = (fst (reduce s r), made s (defined l) ++ snd (reduce s r)).
Proof.
  intros D. induction l as [|[x|] l IH]; intros H; cbn.
  - destruct (reduce s r); reflexivity.
  - rewrite accepts_fits, H by (try exact D; left; reflexivity). rewrite IH by (intros y Y; apply H; right; exact Y).
    cbn. rewrite app_assoc. reflexivity.
  - apply IH. intros y Y. apply H. right; exact Y.
Qed.
(** What is left when the first input that is defined does not fit. *)
Lemma reduce_none s l : definite s -> (forall x, In (Some x) l -> fits s x = false) ->
  snd (reduce s l) = [] /\ defined (fst (reduce s l)) = defined l /\ forall x, In x (fst (reduce s l)) -> In x l.
Proof.
  intros D. induction l as [|[x|] l IH]; intros H; cbn.
  - repeat split; tauto.
  - rewrite accepts_fits, H by (try exact D; left; reflexivity). cbn. repeat split; tauto.
  - destruct IH as (P & Q & R). { intros y Y. apply H. right; exact Y. } repeat split; auto.
Qed.
Lemma filter_all {A} (f : A -> bool) l : (forall x, In x l -> f x = true) -> filter f l = l.
Proof. induction l as [|x l IH]; intros H; cbn; [reflexivity|]. rewrite H by (left; reflexivity). f_equal. apply IH. intros y Y; apply H; right; exact Y. Qed.
Lemma filter_no {A} (f : A -> bool) l : (forall x, In x l -> f x = false) -> filter f l = [].
Proof. induction l as [|x l IH]; intros H; cbn; [reflexivity|]. rewrite H by (left; reflexivity). apply IH. intros y Y; apply H; right; exact Y. Qed.
Lemma in_defined x l : In x (defined l) <-> In (Some x) l.
Proof.
  unfold defined. rewrite in_flat_map. split.
  - intros ([y|] & P & Q); cbn in Q; [destruct Q as [->|[]]; exact P|destruct Q].
  - intros P. exists (Some x). split; [exact P|left; reflexivity].
Qed.
Lemma defined_app a b : defined (a ++ b) = defined a ++ defined b.
Proof. apply flat_map_app. Qed.

(** Undefined inputs are dropped on the way. *)
Lemma drop_defined s l : exists l', (forall a, In a l' -> In a l) /\ defined l' = defined l /\
  reduce s l = reduce s l' /\ match l' with None :: _ => False | _ => True end.
Proof.
  induction l as [|[x|] l IH].
  - exists []. cbn. tauto.
  - exists (Some x :: l). tauto.
  - destruct IH as (l' & P & Q & R & T). exists l'. repeat split; auto. intros a A. right. apply P; exact A.
Qed.

Theorem red_partial pos neg l : definite pos -> definite neg -> prods pos <> [] -> prods neg <> [] -> in_order pos neg l ->
  length (reduced pos neg l) < 256 ->
  red pos neg l = (reduced pos neg l, negb (length (reduced pos neg l) =? 0)).
Proof.
  intros Dp Dn Np Nn (a & b & c & -> & Ha & Hb & Hc) Len.
  assert (R : reduced pos neg (a ++ b ++ c) = made pos (defined a) ++ made neg (defined b)).
  { unfold reduced. rewrite !defined_app, !filter_app.
    rewrite (filter_all (fits pos) (defined a)) by (intros x X; apply Ha, in_defined; exact X).
    rewrite (filter_no (fits pos) (defined b)) by (intros x X; apply Hb, in_defined; exact X).
    rewrite (filter_no (fits pos) (defined c)) by (intros x X; apply Hc, in_defined; exact X).
    rewrite (filter_no _ (defined a)) by (intros x X; rewrite Ha by (apply in_defined; exact X); reflexivity).
    rewrite (filter_all _ (defined b)) by (intros x X; destruct (Hb x) as [P Q]; [apply in_defined; exact X|]; rewrite P, Q; reflexivity).
    rewrite (filter_no _ (defined c)) by (intros x X; destruct (Hc x) as [P Q]; [apply in_defined; exact X|]; rewrite P, Q; reflexivity).
    rewrite !app_nil_r. reflexivity. }
  unfold red, reduce_section. destruct (prods pos) as [|pp pl] eqn:Pp; [congruence|]. destruct (prods neg) as [|nn nl] eqn:Pn; [congruence|].
  rewrite (reduce_all pos a (b ++ c) Dp Ha).
  assert (Hbc : forall x, In (Some x) (b ++ c) -> fits pos x = false).
  { intros x X. apply in_app_or in X. destruct X as [X|X]; [apply Hb in X|apply Hc in X]; tauto. }
  destruct (reduce_none pos (b ++ c) Dp Hbc) as (S1 & _). rewrite S1, app_nil_r.
  assert (K : snd (reduce neg (fst (reduce pos (b ++ c)))) = made neg (defined b)).
  { clear R Len Ha. induction b as [|[x|] b IH].
    - cbn [app] in *. destruct (reduce_none pos c Dp Hbc) as (_ & _ & I).
      apply reduce_none; [exact Dn|]. intros x X. apply I in X. apply Hc in X. tauto.
    - cbn [app reduce]. destruct (Hb x (or_introl eq_refl)) as [F G]. rewrite accepts_fits, F by exact Dp. cbn [fst].
      change (Some x :: b ++ c) with ((Some x :: b) ++ c).
      rewrite (reduce_all neg (Some x :: b) c Dn) by (intros y Y; apply Hb; exact Y). cbn [snd].
      rewrite (proj1 (reduce_none neg c Dn (fun y Y => proj2 (Hc y Y)))), app_nil_r. reflexivity.
    - cbn [app reduce]. apply IH.
      + intros y Y. apply Hb. right; exact Y.
      + intros y Y. apply Hbc. right; exact Y.
      + apply reduce_none; [exact Dp|]. intros y Y. apply Hbc. right; exact Y. }
  destruct (reduce neg (fst (reduce pos (b ++ c)))) as [k2 q] eqn:E. cbn [snd] in K. subst q.
  cbv beta iota zeta. rewrite <- R.
  destruct (a ++ b ++ c) as [|y l'] eqn:L.
  - rewrite R. assert (a = [] /\ b = []) as [-> ->] by (apply app_eq_nil in L as [-> L]; apply app_eq_nil in L as [-> _]; auto). reflexivity.
  - destruct (reduced pos neg (y :: l')) as [|z r] eqn:Z; [reflexivity|].
    rewrite Nat.mod_small by exact Len. rewrite firstn_all. reflexivity.
Qed.

Lemma reduce_from s l : (forall x q, In (x, q) (snd (reduce s l)) -> In (Some x) l /\ accepts s x = true /\ In q (prods s)) /\
  (forall x, In x (fst (reduce s l)) -> In x l).
Proof.
  induction l as [|[x|] l [IH1 IH2]]; cbn.
  - split; intros; tauto.
  - destruct (accepts s x) eqn:A.
    + destruct (reduce s l) as [k p]. cbn in *. split.
      * intros y q H. apply in_app_or in H. destruct H as [H|H].
        -- apply in_map_iff in H. destruct H as (w & E & W). injection E as <- <-. auto.
        -- apply IH1 in H. tauto.
      * intros y H. right. apply IH2. exact H.
    + cbn. split; [tauto|]. intros y H. exact H.
  - split; [intros y q H; apply IH1 in H; tauto|]. intros y H. right. apply IH2; exact H.
Qed.

Theorem red_sound pos neg l x q : definite pos -> definite neg -> In (x, q) (fst (red pos neg l)) ->
  In (Some x) l /\ ((fits pos x = true /\ In q (prods pos)) \/ (fits neg x = true /\ In q (prods neg))).
Proof.
  intros Dp Dn H. unfold red in H.
  assert (RS : forall s l, (forall x q, In (x, q) (snd (reduce_section s l)) -> In (Some x) l /\ accepts s x = true /\ In q (prods s)) /\
    (forall x, In x (fst (reduce_section s l)) -> In x l)).
  { clear. intros s l. unfold reduce_section. destruct (prods s) as [|p0 ps] eqn:P.
    - split; cbn; [intros ? ? []|tauto].
    - pose proof (reduce_from s l) as Q. rewrite P in Q. exact Q. }
  destruct (RS pos l) as [P1 P2]. destruct (reduce_section pos l) as [k p]. cbn in P1, P2.
  destruct (RS neg k) as [Q1 _]. destruct (reduce_section neg k) as [k2 p2]. cbn in Q1.
  assert (I : In (x, q) (p ++ p2)).
  { destruct l; [destruct H|]. destruct (p ++ p2) as [|z r] eqn:E; [destruct H|]. cbn [fst] in H.
    rewrite <- (firstn_skipn (length (z :: r) mod 256) (z :: r)). apply in_or_app. left. exact H. }
  apply in_app_or in I. destruct I as [I|I].
  - apply P1 in I. destruct I as (A & B & C). rewrite accepts_fits in B by exact Dp. auto.
  - apply Q1 in I. destruct I as (A & B & C). rewrite accepts_fits in B by exact Dn. apply P2 in A. auto.
Qed.
