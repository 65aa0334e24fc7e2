(** Lemmas about buffers and about the traces of the auto-focus. *)
From Verif Require Import Base Af_model Af_spec.
Local Open Scope nat_scope.

(** * Buffers *)
Section Buffer.
Context {A : Type} (old : Z -> A -> bool).
Notation recent := (Af_spec.recent old).

Lemma onward_read : forall now l r, onward old (fun x r => (x, r ++ [x])) now l r = (recent now l, r ++ recent now l).
Proof.
  intros now l; induction l as [|x l IH]; intro r; cbn; [rewrite app_nil_r; reflexivity|].
  destruct (old now x); cbn; [apply IH|]. rewrite IH. rewrite <- app_assoc. reflexivity.
Qed.
Lemma read_spec : forall now x l, read_all old now (x :: l) = (x :: recent now l, x :: recent now l).
Proof. intros now x l. unfold read_all, traverse. cbn. rewrite onward_read. reflexivity. Qed.

Lemma read_in : forall now l x, In x (snd (read_all old now l)) <->
  In x l /\ (old now x = false \/ hd_error l = Some x).
Proof.
  intros now l x. destruct l as [|y l]; [cbn; tauto|]. rewrite read_spec. cbn. unfold Af_spec.recent. rewrite filter_In. split.
  - intros [-> |(I0 & N)]; [auto|]. split; [auto|]. left. apply negb_true_iff. exact N.
  - intros ([-> |I0] & [N|N]); [auto|auto| |injection N as <-; auto]. right. split; [exact I0|]. rewrite N. reflexivity.
Qed.
(** Those read are in the order in which they came. *)
Lemma read_order : forall now l, exists keep, snd (read_all old now l) = List.filter keep l \/
  exists x r, l = x :: r /\ snd (read_all old now l) = x :: List.filter keep r.
Proof.
  intros now l. exists (fun x => negb (old now x)). destruct l as [|x r]; [left; reflexivity|].
  right. exists x, r. split; [reflexivity|]. rewrite read_spec. reflexivity.
Qed.
Lemma read_rest : forall now l, fst (read_all old now l) = snd (read_all old now l).
Proof. intros now [|x l]; [reflexivity|]. rewrite read_spec. reflexivity. Qed.

Lemma used_head : forall x l u, exists r, used old (x :: l) u = x :: r.
Proof.
  intros x l [y|now|now is]; cbn [used].
  - eexists; reflexivity.
  - rewrite read_spec. eexists; reflexivity.
  - cbn. destruct (is x); [eexists; reflexivity|]. destruct (find_onward old is now l) as [k [(y & r)|]]; eexists; reflexivity.
Qed.
Lemma head_stays : forall x l us, exists r, fold_left (used old) us (x :: l) = x :: r.
Proof.
  intros x l us. revert l. induction us as [|u us IH]; intro l; cbn; [eexists; reflexivity|].
  destruct (used_head x l u) as (r & ->). apply IH.
Qed.
Lemma first_stays : forall now x us, In x (snd (read_all old now (fold_left (used old) (Push x :: us) []))).
Proof. intros now x us. cbn [fold_left used app]. destruct (head_stays x [] us) as (r & ->). rewrite read_spec. left. reflexivity. Qed.
End Buffer.

(** * Traces *)
Section Focus.
Context {B : Type} (intersect : B -> B -> bool) (full : B -> bool) (matches : nat -> B -> @view B -> option B)
  (achieved : nat -> nat -> bool) (cfg : config).
Notation filter := (Af_model.filter intersect full matches cfg).
Notation take_input := (Af_model.take_input intersect full matches cfg).
Notation dispatch := (Af_model.dispatch intersect full matches cfg).
Notation reduce := (Af_model.reduce intersect full matches achieved cfg).
Notation run := (Af_model.run intersect full matches achieved cfg).
Notation view := (@view B). Notation tpx := (@tpx B). Notation act := (@act B). Notation event := (@event B).

Lemma injects_app : forall a b : list act, injects (a ++ b) = injects a ++ injects b.
Proof. intros. unfold injects. apply flat_map_app. Qed.

Definition only_inject (l : list act) : Prop := Forall (fun z => exists u, z = Inject u) l.

Lemma visit_acts : forall m c x a c' x' a', visit_cached intersect m c (x, a) = (c', (x', a')) -> exists k, a' = a ++ k /\ only_inject k.
Proof.
  intros m c x a c' x' a' E. unfold visit_cached in E. destruct (c_done c); [injection E as <- <- <-; exists []; split; [rewrite app_nil_r; reflexivity|constructor]|].
  destruct (intersect m (v_map (c_view c))); injection E as <- <- <-.
  - exists [Inject (c_view c)]. split; [reflexivity|]. constructor; [eexists; reflexivity|constructor].
  - exists []. split; [rewrite app_nil_r; reflexivity|constructor].
Qed.
Lemma only_app : forall k j, only_inject k -> only_inject j -> only_inject (k ++ j).
Proof. intros k j K J. unfold only_inject. apply Forall_app. auto. Qed.
Lemma onward_acts : forall m now l x a l' x' a', onward (old_cached cfg) (visit_cached intersect m) now l (x, a) = (l', (x', a')) -> exists k, a' = a ++ k /\ only_inject k.
Proof.
  intros m now l; induction l as [|c l IH]; intros x a l' x' a' E; cbn in E.
  - injection E as <- <- <-. exists []. split; [rewrite app_nil_r; reflexivity|constructor].
  - destruct (old_cached cfg now c); [exact (IH _ _ _ _ _ E)|].
    destruct (visit_cached intersect m c (x, a)) as [c1 [x1 a1]] eqn:V. destruct (visit_acts _ _ _ _ _ _ _ V) as (k & -> & K).
    destruct (onward (old_cached cfg) (visit_cached intersect m) now l (x1, a ++ k)) as [l2 [x2 a2]] eqn:O. injection E as <- <- <-.
    destruct (IH _ _ _ _ _ O) as (j & -> & J). exists (k ++ j). split; [rewrite app_assoc; reflexivity|apply only_app; assumption].
Qed.
Lemma traverse_acts : forall m now l x a l' x' a', traverse (old_cached cfg) (visit_cached intersect m) now l (x, a) = (l', (x', a')) -> exists k, a' = a ++ k /\ only_inject k.
Proof.
  intros m now [|c l] x a l' x' a' E; cbn in E.
  - injection E as <- <- <-. exists []. split; [rewrite app_nil_r; reflexivity|constructor].
  - destruct (visit_cached intersect m c (x, a)) as [c1 [x1 a1]] eqn:V. destruct (visit_acts _ _ _ _ _ _ _ V) as (k & -> & K).
    destruct (onward (old_cached cfg) (visit_cached intersect m) now l (x1, a ++ k)) as [l2 [x2 a2]] eqn:O. injection E as <- <- <-.
    destruct (onward_acts _ _ _ _ _ _ _ _ O) as (j & -> & J). exists (k ++ j). split; [rewrite app_assoc; reflexivity|apply only_app; assumption].
Qed.

(** What may be done by the filter of the extractor [id]. *)
Definition allowed (id : nat) (t : tpx) (z : act) : Prop :=
  (exists u, z = Inject u) \/ (exists u, z = Hook id u /\ t_hook t = true /\ full (t_map t) = false).
Definition same_tpx (t t' : tpx) : Prop := t_kind t' = t_kind t /\ t_map t' = t_map t /\ t_hook t' = t_hook t.

Lemma filter_spec : forall now icst id t v c x a b t' c' x' a', filter now icst id t v (c, x, a) = (b, t', (c', x', a')) ->
  same_tpx t t' /\ exists k, a' = a ++ k /\ Forall (allowed id t) k.
Proof.
  intros now icst id t v c x a b t' c' x' a' E. unfold Af_model.filter in E.
  assert (N : (b, t', (c', x', a')) = (b, t, (c, x, a)) -> same_tpx t t' /\ exists k, a' = a ++ k /\ Forall (allowed id t) k).
  { intro Q. injection Q as -> -> -> ->. split; [repeat split|]. exists []. split; [rewrite app_nil_r; reflexivity|constructor]. }
  destruct icst; [injection E as <- <- <- <- <-; apply N; reflexivity|].
  destruct (intersect (t_map t) (v_map v)); [injection E as <- <- <- <- <-; apply N; reflexivity|].
  destruct (full (t_map t)) eqn:FU; [injection E as <- <- <- <- <-; apply N; reflexivity|].
  destruct (existsb _ (t_maps t)); [injection E as <- <- <- <- <-; apply N; reflexivity|]. clear N.
  destruct (matches id (t_map t) v) as [m|].
  - destruct (traverse (old_cached cfg) (visit_cached intersect m) now c (x, a)) as [c1 [x1 a1]] eqn:T. injection E as <- <- <- <- <-.
    split; [repeat split|]. destruct (traverse_acts _ _ _ _ _ _ _ _ T) as (k & -> & K). exists k. split; [reflexivity|].
    eapply Forall_impl; [|exact K]. intros z Z. left. exact Z.
  - assert (AK : exists k, (if t_hook t then a ++ [Hook id v] else a) = a ++ k /\ Forall (allowed id t) k).
    { destruct (t_hook t) eqn:H; [exists [Hook id v]|exists []]; (split; [rewrite ?app_nil_r; reflexivity|]); [|constructor].
      constructor; [|constructor]. right. exists v. auto. }
    destruct (find_first _ _ now c) as [k [(e & r)|]]; [destruct (c_ijt e <? _)%Z|]; injection E as <- <- <- <- <-; (split; [repeat split|exact AK]).
Qed.

Lemma take_spec : forall now icst id t v c x a b t' c' x' a', take_input now icst id t v (c, x, a) = (b, t', (c', x', a')) ->
  same_tpx t t' /\ exists k, a' = a ++ k /\ Forall (allowed id t) k.
Proof.
  intros now icst id t v c x a b t' c' x' a' E. unfold Af_model.take_input in E.
  destruct (filter now icst id t v (c, x, a)) as [[b1 t1] [[c1 x1] a1]] eqn:F. destruct (filter_spec _ _ _ _ _ _ _ _ _ _ _ _ _ F) as ((S1 & S2 & S3) & K).
  destruct b1; [destruct (t_kind t1) eqn:TK|]; injection E as <- <- <- <- <-; (split; [|exact K]); repeat split; cbn; congruence.
Qed.

(** What may be done while an input is given to the extractors of a map. *)
Definition handed (m : @tmap B) (z : act) : Prop :=
  (exists u, z = Inject u) \/ (exists id u, z = Take id u /\ In id (map fst m)) \/
  (exists id t u, z = Hook id u /\ In (id, t) m /\ t_hook t = true /\ full (t_map t) = false).
Definition same_entry (e e' : nat * tpx) : Prop := fst e' = fst e /\ same_tpx (snd e) (snd e').

Lemma dispatch_spec : forall now icst v m i c x a m' i' c' x' a', dispatch now icst v m i (c, x, a) = (m', i', (c', x', a')) ->
  Forall2 same_entry m m' /\ exists k, a' = a ++ k /\ Forall (handed m) k.
Proof.
  intros now icst v m; induction m as [|(id & t) m IH]; intros i c x a m' i' c' x' a' E; cbn [Af_model.dispatch] in E.
  - injection E as <- <- <- <- <-. split; [constructor|]. exists []. split; [rewrite app_nil_r; reflexivity|constructor].
  - destruct (take_input now icst id t v (c, x, a ++ [Take id v])) as [[b t1] [[c1 x1] a1]] eqn:T. cbn zeta in E.
    destruct (take_spec _ _ _ _ _ _ _ _ _ _ _ _ _ T) as (SM & k & -> & K).
    set (go := (b && negb icst && negb i)%bool) in *.
    set (sh := if go then (c1, x1 ++ [v], ((a ++ [Take id v]) ++ k) ++ [Inject v]) else (c1, x1, (a ++ [Take id v]) ++ k)) in *.
    destruct sh as [[c2 x2] a2] eqn:SH.
    assert (A2 : exists j, a2 = a ++ (Take id v :: k) ++ j /\ only_inject j).
    { unfold sh in SH. destruct go; injection SH as <- <- <-; [exists [Inject v]|exists []]; (split; [|repeat constructor; eexists; reflexivity]); rewrite <- ?app_assoc; cbn; rewrite ?app_nil_r; reflexivity. }
    destruct A2 as (j & -> & J).
    destruct (dispatch now icst v m (i || go)%bool (c2, x2, a ++ (Take id v :: k) ++ j)) as [[m2 i2] [[c3 x3] a3]] eqn:D.
    injection E as <- <- <- <- <-. destruct (IH _ _ _ _ _ _ _ _ _ D) as (SE & k2 & -> & K2).
    split; [constructor; [split; [reflexivity|exact SM]|exact SE]|].
    exists ((Take id v :: k) ++ j ++ k2). split; [rewrite <- !app_assoc; reflexivity|].
    apply Forall_app. split; [constructor|apply Forall_app; split].
    + right. left. exists id, v. split; [reflexivity|left; reflexivity].
    + eapply Forall_impl; [|exact K]. intros z [Z|(u & -> & H1 & H2)]; [left; exact Z|]. right. right. exists id, t, u. split; [reflexivity|]. split; [left; reflexivity|auto].
    + eapply Forall_impl; [|exact J]. intros z Z. left. exact Z.
    + eapply Forall_impl; [|exact K2]. intros z [Z|[(id2 & u & -> & Z)|(id2 & t2 & u & -> & Z & Q)]]; [left; exact Z| |].
      * right. left. exists id2, u. split; [reflexivity|right; exact Z].
      * right. right. exists id2, t2, u. split; [reflexivity|]. split; [right; exact Z|exact Q].
Qed.

(** Targets without unbound variables. *)
Definition concerns (v : view) (m : @tmap B) : bool := existsb (fun e => intersect (t_map (snd e)) (v_map v)) m.
Lemma dispatch_full : forall now v m i c x a m' i' c' x' a', (forall e, In e m -> full (t_map (snd e)) = true) ->
  dispatch now false v m i (c, x, a) = (m', i', (c', x', a')) ->
  i' = (i || concerns v m)%bool /\ injects a' = injects a ++ (if negb i && concerns v m then [v] else []).
Proof.
  intros now v m; induction m as [|(id & t) m IH]; intros i c x a m' i' c' x' a' FU E; cbn [Af_model.dispatch] in E.
  - injection E as <- <- <- <- <-. cbn. rewrite orb_false_r, andb_false_r, app_nil_r. auto.
  - destruct (take_input now false id t v (c, x, a ++ [Take id v])) as [[b t1] [[c1 x1] a1]] eqn:T. cbn zeta in E.
    assert (X : b = intersect (t_map t) (v_map v) /\ a1 = a ++ [Take id v]).
    { clear - T FU. unfold Af_model.take_input, Af_model.filter in T. pose proof (FU (id, t) (or_introl eq_refl)) as FT. cbn [snd] in FT. rewrite FT in T.
      destruct (intersect (t_map t) (v_map v)); [|injection T as <- <- <- <- <-; auto].
      destruct (t_kind t); injection T as <- <- <- <- <-; auto. }
    destruct X as (-> & ->). cbn [negb andb] in E. rewrite andb_true_r in E.
    assert (FU2 : forall e, In e m -> full (t_map (snd e)) = true) by (intros e I0; apply FU; right; exact I0).
    unfold concerns. cbn [existsb snd]. fold (concerns v m). set (b := intersect (t_map t) (v_map v)) in *.
    assert (IT : injects (a ++ [Take id v]) = injects a) by (rewrite injects_app; cbn; apply app_nil_r).
    destruct b, i; cbn [andb orb negb] in *;
      match type of E with context[Af_model.dispatch _ _ _ _ now false v m ?i (?c, ?x, ?a)] =>
        destruct (Af_model.dispatch intersect full matches cfg now false v m i (c, x, a)) as [[m2 i2] [[c2 x2] a2]] eqn:D end;
      destruct (IH _ _ _ _ _ _ _ _ _ FU2 D) as (-> & Q); injection E as <- <- <- <- <-; cbn [orb negb andb] in *; (split; [reflexivity|]);
      rewrite Q; rewrite ?injects_app, ?IT; cbn; rewrite ?app_nil_r; reflexivity.
Qed.

(** * The open targets *)
Definition kind_of (o : @open B) : kind :=
  if negb (gtpx_on cfg) && negb (ptpx_on cfg) then Idle else if weak o then Idle else if is_goal o then OnGoal else OnPrediction.
Definition entry (e : nat * tpx) (o : @open B) : Prop :=
  fst e = target o /\ t_map (snd e) = values o /\ t_kind (snd e) = kind_of o /\ (t_hook (snd e) = true -> full (t_map (snd e)) = true).
Definition agrees (s : @state B) (l : list (@open B)) : Prop :=
  Forall2 entry (goals s) (List.filter (fun o => is_goal o) l) /\ Forall2 entry (predictions s) (List.filter (fun o => negb (is_goal o)) l).

Lemma entry_same : forall m m' l, Forall2 same_entry m m' -> Forall2 entry m l -> Forall2 entry m' l.
Proof.
  intros m m' l S1. revert l. induction S1 as [|e e' m m' (Q1 & Q2 & Q3 & Q4) S2 IH]; intros l F; inversion F as [|? o ? l' (P1 & P2 & P3 & P4) F2]; subst; constructor.
  - split; [congruence|]. split; [congruence|]. split; [congruence|]. rewrite Q3, Q4. exact P4.
  - apply IH. exact F2.
Qed.
Lemma entry_key : forall m l t, Forall2 entry m l -> existsb (fun e => fst e =? t) m = existsb (fun o => target o =? t) l.
Proof. intros m l t F. induction F as [|e o m l (P1 & _) F IH]; [reflexivity|]. cbn. rewrite P1, IH. reflexivity. Qed.
Lemma entry_filter : forall m l t, Forall2 entry m l ->
  Forall2 entry (List.filter (fun e => negb (fst e =? t)) m) (List.filter (fun o => negb (target o =? t)) l).
Proof.
  intros m l t F. induction F as [|e o m l P F IH]; [constructor|]. cbn. destruct P as (P1 & P2). rewrite P1.
  destruct (target o =? t); cbn; [exact IH|]. constructor; [split; assumption|exact IH].
Qed.
Lemma filter_filter : forall {T} (p q : T -> bool) l, List.filter p (List.filter q l) = List.filter (fun x => q x && p x)%bool l.
Proof. intros T p q l. induction l as [|x l IH]; [reflexivity|]. cbn. destruct (q x); cbn; [destruct (p x)|]; rewrite ?IH; reflexivity. Qed.
Lemma existsb_filter : forall {T} (p q : T -> bool) l, existsb p (List.filter q l) = existsb (fun x => q x && p x)%bool l.
Proof. intros T p q l. induction l as [|x l IH]; [reflexivity|]. cbn. destruct (q x); cbn; rewrite IH; reflexivity. Qed.
Lemma filter_none : forall {T} (p : T -> bool) l, (forall x, In x l -> p x = true) -> List.filter p l = l.
Proof. intros T p l H. induction l as [|x l IH]; [reflexivity|]. cbn. rewrite (H x (or_introl eq_refl)). f_equal. apply IH. intros y Y. apply H. right. exact Y. Qed.

Lemma notify_map : forall t s v (m : @tmap B), fst (notify cfg t s v m) = List.filter (fun e => negb (fst e =? t)) m.
Proof.
  intros t s v m. unfold notify. destruct (find (fun e => fst e =? t) m) as [[id x]|] eqn:F; [reflexivity|]. cbn. symmetry. apply filter_none.
  intros e I0. apply (find_none _ _ F) in I0. rewrite I0. reflexivity.
Qed.

Lemma agrees_same : forall s m1 m2 c x l, agrees s l -> Forall2 same_entry (goals s) m1 -> Forall2 same_entry (predictions s) m2 -> agrees (mkstate m1 m2 c x) l.
Proof. intros s m1 m2 c x l (A1 & A2) S1 S2. split; cbn; eapply entry_same; eassumption. Qed.

Lemma entry_insert : forall g t m w st mp (l : list (@open B)),
  Forall2 entry mp (List.filter (fun o => Bool.eqb (is_goal o) g) l) ->
  Forall2 entry (insert t (build_tpx full cfg (if g then OnGoal else OnPrediction) m w st) mp)
    (List.filter (fun o => Bool.eqb (is_goal o) g) (if existsb (same g t) l then l else l ++ [mkopen g t m w])).
Proof.
  intros g t m w st mp l F. unfold insert. rewrite (entry_key _ _ t F), existsb_filter.
  change (fun x : open => (Bool.eqb (is_goal x) g && (target x =? t))%bool) with (same (B:=B) g t).
  destruct (existsb (same g t) l); [exact F|]. rewrite filter_app. cbn. rewrite Bool.eqb_reflx. apply Forall2_app; [exact F|].
  constructor; [|constructor]. split; [reflexivity|]. split; [reflexivity|]. split; [unfold kind_of; cbn; reflexivity|]. cbn. intro H. apply andb_true_iff in H. tauto.
Qed.
Lemma goal_filter : forall g (l : list (@open B)), List.filter (fun o => Bool.eqb (is_goal o) g) l =
  if g then List.filter (fun o => is_goal o) l else List.filter (fun o => negb (is_goal o)) l.
Proof. intros g l. destruct g; apply filter_ext; intro o; destruct (is_goal o); reflexivity. Qed.
Lemma other_filter : forall g t (m : B) w (l : list (@open B)), List.filter (fun o => Bool.eqb (is_goal o) (negb g)) (if existsb (same g t) l then l else l ++ [mkopen g t m w])
  = List.filter (fun o => Bool.eqb (is_goal o) (negb g)) l.
Proof. intros g t m w l. destruct (existsb (same g t) l); [reflexivity|]. rewrite filter_app. cbn. destruct g; cbn; rewrite app_nil_r; reflexivity. Qed.
Lemma close_filter : forall g g' t (l : list (@open B)), List.filter (fun o => Bool.eqb (is_goal o) g') (List.filter (fun o => negb (same g t o)) l) =
  if Bool.eqb g g' then List.filter (fun o => negb (target o =? t)) (List.filter (fun o => Bool.eqb (is_goal o) g') l)
  else List.filter (fun o => Bool.eqb (is_goal o) g') l.
Proof.
  intros g g' t l. destruct (Bool.eqb g g') eqn:E; rewrite ?filter_filter; apply filter_ext; intro o; unfold same; destruct g, g', (is_goal o); cbn in *; try discriminate; destruct (target o =? t); reflexivity.
Qed.

Lemma agrees_step : forall now e s l s' a, agrees s l -> reduce now e s = (s', a) -> agrees s' (after_event e l).
Proof.
  intros now e s l s' a AG E. pose proof AG as (A1 & A2). destruct e as [md p m w st|sc g t v|v|v|v]; cbn in E.
  - destruct md; [|injection E as <- <-; exact AG]. destruct p as [t|t|]; injection E as <- <-; [| |exact AG]; cbn [after_event].
    + pose proof (entry_insert true t m w st (goals s) l) as Q. pose proof (other_filter true t m w l) as R. rewrite !goal_filter in Q. rewrite !goal_filter in R.
      split; cbn [goals predictions]; [exact (Q A1)|]. cbn [negb] in R. rewrite R. exact A2.
    + pose proof (entry_insert false t m w st (predictions s) l) as Q. pose proof (other_filter false t m w l) as R. rewrite !goal_filter in Q. rewrite !goal_filter in R.
      split; cbn [goals predictions]; [|exact (Q A2)]. cbn [negb] in R. rewrite R. exact A1.
  - cbn [after_event]. pose proof (close_filter g true t l) as Q1. pose proof (close_filter g false t l) as Q2. rewrite !goal_filter in Q1. rewrite !goal_filter in Q2.
    destruct g; cbn [Bool.eqb] in *.
    + destruct (notify cfg t sc v (goals s)) as [g2 a2] eqn:N. injection E as <- <-. split; cbn [goals predictions]; [|rewrite Q2; exact A2].
      rewrite Q1. apply (f_equal fst) in N. rewrite notify_map in N. cbn in N. rewrite <- N. apply entry_filter. exact A1.
    + destruct (notify cfg t sc v (predictions s)) as [g2 a2] eqn:N. injection E as <- <-. split; cbn [goals predictions]; [rewrite Q1; exact A1|].
      rewrite Q2. apply (f_equal fst) in N. rewrite notify_map in N. cbn in N. rewrite <- N. apply entry_filter. exact A2.
  - injection E as <- <-. exact AG.
  - destruct (pass_through cfg); [injection E as <- <-; exact AG|].
    destruct (dispatch now true v (goals s) false (cache s, cross s, [])) as [[g2 i2] [[c2 x2] a2]] eqn:D1.
    destruct (dispatch now true v (predictions s) false (c2, x2, a2)) as [[p3 i3] [[c3 x3] a3]] eqn:D2. injection E as <- <-.
    eapply agrees_same; [exact AG| |]; [exact (proj1 (dispatch_spec _ _ _ _ _ _ _ _ _ _ _ _ _ D1))|exact (proj1 (dispatch_spec _ _ _ _ _ _ _ _ _ _ _ _ _ D2))].
  - destruct (pass_through cfg); [injection E as <- <-; exact AG|].
    destruct (dispatch now false v (goals s) false (cache s, cross s, [])) as [[g2 i2] [[c2 x2] a2]] eqn:D1.
    destruct (dispatch now false v (predictions s) i2 (c2, x2, a2)) as [[p3 i3] [[c3 x3] a3]] eqn:D2. injection E as <- <-.
    eapply agrees_same; [exact AG| |]; [exact (proj1 (dispatch_spec _ _ _ _ _ _ _ _ _ _ _ _ _ D1))|exact (proj1 (dispatch_spec _ _ _ _ _ _ _ _ _ _ _ _ _ D2))].
Qed.
End Focus.
