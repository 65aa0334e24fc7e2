(** More on the auto-focus: what is found in a buffer, what is put aside, what is kept. *)
From Verif Require Import Base Utils_model Af_model Af_spec Af_proofs.
Local Open Scope nat_scope.

Section Found.
Context {A : Type} (old : Z -> A -> bool).
Lemma find_onward_some is now l : forall k x r, find_onward old is now l = (k, Some (x, r)) ->
  exists pre, l = pre ++ x :: r /\ k = recent old now pre /\ (forall z, In z (recent old now pre) -> is z = false) /\ is x = true /\ old now x = false.
Proof.
  induction l as [|y l IH]; intros k x r H; cbn in H; [discriminate|].
  destruct (old now y) eqn:Eo.
  - destruct (IH _ _ _ H) as (pre & -> & -> & A1 & A2 & A3). exists (y :: pre). unfold recent. cbn. rewrite Eo. cbn. auto.
  - destruct (is y) eqn:Ei.
    + injection H as <- <- <-. exists []. cbn. split; [reflexivity|]. split; [reflexivity|]. split; [intros z []|]. auto.
    + destruct (find_onward old is now l) as [k' f] eqn:Ef. injection H as <- ->.
      destruct (IH _ _ _ eq_refl) as (pre & -> & -> & A1 & A2 & A3). exists (y :: pre). unfold recent in *. cbn. rewrite Eo. cbn.
      split; [reflexivity|]. split; [reflexivity|]. split; [|auto]. intros z [<-|Hz]; [exact Ei|exact (A1 z Hz)].
Qed.
Lemma find_onward_none is now l : forall k, find_onward old is now l = (k, None) ->
  k = recent old now l /\ forall z, In z (recent old now l) -> is z = false.
Proof.
  induction l as [|y l IH]; intros k H; cbn in H; [injection H as <-; split; [reflexivity|intros z []]|].
  unfold recent. cbn. destruct (old now y) eqn:Eo; cbn [negb].
  - exact (IH _ H).
  - destruct (is y) eqn:Ei; [discriminate|].
    destruct (find_onward old is now l) as [k' f] eqn:Ef. injection H as <- ->.
    destruct (IH _ eq_refl) as (-> & A1). split; [reflexivity|]. intros z [<-|Hz]; [exact Ei|exact (A1 z Hz)].
Qed.
Lemma find_first_ok is now y l k f : find_first old is now (y :: l) = (k, f) ->
  match f with
  | Some (x, r) =>
      (is y = true /\ x = y /\ r = l /\ k = []) \/
      (is y = false /\ exists pre, l = pre ++ x :: r /\ k = y :: recent old now pre /\ (forall z, In z (recent old now pre) -> is z = false) /\
         is x = true /\ old now x = false)
  | None => is y = false /\ k = y :: recent old now l /\ forall z, In z (recent old now l) -> is z = false
  end.
Proof.
  cbn. destruct (is y) eqn:Ei.
  - intros H. injection H as <- <-. left. auto.
  - destruct (find_onward old is now l) as [k' f'] eqn:Ef. intros H. injection H as <- <-. destruct f' as [[x r]|].
    + right. split; [reflexivity|]. destruct (find_onward_some _ _ _ _ _ _ Ef) as (pre & A1 & -> & A2). exists pre. auto.
    + destruct (find_onward_none _ _ _ _ Ef) as (-> & A1). auto.
Qed.
End Found.

Section Aside.
Context {B : Type} (intersect : B -> B -> bool) (full : B -> bool).
Notation view := (@view B). Notation cached := (@cached B). Notation act := (@act B).
Context (matches : nat -> B -> view -> option B).
Context (cfg : config).

Lemma visit_eq m c r : visit_cached intersect m c r = (marked intersect m c, (fst r ++ due intersect m [c], snd r ++ map (@Inject B) (due intersect m [c]))).
Proof.
  unfold visit_cached, marked, due. cbn. destruct r as [x a]. cbn.
  destruct c as [v j [|]]; cbn; [rewrite !app_nil_r; destruct (intersect m (v_map v)); reflexivity|].
  destruct (intersect m (v_map v)); cbn; rewrite ?app_nil_r; reflexivity.
Qed.
Lemma onward_eq m now l : forall x a, onward (old_cached cfg) (visit_cached intersect m) now l (x, a) =
  (map (marked intersect m) (recent (old_cached cfg) now l), (x ++ due intersect m (recent (old_cached cfg) now l), a ++ map (@Inject B) (due intersect m (recent (old_cached cfg) now l)))).
Proof.
  induction l as [|c l IH]; intros x a; cbn [onward]; [cbn; rewrite !app_nil_r; reflexivity|].
  unfold recent. cbn [List.filter]. destruct (old_cached cfg now c) eqn:Eo; cbn [negb]; [exact (IH x a)|].
  rewrite visit_eq. cbn [fst snd]. rewrite IH. unfold recent. cbn [map due flat_map].
  fold (due intersect m (List.filter (fun c => negb (old_cached cfg now c)) l)). rewrite !app_nil_r, map_app, !app_assoc. reflexivity.
Qed.

(** An input that gives the variables of a target values. *)
Lemma filter_matched now id t v c x a m :
  intersect (t_map t) (v_map v) = false -> full (t_map t) = false -> existsb (fun m => intersect m (v_map v)) (t_maps t) = false ->
  matches id (t_map t) v = Some m ->
  exists t' c', filter intersect full matches cfg now false id t v (c, x, a) =
    (true, t', (c', x ++ due intersect m (match c with [] => [] | y :: l => y :: recent (old_cached cfg) now l end),
                a ++ map (@Inject B) (due intersect m (match c with [] => [] | y :: l => y :: recent (old_cached cfg) now l end)))) /\
    t_maps t' = t_maps t ++ [m] /\
    c' = map (marked intersect m) (match c with [] => [] | y :: l => y :: recent (old_cached cfg) now l end).
Proof.
  intros H1 H2 H3 H4. unfold filter. rewrite H1, H2, H3, H4. destruct c as [|y l]; cbn [traverse].
  - eexists. eexists. cbn. rewrite !app_nil_r. split; [reflexivity|]. split; reflexivity.
  - rewrite visit_eq. cbn [fst snd]. rewrite onward_eq.
    exists (mktpx (t_kind t) (t_map t) (t_hook t) (t_maps t ++ [m]) (t_inputs t)), (map (marked intersect m) (y :: recent (old_cached cfg) now l)).
    split; [|split; reflexivity]. cbn [due flat_map map]. fold (due intersect m (recent (old_cached cfg) now l)). rewrite !app_nil_r, map_app, !app_assoc. reflexivity.
Qed.

(** After that, none of them is injected for the same map again. *)
Lemma due_marked (m : B) (l : list cached) : due intersect m (map (marked intersect m) l) = [].
Proof.
  induction l as [|c l IH]; [reflexivity|]. cbn. fold (due intersect m (map (marked intersect m) l)). rewrite IH, app_nil_r. unfold marked.
  destruct (intersect m (v_map (c_view c))) eqn:E; cbn; [reflexivity|]. rewrite E. destruct (c_done c); reflexivity.
Qed.

(** An input that does not match is put aside, once. *)
Lemma recent_sub now (l : list cached) : forall z, In z (recent (old_cached cfg) now l) -> In z l.
Proof. intros z H. apply filter_In in H. exact (proj1 H). Qed.
Lemma recent_nodup now (l : list cached) : NoDup (ids l) -> NoDup (ids (recent (old_cached cfg) now l)).
Proof.
  induction l as [|c l IH]; [auto|]. cbn. intros H. inversion H as [|? ? Hn Hl]; subst. unfold recent. cbn. destruct (negb (old_cached cfg now c)); [|exact (IH Hl)].
  cbn. constructor; [|exact (IH Hl)]. intros Hin. apply Hn. apply in_map_iff in Hin. destruct Hin as (z & Ez & Hz). apply in_map_iff. exists z. split; [exact Ez|exact (recent_sub _ _ _ Hz)].
Qed.
Lemma nodup_end (l : list nat) x : NoDup l -> ~ In x l -> NoDup (l ++ [x]).
Proof.
  intros H Hx. induction H as [|a l Ha _ IH]; cbn; [constructor; [intros []|constructor]|].
  constructor; [|apply IH; intros Hin; apply Hx; right; exact Hin].
  intros Hin. apply in_app_or in Hin. destruct Hin as [Hin|[<-|[]]]; [exact (Ha Hin)|apply Hx; left; reflexivity].
Qed.
Lemma not_found (now : Z) (v : view) (l : list cached) : (forall z, In z l -> (v_id (c_view z) =? v_id v) = false) -> ~ In (v_id v) (ids l).
Proof. intros H Hin. apply in_map_iff in Hin. destruct Hin as (z & Ez & Hz). specialize (H z Hz). apply Nat.eqb_neq in H. exact (H Ez). Qed.
Lemma filter_missed now id t v c x a :
  intersect (t_map t) (v_map v) = false -> full (t_map t) = false -> existsb (fun m => intersect m (v_map v)) (t_maps t) = false ->
  matches id (t_map t) v = None -> NoDup (ids c) ->
  exists c' a', filter intersect full matches cfg now false id t v (c, x, a) = (false, t, (c', x, a')) /\
    NoDup (ids c') /\ In (v_id v) (ids c').
Proof.
  intros H1 H2 H3 H4 HN. unfold filter. rewrite H1, H2, H3, H4.
  destruct (find_first (old_cached cfg) (fun y => v_id (c_view y) =? v_id v) now c) as [k f] eqn:Ef.
  destruct c as [|y l].
  - cbn in Ef. injection Ef as <- <-. eexists. eexists. split; [reflexivity|]. cbn. split; [constructor; [intros []|constructor]|left; reflexivity].
  - assert (Q := find_first_ok _ _ _ _ _ _ _ Ef). cbn [ids map] in HN. inversion HN as [|? ? Hy Hl]; subst. fold (ids l) in *.
    destruct f as [[e r]|].
    + assert (G : exists pre, y :: l = pre ++ e :: r /\ v_id (c_view e) = v_id v /\ NoDup (ids (k ++ e :: r))).
      { destruct Q as [(Q1 & -> & -> & ->)|(Q1 & pre & -> & -> & Q2 & Q3 & Q4)].
        - exists []. cbn. split; [reflexivity|]. split; [apply Nat.eqb_eq; exact Q1|exact HN].
        - exists (y :: pre). split; [reflexivity|]. split; [apply Nat.eqb_eq; exact Q3|].
          assert (HN2 : NoDup (ids (y :: pre ++ e :: r))) by exact HN.
          clear - HN2. revert HN2. unfold ids. cbn [map app]. rewrite !map_app. intros HN.
          inversion HN as [|? ? Ha Hb]; subst. constructor.
          + intros Hin. apply Ha. apply in_app_or in Hin. apply in_or_app. destruct Hin as [Hin|Hin]; [left|right; exact Hin].
            apply in_map_iff in Hin. destruct Hin as (z & Ez & Hz). apply in_map_iff. exists z. split; [exact Ez|exact (recent_sub _ _ _ Hz)].
          + clear - Hb. induction pre as [|z pre IH]; [exact Hb|]. cbn in Hb. inversion Hb as [|? ? Hz Hb']; subst.
            unfold recent. cbn. destruct (negb (old_cached cfg now z)); [|exact (IH Hb')]. cbn. constructor; [|exact (IH Hb')].
            intros Hin. apply Hz. apply in_app_or in Hin. apply in_or_app. destruct Hin as [Hin|Hin]; [left|right; exact Hin].
            apply in_map_iff in Hin. destruct Hin as (z' & Ez & Hz'). apply in_map_iff. exists z'. split; [exact Ez|exact (recent_sub _ _ _ Hz')]. }
      destruct G as (pre & _ & Ee & Gn).
      destruct ((c_ijt e <? v_ijt v)%Z) eqn:Ej; cbn [c_ijt]; rewrite Ej.
      * eexists. eexists. split; [reflexivity|].
        assert (Gn' : NoDup (ids (k ++ r) ++ [v_id v])).
        { revert Gn. unfold ids. rewrite !map_app. cbn. rewrite Ee. intros Gn. apply NoDup_remove in Gn. apply nodup_end; tauto. }
        assert (E : ids (k ++ r ++ [mkcached v (v_ijt v) false]) = ids (k ++ r) ++ [v_id v]) by (unfold ids; rewrite !map_app, app_assoc; reflexivity).
        rewrite E. split; [exact Gn'|]. apply in_or_app. right. left. reflexivity.
      * eexists. eexists. split; [reflexivity|]. split; [exact Gn|]. unfold ids. rewrite map_app. apply in_or_app. right. left. exact Ee.
    + destruct Q as (Q1 & -> & Q2). eexists. eexists. split; [reflexivity|].
      assert (E : ids ((y :: recent (old_cached cfg) now l) ++ [mkcached v (v_ijt v) false]) = ids (y :: recent (old_cached cfg) now l) ++ [v_id v])
        by (unfold ids; rewrite map_app; reflexivity).
      rewrite E. split; [|apply in_or_app; right; left; reflexivity]. apply nodup_end.
      * cbn. constructor; [|apply recent_nodup; exact Hl]. intros Hin. apply Hy. apply in_map_iff in Hin. destruct Hin as (z & Ez & Hz).
        apply in_map_iff. exists z. split; [exact Ez|exact (recent_sub _ _ _ Hz)].
      * apply (not_found now). intros z [<-|Hz]; [exact Q1|exact (Q2 z Hz)].
Qed.

(** The extractor of a goal keeps the inputs that concern it. *)
Lemma filter_keeps now icst id t v sh b t' sh' : filter intersect full matches cfg now icst id t v sh = (b, t', sh') ->
  t_inputs t' = t_inputs t /\ t_kind t' = t_kind t.
Proof.
  unfold filter. destruct sh as [[c x] a]. destruct icst; [intros E; injection E as <- <- <-; auto|].
  destruct (intersect (t_map t) (v_map v)); [intros E; injection E as <- <- <-; auto|].
  destruct (full (t_map t)); [intros E; injection E as <- <- <-; auto|]. destruct (existsb _ (t_maps t)); [intros E; injection E as <- <- <-; auto|].
  destruct (matches id (t_map t) v) as [m|].
  - destruct (traverse _ _ now c (x, a)) as [c' [x' a']]. intros E; injection E as <- <- <-; auto.
  - destruct (find_first _ _ now c) as [k [[e r]|]].
    + destruct (c_ijt e <? _)%Z; intros E; injection E as <- <- <-; auto.
    + intros E; injection E as <- <- <-; auto.
Qed.
Lemma take_kept now icst id t v sh b t' sh' : take_input intersect full matches cfg now icst id t v sh = (b, t', sh') ->
  t_inputs t' = t_inputs t ++ (if b then match t_kind t with OnGoal => [v] | _ => [] end else []).
Proof.
  unfold take_input. destruct (filter _ _ _ _ now icst id t v sh) as [[b0 t0] sh0] eqn:Ef. destruct (filter_keeps _ _ _ _ _ _ _ _ _ Ef) as (E1 & E2).
  rewrite E2. destruct b0, (t_kind t); intros E; injection E as <- <- <-; cbn; rewrite ?app_nil_r, E1; reflexivity.
Qed.

(** Instances are in the cross buffer. *)
Context (achieved : nat -> nat -> bool).
Lemma instance_crossed now v s : pass_through cfg = false -> In v (cross (fst (reduce intersect full matches achieved cfg now (Instance v) s))).
Proof.
  intros Hp. cbn [reduce]. rewrite Hp. destruct (dispatch _ _ _ _ now true v (goals s) false _) as [[g i] sh].
  destruct (dispatch _ _ _ _ now true v (predictions s) false sh) as [[p i'] [[c x] a]]. cbn. apply in_or_app. right. left. reflexivity.
Qed.
End Aside.

(** Reports go to the groups from the start on. *)
Lemma inject_from_ok morph origin v gs start :
  length (inject_from morph origin v gs start) = length gs - start /\
  forall k g, nth_error gs (start + k) = Some g -> exists x, nth_error (inject_from morph origin v gs start) k = Some x /\
    i_host x = g_id g /\ i_fact x = i_fact v /\ i_sync x = i_sync v /\ i_sln x = i_sln v /\ i_res x = morph (i_res v) (g_upr origin) (g_upr g).
Proof.
  unfold inject_from. split; [rewrite map_length, skipn_length; reflexivity|]. intros k g H.
  assert (E : nth_error (skipn start gs) k = Some g).
  { rewrite <- H. clear. revert gs. induction start as [|n IH]; intros gs; [reflexivity|]. destruct gs as [|y gs]; [destruct k; reflexivity|]. exact (IH gs). }
  rewrite nth_error_map, E. eexists. split; [reflexivity|]. cbn. auto.
Qed.
