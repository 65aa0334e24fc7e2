From Verif Require Import Base Mon_model Mon_spec.

(** ** Lists of blocks *)
Lemma snoc_case {A} (bs : list A) b p x q : bs ++ [b] = p ++ x :: q -> (bs = p /\ b = x /\ q = []) \/ exists q', bs = p ++ x :: q'.
Proof.
  revert p. induction bs as [|y r IH]; intros [|z p] E; cbn in E; injection E as E1 E2.
  - left. auto.
  - destruct p; discriminate.
  - right. subst. eexists. reflexivity.
  - subst. apply IH in E2. destruct E2 as [(-> & -> & ->)|[q' ->]]; [left; auto|right; exists q'; reflexivity].
Qed.
Lemma clock_snoc t bs b : clock t (bs ++ [b]) = clock t bs + passed b.
Proof. revert t. induction bs as [|x r IH]; intro t; cbn; [lia|apply IH]. Qed.
Lemma active_snoc on bs b : active on (bs ++ [b]) = match b with BController k => k | _ => active on bs end.
Proof. revert on. induction bs as [|x r IH]; intro on; cbn; [destruct b; auto|apply IH]. Qed.
Lemma gclock_snoc t bs b : gclock t (bs ++ [b]) = gclock t bs + gpassed b.
Proof. revert t. induction bs as [|x r IH]; intro t; cbn; [lia|apply IH]. Qed.
Lemma prun_app c s a b : prun c s (a ++ b) = prun c (prun c s a) b.
Proof. apply fold_left_app. Qed.
Lemma grun_app c s a b : grun c s (a ++ b) = grun c (grun c s a) b.
Proof. apply fold_left_app. Qed.
Lemma one_snoc bs b : one_at_a_time (bs ++ [b]) = one_at_a_time bs ++ pexpand b.
Proof. unfold one_at_a_time. rewrite flat_map_app. cbn. rewrite app_nil_r. reflexivity. Qed.
Lemma gone_snoc bs b : g_one_at_a_time (bs ++ [b]) = g_one_at_a_time bs ++ gexpand b.
Proof. unfold g_one_at_a_time. rewrite flat_map_app. cbn. rewrite app_nil_r. reflexivity. Qed.

(** ** Predictions: any interleaving *)
Definition has_ev {I} (r : report I) : bool := match r_evidence r with Some _ => true | None => false end.
Definition pinv (c : pconf) (s : pmon) : Prop :=
  (told s <> [] -> invalid s = true) /\
  (busy s <> None -> listed s = true) /\
  (length (filter has_ev (told s)) <= 1)%nat /\
  (filter has_ev (told s) <> [] -> listed s = false) /\
  (length (filter (fun r => negb (has_ev r)) (told s)) <= 1)%nat /\
  (filter (fun r => negb (has_ev r)) (told s) <> [] -> tcore s = Removing \/ (tcore s = Over /\ listed s = false)) /\
  (forall r, In r (told s) -> r_evidence r = None -> r_success r = false /\ due c <= r_when r /\ rate c = true /\ of_fact c = true) /\
  (forall r i, In r (told s) -> r_evidence r = Some i -> in_pred i = false /\ (r_success r = true /\ in_verdict i = Positive \/ r_success r = false /\ in_verdict i = Negative /\ rate c = true)) /\
  (tcore s = Acting -> due c <= now s).
Lemma pinv_start c t : pinv c (pstart t).
Proof. unfold pinv. cbn. repeat split; try discriminate; try lia; try congruence; intros; contradiction. Qed.
Lemma filter_snoc {A} (f : A -> bool) l x : filter f (l ++ [x]) = filter f l ++ (if f x then [x] else []).
Proof. rewrite filter_app. cbn. destruct (f x); reflexivity. Qed.
Ltac split9 := refine (conj _ (conj _ (conj _ (conj _ (conj _ (conj _ (conj _ (conj _ _)))))))).
Ltac pfin := cbn [told invalid busy listed tcore now] in *; try assumption; try (intro; first [discriminate|reflexivity|congruence|lia|contradiction|tauto|intuition congruence|intuition lia]).
Lemma in_snoc {A} (l : list A) x y : In y (l ++ [x]) -> In y l \/ y = x.
Proof. intro H. apply in_app_iff in H. destruct H as [H|[H|[]]]; auto. Qed.
Lemma pinv_step c s e : pinv c s -> pinv c (pstep c s e).
Proof.
  intro H. destruct s as [n a v l b k o]. destruct e as [d|x| |i| | | |]; cbn [pstep].
  - destruct H as (A & B & C & D & E & F & G & I & K). split9; pfin.
  - exact H.
  - destruct H as (A & B & C & D & E & F & G & I & K). split9; pfin.
  - unfold ptake. cbn [busy listed invalid now alive tcore told]. destruct b as [j|]; [exact H|]. destruct (in_pred i && in_sim i); [exact H|]. destruct l; [|exact H]. cbn [negb].
    destruct H as (A & B & C & D & E & F & G & I & K). destruct v; split9; pfin.
  - unfold pfinish. cbn [busy listed invalid now alive tcore told]. destruct b as [i|]; [|exact H].
    assert (L : l = true) by (apply H; cbn; discriminate). subst l.
    assert (E0 : filter has_ev o = []).
    { destruct (filter has_ev o) eqn:E; auto. exfalso. assert (X : true = false); [|discriminate]. apply H. cbn [told]. rewrite E. discriminate. }
    destruct H as (A & B & C & D & E & F & G & I & K). unfold preduce.
    destruct (in_grounds i) eqn:G1.
    { rewrite app_nil_r. split9; pfin. }
    destruct (in_pred i) eqn:P.
    { destruct (in_verdict i); [| destruct (in_stronger i)|]; rewrite app_nil_r, ?orb_false_r, ?orb_true_r; split9; pfin. }
    destruct (in_verdict i) eqn:V; [|destruct (rate c) eqn:R|].
    + rewrite orb_true_r. unfold pinv. cbn [told]. rewrite !filter_snoc, E0. cbn [has_ev r_evidence negb app]. rewrite app_nil_r. split9; pfin.
      * cbn. lia.
      * intros r Hr N. apply in_snoc in Hr. destruct Hr as [Hr| ->]; [auto|discriminate].
      * intros r j Hr N. apply in_snoc in Hr. destruct Hr as [Hr| ->]; [eauto|]. cbn in *. injection N as <-. auto.
    + rewrite orb_true_r. unfold pinv. rewrite R. cbn [told]. rewrite !filter_snoc, E0. cbn [has_ev r_evidence negb app]. rewrite app_nil_r. split9; pfin.
      * cbn. lia.
      * intros r Hr N. apply in_snoc in Hr. destruct Hr as [Hr| ->]; [auto|discriminate].
      * intros r j Hr N. apply in_snoc in Hr. destruct Hr as [Hr| ->]; [eauto|]. cbn in *. injection N as <-. auto.
    + rewrite app_nil_r, orb_false_r. unfold pinv. rewrite R. split9; pfin.
    + rewrite app_nil_r, orb_false_r. split9; pfin.
  - unfold pwake. cbn [busy listed invalid now alive tcore told]. destruct k; try exact H. destruct (n <? due c) eqn:N; [exact H|].
    destruct H as (A & B & C & D & E & F & G & I & K). destruct (a && negb v); split9; pfin.
  - unfold pact. cbn [busy listed invalid now alive tcore told]. destruct k; try exact H. 
    destruct H as (A & B & C & D & E & F & G & I & K).
    assert (E0 : filter (fun r => negb (has_ev r)) o = []).
    { cbn [told tcore] in F. destruct (filter (fun r => negb (has_ev r)) o); auto. destruct F as [F|[F _]]; discriminate. }
    destruct (rate c && of_fact c) eqn:R.
    + apply andb_true_iff in R. destruct R as [R1 R2]. unfold pinv. cbn [told]. rewrite !filter_snoc, E0. cbn [has_ev r_evidence negb app]. rewrite app_nil_r. split9; pfin.
      * cbn. lia.
      * intros r Hr N. apply in_snoc in Hr. destruct Hr as [Hr| ->]; [auto|]. cbn. auto.
      * intros r j Hr N. apply in_snoc in Hr. destruct Hr as [Hr| ->]; [eauto|]. discriminate.
    + split9; pfin.
  - unfold premove. cbn [busy listed invalid now alive tcore told]. destruct k; try exact H. destruct b; [exact H|].
    destruct H as (A & B & C & D & E & F & G & I & K). split9; pfin.
Qed.
Lemma pinv_run c t es : pinv c (prun c (pstart t) es).
Proof.
  unfold prun. rewrite <- fold_left_rev_right. induction (rev es) as [|e r IH]; cbn; [apply pinv_start|apply pinv_step; exact IH].
Qed.
Lemma filter_split {A} (f : A -> bool) l : length l = (length (filter f l) + length (filter (fun x => negb (f x)) l))%nat.
Proof. induction l as [|x r IH]; cbn; [auto|]. destruct (f x); cbn; lia. Qed.
Lemma at_most_two c t es : (length (told (prun c (pstart t) es)) <= 2)%nat.
Proof. destruct (pinv_run c t es) as (_ & _ & A & _ & B & _). rewrite (filter_split has_ev). lia. Qed.
Lemma report_kinds c t es r : In r (told (prun c (pstart t) es)) ->
  match r_evidence r with
  | None => r_success r = false /\ due c <= r_when r /\ rate c = true /\ of_fact c = true
  | Some i => in_pred i = false /\ (r_success r = true /\ in_verdict i = Positive \/ r_success r = false /\ in_verdict i = Negative /\ rate c = true)
  end.
Proof.
  intro Hin. destruct (pinv_run c t es) as (_ & _ & _ & _ & _ & _ & A & B & _).
  destruct (r_evidence r) eqn:E; [apply (B r); auto|apply (A r); auto].
Qed.
Lemma invalid_silent c s es : quiet s -> invalid s = true -> told (prun c s es) = told s.
Proof.
  revert s. induction es as [|e es IH]; intros s Q V; [reflexivity|]. cbn [prun fold_left]. change (told (prun c (pstep c s e) es) = told s).
  assert (X : quiet (pstep c s e) /\ invalid (pstep c s e) = true /\ told (pstep c s e) = told s).
  { unfold quiet in *. destruct s as [n a v l b k o]; cbn in *. destruct Q as [-> K]. subst v.
    destruct e; cbn; auto.
    - unfold ptake. cbn. destruct (in_pred i && in_sim i); cbn; auto. destruct l; cbn; auto.
    - unfold pwake. cbn. destruct K as [->| ->]; cbn; auto. destruct (n <? due c); cbn; auto. rewrite andb_false_r. auto.
    - unfold pact. cbn. destruct K as [->| ->]; cbn; auto.
    - unfold premove. cbn. destruct K as [->| ->]; cbn; auto. }
  destruct X as (X1 & X2 & X3). rewrite IH; auto.
Qed.
Lemma told_gone c t es : let s := prun c (pstart t) es in told s <> [] -> quiet s ->
  listed s = false /\ forall more, told (prun c s more) = told s.
Proof.
  intros s T Q. pose proof (pinv_run c t es) as H. fold s in H. destruct H as (A & B & _ & C & _ & D & _ & _ & _). split.
  - destruct (filter has_ev (told s)) as [|x r] eqn:E1.
    + assert (N : filter (fun r => negb (has_ev r)) (told s) <> []).
      { intro E2. apply T. pose proof (filter_split has_ev (told s)) as L. rewrite E1, E2 in L. destruct (told s); auto. discriminate. }
      destruct (D N) as [K|[_ K]]; auto. destruct Q as [_ [Q|Q]]; congruence.
    + apply C. discriminate.
  - intro more. apply invalid_silent; auto.
Qed.

(** The race: both handlers passed the test, and both report. *)
Definition actual (v : verdict) : pinput := mkpin false false false v false.
Lemma race : exists c t es, let s := prun c (pstart t) es in
  exists i, told s = [mkrep true (Some i) (now s); mkrep false None (now s)].
Proof. exists (mkpconf true true 10), 0, [Pass 10; Take (actual Positive); Wake; Finish; Act; Remove]. cbn. eexists. reflexivity. Qed.

(** ** Predictions: one handler at a time *)
Definition closed (c : pconf) (s : pmon) : Prop :=
  quiet s /\ (invalid s = true \/ (listed s = false /\ (tcore s = Over \/ rate c && of_fact c = false))).
Lemma closed_block c s b : closed c s -> let s' := prun c s (pexpand b) in closed c s' /\ told s' = told s.
Proof.
  unfold closed, quiet. destruct s as [n a v l bz k o]. cbn [busy tcore invalid listed]. intros [[-> K] D].
  destruct b as [d|x| |i|]; cbn; try (split; [split; [auto|auto]|auto]; fail).
  - unfold ptake. cbn. destruct (in_pred i && in_sim i); cbn; [auto|]. destruct l; cbn; [|auto]. destruct v; cbn; [auto|].
    destruct D as [D|[D _]]; discriminate.
  - unfold pwake. cbn. destruct K as [->| ->]; cbn; [|auto]. destruct (n <? due c); cbn; [auto|].
    destruct v; cbn; [rewrite andb_false_r; cbn; auto|]. rewrite andb_true_r. destruct D as [D|[-> D]]; [discriminate|]. destruct a; cbn; [|auto 9].
    destruct D as [D|D]; [discriminate|]. unfold pact. cbn. rewrite D. cbn. auto 9.
Qed.
Definition open_state (c : pconf) (t : Z) (bs : list pblock) (s : pmon) : Prop :=
  exists k, s = mkpmon (clock t bs) (active true bs) false true None k [] /\ ((k = Over /\ missed c t bs) \/ (k = Waiting /\ ~ missed c t bs)).
Lemma undecided_snoc c t bs b : undecided c t (bs ++ [b]) <-> undecided c t bs /\ forall o, ~ decides c t bs b o.
Proof.
  split.
  - intro H. split.
    + intros p x q o E D. apply (H p x (q ++ [b]) o); auto. rewrite E, <- app_assoc. reflexivity.
    + intros o D. apply (H bs b [] o); auto.
  - intros [H1 H2] p x q o E D. apply snoc_case in E. destruct E as [(-> & -> & ->)|[q' ->]]; [eapply H2; eauto|eapply H1; eauto].
Qed.
Lemma missed_snoc c t bs b : missed c t (bs ++ [b]) <-> missed c t bs \/ (b = BJob /\ due c <= clock t bs /\ active true bs = false).
Proof.
  split.
  - intros (p & q & E & D & A). apply snoc_case in E. destruct E as [(-> & -> & ->)|[q' ->]]; [right; auto|left; exists p, q'; auto].
  - intros [(p & q & -> & D & A)|(-> & D & A)]; [exists p, (q ++ [b]); rewrite <- app_assoc; auto|exists bs, []; auto].
Qed.
Lemma block_cases c t bs s b : open_state c t bs s ->
  (open_state c t (bs ++ [b]) (prun c s (pexpand b)) /\ forall o, ~ decides c t bs b o) \/
  exists o, decides c t bs b o /\ (forall o', decides c t bs b o' -> o' = o) /\ closed c (prun c s (pexpand b)) /\ told (prun c s (pexpand b)) = match o with Some r => [r] | None => [] end.
Proof.
  intros (k & -> & K). unfold open_state.
  destruct b as [d|x| |i|].
  - left. split; [|intros o D; inversion D]. exists k. rewrite clock_snoc, active_snoc, missed_snoc. split; [reflexivity|]. destruct K as [[? ?]|[? ?]]; [left; auto|right; split; auto; intros [?|[? _]]; [auto|discriminate]].
  - left. split; [|intros o D; inversion D]. exists k. rewrite clock_snoc, active_snoc, missed_snoc. cbn [passed]. rewrite Z.add_0_r. split; [reflexivity|]. destruct K as [[? ?]|[? ?]]; [left; auto|right; split; auto; intros [?|[? _]]; [auto|discriminate]].
  - right. exists None. split; [constructor|]. split; [intros o' D; inversion D; auto|]. cbn. unfold closed, quiet. cbn. destruct K as [[-> ?]|[-> ?]]; auto 6.
  - assert (KK : k = Waiting \/ k = Over) by (destruct K as [[? ?]|[? ?]]; auto).
    assert (Op : open_state c t (bs ++ [BInput i]) (mkpmon (clock t bs) (active true bs) false true None k [])).
    { exists k. rewrite clock_snoc, active_snoc, missed_snoc. cbn [passed]. rewrite Z.add_0_r. split; [reflexivity|]. destruct K as [[? ?]|[? ?]]; [left; auto|right; split; auto; intros [?|[? _]]; [auto|discriminate]]. }
    unfold pexpand, prun. cbn [fold_left pstep]. unfold ptake. cbn [busy].
    destruct (in_pred i && in_sim i) eqn:S1.
    { left. split; [exact Op|]. apply andb_true_iff in S1. destruct S1 as [S1 S2]. intros o D. inversion D; subst; try congruence. rewrite S1, S2 in *. discriminate. }
    cbn [listed negb invalid]. unfold pfinish, preduce. cbn [busy now].
    destruct (in_grounds i) eqn:G.
    { right. exists None. split; [apply D_grounds; auto|]. split; [intros o' D; inversion D; subst; congruence|]. cbn. unfold closed, quiet. cbn. auto. }
    destruct (in_pred i) eqn:P.
    { cbn in S1. destruct (in_verdict i) eqn:V; [| destruct (in_stronger i) eqn:W|].
      - left. split; [exact Op|]. intros o D; inversion D; subst; congruence.
      - right. exists None. split; [apply D_stronger; auto|]. split; [intros o' D; inversion D; subst; congruence|]. cbn. unfold closed, quiet. cbn. auto.
      - left. split; [exact Op|]. intros o D; inversion D; subst; congruence.
      - left. split; [exact Op|]. intros o D; inversion D; subst; congruence. }
    destruct (in_verdict i) eqn:V; [|destruct (rate c) eqn:R|].
    + right. eexists. split; [apply D_confirmed; auto|]. split; [intros o' D; inversion D; subst; congruence|]. cbn. unfold closed, quiet. cbn. auto.
    + right. eexists. split; [apply D_refuted; auto|]. split; [intros o' D; inversion D; subst; congruence|]. cbn. unfold closed, quiet. cbn. auto.
    + right. exists None. split; [apply D_unrated; auto|]. split; [intros o' D; inversion D; subst; congruence|]. cbn. unfold closed, quiet. cbn. rewrite R. cbn. auto 8.
    + left. split; [exact Op|]. intros o D; inversion D; subst; congruence.
  - unfold pexpand, prun. cbn [fold_left pstep]. unfold pwake. cbn [tcore now]. destruct K as [[-> M]|[-> M]].
    + left. split; [|intros o D; inversion D; subst; contradiction]. exists Over. rewrite clock_snoc, active_snoc, missed_snoc. cbn [passed]. rewrite Z.add_0_r. split; [reflexivity|]. left. auto.
    + destruct (clock t bs <? due c) eqn:T.
      { left. split; [|intros o D; inversion D; subst; lia]. exists Waiting. rewrite clock_snoc, active_snoc, missed_snoc. cbn [passed]. rewrite Z.add_0_r. split; [reflexivity|]. right. split; auto. intros [?|(_ & ? & _)]; [auto|lia]. }
      cbn [alive invalid listed busy told negb]. rewrite andb_true_r. destruct (active true bs) eqn:A.
      * unfold pact. cbn [tcore]. right. destruct (rate c && of_fact c) eqn:R.
        -- assert (R' := R). apply andb_true_iff in R'. destruct R' as [R1 R2]. eexists. split; [apply D_deadline; auto; lia|]. split; [intros o' D; inversion D; subst; congruence|]. cbn. unfold closed, quiet. cbn. auto.
        -- exists None. split; [apply D_forgotten; auto; lia|]. split; [intros o' D; inversion D; subst; auto; exfalso; match goal with A : rate c = true, B : of_fact c = true |- _ => rewrite A, B in R; discriminate end|]. cbn. unfold closed, quiet. cbn. auto 8.
      * left. split; [|intros o D; inversion D; subst; congruence]. exists Over. rewrite clock_snoc, active_snoc, missed_snoc. cbn [passed]. rewrite Z.add_0_r, A. split; [reflexivity|]. left. split; auto. right. split; auto. split; [lia|auto].
Qed.
Lemma one_by_one c t bs : let s := prun c (pstart t) (one_at_a_time bs) in
  (open_state c t bs s /\ undecided c t bs) \/
  (closed c s /\ exists p b q o, bs = p ++ b :: q /\ undecided c t p /\ decides c t p b o /\ (forall o', decides c t p b o' -> o' = o) /\ told s = match o with Some r => [r] | None => [] end).
Proof.
  induction bs as [|b bs IH] using rev_ind.
  - left. split; [|intros [|] ? ? ? E; discriminate]. exists Waiting. split; [reflexivity|]. right. split; auto. intros ([|] & ? & E & _); discriminate.
  - cbn zeta. rewrite one_snoc, prun_app. destruct IH as [[O U]|[C (p & x & q & o & E & U & D & DD & T)]].
    + destruct (block_cases c t bs _ b O) as [[O' N]|(o & D & DD & C & T)].
      * left. split; auto. apply undecided_snoc. auto.
      * right. split; auto. exists bs, b, [], o. auto 6.
    + right. destruct (closed_block c _ b C) as [C' T']. split; auto. exists p, x, (q ++ [b]), o. split; [rewrite E, <- app_assoc; reflexivity|]. split; [auto|]. split; [auto|]. split; [auto|]. rewrite T'. exact T.
Qed.
Lemma split_unique {A} (p p' : list A) b b' q q' : p ++ b :: q = p' ++ b' :: q' -> length p = length p' -> p = p' /\ b = b' /\ q = q'.
Proof.
  revert p'. induction p as [|x p IH]; intros [|y p'] E L; cbn in *; try lia.
  - injection E; auto.
  - injection E as -> E. apply IH in E; [|lia]. destruct E as (-> & -> & ->). auto.
Qed.
Lemma split_shorter {A} (p p' : list A) b b' q q' : p ++ b :: q = p' ++ b' :: q' -> (length p < length p')%nat -> exists r, p' = p ++ b :: r.
Proof.
  revert p'. induction p as [|x p IH]; intros [|y p'] E L; cbn in *; try lia.
  - injection E as -> E. exists p'. reflexivity.
  - injection E as -> E. apply IH in E; [|lia]. destruct E as [r ->]. exists r. reflexivity.
Qed.
Lemma exact_outcome c t bs r : told (prun c (pstart t) (one_at_a_time bs)) = [r] <->
  exists p b q, bs = p ++ b :: q /\ undecided c t p /\ decides c t p b (Some r).
Proof.
  destruct (one_by_one c t bs) as [[(k & E & _) U]|[_ (p & b & q & o & E & U & D & DD & T)]].
  - rewrite E. cbn. split; [discriminate|]. intros (p & b & q & -> & _ & D). exfalso. eapply U; eauto.
  - rewrite T. split.
    + intro H. destruct o as [r'|]; [|discriminate]. injection H as ->. exists p, b, q. auto.
    + intros (p' & b' & q' & E' & U' & D'). rewrite E in E'.
      destruct (lt_eq_lt_dec (length p) (length p')) as [[L|L]|L].
      * destruct (split_shorter _ _ _ _ _ _ E' L) as [z ->]. exfalso. eapply U'; eauto.
      * destruct (split_unique _ _ _ _ _ _ E' L) as (<- & <- & <-). apply DD in D'. rewrite <- D'. reflexivity.
      * symmetry in E'. destruct (split_shorter _ _ _ _ _ _ E' L) as [z ->]. exfalso. eapply U; eauto.
Qed.
Lemma at_most_one c t bs : (length (told (prun c (pstart t) (one_at_a_time bs))) <= 1)%nat.
Proof.
  destruct (one_by_one c t bs) as [[(k & E & _) U]|[_ (p & b & q & o & E & U & D & DD & T)]]; [rewrite E; cbn; lia|rewrite T; destruct o; cbn; lia].
Qed.
Lemma no_confirmation c t bs r : In r (told (prun c (pstart t) (one_at_a_time bs))) -> r_evidence r = None ->
  exists p q, bs = p ++ BJob :: q /\ due c <= clock t p /\ r_when r = clock t p /\ rate c = true /\
  forall i, In (BInput i) p -> ~ (in_pred i = false /\ in_verdict i = Positive).
Proof.
  intros Hin N. assert (E : told (prun c (pstart t) (one_at_a_time bs)) = [r]).
  { pose proof (at_most_one c t bs) as L. destruct (told _) as [|x [|y l]]; [contradiction| |cbn in L; lia]. destruct Hin as [->|[]]. reflexivity. }
  apply exact_outcome in E. destruct E as (p & b & q & -> & U & D).
  inversion D; subst; cbn in N; try discriminate. exists p, q. repeat split; auto. intros i Hi [P V].
  apply in_split in Hi. destruct Hi as (p1 & p2 & ->).
  destruct (in_grounds i) eqn:G.
  - apply (U p1 (BInput i) p2 None); auto. apply D_grounds; auto. rewrite P. auto.
  - eapply (U p1 (BInput i) p2); auto. apply D_confirmed; auto.
Qed.

(** ** Goals: any interleaving *)
Lemma outcomes_app a b : outcomes (a ++ b) = outcomes a ++ outcomes b.
Proof. apply flat_map_app. Qed.
Record ginv (c : gconf) (s : gmon) : Prop := mkginv {
  gi_inv : outcomes (out s) <> [] -> ginvalid s = true;
  gi_busy : gbusy s <> None -> glisted s = true;
  gi_ev1 : (length (filter has_ev (outcomes (out s))) <= 1)%nat;
  gi_ev2 : filter has_ev (outcomes (out s)) <> [] -> glisted s = false;
  gi_no1 : (length (filter (fun r => negb (has_ev r)) (outcomes (out s))) <= 1)%nat;
  gi_no2 : filter (fun r => negb (has_ev r)) (outcomes (out s)) <> [] -> gcore s = Removing \/ (gcore s = Over /\ glisted s = false);
  gi_none : forall r, In r (outcomes (out s)) -> r_evidence r = None -> r_success r = false /\ deadline c <= r_when r;
  gi_some : forall r i, In r (outcomes (out s)) -> r_evidence r = Some i ->
    (r_success r = true /\ actual_evidence Positive i /\ g_fact i && anti c = false) \/ (r_success r = false /\ actual_evidence Negative i);
  gi_next : simulating s = false -> next s = deadline c;
  gi_due : gcore s = Acting -> next s <= gnow s;
  gi_pred : In PredictedSuccess (out s) -> ginvalid s = true }.
Lemma ginv_start c t thz e : ginv c (gstart c t thz e).
Proof. constructor; cbn; try discriminate; try congruence; try lia; try (intros; contradiction). intro H. rewrite H. reflexivity. Qed.
(** Steps of the reduction core that report nothing. *)
Lemma ginv_set c s inv lst inj ev os : ginv c s -> gbusy s <> None -> outcomes os = [] -> (ginvalid s = true -> inv = true) -> (In PredictedSuccess os -> inv = true) ->
  ginv c (gset s inv lst inj ev os).
Proof.
  intros H B O V P. assert (L := gi_busy _ _ H B). destruct H as [A1 A2 A3 A4 A5 A6 A7 A8 A9 A10 A11].
  unfold gset. constructor; cbn [out ginvalid gbusy glisted gcore simulating next gnow]; rewrite ?outcomes_app, ?O, ?app_nil_r; auto.
  - intro F. apply A4 in F. congruence.
  - intro F. destruct (A6 F) as [K|[_ K]]; [auto|congruence].
  - intro F. apply in_app_iff in F. destruct F; auto.
Qed.
Lemma ginv_report c s r i : ginv c s -> gbusy s <> None -> r_evidence r = Some i ->
  (r_success r = true /\ actual_evidence Positive i /\ g_fact i && anti c = false) \/ (r_success r = false /\ actual_evidence Negative i) ->
  ginv c (gset s true false (injected s) (evid s) [Outcome r]).
Proof.
  intros H B E K. assert (L := gi_busy _ _ H B). destruct H as [A1 A2 A3 A4 A5 A6 A7 A8 A9 A10 A11].
  assert (E0 : filter has_ev (outcomes (out s)) = []).
  { destruct (filter has_ev (outcomes (out s))); auto. rewrite A4 in L; discriminate. }
  assert (HR : has_ev r = true) by (unfold has_ev; rewrite E; reflexivity).
  unfold gset. constructor; cbn [out ginvalid gbusy glisted gcore simulating next gnow]; rewrite ?outcomes_app; cbn [outcomes flat_map app]; rewrite ?filter_snoc, ?HR, ?E0; cbn [negb]; rewrite ?app_nil_r; auto; try congruence.
  - intro F. destruct (A6 F) as [K'|[K' _]]; auto.
  - intros r' Hr N. apply in_snoc in Hr. destruct Hr as [Hr| ->]; [auto|congruence].
  - intros r' j Hr N. apply in_snoc in Hr. destruct Hr as [Hr| ->]; [eauto|]. rewrite E in N. injection N as <-. auto.
Qed.
Lemma predicted_failure_silent s : outcomes (predicted_failure s) = [] /\ ~ In PredictedSuccess (predicted_failure s).
Proof. unfold predicted_failure. destruct (negb (injected s)); [|destruct (ginvalid s)]; (split; [reflexivity|]); cbn; intuition discriminate. Qed.
Ltac gquick H := match goal with
  | |- ginv _ (gset _ _ _ _ _ _) => apply ginv_set; [exact H|congruence|reflexivity|auto; rewrite ?orb_true_iff; auto|cbn; intuition (try discriminate)] end.
Lemma ginv_finish c s : ginv c s -> ginv c (gfinish c s).
Proof.
  intro H. unfold gfinish. destruct (gbusy s) as [i|] eqn:B; [|exact H].
  destruct (negb (injected s) && _).
  { apply ginv_set; auto; try congruence; destruct (predicted_failure_silent s); auto; contradiction. }
  destruct (g_pred i) eqn:P.
  - destruct (simulating s).
    + destruct (g_sim i); [|gquick H]. destruct (g_about i); try (gquick H). destruct (g_verdict i); gquick H.
    + destruct (g_verdict i).
      * apply ginv_set; auto; try congruence; destruct (injected s); cbn; auto; try (intuition discriminate); rewrite ?orb_true_r, ?orb_false_r; auto.
      * apply ginv_set; auto; try congruence; destruct (predicted_failure_silent s); auto; contradiction.
      * gquick H.
  - destruct (g_ground i) eqn:G; [gquick H|]. destruct (g_verdict i) eqn:V.
    + destruct (g_fact i && anti c) eqn:FA; [gquick H|]. eapply ginv_report; eauto; [congruence|reflexivity|]. left. unfold actual_evidence. auto.
    + eapply ginv_report; eauto; [congruence|reflexivity|]. right. unfold actual_evidence. auto.
    + gquick H.
Qed.
Lemma ginv_step c s e : ginv c s -> ginv c (gstep c s e).
Proof.
  intro H. destruct e as [d|x| | |i| | | |]; cbn [gstep].
  - destruct H as [A1 A2 A3 A4 A5 A6 A7 A8 A9 A10 A11]. constructor; cbn [out ginvalid gbusy glisted gcore simulating next gnow]; auto. intro K. apply A10 in K. lia.
  - destruct H as [A1 A2 A3 A4 A5 A6 A7 A8 A9 A10 A11]. constructor; cbn [out ginvalid gbusy glisted gcore simulating next gnow]; auto.
  - destruct H as [A1 A2 A3 A4 A5 A6 A7 A8 A9 A10 A11]. constructor; cbn [out ginvalid gbusy glisted gcore simulating next gnow]; auto.
  - destruct H as [A1 A2 A3 A4 A5 A6 A7 A8 A9 A10 A11]. constructor; cbn [out ginvalid gbusy glisted gcore simulating next gnow]; auto.
  - unfold gtake. destruct (gbusy s) eqn:B; [exact H|]. destruct (glisted s) eqn:L; [|exact H]. cbn [negb].
    destruct H as [A1 A2 A3 A4 A5 A6 A7 A8 A9 A10 A11].
    destruct (ginvalid s) eqn:V; unfold gset; constructor; cbn [out ginvalid gbusy glisted gcore simulating next gnow]; rewrite ?app_nil_r; auto; try congruence.
    + intro F. destruct (A6 F) as [?|[? ?]]; auto.
    + intro F. apply A4 in F. congruence.
    + intro F. destruct (A6 F) as [?|[? ?]]; auto. congruence.
  - apply ginv_finish. exact H.
  - unfold gwake. destruct (gcore s) eqn:K; try exact H. destruct (gnow s <? next s) eqn:T; [exact H|].
    destruct H as [A1 A2 A3 A4 A5 A6 A7 A8 A9 A10 A11].
    unfold gtimed. constructor; cbn [out ginvalid gbusy glisted gcore simulating next gnow]; rewrite ?app_nil_r; auto; try congruence; try lia.
    + intro F. destruct (A6 F) as [?|[? ?]]; congruence.
  - unfold gact. destruct (gcore s) eqn:K; try exact H. destruct H as [A1 A2 A3 A4 A5 A6 A7 A8 A9 A10 A11].
    assert (E0 : filter (fun r => negb (has_ev r)) (outcomes (out s)) = []).
    { destruct (filter (fun r => negb (has_ev r)) (outcomes (out s))); auto. destruct A6 as [F|[F _]]; congruence. }
    destruct (simulating s) eqn:S1; unfold gtimed; constructor; cbn [out ginvalid gbusy glisted gcore simulating next gnow]; rewrite ?outcomes_app; cbn [outcomes flat_map app]; rewrite ?filter_snoc; cbn [has_ev r_evidence negb]; rewrite ?E0, ?app_nil_r; auto; try congruence.
    + intro F. apply in_app_iff in F. destruct F as [F|[F|[]]]; [auto|discriminate].
    + intros r Hr N. apply in_snoc in Hr. destruct Hr as [Hr| ->]; [auto|]. cbn. split; [auto|]. rewrite <- A9; auto.
    + intros r j Hr N. apply in_snoc in Hr. destruct Hr as [Hr| ->]; [eauto|]. discriminate.
  - unfold gremove. destruct (gcore s) eqn:K; try exact H. destruct (gbusy s) eqn:B; [exact H|].
    destruct H as [A1 A2 A3 A4 A5 A6 A7 A8 A9 A10 A11]. constructor; cbn [out ginvalid gbusy glisted gcore simulating next gnow]; auto; try congruence.
Qed.
Lemma ginv_run c t thz e es : ginv c (grun c (gstart c t thz e) es).
Proof.
  unfold grun. rewrite <- fold_left_rev_right. induction (rev es) as [|x r IH]; cbn; [apply ginv_start|apply ginv_step; exact IH].
Qed.
Lemma g_at_most_two c t thz e es : (length (outcomes (out (grun c (gstart c t thz e) es))) <= 2)%nat.
Proof. pose proof (ginv_run c t thz e es) as H. rewrite (filter_split has_ev). pose proof (gi_ev1 _ _ H). pose proof (gi_no1 _ _ H). lia. Qed.
Lemma g_kinds c t thz e es r : In r (outcomes (out (grun c (gstart c t thz e) es))) ->
  match r_evidence r with
  | None => r_success r = false /\ deadline c <= r_when r
  | Some i => (r_success r = true /\ actual_evidence Positive i) \/ (r_success r = false /\ actual_evidence Negative i)
  end.
Proof.
  intro Hr. pose proof (ginv_run c t thz e es) as H. destruct (r_evidence r) eqn:E.
  - destruct (gi_some _ _ H _ _ Hr E) as [(A & B & _)|[A B]]; auto.
  - apply (gi_none _ _ H); auto.
Qed.
Lemma g_silent c s es : gquiet s -> ginvalid s = true -> out (grun c s es) = out s.
Proof.
  revert s. induction es as [|e es IH]; intros s Q V; [reflexivity|]. change (out (grun c (gstep c s e) es) = out s).
  assert (X : gquiet (gstep c s e) /\ ginvalid (gstep c s e) = true /\ out (gstep c s e) = out s).
  { unfold gquiet in *. destruct s as [n a v l sm ij ev b k nx o]; cbn in *. destruct Q as [-> K]. subst v.
    destruct e; cbn; auto.
    - unfold gtake. cbn. destruct l; cbn; auto. rewrite app_nil_r. auto.
    - unfold gwake. cbn. destruct K as [->| ->]; cbn; auto. destruct (n <? nx); cbn; auto. rewrite andb_false_r, app_nil_r. auto.
    - unfold gact. cbn. destruct K as [->| ->]; cbn; auto.
    - unfold gremove. cbn. destruct K as [->| ->]; cbn; auto. }
  destruct X as (X1 & X2 & X3). rewrite IH; auto.
Qed.
Lemma g_gone c t thz e es : let s := grun c (gstart c t thz e) es in outcomes (out s) <> [] -> gquiet s ->
  glisted s = false /\ forall more, out (grun c s more) = out s.
Proof.
  intros s T Q. pose proof (ginv_run c t thz e es) as H. fold s in H. split.
  - destruct (filter has_ev (outcomes (out s))) as [|x r] eqn:E1.
    + assert (N : filter (fun r => negb (has_ev r)) (outcomes (out s)) <> []).
      { intro E2. apply T. pose proof (filter_split has_ev (outcomes (out s))) as L. rewrite E1, E2 in L. destruct (outcomes (out s)); auto. discriminate. }
      destruct (gi_no2 _ _ H N) as [K|[_ K]]; auto. destruct Q as [_ [Q|Q]]; congruence.
    + apply (gi_ev2 _ _ H). rewrite E1. discriminate.
  - intro more. apply g_silent; auto. apply (gi_inv _ _ H). auto.
Qed.
Lemma g_predicted_silent c t thz e es : let s := grun c (gstart c t thz e) es in In PredictedSuccess (out s) -> gquiet s ->
  forall more, out (grun c s more) = out s.
Proof. intros s T Q more. apply g_silent; auto. apply (gi_pred _ _ (ginv_run c t thz e es)). auto. Qed.

(** The goal itself is injected at most once. *)
Lemma injections_app a b : injections (a ++ b) = (injections a + injections b)%nat.
Proof. unfold injections. rewrite filter_app, app_length. reflexivity. Qed.
Definition iinv (s : gmon) : Prop := (injections (out s) <= 1)%nat /\ (injected s = false -> injections (out s) = 0%nat).
Lemma pf_injections s : injections (predicted_failure s) = if injected s then 0%nat else 1%nat.
Proof. unfold predicted_failure. destruct (injected s); cbn; [destruct (ginvalid s)|]; reflexivity. Qed.
Lemma iinv_step c s e : iinv s -> iinv (gstep c s e).
Proof.
  unfold iinv. intros [A B]. destruct e as [d|x| | |i| | | |]; cbn [gstep]; auto.
  - unfold gtake. destruct (gbusy s); [auto|]. destruct (glisted s); [|auto]. cbn [negb]. destruct (ginvalid s); cbn [gset out injected]; rewrite ?app_nil_r; auto.
  - unfold gfinish. destruct (gbusy s) as [i|]; [|auto].
    destruct (negb (injected s) && _).
    { cbn [gset out injected]. rewrite injections_app, pf_injections. split; [|discriminate]. destruct (injected s); [lia|rewrite B; auto]. }
    destruct (g_pred i).
    + destruct (simulating s).
      * destruct (g_sim i); [|cbn [gset out injected]; rewrite app_nil_r; auto].
        destruct (g_about i); try (cbn [gset out injected]; rewrite injections_app; cbn [injections filter length]; rewrite Nat.add_0_r; auto; fail).
        destruct (g_verdict i); cbn [gset out injected]; rewrite injections_app; cbn [injections filter length]; rewrite Nat.add_0_r; auto.
      * destruct (g_verdict i); cbn [gset out injected].
        -- destruct (injected s); rewrite injections_app; cbn [injections filter length]; rewrite Nat.add_0_r; auto.
        -- rewrite injections_app, pf_injections. split; [|discriminate]. destruct (injected s); [lia|rewrite B; auto].
        -- rewrite app_nil_r. auto.
    + destruct (g_ground i); [cbn [gset out injected]; rewrite injections_app; cbn [injections filter length]; rewrite Nat.add_0_r; auto|].
      destruct (g_verdict i); [destruct (g_fact i && anti c)| |]; cbn [gset out injected]; rewrite injections_app; cbn [injections filter length]; rewrite Nat.add_0_r; auto.
  - unfold gwake. destruct (gcore s); auto. destruct (gnow s <? next s); auto. cbn [gtimed out injected]. rewrite app_nil_r. auto.
  - unfold gact. destruct (gcore s); auto. destruct (simulating s); cbn [gtimed out injected]; rewrite injections_app; cbn [injections filter length]; rewrite Nat.add_0_r; auto.
  - unfold gremove. destruct (gcore s); auto. destruct (gbusy s); auto.
Qed.
Lemma injected_once c t thz e es : (injections (out (grun c (gstart c t thz e) es)) <= 1)%nat.
Proof.
  assert (X : iinv (grun c (gstart c t thz e) es)).
  { unfold grun. rewrite <- fold_left_rev_right. induction (rev es) as [|x r IH]; cbn; [split; cbn; auto|apply iinv_step; exact IH]. }
  apply X.
Qed.

(** ** Goals: one handler at a time *)
Definition gidle (s : gmon) : Prop := gquiet s /\ ~ In NewGoal (out s).
Lemma gidle_block c s b : gidle s -> gidle (grun c s (gexpand b)).
Proof.
  unfold gidle, gquiet. destruct s as [n a v l sm ij ev bz k nx o]. cbn [gbusy gcore out]. intros [[-> K] N].
  destruct b as [d|x| | |i|]; cbn; auto.
  - unfold gtake. cbn. destruct l; cbn; [|auto]. destruct v; cbn; [rewrite app_nil_r; auto|]. unfold gfinish. cbn [gbusy injected evid ginvalid simulating].
    assert (Y : forall os, ~ In NewGoal os -> ~ In NewGoal (o ++ os)) by (intros os H F; apply in_app_iff in F; tauto).
    repeat match goal with |- context [if ?x then _ else _] => destruct x | |- context [match ?x with _ => _ end] => destruct x end;
      cbn; (split; [auto|]); apply Y; unfold predicted_failure; cbn; try destruct ij; cbn; intuition discriminate.
  - unfold gwake. cbn. destruct K as [->| ->]; cbn; [|auto]. destruct (n <? nx); cbn; [auto|]. destruct (a && negb v); cbn.
    + unfold gact. cbn. destruct sm; cbn; rewrite ?app_nil_r; (split; [auto|]); intro F; apply in_app_iff in F; cbn in F; intuition discriminate.
    + rewrite app_nil_r. auto.
Qed.
Lemma never_new_goal c t thz e bs : ~ In NewGoal (out (grun c (gstart c t thz e) (g_one_at_a_time bs))).
Proof.
  assert (X : gidle (grun c (gstart c t thz e) (g_one_at_a_time bs))); [|apply X].
  induction bs as [|b bs IH] using rev_ind; [split; [split; cbn; auto|cbn; auto]|]. rewrite gone_snoc, grun_app. apply gidle_block. exact IH.
Qed.
Lemma g_at_most_one c t thz e bs : (length (outcomes (out (grun c (gstart c t thz e) (g_one_at_a_time bs)))) <= 1)%nat.
Proof.
  assert (X : let s := grun c (gstart c t thz e) (g_one_at_a_time bs) in gquiet s /\ ((length (outcomes (out s)) <= 1)%nat /\ (outcomes (out s) <> [] -> ginvalid s = true))); [|apply X].
  induction bs as [|b bs IH] using rev_ind; [cbn; unfold gquiet; cbn; auto 8|]. cbn zeta in *. rewrite gone_snoc, grun_app.
  revert IH. generalize (grun c (gstart c t thz e) (g_one_at_a_time bs)). intros s [Q [L V]].
  assert (Q' : gquiet (grun c s (gexpand b))).
  { assert (Y : gidle (mkgmon (gnow s) (galive s) (ginvalid s) (glisted s) (simulating s) (injected s) (evid s) (gbusy s) (gcore s) (next s) [])) by (split; [exact Q|cbn; auto]).
    apply (gidle_block c _ b) in Y. destruct Y as [Y _]. clear - Y Q. unfold gquiet in *. destruct s as [n a v l sm ij ev bz k nx o]. cbn in Q. destruct Q as [-> K].
    revert Y. cbn [gnow galive ginvalid glisted simulating injected evid gbusy gcore next].
    destruct b as [d|x| | |i|]; cbn; auto.
    - unfold gtake. cbn. destruct l; cbn; auto. destruct v; cbn; auto. unfold gfinish. cbn [gbusy injected evid ginvalid simulating glisted].
      repeat match goal with |- context [if ?x then _ else _] => destruct x | |- context [match ?x with _ => _ end] => destruct x end; cbn; auto.
    - unfold gwake. cbn. destruct K as [->| ->]; cbn; auto. destruct (n <? nx); cbn; auto. destruct (a && negb v); cbn; auto. unfold gact. cbn. destruct sm; cbn; auto. }
  split; [exact Q'|]. destruct (bool_dec (ginvalid s) true) as [I1|I1].
  - rewrite g_silent; auto. split; auto. intros F.
    assert (Z0 : forall s es, ginvalid s = true -> ginvalid (grun c s es) = true); [|apply Z0; auto].
    clear. intros s es. revert s. induction es as [|x es IH]; intros s V; [exact V|]. apply (IH (gstep c s x)).
    destruct s as [n a v l sm ij ev bz k nx o]. cbn in V. subst v. destruct x; cbn; auto.
    + unfold gtake. cbn. destruct bz; auto. destruct l; auto.
    + unfold gfinish. cbn. destruct bz; auto. repeat match goal with |- context [if ?x then _ else _] => destruct x | |- context [match ?x with _ => _ end] => destruct x end; cbn; auto.
    + unfold gwake. cbn. destruct k; cbn; auto. destruct (n <? nx); auto.
    + unfold gact. cbn. destruct k; cbn; auto. destruct sm; auto.
    + unfold gremove. cbn. destruct k; cbn; auto. destruct bz; auto.
  - assert (O : outcomes (out s) = []). { destruct (outcomes (out s)); auto. exfalso. apply I1, V. discriminate. }
    apply not_true_is_false in I1. destruct s as [n a v l sm ij ev bz k nx o]. cbn [out ginvalid] in O, I1. subst v. destruct Q as [Q1 K]. cbn in Q1, K. subst bz. clear - O K.
    assert (Y : forall os, outcomes os = [] -> outcomes (o ++ os) = []) by (intros os H; rewrite outcomes_app, O; exact H).
    assert (W : forall r, outcomes (o ++ [Outcome r]) = [r]) by (intros r; rewrite outcomes_app, O; reflexivity).
    assert (Y0 : outcomes (o ++ []) = []) by (apply Y; reflexivity).
    assert (X : forall b s', outcomes (out s') = [] -> (length (outcomes (out s')) <= 1)%nat /\ (outcomes (out s') <> [] -> ginvalid s' = b)) by (intros ? ? E; rewrite E; split; [cbn; lia|congruence]).
    assert (X1 : forall r s', outcomes (out s') = [r] -> ginvalid s' = true -> (length (outcomes (out s')) <= 1)%nat /\ (outcomes (out s') <> [] -> ginvalid s' = true)) by (intros ? ? E ?; rewrite E; split; [cbn; lia|auto]).
    destruct b as [d|x| | |i|]; cbn [gexpand grun fold_left gstep]; try (apply X; exact O).
    + unfold gtake. cbn [gbusy glisted ginvalid]. destruct l; cbn [negb]; [|apply X; exact O]. unfold gfinish. cbn [gbusy injected evid ginvalid simulating glisted].
      repeat match goal with |- context [if ?x then _ else _] => destruct x | |- context [match ?x with _ => _ end] => destruct x end;
        first [eapply X1; [apply W|reflexivity]|apply X; apply Y; unfold predicted_failure; cbn; try destruct ij; reflexivity].
    + unfold gwake. cbn [gcore gnow next galive ginvalid]. destruct K as [->| ->]; [|apply X; exact O]. destruct (n <? nx); [apply X; exact O|]. destruct (a && negb false).
      * unfold gact. cbn [gcore gtimed simulating]. destruct sm; [apply X; cbn; rewrite app_nil_r; apply Y; reflexivity|eapply X1; [cbn; rewrite app_nil_r; apply W|reflexivity]].
      * apply X. cbn. exact Y0.
Qed.
