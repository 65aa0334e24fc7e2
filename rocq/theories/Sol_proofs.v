From Verif Require Import Base Float32 Float32_facts Sol_model Sol_spec.

Lemma stronger_iff now mine s : stronger now mine s = true <-> damaging now mine s.
Proof.
  unfold stronger, damaging. destruct (s_goal s) as [g|]; split.
  - intro H. eauto.
  - intros (g' & E & H). injection E as <-. exact H.
  - discriminate.
  - intros (g' & E & H). discriminate.
Qed.
Lemma kill_spec d n m : kill d n m = true <-> m = n \/ d m = true.
Proof. unfold kill. rewrite orb_true_iff, Nat.eqb_eq. tauto. Qed.
Lemma kill_all_spec l : forall d n, kill_all d l n = true <-> d n = true \/ exists s, In s l /\ s_sim s = n.
Proof.
  induction l as [|x l IH]; intros d n; cbn.
  - split; [auto|intros [H|(s & [] & _)]; exact H].
  - change (kill_all (kill d (s_sim x)) l n = true <-> d n = true \/ exists s, (x = s \/ In s l) /\ s_sim s = n). rewrite IH, kill_spec. split.
    + intros [[H|H]|(s & H & E)]; [right; exists x; auto|auto|right; exists s; auto].
    + intros [H|(s & [<-|H] & E)]; [auto|auto|right; exists s; auto].
Qed.
Lemma invalidate_all_spec d st n : invalidate_all d st n = true <-> d n = true \/ exists s, In s (all_stored st) /\ s_sim s = n.
Proof.
  unfold invalidate_all, all_stored. rewrite !kill_all_spec. setoid_rewrite in_app_iff. setoid_rewrite in_app_iff. setoid_rewrite in_app_iff. split.
  - intros [[[[H|(s & H & E)]|(s & H & E)]|(s & H & E)]|(s & H & E)]; auto; right; exists s; auto.
  - intros [H|(s & H & E)]; [auto 6|]. destruct H as [H|[H|[H|H]]]; [left; left; left; right|left; left; right|left; right|right]; exists s; auto.
Qed.
Lemma cull_spec now mine l : forall d n, cull now mine d l n = true <-> d n = true \/ exists f, In f l /\ s_gone f = false /\ s_sim f = n /\ damaging now mine f.
Proof.
  induction l as [|x l IH]; intros d n; cbn.
  - split; [auto|intros [H|(f & [] & _)]; exact H].
  - destruct (s_gone x) eqn:G; [|destruct (d (s_sim x)) eqn:D; [|destruct (stronger now mine x) eqn:S1]]; rewrite IH, ?kill_spec; split.
    + intros [H|(f & H & E)]; [auto|right; exists f; auto].
    + intros [H|(f & [<-|H] & E1 & E)]; [auto|congruence|right; exists f; auto].
    + intros [H|(f & H & E)]; [auto|right; exists f; auto].
    + intros [H|(f & [<-|H] & E1 & <- & E)]; [auto|auto|right; exists f; auto].
    + intros [[->|H]|(f & H & E)]; [right; exists x; rewrite <- stronger_iff; auto|auto|right; exists f; auto].
    + intros [H|(f & [<-|H] & E1 & <- & E)]; [auto|auto|right; exists f; auto].
    + intros [H|(f & H & E)]; [auto|right; exists f; auto].
    + intros [H|(f & [<-|H] & E1 & <- & E)]; [auto|rewrite <- stronger_iff in E; congruence|right; exists f; auto].
Qed.
Lemma lt_num x y : is_number x -> is_number y -> flt x y = (key x <? key y).
Proof. intros [X1 X2] [Y1 Y2]. apply flt_key; auto. Qed.
Lemma not_lt_trans x y z : is_number x -> is_number y -> is_number z -> flt x y = false -> flt z x = false -> flt z y = false.
Proof. intros. rewrite lt_num in *; auto. lia. Qed.
(** The solution that is chosen: it is usable, none is better, and the ones before it are
    all worse. *)
Lemma best_spec now sm d l : forall b, (forall s, In s l -> usable d s -> is_number (score now sm s)) ->
  match b with Some x => is_number (score now sm x) | None => True end ->
  match best now sm d b l with
  | None => b = None /\ forall s, In s l -> ~ usable d s
  | Some r => (b = Some r \/ (In r l /\ usable d r)) /\ is_number (score now sm r) /\
              (forall s, In s l -> usable d s -> flt (score now sm r) (score now sm s) = false) /\
              (forall x, b = Some x -> flt (score now sm r) (score now sm x) = false)
  end.
Proof.
  induction l as [|x l IH]; intros b N B; cbn [best].
  - destruct b as [x|]; [|split; [reflexivity|intros s []]]. split; [auto|]. split; [exact B|]. split; [intros s []|].
    intros y E. injection E as <-. rewrite lt_num; auto. lia.
  - assert (N' : forall s, In s l -> usable d s -> is_number (score now sm s)) by (intros s H; apply N; right; auto).
    assert (Skip : ~ usable d x -> match best now sm d b l with
      | None => b = None /\ forall s, In s (x :: l) -> ~ usable d s
      | Some r => (b = Some r \/ (In r (x :: l) /\ usable d r)) /\ is_number (score now sm r) /\ (forall s, In s (x :: l) -> usable d s -> flt (score now sm r) (score now sm s) = false) /\ (forall x, b = Some x -> flt (score now sm r) (score now sm x) = false) end).
    { intro U. specialize (IH b N' B). destruct (best now sm d b l) as [r|].
      - destruct IH as (A1 & A2 & A3 & A4). split; [destruct A1 as [A1|[A1 A1']]; [auto|right; split; [right; auto|auto]]|]. split; auto. split; [|auto]. intros s [<-|H] Us; [contradiction|auto].
      - destruct IH as [A1 A2]. split; auto. intros s [<-|H]; auto. }
    destruct (s_gone x) eqn:G; [apply Skip; intros [U _]; congruence|]. destruct (d (s_sim x)) eqn:D; [apply Skip; intros [_ U]; congruence|].
    assert (Ux : usable d x) by (split; auto). assert (Nx := N x (or_introl eq_refl) Ux).
    destruct b as [b'|].
    + destruct (flt (per_time now (sm (s_sim b'))) (per_time now (sm (s_sim x)))) eqn:F.
      * specialize (IH (Some x) N' Nx). cbn iota beta in IH. destruct (best now sm d (Some x) l) as [r|]; [|destruct IH; discriminate].
        destruct IH as (A1 & A2 & A3 & A4). split; [destruct A1 as [A1|[A1 A1']]; [injection A1 as <-; right; split; [left; auto|auto]|right; split; [right; auto|auto]]|]. split; auto.
        split; [intros s [<-|H] Us; auto|]. intros y E. injection E as <-. specialize (A4 x eq_refl).
        fold (score now sm x) in F. fold (score now sm b') in F. rewrite lt_num in *; auto. lia.
      * specialize (IH (Some b') N' B). cbn iota beta in IH. destruct (best now sm d (Some b') l) as [r|]; [|destruct IH; discriminate].
        destruct IH as (A1 & A2 & A3 & A4). split; [destruct A1 as [A1|[A1 A1']]; [auto|right; split; [right; auto|auto]]|]. split; auto. split; [|auto].
        intros s [<-|H] Us; [|auto]. apply (not_lt_trans (score now sm b')); auto.
    + specialize (IH (Some x) N' Nx). cbn iota beta in IH. destruct (best now sm d (Some x) l) as [r|]; [|destruct IH; discriminate].
      destruct IH as (A1 & A2 & A3 & A4). split; [destruct A1 as [A1|[A1 A1']]; [injection A1 as <-; right; split; [left; auto|auto]|right; split; [right; auto|auto]]|]. split; auto.
      split; [intros s [<-|H] Us; auto|]. discriminate.
Qed.

Lemma caves_iff now mine d st : caves now mine d st = true <-> exists s, In s (fail_m st) /\ usable d s /\ damaging now mine s.
Proof.
  unfold caves. rewrite existsb_exists. split.
  - intros (s & H & E). apply andb_true_iff in E. destruct E as [E D]. apply andb_true_iff in E. destruct E as [G A]. apply negb_true_iff in G, A. exists s. rewrite <- stronger_iff. repeat split; auto.
  - intros (s & H & [G A] & D). exists s. rewrite <- stronger_iff in D. rewrite G, A, D. auto.
Qed.
(** All stored simulations are stopped; no other is. *)
Lemma commit_stops now mine sm d st n : fst (commit now mine sm d st) n = true <-> d n = true \/ exists s, In s (all_stored st) /\ s_sim s = n.
Proof.
  unfold commit. destruct (caves now mine d st); [apply invalidate_all_spec|].
  assert (X : invalidate_all (cull now mine d (fail_o st)) st n = true <-> d n = true \/ exists s, In s (all_stored st) /\ s_sim s = n).
  { rewrite invalidate_all_spec, cull_spec. split.
    - intros [[H|(f & H & _ & E & _)]|H]; auto. right. exists f. split; auto. unfold all_stored. apply in_app_iff. right. apply in_app_iff. auto.
    - intros [H|H]; auto. }
  destruct (best now sm _ None (good_o st)); exact X.
Qed.
Lemma commit_caves now mine sm d st s : In s (fail_m st) -> usable d s -> damaging now mine s -> snd (commit now mine sm d st) = [].
Proof. intros H U D. unfold commit. assert (C : caves now mine d st = true) by (apply caves_iff; eauto). rewrite C. reflexivity. Qed.
Lemma usable_cull now mine d st s : usable (cull now mine d (fail_o st)) s <-> usable d s /\ harmless now mine st s.
Proof.
  unfold usable, harmless. split.
  - intros [G C]. assert (N : ~ (d (s_sim s) = true \/ exists f, In f (fail_o st) /\ s_gone f = false /\ s_sim f = s_sim s /\ damaging now mine f)).
    { rewrite <- cull_spec. congruence. }
    split; [split; [auto|]|]. { destruct (d (s_sim s)) eqn:D; auto. exfalso. auto. } intros f H1 H2 H3 H4. apply N. right. eauto 6.
  - intros [[G D] H]. split; auto. destruct (cull now mine d (fail_o st) (s_sim s)) eqn:C; auto. apply cull_spec in C. destruct C as [C|(f & H1 & H2 & H3 & H4)]; [congruence|]. exfalso. eapply H; eauto.
Qed.
Lemma commit_best now mine sm d st :
  (forall s, In s (fail_m st) -> usable d s -> ~ damaging now mine s) ->
  (forall s, In s (good_o st) -> is_number (score now sm s)) ->
  (exists s, In s (good_o st) /\ usable d s /\ harmless now mine st s) ->
  exists b, snd (commit now mine sm d st) = b :: good_m st /\ In b (good_o st) /\ usable d b /\ harmless now mine st b /\
    forall s, In s (good_o st) -> usable d s -> harmless now mine st s -> flt (score now sm b) (score now sm s) = false.
Proof.
  intros NC NUM (s0 & H0 & U0 & HL0). unfold commit.
  assert (C : caves now mine d st = false). { destruct (caves now mine d st) eqn:C; auto. apply caves_iff in C. destruct C as (s & H & U & D). exfalso. eapply NC; eauto. }
  rewrite C. pose proof (best_spec now sm (cull now mine d (fail_o st)) (good_o st) None (fun s H _ => NUM s H) Logic.I) as B.
  destruct (best now sm _ None (good_o st)) as [b|].
  - destruct B as ([B1|[B1 B2]] & _ & B3 & _); [discriminate|]. apply usable_cull in B2. destruct B2 as [B2 B4]. exists b. split; [reflexivity|]. split; auto. split; auto. split; auto.
    intros s H U HL. apply B3; auto. apply usable_cull. auto.
  - destruct B as [_ B]. exfalso. apply (B s0); auto. apply usable_cull. auto.
Qed.
Lemma commit_none now mine sm d st : (forall s, In s (good_o st) -> ~ (usable d s /\ harmless now mine st s)) -> snd (commit now mine sm d st) = [].
Proof.
  intro N. unfold commit. destruct (caves now mine d st); [reflexivity|].
  assert (X : forall l, (forall s, In s l -> ~ usable (cull now mine d (fail_o st)) s) -> best now sm (cull now mine d (fail_o st)) None l = None).
  { induction l as [|x l IH]; intro H; cbn; [reflexivity|]. assert (Ux := H x (or_introl eq_refl)). unfold usable in Ux.
    destruct (s_gone x); [apply IH; intros; apply H; right; auto|]. destruct (cull now mine d (fail_o st) (s_sim x)); [apply IH; intros; apply H; right; auto|]. exfalso. auto. }
  rewrite X; [reflexivity|]. intros s H U. apply usable_cull in U. eapply N; eauto.
Qed.

(** *** Refutations *)
Definition half : spec_float := S754_finite false 8388608 (-24).
Definition nothing_dead : dead := fun _ => false.
Lemma mandatory_not_committed : exists now mine sm d st, fail_m st = [] /\ fail_o st = [] /\ good_m st <> [] /\ (forall s, In s (good_m st) -> usable d s) /\ snd (commit now mine sm d st) = [].
Proof.
  exists 0, (fone, 100), (fun _ => (fone, 100)), nothing_dead, (mkstored [] [] [mksol 0 false 0 (Some (fone, 50))] []).
  repeat split; try discriminate; auto; destruct H as [<-|[]]; reflexivity.
Qed.
(** A solution of confidence 0 that is due now is 0/0, not a number: it stays the best. *)
Lemma worst_chosen : exists now mine sm st b, fail_m st = [] /\ fail_o st = [] /\ good_m st = [] /\ (forall s, In s (good_o st) -> usable nothing_dead s) /\
  snd (commit now mine sm nothing_dead st) = [b] /\ fst (sm (s_sim b)) = S754_zero false /\
  exists s, In s (good_o st) /\ fst (sm (s_sim s)) = fone /\ now < snd (sm (s_sim s)).
Proof.
  exists 10, (fone, 100), (fun n => if Nat.eqb n 0 then (S754_zero false, 10) else (fone, 20)), (mkstored [] [] [] [mksol 0 false 0 None; mksol 1 false 1 None]), (mksol 0 false 0 None).
  repeat (split; [reflexivity|]). split; [intros s [<-|[<-|[]]]; split; reflexivity|]. split; [vm_compute; reflexivity|]. split; [reflexivity|].
  exists (mksol 1 false 1 None). split; [right; left; reflexivity|]. split; [reflexivity|]. cbn. lia.
Qed.
(** A mandatory solution whose simulation was already stopped is committed to. *)
Lemma dead_committed : exists now mine sm d st s, fail_m st = [] /\ fail_o st = [] /\ In s (snd (commit now mine sm d st)) /\ d (s_sim s) = true /\ s_gone s = true.
Proof.
  exists 0, (fone, 100), (fun _ => (fone, 100)), (fun n => Nat.eqb n 0), (mkstored [] [] [mksol 0 true 0 None] [mksol 1 false 1 None]), (mksol 0 true 0 None).
  repeat (split; [reflexivity|]). split; [vm_compute; auto|]. split; reflexivity.
Qed.

(** ** Simulated goals *)
Lemma cave_in_none now mine l : forall d, cave_in now mine d l = None <-> forall s, In s l -> d (s_sim s) = false -> ~ damaging now mine s.
Proof.
  induction l as [|x l IH]; intro d; cbn.
  - split; [intros _ s []|reflexivity].
  - destruct (d (s_sim x)) eqn:D; [|destruct (stronger now mine x) eqn:S1].
    + rewrite IH. split; intros H s; [intros [<-|Hs]; [congruence|auto]|auto].
    + split; [discriminate|]. intro H. exfalso. apply (H x); auto. apply stronger_iff. exact S1.
    + rewrite IH. split; intros H s; [intros [<-|Hs]; [rewrite <- stronger_iff; congruence|auto]|auto].
Qed.
Lemma scull_spec now mine l : forall d n, scull now mine d l n = true <-> d n = true \/ exists f, In f l /\ s_sim f = n /\ damaging now mine f.
Proof.
  induction l as [|x l IH]; intros d n; cbn.
  - split; [auto|intros [H|(f & [] & _)]; exact H].
  - destruct (d (s_sim x)) eqn:D; [|destruct (stronger now mine x) eqn:S1]; rewrite IH, ?kill_spec; split.
    + intros [H|(f & H & E)]; [auto|right; exists f; auto].
    + intros [H|(f & [<-|H] & <- & E)]; [auto|auto|right; exists f; auto].
    + intros [[->|H]|(f & H & E)]; [right; exists x; rewrite <- stronger_iff; auto|auto|right; exists f; auto].
    + intros [H|(f & [<-|H] & <- & E)]; [auto|auto|right; exists f; auto].
    + intros [H|(f & H & E)]; [auto|right; exists f; auto].
    + intros [H|(f & [<-|H] & <- & E)]; [auto|rewrite <- stronger_iff in E; congruence|right; exists f; auto].
Qed.
Lemma scommit_spec now mine d st : (forall s, In s (fail_m st) -> d (s_sim s) = false -> ~ damaging now mine s) ->
  forall n, scommit now mine d st n = true <-> d n = true \/ exists f, In f (fail_o st) /\ s_sim f = n /\ damaging now mine f.
Proof. intros H n. unfold scommit. apply cave_in_none in H. rewrite H. apply scull_spec. Qed.
(** One decision stops at most one simulation that is mandatory. *)
Lemma scommit_first now mine d st p s q : fail_m st = p ++ s :: q -> (forall x, In x p -> d (s_sim x) = false -> ~ damaging now mine x) -> d (s_sim s) = false -> damaging now mine s ->
  forall n, scommit now mine d st n = true <-> n = s_sim s \/ d n = true.
Proof.
  intros E P A D n. unfold scommit. rewrite E. clear E. assert (X : cave_in now mine d (p ++ s :: q) = Some (kill d (s_sim s))).
  { induction p as [|x p IH]; cbn.
    - rewrite A. apply stronger_iff in D. rewrite D. reflexivity.
    - destruct (d (s_sim x)) eqn:Dx; [apply IH; intros; apply P; auto; right; auto|]. destruct (stronger now mine x) eqn:S1; [|apply IH; intros; apply P; auto; right; auto].
      exfalso. apply (P x); auto. left; auto. apply stronger_iff; auto. }
  rewrite X. apply kill_spec.
Qed.
Lemma damage_left : exists now mine d st s, In s (fail_o st) /\ d (s_sim s) = false /\ damaging now mine s /\ scommit now mine d st (s_sim s) = false.
Proof.
  exists 0, (fone, 100), nothing_dead, (mkstored [mksol 0 false 0 (Some (fone, 10))] [mksol 1 false 1 (Some (fone, 10))] [] []), (mksol 1 false 1 (Some (fone, 10))).
  split; [left; reflexivity|]. split; [reflexivity|]. split; [|vm_compute; reflexivity]. eexists. split; [reflexivity|]. vm_compute. reflexivity.
Qed.
(** A simulated requirement decides twice. *)
Lemma decides_twice : exists now mine st n, let s := mksr nothing_dead false true in
  sr_dead (sr_update now mine st s) n = false /\ sr_dead (sr_horizon now mine st s) n = true.
Proof.
  exists 0, (fone, 100), (mkstored [mksol 0 false 0 (Some (fone, 10)); mksol 1 false 1 (Some (fone, 10))] [] [] []), 1%nat. split; vm_compute; reflexivity.
Qed.
Lemma sr_removed now mine st s : sr_invalid s = false -> sr_listed (sr_horizon now mine st s) = false /\
  forall n, sr_dead (sr_horizon now mine st s) n = scommit now mine (scommit now mine (sr_dead s) st) st n.
Proof. intro H. destruct s as [d v l]. cbn in H. subst v. split; reflexivity. Qed.
Lemma sr_once now mine st s : sr_invalid s = false -> (forall x, In x (fail_m st) -> sr_dead s (s_sim x) = false -> ~ damaging now mine x) ->
  forall n, sr_dead (sr_horizon now mine st s) n = sr_dead (sr_update now mine st s) n.
Proof.
  intros H N n. destruct s as [d v l]. cbn in H, N. subst v. cbn.
  assert (X : forall s, In s (fail_m st) -> scommit now mine d st (s_sim s) = false -> ~ damaging now mine s).
  { intros s Hs E. apply N; auto. destruct (d (s_sim s)) eqn:D; auto. assert (scommit now mine d st (s_sim s) = true) by (apply scommit_spec; auto). congruence. }
  apply eq_true_iff_eq. rewrite scommit_spec; auto. rewrite (scommit_spec now mine d st N n). tauto.
Qed.
Lemma sr_stays now mine st s : sr_invalid s = true -> sr_horizon now mine st s = s.
Proof. intro H. unfold sr_horizon. rewrite H. rewrite H. reflexivity. Qed.
