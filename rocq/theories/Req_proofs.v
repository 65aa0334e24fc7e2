(** Proofs about requirement look-ups. *)
From Verif Require Import Base Req_model Req_spec CellList_model.
From Coq Require Import SpecFloat.

Section Proofs.
Context {B : Type} (strict lenient : Z -> option B) (clash : Z -> Z -> bool) (dead sim defeasible : Z -> bool).
Notation old := (too_old dead).
Local Notation weak_at := (Req_spec.weak_at strict dead).
Local Notation strong_at := (Req_spec.strong_at lenient dead).
Local Notation weak_sim := (Req_spec.weak_sim strict dead sim).
Local Notation strong_sim := (Req_spec.strong_sim lenient dead sim).
Local Notation bok := (Req_spec.bok sim).
Local Notation bwin := (Req_spec.bwin clash).
Local Notation weak_b := (Req_spec.weak_b strict dead sim).
Local Notation strong_b := (Req_spec.strong_b lenient dead sim).
Local Notation weak_c := (Req_spec.weak_c strict clash dead sim).
Local Notation strong_s := (Req_spec.strong_s lenient dead sim).
Lemma old_usable now e : old now e = false <-> usable dead now e.
Proof.
  unfold too_old, usable. rewrite orb_false_iff. destruct (after e =? before e) eqn:Q; [apply Z.eqb_eq in Q; rewrite Z.ltb_ge|apply Z.eqb_neq in Q; rewrite Z.leb_gt]; intuition lia.
Qed.
Lemma current_range now e : current now e = true <-> in_range now e.
Proof. unfold current, out_of_range, in_range. rewrite negb_true_iff, orb_false_iff, !Z.ltb_ge. lia. Qed.
Definition keep now l := filter (fun e => negb (old now e)) l.
Lemma keep_in now l e : In e (keep now l) <-> In e l /\ usable dead now e.
Proof. unfold keep. rewrite filter_In, negb_true_iff, old_usable. tauto. Qed.
Definition some {A} (x : option A) : bool := match x with Some _ => true | None => false end.
Lemma some_iff {A} (x : option A) : some x = true <-> x <> None.
Proof. destruct x; cbn; split; congruence. Qed.
(** The entries that pass, as a list. *)
Definition passing now (ok : entry -> bool) (m : Z -> option B) l := filter (fun e => negb (old now e) && ok e && some (m (ev e))) l.
Lemma passing_in now ok (P : entry -> Prop) m l e : (forall x, ok x = true <-> P x) -> In e (passing now ok m l) <-> candidate dead now P m l e.
Proof. intros H. unfold passing, candidate. rewrite filter_In, !andb_true_iff, negb_true_iff, old_usable, H, some_iff. tauto. Qed.
Lemma passing_nil now ok (P : entry -> Prop) m l : (forall x, ok x = true <-> P x) -> passing now ok m l = [] <-> forall e, ~ candidate dead now P m l e.
Proof.
  intros H. split.
  - intros Z0 e C. apply (passing_in now ok P m l e H) in C. rewrite Z0 in C. exact C.
  - intros N. destruct (passing now ok m l) as [|e r] eqn:Q; [reflexivity|]. exfalso. apply (N e). apply (passing_in now ok P m l e H). rewrite Q. left. reflexivity.
Qed.
Lemma first_match_ok (m : Z -> option B) visit now l l' a : first_match dead m visit now l = (l', a) ->
  (forall e, In e l' -> In e l) /\ (forall e, In e l -> usable dead now e -> In e l') /\
  match a with
  | None => forall e, ~ candidate dead now (fun e => visit e = true) m l e
  | Some (e, b) => m (ev e) = Some b /\ youngest (fun e => usable dead now e /\ visit e = true /\ m (ev e) <> None) l e
  end.
Proof.
  revert l' a. induction l as [|x l IH]; intros l' a; cbn; [intros H; injection H as <- <-; repeat split; auto; intros e (I & _); exact I|].
  destruct (old now x) eqn:O.
  - intros H. destruct (IH _ _ H) as (A & C & D). assert (NU : ~ usable dead now x) by (rewrite <- old_usable; congruence). repeat split.
    + intros e I. right. auto.
    + intros e [<-|I] U; [contradiction|auto].
    + destruct a as [(e & b)|].
      * destruct D as (D & l1 & l2 & -> & P & Q). split; [exact D|]. exists (x :: l1), l2. split; [reflexivity|]. split; [exact P|]. intros z [<-|I]; [tauto|auto].
      * intros e ([<-|I] & U & K); [tauto|]. apply (D e). split; auto.
  - apply old_usable in O. destruct (if visit x then m (ev x) else None) as [b|] eqn:M.
    + intros H. injection H as <- <-. repeat split; auto. destruct (visit x) eqn:V; [|discriminate]. exact M. destruct (visit x) eqn:V; [|discriminate]. exists [], l. split; [reflexivity|]. split; [split; [exact O|]; split; [exact V|congruence]|]. intros z [].
    + destruct (first_match dead m visit now l) as [l2 a2]. intros H. injection H as <- <-. destruct (IH _ _ eq_refl) as (A & C & D). assert (NX : ~ (visit x = true /\ m (ev x) <> None)) by (intros (V & N); rewrite V in M; contradiction). repeat split.
      * intros e [<-|I]; [left; reflexivity|right; auto].
      * intros e [<-|I] U; [left; reflexivity|right; auto].
      * destruct a2 as [(e & b)|].
        -- destruct D as (D & l1 & l3 & -> & P & Q). split; [exact D|]. exists (x :: l1), l3. split; [reflexivity|]. split; [exact P|]. intros z [<-|I]; [tauto|auto].
        -- intros e ([<-|I] & U & K); [tauto|]. apply (D e). split; auto.
Qed.
Definition result_of (e : entry) : list (B * option Z) := match strict (ev e) with Some b => [(b, Some (ev e))] | None => [] end.
Lemma weak_all_ok visit gate now l : forall r res q l' r' res' q', weak_all strict dead visit gate now l r res q = (l', r', res', q') ->
  l' = keep now l /\ r' = (if existsb (fun _ => true) (passing now (fun e => visit e && gate e) strict l) then WeakEnabled else r) /\ res' = res ++ flat_map result_of (passing now (fun e => visit e && gate e) strict l) /\
  q_ctrls q' = rev (map ctrl (passing now visit strict l)) ++ q_ctrls q.
Proof.
  induction l as [|x l IH]; intros r res q l' r' res' q'; cbn; [intros H; injection H as <- <- <- <-; rewrite app_nil_r; auto|].
  destruct (old now x) eqn:O; [cbn; apply IH|]. cbn.
  assert (skip : (let '(l2, r0, res0, q0) := weak_all strict dead visit gate now l r res q in (x :: l2, r0, res0, q0)) = (l', r', res', q') -> 
    exists l2, l' = x :: l2 /\ weak_all strict dead visit gate now l r res q = (l2, r', res', q')).
  { destruct (weak_all strict dead visit gate now l r res q) as [[[l2 r2] res2] q2]. intros H. injection H as <- <- <- <-. eauto. }
  destruct (visit x) eqn:V; cbn; [|intros H; destruct (skip H) as (l2 & -> & K); destruct (IH _ _ _ _ _ _ _ K) as (-> & R); auto].
  destruct (strict (ev x)) as [b|] eqn:M; cbn.
  - destruct (gate x) eqn:G; cbn.
    + destruct (weak_all strict dead visit gate now l WeakEnabled (res ++ [(b, Some (ev x))]) (note q x)) as [[[l2 r2] res2] q2] eqn:K. intros H. injection H as <- <- <- <-. destruct (IH _ _ _ _ _ _ _ K) as (-> & -> & -> & ->). split; [reflexivity|]. split; [destruct (existsb _ _); reflexivity|]. split; [unfold result_of at 2; rewrite M, <- app_assoc; reflexivity|]. cbn. rewrite <- app_assoc. reflexivity.
    + destruct (weak_all strict dead visit gate now l r res (note q x)) as [[[l2 r2] res2] q2] eqn:K. intros H. injection H as <- <- <- <-. destruct (IH _ _ _ _ _ _ _ K) as (-> & -> & -> & ->). split; [reflexivity|]. split; [reflexivity|]. split; [reflexivity|]. cbn. rewrite <- app_assoc. reflexivity.
  - rewrite andb_false_r. intros H. destruct (skip H) as (l2 & -> & K). destruct (IH _ _ _ _ _ _ _ K) as (-> & R). auto.
Qed.
Lemma strong_all_ok now l : forall a q l' a' q', strong_all lenient dead now l a q = (l', a', q') ->
  l' = keep now l /\ q_ctrls q' = rev (map ctrl (passing now (current now) lenient l)) ++ q_ctrls q /\
  match a with Some _ => a' = a | None =>
    match a' with None => forall e, ~ candidate dead now (fun e => in_range now e /\ allowed e = true) lenient l e
    | Some (e, b) => lenient (ev e) = Some b /\ youngest (fun e => usable dead now e /\ (in_range now e /\ allowed e = true) /\ lenient (ev e) <> None) l e end end.
Proof.
  induction l as [|x l IH]; intros a q l' a' q'; cbn; [intros H; injection H as <- <- <-; destruct a; repeat split; auto; intros e (I & _); exact I|].
  assert (none : (forall e, ~ candidate dead now (fun e => in_range now e /\ allowed e = true) lenient l e) -> ~ (usable dead now x /\ (in_range now x /\ allowed x = true) /\ lenient (ev x) <> None) ->
    forall e, ~ candidate dead now (fun e => in_range now e /\ allowed e = true) lenient (x :: l) e) by (intros N NX e ([<-|I] & K); [tauto|apply (N e); split; auto]).
  assert (more : forall e, youngest (fun e => usable dead now e /\ (in_range now e /\ allowed e = true) /\ lenient (ev e) <> None) l e -> ~ (usable dead now x /\ (in_range now x /\ allowed x = true) /\ lenient (ev x) <> None) ->
    youngest (fun e => usable dead now e /\ (in_range now e /\ allowed e = true) /\ lenient (ev e) <> None) (x :: l) e) by (intros e (l1 & l2 & -> & P & Q) NX; exists (x :: l1), l2; split; [reflexivity|]; split; [exact P|]; intros z [<-|I]; auto).
  assert (lift : forall a2, match a2 with None => forall e, ~ candidate dead now (fun e => in_range now e /\ allowed e = true) lenient l e
      | Some (e, b) => lenient (ev e) = Some b /\ youngest (fun e => usable dead now e /\ (in_range now e /\ allowed e = true) /\ lenient (ev e) <> None) l e end -> ~ (usable dead now x /\ (in_range now x /\ allowed x = true) /\ lenient (ev x) <> None) ->
    match a2 with None => forall e, ~ candidate dead now (fun e => in_range now e /\ allowed e = true) lenient (x :: l) e
      | Some (e, b) => lenient (ev e) = Some b /\ youngest (fun e => usable dead now e /\ (in_range now e /\ allowed e = true) /\ lenient (ev e) <> None) (x :: l) e end).
  { intros [(e & b)|] H NX; [destruct H as (H1 & H2); split; [exact H1|apply more; assumption]|apply none; assumption]. }
  destruct (old now x) eqn:O.
  - cbn. intros H. destruct (IH _ _ _ _ _ H) as (A & C & D). split; [exact A|]. split; [exact C|]. destruct a; [exact D|]. apply lift; [exact D|]. intros (U & _). apply old_usable in U. congruence.
  - cbn. apply old_usable in O. destruct (current now x) eqn:V; cbn.
    + apply current_range in V. destruct (lenient (ev x)) as [b|] eqn:M; cbn.
      * destruct (strong_all lenient dead now l (match a with None => if allowed x then Some (x, b) else None | a => a end) (note q x)) as [[l2 a2] q2] eqn:K. intros H. injection H as <- <- <-. destruct (IH _ _ _ _ _ K) as (-> & C & D). split; [reflexivity|]. split; [rewrite C; cbn; rewrite <- app_assoc; reflexivity|].
        destruct a as [s|]; [exact D|]. destruct (allowed x) eqn:AL.
        -- subst a2. split; [exact M|]. exists [], l. split; [reflexivity|]. split; [split; [exact O|]; split; [auto|congruence]|]. intros z [].
        -- apply lift; [exact D|]. intros (_ & (_ & X) & _). congruence.
      * destruct (strong_all lenient dead now l a q) as [[l2 a2] q2] eqn:K. intros H. injection H as <- <- <-. destruct (IH _ _ _ _ _ K) as (-> & C & D). split; [reflexivity|]. split; [exact C|]. destruct a; [exact D|]. apply lift; [exact D|]. intros (_ & _ & X). congruence.
    + destruct (strong_all lenient dead now l a q) as [[l2 a2] q2] eqn:K. intros H. injection H as <- <- <-. destruct (IH _ _ _ _ _ K) as (-> & C & D). split; [reflexivity|]. split; [exact C|]. destruct a; [exact D|]. apply lift; [exact D|]. intros (_ & (X & _) & _). apply current_range in X. congruence.
Qed.
Definition good (strong : option (entry * B)) (e : entry) : bool := negb (clashes clash strong e) || stronger strong e.
Lemma mixed_fwd_ok visit gate strong now l : forall c l' c', mixed_fwd strict clash dead visit gate strong now l c = (l', c') ->
  let W := passing now (fun e => visit e && gate e) strict l in
  l' = keep now l /\
  c_r c' = (if is_enabled (c_r c) || existsb (good strong) W then WeakEnabled else match W with [] => c_r c | _ => StrongDisabledWeak end) /\
  c_res c' = c_res c ++ flat_map result_of (filter (good strong) W) /\
  (c_wr c' = true -> c_wr c = true \/ exists e, In e W /\ good strong e = true /\ clashes clash strong e = true) /\
  (c_ground c' = c_ground c \/ exists e, In e W /\ good strong e = false /\ c_ground c' = Some (ev e)) /\
  q_ctrls (c_q c') = rev (map ctrl (passing now visit strict l)) ++ q_ctrls (c_q c).
Proof.
  induction l as [|x l IH]; intros c l' c'; cbn; [intros H; injection H as <- <-; rewrite orb_false_r, app_nil_r; destruct (c_r c); auto 10|].
  destruct (old now x) eqn:O; [cbn; apply IH|]. cbn.
  destruct (visit x) eqn:V; cbn; [|destruct (mixed_fwd strict clash dead visit gate strong now l c) as [l2 c2] eqn:K; intros H; injection H as <- <-; destruct (IH _ _ _ K) as (-> & R); auto].
  destruct (strict (ev x)) as [b|] eqn:M; cbn; [|rewrite andb_false_r; destruct (mixed_fwd strict clash dead visit gate strong now l c) as [l2 c2] eqn:K; intros H; injection H as <- <-; destruct (IH _ _ _ K) as (-> & R); auto].
  destruct (gate x) eqn:G; cbn.
  2:{ destruct (mixed_fwd strict clash dead visit gate strong now l (mkscan (c_r c) (c_res c) (c_ground c) (c_wr c) (note (c_q c) x))) as [l2 c2] eqn:K; intros H; injection H as <- <-; destruct (IH _ _ _ K) as (-> & R1 & R2 & R3 & R4 & R5). cbn in *. repeat split; auto. rewrite R5, <- app_assoc. reflexivity. }
  fold (good strong x). destruct (good strong x) eqn:GX.
  - destruct (mixed_fwd strict clash dead visit gate strong now l (mkscan WeakEnabled (c_res c ++ [(b, Some (ev x))]) (c_ground c) (clashes clash strong x) (note (c_q c) x))) as [l2 c2] eqn:K. intros H; injection H as <- <-. destruct (IH _ _ _ K) as (-> & R1 & R2 & R3 & R4 & R5). cbn in *. rewrite orb_true_r. repeat split.
    + exact R1.
    + rewrite R2. unfold result_of at 2. rewrite M, <- app_assoc. reflexivity.
    + intros T. right. destruct (R3 T) as [C|(e & I & C)]; [exists x; auto|exists e; auto].
    + destruct R4 as [R4|(e & I & C)]; [auto|right; exists e; auto].
    + rewrite R5, <- app_assoc. reflexivity.
  - destruct (is_enabled (c_r c)) eqn:EN.
    + destruct (mixed_fwd strict clash dead visit gate strong now l (mkscan (c_r c) (c_res c) (c_ground c) (c_wr c) (note (c_q c) x))) as [l2 c2] eqn:K; intros H; injection H as <- <-; destruct (IH _ _ _ K) as (-> & R1 & R2 & R3 & R4 & R5). cbn in *. rewrite EN in R1. repeat split; auto.
      * intros T. destruct (R3 T) as [C|(e & I & C)]; [auto|right; exists e; auto].
      * destruct R4 as [R4|(e & I & C)]; [auto|right; exists e; auto].
      * rewrite R5, <- app_assoc. reflexivity.
    + destruct (mixed_fwd strict clash dead visit gate strong now l (mkscan StrongDisabledWeak (c_res c) (Some (ev x)) false (note (c_q c) x))) as [l2 c2] eqn:K; intros H; injection H as <- <-; destruct (IH _ _ _ K) as (-> & R1 & R2 & R3 & R4 & R5). cbn in *. repeat split; auto.
      * rewrite R1. destruct (existsb _ _); [reflexivity|]. destruct (passing now (fun e => visit e && gate e) strict l); reflexivity.
      * intros T. destruct (R3 T) as [C|(e & I & C)]; [discriminate|right; exists e; auto].
      * right. destruct R4 as [R4|(e & I & C)]; [exists x; auto|exists e; auto].
      * rewrite R5, <- app_assoc. reflexivity.
Qed.

(** *** Decisions *)
Lemma youngest_unique (P : entry -> Prop) l a b : youngest P l a -> youngest P l b -> a = b.
Proof.
  induction l as [|x l IH]; intros (l1 & l2 & E1 & P1 & N1) (l3 & l4 & E2 & P2 & N2); [destruct l1; discriminate|].
  destruct l1 as [|y l1], l3 as [|z l3]; cbn in E1, E2; injection E1 as -> E1; injection E2 as E2' E2; subst.
  - reflexivity.
  - exfalso. eapply N2; [left; reflexivity|exact P1].
  - exfalso. eapply N1; [left; reflexivity|exact P2].
  - apply IH; [exists l1, l2|exists l3, l4]; (split; [auto|split; [auto|intros x I; solve [apply N1; right; exact I|apply N2; right; exact I]]]).
Qed.
Lemma youngest_in (P : entry -> Prop) l a : youngest P l a -> In a l /\ P a.
Proof. intros (l1 & l2 & -> & H & _). split; [apply in_or_app; right; left; reflexivity|exact H]. Qed.
Lemma youngest_none (P : entry -> Prop) l : (forall e, ~ (In e l /\ P e)) -> forall e, ~ youngest P l e.
Proof. intros N e Y. apply (N e). apply youngest_in. exact Y. Qed.
Lemma find_youngest p q l e : find p (filter q l) = Some e -> youngest (fun e => q e = true /\ p e = true) l e.
Proof.
  induction l as [|x l IH]; cbn; [discriminate|]. assert (up : ~ (q x = true /\ p x = true) -> youngest (fun e => q e = true /\ p e = true) l e -> youngest (fun e => q e = true /\ p e = true) (x :: l) e).
  { intros NX (l1 & l2 & -> & P & N). exists (x :: l1), l2. split; [reflexivity|]. split; [exact P|]. intros z [<-|I]; auto. }
  destruct (q x) eqn:Q; cbn; [destruct (p x) eqn:PX|].
  - intros H. injection H as <-. exists [], l. split; [reflexivity|]. split; [auto|intros z []].
  - intros H. apply up; [intros (_ & X); congruence|auto].
  - intros H. apply up; [intros (X & _); congruence|auto].
Qed.
Lemma youngest_ext (P Q : entry -> Prop) l e : (forall x, P x <-> Q x) -> youngest P l e -> youngest Q l e.
Proof. intros H (l1 & l2 & A & C & D). exists l1, l2. split; [exact A|]. split; [apply H, C|]. intros x I K. apply (D x I), H, K. Qed.

(** The strong requirement found, [strong], is the one [S] describes. *)
Definition found (S : entry -> Prop) (strong : option (entry * B)) : Prop :=
  match strong with None => forall e, ~ S e | Some (s, b) => lenient (ev s) = Some b /\ forall e, S e <-> e = s end.
Lemma found_of (P : entry -> Prop) l (a : option (entry * B)) :
  match a with None => forall e, ~ (In e l /\ P e) | Some (e, b) => lenient (ev e) = Some b /\ youngest P l e end -> found (youngest P l) a.
Proof.
  destruct a as [(s & b)|]; cbn; [intros (M & Y); split; [exact M|]; intros e; split; [intros Y2; eapply youngest_unique; eassumption|intros ->; exact Y]|apply youngest_none].
Qed.
Lemma good_wins S strong w : found S strong -> good strong w = true <-> forall s, S s -> wins clash s w.
Proof.
  unfold good, wins. destruct strong as [(s & b)|]; cbn; [|intros N; split; [intros _ s K; destruct (N s K)|reflexivity]].
  intros (_ & U). rewrite orb_true_iff, negb_true_iff. split; [intros H e E; apply U in E; subst; exact H|intros H; apply H, U; reflexivity].
Qed.
Lemma verdict_determined W S win strong r1 r2 : found S strong -> verdict W S win r1 -> verdict W S win r2 -> r1 = r2.
Proof.
  intros F. assert (un : forall a b, S a -> S b -> a = b).
  { destruct strong as [(s & b)|]; cbn in F; [destruct F as (_ & U); intros x y X Y; apply U in X, Y; congruence|intros x y X; destruct (F x X)]. }
  destruct r1, r2; cbn; try reflexivity; try contradiction.
  - intros (N & _) (s & X & _). destruct (N s X).
  - intros (N & _) (s & X & _). destruct (N s X).
  - intros (_ & N) (w & X & _). destruct (N w X).
  - intros (s & X & _) (N & _). destruct (N s X).
  - intros (s & X & N) (t & Y & (w & Z0) & _). destruct (N w Z0).
  - intros (s & X & N) (w & Y & _). destruct (N w Y).
  - intros (s & X & _) (N & _). destruct (N s X).
  - intros (s & X & (w & Y) & _) (t & Z0 & N). destruct (N w Y).
  - intros (s & X & _ & N) (w & Y & Z0). destruct (N w Y (Z0 s X)).
  - intros (w & Y & _) (_ & N). destruct (N w Y).
  - intros (w & Y & _) (s & X & N). destruct (N w Y).
  - intros (w & Y & Z0) (s & X & _ & N). destruct (N w Y (Z0 s X)).
Qed.
Lemma decide W S (Wl : list entry) strong (win : entry -> entry -> Prop) (winb : entry -> bool) : found S strong -> (forall w, In w Wl <-> W w) -> (forall w, winb w = true <-> forall s, S s -> win s w) ->
  verdict W S win (if existsb winb Wl then WeakEnabled else match Wl with [] => c_r (start strong) | _ => StrongDisabledWeak end).
Proof.
  intros F IW G. destruct (existsb winb Wl) eqn:X; cbn.
  - apply existsb_exists in X. destruct X as (w & I & H). exists w. split; [apply IW, I|apply G, H].
  - assert (NG : forall w, W w -> winb w = false).
    { intros w I. apply IW in I. destruct (winb w) eqn:Q; [|reflexivity]. assert (existsb winb Wl = true) by (apply existsb_exists; eauto). congruence. }
    destruct Wl as [|w0 Wl].
    + assert (NW : forall w, ~ W w) by (intros w I; apply IW in I; exact I). destruct strong as [(s & b)|]; cbn.
      * exists s. split; [apply F; reflexivity|exact NW].
      * split; [exact F|exact NW].
    + assert (I0 : W w0) by (apply IW; left; reflexivity). destruct strong as [(s & b)|]; cbn.
      * exists s. split; [apply F; reflexivity|]. split; [exists w0; exact I0|]. intros w I K. assert (winb w = true); [|rewrite (NG w I) in *; discriminate]. apply G. intros t T. apply F in T. subst. exact K.
      * specialize (NG w0 I0). assert (winb w0 = true); [|congruence]. apply G. intros s K. destruct (F s K).
Qed.
Lemma in_results Wl p b g : In (b, g) (flat_map result_of (filter p Wl)) <-> exists w, In w Wl /\ p w = true /\ g = Some (ev w) /\ strict (ev w) = Some b.
Proof.
  rewrite in_flat_map. split.
  - intros (w & I & H). apply filter_In in I. destruct I as (I & P). unfold result_of in H. destruct (strict (ev w)) as [b2|] eqn:M; cbn in H; [|contradiction]. destruct H as [H|[]]. injection H as <- <-. eauto.
  - intros (w & I & P & -> & M). exists w. split; [apply filter_In; auto|]. unfold result_of. rewrite M. left. reflexivity.
Qed.
(** The mixed case, forward. *)
Lemma mixed_fwd_decides visit gate (ok : entry -> Prop) S strong now l l' c : found S strong -> (forall x, visit x && gate x = true <-> ok x) ->
  mixed_fwd strict clash dead visit gate strong now l (start strong) = (l', c) ->
  let W := candidate dead now ok strict l in
  (forall st, c_r c = st <-> verdict W S (wins clash) st) /\ right_results strict lenient W S (wins clash) (c_r c) (strong_result c strong) /\
  (c_wr c = true -> exists w s, W w /\ S s /\ clash (ev w) (ev s) = true /\ SFltb (cfd s) (cfd w) = true).
Proof.
  intros F OK H W. destruct (mixed_fwd_ok _ _ _ _ _ _ _ _ H) as (-> & R1 & R2 & R3 & R4 & R5). set (Wl := passing now (fun e => visit e && gate e) strict l) in *.
  assert (IW : forall w, In w Wl <-> W w) by (intros w; apply passing_in, OK).
  assert (EN : is_enabled (c_r (start strong)) = false) by (destruct strong; reflexivity). rewrite EN in R1. cbn [orb] in R1.
  assert (V : verdict W S (wins clash) (c_r c)) by (rewrite R1; apply decide; auto; intros w; apply good_wins, F).
  assert (D : forall w, good strong w = true <-> forall s, S s -> wins clash s w) by (intros w; apply good_wins, F).
  split; [intros st; split; [intros <-; exact V|intros V2; eapply verdict_determined; eassumption]|]. split.
  - cbn [c_res start app] in R2. unfold strong_result. destruct (existsb (good strong) Wl) eqn:X.
    + rewrite R1. cbn. rewrite R2. intros b g. rewrite in_results. split; intros (w & A & C & E & G); exists w; [rewrite IW in A; rewrite D in C|rewrite IW; rewrite D]; auto.
    + assert (NG : filter (good strong) Wl = []).
      { destruct (filter (good strong) Wl) as [|w r] eqn:Q; [reflexivity|]. assert (I : In w (filter (good strong) Wl)) by (rewrite Q; left; reflexivity). apply filter_In in I. assert (existsb (good strong) Wl = true) by (apply existsb_exists; exists w; exact I). congruence. }
      rewrite NG in R2. cbn in R2. rewrite R1, R2. destruct Wl as [|w0 Wl'] eqn:WL.
      * destruct strong as [(s & b)|]; cbn; [|reflexivity]. exists s, b. destruct F as (M & U). split; [apply U; reflexivity|]. split; [exact M|]. destruct R4 as [R4|(e & [] & _)]. rewrite R4. reflexivity.
      * destruct strong as [(s & b)|]; cbn.
        2:{ cbn in X. unfold good, clashes in X. cbn in X. discriminate. }
        destruct F as (M & U). destruct R4 as [R4|(e & I & _ & R4)].
        -- exfalso. clear - H R4 R1 WL X. 
           assert (K : forall l c l' c', mixed_fwd strict clash dead visit gate (Some (s, b)) now l c = (l', c') -> c_r c' = StrongDisabledWeak -> c_r c = StrongDisabledWeak \/ c_ground c' <> None).
           { clear. induction l as [|x l IH]; intros c l' c'; cbn; [intros H; injection H as <- <-; auto|]. destruct (old now x); [apply IH|].
             match goal with |- context [mixed_fwd _ _ _ _ _ _ _ l ?c0] => destruct (mixed_fwd strict clash dead visit gate (Some (s, b)) now l c0) as [l2 c2] eqn:K; intros H; injection H as <- <-; intros R; destruct (IH _ _ _ K R) as [Q|Q]; [|auto] end.
             destruct (visit x); [|auto]. destruct (strict (ev x)); [|auto]. destruct (gate x); [|auto]. destruct (negb _ || _); [discriminate|]. destruct (is_enabled (c_r c)) eqn:E; [auto|]. cbn in Q. right.
             assert (G : forall l c l' c', mixed_fwd strict clash dead visit gate (Some (s, b)) now l c = (l', c') -> c_ground c <> None -> c_ground c' <> None).
             { clear. induction l as [|x l IH]; intros c l' c'; cbn; [intros H; injection H as <- <-; auto|]. destruct (old now x); [apply IH|].
               match goal with |- context [mixed_fwd _ _ _ _ _ _ _ l ?c0] => destruct (mixed_fwd strict clash dead visit gate (Some (s, b)) now l c0) as [l2 c2] eqn:K; intros H; injection H as <- <-; intros R; apply (IH _ _ _ K) end.
               destruct (visit x); [|auto]. destruct (strict (ev x)); [|auto]. destruct (gate x); [|auto]. destruct (negb _ || _); [auto|]. destruct (is_enabled (c_r c)) eqn:E; [auto|]. cbn. discriminate. }
             eapply G; [exact K|]. cbn. discriminate. }
           destruct (K _ _ _ _ H R1) as [Q|Q]; [discriminate|]. rewrite R4 in Q. cbn in Q. congruence.
        -- exists s, e, b. split; [apply U; reflexivity|]. split; [apply IW; exact I|]. split; [exact M|]. rewrite R4. reflexivity.
  - intros T. destruct (R3 T) as [Q|(e & I & G & C)]; [destruct strong; discriminate|]. destruct strong as [(s & b)|]; [|discriminate]. exists e, s. destruct F as (M & U). split; [apply IW; exact I|]. split; [apply U; reflexivity|]. cbn in C. split; [exact C|]. unfold good in G. cbn in G. rewrite C in G. exact G.
Qed.
Lemma retained_keep now l : retained dead now l (keep now l).
Proof. split; intros e I; [apply keep_in in I; tauto|intros U; apply keep_in; auto]. Qed.
Lemma retained_refl now l : retained dead now l l.
Proof. split; auto. Qed.
Lemma ok_current now x : current now x && allowed x = true <-> in_range now x /\ allowed x = true.
Proof. rewrite andb_true_iff, current_range. tauto. Qed.
Lemma credited now visit (ok : entry -> Prop) (m : Z -> option B) l c : (forall x, visit x = true <-> ok x) ->
  In c (rev (map ctrl (passing now visit m l)) ++ []) <-> exists e, candidate dead now ok m l e /\ ctrl e = c.
Proof.
  intros H. rewrite app_nil_r, <- in_rev, in_map_iff. split; intros (e & A & C); exists e; [rewrite passing_in in C by exact H|rewrite passing_in by exact H]; auto.
Qed.
Lemma strong_all_found now l l' a q : strong_all lenient dead now l None no_reqs = (l', a, q) -> l' = keep now l /\ found (strong_at now l) a /\ forall c, In c (q_ctrls q) <-> exists e, candidate dead now (in_range now) lenient l e /\ ctrl e = c.
Proof.
  intros H. destruct (strong_all_ok _ _ _ _ _ _ _ H) as (A & C & D). split; [exact A|]. split.
  - apply found_of. destruct a as [(e & b)|]; [exact D|]. intros e (I & K). apply (D e). split; [exact I|]. tauto.
  - intros c. rewrite C. apply credited. intros x. apply current_range.
Qed.
Theorem fwd_none wr sr now k : exists o, retrieve_imdl_fwd strict lenient clash dead 0 wr sr now k = Some (k, o) /\ l_status o = NoRequirement /\ l_results o = [].
Proof. eexists. split; [reflexivity|]. split; reflexivity. Qed.
Lemma nonempty {A} (l : list A) : existsb (fun _ => true) l = true <-> exists x, In x l.
Proof. rewrite existsb_exists. split; intros (x & H); exists x; tauto. Qed.
(** Weak requirements only: as a verdict without a strong requirement. *)
Lemma weak_only visit gate (ok : entry -> Prop) now l l' st res q : (forall x, visit x && gate x = true <-> ok x) -> weak_all strict dead visit gate now l WeakDisabled [] no_reqs = (l', st, res, q) ->
  let W := candidate dead now ok strict l in
  (forall r, st = r <-> verdict W (fun _ => False) (wins clash) r) /\ right_results strict lenient W (fun _ => False) (wins clash) st res /\ l' = keep now l /\
  (forall c, In c (q_ctrls q) <-> exists e, candidate dead now (fun e => visit e = true) strict l e /\ ctrl e = c).
Proof.
  intros OK H W. destruct (weak_all_ok _ _ _ _ _ _ _ _ _ _ _ H) as (-> & R1 & R2 & R3). set (Wl := passing now (fun e => visit e && gate e) strict l) in *.
  assert (IW : forall w, In w Wl <-> W w) by (intros w; apply passing_in, OK).
  assert (F : found (fun _ => False) None) by (intros e X; exact X).
  assert (V : verdict W (fun _ => False) (wins clash) st).
  { rewrite R1. destruct (existsb (fun _ => true) Wl) eqn:X.
    - apply nonempty in X. destruct X as (w & I). exists w. split; [apply IW, I|]. intros s [].
    - split; [auto|]. intros w I. apply IW in I. assert (existsb (fun _ => true) Wl = true) by (apply nonempty; eauto). congruence. }
  split; [intros r; split; [intros <-; exact V|intros V2; exact (verdict_determined _ _ _ _ _ _ F V V2)]|]. split; [|split; [reflexivity|]].
  - rewrite R2. cbn [app]. rewrite R1. destruct (existsb (fun _ => true) Wl) eqn:X; cbn.
    + intros b g. transitivity (In (b, g) (flat_map result_of (filter (fun _ => true) Wl))); [|rewrite in_results; split; intros (w & A & C & E); exists w; (split; [apply IW; exact A|]); (split; [|exact E]); [intros s []|reflexivity]].
      replace (filter (fun _ => true) Wl) with Wl; [reflexivity|]. clear. induction Wl; cbn; congruence.
    + destruct Wl as [|w r]; [reflexivity|discriminate].
  - intros c. rewrite R3. apply credited. intros x. reflexivity.
Qed.
Theorem fwd_weak_only r wr now k k' o : r <> 0 -> retrieve_imdl_fwd strict lenient clash dead r wr 0 now k = Some (k', o) ->
  (forall st, l_status o = st <-> verdict (weak_at now (pos k)) (fun _ => False) (wins clash) st) /\
  right_results strict lenient (weak_at now (pos k)) (fun _ => False) (wins clash) (l_status o) (l_results o) /\ retained dead now (pos k) (pos k') /\ neg k' = neg k /\
  (forall c, In c (q_ctrls (l_weak o)) <-> exists e, candidate dead now (in_range now) strict (pos k) e /\ ctrl e = c).
Proof.
  intros R. unfold retrieve_imdl_fwd. destruct (Z.eqb_spec r 0); [contradiction|]. cbn [Z.eqb]. destruct (weak_all strict dead (current now) allowed now (pos k) WeakDisabled [] no_reqs) as [[[l st] res] q] eqn:K. intros H. injection H as <- <-. cbn.
  destruct (weak_only _ _ _ _ _ _ _ _ _ (ok_current now) K) as (A & C & -> & D). split; [exact A|]. split; [exact C|]. split; [apply retained_keep|]. split; [reflexivity|]. intros c. rewrite D. split; intros (e & (I & U & X & M) & E); exists e; (split; [|exact E]); split; auto; split; auto; split; auto; apply current_range; exact X.
Qed.
Theorem fwd_mixed r wr sr now k k' o : r <> 0 -> wr <> 0 -> sr <> 0 -> retrieve_imdl_fwd strict lenient clash dead r wr sr now k = Some (k', o) ->
  (forall st, l_status o = st <-> verdict (weak_at now (pos k)) (strong_at now (neg k)) (wins clash) st) /\
  right_results strict lenient (weak_at now (pos k)) (strong_at now (neg k)) (wins clash) (l_status o) (l_results o) /\ retained dead now (pos k) (pos k') /\ retained dead now (neg k) (neg k') /\
  (l_wr o = true -> exists w s, weak_at now (pos k) w /\ strong_at now (neg k) s /\ clash (ev w) (ev s) = true /\ SFltb (cfd s) (cfd w) = true) /\
  (forall c, In c (q_ctrls (l_weak o)) <-> exists e, candidate dead now (in_range now) strict (pos k) e /\ ctrl e = c) /\
  (forall c, In c (q_ctrls (l_strong o)) <-> exists e, candidate dead now (in_range now) lenient (neg k) e /\ ctrl e = c).
Proof.
  intros R W0 S0. unfold retrieve_imdl_fwd. destruct (Z.eqb_spec r 0); [contradiction|]. destruct (Z.eqb_spec sr 0); [contradiction|]. destruct (Z.eqb_spec wr 0); [contradiction|].
  destruct (strong_all lenient dead now (neg k) None no_reqs) as [[l2 strong] q] eqn:K. destruct (mixed_fwd strict clash dead (current now) allowed strong now (pos k) (start strong)) as [p c] eqn:M. intros H. injection H as <- <-. cbn.
  destruct (strong_all_found _ _ _ _ _ K) as (-> & F & Q). destruct (mixed_fwd_decides _ _ _ _ _ _ _ _ _ F (ok_current now) M) as (A & C & D). destruct (mixed_fwd_ok _ _ _ _ _ _ _ _ M) as (-> & _ & _ & _ & _ & Q2).
  split; [exact A|]. split; [exact C|]. split; [apply retained_keep|]. split; [apply retained_keep|]. split; [exact D|]. split; [|exact Q].
  intros x. rewrite Q2. replace (q_ctrls (c_q (start strong))) with (@nil Z) by (destruct strong; reflexivity). apply credited. intros y. apply current_range.
Qed.
Theorem fwd_strong_only r wr sr now k : r <> 0 -> wr = 0 -> sr <> 0 -> (forall e, In e (neg k) -> usable dead now e) ->
  exists o, retrieve_imdl_fwd strict lenient clash dead r wr sr now k = Some (k, o) /\
  (l_status o = StrongNoWeak <-> exists s, strong_at now (neg k) s) /\ (l_status o = NoRequirement <-> forall s, ~ strong_at now (neg k) s) /\
  (forall c, In c (q_ctrls (l_strong o)) <-> exists e, candidate dead now (in_range now) lenient (neg k) e /\ ctrl e = c).
Proof.
  intros R -> S0 U. unfold retrieve_imdl_fwd. destruct (Z.eqb_spec r 0); [contradiction|]. destruct (Z.eqb_spec sr 0); [contradiction|]. cbn [Z.eqb].
  destruct (existsb (old now) (neg k)) eqn:X; [exfalso; apply existsb_exists in X; destruct X as (e & I & O); apply U, old_usable in I; congruence|].
  destruct (strong_all lenient dead now (neg k) None no_reqs) as [[l2 strong] q] eqn:K. eexists. split; [reflexivity|]. cbn. destruct (strong_all_found _ _ _ _ _ K) as (_ & F & Q).
  destruct strong as [(s & b)|]; cbn in *.
  - destruct F as (M & F). split; [split; [intros _; exists s; apply F; reflexivity|reflexivity]|]. split; [split; [discriminate|intros N; destruct (N s); apply F; reflexivity]|exact Q].
  - split; [split; [discriminate|intros (s & Y); destruct (F s Y)]|]. split; [split; [intros _; exact F|reflexivity]|exact Q].
Qed.
(** On the cells: the loop of the code and the list of the cells agree when no entry is too old. *)
Lemma cells_agree now (p n : @cells_list entry) l : forall fuel c a q, walk fuel n c = Some l -> Forall (fun x => old now (snd x) = false) l ->
  forall l2 a2 q2, strong_all lenient dead now (map snd l) a q = (l2, a2, q2) ->
  fwd_strong_cells lenient dead fuel now p n true c (match a with Some _ => StrongNoWeak | None => NoRequirement end) q = Done (p, n, match a2 with Some _ => StrongNoWeak | None => NoRequirement end, q2).
Proof.
  induction l as [|x l IH]; intros fuel c a q H N l2 a2 q2; cbn.
  - intros K. injection K as <- <- <-. destruct fuel, c as [i|]; cbn in *; try discriminate; try reflexivity. destruct (nth_error (cells n) i); [|discriminate]. destruct (walk fuel n (next c)); discriminate.
  - destruct fuel as [|f], c as [i|]; cbn in H; try discriminate. destruct (nth_error (cells n) i) as [cc|] eqn:E; [|discriminate]. destruct (walk f n (next cc)) as [l3|] eqn:WK; [|discriminate]. injection H as <- <-. inversion N; subst. cbn in *. rewrite H1, E. cbn. rewrite H1. unfold current. destruct (out_of_range now (data cc)); cbn.
    + destruct (strong_all lenient dead now (map snd l3) a q) as [[l4 a4] q4] eqn:K. intros Q. injection Q as <- <- <-. eapply IH; eauto.
    + destruct (lenient (ev (data cc))) as [b|].
      * match goal with |- context [strong_all lenient dead now (map snd l3) ?a0 ?q0] => destruct (strong_all lenient dead now (map snd l3) a0 q0) as [[l4 a4] q4] eqn:K end. intros Q. injection Q as <- <- <-. rewrite <- (IH _ _ _ _ WK H2 _ _ _ K). f_equal. destruct a as [s|]; [reflexivity|]. destruct (allowed (data cc)); reflexivity.
      * destruct (strong_all lenient dead now (map snd l3) a q) as [[l4 a4] q4] eqn:K. intros Q. injection Q as <- <- <-. eapply IH; eauto.
Qed.
Theorem fwd_strong_cells_ok r sr now k (p n : @cells_list entry) : r <> 0 -> sr <> 0 -> holds n (neg k) -> (forall e, In e (neg k) -> usable dead now e) ->
  exists o, retrieve_imdl_fwd strict lenient clash dead r 0 sr now k = Some (k, o) /\ retrieve_strong_only lenient dead (length (cells n)) now p n = Done (p, n, l_status o, l_strong o).
Proof.
  intros R S0 H U. unfold retrieve_imdl_fwd. destruct (Z.eqb_spec r 0); [contradiction|]. destruct (Z.eqb_spec sr 0); [contradiction|]. cbn [Z.eqb].
  destruct (existsb (old now) (neg k)) eqn:X; [exfalso; apply existsb_exists in X; destruct X as (e & I & O); apply U, old_usable in I; congruence|].
  destruct (strong_all lenient dead now (neg k) None no_reqs) as [[l2 strong] q] eqn:K. eexists. split; [reflexivity|]. cbn. unfold holds in H. unfold retrieve_strong_only. unfold iterate in H. destruct (walk (length (cells n)) n (head n)) as [l|] eqn:W; [|discriminate]. injection H as H. rewrite <- H in K. refine (cells_agree _ _ _ _ _ _ _ _ W _ _ _ _ K).
  apply Forall_forall. intros y I. apply old_usable, U. rewrite <- H. apply in_map. exact I.
Qed.
(** *** Simulated, forward *)
Lemma first_found (visit : entry -> bool) now l l' a : first_match dead lenient visit now l = (l', a) -> retained dead now l l' /\ found (youngest (fun e => usable dead now e /\ visit e = true /\ lenient (ev e) <> None) l) a.
Proof.
  intros H. destruct (first_match_ok _ _ _ _ _ _ H) as (A & C & D). split; [split; assumption|]. apply found_of. destruct a as [(e & b)|]; [exact D|]. intros e (I & K). apply (D e). split; [exact I|tauto].
Qed.
Theorem sim_fwd_decides r wr sr now k k' o : r <> 0 -> (sr <> 0 -> wr <> 0) -> retrieve_simulated_imdl_fwd strict lenient clash dead sim r wr sr now k = (k', o) ->
  let S := fun e => sr <> 0 /\ strong_sim now (neg k) e in
  (forall st, l_status o = st <-> verdict (weak_sim now (pos k)) S (wins clash) st) /\ right_results strict lenient (weak_sim now (pos k)) S (wins clash) (l_status o) (l_results o) /\
  retained dead now (pos k) (pos k') /\ retained dead now (neg k) (neg k').
Proof.
  intros R W0. unfold retrieve_simulated_imdl_fwd. destruct (Z.eqb_spec r 0); [contradiction|]. destruct (Z.eqb_spec sr 0) as [->|S0].
  - destruct (weak_all strict dead (simulated sim) any now (pos k) WeakDisabled [] no_reqs) as [[[l st] res] q] eqn:K. intros H. injection H as <- <-. cbn.
    assert (OK : forall x, simulated sim x && any x = true <-> sim (ev x) = true) by (intros x; unfold simulated, any; rewrite andb_true_r; reflexivity).
    destruct (weak_only _ _ _ _ _ _ _ _ _ OK K) as (A & C & -> & D). 
    assert (F0 : forall e, (0 <> 0 /\ strong_sim now (neg k) e) <-> False) by (intros e; tauto).
    split; [|split; [|split; [apply retained_keep|apply retained_refl]]].
    + intros s. rewrite A. destruct s; cbn; try tauto.
      * split; intros (s0 & X & Y); tauto.
      * split; intros (s0 & X & Y); tauto.
      * split; intros (w & X & Y); exists w; (split; [exact X|]); intros s0 Z0; tauto.
    + destruct st; cbn in *; auto.
      * destruct C as (s0 & b & [] & _).
      * destruct C as (s0 & w & b & [] & _).
      * intros b g. rewrite C. split; intros (w & X & Y & Z0); exists w; (split; [exact X|]; split; [|exact Z0]); intros s0 T; tauto.
  - destruct (Z.eqb_spec wr 0); [exfalso; apply W0; assumption|]. destruct (first_match dead lenient (simulated sim) now (neg k)) as [n1 strong] eqn:K. destruct (mixed_fwd strict clash dead (simulated sim) any strong now (pos k) (start strong)) as [p c] eqn:M. intros H. injection H as <- <-. cbn.
    assert (OK : forall x, simulated sim x && any x = true <-> sim (ev x) = true) by (intros x; unfold simulated, any; rewrite andb_true_r; reflexivity).
    destruct (first_found _ _ _ _ _ K) as (RN & F0).
    assert (F : found (fun e => sr <> 0 /\ strong_sim now (neg k) e) strong).
    { destruct strong as [(s & b)|]; cbn in *; [destruct F0 as (X & Y); split; [exact X|]; intros e; rewrite <- Y; unfold Req_spec.strong_sim, simulated; tauto|intros e (_ & X); exact (F0 e X)]. }
    destruct (mixed_fwd_decides _ _ _ _ _ _ _ _ _ F OK M) as (A & C & D). destruct (mixed_fwd_ok _ _ _ _ _ _ _ _ M) as (-> & _).
    split; [exact A|]. split; [exact C|]. split; [apply retained_keep|exact RN].
Qed.
Theorem sim_fwd_strong_only r sr now k k' o : r <> 0 -> sr <> 0 -> retrieve_simulated_imdl_fwd strict lenient clash dead sim r 0 sr now k = (k', o) ->
  (l_status o = StrongNoWeak /\ (exists s b, strong_sim now (neg k) s /\ lenient (ev s) = Some b /\ l_results o = [(b, None)]) \/ l_status o = NoRequirement /\ l_results o = [] /\ forall s, ~ strong_sim now (neg k) s) /\ pos k' = pos k /\ retained dead now (neg k) (neg k').
Proof.
  intros R S0. unfold retrieve_simulated_imdl_fwd. destruct (Z.eqb_spec r 0); [contradiction|]. destruct (Z.eqb_spec sr 0); [contradiction|]. cbn [Z.eqb].
  destruct (first_match dead lenient (simulated sim) now (neg k)) as [n1 a] eqn:K. intros H. injection H as <- <-. cbn. destruct (first_found _ _ _ _ _ K) as (RN & F). split; [|split; [reflexivity|exact RN]]. destruct a as [(s & b)|]; cbn in *.
  - destruct F as (M & F). left. split; [reflexivity|]. exists s, b. split; [apply F; reflexivity|]. auto.
  - right. split; [reflexivity|]. split; [reflexivity|exact F].
Qed.
(** *** Backward *)
Definition winb (is_sim : bool) (strong : option (entry * B)) (e : entry) : bool := good strong e || (is_sim && match strong with Some (s, _) => before s <=? after e | None => false end).
Definition loseb (is_sim : bool) (strong : option (entry * B)) (e : entry) : bool := negb (winb is_sim strong e) && (negb is_sim || match strong with Some (s, _) => after s <? before e | None => false end).
Lemma mixed_bwd_ok visit is_sim strong now l : forall r m g d l' r' m' g' d', mixed_bwd strict clash dead defeasible visit is_sim strong now l r m g d = (l', (r', m', g', d')) ->
  let W := passing now visit strict l in
  l' = keep now l /\
  r' = (if is_enabled r || existsb (winb is_sim strong) W then WeakEnabled else if existsb (loseb is_sim strong) W then StrongDisabledWeak else r) /\
  (if is_enabled r then m' = m /\ g' = g else match find (winb is_sim strong) W with
     | Some e => strict (ev e) = m' /\ m' <> None /\ g' = Some (ev e)
     | None => m' = m /\ (if existsb (loseb is_sim strong) W then exists e, In e W /\ loseb is_sim strong e = true /\ g' = Some (ev e) else g' = g)
     end) /\
  d' = d ++ map ev (filter (fun e => loseb is_sim strong e && (is_sim && defeasible (ev e))) W).
Proof.
  induction l as [|x l IH]; intros r m g d l' r' m' g' d'; cbn; [intros H; injection H as <- <- <- <- <-; rewrite orb_false_r, app_nil_r; destruct r; cbn; auto 10|].
  destruct (old now x) eqn:O; [cbn; apply IH|]. cbn.
  assert (skip : forall r m g d, (let (l2, y) := mixed_bwd strict clash dead defeasible visit is_sim strong now l r m g d in (x :: l2, y)) = (l', (r', m', g', d')) ->
    exists l2, l' = x :: l2 /\ mixed_bwd strict clash dead defeasible visit is_sim strong now l r m g d = (l2, (r', m', g', d'))).
  { intros r0 m0 g0 d0. destruct (mixed_bwd strict clash dead defeasible visit is_sim strong now l r0 m0 g0 d0) as [l2 y]. intros H. injection H as <- ->. eauto. }
  destruct (visit x) eqn:V; cbn; [|intros H; destruct (skip _ _ _ _ H) as (l2 & -> & K); destruct (IH _ _ _ _ _ _ _ _ _ K) as (-> & R); auto].
  destruct (strict (ev x)) as [b|] eqn:M; cbn; [|intros H; destruct (skip _ _ _ _ H) as (l2 & -> & K); destruct (IH _ _ _ _ _ _ _ _ _ K) as (-> & R); auto].
  fold (good strong x). fold (winb is_sim strong x). destruct (winb is_sim strong x) eqn:GX.
  - assert (LX : loseb is_sim strong x = false) by (unfold loseb; rewrite GX; reflexivity). rewrite LX. cbn [andb]. rewrite orb_true_r. destruct (is_enabled r) eqn:EN.
    + intros H; destruct (skip _ _ _ _ H) as (l2 & -> & K); destruct (IH _ _ _ _ _ _ _ _ _ K) as (-> & R1 & R2 & R3). rewrite EN in R1, R2. auto.
    + intros H; destruct (skip _ _ _ _ H) as (l2 & -> & K); destruct (IH _ _ _ _ _ _ _ _ _ K) as (-> & R1 & R2 & R3). cbn in R1, R2. destruct R2 as (-> & ->). split; [reflexivity|]. split; [exact R1|]. split; [split; [exact M|split; [discriminate|reflexivity]]|exact R3].
  - assert (LX : loseb is_sim strong x = (negb is_sim || match strong with Some (s, _) => after s <? before x | None => false end)) by (unfold loseb; rewrite GX; reflexivity). rewrite LX. cbn [orb].
    destruct (negb is_sim || match strong with Some (s, _) => after s <? before x | None => false end) eqn:L2.
    + assert (DD : d ++ map ev (if true && (is_sim && defeasible (ev x)) then x :: filter (fun e => loseb is_sim strong e && (is_sim && defeasible (ev e))) (passing now visit strict l) else filter (fun e => loseb is_sim strong e && (is_sim && defeasible (ev e))) (passing now visit strict l))
        = (if is_sim && defeasible (ev x) then d ++ [ev x] else d) ++ map ev (filter (fun e => loseb is_sim strong e && (is_sim && defeasible (ev e))) (passing now visit strict l))).
      { cbn [andb]. destruct (is_sim && defeasible (ev x)); [rewrite <- app_assoc|]; reflexivity. }
      destruct (is_enabled r) eqn:EN; intros H; destruct (skip _ _ _ _ H) as (l2 & -> & K); destruct (IH _ _ _ _ _ _ _ _ _ K) as (-> & R1 & R2 & R3).
      * rewrite EN in R1, R2. split; [reflexivity|]. split; [cbn [orb] in *; exact R1|]. split; [exact R2|]. rewrite R3. symmetry. exact DD.
      * cbn [is_enabled orb] in R1, R2. cbn [orb]. split; [reflexivity|]. split; [rewrite R1; destruct (existsb (winb is_sim strong) _); [reflexivity|]; destruct (existsb _ _); reflexivity|]. split.
        -- destruct (find _ _); [exact R2|]. destruct R2 as (-> & R2). split; [reflexivity|]. destruct (existsb (loseb is_sim strong) _).
           ++ destruct R2 as (e & I & E1 & E2). exists e. auto.
           ++ exists x. rewrite LX. split; [left; reflexivity|]. auto.
        -- rewrite R3. symmetry. exact DD.
    + intros H; destruct (skip _ _ _ _ H) as (l2 & -> & K); destruct (IH _ _ _ _ _ _ _ _ _ K) as (-> & R1 & R2 & R3). cbn [andb orb]. split; [reflexivity|]. split; [exact R1|]. split; [|exact R3]. destruct (is_enabled r); [exact R2|]. destruct (find _ _); [exact R2|]. destruct R2 as (-> & R2). split; [reflexivity|]. destruct (existsb (loseb is_sim strong) _); [|exact R2]. destruct R2 as (e & I & E1 & E2). exists e. auto.
Qed.
Definition visitb (is_sim : bool) : entry -> bool := if is_sim then simulated sim else any.
Lemma visitb_ok is_sim x : visitb is_sim x = true <-> bok is_sim x.
Proof. unfold visitb, Req_spec.bok, simulated, any. destruct is_sim; split; auto. discriminate. Qed.
Lemma winb_iff is_sim S strong w : found S strong -> winb is_sim strong w = true <-> forall s, S s -> bwin is_sim s w.
Proof.
  intros F. unfold winb, Req_spec.bwin. rewrite orb_true_iff, (good_wins S strong w F), andb_true_iff. destruct strong as [(s & b)|]; cbn in F.
  - destruct F as (_ & F). rewrite Z.leb_le. split.
    + intros [H|H] t T; apply F in T; subst; [left; apply H, F; reflexivity|right; exact H].
    + intros H. destruct (H s (proj2 (F s) eq_refl)) as [K|K]; [left; intros t T; apply F in T; subst; exact K|right; exact K].
  - split; [intros _ s X; destruct (F s X)|intros _; left; intros s X; destruct (F s X)].
Qed.
Lemma loseb_iff is_sim S strong w : found S strong -> loseb is_sim strong w = true <-> exists s, S s /\ ~ bwin is_sim s w /\ (is_sim = true -> after s < before w).
Proof.
  intros F. unfold loseb. rewrite andb_true_iff, negb_true_iff. assert (G := winb_iff is_sim S strong w F). destruct strong as [(s & b)|]; cbn in F.
  - destruct F as (_ & F). assert (SS : S s) by (apply F; reflexivity). rewrite orb_true_iff, negb_true_iff, Z.ltb_lt. split.
    + intros (N & H). exists s. split; [exact SS|]. split; [intros K; assert (winb is_sim (Some (s, b)) w = true); [apply G; intros t T; apply F in T; subst; exact K|congruence]|]. intros ->. destruct H; [discriminate|assumption].
    + intros (t & T & N & H). apply F in T. subst t. split; [|destruct is_sim; auto]. destruct (winb is_sim (Some (s, b)) w); [|reflexivity]. exfalso. apply N. apply G; auto.
  - split; [intros (N & _)|intros (s & X & _); destruct (F s X)]. exfalso. assert (winb is_sim None w = true); [apply G; intros s X; destruct (F s X)|congruence].
Qed.
Lemma existsb_false {A} (p : A -> bool) l : existsb p l = false <-> forall x, In x l -> p x = false.
Proof.
  split; [|induction l as [|x l IH]; cbn; intros H; [reflexivity|rewrite (H x (or_introl eq_refl)); apply IH; auto]].
  intros H x I. destruct (p x) eqn:Q; [|reflexivity]. assert (existsb p l = true) by (apply existsb_exists; eauto). congruence.
Qed.
Lemma find_existsb {A} (p : A -> bool) l : existsb p l = match find p l with Some _ => true | None => false end.
Proof. induction l as [|x l IH]; cbn; [reflexivity|]. destruct (p x); [reflexivity|exact IH]. Qed.
(** The weak requirements a backward look-up considers. *)
Lemma verdict_b is_sim now l S strong r : found S strong ->
  r = (let W := passing now (visitb is_sim) strict l in if existsb (winb is_sim strong) W then WeakEnabled else if existsb (loseb is_sim strong) W then StrongDisabledWeak else match strong with Some _ => StrongNoWeak | None => WeakDisabled end) ->
  verdict (weak_c is_sim now l S) S (bwin is_sim) r.
Proof.
  intros F. cbv zeta. set (Wl := passing now (visitb is_sim) strict l).
  assert (IW : forall w, In w Wl <-> weak_b is_sim now l w) by (intros w; apply passing_in; intros x; apply visitb_ok).
  assert (GW := fun w => winb_iff is_sim S strong w F). assert (GL := fun w => loseb_iff is_sim S strong w F).
  destruct (existsb (winb is_sim strong) Wl) eqn:X; [|rewrite existsb_false in X; destruct (existsb (loseb is_sim strong) Wl) eqn:Y].
  - intros ->. apply existsb_exists in X. destruct X as (w & I & H). exists w. rewrite GW in H. split; [split; [apply IW, I|intros _ s K; left; apply H, K]|exact H].
  - intros ->. apply existsb_exists in Y. destruct Y as (w & I & H). rewrite GL in H. destruct H as (s & K & N & T). exists s. split; [exact K|]. split.
    + exists w. split; [apply IW, I|]. intros E t T2. right. destruct strong as [(s0 & b)|]; cbn in F; [|destruct (F s K)]. destruct F as (_ & F). apply F in K, T2. subst. auto.
    + intros v (V & _) Q. apply IW, X in V. assert (winb is_sim strong v = true); [|congruence]. apply GW. intros t T2. destruct strong as [(s0 & b)|]; cbn in F; [|destruct (F s K)]. destruct F as (_ & F). apply F in K, T2. subst. exact Q.
  - rewrite existsb_false in Y. destruct strong as [(s & b)|]; intros ->; cbn.
    + assert (SS : S s) by (apply F; reflexivity). exists s. split; [exact SS|]. intros w (V & C). assert (I := V). apply IW in I. assert (XW := X w I). assert (YW := Y w I).
      assert (NW : ~ bwin is_sim s w) by (intros Q; assert (winb is_sim (Some (s, b)) w = true); [apply GW; intros t T; apply F in T; subst; exact Q|congruence]).
      assert (loseb is_sim (Some (s, b)) w = true); [|congruence]. apply GL. exists s. split; [exact SS|]. split; [exact NW|]. intros E. destruct (C E s SS) as [Q|Q]; [contradiction|exact Q].
    + split; [exact F|]. intros w (V & _). assert (I := V). apply IW in I. assert (winb is_sim None w = true); [apply GW; intros s K; destruct (F s K)|rewrite (X w I) in *; discriminate].
Qed.
Lemma candidate_ext now (P Q : entry -> Prop) (m : Z -> option B) l e : (forall x, P x <-> Q x) -> candidate dead now P m l e <-> candidate dead now Q m l e.
Proof. intros H. unfold candidate. rewrite H. reflexivity. Qed.
Theorem bwd_decides is_sim r wr sr now k k' o : r <> 0 -> (sr <> 0 -> wr <> 0) -> retrieve_bwd strict lenient clash dead sim defeasible is_sim r wr sr now k = (k', o) ->
  let S := strong_s is_sim sr now k in let W := weak_c is_sim now (pos k) S in let win := bwin is_sim in
  (forall st, b_status o = st <-> verdict W S win st) /\
  match b_status o with
  | WeakEnabled => exists w, youngest (fun w => usable dead now w /\ bok is_sim w /\ strict (ev w) <> None /\ forall s, S s -> win s w) (pos k) w /\ b_ground o = Some (ev w) /\ b_map o = strict (ev w)
  | StrongDisabledWeak => exists s w, S s /\ W w /\ b_ground o = Some (ev w) /\ b_map o = (if is_sim then lenient (ev s) else None)
  | StrongNoWeak => exists s, S s /\ b_ground o = None /\ b_map o = (if is_sim then lenient (ev s) else None)
  | _ => b_ground o = None /\ b_map o = None
  end /\
  (forall x, b_strong o = Some x <-> exists s, S s /\ ev s = x) /\
  (forall x, In x (b_defeated o) <-> is_sim = true /\ exists s w, S s /\ W w /\ ~ win s w /\ defeasible (ev w) = true /\ ev w = x) /\
  retained dead now (pos k) (pos k') /\ retained dead now (neg k) (neg k').
Proof.
  intros R W0 H S W win. unfold retrieve_bwd in H. fold (visitb is_sim) in H. destruct (Z.eqb_spec r 0); [contradiction|]. destruct (Z.eqb_spec sr 0) as [E0|S0].
  - assert (NS : forall s, ~ S s) by (intros s (X & _); contradiction).
    destruct (first_match dead strict (visitb is_sim) now (pos k)) as [p a] eqn:K. injection H as <- <-. destruct (first_match_ok _ _ _ _ _ _ K) as (A & C & D).
    assert (WC : forall w, W w <-> candidate dead now (fun e => visitb is_sim e = true) strict (pos k) w).
    { intros w. rewrite (candidate_ext now _ _ _ _ _ (visitb_ok is_sim)). split; [intros (X & _); exact X|intros X; split; [exact X|]]. intros _ s Q. destruct (NS s Q). }
    assert (F : found S None) by exact NS.
    assert (V : verdict W S win (b_status (match a with Some (e, b) => mkbwd WeakEnabled (Some b) (Some (ev e)) None [] | None => mkbwd WeakDisabled None None None [] end))).
    { destruct a as [(e & b)|]; cbn.
      - exists e. split; [|intros s Q; destruct (NS s Q)]. apply WC. destruct D as (_ & D). apply youngest_in in D. destruct D as (I & U & V & M). split; auto.
      - split; [exact NS|]. intros w Q. apply WC in Q. exact (D w Q). }
    split; [intros st; split; [intros <-; exact V|intros V2; exact (verdict_determined _ _ _ _ _ _ F V V2)]|].
    split; [|split; [|split; [|split; [split; assumption|apply retained_refl]]]].
    + destruct a as [(e & b)|]; cbn; [|auto]. exists e. destruct D as (M & D). split; [|split; [reflexivity|symmetry; exact M]]. eapply youngest_ext; [|exact D]. intros x. cbn. rewrite visitb_ok. split; [intros (X & Y & Z0); split; [exact X|]; split; [exact Y|]; split; [exact Z0|]; intros s Q; destruct (NS s Q)|tauto].
    + destruct a as [(e & b)|]; cbn; (intros x; split; [discriminate|intros (s & Q & _); destruct (NS s Q)]).
    + destruct a as [(e & b)|]; cbn; (intros x; split; [contradiction|intros (_ & s & w & Q & _); destruct (NS s Q)]).
  - destruct (Z.eqb_spec wr 0); [exfalso; apply W0; assumption|].
    destruct (first_match dead lenient (visitb is_sim) now (neg k)) as [n1 strong] eqn:K. destruct (first_found _ _ _ _ _ K) as (RN & F0).
    assert (F : found S strong).
    { assert (YE : forall e, youngest (fun e => usable dead now e /\ visitb is_sim e = true /\ lenient (ev e) <> None) (neg k) e <-> S e).
      { intros e. unfold S, Req_spec.strong_s, Req_spec.strong_b. split; [intros Y; split; [exact S0|]; eapply youngest_ext; [|exact Y]|intros (_ & Y); eapply youngest_ext; [|exact Y]]; intros x; cbn; rewrite visitb_ok; reflexivity. }
      destruct strong as [(s & b)|]; cbn in *; [destruct F0 as (X & Y); split; [exact X|]; intros e; rewrite <- Y; symmetry; apply YE|intros e X; apply YE in X; exact (F0 e X)]. }
    destruct (mixed_bwd strict clash dead defeasible (visitb is_sim) is_sim strong now (pos k) (match strong with Some _ => StrongNoWeak | None => WeakDisabled end) None None []) as [p [[[st m] g] d]] eqn:M. destruct (mixed_bwd_ok _ _ _ _ _ _ _ _ _ _ _ _ _ _ M) as (-> & R1 & R2 & R3).
    assert (EN : is_enabled (match strong with Some _ => StrongNoWeak | None => WeakDisabled end) = false) by (destruct strong; reflexivity). rewrite EN in R1, R2. cbn [orb] in R1. injection H as <- <-. cbn.
    assert (V : verdict W S win st) by (apply (verdict_b is_sim now (pos k) S strong st F R1)).
    set (Wl := passing now (visitb is_sim) strict (pos k)) in *.
    assert (IW : forall w, In w Wl <-> weak_b is_sim now (pos k) w) by (intros w; apply passing_in; intros x; apply visitb_ok).
    assert (GW := fun w => winb_iff is_sim S strong w F). assert (GL := fun w => loseb_iff is_sim S strong w F).
    assert (LW : forall w, In w Wl -> loseb is_sim strong w = true -> W w).
    { intros w I L. split; [apply IW, I|]. intros E t T. right. apply GL in L. destruct L as (s & Q & _ & L). destruct strong as [(s0 & b)|]; cbn in F; [|destruct (F s Q)]. destruct F as (_ & F). apply F in T, Q. subst. auto. }
    split; [intros r2; split; [intros <-; exact V|intros V2; exact (verdict_determined _ _ _ _ _ _ F V V2)]|]. split; [|split; [|split; [|split; [apply retained_keep|exact RN]]]].
    + rewrite find_existsb in R1. destruct (find (winb is_sim strong) Wl) as [w|] eqn:FW.
      * rewrite R1. destruct R2 as (X & Y & Z0). exists w. split; [|auto]. apply find_youngest in FW. eapply youngest_ext; [|exact FW]. intros x. cbn. rewrite !andb_true_iff, negb_true_iff, old_usable, some_iff, visitb_ok, GW. tauto.
      * destruct R2 as (Y & R2). destruct (existsb (loseb is_sim strong) Wl); rewrite R1.
        -- destruct R2 as (e & I & L & G). assert (L2 := L). apply GL in L2. destruct L2 as (s & Q & _). exists s, e. split; [exact Q|]. split; [apply LW; assumption|]. split; [exact G|]. destruct strong as [(s0 & b)|]; cbn in F; [|destruct (F s Q)]. destruct F as (B0 & F). apply F in Q. subst. destruct is_sim; [symmetry; exact B0|reflexivity].
        -- destruct strong as [(s0 & b)|]; cbn; [|auto]. cbn in F. destruct F as (B0 & F). exists s0. split; [apply F; reflexivity|]. split; [exact R2|]. destruct is_sim; [symmetry; exact B0|reflexivity].
    + intros x. destruct strong as [(s0 & b)|]; cbn in F.
      * destruct F as (_ & F). split; [intros Q; injection Q as <-; exists s0; split; [apply F; reflexivity|reflexivity]|intros (s & Q & <-); apply F in Q; subst; reflexivity].
      * split; [discriminate|intros (s & Q & _); destruct (F s Q)].
    + intros x. rewrite R3. cbn [app]. rewrite in_map_iff. split.
      * intros (w & <- & I). apply filter_In in I. destruct I as (I & L). rewrite !andb_true_iff in L. destruct L as (L & E & DF). split; [exact E|]. assert (WW := LW w I L). apply GL in L. destruct L as (s & Q & N & _). exists s, w. auto.
      * intros (E & s & w & Q & (V1 & V2) & N & DF & <-). exists w. split; [reflexivity|]. apply filter_In. split; [apply IW, V1|]. apply andb_true_iff. split; [|rewrite E, DF; reflexivity]. apply GL. exists s. split; [exact Q|]. split; [exact N|]. intros _. destruct (V2 E s Q); [contradiction|assumption].
Qed.
Theorem bwd_strong_only is_sim r sr now k k' o : r <> 0 -> sr <> 0 -> retrieve_bwd strict lenient clash dead sim defeasible is_sim r 0 sr now k = (k', o) ->
  (b_status o = StrongNoWeak /\ (exists s, strong_b is_sim now (neg k) s /\ b_strong o = Some (ev s) /\ b_map o = (if is_sim then lenient (ev s) else None)) \/
   b_status o = NoRequirement /\ b_strong o = None /\ b_map o = None /\ forall s, ~ strong_b is_sim now (neg k) s) /\ b_ground o = None /\ b_defeated o = [] /\ pos k' = pos k /\ retained dead now (neg k) (neg k').
Proof.
  intros R S0 H. unfold retrieve_bwd in H. fold (visitb is_sim) in H. destruct (Z.eqb_spec r 0); [contradiction|]. destruct (Z.eqb_spec sr 0); [contradiction|]. cbn [Z.eqb] in H.
  destruct (first_match dead lenient (visitb is_sim) now (neg k)) as [n1 a] eqn:K. injection H as <- <-. cbn. destruct (first_found _ _ _ _ _ K) as (RN & F).
  assert (YE : forall e, youngest (fun e => usable dead now e /\ visitb is_sim e = true /\ lenient (ev e) <> None) (neg k) e <-> strong_b is_sim now (neg k) e).
  { intros e. unfold Req_spec.strong_b. split; (apply youngest_ext; intros x; cbn; rewrite visitb_ok; reflexivity). }
  destruct a as [(s & b)|]; cbn in *; (split; [|auto]).
  - left. destruct F as (M & F). split; [reflexivity|]. exists s. split; [apply YE, F; reflexivity|]. split; [reflexivity|]. destruct is_sim; [symmetry; exact M|reflexivity].
  - right. split; [reflexivity|]. split; [reflexivity|]. split; [reflexivity|]. intros s Q. apply YE in Q. exact (F s Q).
Qed.
End Proofs.

(** *** Witnesses *)
Definition half : spec_float := S754_finite false 8388608 (-24).
Definition most : spec_float := S754_finite false 12582912 (-24).
Definition e_at (i a b : Z) (c : spec_float) : entry := mkentry i a b c (i + 100) true.
(** One entry in a list of cells. *)
Definition one_cell (e : entry) : @cells_list entry := mklist [mkcell None None e] (Some 0%nat) (Some 0%nat) None 1 0.

Definition yes (x : Z) : option Z := Some x.
Definition never (x : Z) : bool := false.
Definition always (x y : Z) : bool := true.
Lemma strong_undefined_refuted : exists now (n : @cells_list entry) (e : entry), holds n [e] /\ ~ usable never now e /\ forall fuel, (1 <= fuel)%nat -> retrieve_strong_only yes never fuel now empty n = Undefined.
Proof.
  exists 10, (one_cell (e_at 1 0 5 half)), (e_at 1 0 5 half). split; [reflexivity|]. split; [unfold usable; cbn; lia|]. intros [|f] H; [lia|]. reflexivity.
Qed.
Lemma strong_loses_refuted : exists now (p n : @cells_list entry) (a e : entry) p', holds p [a] /\ holds n [e] /\ usable never now a /\ ~ usable never now e /\
  (exists st q, retrieve_strong_only yes never 5 now p n = Done (p', n, st, q)) /\ holds p' [].
Proof.
  exists 10, (one_cell (e_at 1 0 50 half)), (one_cell (e_at 2 0 5 half)), (e_at 1 0 50 half), (e_at 2 0 5 half). eexists.
  split; [reflexivity|]. split; [reflexivity|]. split; [unfold usable; cbn; split; [reflexivity|lia]|]. split; [unfold usable; cbn; lia|]. split; [eexists; eexists; vm_compute; reflexivity|reflexivity].
Qed.
Definition only_7 (x y : Z) : bool := x =? 7.
Lemma flag_refuted : exists now k k' o w s, retrieve_imdl_fwd yes yes only_7 never 2 1 1 now k = Some (k', o) /\ l_status o = WeakEnabled /\ weak_at yes never now (pos k) w /\ strong_at yes never now (neg k) s /\
  only_7 (ev w) (ev s) = true /\ SFltb (cfd s) (cfd w) = true /\ l_wr o = false.
Proof.
  exists 10, (mkcaches [e_at 7 0 50 most; e_at 8 0 50 most] [e_at 1 0 50 half]). eexists. eexists. exists (e_at 7 0 50 most), (e_at 1 0 50 half).
  split; [vm_compute; reflexivity|]. split; [reflexivity|]. split; [split; [left; reflexivity|]; split; [unfold usable; cbn; split; [reflexivity|lia]|]; split; [unfold in_range; cbn; split; [lia|reflexivity]|discriminate]|].
  split; [exists [], []; split; [reflexivity|]; split; [split; [unfold usable; cbn; split; [reflexivity|lia]|]; split; [unfold in_range; cbn; split; [lia|reflexivity]|discriminate]|intros x []]|].
  split; [reflexivity|]. split; [reflexivity|]. reflexivity.
Qed.
