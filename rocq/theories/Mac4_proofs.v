From Coq Require Import String Permutation.
From Verif Require Import Base Ppr_model Ppr_spec Mac_model Mac_spec Mac_proofs Mac2_proofs Mac3_proofs.
From Verif Require Ppr2_proofs Ppr3_proofs.
Local Open Scope Z_scope.

(** * Counters *)
Definition pairs := list (text * text).
Definition occ := count_occ (list_eq_dec Z.eq_dec).
Definition numb (c c' : table Z) (P : pairs) : Prop :=
  (forall x y, In (x, y) P ->
     match find c x with
     | Some start => exists n stop, find c' x = Some stop /\ start <= n < stop /\ y = to_text n
     | None => y = x
     end) /\
  NoDup (filter (fun p => found (find c (fst p))) P) /\
  (forall x, find c' x = option_map (fun n => n + Z.of_nat (occ (map fst P) x)) (find c x)).

Lemma numb_nil : forall c, numb c c [].
Proof.
  intros c. split; [intros x y []|]. split; [constructor|]. intros x. cbn. destruct (find c x); cbn; [f_equal; lia|reflexivity].
Qed.

Lemma filter_perm : forall A (f : A -> bool) l l', Permutation l l' -> Permutation (filter f l) (filter f l').
Proof.
  induction 1; cbn; [constructor| | |eapply perm_trans; eassumption].
  - destruct (f x); [constructor; assumption|assumption].
  - destruct (f x), (f y); try constructor; apply Permutation_refl.
Qed.

Lemma numb_perm : forall c c' P P', Permutation P P' -> numb c c' P -> numb c c' P'.
Proof.
  intros c c' P P' E (A & B & C). split; [|split].
  - intros x y I. apply A. apply (Permutation_in _ (Permutation_sym E) I).
  - apply (Permutation_NoDup (filter_perm _ _ _ _ E) B).
  - intros x. rewrite C. destruct (find c x); cbn; [|reflexivity]. do 3 f_equal. apply (Permutation_count_occ (list_eq_dec Z.eq_dec)). apply Permutation_map, E.
Qed.

Lemma NoDup_both : forall A (l l' : list A), NoDup l -> NoDup l' -> (forall x, In x l -> ~ In x l') -> NoDup (l ++ l').
Proof.
  induction 1 as [|x l N _ IH]; intros H' D; [exact H'|]. cbn. constructor.
  - intros I. apply in_app_or in I. destruct I as [I|I]; [contradiction|]. apply (D x); [left; reflexivity|exact I].
  - apply IH; [exact H'|]. intros y I. apply D. right. exact I.
Qed.

Lemma numb_app : forall c c1 c2 P1 P2, numb c c1 P1 -> numb c1 c2 P2 -> numb c c2 (P1 ++ P2).
Proof.
  intros c c1 c2 P1 P2 (A1 & B1 & C1) (A2 & B2 & C2). split; [|split].
  - intros x y I. apply in_app_or in I. destruct I as [I|I].
    + specialize (A1 x y I). specialize (C2 x). destruct (find c x); [|exact A1]. destruct A1 as (n & stop & E & L & Y).
      rewrite E in C2. cbn in C2. exists n. eexists. split; [exact C2|]. split; [lia|exact Y].
    + specialize (A2 x y I). specialize (C1 x). rewrite C1 in A2. destruct (find c x); cbn in A2; [|exact A2].
      destruct A2 as (n & stop & E & L & Y). exists n, stop. split; [exact E|]. split; [lia|exact Y].
  - rewrite filter_app. apply NoDup_both; [exact B1| |].
    + erewrite filter_ext; [exact B2|]. intros [x y]. cbn. rewrite C1. destruct (find c x); reflexivity.
    + intros [x y] I1 I2. apply filter_In in I1, I2. destruct I1 as [I1 F]. destruct I2 as [I2 _]. cbn in F.
      specialize (A1 _ _ I1). specialize (A2 _ _ I2). rewrite C1 in A2. specialize (C1 x). destruct (find c x); [|discriminate]. cbn in *.
      destruct A1 as (n & stop & E & L & ->). destruct A2 as (n' & stop' & E' & L' & Y). apply to_text_inj in Y. subst n'.
      rewrite C1 in E. injection E as <-. lia.
  - intros x. rewrite C2, C1. unfold occ. rewrite map_app, count_occ_app. destruct (find c x); cbn [option_map]; [|reflexivity]. rewrite Nat2Z.inj_add, Z.add_assoc. reflexivity.
Qed.

Lemma count_up_numb : forall s r n r' s', count_up s r = (n, r', s') ->
  numb (counters s) (counters s') [(cmd_of r, cmd_of r')] /\ macros s' = macros s /\ conds s' = conds s /\ loaded s' = loaded s /\
  r' = with_cmd_of r (cmd_of r').
Proof.
  intros s [k c lb t args] n r' s' E. unfold count_up in E. cbn [cmd_of with_cmd_of] in *.
  destruct (find (counters s) c) as [z|] eqn:F; injection E as <- <- <-; cbn [cmd_of with_cmd_of counters set_counters macros conds loaded].
  - split; [|auto]. split; [|split].
    + intros x y [Q|[]]. injection Q as <- <-. rewrite F. exists z, (z + 1). rewrite find_put, eqt_refl. split; [reflexivity|]. split; [lia|reflexivity].
    + cbn. rewrite F. cbn. constructor; [intros []|constructor].
    + intros x. rewrite find_put. cbn [map fst]. unfold occ. destruct (list_eq_dec Z.eq_dec c x) as [Q|N].
      * rewrite count_occ_cons_eq by exact Q. subst x. rewrite eqt_refl, F. reflexivity.
      * rewrite count_occ_cons_neq by exact N. rewrite eqt_neq by exact N. destruct (find (counters s) x); cbn [option_map count_occ]; [f_equal; lia|reflexivity].
  - split; [|auto]. split; [|split].
    + intros x y [Q|[]]. injection Q as <- <-. rewrite F. reflexivity.
    + cbn. rewrite F. constructor.
    + intros x. cbn [map fst]. unfold occ. destruct (list_eq_dec Z.eq_dec c x) as [Q|N]; [subst x; rewrite F; reflexivity|].
      rewrite count_occ_cons_neq by exact N. destruct (find (counters s) x); cbn [option_map count_occ]; [f_equal; lia|reflexivity].
Qed.

Lemma names_eq : forall k c lb t args, names (Rs k c lb t args) = c :: List.concat (map names args).
Proof. reflexivity. Qed.

(** The shape of two structures is the same, apart from the names. *)
Definition same_shape (r r' : rs) : Prop := List.length (names r) = List.length (names r') /\ (code r -> code r') /\ kind_of r = kind_of r'.
Definition nm (l : list rs) : list text := List.concat (map names l).

Lemma combine_app : forall A B (a b : list A) (a' b' : list B), List.length a = List.length a' -> combine (a ++ b) (a' ++ b') = combine a a' ++ combine b b'.
Proof. induction a as [|x a IH]; destruct a' as [|x' a']; cbn; intros b' E; try discriminate; [reflexivity|]. f_equal. apply IH. lia. Qed.

Section Counting.
Variable files : text -> option (list rs).

(** A state where only counters matter. *)
Definition plain (s : state) : Prop := macros s = [] /\ conds s = [].
Definition kept (s s' : state) : Prop := macros s' = macros s /\ conds s' = conds s /\ loaded s' = loaded s.

Definition one (s s' : state) (l l' : list rs) : Prop :=
  kept s s' /\ List.length (nm l) = List.length (nm l') /\ Forall code l' /\ List.length l' = List.length l /\
  numb (counters s) (counters s') (combine (nm l) (nm l')).

Definition counts (r : rs) : Prop := forall s, plain s ->
  (exists n r' s', settles (fun f => process files f s r) (Ok n r' s') /\ one s s' [r] [r']) /\
  (exists n l' s', settles (fun f => subs files f s (args_of r)) (Ok n l' s') /\ one s s' (args_of r) l').

Lemma kept_trans : forall a b c, kept a b -> kept b c -> kept a c.
Proof. intros a b c (A & B & C) (A' & B' & C'). repeat split; congruence. Qed.
Lemma kept_plain : forall a b, kept a b -> plain a -> plain b.
Proof. intros a b (A & B & C) (A' & B'). split; congruence. Qed.

Lemma one_nil : forall s, one s s [] [].
Proof. intros s. repeat split; auto; try apply numb_nil. Qed.
Lemma one_cons : forall s s1 s2 x y l l', one s s1 [x] [y] -> one s1 s2 l l' -> one s s2 (x :: l) (y :: l').
Proof.
  intros s s1 s2 x y l l' (A & B & C & D & E) (A' & B' & C' & D' & E'). split; [eapply kept_trans; eassumption|].
  unfold nm in *. cbn [map List.concat] in *. rewrite !app_nil_r in B, E. split; [rewrite !app_length; lia|].
  split; [constructor; [inversion C; assumption|exact C']|]. split; [cbn; lia|]. rewrite combine_app by exact B. eapply numb_app; eassumption.
Qed.

Lemma subs_counts : forall l, Forall counts l -> forall s, plain s ->
  exists n l' s', settles (fun f => subs files f s l) (Ok n l' s') /\ one s s' l l'.
Proof.
  induction 1 as [|x l Hx _ IH]; intros s P.
  - exists 0%nat, [], s. split; [|apply one_nil]. exists 1%nat. intros f L. destruct f as [|f]; [lia|]. reflexivity.
  - destruct (Hx s P) as ((n & y & s1 & (m & S1) & O1) & _). destruct (IH s1 (kept_plain _ _ (proj1 O1) P)) as (n' & l' & s2 & (m' & S2) & O2).
    exists (n + n')%nat, (y :: l'), s2. split; [|eapply one_cons; eassumption].
    exists (S (m + m')). intros f L. destruct f as [|f]; [lia|]. rewrite subs_eq, S1, S2 by lia. reflexivity.
Qed.

Lemma each_counts : forall l, Forall code l -> Forall counts l -> forall s, plain s ->
  exists n l' s', settles (fun f => each files f s l) (Ok n (l', false) s') /\ one s s' l l'.
Proof.
  intros l C H. revert C. induction H as [|x l Hx _ IH]; intros C s P.
  - exists 0%nat, [], s. split; [|apply one_nil]. exists 1%nat. intros f L. destruct f as [|f]; [lia|]. reflexivity.
  - inversion C as [|? ? Cx Cl]; subst. destruct (Hx s P) as (_ & (n & a' & s1 & (m & S1) & O1)).
    destruct (count_up s1 (with_args_of x a')) as [[n' y] s2] eqn:U. destruct (count_up_numb _ _ _ _ _ U) as (N & K1 & K2 & K3 & Y).
    assert (K : kept s s2) by (apply (kept_trans s s1 s2 (proj1 O1)); repeat split; assumption).
    destruct (IH Cl s2 (kept_plain _ _ K P)) as (n2 & l' & s3 & (m' & S2) & O2).
    exists (n + n' + n2)%nat, (y :: l'), s3. split.
    + exists (S (m + m')). intros f L. destruct f as [|f]; [lia|]. rewrite each_eq. cbv zeta. destruct (code_kind x Cx) as [-> ->].
      rewrite (proj2 P). cbn [forallb negb]. rewrite expand_in_none by (rewrite (proj1 P); reflexivity). rewrite S1 by lia. rewrite U, S2 by lia. reflexivity.
    + apply (one_cons s s2 s3); [|exact O2]. destruct O1 as (_ & B & D & E & F). destruct x as [k c lb t args]. cbn [args_of with_args_of cmd_of with_cmd_of] in *.
      rewrite Y. cbn [cmd_of with_cmd_of]. split; [exact K|]. unfold nm in *. cbn [map List.concat]. rewrite !names_eq, !app_nil_r.
      split; [cbn; congruence|]. split; [constructor; [|constructor]; apply code_all in Cx; apply code_all; split; [apply Cx|exact D]|]. split; [reflexivity|].
      cbn [combine]. apply (numb_perm _ _ (combine (List.concat (map names args)) (List.concat (map names a')) ++ [(c, cmd_of y)])); [apply Permutation_sym, Permutation_cons_append|].
      eapply numb_app; eassumption.
Qed.

Lemma all_count : forall r, code r -> counts r.
Proof.
  refine (Ppr2_proofs.rs_all (fun r => code r -> counts r) _). intros k c lb t args IH C. pose proof C as Cr. apply code_all in C. destruct C as [K C].
  assert (H : Forall counts args) by (rewrite Forall_forall in *; auto). intros s P. split; [|apply (subs_counts args H s P)].
  destruct (count_up s (Rs k c lb t args)) as [[n1 r1] s1] eqn:U. destruct (count_up_numb _ _ _ _ _ U) as (N & K1 & K2 & K3 & Y). cbn [with_cmd_of] in Y.
  assert (K0 : kept s s1) by (repeat split; assumption).
  destruct (each_counts args C H s1 (kept_plain _ _ K0 P)) as (n & l' & s2 & (m & S1) & O).
  assert (R : r1 = Rs k (cmd_of r1) lb t args) by exact Y.
  exists (n1 + n)%nat, (Rs k (cmd_of r1) lb t l'), s2. split.
  - exists (S m). intros f L. destruct f as [|f]; [lia|]. rewrite process_eq, U. rewrite expand_in_none by (rewrite K1, (proj1 P); reflexivity).
    rewrite R. cbn [args_of]. destruct args as [|a args].
    + specialize (S1 (S m)). rewrite each_eq in S1. assert (E : Ok 0 ([] : list rs, false) s1 = Ok n (l', false) s2) by (apply S1; lia). injection E as <- <- <-.
      cbn [cmd_of]. first [reflexivity|f_equal; lia].
    + rewrite S1 by lia. cbn [cmd_of with_args_of]. f_equal. lia.
  - destruct O as (A & B & D & E & F). split; [eapply kept_trans; eassumption|]. unfold nm in *. cbn [map List.concat]. rewrite !names_eq, !app_nil_r.
    split; [cbn; congruence|]. split; [constructor; [|constructor]; apply code_all; split; [exact K|exact D]|]. split; [reflexivity|].
    cbn [combine]. apply (numb_app _ _ _ [(c, cmd_of r1)] _ N F).
Qed.

Lemma names_without : forall K r, code r -> (forall x, In x (names r) -> K x = false) -> without K r.
Proof.
  intros K. refine (Ppr2_proofs.rs_all (fun r => code r -> (forall x, In x (names r) -> K x = false) -> without K r) _).
  intros k c lb t args IH C H. apply code_all in C. apply without_all. split; [apply C|]. rewrite names_eq in H. split; [apply H; left; reflexivity|].
  destruct C as [_ C]. rewrite Forall_forall in *. intros a I. apply IH; auto. intros x X. apply H. right. apply in_concat. exists (names a). split; [apply in_map, I|exact X].
Qed.

Lemma in_combine_right : forall A B (l : list A) (l' : list B) y, List.length l = List.length l' -> In y l' -> exists x, In (x, y) (combine l l').
Proof.
  induction l as [|a l IH]; destruct l' as [|b l']; cbn; intros y E I; try discriminate; [destruct I|]. destruct I as [<-|I]; [exists a; auto|].
  destruct (IH l' y) as [x X]; [lia|exact I|]. exists x. auto.
Qed.

(** All is counted in one pass. *)
Lemma counters_number : forall s l, macros s = [] -> conds s = [] -> find (counters s) [] = None ->
  (forall n, find (counters s) (to_text n) = None) -> Forall code l ->
  exists l' s', processed files s l (Ok 0 l' s') /\ List.length l' = List.length l /\
    numbered (counters s) (counters s') (List.concat (map names l)) (List.concat (map names l')).
Proof.
  intros s l M Cs Z NT C. assert (P : plain s) by (split; assumption).
  assert (H : Forall counts l) by (rewrite Forall_forall in *; intros x I; apply all_count; auto).
  destruct (each_counts l C H s P) as (n & l' & s' & S1 & (A & B & D & E & F)). exists l', s'.
  assert (Kn : known s [] = false) by (unfold known; rewrite M, Z; reflexivity).
  assert (Fin : processed files s' l' (Ok 0 l' s')).
  { apply untouched.
    - unfold all_active. destruct A as (_ & -> & _). rewrite Cs. reflexivity.
    - rewrite Forall_forall in *. intros x I. left. apply names_without; [auto|]. intros y Y. unfold known. destruct A as (-> & _). rewrite M. cbn.
      assert (I2 : In y (nm l')) by (apply in_concat; exists (names x); split; [apply in_map, I|exact Y]).
      destruct (in_combine_right _ _ (nm l) (nm l') y B I2) as [x0 X0]. destruct F as (F1 & _ & F3). specialize (F1 _ _ X0). rewrite F3.
      destruct (find (counters s) x0) as [z|] eqn:Fx; [destruct F1 as (n0 & _ & _ & _ & ->); rewrite NT; reflexivity|subst x0; rewrite Fx; reflexivity].
    - unfold known. destruct A as (-> & _). rewrite M. destruct F as (_ & _ & F3). rewrite F3, Z. reflexivity. }
  split; [|split; [exact E|]].
  - destruct l as [|x l].
    + destruct S1 as [m S1]. specialize (S1 (S m)). rewrite each_eq in S1. assert (Q : Ok 0 ([] : list rs, false) s = Ok n (l', false) s') by (apply S1; lia).
      injection Q as <- <- <-. exact Fin.
    + assert (R : one_pass files s (x :: l) n l' s').
      { destruct S1 as [m S1]. exists (S m). intros f L. destruct f as [|f]; [lia|]. rewrite process_eq. rewrite count_up_none by exact Z. rewrite expand_in_none by (rewrite M; reflexivity).
        cbn [args_of]. rewrite S1 by lia. reflexivity. }
      destruct n as [|n]; [apply processed_0, R|]. eapply processed_S; eassumption.
  - destruct F as (F1 & F2 & F3). split; [exact B|]. split; [exact F1|]. split; [exact F2|]. intros x. rewrite F3. destruct (find (counters s) x); cbn; [|reflexivity].
    do 3 f_equal. unfold nm, occ in *. assert (map fst (combine (List.concat (map names l)) (List.concat (map names l'))) = List.concat (map names l)) as ->; [|reflexivity].
    clear - B. unfold nm in B. revert B. generalize (List.concat (map names l')). induction (List.concat (map names l)) as [|a q IH]; intros [|b q'] B; cbn in *; try discriminate; [reflexivity|].
    f_equal. apply IH. lia.
Qed.

(** * Loads *)
Definition grows (s s' : state) : Prop := (NoDup (loaded s) -> NoDup (loaded s')) /\ exists l, loaded s' = loaded s ++ l.
Lemma grows_refl : forall s, grows s s.
Proof. intros s. split; [auto|exists []; rewrite app_nil_r; reflexivity]. Qed.
Lemma grows_same : forall s s', loaded s' = loaded s -> grows s s'.
Proof. intros s s' E. split; [rewrite E; auto|exists []; rewrite app_nil_r; exact E]. Qed.
Lemma grows_trans : forall a b c, grows a b -> grows b c -> grows a c.
Proof. intros a b c (A & l & B) (A' & l' & B'). split; [auto|]. exists (l ++ l'). rewrite B', B, app_assoc. reflexivity. Qed.
Definition then_grows {A} (s : state) (o : result A) : Prop := match o with Ok _ _ s' => grows s s' | _ => True end.

Lemma count_up_loaded : forall s r n r' s', count_up s r = (n, r', s') -> loaded s' = loaded s.
Proof. intros s r n r' s' E. apply (count_up_numb _ _ _ _ _ E). Qed.

Lemma process_grows : forall f,
  (forall s r, then_grows s (process files f s r)) /\ (forall s l, then_grows s (each files f s l)) /\
  (forall s l, then_grows s (subs files f s l)) /\ (forall s r, then_grows s (repeat_ files f s r)).
Proof.
  induction f as [|f (P & E & S' & R)]; [repeat split; intros; exact Logic.I|]. split; [|split; [|split]].
  - intros s r. rewrite process_eq. destruct (count_up s r) as [[n1 r1] s1] eqn:U. pose proof (grows_same _ _ (count_up_loaded _ _ _ _ _ U)) as G.
    destruct (expand_in s1 r1) as [[n2 r2]|]; [|exact Logic.I]. destruct (args_of r2) as [|a args]; [exact G|].
    specialize (E s1 (a :: args)). destruct (each files f s1 (a :: args)) as [n [l e] s2| | |]; auto. apply (grows_trans s s1 s2 G E).
  - intros s l. rewrite each_eq. cbv zeta. destruct l as [|x l]; [apply grows_refl|].
    assert (N : forall n y s1, grows s s1 -> then_grows s
        (let '(n', y, s1) := count_up s1 y in
         match each files f s1 l with Ok m (l, early) s1 => Ok (n + n' + m) (y :: l, early) s1 | o => o end)).
    { intros n y s1 G. destruct (count_up s1 y) as [[n' y'] s2] eqn:U. pose proof (grows_same _ _ (count_up_loaded _ _ _ _ _ U)) as G2.
      specialize (E s2 l). destruct (each files f s2 l) as [m [l1 e] s3| | |]; auto. apply (grows_trans s s1 s3 G (grows_trans s1 s2 s3 G2 E)). }
    destruct (is (kind_of x) Condition).
    { destruct (condition s x) as [s1|] eqn:Cd; [|exact Logic.I]. apply grows_same. unfold condition in Cd.
      repeat match type of Cd with (if ?b then _ else _) = _ => destruct b | match ?m with _ => _ end = _ => destruct m end; try discriminate; injection Cd as <-; reflexivity. }
    destruct (negb (forallb (active s) (conds s))); [apply grows_refl|].
    destruct (is (kind_of x) Directive).
    + destruct (eqt (cmd_of x) (txt "!counter")); [destruct (args_of x); [exact Logic.I|apply N, grows_same; reflexivity]|].
      destruct (eqt (cmd_of x) (txt "!def")).
      { destruct (args_of x) as [|a args]; [exact Logic.I|]. specialize (R s (back_of a (a :: args))). destruct (repeat_ files f s (back_of a (a :: args))) as [n body s1| | |]; auto. }
      destruct (eqt (cmd_of x) (txt "!undef")).
      { destruct (args_of x) as [|a args]; [exact Logic.I|]. destruct (find (macros s) (cmd_of a)); [|exact Logic.I]. destruct (find (counters s) (cmd_of a)); [|exact Logic.I].
        apply N, grows_same. reflexivity. }
      destruct (eqt (cmd_of x) (txt "!load")); [|apply N, grows_refl].
      destruct (args_of x) as [|a args]; [exact Logic.I|].
      destruct (if existsb (eqt (cmd_of a)) (loaded s) then Some [] else files (cmd_of a)) as [new|]; [|exact Logic.I].
      set (s1 := if existsb (eqt (cmd_of a)) (loaded s) then s else set_loaded s (loaded s ++ [cmd_of a])).
      assert (G : grows s s1).
      { unfold s1. destruct (existsb (eqt (cmd_of a)) (loaded s)) eqn:X; [apply grows_refl|]. split; [|exists [cmd_of a]; reflexivity].
        intros D. cbn [loaded set_loaded]. apply NoDup_both; [exact D|constructor; [intros []|constructor]|]. intros y I [Q|[]]. subst y.
        assert (existsb (eqt (cmd_of a)) (loaded s) = true) by (apply existsb_exists; exists (cmd_of a); split; [exact I|apply eqt_refl]). congruence. }
      destruct (new ++ l) as [|y l']; [exact G|]. specialize (E s1 l'). destruct (each files f s1 l') as [m [l1 e] s3| | |]; auto. apply (grows_trans s s1 s3 G E).
    + destruct (expand_in s x) as [[n y]|]; [|exact Logic.I]. specialize (S' s (args_of y)). destruct (subs files f s (args_of y)) as [m args s1| | |]; auto.
  - intros s l. rewrite subs_eq. destruct l as [|x l]; [apply grows_refl|]. specialize (P s x). destruct (process files f s x) as [n y s1| | |]; auto.
    specialize (S' s1 l). destruct (subs files f s1 l) as [m l1 s2| | |]; auto. apply (grows_trans s s1 s2 P S').
  - intros s r. rewrite repeat__eq. specialize (P s r). destruct (process files f s r) as [n y s1| | |]; auto. destruct n; [exact P|].
    specialize (R s1 y). destruct (repeat_ files f s1 y) as [m l1 s2| | |]; auto. apply (grows_trans s s1 s2 P R).
Qed.

Lemma passes_grow : forall f s l n l' s', passes files f s l = Ok n l' s' -> grows s s'.
Proof.
  induction f as [|f IH]; intros s l n l' s' H; [discriminate|]. cbn [passes] in H. destruct (process_grows (S f)) as (P & _). specialize (P s (Rs Root [] [] [] l)).
  destruct (process files (S f) s (Rs Root [] [] [] l)) as [m r s1| | |]; try discriminate. destruct m; [injection H as _ _ <-; exact P|].
  apply (grows_trans s s1 s' P). eapply IH, H.
Qed.

Lemma loaded_once : forall s l n l' s', processed files s l (Ok n l' s') -> NoDup (loaded s) -> NoDup (loaded s') /\ exists new, loaded s' = loaded s ++ new.
Proof. intros s l n l' s' [m H] D. destruct (passes_grow _ _ _ _ _ _ (H m (le_n m))) as [A B]. auto. Qed.
End Counting.
