From Coq Require Import String.
From Verif Require Import Base Ppr_model Ppr_spec Mac_model Mac_spec Mac_proofs Mac2_proofs Mac3_proofs Mac4_proofs.
From Verif Require Ppr2_proofs Ppr3_proofs.
Local Open Scope Z_scope.

Ltac run_text := do 3 eexists; split; [apply (Ppr3_proofs.reads_at 80); vm_compute; reflexivity|]; split; [apply (processed_at _ 40); [vm_compute; reflexivity|discriminate]|vm_compute; reflexivity].
Ltac run_crash := eexists; split; [apply (Ppr3_proofs.reads_at 80); vm_compute; reflexivity|apply (processed_at _ 40); [vm_compute; reflexivity|discriminate]].

(** * Substitution *)
Lemma substitution_refuted :
  outputs no_files nothing (lines ["!def (f x) (g x x)"; "(f a)"]%string) (lines [""; "(g a x)"]%string) /\
  outputs no_files nothing (lines ["!def (f x y) (g x y)"; "(f y a)"]%string) (lines [""; "(g a y)"]%string) /\
  outputs no_files nothing (lines ["!def (f x) x"; "(f a)"]%string) (lines [""; "x"]%string).
Proof. split; [|split]; run_text. Qed.

(** * Conditions *)
Lemma conditions_refuted :
  outputs no_files nothing (lines ["!ifdef d"; "(a)"; "!endif"]%string) (lines [""; "(a)"; ""]%string) /\
  outputs no_files nothing (lines ["!ifdef d"; "(a)"; "!endif"; "!def (f x) (g x)"; "(f b)"]%string) (lines [""; "(a)"; ""; ""; "(f b)"]%string).
Proof. split; run_text. Qed.

(** * Counters *)
Lemma counters_refuted :
  outputs no_files nothing (lines ["!counter n 0"; "!def (f x) (g n x)"; "(f a)"; "(f b)"]%string) (lines [""; ""; "(g 0 a)"; "(g 0 b)"]%string).
Proof. run_text. Qed.

(** * Macros that are left *)
Lemma left_over_refuted :
  outputs no_files nothing (lines ["(f q)"; "!def (f x) (g x)"]%string) (lines ["(f q)"; ""]%string).
Proof. run_text. Qed.

(** * Undefined behaviour *)
Lemma crashes_refuted :
  crashes no_files nothing (lines ["!def (f x) (g x)"; "!undef f"]%string) /\
  crashes no_files nothing (lines ["!else"; "(a)"]%string) /\
  crashes (one_file (txt "e") guarded_file) nothing (lines ["!load e"; "(a)"]%string).
Proof. split; [|split]; run_crash. Qed.

(** * A macro that uses itself *)
Definition use_of (x : string) : rs := Rs Structure (txt "f") [] [] [atom (txt x)].
Definition self_def : rs := Rs Directive (txt "!def") [] [] [use_of "x"; use_of "x"].
Definition self_state : state := set_macros nothing [(txt "f", (use_of "x", use_of "x"))].

Lemma self_process : forall files f, process files f self_state (use_of "x") = Out \/ process files f self_state (use_of "x") = Ok 1 (use_of "x") self_state.
Proof.
  intros files f. destruct f as [|[|[|[|f]]]]; first [left; reflexivity|right; reflexivity].
Qed.
Lemma self_repeat : forall files f, repeat_ files f self_state (use_of "x") = Out.
Proof.
  intros files. induction f as [|f IH]; [reflexivity|]. rewrite repeat__eq. destruct (self_process files f) as [-> | ->]; [reflexivity|]. rewrite IH. reflexivity.
Qed.
Lemma self_each : forall files f l, each files f self_state (self_def :: l) = Out.
Proof.
  intros files f l. destruct f as [|f]; [reflexivity|]. rewrite each_eq. cbv zeta.
  change (is (kind_of self_def) Condition) with false. change (is (kind_of self_def) Directive) with true.
  change (negb (forallb (active self_state) (conds self_state))) with false. change (args_of self_def) with [use_of "x"; use_of "x"].
  change (eqt (cmd_of self_def) (txt "!counter")) with false. change (eqt (cmd_of self_def) (txt "!def")) with true. cbn match.
  change (back_of (use_of "x") [use_of "x"; use_of "x"]) with (use_of "x"). rewrite self_repeat. reflexivity.
Qed.
Lemma self_root : forall files f l, process files f self_state (Rs Root [] [] [] (self_def :: l)) = Out.
Proof.
  intros files f l. destruct f as [|f]; [reflexivity|]. rewrite process_eq. rewrite count_up_none by reflexivity. rewrite expand_in_none by reflexivity.
  cbn [args_of]. rewrite self_each. reflexivity.
Qed.
Lemma self_first : forall files f, process files f nothing (Rs Root [] [] [] [self_def; use_of "a"]) = Out \/
  process files f nothing (Rs Root [] [] [] [self_def; use_of "a"]) = Ok 1 (Rs Root [] [] [] [self_def; use_of "a"]) self_state.
Proof.
  intros files f. destruct (Nat.le_gt_cases 12 f) as [L|L].
  - right. destruct (process_more files 12 f L) as (P & _). rewrite P; [reflexivity|]. vm_compute. discriminate.
  - do 12 (destruct f as [|f]; [first [left; vm_compute; reflexivity|right; vm_compute; reflexivity]|]). lia.
Qed.
Lemma self_never_ends : forall files, never_ends files nothing (lines ["!def (f x) (f x)"; "(f a)"]%string).
Proof.
  intros files. exists [self_def; use_of "a"]. split; [apply (Ppr3_proofs.reads_at 80); vm_compute; reflexivity|].
  intros f. destruct f as [|f]; [reflexivity|]. cbn [passes]. destruct (self_first files (S f)) as [-> | ->]; [reflexivity|].
  destruct f as [|f]; [reflexivity|]. cbn [passes args_of]. rewrite self_root. reflexivity.
Qed.

(** * A definition and its use *)
Section Use.
Variable files : text -> option (list rs).

Lemma with_macro_known : forall src body c, known (with_macro src body) c = eqt (cmd_of src) c.
Proof. intros. unfold known, with_macro. cbn. destruct (eqt (cmd_of src) c); reflexivity. Qed.

Lemma repeat_quiet : forall s r, all_active s -> without (known s) r -> settles (fun f => repeat_ files f s r) (Ok 0 r s).
Proof.
  intros s r A W. destruct (all_quiet files s A r W) as [[m Q] _]. exists (S m). intros f L. destruct f as [|f]; [lia|]. rewrite repeat__eq, Q by lia. reflexivity.
Qed.

Lemma define_each : forall s src body l n l' s', all_active s -> counters s = [] -> without (known s) body ->
  settles (fun f => each files f (set_macros s (put (macros s) (cmd_of src) (src, body))) l) (Ok n (l', false) s') ->
  settles (fun f => each files f s (define src body :: l)) (Ok n (define src body :: l', false) s').
Proof.
  intros s src body l n l' s' A C W [m H]. destruct (repeat_quiet s body A W) as [m' R]. exists (S (m + m')). intros f L. destruct f as [|f]; [lia|].
  rewrite each_eq. cbv zeta. change (is (kind_of (define src body)) Condition) with false. change (is (kind_of (define src body)) Directive) with true.
  rewrite A. cbn [negb]. change (args_of (define src body)) with [src; body].
  change (eqt (cmd_of (define src body)) (txt "!counter")) with false. change (eqt (cmd_of (define src body)) (txt "!def")) with true. cbn match.
  change (back_of src [src; body]) with body. rewrite R by lia. cbn [removelast app hd with_args_of define].
  rewrite count_up_none by (cbn [counters set_macros]; rewrite C; reflexivity). rewrite H by lia. reflexivity.
Qed.

Lemma use_each : forall s src body use l, all_active s -> counters s = [] -> find (macros s) (cmd_of use) = Some (src, body) -> code use ->
  linear (map cmd_of (args_of src)) (args_of use) (args_of body) ->
  without (known s) (meaning (map cmd_of (args_of src)) body use) -> Forall (passive s) l ->
  settles (fun f => each files f s (use :: l)) (Ok 1 (meaning (map cmd_of (args_of src)) body use :: l, false) s).
Proof.
  intros s src body use l A C F Cu Li W P. set (y := meaning (map cmd_of (args_of src)) body use) in *.
  destruct (all_quiet files s A y W) as [_ [m Q]].
  pose proof (passive_front files s A l [] 0 [] false s P (each_nil files s)) as [m' R]. rewrite !app_nil_r in R.
  exists (S (m + m')). intros f L. destruct f as [|f]; [lia|]. rewrite each_eq. cbv zeta. destruct (code_kind use Cu) as [-> ->].
  rewrite A. cbn [negb]. assert (expand_in s use = Some (1%nat, y)) as -> by (unfold expand_in; rewrite F, expand_meaning by exact Li; reflexivity).
  rewrite Q by lia. rewrite with_args_same, count_up_none by (rewrite C; reflexivity). rewrite R by lia. reflexivity.
Qed.

Lemma def_used : forall src body use l1 l2,
  cmd_of src <> [] -> cmd_of use = cmd_of src -> code use -> linear (map cmd_of (args_of src)) (args_of use) (args_of body) ->
  let other := without (eqt (cmd_of src)) in
  other body -> other (meaning (map cmd_of (args_of src)) body use) -> Forall other l1 -> Forall other l2 ->
  processed files nothing (define src body :: l1 ++ use :: l2)
    (Ok 0 (define src body :: l1 ++ meaning (map cmd_of (args_of src)) body use :: l2) (with_macro src body)).
Proof.
  intros src body use l1 l2 N E Cu Li other Ob Om O1 O2. set (y := meaning (map cmd_of (args_of src)) body use) in *. set (s := with_macro src body).
  assert (W : forall r, other r -> without (known s) r) by (intros r; apply without_weaken; intros c; unfold s; rewrite with_macro_known; auto).
  assert (Ps : forall l, Forall other l -> Forall (passive s) l) by (intros l; apply Forall_impl; intros r O; left; auto).
  assert (A : all_active s) by reflexivity.
  assert (P1 : settles (fun f => each files f nothing (define src body :: l1 ++ use :: l2)) (Ok 1 (define src body :: l1 ++ y :: l2, false) s)).
  { apply define_each; [reflexivity|reflexivity|apply (without_weaken (eqt (cmd_of src))); [reflexivity|exact Ob]|].
    change (set_macros nothing (put (macros nothing) (cmd_of src) (src, body))) with s.
    apply (passive_front files s A l1); [auto|]. apply use_each; auto. unfold s, with_macro. cbn. rewrite E, eqt_refl. reflexivity. }
  assert (P2 : settles (fun f => each files f s (define src body :: l1 ++ y :: l2)) (Ok 0 (define src body :: l1 ++ y :: l2, false) s)).
  { apply define_each; [reflexivity|reflexivity|auto|].
    assert (set_macros s (put (macros s) (cmd_of src) (src, body)) = s) as -> by (unfold s, with_macro, put; cbn; rewrite eqt_refl; reflexivity).
    pose proof (passive_front files s A (l1 ++ y :: l2) [] 0 [] false s) as R. rewrite !app_nil_r in R. apply R; [|apply each_nil].
    apply Ps. apply Forall_app. split; [exact O1|constructor; assumption]. }
  apply (processed_S files nothing _ 0 (define src body :: l1 ++ y :: l2) s).
  - apply (root_pass files nothing _ 1 _ false s); [reflexivity|exact P1|discriminate].
  - apply processed_0. apply (root_pass files s _ 0 _ false s); [unfold s; rewrite with_macro_known; apply eqt_neq; exact N|exact P2|discriminate].
Qed.
End Use.

(** * A counter and its uses *)
Section Counter.
Variable files : text -> option (list rs).

Lemma counter_each : forall s name start l n l' s', all_active s -> name <> txt "!counter" -> find (counters s) (txt "!counter") = None ->
  settles (fun f => each files f (set_counters s (put (counters s) name (atoi start))) l) (Ok n (l', false) s') ->
  settles (fun f => each files f s (counter name start :: l)) (Ok n (counter name start :: l', false) s').
Proof.
  intros s name start l n l' s' A N F [m H]. exists (S m). intros f L. destruct f as [|f]; [lia|].
  rewrite each_eq. cbv zeta. change (is (kind_of (counter name start)) Condition) with false. change (is (kind_of (counter name start)) Directive) with true.
  rewrite A. cbn [negb]. change (eqt (cmd_of (counter name start)) (txt "!counter")) with true. cbn match. cbn [args_of counter atom cmd_of back_of last].
  rewrite count_up_none by (cbn [counters set_counters cmd_of]; rewrite find_put, eqt_neq by exact N; exact F). rewrite H by lia. reflexivity.
Qed.

Lemma drop_none : forall A (m : table A) k, find m k = None -> drop m k = m.
Proof.
  induction m as [|[k' v] m IH]; intros k; cbn; [reflexivity|]. destruct (eqt k' k); [discriminate|]. intros E. rewrite IH by exact E. reflexivity.
Qed.

Lemma counter_used : forall name start l, name <> [] -> name <> txt "!counter" -> (forall n, name <> to_text n) -> Forall code l ->
  exists l' s' c', processed files nothing (counter name start :: l) (Ok 0 (counter name start :: l') s') /\ List.length l' = List.length l /\
    numbered [(name, atoi start)] c' (List.concat (map names l)) (List.concat (map names l')).
Proof.
  intros name start l N1 N2 N3 C. set (s := set_counters nothing [(name, atoi start)]).
  assert (P : plain s) by (split; reflexivity).
  assert (H : Forall (counts files) l) by (rewrite Forall_forall in *; intros x I; apply all_count; auto).
  destruct (each_counts files l C H s P) as (n & l' & s1 & S1 & (A & B & D & E & F)).
  assert (P1 : settles (fun f => each files f nothing (counter name start :: l)) (Ok n (counter name start :: l', false) s1)).
  { apply counter_each; auto; reflexivity. }
  (* what is left is quiet whatever the value of the counter *)
  assert (Q : forall y, In y (List.concat (map names l')) -> y <> name).
  { intros y I. destruct (in_combine_right _ _ (nm l) (nm l') y B I) as [x0 X0]. destruct F as (F1 & _ & _). specialize (F1 _ _ X0).
    destruct (find (counters s) x0) as [z|] eqn:Fx; [destruct F1 as (n0 & _ & _ & _ & ->); intros Q; apply (N3 n0); congruence|].
    subst x0. intros ->. unfold s in Fx. cbn in Fx. rewrite eqt_refl in Fx. discriminate. }
  assert (Kc : forall x, x <> name -> find (counters s1) x = None).
  { intros x X. destruct F as (_ & _ & F3). rewrite F3. unfold s. cbn. rewrite eqt_neq by congruence. reflexivity. }
  set (s2 := set_counters s1 (put (counters s1) name (atoi start))).
  assert (Wl : Forall (passive s2) l').
  { rewrite Forall_forall in *. intros x I. left. apply names_without; [auto|]. intros y Y. unfold known, s2. cbn [macros counters set_counters].
    destruct A as (-> & _). cbn [macros s set_counters nothing find found orb]. assert (y <> name) as X by (apply Q, in_concat; exists (names x); split; [apply in_map, I|exact Y]).
    rewrite find_put, eqt_neq by congruence. rewrite Kc by exact X. reflexivity. }
  assert (P2 : settles (fun f => each files f s1 (counter name start :: l')) (Ok 0 (counter name start :: l', false) s2)).
  { apply counter_each; auto; [unfold all_active; destruct A as (_ & -> & _); reflexivity|].
    pose proof (passive_front files s2) as R. assert (A2 : all_active s2) by (unfold all_active, s2; cbn [conds set_counters]; destruct A as (_ & -> & _); reflexivity).
    specialize (R A2 l' [] 0%nat [] false s2 Wl (each_nil files s2)). rewrite !app_nil_r in R. exact R. }
  assert (K1 : known s1 [] = false) by (unfold known; rewrite Kc by congruence; destruct A as (-> & _); reflexivity).
  assert (K2 : known s2 [] = false) by (unfold known, s2; cbn [macros counters set_counters]; rewrite find_put, eqt_neq, Kc by congruence; destruct A as (-> & _); reflexivity).
  assert (G2 : processed files s1 (counter name start :: l') (Ok 0 (counter name start :: l') s2)).
  { apply processed_0. apply (root_pass files s1 _ 0 _ false s2); [exact K1|exact P2|discriminate]. }
  exists l'. exists (if n then s1 else s2), (counters s1). split; [|split; [exact E|]].
  - destruct n as [|n].
    + apply processed_0. apply (root_pass files nothing _ 0 _ false s1); [reflexivity|exact P1|discriminate].
    + eapply processed_S; [|exact G2]. apply (root_pass files nothing _ (S n) _ false s1); [reflexivity|exact P1|discriminate].
  - destruct F as (F1 & F2 & F3). split; [exact B|]. split; [exact F1|]. split; [exact F2|]. intros x. rewrite F3.
    change (counters s) with [(name, atoi start)]. destruct (find [(name, atoi start)] x); cbn [option_map]; [|reflexivity].
    do 3 f_equal. unfold nm, occ in *. assert (map fst (combine (List.concat (map names l)) (List.concat (map names l'))) = List.concat (map names l)) as ->; [|reflexivity].
    clear - B. unfold nm in B. revert B. generalize (List.concat (map names l')). induction (List.concat (map names l)) as [|a q IH]; intros [|b q'] B; cbn in *; try discriminate; [reflexivity|].
    f_equal. apply IH. lia.
Qed.
End Counter.

(** * Numbers are read as they are written *)
From Coq Require Import DecimalString DecimalPos DecimalZ DecimalFacts.
Fixpoint value (u : Decimal.uint) (n : Z) : Z :=
  match u with
  | Decimal.Nil => n
  | Decimal.D0 u => value u (10 * n) | Decimal.D1 u => value u (10 * n + 1) | Decimal.D2 u => value u (10 * n + 2)
  | Decimal.D3 u => value u (10 * n + 3) | Decimal.D4 u => value u (10 * n + 4) | Decimal.D5 u => value u (10 * n + 5)
  | Decimal.D6 u => value u (10 * n + 6) | Decimal.D7 u => value u (10 * n + 7) | Decimal.D8 u => value u (10 * n + 8)
  | Decimal.D9 u => value u (10 * n + 9)
  end.
Lemma digits_value : forall u n, Mac_model.digits (txt (NilEmpty.string_of_uint u)) n = value u n.
Proof.
  induction u; intros n; cbn [NilEmpty.string_of_uint txt Mac_model.digits value]; [reflexivity|..];
    match goal with |- context [char_of ?a] => let z := eval vm_compute in (char_of a) in change (char_of a) with z end; cbn [Z.leb Z.compare Pos.compare Pos.compare_cont andb];
    rewrite IHu; f_equal; lia.
Qed.
Lemma value_acc : forall u p, value u (Zpos p) = Zpos (Pos.of_uint_acc u p).
Proof. induction u; intros p; cbn [value Pos.of_uint_acc]; [reflexivity|..]; rewrite <- IHu; f_equal; lia. Qed.
Lemma value_0 : forall u, value u 0 = Z.of_N (Pos.of_uint u).
Proof.
  induction u; cbn [value Pos.of_uint]; [reflexivity|exact IHu|..]; rewrite <- value_acc || idtac; cbn [Z.of_N]; rewrite <- value_acc; reflexivity.
Qed.
Lemma atoi_to_text : forall n, atoi (to_text n) = n.
Proof.
  intros n. unfold to_text. rewrite <- (DecimalZ.of_to n) at 2. destruct (Z.to_int n) as [u|u] eqn:E.
  - cbn [NilEmpty.string_of_int]. transitivity (Mac_model.digits (txt (NilEmpty.string_of_uint u)) 0); [|rewrite digits_value, value_0; reflexivity].
    destruct u; reflexivity.
  - cbn [NilEmpty.string_of_int txt atoi]. match goal with |- context [char_of ?a] => change (char_of a) with 45 end. cbn [Z.eqb Pos.eqb]. rewrite digits_value, value_0. reflexivity.
Qed.
