From Coq Require Import String DecimalString DecimalFacts DecimalZ.
From Verif Require Import Base Ppr_model Ppr_spec Mac_model Mac_spec Mac_proofs.
From Verif Require Ppr2_proofs.
Local Open Scope Z_scope.

Lemma without_all : forall K k c lb t args, without K (Rs k c lb t args) <->
  (inner k = true \/ k = Atom) /\ K c = false /\ Forall (without K) args.
Proof.
  intros. cbn [without]. assert (E : fold_right (fun a P => without K a /\ P) True args <-> Forall (without K) args).
  { induction args as [|a l IH]; cbn; [split; auto|]. rewrite IH. split; [intros [A B]; constructor; auto|inversion 1; auto]. }
  rewrite E. tauto.
Qed.

Lemma code_all : forall k c lb t args, code (Rs k c lb t args) <-> (inner k = true \/ k = Atom) /\ Forall code args.
Proof. intros. unfold code. rewrite without_all. tauto. Qed.

Lemma with_args_same : forall r, with_args_of r (args_of r) = r.
Proof. intros [k c lb t args]. reflexivity. Qed.

Section Quiet.
Variable files : text -> option (list rs).

Lemma not_known : forall s c, known s c = false -> find (macros s) c = None /\ find (counters s) c = None.
Proof.
  intros s c. unfold known, found. destruct (find (macros s) c), (find (counters s) c); cbn; intros; try discriminate. auto.
Qed.

Lemma count_up_none : forall s r, find (counters s) (cmd_of r) = None -> count_up s r = (0%nat, r, s).
Proof. intros s r E. unfold count_up. rewrite E. reflexivity. Qed.
Lemma expand_in_none : forall s r, find (macros s) (cmd_of r) = None -> expand_in s r = Some (0%nat, r).
Proof. intros s r E. unfold expand_in. rewrite E. reflexivity. Qed.

Definition settles {A} (g : nat -> A) (o : A) : Prop := exists m, forall f, (m <= f)%nat -> g f = o.
Lemma settles_S : forall A (g : nat -> A) o, settles (fun f => g (S f)) o -> settles g o.
Proof. intros A g o [m H]. exists (S m). intros f L. destruct f as [|f]; [lia|]. apply H. lia. Qed.
Lemma settles_const : forall A (o : A), settles (fun _ => o) o.
Proof. intros. exists 0%nat. auto. Qed.
Lemma settles_ext : forall A B (g : nat -> A) (h : A -> B) o o', settles g o -> h o = o' -> settles (fun f => h (g f)) o'.
Proof. intros A B g h o o' [m H] E. exists m. intros f L. rewrite H by exact L. exact E. Qed.
Lemma settles_2 : forall A B C (g : nat -> A) (k : nat -> B) (h : A -> B -> C) o o' o'', settles g o -> settles k o' -> h o o' = o'' ->
  settles (fun f => h (g f) (k f)) o''.
Proof. intros A B C g k h o o' o'' [m H] [m' H'] E. exists (m + m')%nat. intros f L. rewrite H, H' by lia. exact E. Qed.
Lemma settles_eq : forall A (g k : nat -> A) o, (forall f, g f = k f) -> settles k o -> settles g o.
Proof. intros A g k o E [m H]. exists m. intros f L. rewrite E. apply H, L. Qed.

Section State.
Variable s : state.
Hypothesis act : all_active s.

Definition quiet (r : rs) : Prop :=
  settles (fun f => process files f s r) (Ok 0 r s) /\ settles (fun f => subs files f s (args_of r)) (Ok 0 (args_of r) s).

Lemma subs_quiet : forall l, Forall quiet l -> settles (fun f => subs files f s l) (Ok 0 l s).
Proof.
  induction 1 as [|x l [Q _] _ IH]; apply settles_S; (eapply settles_eq; [intros f; rewrite subs_eq; reflexivity|]).
  - apply settles_const.
  - destruct Q as [m Q]. destruct IH as [m' IH]. exists (m + m')%nat. intros f L. rewrite Q, IH by lia. reflexivity.
Qed.

(** Lines before the rest [l2], which is left to be done. *)
Lemma each_front : forall l1 l2 n l2' e s', Forall (fun x => quiet x /\ without (known s) x \/ (declaration x /\ known s (cmd_of x) = false)) l1 ->
  settles (fun f => each files f s l2) (Ok n (l2', e) s') -> settles (fun f => each files f s (l1 ++ l2)) (Ok n (l1 ++ l2', e) s').
Proof.
  intros l1 l2 n l2' e s' F H. induction F as [|x l1 Fx _ IH]; [exact H|]. clear H. destruct IH as [m IH]. cbn [app].
  assert (A : negb (forallb (active s) (conds s)) = false) by (rewrite act; reflexivity).
  destruct Fx as [[[_ Q] W]|[D K]].
  - destruct x as [k c lb t args]. apply without_all in W. destruct W as (Kx & Kc & _). destruct (not_known _ _ Kc) as [E1 E2].
    destruct Q as [m' Q]. exists (S (m + m')). intros f L. destruct f as [|f]; [lia|]. rewrite each_eq. cbv zeta.
    assert (is (kind_of (Rs k c lb t args)) Condition = false) as -> by (destruct Kx as [Kx| ->]; [destruct k; try discriminate Kx; reflexivity|reflexivity]).
    assert (is (kind_of (Rs k c lb t args)) Directive = false) as -> by (destruct Kx as [Kx| ->]; [destruct k; try discriminate Kx; reflexivity|reflexivity]).
    rewrite A, expand_in_none by exact E1. rewrite Q by lia. rewrite with_args_same, count_up_none by exact E2. rewrite IH by lia. reflexivity.
  - destruct D as [D C]. destruct (not_known _ _ K) as [E1 E2]. exists (S m). intros f L. destruct f as [|f]; [lia|]. rewrite each_eq. cbv zeta.
    rewrite D. cbn [is]. rewrite A.
    assert (eqt (cmd_of x) (txt "!counter") = false /\ eqt (cmd_of x) (txt "!def") = false /\ eqt (cmd_of x) (txt "!undef") = false /\ eqt (cmd_of x) (txt "!load") = false) as (-> & -> & -> & ->)
      by (destruct C as [->|[->| ->]]; repeat split).
    rewrite count_up_none by exact E2. rewrite IH by lia. reflexivity.
Qed.

Lemma each_nil : settles (fun f => each files f s []) (Ok 0 ([], false) s).
Proof. exists 1%nat. intros f L. destruct f as [|f]; [lia|]. reflexivity. Qed.

Lemma all_quiet : forall r, without (known s) r -> quiet r.
Proof.
  refine (Ppr2_proofs.rs_all (fun r => without (known s) r -> quiet r) _). intros k c lb t args IH W. apply without_all in W.
  destruct W as (Kx & Kc & W). destruct (not_known _ _ Kc) as [E1 E2].
  assert (Q : Forall quiet args) by (rewrite Forall_forall in *; auto).
  split; [|apply subs_quiet, Q].
  assert (E : settles (fun f => each files f s args) (Ok 0 (args, false) s)).
  { pose proof (each_front args [] 0 [] false s) as F. rewrite !app_nil_r in F. apply F; [|apply each_nil].
    rewrite Forall_forall in *. intros x I. left. auto. }
  destruct E as [m E]. exists (S m). intros f L. destruct f as [|f]; [lia|]. rewrite process_eq. rewrite count_up_none by exact E2.
  rewrite expand_in_none by exact E1. cbn [args_of]. destruct args as [|a args]; [reflexivity|]. rewrite E by lia. reflexivity.
Qed.

Lemma passive_front : forall l1 l2 n l2' e s', Forall (passive s) l1 ->
  settles (fun f => each files f s l2) (Ok n (l2', e) s') -> settles (fun f => each files f s (l1 ++ l2)) (Ok n (l1 ++ l2', e) s').
Proof.
  intros l1 l2 n l2' e s' F. apply each_front. rewrite Forall_forall in *. intros x I. destruct (F x I) as [W|D]; [left|right; exact D].
  split; [apply all_quiet, W|exact W].
Qed.

Lemma root_pass : forall l n l' e s', known s [] = false -> settles (fun f => each files f s l) (Ok n (l', e) s') -> (l = [] -> n = 0%nat /\ l' = [] /\ s' = s) ->
  one_pass files s l (if e : bool then 0 else n) l' s'.
Proof.
  intros l n l' e s' K [m H] Z. destruct (not_known _ _ K) as [E1 E2]. exists (S m). intros f L. destruct f as [|f]; [lia|].
  rewrite process_eq. rewrite count_up_none by exact E2. rewrite expand_in_none by exact E1. cbn [args_of].
  destruct l as [|x l].
  - destruct (Z eq_refl) as (-> & -> & ->). destruct e; reflexivity.
  - rewrite H by lia. reflexivity.
Qed.

Lemma pass_quiet : forall l, Forall (passive s) l -> known s [] = false -> one_pass files s l 0 l s.
Proof.
  intros l F K. apply (root_pass l 0 l false s K); [|auto]. pose proof (passive_front l [] 0 [] false s F each_nil) as H.
  rewrite !app_nil_r in H. exact H.
Qed.
End State.

Lemma processed_0 : forall s l l' s', one_pass files s l 0 l' s' -> processed files s l (Ok 0 l' s').
Proof.
  intros s l l' s' [m H]. exists (S m). intros f L. destruct f as [|f]; [lia|]. cbn [passes]. rewrite H by lia. reflexivity.
Qed.
Lemma processed_S : forall s l n l' s' o, one_pass files s l (S n) l' s' -> processed files s' l' o -> processed files s l o.
Proof.
  intros s l n l' s' o [m H] [m' H']. exists (S (m + m')). intros f L. destruct f as [|f]; [lia|]. cbn [passes]. rewrite H by lia. apply H'. lia.
Qed.

(** ** Code that uses nothing *)
Lemma untouched : forall s l, all_active s -> Forall (passive s) l -> known s [] = false -> processed files s l (Ok 0 l s).
Proof. intros s l A F K. apply processed_0, pass_quiet; auto. Qed.

Lemma fine_code : forall r, fine r -> code r.
Proof.
  refine (Ppr2_proofs.rs_all (fun r => fine r -> code r) _). intros k c lb t args IH F. apply code_all.
  assert (H : Forall fine args -> Forall code args) by (rewrite !Forall_forall in *; auto).
  destruct k; cbn in F; try (destruct F; fail).
  - split; [left; reflexivity|]. apply H. apply Ppr2_proofs.fine_all, F.
  - split; [left; reflexivity|]. apply H. apply Ppr2_proofs.fine_all, F.
  - split; [right; reflexivity|]. destruct F as (_ & _ & _ & _ & ->). constructor.
  - split; [left; reflexivity|]. apply H. apply Ppr2_proofs.fine_all, F.
Qed.

Lemma without_weaken : forall (K K' : text -> bool) r, (forall c, K c = false -> K' c = false) -> without K r -> without K' r.
Proof.
  intros K K' r I. revert r. refine (Ppr2_proofs.rs_all (fun r => without K r -> without K' r) _). intros k c lb t args IH W.
  apply without_all in W. apply without_all. destruct W as (A & B & C). split; [exact A|]. split; [auto|]. rewrite Forall_forall in *. auto.
Qed.

Lemma top_code : forall r, top_fine r -> code r.
Proof.
  intros r (_ & k & c & lb & t & args & -> & F & _). apply fine_code in F. apply code_all in F. apply code_all. exact F.
Qed.

Lemma text_untouched : forall l, Forall top_fine l -> outputs files nothing (print_root l) (print_root l).
Proof.
  intros l F. exists l, l, nothing. split; [apply Ppr2_proofs.read_print, F|]. split; [|reflexivity].
  apply untouched; [reflexivity| |reflexivity]. rewrite Forall_forall in *. intros x I. left.
  apply (without_weaken (fun _ => false)); [reflexivity|apply top_code, F, I].
Qed.

(** ** Conditions *)
Lemma condition_stops : forall s l1 x l2 s', all_active s -> Forall (passive s) l1 -> known s [] = false ->
  kind_of x = Condition -> condition s x = Some s' -> processed files s (l1 ++ x :: l2) (Ok 0 (l1 ++ x :: l2) s').
Proof.
  intros s l1 x l2 s' A F K Kx C. apply processed_0.
  apply (root_pass s (l1 ++ x :: l2) 0 (l1 ++ x :: l2) true s' K); [|destruct l1; discriminate].
  apply passive_front; [exact A|exact F|]. exists 1%nat. intros f L. destruct f as [|f]; [lia|]. rewrite each_eq. cbv zeta.
  rewrite Kx. cbn [is]. rewrite C. reflexivity.
Qed.

(** ** Loads *)
Lemma loaded_known : forall s l c, known (set_loaded s l) c = known s c.
Proof. reflexivity. Qed.

Lemma passive_loaded : forall s l x, passive (set_loaded s l) x <-> passive s x.
Proof. intros. reflexivity. Qed.

Lemma load_first : forall s l1 name new l2, all_active s -> known s [] = false -> Forall (passive s) l1 -> Forall (passive s) new -> Forall (passive s) l2 ->
  ~ In name (loaded s) -> files name = Some new ->
  processed files s (l1 ++ load name :: l2) (Ok 0 (l1 ++ new ++ l2) (set_loaded s (loaded s ++ [name]))).
Proof.
  intros s l1 name new l2 A K F1 Fn F2 N E. set (s' := set_loaded s (loaded s ++ [name])).
  assert (existsb (eqt name) (loaded s) = false) as X.
  { destruct (existsb (eqt name) (loaded s)) eqn:X; [|reflexivity]. apply existsb_exists in X. destruct X as (y & I & Y). apply eqt_eq in Y. subst y. contradiction. }
  assert (Fn2 : Forall (passive s') (new ++ l2)) by (apply Forall_app; split; assumption).
  apply (processed_S s _ 0 (l1 ++ new ++ l2) s').
  - apply (root_pass s (l1 ++ load name :: l2) 1 (l1 ++ new ++ l2) false s' K); [|destruct l1; discriminate].
    apply passive_front; [exact A|exact F1|].
    assert (S1 : settles (fun f => each files f s' (tl (new ++ l2))) (Ok 0 (tl (new ++ l2), false) s')).
    { pose proof (passive_front s' A (tl (new ++ l2)) [] 0 [] false s') as P. rewrite !app_nil_r in P. apply P; [|apply each_nil].
      destruct Fn2; [constructor|assumption]. }
    destruct S1 as [m S1]. exists (S m). intros f L. destruct f as [|f]; [lia|]. rewrite each_eq. cbv zeta. unfold load. cbn [kind_of is cmd_of args_of atom].
    rewrite A. cbn [negb]. change (eqt (txt "!load") (txt "!counter")) with false. change (eqt (txt "!load") (txt "!def")) with false.
    change (eqt (txt "!load") (txt "!undef")) with false. change (eqt (txt "!load") (txt "!load")) with true. cbn match.
    rewrite X, E. destruct (new ++ l2) as [|y l]; [reflexivity|]. cbn [tl] in S1. fold s'. rewrite S1 by lia. reflexivity.
  - apply untouched; [exact A| |exact K]. apply Forall_app. split; [exact F1|exact Fn2].
Qed.

Lemma load_again : forall s l1 name l2, all_active s -> known s [] = false -> Forall (passive s) l1 -> Forall (passive s) l2 ->
  In name (loaded s) -> processed files s (l1 ++ load name :: l2) (Ok 0 (l1 ++ l2) s).
Proof.
  intros s l1 name l2 A K F1 F2 I.
  assert (existsb (eqt name) (loaded s) = true) as X by (apply existsb_exists; exists name; split; [exact I|apply eqt_refl]).
  apply (processed_S s _ 0 (l1 ++ l2) s).
  - apply (root_pass s (l1 ++ load name :: l2) 1 (l1 ++ l2) false s K); [|destruct l1; discriminate].
    apply passive_front; [exact A|exact F1|].
    assert (S1 : settles (fun f => each files f s (tl l2)) (Ok 0 (tl l2, false) s)).
    { pose proof (passive_front s A (tl l2) [] 0 [] false s) as P. rewrite !app_nil_r in P. apply P; [|apply each_nil].
      destruct F2; [constructor|assumption]. }
    destruct S1 as [m S1]. exists (S m). intros f L. destruct f as [|f]; [lia|]. rewrite each_eq. cbv zeta. unfold load. cbn [kind_of is cmd_of args_of atom].
    rewrite A. cbn [negb]. change (eqt (txt "!load") (txt "!counter")) with false. change (eqt (txt "!load") (txt "!def")) with false.
    change (eqt (txt "!load") (txt "!undef")) with false. change (eqt (txt "!load") (txt "!load")) with true. cbn match.
    rewrite X. cbn [app]. destruct l2 as [|y l]; [reflexivity|]. cbn [tl] in S1. rewrite S1 by lia. reflexivity.
  - apply untouched; [exact A| |exact K]. apply Forall_app. split; assumption.
Qed.
End Quiet.
