From Coq Require Import String Ascii DecimalString DecimalFacts DecimalZ.
From Verif Require Import Base Ppr_model Ppr_spec Mac_model Mac_spec Mac_proofs Mac2_proofs.
From Verif Require Ppr2_proofs.
Local Open Scope Z_scope.

(** * Numbers as texts *)
Lemma char_of_inj : forall a b, char_of a = char_of b -> a = b.
Proof.
  intros a b E. rewrite <- (ascii_nat_embedding a), <- (ascii_nat_embedding b). f_equal.
  pose proof (nat_ascii_bounded a). pose proof (nat_ascii_bounded b). unfold char_of in E.
  destruct (Z.ltb_spec (Z.of_nat (nat_of_ascii a)) 128); destruct (Z.ltb_spec (Z.of_nat (nat_of_ascii b)) 128); lia.
Qed.
Lemma txt_inj : forall a b, txt a = txt b -> a = b.
Proof.
  induction a as [|x a IH]; destruct b as [|y b]; cbn; intros E; try congruence. injection E as E1 E2. apply char_of_inj in E1. f_equal; auto.
Qed.
Lemma to_text_inj : forall a b, to_text a = to_text b -> a = b.
Proof.
  intros a b E. apply txt_inj in E. apply DecimalZ.to_int_inj.
  assert (forall x y, NilEmpty.string_of_int x = NilEmpty.string_of_int y -> x = y) as J.
  { intros x y H. assert (Some x = Some y) as K; [|congruence]. rewrite <- (NilEmpty.isi x), <- (NilEmpty.isi y). now rewrite H. }
  exact (J _ _ E).
Qed.
Lemma to_text_mark : forall n t, to_text n <> 33 :: t.
Proof.
  intros n t E. unfold to_text in E. destruct (Z.to_int n) as [d|d]; [destruct d|]; discriminate E.
Qed.
Lemma to_text_nonempty : forall n, to_text n <> [].
Proof.
  intros n E. change (@nil Z) with (txt EmptyString) in E. apply txt_inj in E.
  destruct n as [|p|p]; [discriminate| |discriminate]. cbn in E.
  assert (Pos.to_uint p <> Decimal.Nil) as N by apply DecimalPos.Unsigned.to_uint_nonnil.
  destruct (Pos.to_uint p); [congruence|discriminate..].
Qed.

(** * Expansion of code is code *)
Lemma overwrite_code : forall p a, code a -> forall r r', code r -> overwrite p a r = Some r' -> code r' /\ kind_of r' = kind_of r.
Proof.
  intros p a Ca. refine (Ppr2_proofs.rs_all (fun r => forall r', code r -> overwrite p a r = Some r' -> code r' /\ kind_of r' = kind_of r) _).
  intros k c lb t args IH r' C E. rewrite overwrite_owl in E. apply code_all in C. destruct C as [K C].
  assert (O : forall l', owl p a args = Some l' -> Forall code l').
  { clear E. induction args as [|x l IHl]; intros l' E; cbn in E; [discriminate|].
    inversion IH as [|? ? Hx Hl]; subst. inversion C as [|? ? Cx Cl]; subst.
    destruct (ow p a x) as [x'|] eqn:X.
    - injection E as <-. constructor; [|exact Cl]. unfold ow in X. destruct (kind_of x); try discriminate X; try (apply (Hx x' Cx X)).
      destruct (eqt (cmd_of x) p); [|discriminate]. injection X as <-. exact Ca.
    - destruct (owl p a l) as [l''|]; [|discriminate]. injection E as <-. constructor; [exact Cx|]. apply IHl; auto. }
  destruct (owl p a args) as [l'|]; [|discriminate]. injection E as <-. split; [|reflexivity]. apply code_all. split; [exact K|apply O; reflexivity].
Qed.

Lemma fill_code : forall params args r, Forall code args -> code r -> code (fill params args r).
Proof.
  induction params as [|p ps IH]; intros args r A C; cbn; [exact C|]. destruct args as [|a args]; [exact C|].
  inversion A as [|? ? Ca Cl]; subst. apply IH; [exact Cl|]. destruct (overwrite (cmd_of p) a r) as [r'|] eqn:E; [|exact C].
  apply (overwrite_code _ _ Ca r r' C E).
Qed.

Lemma code_args : forall r, code r -> Forall code (args_of r).
Proof. intros [k c lb t args] C. apply code_all in C. apply C. Qed.
Lemma code_with_label : forall r l, code r -> code (with_label_of r l).
Proof. intros [k c lb t args] l C. apply code_all in C. apply code_all. exact C. Qed.
Lemma code_with_cmd : forall r c, code r -> code (with_cmd_of r c).
Proof. intros [k c0 lb t args] c C. apply code_all in C. apply code_all. exact C. Qed.
Lemma code_with_args : forall r l, code r -> Forall code l -> code (with_args_of r l).
Proof. intros [k c lb t args] l C F. apply code_all in C. apply code_all. split; [apply C|exact F]. Qed.

Lemma expand_code : forall src dest r r', code dest -> code r -> expand (src, dest) r = Some r' -> code r'.
Proof.
  intros src dest r r' D C E. unfold expand in E. destruct (args_of src) as [|p ps].
  - destruct (args_of r); injection E as <-; [apply code_with_label, D|apply code_with_cmd, C].
  - destruct (Nat.eqb _ _); [|discriminate]. assert (r' = fill (p :: ps) (args_of r) (with_label_of dest (label_of r))) as -> by congruence. apply fill_code; [apply code_args, C|apply code_with_label, D].
Qed.

Lemma code_kind : forall r, code r -> is (kind_of r) Condition = false /\ is (kind_of r) Directive = false.
Proof. intros [k c lb t args] C. apply code_all in C. destruct C as [[K| ->] _]; [destruct k; try discriminate K|]; split; reflexivity. Qed.

Section Tame.
Variable files : text -> option (list rs).
Hypothesis good_files : forall name l, files name = Some l -> Forall item l.

Lemma count_up_tame : forall s r n r' s', count_up s r = (n, r', s') -> tame s ->
  tame s' /\ args_of r' = args_of r /\ kind_of r' = kind_of r /\ (code r -> code r') /\ (item r -> item r').
Proof.
  intros s r n r' s' E T. unfold count_up in E. destruct (find (counters s) (cmd_of r)) as [k|] eqn:F; injection E as <- <- <-; [|repeat split; auto; apply T].
  split.
  - split; [apply T|]. split; [apply T|]. unfold known in *. cbn [macros counters set_counters]. destruct T as (_ & _ & T).
    destruct (not_known s [] T) as [T1 T2]. rewrite T1. rewrite find_put. rewrite eqt_neq; [rewrite T2; reflexivity|]. intros Q. rewrite Q in F. congruence.
  - split; [destruct r; reflexivity|]. split; [destruct r; reflexivity|]. split; [apply code_with_cmd|].
    destruct r as [kk c lb t args]. intros [C|(A & B & C & a & l & D & G & H)]; [left; apply code_with_cmd, C|right]. cbn in *. split; [exact A|]. split; [apply to_text_mark|]. split; [exact C|].
      exists a, l. repeat split; auto. intros Q. exfalso. apply (to_text_mark _ _ Q).
Qed.

Lemma expand_in_tame : forall s r n r', expand_in s r = Some (n, r') -> tame s -> code r -> code r'.
Proof.
  intros s r n r' E T C. unfold expand_in in E. destruct (find (macros s) (cmd_of r)) as [[src dest]|] eqn:F; [|injection E as <- <-; exact C].
  destruct (expand (src, dest) r) as [r2|] eqn:X; [|discriminate]. injection E as <- <-. apply (expand_code src dest r); auto. apply (proj1 (proj2 T) _ _ F).
Qed.

Definition ok_result {A} (P : A -> Prop) (o : result A) : Prop :=
  match o with Ok _ a s => P a /\ tame s | Undefined => False | _ => True end.

Lemma code_item : forall l, Forall code l -> Forall item l.
Proof. intros l. apply Forall_impl. intros a C. left; exact C. Qed.

Lemma last_any : forall (l : list rs) x a b, last (x :: l) a = last (x :: l) b.
Proof. induction l as [|c l IH]; intros x a b; [reflexivity|]. exact (IH c a b). Qed.
Lemma last_code : forall (a : rs) l, Forall code (a :: l) -> code (back_of a (a :: l)).
Proof.
  intros a l F. rewrite Forall_forall in F. apply F. unfold back_of. clear F. revert a. induction l as [|b l IH]; intros a; [left; reflexivity|].
  right. change (last (a :: b :: l) a) with (last (b :: l) a). specialize (IH b).
  assert (last (b :: l) a = last (b :: l) b) as ->; [|exact IH]. apply last_any.
Qed.

Lemma removelast_code : forall l, Forall code l -> Forall code (removelast l).
Proof.
  intros l F. rewrite Forall_forall in *. intros x I. apply F. clear F. induction l as [|a l IH]; [destruct I|]. cbn in I.
  destruct l as [|b l]; [destruct I|]. destruct I as [<-|I]; [left; reflexivity|right; apply IH, I].
Qed.

Lemma process_tame : forall f,
  (forall s r, tame s -> code r -> ok_result code (process files f s r)) /\
  (forall s l, tame s -> Forall item l -> ok_result (fun p => Forall item (fst p) /\ snd p = false /\ (Forall code l -> Forall code (fst p))) (each files f s l)) /\
  (forall s l, tame s -> Forall code l -> ok_result (Forall code) (subs files f s l)) /\
  (forall s r, tame s -> code r -> ok_result code (repeat_ files f s r)).
Proof.
  induction f as [|f (P & E & S' & R)]; [repeat split; intros; exact Logic.I|]. split; [|split; [|split]].
  - intros s r T C. rewrite process_eq. destruct (count_up s r) as [[n1 r1] s1] eqn:U. destruct (count_up_tame _ _ _ _ _ U T) as (T1 & _ & _ & C1 & _).
    destruct (expand_in s1 r1) as [[n2 r2]|] eqn:X; [|exact Logic.I]. pose proof (expand_in_tame _ _ _ _ X T1 (C1 C)) as C2.
    pose proof (code_args _ C2) as A. destruct (args_of r2) as [|a args]; [split; assumption|].
    specialize (E s1 (a :: args) T1 (code_item _ A)). destruct (each files f s1 (a :: args)) as [n [l e] s2| | |]; cbn in *; auto.
    destruct E as ((I & _ & C3) & T2). split; [apply code_with_args; auto|exact T2].
  - intros s l T F. rewrite each_eq. cbv zeta. destruct l as [|x l]; [cbn; repeat split; auto; apply T|].
    inversion F as [|? ? Fx Fl]; subst.
    assert (N : forall n y s1, tame s1 -> item y -> (code x -> code y) ->
      ok_result (fun p => Forall item (fst p) /\ snd p = false /\ (Forall code (x :: l) -> Forall code (fst p)))
        (let '(n', y, s1) := count_up s1 y in
         match each files f s1 l with Ok m (l, early) s1 => Ok (n + n' + m) (y :: l, early) s1 | o => o end)).
    { intros n y s1 T1 I1 C1. destruct (count_up s1 y) as [[n' y'] s2] eqn:U. destruct (count_up_tame _ _ _ _ _ U T1) as (T2 & _ & _ & C2 & I2).
      specialize (E s2 l T2 Fl). destruct (each files f s2 l) as [m [l1 e] s3| | |]; cbn in *; auto. destruct E as ((A & B & C) & D).
      split; [|exact D]. split; [constructor; auto|]. split; [exact B|]. intros G. inversion G; subst. constructor; auto. }
    rewrite (proj1 T). cbn [forallb negb].
    destruct Fx as [C|(K & D & A & A0)].
    + destruct (code_kind x C) as [-> ->]. destruct (expand_in s x) as [[n y]|] eqn:X; [|exact Logic.I].
      pose proof (expand_in_tame _ _ _ _ X T C) as C2. specialize (S' s (args_of y) T (code_args _ C2)).
      destruct (subs files f s (args_of y)) as [m args s1| | |]; cbn [ok_result] in S'; auto. destruct S' as [S1 S2].
      apply N; [exact S2|left; apply code_with_args; auto|intros _; apply code_with_args; auto].
    + assert (NC : ~ code x) by (intros C; destruct (code_kind x C) as [_ Q]; rewrite K in Q; discriminate).
      assert (Ix : item x) by (right; auto). destruct A0 as (a & args & Ax & Na & Db).
      rewrite K. cbn [is]. rewrite Ax in *.
      destruct (eqt (cmd_of x) (txt "!counter")).
      { apply N; auto. split; [apply T|]. split; [apply T|]. unfold known in *. cbn [macros counters set_counters]. destruct T as (_ & _ & T).
        destruct (not_known s [] T) as [T1 T2]. rewrite T1, find_put, eqt_neq, T2 by exact Na. reflexivity. }
      destruct (eqt (cmd_of x) (txt "!def")) eqn:Dx.
      { apply eqt_eq in Dx. specialize (R s (back_of a (a :: args)) T (last_code a args A)).
        destruct (repeat_ files f s (back_of a (a :: args))) as [n body s1| | |]; cbn [ok_result] in R; auto. destruct R as [R1 R2].
        assert (exists l1, removelast (a :: args) ++ [body] = a :: l1 /\ l1 <> [] /\ Forall code l1) as (l1 & El & Nl & Cl).
        { destruct args as [|b args]; [exfalso; apply (Db Dx); reflexivity|].
          exists (removelast (b :: args) ++ [body]). split; [reflexivity|]. split; [destruct (removelast (b :: args)); discriminate|].
          apply Forall_app. split; [apply removelast_code; inversion A; assumption|constructor; auto]. }
        rewrite El. cbn [hd].
        apply N; [| |intros C; contradiction].
        - split; [apply R2|]. split.
          + intros k m. cbn [macros set_macros]. rewrite find_put. destruct (eqt _ k); [intros Q; injection Q as <-; exact R1|apply R2].
          + unfold known in *. cbn [macros counters set_macros]. destruct R2 as (_ & _ & R2). destruct (not_known s1 [] R2) as [T1 T2].
            rewrite T2, find_put, eqt_neq, T1 by exact Na. reflexivity.
        - right. destruct x as [kx cx lx tx ax]. cbn in *. split; [exact K|]. split; [exact D|]. split; [constructor; [inversion A; assumption|exact Cl]|].
          exists a, l1. auto. }
      rewrite (eqt_neq _ _ D).
      destruct (eqt (cmd_of x) (txt "!load")); [|apply N; auto].
      destruct (if existsb (eqt (cmd_of a)) (loaded s) then Some [] else files (cmd_of a)) as [new|] eqn:Nw; [|exact Logic.I].
      assert (In_ : Forall item new) by (destruct (existsb (eqt (cmd_of a)) (loaded s)); [injection Nw as <-; constructor|apply (good_files _ _ Nw)]).
      assert (Il : Forall item (new ++ l)) by (apply Forall_app; auto).
      set (s1 := if existsb (eqt (cmd_of a)) (loaded s) then s else set_loaded s (loaded s ++ [cmd_of a])).
      assert (T1 : tame s1) by (unfold s1; clear - T; destruct (existsb (eqt (cmd_of a)) (loaded s)); exact T).
      destruct (new ++ l) as [|y l']; [cbn; repeat split; auto; apply T1|]. inversion Il as [|? ? Iy Il']; subst.
      specialize (E s1 l' T1 Il'). destruct (each files f s1 l') as [m [l1 e] s3| | |]; cbn in *; auto. destruct E as ((E1 & E2 & E3) & E4).
      split; [|exact E4]. split; [constructor; auto|]. split; [exact E2|]. intros G. inversion G; contradiction.
  - intros s l T F. rewrite subs_eq. destruct l as [|x l]; [cbn; repeat split; auto; apply T|]. inversion F as [|? ? Fx Fl]; subst.
    specialize (P s x T Fx). destruct (process files f s x) as [n y s1| | |]; cbn in *; auto. destruct P as [P1 P2].
    specialize (S' s1 l P2 Fl). destruct (subs files f s1 l) as [m l1 s2| | |]; cbn in *; auto. destruct S'. split; [constructor; auto|auto].
  - intros s r T C. rewrite repeat__eq. specialize (P s r T C). destruct (process files f s r) as [n y s1| | |]; cbn in *; auto. destruct P as [P1 P2].
    destruct n; [cbn; auto|]. specialize (R s1 y P2 P1). destruct (repeat_ files f s1 y) as [m l1 s2| | |]; cbn in *; auto.
Qed.

Lemma root_tame : forall f s l, tame s -> Forall item l ->
  match process files f s (Rs Root [] [] [] l) with
  | Ok _ r s => (exists l', r = Rs Root [] [] [] l' /\ Forall item l') /\ tame s
  | Undefined => False
  | _ => True
  end.
Proof.
  intros f s l T F. destruct f as [|f]; [exact Logic.I|]. rewrite process_eq. destruct (not_known s [] (proj2 (proj2 T))) as [T1 T2].
  rewrite count_up_none by exact T2. rewrite expand_in_none by exact T1. cbn [args_of].
  destruct l as [|x l]; [split; [exists []; auto|exact T]|]. destruct (process_tame f) as (_ & E & _). specialize (E s (x :: l) T F).
  destruct (each files f s (x :: l)) as [n [l1 e] s1| | |]; cbn in *; auto. destruct E as ((E1 & _) & E2). split; [exists l1; auto|exact E2].
Qed.

Lemma passes_tame : forall f s l, tame s -> Forall item l -> passes files f s l <> Undefined.
Proof.
  induction f as [|f IH]; intros s l T F; [discriminate|]. cbn [passes]. pose proof (root_tame (S f) s l T F) as H.
  destruct (process files (S f) s (Rs Root [] [] [] l)) as [n r s1| | |]; try discriminate; [|destruct H].
  destruct H as ((l' & -> & F') & T'). destruct n; [discriminate|]. apply IH; auto.
Qed.

(** * No change: nothing is left to do *)
Lemma count_up_0 : forall s r r' s', count_up s r = (0%nat, r', s') -> r' = r /\ s' = s /\ find (counters s) (cmd_of r) = None.
Proof. intros s r r' s' E. unfold count_up in E. destruct (find (counters s) (cmd_of r)); [discriminate|]. injection E as <- <-. auto. Qed.
Lemma expand_in_0 : forall s r r', expand_in s r = Some (0%nat, r') -> r' = r /\ find (macros s) (cmd_of r) = None.
Proof.
  intros s r r' E. unfold expand_in in E. destruct (find (macros s) (cmd_of r)); [destruct (expand m r); discriminate|]. injection E as <-. auto.
Qed.
Lemma nothing_known : forall s c, find (macros s) c = None -> find (counters s) c = None -> known s c = false.
Proof. intros s c A B. unfold known. rewrite A, B. reflexivity. Qed.

Lemma process_still : forall f s, tame s ->
  (forall r r' s', code r -> process files f s r = Ok 0 r' s' -> r' = r /\ s' = s /\ without (known s) r) /\
  (forall l l' e s', Forall code l -> each files f s l = Ok 0 (l', e) s' -> l' = l /\ s' = s /\ Forall (without (known s)) l) /\
  (forall l l' s', Forall code l -> subs files f s l = Ok 0 l' s' -> l' = l /\ s' = s /\ Forall (without (known s)) l).
Proof.
  induction f as [|f IH]; intros s T; [repeat split; discriminate|]. split; [|split].
  - intros r r' s' C H. rewrite process_eq in H. destruct (count_up s r) as [[n1 r1] s1] eqn:U. destruct (count_up_tame _ _ _ _ _ U T) as (T1 & _ & _ & C1 & _).
    destruct (expand_in s1 r1) as [[n2 r2]|] eqn:X; [|discriminate]. pose proof (expand_in_tame _ _ _ _ X T1 (C1 C)) as C2.
    assert (Z : n1 = 0%nat /\ n2 = 0%nat /\ (r' = r2 /\ s' = s1 /\ args_of r2 = [] \/ exists l e, each files f s1 (args_of r2) = Ok 0 (l, e) s' /\ r' = with_args_of r2 l)).
    { destruct (args_of r2) as [|a args] eqn:A; [injection H; intros; subst; split; [lia|]; split; [lia|]; left; auto|].
      destruct (process_tame f) as (_ & E & _). pose proof (code_args _ C2) as A2. rewrite A in A2. specialize (E s1 (a :: args) T1 (code_item _ A2)).
      destruct (each files f s1 (a :: args)) as [n [l e] s2| | |]; try discriminate. cbn in E. destruct E as ((_ & Ee & _) & _). subst e.
      injection H as H1 H2 H3. split; [lia|]. split; [lia|]. right. exists l, false. split; [|auto]. f_equal; [lia|exact H3]. }
    destruct Z as (-> & -> & Z). destruct (count_up_0 _ _ _ _ U) as (-> & -> & U1). destruct (expand_in_0 _ _ _ X) as (-> & X1).
    destruct r as [k c lb t args]. cbn [args_of cmd_of] in *. pose proof (nothing_known _ _ X1 U1) as NK. apply code_all in C. destruct C as [K C].
    destruct Z as [(-> & -> & ->)|(l & e & E & ->)]; [split; [reflexivity|]; split; [reflexivity|]; apply without_all; auto|].
    destruct (IH s T) as (_ & IE & _). destruct (IE _ _ _ _ C E) as (-> & -> & W). split; [reflexivity|]. split; [reflexivity|]. apply without_all; auto.
  - intros l l' e s' C H. rewrite each_eq in H. cbv zeta in H. destruct l as [|x l]; [injection H as <- <- <-; auto|].
    inversion C as [|? ? Cx Cl]; subst. destruct (code_kind x Cx) as [K1 K2]. rewrite K1, K2 in H. rewrite (proj1 T) in H. cbn [forallb negb] in H.
    destruct (expand_in s x) as [[n y]|] eqn:X; [|discriminate]. pose proof (expand_in_tame _ _ _ _ X T Cx) as C2.
    destruct (process_tame f) as (_ & _ & ST & _). specialize (ST s (args_of y) T (code_args _ C2)).
    destruct (subs files f s (args_of y)) as [m args s1| | |] eqn:Su; try discriminate. destruct ST as [A1 T1].
    destruct (count_up s1 (with_args_of y args)) as [[n' y'] s2] eqn:U. destruct (count_up_tame _ _ _ _ _ U T1) as (T2 & _).
    destruct (each files f s2 l) as [m' [l1 e1] s3| | |] eqn:Ea; try discriminate. injection H as H1 H2 H3 H4.
    assert (n = 0 /\ m = 0 /\ n' = 0 /\ m' = 0)%nat as (-> & -> & -> & ->) by lia. subst.
    destruct (expand_in_0 _ _ _ X) as (-> & X1). destruct (IH s T) as (_ & _ & IS). destruct (IS _ _ _ (code_args _ Cx) Su) as (-> & -> & W).
    destruct (count_up_0 _ _ _ _ U) as (-> & -> & U1). rewrite with_args_same in *.
    destruct (IH s T) as (_ & IE & _). destruct (IE _ _ _ _ Cl Ea) as (-> & -> & W2). split; [reflexivity|]. split; [reflexivity|]. constructor; [|exact W2].
    destruct x as [k c lb t ax]. cbn [args_of cmd_of] in *. apply code_all in Cx. apply without_all. split; [apply Cx|]. split; [apply nothing_known; auto|exact W].
  - intros l l' s' C H. rewrite subs_eq in H. destruct l as [|x l]; [injection H as <- <-; auto|]. inversion C as [|? ? Cx Cl]; subst.
    destruct (process files f s x) as [n y s1| | |] eqn:Px; try discriminate.
    destruct (subs files f s1 l) as [m l1 s2| | |] eqn:Su; try discriminate. injection H as H1 H2 H3.
    assert (n = 0 /\ m = 0)%nat as (-> & ->) by lia. subst. destruct (IH s T) as (IP & _ & IS).
    destruct (IP _ _ _ Cx Px) as (-> & -> & W). destruct (IS _ _ _ Cl Su) as (-> & -> & W2). auto.
Qed.

Lemma defs_pass : forall defs f s l n l' e s', tame s -> Forall defines defs -> Forall code l ->
  each files f s (defs ++ l) = Ok n (l', e) s' ->
  exists defs' l1, l' = defs' ++ l1 /\ Forall defines defs' /\ Forall code l1 /\ tame s' /\ e = false /\
    List.length defs' = List.length defs /\ (n = 0%nat -> l1 = l /\ Forall (without (known s')) l).
Proof.
  induction defs as [|x defs IH]; intros f s l n l' e s' T F C H.
  - cbn [app] in H. destruct (process_tame f) as (_ & Et & _). specialize (Et s l T (code_item _ C)). rewrite H in Et. cbn in Et.
    destruct Et as ((E1 & E2 & E3) & E4). exists [], l'. do 6 (split; [solve [auto]|]).
    intros ->. destruct (process_still f s T) as (_ & E & _). destruct (E _ _ _ _ C H) as (-> & -> & W). auto.
  - destruct f as [|f]; [discriminate|]. inversion F as [|? ? (I & K & NL) Fl]; subst. cbn [app] in H. rewrite each_eq in H. cbv zeta in H.
    assert (NX : forall n0 y s1, tame s1 -> defines y ->
      (let '(n', y, s1) := count_up s1 y in
         match each files f s1 (defs ++ l) with Ok m (l, early) s1 => Ok (n0 + n' + m) (y :: l, early) s1 | o => o end) = Ok n (l', e) s' ->
      exists defs' l1, l' = defs' ++ l1 /\ Forall defines defs' /\ Forall code l1 /\ tame s' /\ e = false /\
        List.length defs' = S (List.length defs) /\ (n = 0%nat -> l1 = l /\ Forall (without (known s')) l)).
    { intros n0 y s1 T1 (I1 & Ky & Ly) E. destruct (count_up s1 y) as [[n' y'] s2] eqn:U. destruct (count_up_tame _ _ _ _ _ U T1) as (T2 & _ & Ky' & _ & Iy').
      assert (Dy : defines y').
      { split; [auto|]. split; [congruence|]. unfold count_up in U. destruct (find (counters s1) (cmd_of y)); injection U as _ <- _; [|exact Ly].
        destruct y. cbn. apply to_text_mark. }
      destruct (each files f s2 (defs ++ l)) as [m [l1 e1] s3| | |] eqn:Ea; try discriminate. injection E as E1 E2 E3 E4. subst l' e1 s3.
      destruct (IH f s2 l m l1 e s' T2 Fl C Ea) as (d & l2 & -> & D1 & D2 & D3 & D4 & D5 & D6). exists (y' :: d), l2. cbn [List.length].
      do 5 (split; [solve [auto]|]). split; [congruence|]. intros ->. apply D6; lia. }
    assert (Dx : defines x) by (split; auto).
    rewrite K in H. cbn [is] in H. rewrite (proj1 T) in H. cbn [forallb negb] in H.
    destruct I as [Cx|(_ & D & A & a & args & Ax & Na & Db)]; [destruct (code_kind x Cx) as [_ Q]; rewrite K in Q; discriminate|].
    rewrite Ax in *. rewrite (eqt_neq _ _ D) in H. rewrite (eqt_neq _ _ NL) in H.
    destruct (eqt (cmd_of x) (txt "!counter")).
    { apply NX in H; auto. split; [apply T|]. split; [apply T|]. unfold known in *. cbn [macros counters set_counters]. destruct T as (_ & _ & T).
      destruct (not_known s [] T) as [T1 T2]. rewrite T1, find_put, eqt_neq, T2 by exact Na. reflexivity. }
    destruct (eqt (cmd_of x) (txt "!def")) eqn:Ex.
    { apply eqt_eq in Ex. destruct (process_tame f) as (_ & _ & _ & R). specialize (R s (back_of a (a :: args)) T (last_code a args A)).
      destruct (repeat_ files f s (back_of a (a :: args))) as [m body s1| | |]; try discriminate. destruct R as [R1 R2].
      destruct args as [|b args]; [exfalso; apply (Db Ex); reflexivity|].
      change (removelast (a :: b :: args) ++ [body]) with (a :: removelast (b :: args) ++ [body]) in H. cbn [hd] in H.
      apply NX in H; auto.
      - split; [apply R2|]. split.
        + intros k0 m0. cbn [macros set_macros]. rewrite find_put. destruct (eqt _ k0); [intros Q; injection Q as <-; exact R1|apply R2].
        + unfold known in *. cbn [macros counters set_macros]. destruct R2 as (_ & _ & R2). destruct (not_known s1 [] R2) as [T1 T2].
          rewrite T2, find_put, eqt_neq, T1 by exact Na. reflexivity.
      - split; [|destruct x; auto]. right. destruct x as [kx cx lx tx ax]. cbn -[removelast] in *. split; [exact K|]. split; [exact D|]. split.
        + constructor; [inversion A; assumption|]. apply Forall_app. split; [apply removelast_code; inversion A; assumption|constructor; auto].
        + exists a, (removelast (b :: args) ++ [body]). split; [reflexivity|]. split; [exact Na|]. intros _. destruct (removelast (b :: args)); discriminate. }
    apply NX in H; auto.
Qed.

Lemma root_defs : forall f s defs l n r s', tame s -> Forall defines defs -> Forall code l ->
  process files f s (Rs Root [] [] [] (defs ++ l)) = Ok n r s' ->
  exists defs' l1, r = Rs Root [] [] [] (defs' ++ l1) /\ Forall defines defs' /\ Forall code l1 /\ tame s' /\
    List.length defs' = List.length defs /\ (n = 0%nat -> l1 = l /\ Forall (without (known s')) l).
Proof.
  intros f s defs l n r s' T F C H. destruct f as [|f]; [discriminate|]. rewrite process_eq in H. destruct (not_known s [] (proj2 (proj2 T))) as [T1 T2].
  rewrite count_up_none in H by exact T2. rewrite expand_in_none in H by exact T1. cbn [args_of] in H.
  destruct (defs ++ l) as [|x d] eqn:E.
  - pose proof E as E0. apply app_eq_nil in E. destruct E as [-> ->]. injection H as <- <- <-. exists [], []. do 5 (split; [solve [auto]|]). auto.
  - rewrite <- E in *. destruct (each files f s (defs ++ l)) as [m [l1 e] s1| | |] eqn:Ea; try discriminate.
    destruct (defs_pass _ _ _ _ _ _ _ _ T F C Ea) as (d' & l2 & -> & D1 & D2 & D3 & -> & D5 & D6). injection H as H1 H2 H3. subst.
    exists d', l2. do 5 (split; [solve [auto]|]). intros Z. apply D6. exact Z.
Qed.

(** What is left, at the end. *)
Lemma normal_form : forall f s defs l n out s', tame s -> Forall defines defs -> Forall code l ->
  passes files f s (defs ++ l) = Ok n out s' ->
  exists defs' l', out = defs' ++ l' /\ List.length defs' = List.length defs /\ Forall defines defs' /\ Forall (without (known s')) l'.
Proof.
  induction f as [|f IH]; intros s defs l n out s' T F C H; [discriminate|]. cbn [passes] in H.
  destruct (process files (S f) s (Rs Root [] [] [] (defs ++ l))) as [m r s1| | |] eqn:P; try discriminate.
  destruct (root_defs _ _ _ _ _ _ _ T F C P) as (d & l1 & -> & D1 & D2 & D3 & D4 & D5). destruct m as [|m].
  - injection H as _ H2 H3. cbn in H2. subst. destruct (D5 eq_refl) as [-> W]. exists d, l. auto.
  - cbn [args_of] in H. destruct (IH _ _ _ _ _ _ D3 D1 D2 H) as (d' & l' & A & B & B' & C'). exists d', l'. repeat split; auto. congruence.
Qed.
End Tame.
