From Coq Require Import String.
From Verif Require Import Base Ppr_model Ppr_spec Mac_model Mac_spec.
From Verif Require Ppr2_proofs.
Local Open Scope Z_scope.

(** * Texts and tables *)
Lemma eqt_eq : forall a b, eqt a b = true <-> a = b.
Proof.
  induction a as [|x a IH]; destruct b as [|y b]; cbn; try (split; congruence).
  rewrite andb_true_iff, Z.eqb_eq, IH. split; [intros [-> ->]; reflexivity|intro E; injection E; auto].
Qed.
Lemma eqt_refl : forall a, eqt a a = true.
Proof. intros a. apply eqt_eq. reflexivity. Qed.
Lemma eqt_neq : forall a b, a <> b -> eqt a b = false.
Proof. intros a b N. destruct (eqt a b) eqn:E; [apply eqt_eq in E; contradiction|reflexivity]. Qed.
Lemma eqt_sym : forall a b, eqt a b = eqt b a.
Proof.
  intros a b. destruct (eqt a b) eqn:E; [apply eqt_eq in E; subst; symmetry; apply eqt_refl|].
  symmetry. apply eqt_neq. intros ->. rewrite eqt_refl in E. discriminate.
Qed.

Lemma find_drop : forall A (m : table A) k x, find (drop m k) x = if eqt k x then None else find m x.
Proof.
  intros A m k x. induction m as [|[k' v] m IH]; cbn; [destruct (eqt k x); reflexivity|].
  destruct (eqt k' k) eqn:E; cbn.
  - apply eqt_eq in E; subst k'. rewrite IH. destruct (eqt k x); reflexivity.
  - rewrite IH. destruct (eqt k' x) eqn:E2; [|reflexivity]. apply eqt_eq in E2; subst k'.
    rewrite eqt_sym, E. reflexivity.
Qed.
Lemma find_put : forall A (m : table A) k v x, find (put m k v) x = if eqt k x then Some v else find m x.
Proof. intros. unfold put. cbn. rewrite find_drop. destruct (eqt k x); reflexivity. Qed.

(** * Expansion is substitution *)
Definition ow (p : text) (new a : rs) : option rs :=
  match kind_of a with
  | Atom => if eqt (cmd_of a) p then Some new else None
  | Structure | Set_ | Development => overwrite p new a
  | _ => None
  end.
Fixpoint owl (p : text) (new : rs) (l : list rs) : option (list rs) :=
  match l with
  | [] => None
  | a :: l => match ow p new a with Some a' => Some (a' :: l) | None => option_map (cons a) (owl p new l) end
  end.
Lemma overwrite_owl : forall p new k c lb t args, overwrite p new (Rs k c lb t args) = option_map (Rs k c lb t) (owl p new args).
Proof. intros. cbn [overwrite]. f_equal. induction args as [|a l IH]; [reflexivity|]. cbn [owl]. rewrite <- IH. reflexivity. Qed.

Definition one_ok (p : text) (new a : rs) : Prop :=
  (uses p a = 0%nat -> ow p new a = None /\ subst [(p, new)] a = a) /\
  (uses p a = 1%nat -> ow p new a = Some (subst [(p, new)] a)).

Lemma owl_ok : forall p new l, Forall (one_ok p new) l ->
  (uses_in p l = 0%nat -> owl p new l = None /\ map (subst [(p, new)]) l = l) /\
  (uses_in p l = 1%nat -> owl p new l = Some (map (subst [(p, new)]) l)).
Proof.
  intros p new l F. unfold uses_in. induction F as [|a l [A0 A1] _ [L0 L1]]; [split; [auto|discriminate]|].
  cbn [map list_sum owl fold_right]. change (fold_right Nat.add 0%nat (map (uses p) l)) with (list_sum (map (uses p) l)) in *. split; intros U.
  - destruct (A0 ltac:(lia)) as [-> ->]. destruct (L0 ltac:(lia)) as [-> ->]. auto.
  - destruct (Nat.eq_dec (uses p a) 0) as [E|E].
    + destruct (A0 E) as [-> ->]. rewrite (L1 ltac:(lia)). reflexivity.
    + rewrite (A1 ltac:(lia)). destruct (L0 ltac:(lia)) as [_ ->]. reflexivity.
Qed.

Lemma ow_ok : forall p new a, one_ok p new a.
Proof.
  intros p new. apply Ppr2_proofs.rs_all. intros k c lb t args IH.
  pose proof (owl_ok p new args IH) as [L0 L1]. unfold uses_in in *.
  unfold one_ok, ow. destruct k; cbn [kind_of cmd_of uses subst inner find]; rewrite ?overwrite_owl; split; intros U; try discriminate U; auto.
  all: try (destruct (L0 U) as [-> ->]; split; reflexivity).
  all: try (rewrite (L1 U); reflexivity).
  - rewrite (eqt_sym p c). destruct (eqt c p); [discriminate|auto].
  - rewrite (eqt_sym p c). destruct (eqt c p); [reflexivity|discriminate].
Qed.

Lemma map_id_Forall : forall (f : rs -> rs) l, Forall (fun a => f a = a) l -> map f l = l.
Proof. induction 1; cbn; congruence. Qed.

Lemma subst_nil : forall a, subst [] a = a.
Proof.
  apply Ppr2_proofs.rs_all. intros k c lb t args IH. destruct k; cbn; try reflexivity; now rewrite (map_id_Forall _ _ IH).
Qed.

Lemma find_none : forall A (m : table A) k, find m k = None <-> ~ In k (map fst m).
Proof.
  induction m as [|[k' v] m IH]; intros k; cbn; [tauto|]. destruct (eqt k' k) eqn:E.
  - apply eqt_eq in E. subst. split; [discriminate|tauto].
  - rewrite IH. split; [|tauto]. intros N [->|I]; [rewrite eqt_refl in E; discriminate|contradiction].
Qed.

Lemma sum_zero : forall (f : rs -> nat) l, list_sum (map f l) = 0%nat -> forall a, In a l -> f a = 0%nat.
Proof.
  induction l as [|b l IH]; intros U a I; [destruct I|]. cbn [map list_sum fold_right] in U.
  change (f b + list_sum (map f l) = 0)%nat in U. destruct I as [<-|I]; [lia|]. apply IH; [lia|exact I].
Qed.

Lemma subst_unused : forall sigma a, (forall q, In q (map fst sigma) -> uses q a = 0%nat) -> subst sigma a = a.
Proof.
  intros sigma. refine (Ppr2_proofs.rs_all (fun a => (forall q, In q (map fst sigma) -> uses q a = 0%nat) -> subst sigma a = a) _). intros k c lb t args IH U.
  assert (A : inner k = true -> map (subst sigma) args = args).
  { intros K. apply map_id_Forall. apply Forall_forall. intros a I. rewrite Forall_forall in IH. apply (IH a I). intros q Q.
    specialize (U q Q). apply (sum_zero (uses q) args); [|exact I]. destruct k; try discriminate K; exact U. }
  destruct k; cbn; try reflexivity; try (rewrite (A eq_refl); reflexivity).
  assert (find sigma c = None) as ->; [|reflexivity]. apply find_none. intros I. specialize (U c I). cbn in U. rewrite eqt_refl in U. discriminate.
Qed.

Lemma subst_subst : forall p a sigma, (forall q, In q (map fst sigma) -> uses q a = 0%nat) ->
  forall b, subst sigma (subst [(p, a)] b) = subst ((p, a) :: sigma) b.
Proof.
  intros p a sigma U. apply Ppr2_proofs.rs_all. intros k c lb t args IH.
  assert (M : map (subst sigma) (map (subst [(p, a)]) args) = map (subst ((p, a) :: sigma)) args).
  { rewrite map_map. apply map_ext_in. intros b I. rewrite Forall_forall in IH. apply (IH b I). }
  destruct k; cbn [subst inner find]; try reflexivity; try (rewrite M; reflexivity).
  destruct (eqt p c); [apply subst_unused, U|reflexivity].
Qed.

Lemma uses_subst : forall q p a, q <> p -> uses q a = 0%nat -> forall b, uses q (subst [(p, a)] b) = uses q b.
Proof.
  intros q p a N U. apply Ppr2_proofs.rs_all. intros k c lb t args IH.
  assert (M : map (uses q) (map (subst [(p, a)]) args) = map (uses q) args).
  { rewrite map_map. apply map_ext_in. intros b I. rewrite Forall_forall in IH. apply (IH b I). }
  destruct k; cbn [subst inner find uses]; try reflexivity; try (rewrite M; reflexivity).
  destruct (eqt p c) eqn:E; [|reflexivity]. apply eqt_eq in E; subst c. rewrite U. rewrite eqt_neq; [reflexivity|congruence].
Qed.

Lemma linear_length : forall params args body, linear params args body -> List.length params = List.length args.
Proof. induction params as [|p ps IH]; destruct args as [|a l]; cbn; intros body H; try destruct H; auto. f_equal. apply (IH _ body). tauto. Qed.

Lemma linear_subst : forall params args body p a, linear params args body -> ~ In p params -> (forall q, In q params -> uses q a = 0%nat) ->
  linear params args (map (subst [(p, a)]) body).
Proof.
  induction params as [|q ps IH]; destruct args as [|b l]; cbn; intros body p a H N U; try destruct H; auto.
  destruct H0 as (H1 & H2 & H3). split; [|split; [exact H1|split; [exact H2|]]].
  - unfold uses_in in *. rewrite map_map. erewrite map_ext; [exact H|]. intros c. apply uses_subst; [intros ->; apply N; left; reflexivity|].
    apply U. left; reflexivity.
  - apply IH; auto.
Qed.

Lemma fill_ok : forall params args k c lb t body, linear (map cmd_of params) args body ->
  fill params args (Rs k c lb t body) = Rs k c lb t (map (subst (combine (map cmd_of params) args)) body).
Proof.
  induction params as [|p ps IH]; destruct args as [|a l]; intros k c lb t body H; try (destruct H; fail).
  - cbn. f_equal. symmetry. apply map_id_Forall. apply Forall_forall. intros x _. apply subst_nil.
  - cbn [map linear] in H. destruct H as (H1 & H2 & H3 & H4). cbn [fill map combine].
    assert (E : (match overwrite (cmd_of p) a (Rs k c lb t body) with Some r' => r' | None => Rs k c lb t body end) =
                Rs k c lb t (map (subst [(cmd_of p, a)]) body)).
    { rewrite overwrite_owl. assert (F : Forall (one_ok (cmd_of p) a) body) by (apply Forall_forall; intros; apply ow_ok).
      destruct (owl_ok _ _ _ F) as [L0 L1]. destruct (Nat.eq_dec (uses_in (cmd_of p) body) 0) as [Z|Z].
      - destruct (L0 Z) as [-> ->]. reflexivity.
      - rewrite (L1 ltac:(lia)). reflexivity. }
    rewrite E, IH by (apply linear_subst; auto). f_equal. rewrite map_map. apply map_ext. intros b. apply subst_subst.
    intros q I. apply H3. clear - I. revert l I. induction (map cmd_of ps) as [|x xs IH]; destruct l; cbn; intros I; try tauto. destruct I as [->|I]; [left; reflexivity|right; apply (IH _ I)].
Qed.

Lemma expand_meaning : forall src body use, linear (map cmd_of (args_of src)) (args_of use) (args_of body) ->
  expand (src, body) use = Some (meaning (map cmd_of (args_of src)) body use).
Proof.
  intros [k1 c1 l1 t1 params] [k2 c2 l2 t2 body] [k3 c3 l3 t3 args] H. cbn [args_of] in H. pose proof (linear_length _ _ _ H) as L.
  rewrite map_length in L. unfold expand, meaning. cbn [args_of label_of with_label_of].
  destruct params as [|p ps].
  - destruct args; [|discriminate]. cbn. do 2 f_equal. symmetry. apply map_id_Forall. apply Forall_forall. intros x _. apply subst_nil.
  - rewrite L, Nat.eqb_refl. rewrite fill_ok by exact H. reflexivity.
Qed.

Lemma expand_refused : forall src body use, expand (src, body) use = None <->
  args_of src <> [] /\ List.length (args_of src) <> List.length (args_of use).
Proof.
  intros src body use. unfold expand. destruct (args_of src) as [|p ps] eqn:E.
  - split; [destruct (args_of use); discriminate|intros [N _]; congruence].
  - destruct (Nat.eqb_spec (List.length (p :: ps)) (List.length (args_of use))) as [L|L].
    + split; [discriminate|intros [_ N]; contradiction].
    + split; [intros _; split; [discriminate|exact L]|reflexivity].
Qed.

(** * The equations of the functions *)
Lemma process_eq : forall files fuel (s : state) (r : rs), process files (S fuel) s r =
      let '(n1, r, s) := count_up s r in
      match expand_in s r with
      | None => Error
      | Some (n2, r) =>
          match args_of r with
          | [] => Ok (n1 + n2) r s
          | args => match each files fuel s args with
                    | Ok n (args, early) s => Ok (if early : bool then 0 else n1 + n2 + n) (with_args_of r args) s
                    | Error => Error | Undefined => Undefined | Out => Out
                    end
          end
      end.
Proof. reflexivity. Qed.

Lemma each_eq : forall files fuel (s : state) (l : list rs), each files (S fuel) s l =
      match l with
      | [] => Ok 0 ([], false) s
      | x :: l =>
          (* 768-778: [n] changes were made, [x] is what the argument has become. *)
          let next (n : nat) (x : rs) (s : state) :=
            let '(n', x, s) := count_up s x in
            match each files fuel s l with
            | Ok m (l, early) s => Ok (n + n' + m) (x :: l, early) s
            | o => o
            end in
          if is (kind_of x) Condition then
            match condition s x with
            | None => Undefined
            | Some s => Ok 0 (x :: l, true) s
            end
          else if negb (forallb (active s) (conds s)) then Ok 0 (x :: l, true) s
          else if is (kind_of x) Directive then
            let args := args_of x in
            if eqt (cmd_of x) (txt "!counter") then
              match args with
              | [] => Undefined
              | a :: _ => next 0%nat x (set_counters s (put (counters s) (cmd_of a)
                            (match args with [_] => 0 | _ => atoi (cmd_of (back_of a args)) end)))
              end
            else if eqt (cmd_of x) (txt "!def") then
              match args with
              | [] => Undefined
              | a :: _ =>
                  match repeat_ files fuel s (back_of a args) with
                  | Ok n body s =>
                      let args := removelast args ++ [body] in
                      let src := hd body args in
                      next n (with_args_of x args) (set_macros s (put (macros s) (cmd_of src) (src, body)))
                  | Error => Error | Undefined => Undefined | Out => Out
                  end
              end
            else if eqt (cmd_of x) (txt "!undef") then
              match args with
              | [] => Undefined
              | a :: _ =>
                  match find (macros s) (cmd_of a), find (counters s) (cmd_of a) with
                  | Some _, Some _ => next 0%nat x (set_counters (set_macros s (drop (macros s) (cmd_of a))) (drop (counters s) (cmd_of a)))
                  | _, _ => Undefined (* 695-696: [erase] of [end()] *)
                  end
              end
            else if eqt (cmd_of x) (txt "!load") then
              match args with
              | [] => Undefined
              | a :: _ =>
                  let name := cmd_of a in
                  let known := existsb (eqt name) (loaded s) in
                  match (if known then Some [] else files name) with
                  | None => Error
                  | Some new =>
                      let s := if known then s else set_loaded s (loaded s ++ [name]) in
                      match new ++ l with (* 717-740: the line after is not processed in this pass *)
                      | [] => Ok 1 ([], false) s
                      | y :: l' => match each files fuel s l' with
                                   | Ok m (l', early) s => Ok (1 + m) (y :: l', early) s
                                   | o => o
                                   end
                      end
                  end
              end
            else next 0%nat x s
          else
            match expand_in s x with
            | None => Error
            | Some (n, x) =>
                match subs files fuel s (args_of x) with
                | Ok m args s => next (n + m)%nat (with_args_of x args) s
                | Error => Error | Undefined => Undefined | Out => Out
                end
            end
      end.
Proof. reflexivity. Qed.

Lemma subs_eq : forall files fuel (s : state) (l : list rs), subs files (S fuel) s l =
      match l with
      | [] => Ok 0 [] s
      | x :: l =>
          match process files fuel s x with
          | Ok n x s => match subs files fuel s l with
                        | Ok m l s => Ok (n + m) (x :: l) s
                        | o => o
                        end
          | Error => Error | Undefined => Undefined | Out => Out
          end
      end.
Proof. reflexivity. Qed.

Lemma repeat__eq : forall files fuel (s : state) (r : rs), repeat_ files (S fuel) s r =
      match process files fuel s r with
      | Ok O r s => Ok 0 r s
      | Ok n r s => match repeat_ files fuel s r with
                    | Ok m r s => Ok (n + m) r s
                    | o => o
                    end
      | o => o
      end.
Proof. reflexivity. Qed.

(** * More fuel does not change what is done *)
Section More.
Variable files : text -> option (list rs).


Lemma process_more : forall f f', (f <= f')%nat ->
  (forall s r, process files f s r <> Out -> process files f' s r = process files f s r) /\
  (forall s l, each files f s l <> Out -> each files f' s l = each files f s l) /\
  (forall s l, subs files f s l <> Out -> subs files f' s l = subs files f s l) /\
  (forall s r, repeat_ files f s r <> Out -> repeat_ files f' s r = repeat_ files f s r).
Proof.
  induction f as [|f IH]; intros f' L; [repeat split; intros; exfalso; auto|].
  destruct f' as [|f']; [lia|]. destruct (IH f' ltac:(lia)) as (P & E & S' & R). clear IH.
  split; [|split; [|split]].
  - intros s r H. rewrite ?process_eq in *. destruct (count_up s r) as [[n1 r1] s1]. destruct (expand_in s1 r1) as [[n2 r2]|]; [|reflexivity].
    destruct (args_of r2) as [|a args]; [reflexivity|]. specialize (E s1 (a :: args)).
    destruct (each files f s1 (a :: args)) as [n [l e] s2| | |]; try (rewrite E by discriminate; reflexivity). exfalso; apply H; reflexivity.
  - intros s l H. rewrite ?each_eq in *. cbv zeta in *. destruct l as [|x l]; [reflexivity|].
    assert (N : forall n x s,
      (let '(n', x, s) := count_up s x in
       match each files f s l with Ok m (l, early) s => Ok (n + n' + m) (x :: l, early) s | o => o end) <> Out ->
      (let '(n', x, s) := count_up s x in
       match each files f' s l with Ok m (l, early) s => Ok (n + n' + m) (x :: l, early) s | o => o end) =
      (let '(n', x, s) := count_up s x in
       match each files f s l with Ok m (l, early) s => Ok (n + n' + m) (x :: l, early) s | o => o end)).
    { intros n y s1 H1. destruct (count_up s1 y) as [[n' y'] s2]. specialize (E s2 l).
      destruct (each files f s2 l) as [m [l1 e] s3| | |]; try (rewrite E by discriminate; reflexivity). exfalso; apply H1; reflexivity. }
    destruct (is (kind_of x) Condition); [reflexivity|]. destruct (negb (forallb (active s) (conds s))); [reflexivity|].
    destruct (is (kind_of x) Directive).
    + destruct (eqt (cmd_of x) (txt "!counter")); [destruct (args_of x); [reflexivity|apply N; exact H]|].
      destruct (eqt (cmd_of x) (txt "!def")).
      { destruct (args_of x) as [|a args]; [reflexivity|]. specialize (R s (back_of a (a :: args))).
        destruct (repeat_ files f s (back_of a (a :: args))) as [n body s1| | |]; try (rewrite R by discriminate); [|reflexivity|reflexivity|exfalso; apply H; reflexivity].
        apply N; exact H. }
      destruct (eqt (cmd_of x) (txt "!undef")).
      { destruct (args_of x) as [|a args]; [reflexivity|]. destruct (find (macros s) (cmd_of a)); [|reflexivity].
        destruct (find (counters s) (cmd_of a)); [|reflexivity]. apply N; exact H. }
      destruct (eqt (cmd_of x) (txt "!load")); [|apply N; exact H].
      destruct (args_of x) as [|a args]; [reflexivity|].
      destruct (if existsb (eqt (cmd_of a)) (loaded s) then Some [] else files (cmd_of a)) as [new|]; [|reflexivity].
      destruct (new ++ l) as [|y l']; [reflexivity|].
      specialize (E (if existsb (eqt (cmd_of a)) (loaded s) then s else set_loaded s (loaded s ++ [cmd_of a])) l').
      destruct (each files f _ l') as [m [l1 e] s3| | |]; try (rewrite E by discriminate; reflexivity). exfalso; apply H; reflexivity.
    + destruct (expand_in s x) as [[n y]|]; [|reflexivity]. specialize (S' s (args_of y)).
      destruct (subs files f s (args_of y)) as [m args s1| | |]; try (rewrite S' by discriminate); [|reflexivity|reflexivity|exfalso; apply H; reflexivity].
      apply N; exact H.
  - intros s l H. rewrite ?subs_eq in *. destruct l as [|x l]; [reflexivity|]. specialize (P s x).
    destruct (process files f s x) as [n y s1| | |]; try (rewrite P by discriminate); [|reflexivity|reflexivity|exfalso; apply H; reflexivity].
    specialize (S' s1 l). destruct (subs files f s1 l) as [m l1 s2| | |]; try (rewrite S' by discriminate; reflexivity). exfalso; apply H; reflexivity.
  - intros s r H. rewrite ?repeat__eq in *. specialize (P s r).
    destruct (process files f s r) as [n y s1| | |]; try (rewrite P by discriminate); [|reflexivity|reflexivity|exfalso; apply H; reflexivity].
    destruct n; [reflexivity|]. specialize (R s1 y). destruct (repeat_ files f s1 y) as [m l1 s2| | |]; try (rewrite R by discriminate; reflexivity). exfalso; apply H; reflexivity.
Qed.

Lemma passes_more : forall f f' s l, (f <= f')%nat -> passes files f s l <> Out -> passes files f' s l = passes files f s l.
Proof.
  induction f as [|f IH]; intros f' s l L H; [exfalso; apply H; reflexivity|]. destruct f' as [|f']; [lia|].
  cbn [passes] in *. destruct (process_more (S f) (S f') L) as (P & _). specialize (P s (Rs Root [] [] [] l)).
  destruct (process files (S f) s (Rs Root [] [] [] l)) as [n y s1| | |]; try (rewrite P by discriminate); [|reflexivity|reflexivity|exfalso; apply H; reflexivity].
  destruct n; [reflexivity|]. apply IH; [lia|exact H].
Qed.

Lemma processed_at : forall f s l o, passes files f s l = o -> o <> Out -> processed files s l o.
Proof. intros f s l o E N. exists f. intros f' L. rewrite (passes_more f f'); [exact E|exact L|congruence]. Qed.
End More.
