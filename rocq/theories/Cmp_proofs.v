(** What is written for a tree, and what is shown of it. *)
From Verif Require Import Base Cmp_model Cmp_spec.
Local Open Scope nat_scope.

Section Ind.
Variable P : tree -> Prop.
Hypothesis Hval : forall z, P (Val z).
Hypothesis Hraw : forall h l, P (Raw h l).
Hypothesis Hany : P Any.
Hypothesis Hrest : P Rest.
Hypothesis Hvar : forall x, P (Var x).
Hypothesis Huse : forall x, P (Use x).
Hypothesis Hnode : forall x c n p l, Forall P l -> P (Node x c n p l).
Hypothesis Hset : forall x l, Forall P l -> P (SetOf x l).
Fixpoint tree_all (t : tree) : P t :=
  match t with
  | Val z => Hval z | Raw h l => Hraw h l | Any => Hany | Rest => Hrest | Var x => Hvar x | Use x => Huse x
  | Node x c n p l => Hnode x c n p l ((fix go l := match l return Forall P l with [] => Forall_nil P | t :: l => Forall_cons t (tree_all t) (go l) end) l)
  | SetOf x l => Hset x l ((fix go l := match l return Forall P l with [] => Forall_nil P | t :: l => Forall_cons t (tree_all t) (go l) end) l)
  end.
End Ind.

Fixpoint marks (l : list tree) (j : nat) (e : nat -> option nat) : option (nat -> option nat) :=
  match l with [] => Some e | t :: l => match mark t j e with Some e => marks l (S j) e | None => None end end.
Definition with_label (x : option nat) (i : nat) (e : nat -> option nat) : nat -> option nat :=
  match x with Some x => fun y => if y =? x then Some i else e y | None => e end.
Lemma mark_node x c n p l i e : mark (Node x c n p l) i e = marks l 0 (with_label x i e).
Proof.
  cbn [mark]. fold (with_label x i e). generalize (with_label x i e). generalize 0. induction l as [|t l IH]; intros j f; [reflexivity|].
  cbn [marks]. destruct (mark t j f); [apply IH|reflexivity].
Qed.
Lemma mark_set x l i e : mark (SetOf x l) i e = marks l 0 (with_label x i e).
Proof.
  cbn [mark]. fold (with_label x i e). generalize (with_label x i e). generalize 0. induction l as [|t l IH]; intros j f; [reflexivity|].
  cbn [marks]. destruct (mark t j f); [apply IH|reflexivity].
Qed.

(** Before the members of an expression, and the elements of a set. *)
Definition begin_node (open : bool) (x : option nat) (c : Z) (n i : nat) (s : state) : state :=
  let s' := grow (S n) (put (extent s) (Head c n) (put i (Ptr (bits12 (extent s))) (name_opt x i s))) in
  if open then put_all (S (extent s)) (repeat Wild n) s' else s'.
Definition begin_set (x : option nat) (n i : nat) (a : nat -> option nat) (s : state) : state :=
  grow (S (n mod 256)) (put (extent s) (Set_ (n mod 256)) (put i (Ptr (bits12 (extent s))) (set_names a (name_opt x i s)))).
Lemma comp_node open x c n p l i s :
  comp open (Node x c n p l) i s = members open p n (S (extent s)) l 0 (begin_node open x c n i s).
Proof.
  assert (E : forall e l k s, (fix go (l : list tree) (k : nat) (s : state) : option state :=
         match l with
         | [] => if cut s then Some (set_cut false s) else if k =? n then Some s else None
         | t :: l =>
             if n <=? k then None
             else if is_rest t && negb (match l with [] => true | _ => false end) then None
             else match comp (open || (p && (k =? 0))) t (S e + k) s with Some s => go l (S k) s | None => None end
         end) l k s = members open p n (S e) l k s).
  { clear. intros e. induction l as [|t l IH]; intros k s; [reflexivity|]. cbn [members]. destruct (n <=? k); [reflexivity|].
    destruct (is_rest t && _); [reflexivity|]. destruct (comp _ t (S e + k) s); [apply IH|reflexivity]. }
  cbn [comp]. cbv zeta. rewrite E. reflexivity.
Qed.
Lemma comp_set open x t l i s :
  comp open (SetOf x (t :: l)) i s =
  match mark_elements (t :: l) (names (name_opt x i s)) with
  | None => None
  | Some a => elements open (S (extent s)) (t :: l) 0 (begin_set x (length (t :: l)) i a s)
  end.
Proof.
  assert (E : forall open e l k s, (fix go (l : list tree) (k : nat) (s : state) : option state :=
             match l with
             | [] => Some s
             | t :: l =>
                 if is_rest t && negb (match l with [] => true | _ => false end) then None
                 else match comp open t (S e + k) s with Some s => go l (S k) s | None => None end
             end) l k s = elements open (S e) l k s).
  { clear. intros open e. induction l as [|t l IH]; intros k s; [reflexivity|]. cbn [elements]. destruct (is_rest t && _); [reflexivity|].
    destruct (comp open t (S e + k) s); [apply IH|reflexivity]. }
  destruct (mark_elements (t :: l) (names (name_opt x i s))) as [a|] eqn:Ea.
  - rewrite <- E. cbn [comp]. cbv zeta. rewrite Ea. reflexivity.
  - cbn [comp]. cbv zeta. rewrite Ea. reflexivity.
Qed.
Lemma comp_nothing open x i s : comp open (SetOf x []) i s =
  match x with None => Some (grow 1 (put (extent s) (Set_ 0) (put i (Ptr (bits12 (extent s))) s))) | Some _ => None end.
Proof. reflexivity. Qed.

(** Words put. *)
Lemma put_same i w s : code (put i w s) i = w. Proof. cbn. rewrite Nat.eqb_refl. reflexivity. Qed.
Lemma put_other i w s j : j <> i -> code (put i w s) j = code s j.
Proof. intros H. cbn. destruct (Nat.eqb_spec j i); [contradiction|reflexivity]. Qed.
Lemma put_all_other l : forall i s j, j < i \/ i + length l <= j -> code (put_all i l s) j = code s j.
Proof.
  induction l as [|w l IH]; intros i s j H; [reflexivity|]. cbn [put_all length] in *. rewrite IH by lia. apply put_other. lia.
Qed.
Lemma put_all_same l : forall i s k w, nth_error l k = Some w -> code (put_all i l s) (i + k) = w.
Proof.
  induction l as [|v l IH]; intros i s k w H; [destruct k; discriminate|]. cbn [put_all]. destruct k as [|k]; cbn [nth_error] in H.
  - injection H as ->. rewrite put_all_other by lia. rewrite Nat.add_0_r. apply put_same.
  - rewrite Nat.add_succ_r. rewrite <- Nat.add_succ_l. apply IH. exact H.
Qed.
Lemma put_all_extent l : forall i s, extent (put_all i l s) = extent s.
Proof. induction l as [|w l IH]; intros i s; [reflexivity|]. cbn [put_all]. rewrite IH. reflexivity. Qed.
Lemma put_all_names l : forall i s, names (put_all i l s) = names s.
Proof. induction l as [|w l IH]; intros i s; [reflexivity|]. cbn [put_all]. rewrite IH. reflexivity. Qed.
Lemma put_all_cut l : forall i s, cut (put_all i l s) = cut s.
Proof. induction l as [|w l IH]; intros i s; [reflexivity|]. cbn [put_all]. rewrite IH. reflexivity. Qed.
Lemma name_opt_code x i s : code (name_opt x i s) = code s. Proof. destruct x; reflexivity. Qed.
Lemma name_opt_extent x i s : extent (name_opt x i s) = extent s. Proof. destruct x; reflexivity. Qed.
Lemma name_opt_cut x i s : cut (name_opt x i s) = cut s. Proof. destruct x; reflexivity. Qed.
Lemma name_opt_names x i s : names (name_opt x i s) = with_label x i (names s). Proof. destruct x; reflexivity. Qed.

Lemma begin_node_extent open x c n i s : extent (begin_node open x c n i s) = S (extent s) + n.
Proof. unfold begin_node. destruct open; [rewrite put_all_extent|]; cbn; rewrite name_opt_extent; lia. Qed.
Lemma begin_node_names open x c n i s : names (begin_node open x c n i s) = with_label x i (names s).
Proof. unfold begin_node. destruct open; [rewrite put_all_names|]; cbn; apply name_opt_names. Qed.
Lemma begin_node_cut open x c n i s : cut (begin_node open x c n i s) = cut s.
Proof. unfold begin_node. destruct open; [rewrite put_all_cut|]; cbn; apply name_opt_cut. Qed.
Lemma begin_node_other open x c n i s j : j <> i -> j < extent s \/ extent s + S n <= j -> code (begin_node open x c n i s) j = code s j.
Proof.
  intros Hi Hj. assert (E : code (grow (S n) (put (extent s) (Head c n) (put i (Ptr (bits12 (extent s))) (name_opt x i s)))) j = code s j).
  { change (code (put (extent s) (Head c n) (put i (Ptr (bits12 (extent s))) (name_opt x i s))) j = code s j).
    rewrite put_other by lia. rewrite put_other by exact Hi. rewrite name_opt_code. reflexivity. }
  unfold begin_node. destruct open; [|exact E]. rewrite put_all_other by (rewrite repeat_length; lia). exact E.
Qed.
Lemma begin_node_head open x c n i s : i < extent s ->
  code (begin_node open x c n i s) i = Ptr (bits12 (extent s)) /\ code (begin_node open x c n i s) (extent s) = Head c n.
Proof.
  intros Hi.
  assert (E : forall j, j <= extent s -> code (begin_node open x c n i s) j = code (put (extent s) (Head c n) (put i (Ptr (bits12 (extent s))) (name_opt x i s))) j).
  { intros j Hj. unfold begin_node. destruct open; [|reflexivity]. rewrite put_all_other by lia. reflexivity. }
  split; rewrite E by lia; [rewrite put_other by lia|]; apply put_same.
Qed.
Lemma begin_node_fill x c n i s k : k < n -> code (begin_node true x c n i s) (S (extent s) + k) = Wild.
Proof. intros H. unfold begin_node. apply put_all_same. rewrite nth_error_repeat by exact H. reflexivity. Qed.

Lemma begin_set_other x n i a s j : j <> i -> j <> extent s -> code (begin_set x n i a s) j = code s j.
Proof.
  intros Hi Hj. change (code (put (extent s) (Set_ (n mod 256)) (put i (Ptr (bits12 (extent s))) (set_names a (name_opt x i s)))) j = code s j).
  rewrite put_other by exact Hj. rewrite put_other by exact Hi. change (code (name_opt x i s) j = code s j). rewrite name_opt_code. reflexivity.
Qed.
Lemma begin_set_head x n i a s : i < extent s ->
  code (begin_set x n i a s) i = Ptr (bits12 (extent s)) /\ code (begin_set x n i a s) (extent s) = Set_ (n mod 256).
Proof.
  intros Hi. change (code (begin_set x n i a s)) with (code (put (extent s) (Set_ (n mod 256)) (put i (Ptr (bits12 (extent s))) (set_names a (name_opt x i s))))).
  split; [rewrite put_other by lia|]; apply put_same.
Qed.
Lemma begin_set_extent x n i a s : extent (begin_set x n i a s) = extent s + S (n mod 256).
Proof. cbn. rewrite name_opt_extent. reflexivity. Qed.

(** Names. *)
Definition defs (t : tree) : list nat := defined (events t).
Lemma defined_app a b : defined (a ++ b) = defined a ++ defined b.
Proof. induction a as [|[x|x] a IH]; cbn; [reflexivity| |]; rewrite ?IH; reflexivity. Qed.
Lemma in_defined x l : In x (defined l) <-> In (D x) l.
Proof.
  induction l as [|[y|y] l IH]; cbn; [tauto| |]; rewrite IH; split; intros H; intuition congruence.
Qed.
Definition defs_all (l : list tree) : list nat := defined (flat_map events l).
Lemma defs_all_cons t l : defs_all (t :: l) = defs t ++ defs_all l.
Proof. unfold defs_all, defs. cbn. apply defined_app. Qed.
Definition labels (x : option nat) : list nat := match x with Some x => [x] | None => [] end.
Lemma defs_node x c n p l : defs (Node x c n p l) = labels x ++ defs_all l.
Proof. unfold defs, defs_all. cbn. rewrite defined_app. destruct x; reflexivity. Qed.
Lemma defs_set x l : defs (SetOf x l) = labels x ++ defs_all l.
Proof. unfold defs, defs_all. cbn. rewrite defined_app. destruct x; reflexivity. Qed.
Lemma with_label_other x i e y : ~ In y (labels x) -> with_label x i e y = e y.
Proof. destruct x as [x|]; cbn; [|reflexivity]. intros H. destruct (Nat.eqb_spec y x); [subst; tauto|reflexivity]. Qed.

Lemma mark_names : forall t i e e', mark t i e = Some e' -> forall y, ~ In y (defs t) -> e' y = e y.
Proof.
  assert (L : forall l, Forall (fun t => forall i e e', mark t i e = Some e' -> forall y, ~ In y (defs t) -> e' y = e y) l ->
    forall j e e', marks l j e = Some e' -> forall y, ~ In y (defs_all l) -> e' y = e y).
  { induction 1 as [|t l Ht Hl IH]; intros j e e' H y Hy; cbn [marks] in H; [congruence|].
    destruct (mark t j e) as [e1|] eqn:E; [|discriminate]. rewrite defs_all_cons, in_app_iff in Hy.
    rewrite (IH _ _ _ H) by tauto. exact (Ht _ _ _ E y ltac:(tauto)). }
  intros t. induction t as [z|h l| | |x|x|x c n p l IH|x l IH] using tree_all; intros i e e' H y Hy; try (cbn [mark] in H; congruence).
  - cbn [mark] in H. injection H as <-. cbn in Hy. destruct (Nat.eqb_spec y x); [subst; tauto|reflexivity].
  - cbn [mark] in H. destruct (e x); congruence.
  - rewrite mark_node in H. rewrite defs_node, in_app_iff in Hy. rewrite (L l IH _ _ _ H) by tauto. apply with_label_other. tauto.
  - rewrite mark_set in H. rewrite defs_set, in_app_iff in Hy. rewrite (L l IH _ _ _ H) by tauto. apply with_label_other. tauto.
Qed.
Lemma mark_elements_names l : forall e e', mark_elements l e = Some e' -> forall y, ~ In y (defs_all l) -> e' y = e y.
Proof.
  induction l as [|t l IH]; intros e e' H y Hy; cbn [mark_elements] in H; [congruence|].
  destruct (mark t 0 e) as [e1|] eqn:E; [|discriminate]. rewrite defs_all_cons, in_app_iff in Hy.
  rewrite (IH _ _ H) by tauto. exact (mark_names t _ _ _ E y ltac:(tauto)).
Qed.
