(** Witnesses. *)
From Verif Require Import Base Cmp_model Cmp_spec.
Local Open Scope nat_scope.

Lemma follow_more f : forall m i k, follow f m i = Some k -> follow (S f) m i = Some k.
Proof.
  induction f as [|f IH]; intros m i k H; [discriminate|]. cbn [follow] in H. change (follow (S (S f)) m i) with (match m i with Ptr j => follow (S f) m j | _ => Some i end).
  destruct (m i); try exact H. exact (IH _ _ _ H).
Qed.
Lemma show_step f m r : show (S f) m r = match m r with
  | W z => Some (OVal z) | Wild => Some (OWild r) | Tail => Some ORest
  | Ptr i | VPtr i => match follow f m i with None => None | Some k => if k <? r then Some (OUse k) else match m k with
      | Head c n => match show_all f m (S k) n false with Some l => Some (ONode k c l) | None => None end
      | Set_ n => match show_all f m (S k) n false with Some l => Some (OSet k l) | None => None end
      | WRaw h n => Some (ORaw h (map m (seq (S k) n))) | _ => Some OBad end end
  | _ => Some OBad end.
Proof. reflexivity. Qed.
Lemma show_all_step f m j n after : show_all (S f) m j n after = match n with 0 => Some [] | S n => match show f m j with None => None | Some o =>
  match show_all f m (S j) n (after || match o with ORest => true | _ => false end) with None => None
  | Some l => Some (match after, o with true, OWild _ => l | _, _ => o :: l end) end end end.
Proof. reflexivity. Qed.
Lemma show_more f m : (forall r o, show f m r = Some o -> show (S f) m r = Some o) /\
  (forall j n a l, show_all f m j n a = Some l -> show_all (S f) m j n a = Some l).
Proof.
  induction f as [|f (IH1 & IH2)]; [split; intros; discriminate|]. split.
  - intros r o. rewrite !show_step. destruct (m r); try (intros H; exact H).
    + destruct (follow f m i) as [k|] eqn:E; [|discriminate]. rewrite (follow_more _ _ _ _ E). destruct (k <? r); [intros H; exact H|].
      destruct (m k); try (intros H; exact H).
      * destruct (show_all f m (S k) n false) as [l|] eqn:E2; [|discriminate]. rewrite (IH2 _ _ _ _ E2). intros H. exact H.
      * destruct (show_all f m (S k) n false) as [l|] eqn:E2; [|discriminate]. rewrite (IH2 _ _ _ _ E2). intros H. exact H.
    + destruct (follow f m i) as [k|] eqn:E; [|discriminate]. rewrite (follow_more _ _ _ _ E). destruct (k <? r); [intros H; exact H|].
      destruct (m k); try (intros H; exact H).
      * destruct (show_all f m (S k) n false) as [l|] eqn:E2; [|discriminate]. rewrite (IH2 _ _ _ _ E2). intros H. exact H.
      * destruct (show_all f m (S k) n false) as [l|] eqn:E2; [|discriminate]. rewrite (IH2 _ _ _ _ E2). intros H. exact H.
  - intros j n a l. rewrite !show_all_step. destruct n as [|n]; [intros H; exact H|].
    destruct (show f m j) as [o|] eqn:E; [|discriminate]. rewrite (IH1 _ _ E).
    destruct (show_all f m (S j) n _) as [l'|] eqn:E2; [|discriminate]. rewrite (IH2 _ _ _ _ E2). intros H. exact H.
Qed.
Lemma object_more f m o : show_object f m = Some o -> forall g, f <= g -> show_object g m = Some o.
Proof.
  intros H g Hg. induction Hg as [|g Hg IH]; [exact H|]. unfold show_object in *. destruct (m 0); try discriminate.
  destruct (show_all g m 1 n false) as [l|] eqn:E; [|discriminate]. rewrite (proj2 (show_more g m) _ _ _ _ E). exact IH.
Qed.
Lemma object_same f g m o o' : show_object f m = Some o -> show_object g m = Some o' -> o = o'.
Proof.
  intros H H'. assert (A := object_more _ _ _ H (max f g) (Nat.le_max_l _ _)). assert (B := object_more _ _ _ H' (max f g) (Nat.le_max_r _ _)). congruence.
Qed.

(** What the refutations below say: [t] is accepted and is never shown as it is. *)
Definition lost (c : Z) (n : nat) (p : bool) (l : list tree) : Prop :=
  exists s, compile_object c n p l = Some s /\ forall rho f o, show_object f (code s) = Some o -> ~ Shown rho (Node None c n p l) o.
Definition shows (f : nat) (x : option state) (o : out) : Prop := match x with Some s => show_object f (code s) = Some o | None => False end.
Lemma lost_by c n p l f o : shows f (compile_object c n p l) o -> (forall rho, ~ Shown rho (Node None c n p l) o) -> lost c n p l.
Proof.
  intros H2 H3. unfold lost, shows in *. destruct (compile_object c n p l) as [s|]; [|destruct H2]. exists s. split; [reflexivity|]. intros rho g o' H. rewrite <- (object_same _ _ _ _ _ H2 H). apply H3.
Qed.

(** A set of 256 elements. *)
Lemma set_lost : lost 1 1 false [SetOf None (repeat (Val 0) 256)].
Proof.
  apply (lost_by _ _ _ _ 5 (ONode 0 1 [OSet 2 []])).
  - vm_compute. reflexivity.
  - intros rho H. inversion H as [ | | | | | |? ? ? ? ? ? ? _ H2| ]; subst. inversion H2 as [|? ? ? ? H3]; subst. inversion H3 as [ | | | | | | |? ? ? ? _ H4]; subst. inversion H4.
Qed.
(** [(ptn ::)]. *)
Lemma guard_lost : lost 1 2 true [Rest].
Proof.
  apply (lost_by _ _ _ _ 5 (ONode 0 1 [ORest; OBad])).
  - vm_compute. reflexivity.
  - intros rho H. inversion H as [ | | | | | |? ? ? ? ? ? ? _ H2| ]; subst. inversion H2 as [|? ? ? ? _ H3]; subst. inversion H3.
Qed.
(** [(foo l:(bar 1) l)]. *)
Lemma label_lost : lost 1 2 false [Node (Some 0) 2 1 false [Val 1]; Use 0].
Proof.
  apply (lost_by _ _ _ _ 9 (ONode 0 1 [ONode 3 2 [OVal 1]; ONode 3 2 [OVal 1]])).
  - vm_compute. reflexivity.
  - intros rho H. inversion H as [ | | | | | |? ? ? ? ? ? ? _ H2| ]; subst. inversion H2 as [|? ? ? ? _ H3]; subst. inversion H3 as [|? ? ? ? H4]; subst. inversion H4.
Qed.
(** [(ptn (foo (bar x:) x))]. *)
Lemma variable_lost : lost 1 1 true [Node None 2 2 false [Node None 3 1 false [Var 0]; Use 0]].
Proof.
  apply (lost_by _ _ _ _ 12 (ONode 0 1 [ONode 2 2 [ONode 5 3 [OWild 6]; OBad]])).
  - vm_compute. reflexivity.
  - intros rho H. inversion H as [ | | | | | |? ? ? ? ? ? ? _ H2| ]; subst. inversion H2 as [|? ? ? ? H3]; subst. inversion H3 as [ | | | | | |? ? ? ? ? ? ? _ H4| ]; subst.
    inversion H4 as [|? ? ? ? _ H5]; subst. inversion H5 as [|? ? ? ? H6]; subst. inversion H6.
Qed.
(** [(ptn (foo x: [x x:]))]: the use is the one of the object itself. *)
Lemma outer_lost : exists s, compile_object 1 1 true [Node None 2 2 false [Var 0; SetOf None [Use 0; Var 0]]] = Some s /\
  forall f o, show_object f (code s) = Some o -> o = ONode 0 1 [ONode 2 2 [OWild 3; OSet 5 [OUse 0; OWild 7]]].
Proof.
  assert (H : shows 12 (compile_object 1 1 true [Node None 2 2 false [Var 0; SetOf None [Use 0; Var 0]]]) (ONode 0 1 [ONode 2 2 [OWild 3; OSet 5 [OUse 0; OWild 7]]])) by (vm_compute; reflexivity).
  unfold shows in H. destruct (compile_object _ _ _ _) as [s|]; [|destruct H]. exists s. split; [reflexivity|]. intros f o F. exact (object_same _ _ _ _ _ F H).
Qed.
(** Beyond 4096 words. *)
Definition long : list tree := [SetOf None (repeat (Raw 0 (repeat 0%Z 250)) 17); Raw 5 []].
Lemma far_lost : lost 1 2 false long.
Proof.
  assert (E : match compile_object 1 2 false long with Some s => code s 2 = Ptr 192 /\ code s 192 = W 0 /\ code s 0 = Head 1 2 | None => False end)
    by (vm_compute; repeat split).
  unfold lost. destruct (compile_object 1 2 false long) as [s|]; [|destruct E]. exists s. split; [reflexivity|]. rename E into E2.
  destruct E2 as (E2 & E3 & E4). intros rho f o H HS. unfold show_object in H. rewrite E4 in H.
  destruct f as [|f]; [discriminate|]. rewrite show_all_step in H. destruct (show f (code s) 1) as [o1|] eqn:F; [|discriminate].
  cbn [orb] in H. destruct (show_all f (code s) 2 1 _) as [l'|] eqn:G; [|discriminate]. injection H as <-.
  destruct f as [|f]; [discriminate|]. rewrite show_all_step in G. destruct (show f (code s) 2) as [o2|] eqn:F2; [|discriminate].
  destruct f as [|f]; [discriminate|]. rewrite show_step, E2 in F2.
  destruct f as [|f]; [discriminate|]. cbn [follow] in F2. rewrite E3 in F2. change (192 <? 2) with false in F2. cbn beta iota in F2. rewrite E3 in F2. injection F2 as <-.
  rewrite show_all_step in G. assert (L : l' = [OBad]). { destruct o1; injection G as <-; reflexivity. } subst l'.
  inversion HS as [ | | | | | |? ? ? ? ? ? ? _ H2| ]; subst. inversion H2 as [|? ? ? ? _ H3]; subst. inversion H3 as [|? ? ? ? H4]; subst. inversion H4.
Qed.
(** [(ptn (foo [x: ::]))], the class foo with three members. *)
Lemma leak : let l := [Node None 2 3 false [SetOf None [Var 0; Rest]]] in
  compile_object 1 1 true l <> None /\ ~ Ordered false (Node None 1 1 true l).
Proof.
  intros l. split; [vm_compute; discriminate|]. intros H. inversion H as [ | | | | | |? ? ? ? ? ? _ H2 _| ]; subst. specialize (H2 0 _ eq_refl).
  inversion H2 as [ | | | | | |? ? ? ? ? ? [H3|[_ [l' H3]]] _ _| ]; subst; [discriminate|]. destruct l' as [|? [|? ?]]; discriminate.
Qed.
