(** Whole objects; the positions of names. *)
From Verif Require Import Base Cmp_model Cmp_spec Cmp_proofs Cmp2_proofs Cmp3_proofs.
Local Open Scope nat_scope.

Definition Narrow (t : tree) : Prop := forall u, Sub t u -> match u with Node _ _ n _ l => length l <= n | _ => True end.
Lemma steps_narrow l : Forall (fun t => forall open i s s', comp open t i s = Some s' -> Narrow t) l ->
  forall b s s', Steps l b s s' -> forall t, In t l -> Narrow t.
Proof.
  induction 1 as [|t l Ht Hl IH]; intros b s s' H u Hu; [destruct Hu|]. inversion H; subst. destruct Hu as [<- |Hu]; [eapply Ht; eassumption|].
  eapply IH; eassumption.
Qed.
Lemma narrow t : forall open i s s', comp open t i s = Some s' -> Narrow t.
Proof.
  induction t as [z|h l| | |x|x|x c n p l IH|x l IH] using tree_all; intros open i s s' H u Hu; try (inversion Hu; subst; exact I).
  - rewrite comp_node in H. assert (Ln := node_length _ _ _ _ _ _ _ H). destruct (members_steps _ _ _ _ _ _ _ _ H) as (s1 & S1 & _).
    inversion Hu; subst; [exact Ln|]. eapply (steps_narrow l IH); eassumption.
  - destruct l as [|t l].
    + inversion Hu; subst; [exact I|]. match goal with F : In _ [] |- _ => destruct F end.
    + rewrite comp_set in H. destruct (mark_elements _ _) as [a|]; [|discriminate].
      assert (S1 := elements_steps _ _ _ _ _ _ H). inversion Hu; subst; [exact I|]. eapply (steps_narrow (t :: l) IH); eassumption.
Qed.

Lemma nodup_join (A B : list nat) : NoDup A -> NoDup B -> (forall k, In k A -> In k B -> False) -> NoDup (A ++ B).
Proof.
  intros HA HB H. induction HA as [|x A Hx HA IH]; [exact HB|]. cbn. constructor.
  - rewrite in_app_iff. intros [?|Q]; [contradiction|]. exact (H x (or_introl eq_refl) Q).
  - apply IH. intros k Hk. apply H. right. exact Hk.
Qed.
Definition Own (t : tree) : Prop := Narrow t -> forall i e, i < e ->
  map fst (place t i e) = defs t /\ NoDup (map snd (place t i e)) /\ (forall k, In k (map snd (place t i e)) -> k = i \/ e <= k < e + size t).
Lemma places_own l : Forall Own l -> (forall t, In t l -> Narrow t) -> forall b f, b + length l <= f ->
  map fst (places l b f) = defs_all l /\ NoDup (map snd (places l b f)) /\
  (forall k, In k (map snd (places l b f)) -> b <= k < b + length l \/ f <= k < f + list_sum (map size l)).
Proof.
  induction 1 as [|t l Ht Hl IH]; intros HN b f H; [split; [reflexivity|split; [constructor|intros k []]]|].
  cbn [length] in H. destruct (Ht (HN t (or_introl eq_refl)) b f ltac:(lia)) as (A1 & A2 & A3).
  destruct (IH (fun u Hu => HN u (or_intror Hu)) (S b) (f + size t) ltac:(lia)) as (B1 & B2 & B3).
  cbn [places map list_sum fold_right length]. change (fold_right Nat.add 0 (map size l)) with (list_sum (map size l)).
  rewrite !map_app, defs_all_cons, A1, B1. split; [reflexivity|]. split.
  - apply nodup_join; [exact A2|exact B2|]. intros k Hk Hk'. destruct (A3 k Hk), (B3 k Hk'); lia.
  - intros k Hk. apply in_app_or in Hk. destruct Hk as [Hk|Hk]; [destruct (A3 k Hk)|destruct (B3 k Hk)]; lia.
Qed.
Lemma labelled_own x e : map fst (labelled x e) = labels x /\ (forall k, In k (map snd (labelled x e)) -> k = e) /\ NoDup (map snd (labelled x e)).
Proof. destruct x as [x|]; cbn; (split; [reflexivity|]); split; try (intros k [->|[]]; reflexivity); try (intros k []); repeat constructor. intros []. Qed.
Lemma own t : Own t.
Proof.
  induction t as [z|h l| | |x|x|x c n p l IH|x l IH] using tree_all; intros HN i e H; try (split; [reflexivity|split; [apply NoDup_nil|intros k []; fail]]; fail).
  - cbn. split; [reflexivity|]. split; [repeat constructor; intros []|]. intros k [->|[]]. left. reflexivity.
  - rewrite place_node, defs_node. assert (Ln := HN _ (sub_here _)). cbn in Ln.
    destruct (places_own l IH (fun t Ht u Hu => HN u (sub_node _ _ _ _ _ _ _ Ht Hu)) (S e) (S e + n) ltac:(lia)) as (B1 & B2 & B3).
    destruct (labelled_own x e) as (A1 & A2 & A3). rewrite !map_app, A1, B1. split; [reflexivity|]. cbn [size]. split.
    + apply nodup_join; [exact A3|exact B2|]. intros k Hk Hk'. specialize (A2 k Hk). destruct (B3 k Hk'); lia.
    + intros k Hk. apply in_app_or in Hk. right. destruct Hk as [Hk|Hk]; [specialize (A2 k Hk)|destruct (B3 k Hk)]; lia.
  - rewrite place_set, defs_set.
    destruct (places_own l IH (fun t Ht u Hu => HN u (sub_set _ _ _ _ Ht Hu)) (S e) (S e + length l) ltac:(lia)) as (B1 & B2 & B3).
    destruct (labelled_own x e) as (A1 & A2 & A3). rewrite !map_app, A1, B1. split; [reflexivity|]. cbn [size]. split.
    + apply nodup_join; [exact A3|exact B2|]. intros k Hk Hk'. specialize (A2 k Hk). destruct (B3 k Hk'); lia.
    + intros k Hk. apply in_app_or in Hk. right. destruct Hk as [Hk|Hk]; [specialize (A2 k Hk)|destruct (B3 k Hk)]; lia.
Qed.

Fixpoint position (pl : list (nat * nat)) (x : nat) : nat :=
  match pl with [] => 0 | (y, k) :: pl => if y =? x then k else position pl x end.
Lemma position_in (pl : list (nat * nat)) : NoDup (map fst pl) -> forall x k, In (x, k) pl -> position pl x = k.
Proof.
  induction pl as [|(y, k') pl IH]; cbn; intros H x k Hx; [destruct Hx|]. inversion H; subst. destruct Hx as [E|Hx].
  - injection E as -> ->. rewrite Nat.eqb_refl. reflexivity.
  - destruct (Nat.eqb_spec y x) as [->|N]; [|apply IH; assumption]. exfalso. apply H2. exact (in_map fst _ _ Hx).
Qed.
Lemma position_own (pl : list (nat * nat)) : NoDup (map snd pl) -> forall x y k, In (x, k) pl -> In (y, k) pl -> x = y.
Proof.
  induction pl as [|(z, k') pl IH]; cbn; intros H x y k Hx Hy; [destruct Hx|]. inversion H; subst.
  destruct Hx as [Ex|Hx], Hy as [Ey|Hy].
  - congruence.
  - injection Ex as -> ->. exfalso. apply H2. exact (in_map snd _ _ Hy).
  - injection Ey as -> ->. exfalso. apply H2. exact (in_map snd _ _ Hx).
  - eapply IH; eassumption.
Qed.

Lemma object_shown c n p l s : let t := Node None c n p l in
  compile_object c n p l = Some s -> extent s <= 4096 -> Good t -> NoDup (defined (events t)) -> Declared (fun _ => False) t ->
  exists rho o N, (forall f, N <= f -> show_object f (code s) = Some o) /\ Shown rho t o /\
    (forall x y, In x (defined (events t)) -> In y (defined (events t)) -> rho x = rho y -> x = y).
Proof.
  intros t H He HG HN HD. assert (Hc := proj1 (HG _ (sub_here _))). assert (HL := proj2 (HG _ (sub_here _))). unfold t, Counted in Hc. unfold t, Late in HL.
  unfold compile_object in H. set (s0 := mks _ _ _ _) in H. assert (Ln := node_length _ _ _ _ _ _ _ H).
  destruct (members_steps _ _ _ _ _ _ _ _ H) as (s1 & S1 & C1 & E1 & N1 & _). cbn [plus] in S1.
  assert (X0 : extent s0 = S n) by reflexivity.
  destruct (steps_basic l (proj2 (Forall_forall Basic l) (fun u _ => basic u)) _ _ _ S1) as (E2 & C2 & N2).
  { lia. } { intros u Hu. exact (good_fit _ (good_node _ _ _ _ _ _ HG Hu)). }
  assert (NW : forall u, In u l -> Narrow u).
  { intros u Hu. refine (steps_narrow l _ _ _ _ S1 u Hu). apply Forall_forall. intros v _. apply narrow. }
  destruct (places_own l (proj2 (Forall_forall Own l) (fun u _ => own u)) NW 1 (S n) ltac:(lia)) as (P1 & P2 & P3).
  change (defined (events t)) with (defs t) in *. unfold t in HN. rewrite defs_node in HN. cbn [labels app] in HN.
  set (rho := position (places l 1 (S n))).
  destruct (steps_visible (code s1) rho l (proj2 (Forall_forall _ l) (fun u _ => visible (code s1) rho u)) 1 s0 s1 [] (n - length l) S1) as ((l' & N & Hl & Sl) & _).
  { lia. } { rewrite <- E1. exact He. } { intros u Hu. exact (good_node _ _ _ _ _ _ HG Hu). } { exact HN. }
  { intros a x b Ea. destruct (HD a x b) as [[]|Q]; [exact Ea|right; exact Q]. }
  { intros j x _ []. } { exact HL. }
  { intros x k Hx. apply position_in; [rewrite P1; exact HN|exact Hx]. } { intros x []. } { reflexivity. } { reflexivity. }
  { destruct (Nat.eq_dec (length l) n) as [En|En]; [left; lia|]. destruct Hc as [Hc|[Hc Hp]]; [contradiction|].
    exfalso. assert (O : false = true); [|discriminate]. destruct Hc as [l0 ->]. refine (members_rest _ _ _ _ _ _ _ _ H _).
    intros Ep. specialize (Hp Ep). rewrite app_length in Hp. cbn in Hp. lia. }
  exists rho, (ONode 0 c l'), N. split; [|split].
  - intros f Hf. unfold show_object. rewrite C1. assert (Z0 : code s1 0 = Head c n) by (rewrite C2 by lia; reflexivity).
    rewrite Z0. replace n with (length l + (n - length l)) by lia. rewrite (Hl f Hf). reflexivity.
  - constructor; [discriminate|exact Sl].
  - intros x y Hx Hy Exy. unfold t in Hx, Hy. rewrite defs_node in Hx, Hy. cbn [labels app] in Hx, Hy. rewrite <- P1 in Hx, Hy.
    apply in_map_iff in Hx. destruct Hx as ((x', kx) & <- & Hx). apply in_map_iff in Hy. destruct Hy as ((y', ky) & <- & Hy). cbn [fst] in *.
    assert (Rx : rho x' = kx) by (apply position_in; [rewrite P1; exact HN|exact Hx]).
    assert (Ry : rho y' = ky) by (apply position_in; [rewrite P1; exact HN|exact Hy]).
    apply (position_own _ P2 x' y' kx Hx). rewrite <- Rx, Exy, Ry. exact Hy.
Qed.
