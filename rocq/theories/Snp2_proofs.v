(* Further lemmas on images of the memory. *)
From Coq Require Import List Bool Arith Lia.
From Verif Require Import Snp_model Snp_spec Snp_proofs.
Import ListNotations.

(* Importing. *)
Section Import.
Context (m : memory) (U : list nat) (HU : forall x, In x U -> forall r, In r (next_views (m x)) -> In r U).

Definition isub (f : nat) (r : nat) (l : list nat) := if has r l then Some l else import f m r l.

Lemma import_eq f x l : import (S f) m x l =
  if has x l then Some l else each (isub f) (next_views (m x)) (l ++ [x]).
Proof. cbn [import]. rewrite followed_shown. reflexivity. Qed.

Definition Done (roots : list nat) (l l' : list nat) : Prop :=
  (exists k, l' = l ++ k) /\ NoDup l' /\ incl l' U /\ incl roots l' /\
  (forall y, In y l' -> In y l \/ (incl (next_views (m y)) l' /\ exists x, In x roots /\ Reach m next_views x y)).

Lemma nodup_room l x : NoDup l -> incl l U -> ~ In x l -> In x U -> length l < length U.
Proof.
  intros N I X XU. assert (NoDup (x :: l)) by (constructor; assumption).
  assert (incl (x :: l) U) by (intros y [Y|Y]; [subst; exact XU|apply I; exact Y]).
  pose proof (NoDup_incl_length H H0). cbn in H1. lia.
Qed.

Lemma reach_front x r y : In r (next_views (m x)) -> Reach m next_views r y -> Reach m next_views x y.
Proof.
  intros R H. induction H as [|y z H IH I]; [eapply RStep; [apply RSelf|exact R]|eapply RStep; eassumption].
Qed.

Lemma each_done g (step : forall r l, In r U -> NoDup l -> incl l U ->
     (length U - length l < g) -> exists l', isub g r l = Some l' /\ Done [r] l l') :
  forall rs l, incl rs U -> NoDup l -> incl l U -> length U - length l < g ->
  exists l', each (isub g) rs l = Some l' /\ Done rs l l'.
Proof.
  induction rs as [|r rs IH]; intros l R N I L; cbn [each].
  - exists l. split; [reflexivity|]. split; [exists []; rewrite app_nil_r; reflexivity|].
    split; [exact N|]. split; [exact I|]. split; [intros y []|auto].
  - destruct (step r l (R r (or_introl eq_refl)) N I L) as [l1 [E [[k1 G1] [N1 [I1 [R1 D1]]]]]]. rewrite E.
    assert (L1 : length U - length l1 < g) by (subst l1; rewrite app_length; lia).
    destruct (IH l1 (fun y Y => R y (or_intror Y)) N1 I1 L1) as [l2 [E2 [[k2 G2] [N2 [I2 [R2 D2]]]]]].
    exists l2. split; [exact E2|]. split; [subst; exists (k1 ++ k2); rewrite app_assoc; reflexivity|].
    split; [exact N2|]. split; [exact I2|]. split.
    + intros y [Y|Y]; [|apply R2; exact Y]. subst y. rewrite G2. apply in_or_app. left. apply R1. left. reflexivity.
    + intros y Y. destruct (D2 y Y) as [K|[C [x [X1 X2]]]].
      * destruct (D1 y K) as [K1|[C [x [[X1|[]] X2]]]]; [auto|]. right. split.
        -- intros z Z. rewrite G2. apply in_or_app. left. apply C. exact Z.
        -- exists x. split; [left; exact X1|exact X2].
      * right. split; [exact C|]. exists x. split; [right; exact X1|exact X2].
Qed.

Lemma import_done : forall f x l, In x U -> NoDup l -> incl l U -> length U - length l < f ->
  exists l', import f m x l = Some l' /\ Done [x] l l'.
Proof.
  induction f as [|f IH]; intros x l XU N I L; [lia|]. rewrite import_eq. destruct (has x l) eqn:H.
  - apply has_in in H. exists l. split; [reflexivity|]. split; [exists []; rewrite app_nil_r; reflexivity|].
    split; [exact N|]. split; [exact I|]. split; [intros y [Y|[]]; subst; exact H|auto].
  - apply has_not in H. pose proof (nodup_room l x N I H XU) as Room.
    assert (N1 : NoDup (l ++ [x])) by (apply NoDup_snoc; assumption).
    assert (I1 : incl (l ++ [x]) U).
    { intros y Y. apply in_app_or in Y. destruct Y as [Y|[Y|[]]]; [apply I; exact Y|subst; exact XU]. }
    assert (L1 : length U - length (l ++ [x]) < f) by (rewrite app_length; cbn; lia).
    destruct (each_done f) with (rs := next_views (m x)) (l := l ++ [x]) as [l2 [E2 [[k2 G2] [N2 [I2 [R2 D2]]]]]]; auto.
    + intros r l0 RU N0 I0 L0. unfold isub. destruct (has r l0) eqn:Hr; [|apply IH; assumption].
      apply has_in in Hr. exists l0. split; [reflexivity|]. split; [exists []; rewrite app_nil_r; reflexivity|].
      split; [exact N0|]. split; [exact I0|]. split; [intros y [Y|[]]; subst; exact Hr|auto].
    + intros r R. eapply HU; eassumption.
    + exists l2. split; [exact E2|]. split; [subst; exists ([x] ++ k2); rewrite app_assoc; reflexivity|].
      split; [exact N2|]. split; [exact I2|]. split.
      * intros y [Y|[]]. subst y. rewrite G2. apply in_or_app. left. apply in_or_app. right. left. reflexivity.
      * intros y Y. destruct (D2 y Y) as [K|[C [z [Z1 Z2]]]].
        -- apply in_app_or in K. destruct K as [K|[K|[]]]; [auto|]. subst y. right. split; [exact R2|].
           exists x. split; [left; reflexivity|apply RSelf].
        -- right. split; [exact C|]. exists x. split; [left; reflexivity|]. eapply reach_front; eassumption.
Qed.

Lemma import_all_done xs : incl xs U ->
  exists l, import_all (S (length U)) m xs = Some l /\ NoDup l /\
    forall y, In y l <-> exists x, In x xs /\ Reach m next_views x y.
Proof.
  intros X. unfold import_all.
  assert (G : forall rs l, incl rs U -> NoDup l -> incl l U ->
    exists l', each (import (S (length U)) m) rs l = Some l' /\ Done rs l l').
  { induction rs as [|r rs IH]; intros l R N I; cbn [each].
    - exists l. split; [reflexivity|]. split; [exists []; rewrite app_nil_r; reflexivity|].
      split; [exact N|]. split; [exact I|]. split; [intros y []|auto].
    - destruct (import_done (S (length U)) r l (R r (or_introl eq_refl)) N I ltac:(lia)) as [l1 [E [[k1 G1] [N1 [I1 [R1 D1]]]]]]. rewrite E.
      destruct (IH l1 (fun y Y => R y (or_intror Y)) N1 I1) as [l2 [E2 [[k2 G2] [N2 [I2 [R2 D2]]]]]].
      exists l2. split; [exact E2|]. split; [subst; exists (k1 ++ k2); rewrite app_assoc; reflexivity|].
      split; [exact N2|]. split; [exact I2|]. split.
      + intros y [Y|Y]; [|apply R2; exact Y]. subst y. rewrite G2. apply in_or_app. left. apply R1. left. reflexivity.
      + intros y Y. destruct (D2 y Y) as [K|[C [x [X1 X2]]]].
        * destruct (D1 y K) as [K1|[C [x [[X1|[]] X2]]]]; [auto|]. right. split.
          -- intros z Z. rewrite G2. apply in_or_app. left. apply C. exact Z.
          -- exists x. split; [left; exact X1|exact X2].
        * right. split; [exact C|]. exists x. split; [right; exact X1|exact X2]. }
  destruct (G xs [] X (NoDup_nil _) (fun y (Y : In y []) => match Y with end)) as [l [E [_ [N [_ [R D]]]]]].
  exists l. split; [exact E|]. split; [exact N|]. intros y. split.
  - intros Y. destruct (D y Y) as [[]|[_ Z]]. exact Z.
  - intros [x [X1 H]]. induction H as [|y z H IH I]; [apply R; exact X1|].
    destruct (D y IH) as [[]|[C _]]. apply C. exact I.
Qed.
End Import.

(* Indices. *)
Lemma position_in x : forall l, In x l -> exists i, position x l = Some i.
Proof.
  induction l as [|y l IH]; intros I; [destruct I|]. cbn [position]. destruct (Nat.eqb x y) eqn:E; [eauto|].
  destruct I as [I|I]; [subst; rewrite Nat.eqb_refl in E; discriminate|].
  destruct (IH I) as [i ->]. eauto.
Qed.
Lemma position_nth x : forall l i, position x l = Some i -> nth_error l i = Some x /\ i < length l.
Proof.
  induction l as [|y l IH]; intros i E; cbn [position] in E; [discriminate|].
  destruct (Nat.eqb x y) eqn:Q.
  - injection E as <-. apply Nat.eqb_eq in Q. subst. cbn. split; [reflexivity|lia].
  - destruct (position x l) as [j|]; [|discriminate]. injection E as <-. destruct (IH j eq_refl) as [A B]. cbn. split; [exact A|lia].
Qed.
Lemma position_none x : forall l, ~ In x l -> position x l = None.
Proof.
  induction l as [|y l IH]; intros N; [reflexivity|]. cbn [position]. destruct (Nat.eqb x y) eqn:E.
  - apply Nat.eqb_eq in E. exfalso. apply N. left. auto.
  - rewrite IH; [reflexivity|]. intros I. apply N. right. exact I.
Qed.

Lemma index_in x l : length l <= Nat.pow 2 16 -> In x l ->
  exists i, index x l = Some i /\ nth_error l i = Some x.
Proof.
  intros L I. unfold index. destruct (position_in x l I) as [i P]. rewrite P.
  destruct (position_nth x l i P) as [A B]. exists i. rewrite Nat.mod_small by lia. auto.
Qed.
Lemma index_none x l : ~ In x l -> index x l = None.
Proof. intros N. unfold index. rewrite position_none by exact N. reflexivity. Qed.

Lemma refs_unpacked m l x : length l <= Nat.pow 2 16 -> complete m l x ->
  unpack l (image_refs m l x) = map Some (shown (m x)).
Proof.
  intros L C. unfold unpack, image_refs, complete in *. rewrite followed_shown. induction (shown (m x)) as [|r rs IH]; [reflexivity|].
  destruct (index_in r l L (C r (or_introl eq_refl))) as [i [E Nt]].
  cbn [flat_map map]. rewrite E. cbn [app map]. rewrite Nt. f_equal. apply IH. intros q Q. apply C. right. exact Q.
Qed.

Lemma refs_length m l x : length l <= Nat.pow 2 16 -> complete m l x ->
  length (image_refs m l x) = reference_count (m x).
Proof.
  intros L C. pose proof (refs_unpacked m l x L C) as E. apply (f_equal (@length _)) in E.
  unfold unpack in E. rewrite !map_length in E. rewrite E. rewrite <- followed_shown. unfold followed. rewrite firstn_length.
  assert (reference_count (m x) <= length (refs (m x))) by (unfold reference_count; destruct (okind (m x)); lia). lia.
Qed.

(* What is left out. *)
Lemma refs_found m l x : length l <= Nat.pow 2 16 ->
  unpack l (image_refs m l x) = map Some (filter (fun r => has r l) (shown (m x))).
Proof.
  intros L. unfold unpack, image_refs. rewrite followed_shown. induction (shown (m x)) as [|r rs IH]; [reflexivity|].
  cbn [flat_map filter]. destruct (has r l) eqn:H.
  - apply has_in in H. destruct (index_in r l L H) as [i [E Nt]]. rewrite E. cbn [app map]. rewrite Nt. f_equal. exact IH.
  - apply has_not in H. rewrite (index_none r l H). exact IH.
Qed.

Lemma all_complete m f xs l : add_all f m true xs [] = Some l -> forall x, In x l -> complete m l x.
Proof.
  intros E x I r R. destruct (add_all_spec m true f xs [] l E) as [_ [_ [O _]]].
  assert (O0 : Ordered m true []) by (intros a y b S'; destruct a; discriminate).
  specialize (O O0). apply in_split in I. destruct I as [a [b ->]].
  apply in_or_app. left. eapply O; [reflexivity|exact R|reflexivity].
Qed.

Lemma live_complete m f xs l : add_all f m false xs [] = Some l ->
  (forall x r, In x l -> In r (shown (m x)) -> named (m r) = true -> dead (m r) = false -> In r xs) ->
  forall x, In x l -> complete m l x.
Proof.
  intros E H x I r R. destruct (add_all_spec m false f xs [] l E) as [_ [_ [O [J _]]]].
  destruct (cond m false r) eqn:C.
  - assert (O0 : Ordered m false []) by (intros a y b S'; destruct a; discriminate).
    specialize (O O0). apply in_split in I. destruct I as [a [b ->]].
    apply in_or_app. left. eapply O; [reflexivity|exact R|exact C].
  - unfold cond in C. cbn in C. apply orb_false_elim in C. destruct C as [C1 C2]. apply negb_false_iff in C1.
    apply J; [|auto]. eapply H; eassumption.
Qed.

Lemma import_complete m U xs : (forall x, In x U -> forall r, In r (next_views (m x)) -> In r U) -> incl xs U ->
  exists l, import_all (S (length U)) m xs = Some l /\ forall x, In x l -> complete m l x /\
     forall v r, In v (views (m x)) -> In r (there v) -> In r l.
Proof.
  intros HU X. destruct (import_all_done m U HU xs X) as [l [E [N R]]]. exists l. split; [exact E|].
  intros x I. apply R in I. destruct I as [z [Z1 Z2]]. split.
  - intros r Rr. apply R. exists z. split; [exact Z1|]. eapply RStep; [exact Z2|]. apply in_or_app. left. exact Rr.
  - intros v r V Rr. apply R. exists z. split; [exact Z1|]. eapply RStep; [exact Z2|]. apply in_or_app. right.
    apply in_flat_map. exists v. auto.
Qed.

Lemma all_exact m all f xs l : add_all f m all xs [] = Some l ->
  NoDup l /\
  forall y, In y l <-> exists x, In x xs /\ (all = true \/ dead (m x) = false) /\ Reach m (taken m all) x y.
Proof.
  intros E. destruct (add_all_spec m all f xs [] l E) as [_ [N [O [J R]]]].
  assert (O0 : Ordered m all []) by (intros a y b S'; destruct a; discriminate).
  specialize (O O0). split; [apply N; constructor|]. intros y. split.
  - intros I. destruct (R y I) as [[]|Z]. exact Z.
  - intros [x [X1 [X2 H]]]. induction H as [|y z H IH I]; [apply J; assumption|].
    apply taken_in in I. destruct I as [I C]. apply in_split in IH. destruct IH as [a [b ->]].
    apply in_or_app. left. eapply O; [reflexivity|exact I|exact C].
Qed.

Lemma endless_witness : exists m x, forall f all, get_objects f m all [x] = None.
Proof.
  exists loop, 0. intros f all. unfold get_objects, add_all. cbn [dead loop negb]. rewrite orb_true_r.
  rewrite loop_endless. reflexivity.
Qed.

(* Order. *)
Lemma all_order m f xs l x r : add_all f m true xs [] = Some l -> In x l -> In r (shown (m x)) ->
  comes_before r x l.
Proof.
  intros E I R. destruct (add_all_spec m true f xs [] l E) as [_ [_ [O _]]].
  assert (O0 : Ordered m true []) by (intros a y b S'; destruct a; discriminate).
  specialize (O O0). apply in_split in I. destruct I as [a [b ->]].
  assert (J : In r a) by (eapply O; [reflexivity|exact R|reflexivity]).
  apply in_split in J. destruct J as [u [v ->]]. exists u, v, b. rewrite <- app_assoc. reflexivity.
Qed.

Lemma taken_order m all f xs l x r : add_all f m all xs [] = Some l -> In x l -> In r (taken m all (m x)) ->
  comes_before r x l.
Proof.
  intros E I R. destruct (add_all_spec m all f xs [] l E) as [_ [_ [O _]]].
  assert (O0 : Ordered m all []) by (intros a y b S'; destruct a; discriminate).
  specialize (O O0). apply in_split in I. destruct I as [a [b ->]]. apply taken_in in R. destruct R as [R C].
  assert (J : In r a) by (eapply O; [reflexivity|exact R|exact C]).
  apply in_split in J. destruct J as [u [v ->]]. exists u, v, b. rewrite <- app_assoc. reflexivity.
Qed.

(* Views. *)
Lemma views_unpacked l v : length l <= Nat.pow 2 16 -> (vgroup v = None -> vorigin v = None) ->
  (forall r, In r (there v) -> In r l) ->
  unpack l (view_refs l v) = map Some (there v).
Proof.
  intros L G H. unfold view_refs, there in *. destruct v as [[g|] o]; cbn [vgroup vorigin] in *; [|rewrite (G eq_refl); reflexivity].
  destruct (index_in g l L (H g (or_introl eq_refl))) as [i [E Nt]].
  destruct o as [o|].
  - destruct (index_in o l L (H o (or_intror (or_introl eq_refl)))) as [j [F Mt]].
    unfold set_ref. rewrite E, F. cbn. rewrite Nt, Mt. reflexivity.
  - unfold set_ref. rewrite E. cbn. rewrite Nt. reflexivity.
Qed.

Lemma all_refs m f xs l : get_objects f m true xs = Some l -> length l <= Nat.pow 2 16 ->
  forall x, In x l -> unpack l (image_refs m l x) = map Some (shown (m x)).
Proof. intros E L x I. apply refs_unpacked; [exact L|]. eapply all_complete; eassumption. Qed.

Lemma live_refs m f xs l : get_objects f m false xs = Some l -> length l <= Nat.pow 2 16 ->
  (forall x r, In x l -> In r (shown (m x)) -> named (m r) = true -> dead (m r) = false -> In r xs) ->
  forall x, In x l -> unpack l (image_refs m l x) = map Some (shown (m x)).
Proof. intros E L H x I. apply refs_unpacked; [exact L|]. eapply live_complete; eassumption. Qed.

Lemma import_room m U xs l (HU : forall x, In x U -> forall r, In r (next_views (m x)) -> In r U) :
  incl xs U -> import_all (S (length U)) m xs = Some l -> length l <= length U.
Proof.
  intros X E. destruct (import_all_done m U HU xs X) as [l' [E' [N R]]]. rewrite E in E'. injection E' as <-.
  apply NoDup_incl_length; [exact N|]. intros y Y. apply R in Y. destruct Y as [x [X1 H]].
  induction H as [|y z H IH I]; [apply X; exact X1|]. eapply HU; eassumption.
Qed.

Lemma import_refs m U : (forall x, In x U -> forall r, In r (next_views (m x)) -> In r U) ->
  length U <= Nat.pow 2 16 -> forall xs, incl xs U ->
  exists l, import_all (S (length U)) m xs = Some l /\
    forall x, In x l -> unpack l (image_refs m l x) = map Some (shown (m x)).
Proof.
  intros HU L xs X. destruct (import_complete m U xs HU X) as [l [E H]]. exists l. split; [exact E|].
  intros x I. apply refs_unpacked; [|apply H; exact I].
  eapply Nat.le_trans; [eapply import_room; eassumption|exact L].
Qed.

Lemma import_views m U : (forall x, In x U -> forall r, In r (next_views (m x)) -> In r U) ->
  length U <= Nat.pow 2 16 -> forall xs, incl xs U ->
  exists l, import_all (S (length U)) m xs = Some l /\
    forall x v, In x l -> In v (views (m x)) -> (vgroup v = None -> vorigin v = None) -> unpack l (view_refs l v) = map Some (there v).
Proof.
  intros HU L xs X. destruct (import_complete m U xs HU X) as [l [E H]]. exists l. split; [exact E|].
  intros x v I V G. apply views_unpacked; [|exact G|].
  - eapply Nat.le_trans; [eapply import_room; eassumption|exact L].
  - intros r R. destruct (H x I) as [_ K]. eapply K; eassumption.
Qed.

(* The object map. *)
Lemma offsets_ext f g : forall l a, (forall x, In x l -> f x = g x) -> offsets f a l = offsets g a l.
Proof.
  induction l as [|x l IH]; intros a H; [reflexivity|]. cbn [offsets]. rewrite (H x (or_introl eq_refl)). f_equal.
  apply IH. intros y Y. apply H. right. exact Y.
Qed.

Lemma map_exact m l : length l <= Nat.pow 2 16 ->
  (forall x, In x l -> okind (m x) = Plain /\ complete m l x /\ views_in m l x) ->
  object_map m l = written m l.
Proof.
  intros L H. apply offsets_ext. intros x I. destruct (H x I) as [K [C V]].
  unfold size_added, size_built, size. rewrite (refs_length m l x L C).
  unfold reference_count. rewrite K. do 2 f_equal.
  apply map_ext_in. intros v Iv. destruct (V v Iv) as [G J].
  pose proof (views_unpacked l v L (fun X => match G X with end) J) as E. apply (f_equal (@length _)) in E.
  unfold unpack in E. rewrite !map_length in E. symmetry. exact E.
Qed.

(* Witnesses. *)
(* A model (0) that refers to two live objects (1, 2), and its unpacked form. *)
Definition world : memory := fun x =>
  match x with
  | 0 => Ob Mdl 3 [4; 1; 3; 9] true false [View (Some 5) None]
  | 1 => Ob Plain 1 [] true false []
  | _ => Ob Plain 2 [] (Nat.eqb x 5) false []
  end.

Lemma models_witness :
  exists m models l x,
    (forall f, 3 <= f -> get_models f m models = Some l) /\ In x models /\ In x l /\
    unpack l (image_refs m l x) <> map Some (shown (m x)) /\
    (exists a b, nth_error (shown (m x)) 1 = Some a /\ nth_error (unpack l (image_refs m l x)) 1 = Some (Some b) /\ a <> b).
Proof.
  exists world, [0], [4; 3; 0], 0. split.
  - intros f F. destruct f as [|[|[|f]]]; try lia. reflexivity.
  - split; [left; reflexivity|]. split; [cbn; auto|]. split; [vm_compute; discriminate|].
    exists 1, 3. repeat split; discriminate.
Qed.

Lemma view_witness :
  exists m models l x v g y,
    (forall f, 3 <= f -> get_models f m models = Some l) /\ In x l /\ In v (views (m x)) /\
    vgroup v = Some g /\ unpack l (view_refs l v) = [Some y] /\ y <> g.
Proof.
  exists world, [0], [4; 3; 0], 0, (View (Some 5) None), 5, 4. split.
  - intros f F. destruct f as [|[|[|f]]]; try lia. reflexivity.
  - split; [cbn; auto|]. split; [left; reflexivity|]. split; [reflexivity|]. split; [reflexivity|discriminate].
Qed.

Definition pair : memory := fun x =>
  match x with
  | 0 => Ob Mdl 3 [1; 9] true false []
  | 2 => Ob Plain 1 [1] true false []
  | _ => Ob Plain 1 [] true false []
  end.
Lemma map_witness :
  exists m objects l,
    (forall f, 3 <= f -> get_objects f m true objects = Some l) /\
    (forall x, In x l -> complete m l x /\ views_in m l x) /\
    object_map m l <> written m l.
Proof.
  exists pair, [0; 2], [1; 0; 2]. split.
  - intros f F. destruct f as [|[|[|f]]]; try lia. reflexivity.
  - split.
    + intros x I. assert (x = 0 \/ x = 1 \/ x = 2) as [Z|[Z|Z]] by (cbn in I; intuition); subst x;
      (split; [intros r R; cbn in R; cbn; intuition|intros v []]).
    + vm_compute. discriminate.
Qed.

Lemma order_witness :
  exists m objects l x r,
    (forall f, 3 <= f -> get_objects f m false objects = Some l) /\
    (forall y, complete m l y) /\ In x l /\ In r (shown (m x)) /\ In r l /\ ~ comes_before r x l.
Proof.
  exists pair, [2; 1], [2; 1], 2, 1. split.
  - intros f F. destruct f as [|[|[|f]]]; try lia. reflexivity.
  - split; [|split; [cbn; auto|split; [cbn; auto|split; [cbn; auto|]]]].
    + intros y r R. destruct y as [|[|[|y]]]; cbn in R; cbn; intuition.
    + intros [u [v [w E]]]. destruct u as [|a [|b [|c u]]]; cbn in E; try discriminate.
      injection E as _ E. destruct v; discriminate.
Qed.
