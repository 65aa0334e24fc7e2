(** After an input is bound to a pattern, the variables denote its members. *)
From Verif Require Import Base Pat_model Pat_spec.
Local Open Scope nat_scope.

Lemma write_length p : forall k v, length (write p k v) = length p.
Proof. induction p as [|u p IH]; intros [|k] v; cbn; auto. Qed.
Lemma write_same p : forall k v, k < length p -> nth_error (write p k v) k = Some v.
Proof. induction p as [|u p IH]; intros [|k] v H; cbn in *; try lia; auto. apply IH. lia. Qed.
Lemma write_other p : forall k v x, x <> k -> nth_error (write p k v) x = nth_error p x.
Proof. induction p as [|u p IH]; intros [|k] v [|x] H; cbn; auto; try lia. Qed.

Section Bind.
Context (w : world).

Lemma patch_members_S fuel n p k i parent j m : patch_members w (S fuel) n p k i parent j (S m) =
  match nth_error p (k + j) with
  | None => None
  | Some Tail => Some p
  | Some Wild => patch_members w fuel n (write p (k + j) (pointer n parent (i + j))) k i parent (S j) m
  | Some (Ip s) =>
      let p := write p (k + j) (pointer n parent (i + j)) in
      match in_object w fuel p (pointer n parent i) with
      | None => None
      | Some o =>
          match word_of w o (i + j) with
          | None => None
          | Some (Ip t) =>
              match patch w fuel n p s t parent with Some p => patch_members w fuel n p k i parent (S j) m | None => None end
          | Some (Rp _) =>
              match patch w fuel n p s 0 (Some (k + j)) with Some p => patch_members w fuel n p k i parent (S j) m | None => None end
          | Some _ => patch_members w fuel n p k i parent (S j) m
          end
      end
  | Some _ => patch_members w fuel n p k i parent (S j) m
  end.
Proof. reflexivity. Qed.

Lemma deref_mono fuel : forall m p c d, dereference w fuel p c = Some d -> dereference w (fuel + m) p c = Some d.
Proof.
  induction fuel as [|fuel IH]; intros m p c d H; [discriminate|]. cbn [dereference plus] in *.
  destruct (fetch w p c) as [v|]; [|discriminate].
  destruct v as [z| | |k|r|k|k|n k|q k|k n]; auto.
  - destruct (fetch w p (move c k)) as [v|]; [|discriminate].
    destruct v as [z| | |k'|r|k'|k'|n k'|q k'|k' n]; auto.
    destruct (fetch w p (move c k')) as [v|]; [|discriminate].
    destruct v as [z| | |k''|r|k''|k''|n k''|q k''|k'' n]; auto.
  - destruct c; auto.
  - destruct c; [|discriminate]. destruct (nth_error (inputs w) n); auto.
  - destruct c; [|discriminate]. destruct (dereference w fuel p (Stem q)) as [e|] eqn:Ee; [|discriminate].
    rewrite (IH m _ _ _ Ee). auto.
Qed.

(** Pointers into an input lead to an object, by way of words [qs] of the program. *)
Inductive Loc (p : list word) : word -> nat -> list nat -> Prop :=
| loc_in n i o : nth_error (inputs w) n = Some o -> Loc p (Inp n i) o []
| loc_d q i u o1 c r o qs : nth_error p q = Some u -> Loc p u o1 qs -> as_index u = Some c -> word_of w o1 c = Some (Rp r) ->
    reference_of w o1 r = Some o -> Loc p (Dinp q i) o (q :: qs).

Lemma loc_stable p p' a o qs : Loc p a o qs -> (forall q, In q qs -> nth_error p' q = nth_error p q) -> Loc p' a o qs.
Proof.
  induction 1 as [n i o Hn|q i u o1 c r o qs Hq _ IH Hc Hr Ho]; intros Hs; [constructor; exact Hn|].
  eapply loc_d; [rewrite (Hs q (or_introl eq_refl)); exact Hq| |exact Hc|exact Hr|exact Ho].
  apply IH. intros x Hx. apply Hs. right. exact Hx.
Qed.
Lemma loc_object p a o qs : Loc p a o qs -> forall fuel o', in_object w fuel p a = Some o' -> o' = o.
Proof.
  induction 1 as [n i o Hn|q i u o1 c r o qs Hq _ IH Hc Hr Ho]; intros [|fuel] o' H; try discriminate; cbn in H.
  - congruence.
  - rewrite Hq in H. destruct (in_object w fuel p u) as [x|] eqn:Ex; [|discriminate]. rewrite (IH _ _ Ex) in H. rewrite Hc, Hr in H.
    cbn in H. congruence.
Qed.
Lemma loc_deref p a o qs : Loc p a o qs -> forall v i fuel d, nth_error p v = Some a -> as_index a = Some i ->
  dereference w fuel p (Ref o i) = Some d -> exists fuel', dereference w fuel' p (Stem v) = Some d.
Proof.
  induction 1 as [n i0 o Hn|q i0 u o1 c r o qs Hq _ IH Hc Hr Ho]; intros v i fuel d Hv Hi H; injection Hi as ->.
  - exists (S fuel). cbn [dereference fetch]. rewrite Hv, Hn. exact H.
  - destruct (IH q c 1 (Ref o 0) Hq Hc) as (f & Hf).
    { cbn [dereference fetch object_of]. rewrite Hr, Ho. reflexivity. }
    exists (S (f + fuel)). cbn [dereference fetch]. rewrite Hv. rewrite (deref_mono _ fuel _ _ _ Hf). cbn [object_of].
    rewrite Nat.add_comm. apply deref_mono. exact H.
Qed.
(** In objects, the code of the program does not matter. *)
Lemma deref_object fuel : forall p p' o i, dereference w fuel p (Ref o i) = dereference w fuel p' (Ref o i).
Proof.
  induction fuel as [|fuel IH]; intros p p' o i; [reflexivity|]. cbn [dereference fetch move].
  destruct (word_of w o i) as [v|]; [|reflexivity]. destruct v as [z| | |k|r|k|k|n k|q k|k n]; auto.
  destruct (word_of w o k) as [v|]; [|reflexivity].
  destruct v as [z| | |k'|r|k'|k'|n k'|q k'|k' n]; auto.
  destruct (word_of w o k') as [v|]; [|reflexivity].
  destruct v as [z| | |k''|r|k''|k''|n k''|q k''|k'' n]; auto.
Qed.

Context (n : nat) (p0 : list word).
Context (Hn : n < 256) (Hlen : length p0 <= 256) (Hobj : forall o b, heap w o = Some b -> length (code b) <= 4096)
  (Href : forall o i r, word_of w o i = Some (Rp r) -> reference_of w o r <> None).

Lemma word_small o i v : word_of w o i = Some v -> i < 4096.
Proof.
  unfold word_of. destruct (heap w o) as [b|] eqn:Eb; [|discriminate]. intros H. assert (i < length (code b)) by (apply nth_error_Some; congruence).
  specialize (Hobj o b Eb). lia.
Qed.
Lemma pointer_index parent i : i < 4096 -> as_index (pointer n parent i) = Some i.
Proof. intros H. destruct parent; cbn [pointer as_index]; rewrite Nat.mod_small by exact H; reflexivity. Qed.

(** Pointers into the object at hand. *)
Definition Lead (p : list word) (parent : option nat) (o : nat) (ps : list nat) : Prop := forall i, Loc p (pointer n parent i) o ps.
Definition Points (p : list word) (ps F : list nat) (v o i : nat) : Prop :=
  exists a qs, nth_error p v = Some a /\ as_index a = Some i /\ Loc p a o qs /\ In v F /\ forall q, In q qs -> In q ps \/ In q F.

Lemma points_stable p p' ps F G ps' v o i : Points p ps F v o i ->
  (forall x, In x F -> nth_error p' x = nth_error p x) -> (forall x, In x ps -> nth_error p' x = nth_error p x) ->
  (forall x, In x F -> In x G) -> (forall x, In x ps -> In x ps' \/ In x G) -> Points p' ps' G v o i.
Proof.
  intros (a & qs & Ha & Hi & HL & Hv & Hq) HF Hps HG Hp. exists a, qs. split; [rewrite (HF v Hv); exact Ha|]. split; [exact Hi|].
  split; [|split; [exact (HG v Hv)|]].
  - apply (loc_stable _ _ _ _ _ HL). intros q Hin. destruct (Hq q Hin) as [H|H]; [exact (Hps q H)|exact (HF q H)].
  - intros q Hin. destruct (Hq q Hin) as [H|H]; [exact (Hp q H)|right; exact (HG q H)].
Qed.

Definition PatchOk (fuel : nat) : Prop := forall p k i parent o ps p' F,
  Laid p0 k F -> NoDup F -> length p = length p0 -> (forall x, In x F -> nth_error p x = nth_error p0 x) ->
  Lead p parent o ps -> (forall q, In q ps -> ~ In q F) ->
  patch w fuel n p k i parent = Some p' ->
  length p' = length p0 /\ (forall x, ~ In x F -> nth_error p' x = nth_error p x) /\
  (forall path v o' i', At p0 k path v -> Follow w o i path o' i' -> i' < 4096 -> Points p' ps F v o' i').

Definition MembersOk (fuel : nat) : Prop := forall p k i parent j m o ps p' G,
  Members p0 (k + j) m G -> NoDup G -> length p = length p0 -> (forall x, In x G -> nth_error p x = nth_error p0 x) ->
  Lead p parent o ps -> (forall q, In q ps -> ~ In q G) ->
  patch_members w fuel n p k i parent j m = Some p' ->
  length p' = length p0 /\ (forall x, ~ In x G -> nth_error p' x = nth_error p x) /\
  (forall x, j <= x < j + m -> (forall y, j <= y < x -> nth_error p0 (k + y) <> Some Tail) ->
    (forall o' i', nth_error p0 (k + x) = Some Wild -> Follow w o i [x] o' i' -> i' < 4096 -> Points p' ps G (k + x) o' i') /\
    (forall s path v o' i', nth_error p0 (k + x) = Some (Ip s) -> At p0 s path v -> Follow w o i (x :: path) o' i' -> i' < 4096 ->
       Points p' ps G v o' i')).

Lemma lead_stable p p' parent o ps : Lead p parent o ps -> (forall q, In q ps -> nth_error p' q = nth_error p q) -> Lead p' parent o ps.
Proof. intros H Hs i. exact (loc_stable _ _ _ _ _ (H i) Hs). Qed.

Lemma at_path p k path v : At p k path v -> path <> [].
Proof. intros H. inversion H; discriminate. Qed.

Lemma patch_step fuel : MembersOk fuel -> PatchOk (S fuel).
Proof.
  intros HM p k i parent o ps p' F HF Hnd Hl Hag Hlead Hdis H.
  inversion HF as [k' s m G Hk Hm]; subst. cbn [patch] in H. rewrite (Hag k (or_introl eq_refl)), Hk in H. cbn [count] in H.
  inversion Hnd as [|? ? Hnk HndG]; subst.
  assert (Hkl : k < length p) by (apply nth_error_Some; rewrite (Hag k (or_introl eq_refl)), Hk; discriminate).
  replace (S k) with (k + 1) in Hm by lia.
  destruct (HM (write p k (pointer n parent i)) k i parent 1 m o ps p' G Hm HndG) as (L & Fr & V).
  - rewrite write_length. exact Hl.
  - intros x Hx. rewrite write_other; [apply Hag; right; exact Hx|]. intros ->. exact (Hnk Hx).
  - apply (lead_stable p); [exact Hlead|]. intros q Hq. apply write_other. intros ->. exact (Hdis k Hq (or_introl eq_refl)).
  - intros q Hq Hx. exact (Hdis q Hq (or_intror Hx)).
  - exact H.
  - split; [exact L|]. split.
    + intros x Hx. rewrite Fr; [apply write_other; intros ->; exact (Hx (or_introl eq_refl))|]. intros Hg. exact (Hx (or_intror Hg)).
    + intros path v o' i' HA HFo Hi.
      assert (HW : Points p' ps G v o' i').
      { inversion HA as [k' s' m' j Hk' Hj Ht Hw|k' s' m' j s2 path' v' Hk' Hj Ht Hw HA2]; subst; rewrite Hk in Hk'; injection Hk' as <- <-.
        - destruct (V j ltac:(lia) ltac:(intros y Hy; apply Ht; lia)) as (V1 & _). exact (V1 _ _ Hw HFo Hi).
        - destruct (V j ltac:(lia) ltac:(intros y Hy; apply Ht; lia)) as (_ & V2). exact (V2 _ _ _ _ _ Hw HA2 HFo Hi). }
      apply (points_stable _ _ _ _ _ _ _ _ _ HW); auto. intros x Hx. right. exact Hx.
Qed.

Lemma nodup_app {A} (l l' : list A) : NoDup (l ++ l') -> NoDup l /\ NoDup l' /\ forall x, In x l -> ~ In x l'.
Proof.
  induction l as [|a l IH]; cbn; intros H; [split; [constructor|split; [exact H|intros x []]]|].
  inversion H as [|? ? Ha Hl]; subst. destruct (IH Hl) as (A1 & A2 & A3). split; [constructor; [|exact A1]|split; [exact A2|]].
  - intros Hin. apply Ha. apply in_or_app. left. exact Hin.
  - intros x [->|Hx] Hx'; [apply Ha, in_or_app; right; exact Hx'|exact (A3 x Hx Hx')].
Qed.

Lemma members_step fuel : PatchOk fuel -> MembersOk fuel -> MembersOk (S fuel).
Proof.
  intros HP HM p k i parent j m o ps p' G HG Hnd Hl Hag Hlead Hdis H.
  inversion HG as [a|a m' Ht|a m' s F G' Hip HF HG'|a m' u G' Hu Hnt Hni HG']; subst.
  - cbn in H. injection H as <-. split; [exact Hl|]. split; [reflexivity|]. intros x Hx. lia.
  - rewrite patch_members_S in H. rewrite (Hag _ (or_introl eq_refl)), Ht in H. injection H as <-.
    split; [exact Hl|]. split; [reflexivity|]. intros x Hx Hno.
    destruct (Nat.eq_dec x j) as [->|N].
    + split; intros; congruence.
    + exfalso. apply (Hno j ltac:(lia)). exact Ht.
  - inversion Hnd as [|? ? Hnm Hnd2]; subst. destruct (nodup_app _ _ Hnd2) as (NF & NG & Dis).
    assert (Hkl : k + j < length p) by (apply nth_error_Some; rewrite (Hag _ (or_introl eq_refl)), Hip; discriminate).
    rewrite patch_members_S in H. rewrite (Hag _ (or_introl eq_refl)), Hip in H. cbv zeta in H.
    set (p1 := write p (k + j) (pointer n parent (i + j))) in *.
    assert (Hl1 : length p1 = length p0) by (unfold p1; rewrite write_length; exact Hl).
    assert (Fr1 : forall x, x <> k + j -> nth_error p1 x = nth_error p x) by (intros x Hx; apply write_other; exact Hx).
    assert (Sm1 : nth_error p1 (k + j) = Some (pointer n parent (i + j))) by (apply write_same; exact Hkl).
    assert (Hps : forall q, In q ps -> q <> k + j) by (intros q Hq ->; exact (Hdis _ Hq (or_introl eq_refl))).
    assert (Lead1 : Lead p1 parent o ps) by (apply (lead_stable p); [exact Hlead|intros q Hq; apply Fr1, Hps, Hq]).
    destruct (in_object w fuel p1 (pointer n parent i)) as [o1|] eqn:Eo; [|discriminate].
    rewrite (loc_object _ _ _ _ (Lead1 i) _ _ Eo) in H. clear o1 Eo.
    destruct (word_of w o (i + j)) as [u|] eqn:Eu; [|discriminate].
    assert (Hij := word_small _ _ _ Eu).
    (* the rest, once the member is dealt with *)
    assert (Rest : forall p2 (Q : nat -> nat -> nat -> Prop),
      length p2 = length p0 -> (forall x, x <> k + j -> ~ In x F -> nth_error p2 x = nth_error p1 x) ->
      (forall path v o' i', At p0 s path v -> Follow w o i (j :: path) o' i' -> i' < 4096 -> Points p2 ((k + j) :: ps) F v o' i') ->
      patch_members w fuel n p2 k i parent (S j) m' = Some p' ->
      length p' = length p0 /\ (forall x, ~ In x ((k + j) :: F ++ G') -> nth_error p' x = nth_error p x) /\
      (forall x, j <= x < j + S m' -> (forall y, j <= y < x -> nth_error p0 (k + y) <> Some Tail) ->
        (forall o' i', nth_error p0 (k + x) = Some Wild -> Follow w o i [x] o' i' -> i' < 4096 -> Points p' ps ((k + j) :: F ++ G') (k + x) o' i') /\
        (forall s path v o' i', nth_error p0 (k + x) = Some (Ip s) -> At p0 s path v -> Follow w o i (x :: path) o' i' -> i' < 4096 ->
           Points p' ps ((k + j) :: F ++ G') v o' i'))).
    { intros p2 _ Hl2 Fr2 V2 H2.
      assert (HG2 : Members p0 (k + S j) m' G') by (replace (k + S j) with (S (k + j)) by lia; exact HG').
      destruct (HM p2 k i parent (S j) m' o ps p' G' HG2 NG Hl2) as (L & Fr & V).
      - intros x Hx. assert (x <> k + j) by (intros ->; apply Hnm, in_or_app; right; exact Hx).
        rewrite Fr2, Fr1; [|assumption|assumption|intros Hf; exact (Dis x Hf Hx)]. apply Hag. right. apply in_or_app. right. exact Hx.
      - apply (lead_stable p1); [exact Lead1|]. intros q Hq. apply Fr2; [exact (Hps q Hq)|]. intros Hf. apply (Hdis q Hq). right. apply in_or_app. left. exact Hf.
      - intros q Hq Hx. apply (Hdis q Hq). right. apply in_or_app. right. exact Hx.
      - exact H2.
      - split; [exact L|]. split.
        + intros x Hx. rewrite Fr, Fr2, Fr1; [reflexivity| | | |].
          * intros ->. apply Hx. left. reflexivity.
          * intros ->. apply Hx. left. reflexivity.
          * intros Hf. apply Hx. right. apply in_or_app. left. exact Hf.
          * intros Hg. apply Hx. right. apply in_or_app. right. exact Hg.
        + intros x Hx Hno. destruct (Nat.eq_dec x j) as [->|N].
          * split; [intros; congruence|]. intros s' path v o' i' Hs' HA HFo Hi. rewrite Hip in Hs'. injection Hs' as <-.
            apply (points_stable _ _ _ _ _ _ _ _ _ (V2 _ _ _ _ HA HFo Hi)).
            -- intros x Hf. apply Fr. exact (Dis x Hf).
            -- intros x [<-|Hq]; apply Fr; intros Hg; [apply Hnm, in_or_app; right; exact Hg|].
               apply (Hdis x Hq). right. apply in_or_app. right. exact Hg.
            -- intros x Hf. right. apply in_or_app. left. exact Hf.
            -- intros x [<-|Hq]; [right; left; reflexivity|left; exact Hq].
          * destruct (V x ltac:(lia) ltac:(intros y Hy; apply Hno; lia)) as (V1 & V3). split.
            -- intros o' i' Hw HFo Hi. apply (points_stable _ _ _ _ _ _ _ _ _ (V1 _ _ Hw HFo Hi)); auto. intros y Hy. right. apply in_or_app. right. exact Hy.
            -- intros s' path v o' i' Hw HA HFo Hi. apply (points_stable _ _ _ _ _ _ _ _ _ (V3 _ _ _ _ _ Hw HA HFo Hi)); auto.
               intros y Hy. right. apply in_or_app. right. exact Hy. }
    assert (AgF : forall x, In x F -> nth_error p1 x = nth_error p0 x).
    { intros x Hx. rewrite Fr1; [apply Hag; right; apply in_or_app; left; exact Hx|]. intros ->. apply Hnm, in_or_app. left. exact Hx. }
    assert (Other : (forall t, u <> Ip t) -> (forall r, u <> Rp r) -> patch_members w fuel n p1 k i parent (S j) m' = Some p' ->
      length p' = length p0 /\ (forall x, ~ In x ((k + j) :: F ++ G') -> nth_error p' x = nth_error p x) /\
      (forall x, j <= x < j + S m' -> (forall y, j <= y < x -> nth_error p0 (k + y) <> Some Tail) ->
        (forall o' i', nth_error p0 (k + x) = Some Wild -> Follow w o i [x] o' i' -> i' < 4096 -> Points p' ps ((k + j) :: F ++ G') (k + x) o' i') /\
        (forall s path v o' i', nth_error p0 (k + x) = Some (Ip s) -> At p0 s path v -> Follow w o i (x :: path) o' i' -> i' < 4096 ->
           Points p' ps ((k + j) :: F ++ G') v o' i'))).
    { intros N1 N2 H2. apply (Rest p1 (fun _ _ _ => True)); auto.
      intros path v o' i' HA HFo Hi. exfalso.
      inversion HFo as [? ? ? |? ? ? s' ? ? ? Hw _|? ? ? r o1 ? ? ? Hw _ _]; subst.
      - exact (at_path _ _ _ _ HA eq_refl).
      - rewrite Eu in Hw. injection Hw as ->. exact (N1 _ eq_refl).
      - rewrite Eu in Hw. injection Hw as ->. exact (N2 _ eq_refl). }
    destruct u as [z| | |t|r|t|t|nn t|q t|kk nn]; try (apply Other; [intros; discriminate|intros; discriminate|exact H]).
    + destruct (patch w fuel n p1 s t parent) as [p2|] eqn:E2; [|discriminate].
      destruct (HP p1 s t parent o ps p2 F HF NF Hl1 AgF Lead1) as (L2 & Fr2 & V2); [|exact E2|].
      { intros q Hq Hf. apply (Hdis q Hq). right. apply in_or_app. left. exact Hf. }
      apply (Rest p2 (fun _ _ _ => True)); auto.
      intros path v o' i' HA HFo Hi.
      assert (HFo2 : Follow w o t path o' i').
      { inversion HFo as [? ? ? |? ? ? s' ? ? ? Hw HF2|? ? ? r o1 ? ? ? Hw _ _]; subst; [exfalso; exact (at_path _ _ _ _ HA eq_refl)| |congruence].
        rewrite Eu in Hw. injection Hw as <-. exact HF2. }
      apply (points_stable _ _ _ _ _ _ _ _ _ (V2 _ _ _ _ HA HFo2 Hi)); auto. intros x Hx. left. right. exact Hx.
    + destruct (patch w fuel n p1 s 0 (Some (k + j))) as [p2|] eqn:E2; [|discriminate].
      destruct (reference_of w o r) as [o1|] eqn:Er.
      * assert (Lead2 : Lead p1 (Some (k + j)) o1 ((k + j) :: ps)).
        { intros x. cbn [pointer]. rewrite (Nat.mod_small (k + j)) by lia.
          eapply loc_d; [exact Sm1|exact (Lead1 (i + j))|apply pointer_index; exact Hij|exact Eu|exact Er]. }
        destruct (HP p1 s 0 (Some (k + j)) o1 ((k + j) :: ps) p2 F HF NF Hl1 AgF Lead2) as (L2 & Fr2 & V2); [|exact E2|].
        { intros q [<-|Hq] Hf; [apply Hnm, in_or_app; left; exact Hf|]. apply (Hdis q Hq). right. apply in_or_app. left. exact Hf. }
        apply (Rest p2 (fun _ _ _ => True)); auto.
        intros path v o' i' HA HFo Hi. apply (V2 _ _ _ _ HA); [|exact Hi].
        inversion HFo as [? ? ? |? ? ? s' ? ? ? Hw HF2|? ? ? r' o2 ? ? ? Hw Hr HF2]; subst; [exfalso; exact (at_path _ _ _ _ HA eq_refl)|congruence|].
        rewrite Eu in Hw. injection Hw as <-. rewrite Er in Hr. injection Hr as <-. exact HF2.
      * exfalso. exact (Href _ _ _ Eu Er).
  - inversion Hnd as [|? ? Hnm NG]; subst.
    assert (Hkl : k + j < length p) by (apply nth_error_Some; rewrite (Hag _ (or_introl eq_refl)), Hu; discriminate).
    assert (Hps : forall q, In q ps -> q <> k + j) by (intros q Hq ->; exact (Hdis _ Hq (or_introl eq_refl))).
    assert (HG2 : Members p0 (k + S j) m' G') by (replace (k + S j) with (S (k + j)) by lia; exact HG').
    assert (Rest : forall p1, length p1 = length p0 -> (forall x, x <> k + j -> nth_error p1 x = nth_error p x) ->
      (u = Wild -> nth_error p1 (k + j) = Some (pointer n parent (i + j))) ->
      patch_members w fuel n p1 k i parent (S j) m' = Some p' ->
      length p' = length p0 /\ (forall x, ~ In x ((k + j) :: G') -> nth_error p' x = nth_error p x) /\
      (forall x, j <= x < j + S m' -> (forall y, j <= y < x -> nth_error p0 (k + y) <> Some Tail) ->
        (forall o' i', nth_error p0 (k + x) = Some Wild -> Follow w o i [x] o' i' -> i' < 4096 -> Points p' ps ((k + j) :: G') (k + x) o' i') /\
        (forall s path v o' i', nth_error p0 (k + x) = Some (Ip s) -> At p0 s path v -> Follow w o i (x :: path) o' i' -> i' < 4096 ->
           Points p' ps ((k + j) :: G') v o' i'))).
    { intros p1 Hl1 Fr1 Hw1 H1.
      assert (Lead1 : Lead p1 parent o ps) by (apply (lead_stable p); [exact Hlead|intros q Hq; apply Fr1, Hps, Hq]).
      destruct (HM p1 k i parent (S j) m' o ps p' G' HG2 NG Hl1) as (L & Fr & V).
      - intros x Hx. rewrite Fr1; [apply Hag; right; exact Hx|]. intros ->. exact (Hnm Hx).
      - exact Lead1.
      - intros q Hq Hx. exact (Hdis q Hq (or_intror Hx)).
      - exact H1.
      - split; [exact L|]. split.
        + intros x Hx. rewrite Fr, Fr1; [reflexivity| |].
          * intros ->. apply Hx. left. reflexivity.
          * intros Hg. apply Hx. right. exact Hg.
        + intros x Hx Hno. destruct (Nat.eq_dec x j) as [->|N].
          * split; [|intros s path v o' i' Hs; exfalso; rewrite Hu in Hs; injection Hs as Hs; exact (Hni _ Hs)].
            intros o' i' Hw HFo Hi.
            assert (E : o' = o /\ i' = i + j) by (inversion HFo as [? ? ? |? ? ? s' ? ? ? _ HF2|? ? ? r' o2 ? ? ? _ _ HF2]; subst; [auto| |]; inversion HF2).
            destruct E as [-> ->]. rewrite Hu in Hw. injection Hw as ->.
            exists (pointer n parent (i + j)), ps. split; [rewrite (Fr _ Hnm); exact (Hw1 eq_refl)|]. split; [apply pointer_index; exact Hi|].
            split; [|split; [left; reflexivity|intros q Hq; left; exact Hq]].
            apply (loc_stable _ _ _ _ _ (Lead1 (i + j))). intros q Hq. apply Fr. intros Hg. exact (Hdis q Hq (or_intror Hg)).
          * destruct (V x ltac:(lia) ltac:(intros y Hy; apply Hno; lia)) as (V1 & V3). split.
            -- intros o' i' Hw HFo Hi. apply (points_stable _ _ _ _ _ _ _ _ _ (V1 _ _ Hw HFo Hi)); auto. intros y Hy. right. exact Hy.
            -- intros s' path v o' i' Hw HA HFo Hi. apply (points_stable _ _ _ _ _ _ _ _ _ (V3 _ _ _ _ _ Hw HA HFo Hi)); auto.
               intros y Hy. right. exact Hy. }
    rewrite patch_members_S in H. rewrite (Hag _ (or_introl eq_refl)), Hu in H.
    destruct u as [z| | |t|r|t|t|nn t|q t|kk nn]; try (apply (Rest p); [exact Hl|auto|discriminate|exact H]).
    + apply (Rest _) with (4 := H); [rewrite write_length; exact Hl|intros x Hx; apply write_other; exact Hx|intros _; apply write_same; exact Hkl].
    + exfalso. exact (Hnt eq_refl).
    + exfalso. exact (Hni _ eq_refl).
Qed.

Lemma all_ok fuel : PatchOk fuel /\ MembersOk fuel.
Proof.
  induction fuel as [|fuel (HP & HM)].
  - split; intros p; intros; discriminate.
  - split; [exact (patch_step _ HM)|exact (members_step _ HP HM)].
Qed.
End Bind.

Section Top.
Context (w : world) (p : list word) (before : list nat) (o : nat).
Context (Hs : Small w p) (Hin : inputs w = before ++ [o]).

Lemma lead_top : Lead w (length (inputs w) - 1) p None o [].
Proof.
  destruct Hs as (_ & Hi & _). intros i. cbn [pointer].
  assert (E : length (inputs w) - 1 = length before) by (rewrite Hin, app_length; cbn; lia).
  assert (L : length before < 256) by (rewrite Hin, app_length in Hi; cbn in Hi; lia).
  rewrite E, (Nat.mod_small _ _ L). constructor. rewrite Hin, nth_error_app2, Nat.sub_diag by lia. reflexivity.
Qed.

Lemma bind_ok fuel k p' F : Laid p k F -> NoDup F -> bind w fuel p k = Some p' ->
  (forall x, ~ In x F -> nth_error p' x = nth_error p x) /\
  (forall path v o' i' fuel d, At p k path v -> Follow w o 0 path o' i' -> dereference w fuel p' (Ref o' i') = Some d ->
     exists fuel, dereference w fuel p' (Stem v) = Some d).
Proof.
  intros HF HN H. assert (Hs' := Hs). destruct Hs' as (Hp & Hi & Ho & Hr).
  assert (L : length (inputs w) - 1 < 256).
  { assert (E : length (inputs w) - 1 = length before) by (rewrite Hin, app_length; cbn; lia). rewrite E.
    rewrite Hin, app_length in Hi. cbn in Hi. lia. }
  destruct (proj1 (all_ok w (length (inputs w) - 1) p L Hp Ho Hr fuel) p k 0 None o [] p' F HF HN eq_refl (fun _ _ => eq_refl) lead_top (fun _ H => match H with end) H)
    as (_ & Fr & V).
  split; [exact Fr|]. intros path v o' i' fuel' d HA HFo Hd.
  assert (Hi' : i' < 4096).
  { destruct fuel' as [|f]; [discriminate|]. cbn [dereference fetch] in Hd. destruct (word_of w o' i') as [u|] eqn:Eu; [|discriminate].
    unfold word_of in Eu. destruct (heap w o') as [b|] eqn:Eb; [|discriminate]. assert (i' < length (code b)) by (apply nth_error_Some; congruence).
    specialize (Ho o' b Eb). lia. }
  destruct (V path v o' i' HA HFo Hi') as (a & qs & Ha & Hai & HL & _). exact (loc_deref w p' a o' qs HL v i' fuel' d Ha Hai Hd).
Qed.
End Top.
