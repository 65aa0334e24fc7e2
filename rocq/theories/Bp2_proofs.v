From Verif Require Import Base Atom_model Atom_proofs Bp_model Bp_spec Bp_proofs.
Local Open Scope nat_scope.

Section Bind.
Variable fuel : nat.
Variable kept : Z -> bool.
Variable values : nat -> value.
Variable sigma : nat -> term.
Hypothesis ST : forall x, x < limit -> stands fuel x (values x) (sigma x).

(** One variable. *)
Lemma valuate_spec : forall x dst i ext l dst' ext' l',
  x < limit -> i < ext ->
  valuate fuel values x dst i ext l = Some (dst', ext', l') ->
  ext' <= limit -> length l' <= limit ->
  ext <= ext' /\ (exists l2, l' = l ++ l2) /\
  (forall k, k < ext -> k <> i -> dst' k = dst k) /\
  exists tr, shows (within ext ext') (within ext ext') dst' (dst' i) tr /\ means free l' tr (sigma x).
Proof.
  intros x dst i ext l dst' ext' l' X I E B1 B2. specialize (ST x X). unfold valuate in E. unfold stands in ST.
  destruct (values x) as [|a|m|o].
  - injection E as <- <- <-. rewrite ST. split; [lia|]. split; [exists []; rewrite app_nil_r; reflexivity|].
    split; [intros k _ K; apply write_neq; exact K|].
    exists (Leaf (VLPointer (Z.of_nat x))). rewrite write_eq. split.
    + constructor. rewrite vlptr_desc by exact X. discriminate.
    + pose proof (means_var free l (VLPointer (Z.of_nat x)) (vlptr_desc x X)) as M.
      rewrite vlptr_place in M by exact X. exact M.
  - injection E as <- <- <-. destruct ST as (T & N1 & N2 & N3). rewrite T. split; [lia|].
    split; [exists []; rewrite app_nil_r; reflexivity|].
    split; [intros k _ K; apply write_neq; exact K|].
    exists (Leaf a). rewrite write_eq. split; [constructor; exact N1|apply means_atom; assumption].
  - destruct ST as (tr & S0 & T & H & M).
    assert (P0 : 0 < limit) by exact limit_pos.
    pose proof (ptr_desc 0 P0) as D0. pose proof (ptr_place 0 P0) as PL0.
    destruct (extend_tree tr fuel m (write dst i (ptr ext)) ext (ptr 0) S0 D0 T H) as (d0 & E0).
    rewrite PL0 in E0. rewrite E0 in E. injection E as <- <- <-.
    destruct (copy_tree tr fuel m (write dst i (ptr ext)) ext (ptr 0) S0 D0 T H B1) as (d1 & E1 & S1 & Fr).
    rewrite PL0 in E1. rewrite E1 in E0. injection E0 as <-.
    split; [lia|]. split; [exists []; rewrite app_nil_r; reflexivity|].
    split.
    + intros k K1 K2. rewrite Fr by lia. apply write_neq; exact K2.
    + exists tr. rewrite (Fr i) by lia. rewrite write_eq. split; [exact S1|apply M].
  - injection E as <- <- <-. split; [lia|]. split; [exists [o]; reflexivity|].
    split; [intros k _ K; apply write_neq; exact K|].
    rewrite app_length in B2. cbn [length] in B2.
    exists (Leaf (RPointer (Z.of_nat (length l)))). rewrite write_eq.
    pose proof (rptr_desc (length l) ltac:(lia)) as D. pose proof (rptr_place (length l) ltac:(lia)) as PL.
    split; [constructor; rewrite D; discriminate|].
    destruct ST as (tr & ts & -> & Q & S0 & M).
    apply means_ref with (tr := tr); auto.
    rewrite PL, nth_error_app2, Nat.sub_diag by lia. reflexivity.
Qed.

Lemma valuate_grow : forall x dst i ext l dst' ext' l',
  valuate fuel values x dst i ext l = Some (dst', ext', l') -> ext <= ext' /\ exists l2, l' = l ++ l2.
Proof.
  intros x dst i ext l dst' ext' l' E. unfold valuate in E. destruct (values x) as [|a|m|o].
  - injection E as _ <- <-. split; [lia|exists []; rewrite app_nil_r; reflexivity].
  - injection E as _ <- <-. split; [lia|exists []; rewrite app_nil_r; reflexivity].
  - destruct (copy_structure fuel m (write dst i (ptr ext)) ext 0) as [[d e]|] eqn:C; [|discriminate].
    injection E as _ <- <-. apply copy_grow in C. split; [lia|exists []; rewrite app_nil_r; reflexivity].
  - injection E as _ <- <-. split; [lia|exists [o]; reflexivity].
Qed.

Lemma bind_words_grow : forall src size n i dst ext l dst' ext' l',
  bind_words fuel values src size i n dst ext l = Some (dst', ext', l') -> ext <= ext' /\ exists l2, l' = l ++ l2.
Proof.
  intros src size; induction n as [|n IH]; intros i dst ext l dst' ext' l' E; cbn [bind_words] in E.
  - injection E as _ <- <-. split; [lia|exists []; rewrite app_nil_r; reflexivity].
  - destruct (size <=? i).
    { injection E as _ <- <-. split; [lia|exists []; rewrite app_nil_r; reflexivity]. }
    destruct (getDescriptor (src i) =? VL_PTR)%Z.
    + destruct (valuate fuel values (place (src i)) dst i ext l) as [[[d1 e1] l1]|] eqn:V; [|discriminate].
      apply valuate_grow in V. destruct V as (V1 & l2 & ->). apply IH in E. destruct E as (E1 & l3 & ->).
      split; [lia|]. exists (l2 ++ l3). rewrite app_assoc. reflexivity.
    + destruct (raw (src i)); apply IH in E; exact E.
Qed.

(** What is left at a place of the pattern. *)
Definition bound_at (src dst : mem) (l : list obj) (k : nat) : Prop :=
  if (getDescriptor (src k) =? VL_PTR)%Z then
    exists tr, shows anywhere anywhere dst (dst k) tr /\ means free l tr (sigma (place (src k)))
  else if raw (src k) then forall j, j <= count (src k) -> dst (k + j) = src (k + j)
  else dst k = src k.

Lemma bind_words_spec : forall src size n i dst ext l dst' ext' l',
  bind_words fuel values src size i n dst ext l = Some (dst', ext', l') ->
  size <= n + i -> size <= ext -> ext' <= limit -> length l' <= limit ->
  (forall k, steps src size i k -> raw (src k) = true -> k + count (src k) < size) ->
  (forall k, k < i -> k < size -> dst' k = dst k) /\
  (forall k, size <= k < ext -> dst' k = dst k) /\
  (forall k, steps src size i k -> bound_at src dst' l' k).
Proof.
  intros src size; induction n as [|n IH]; intros i dst ext l dst' ext' l' E L1 L2 B1 B2 W; cbn [bind_words] in E.
  { injection E as <- <- <-. split; [reflexivity|]. split; [reflexivity|].
    intros k K. apply steps_range in K. lia. }
  destruct (Nat.leb_spec size i) as [C|C].
  { injection E as <- <- <-. split; [reflexivity|]. split; [reflexivity|].
    intros k K. apply steps_range in K. lia. }
  destruct (getDescriptor (src i) =? VL_PTR)%Z eqn:D.
  - assert (R : raw (src i) = false).
    { destruct (raw (src i)) eqn:R; [|reflexivity]. exfalso. apply (raw_not_vl _ R). apply Z.eqb_eq; exact D. }
    destruct (valuate fuel values (place (src i)) dst i ext l) as [[[d1 e1] l1]|] eqn:V; [|discriminate].
    destruct (bind_words_grow _ _ _ _ _ _ _ _ _ _ E) as (G1 & l3 & G2).
    assert (length l1 <= limit) by (rewrite G2, app_length in B2; lia).
    destruct (valuate_spec _ dst i ext l d1 e1 l1 (place_small (src i)) ltac:(lia) V ltac:(lia) ltac:(assumption)) as (V1 & (l2 & V2) & V3 & tr & V4 & V5).
    destruct (IH (i + 1) d1 e1 l1 dst' ext' l' E ltac:(lia) ltac:(lia) B1 B2) as (F1 & F2 & F3).
    { intros k K. apply W. apply steps_from_next; assumption. }
    split; [intros k K1 K2; rewrite F1 by lia; apply V3; lia|].
    split; [intros k K1; rewrite F2 by lia; apply V3; lia|].
    intros k K. destruct (steps_split _ _ _ _ K) as [->|[[R' K']|[_ K']]].
    + unfold bound_at. rewrite D. exists tr. rewrite F1 by lia. split.
      * apply (shows_weaken (within ext e1) (within ext e1)); [intros; exact Logic.I|intros; exact Logic.I|].
        apply (shows_agree _ _ d1); [| |exact V4]; intros j (J1 & J2); symmetry; apply F2; lia.
      * rewrite G2. apply means_more. exact V5.
    + destruct (eq_true_false_abs _ R' R) || destruct (eq_true_false_abs _ R R').
    + apply F3; exact K'.
  - destruct (raw (src i)) eqn:R.
    + pose proof (W i (steps_here _ _ _ C) R) as Wi.
      destruct (copy_raw_at src (count (src i) + 1) dst i) as [A1 A2].
      destruct (IH (i + count (src i) + 1) _ ext l dst' ext' l' E ltac:(lia) L2 B1 B2) as (F1 & F2 & F3).
      { intros k K. apply W. apply steps_from_raw; assumption. }
      split; [intros k K1 K2; rewrite F1 by lia; apply A2; lia|].
      split; [intros k K1; rewrite F2 by lia; apply A2; lia|].
      intros k K. destruct (steps_split _ _ _ _ K) as [->|[[_ K']|[R' _]]].
      * unfold bound_at. rewrite D, R. intros j J. rewrite F1 by lia. apply A1; lia.
      * apply F3; exact K'.
      * destruct (eq_true_false_abs _ R' R) || destruct (eq_true_false_abs _ R R').
    + destruct (IH (i + 1) _ ext l dst' ext' l' E ltac:(lia) L2 B1 B2) as (F1 & F2 & F3).
      { intros k K. apply W. apply steps_from_next; assumption. }
      split; [intros k K1 K2; rewrite F1 by lia; apply write_neq; lia|].
      split; [intros k K1; rewrite F2 by lia; apply write_neq; lia|].
      intros k K. destruct (steps_split _ _ _ _ K) as [->|[[R' _]|[_ K']]].
      * unfold bound_at. rewrite D, R. rewrite F1 by lia. apply write_eq.
      * destruct (eq_true_false_abs _ R' R) || destruct (eq_true_false_abs _ R R').
      * apply F3; exact K'.
Qed.

(** Nothing to bind: the term has no variable to replace. *)
Lemma unbound_tree : forall m size l,
  (forall k, steps m size 1 k -> getDescriptor (m k) <> VL_PTR) ->
  (forall o, In o l -> forall t, says starts o t -> subst kept sigma t = t) ->
  forall tr t, means starts l tr t ->
  forall k, steps m size 1 k -> shows (steps m size 1) anywhere m (m k) tr -> subst kept sigma t = t.
Proof.
  intros m size l NV RF tr; induction tr as [w|h ws|h tr F] using tree_nested; intros t M k K S0.
  - inversion S0; subst. inversion M as [? ? D|? ? o tr' ts D N Q S1 M1| | |]; subst.
    + exfalso. exact (NV k K D).
    + apply (RF o); [eapply nth_error_In; exact N|]. exists tr', ts. exact (conj eq_refl (conj Q (conj S1 M1))).
    + reflexivity.
  - inversion M; subst. reflexivity.
  - inversion M as [| | | |? ? ? ts NH M1]; subst. inversion S0 as [| |? ? D Q R N A F2]; subst.
    cbn [subst]. f_equal.
    assert (forall j, j < count (m (place (m k))) -> steps m size 1 (place (m k) + 1 + j)) as A' by exact A.
    clear - F F2 M1 A' .
    remember (count (m (place (m k)))) as n eqn:En. clear En.
    remember (place (m k) + 1) as i eqn:Ei. clear Ei.
    revert i n F2 A'. induction M1 as [|a t tr ts Ma Ml IH]; intros i n F2 A; [reflexivity|].
    destruct n as [|n]; [inversion F2|]. rewrite words_cons in F2.
    inversion F2 as [|? ? ? ? S1 F3]; subst. inversion F as [|? ? Fa Fl]; subst. cbn [map]. f_equal.
    + apply (Fa t Ma i); [specialize (A 0 ltac:(lia)); rewrite Nat.add_0_r in A; exact A|exact S1].
    + apply (IH Fl (S i) n F3). intros j J. specialize (A (S j) ltac:(lia)). replace (S i + j) with (i + S j) by lia. exact A.
Qed.

Lemma not_needed : forall o, need_binding kept o = false -> forall t, says starts o t -> subst kept sigma t = t.
Proof.
  induction o as [m size l F] using obj_nested; intros H t (tr & ts & -> & Q & S0 & M).
  cbn [word refs starts need_binding] in *. cbn [subst].
  destruct (kept (m 0)); [reflexivity|]. f_equal.
  destruct (existsb (need_binding kept) l) eqn:X; [discriminate|].
  assert (RF : forall o, In o l -> forall t, says starts o t -> subst kept sigma t = t).
  { intros o I. rewrite Forall_forall in F. apply F; [exact I|].
    destruct (need_binding kept o) eqn:NB; [|reflexivity].
    exfalso. assert (existsb (need_binding kept) l = true) as Y by (apply existsb_exists; exists o; auto).
    rewrite X in Y; discriminate. }
  assert (NV : forall k, steps m size 1 k -> getDescriptor (m k) <> VL_PTR).
  { apply (no_variable m size size 1); [lia|exact H]. }
  clear X H.
  assert (SO : forall i n, Forall2 (shows (steps m size 1) anywhere m) (words m i n) tr ->
    (forall j, j < n -> steps m size 1 (i + j)) -> map (subst kept sigma) ts = ts); [|exact (SO 1 _ S0 Q)].
  clear S0 Q.
  induction M as [|a t tr ts Ma Ml IH]; intros i n S0 A; [reflexivity|].
  destruct n as [|n]; [inversion S0|]. rewrite words_cons in S0. inversion S0 as [|? ? ? ? S1 F3]; subst.
  cbn [map]. f_equal.
  - apply (unbound_tree m size l NV RF a t Ma i); [|exact S1].
    specialize (A 0 ltac:(lia)). rewrite Nat.add_0_r in A. exact A.
  - apply (IH (S i) n F3). intros j J. specialize (A (S j) ltac:(lia)). replace (S i + j) with (i + S j) by lia. exact A.
Qed.

Lemma all_bound_forall : forall f (l l' : list obj), all_bound (map f l) = Some l' -> Forall2 (fun o r => f o = Some r) l l'.
Proof.
  intros f; induction l as [|o l IH]; intros l' E; cbn in E.
  - injection E as <-. constructor.
  - destruct (f o) as [r|] eqn:R; [|discriminate].
    destruct (all_bound (map f l)) as [l1|]; [|discriminate]. injection E as <-. constructor; [exact R|apply IH; reflexivity].
Qed.

(** The parts of the pattern in the result. *)
Lemma bound_tree : forall m dst size l l',
  (forall k, steps m size 1 k -> bound_at m dst l' k) ->
  (forall k, steps m size 1 k -> raw (m k) = true -> k + count (m k) < size) ->
  (forall i o t, nth_error l i = Some o -> says starts o t ->
     exists r, nth_error l' i = Some r /\ says free r (subst kept sigma t)) ->
  forall tr t, means starts l tr t ->
  forall k, steps m size 1 k -> shows (steps m size 1) anywhere m (m k) tr ->
  exists tr', shows anywhere anywhere dst (dst k) tr' /\ means free l' tr' (subst kept sigma t).
Proof.
  intros m dst size l l' BA W RF tr; induction tr as [w|h ws|h tr F] using tree_nested; intros t M k K S0.
  - inversion S0 as [? NI| |]; subst. pose proof (BA k K) as B. unfold bound_at in B.
    assert (SAME : getDescriptor (m k) <> VL_PTR -> dst k = m k).
    { intro N. apply Z.eqb_neq in N. rewrite N in B. destruct (raw (m k)); [|exact B].
      specialize (B 0 ltac:(lia)). rewrite !Nat.add_0_r in B. exact B. }
    inversion M as [? ? D|? ? o tr' ts D N Q S1 M1|? ? D1 D2| |]; subst.
    + apply Z.eqb_eq in D. rewrite D in B. exact B.
    + rewrite SAME by (rewrite D; discriminate).
      destruct (RF _ o (TObj (word o 0) ts) N) as (r & Nr & (tr2 & ts2 & E2 & Q2 & S2 & M2)).
      { exists tr', ts. exact (conj eq_refl (conj Q (conj S1 M1))). }
      exists (Leaf (m k)). split; [constructor; exact NI|]. rewrite E2.
      apply means_ref with (tr := tr2); assumption.
    + rewrite SAME by exact D1. exists (Leaf (m k)). split; [constructor; exact NI|]. apply means_atom; assumption.
  - inversion M; subst. inversion S0 as [|? D Q R A|]; subst.
    assert (dst k = m k) as Ek.
    { pose proof (BA k K) as B. unfold bound_at in B. rewrite D in B.
      assert (raw (m k) = false) as R0 by (destruct (raw (m k)) eqn:R0; [exfalso; exact (raw_not_ptr _ R0 D)|reflexivity]).
      rewrite R0 in B. exact B. }
    rewrite Ek. pose proof (BA _ Q) as B. unfold bound_at in B.
    assert (getDescriptor (m (place (m k))) <> VL_PTR) as NV by (apply raw_not_vl; exact R).
    apply Z.eqb_neq in NV. rewrite NV, R in B.
    exists (Raw (m (place (m k))) (words m (place (m k) + 1) (count (m (place (m k)))))).
    split; [|apply means_raw].
    pose proof (B 0 ltac:(lia)) as B0. rewrite !Nat.add_0_r in B0.
    rewrite <- (words_ext dst m).
    + rewrite <- B0. apply shows_raw; [exact D|exact Logic.I|rewrite B0; exact R|intros; exact Logic.I].
    + intros i L. replace i with (place (m k) + (i - place (m k))) by lia. apply B. lia.
  - inversion M as [| | | |? ? ? ts NH M1]; subst. inversion S0 as [| |? ? D Q R N A F2]; subst.
    assert (dst k = m k) as Ek.
    { pose proof (BA k K) as B. unfold bound_at in B. rewrite D in B.
      assert (raw (m k) = false) as R0 by (destruct (raw (m k)) eqn:R0; [exfalso; exact (raw_not_ptr _ R0 D)|reflexivity]).
      rewrite R0 in B. exact B. }
    assert (dst (place (m k)) = m (place (m k))) as Eh.
    { pose proof (BA _ Q) as B. unfold bound_at in B. apply Z.eqb_neq in NH. rewrite NH, R in B. exact B. }
    assert (exists tr', Forall2 (shows anywhere anywhere dst) (words dst (place (m k) + 1) (count (m (place (m k))))) tr' /\
              Forall2 (means free l') tr' (map (subst kept sigma) ts)) as (tr' & P1 & P2).
    { clear - F F2 M1 A.
      remember (count (m (place (m k)))) as n eqn:En. clear En.
      remember (place (m k) + 1) as i eqn:Ei. clear Ei.
      revert i n F2 A. induction M1 as [|a t tr ts Ma Ml IH]; intros i n F2 A.
      - destruct n as [|n]; [|inversion F2]. exists []. split; constructor.
      - destruct n as [|n]; [inversion F2|]. rewrite words_cons in F2.
        inversion F2 as [|? ? ? ? S1 F3]; subst. inversion F as [|? ? Fa Fl]; subst.
        destruct (Fa t Ma i) as (a' & A1 & A2).
        { specialize (A 0 ltac:(lia)); rewrite Nat.add_0_r in A; exact A. }
        { exact S1. }
        destruct (IH Fl (S i) n F3) as (tr' & P1 & P2).
        { intros j J. specialize (A (S j) ltac:(lia)). replace (S i + j) with (i + S j) by lia. exact A. }
        exists (a' :: tr'). rewrite words_cons. cbn [map]. split; constructor; assumption. }
    exists (Node (m (place (m k))) tr'). split.
    + rewrite Ek, <- Eh. apply shows_node; [exact D|exact Logic.I|rewrite Eh; exact R|rewrite Eh; exact N|intros; exact Logic.I|].
      rewrite Eh. exact P1.
    + cbn [subst]. apply means_str; assumption.
Qed.

Lemma steps_ok : forall o i, starts o i -> free o i.
Proof. intros; exact Logic.I. Qed.

Lemma bind_pattern_spec : forall o r T,
  bind_pattern fuel kept values o = Some r -> whole o -> says starts o T -> fits r ->
  says free r (subst kept sigma T).
Proof.
  induction o as [m size l F] using obj_nested; intros r T E W SY FT. cbn [bind_pattern] in E.
  destruct (need_binding kept (Obj m size l)) eqn:NB; cbn [negb] in E.
  2:{ injection E as <-. rewrite (not_needed _ NB T SY). exact (says_weaken starts free steps_ok _ _ SY). }
  destruct (all_bound (map (bind_pattern fuel kept values) l)) as [l1|] eqn:AB; [|discriminate].
  destruct (bind_words fuel values m size 1 size (write (fun _ => UndefinedAtom) 0 (m 0)) size l1)
    as [[[dst ext] l2]|] eqn:BW; [|discriminate].
  injection E as <-. inversion FT as [? ? ? B1 B2 FR]; subst. inversion W as [? ? ? WR WL]; subst.
  destruct (bind_words_grow _ _ _ _ _ _ _ _ _ _ BW) as (_ & l3 & ->).
  destruct (bind_words_spec m size size 1 _ size l1 dst ext (l1 ++ l3) BW ltac:(lia) ltac:(lia) B1 B2 WR) as (F1 & _ & F3).
  destruct SY as (tr & ts & -> & Q & S0 & M). cbn [word refs] in Q, S0, M |- *.
  assert (NK : kept (m 0) = false).
  { cbn [need_binding] in NB. destruct (kept (m 0)); [discriminate NB|reflexivity]. }
  apply all_bound_forall in AB.
  assert (RF : forall i o t, nth_error l i = Some o -> says starts o t ->
     exists r, nth_error (l1 ++ l3) i = Some r /\ says free r (subst kept sigma t)).
  { intros i o t N SO. pose proof (nth_error_In _ _ N) as IN.
    assert (exists r, nth_error l1 i = Some r /\ bind_pattern fuel kept values o = Some r) as (r & Nr & Er).
    { clear - AB N. revert i N. induction AB as [|a b l l1 Hab Hl IH]; intros [|i] N; cbn in N; try discriminate N.
      - injection N as ->. exists b. split; [reflexivity|exact Hab].
      - exact (IH i N). }
    exists r. assert (nth_error (l1 ++ l3) i = Some r) as Nr'.
    { rewrite nth_error_app1; [exact Nr|]. apply nth_error_Some. rewrite Nr; discriminate. }
    split; [exact Nr'|]. rewrite Forall_forall in F.
    apply (F o IN); [exact Er|apply WL; exact IN|exact SO|apply FR; eapply nth_error_In; exact Nr']. }
  assert (H0 : dst 0 = m 0 \/ size = 0).
  { destruct size as [|s]; [right; reflexivity|left]. rewrite F1 by lia. apply write_eq. }
  cbn [subst]. rewrite NK.
  destruct H0 as [H0|H0].
  2:{ subst size. cbn in BW. injection BW as <- <- _.
      cbn [need_binding] in NB. 
      assert (count (m 0) = 0) as C0.
      { destruct (count (m 0)) as [|c] eqn:C; [reflexivity|]. specialize (Q 0 ltac:(lia)).
        unfold starts in Q. apply steps_range in Q. cbn in Q. lia. }
      exists [], []. rewrite C0 in S0. inversion S0; subst. inversion M; subst.
      cbn [map word refs]. rewrite write_eq, C0. split; [reflexivity|]. split; [intros; exact Logic.I|]. split; constructor. }
  assert (exists tr', Forall2 (shows anywhere anywhere dst) (words dst 1 (count (m 0))) tr' /\
            Forall2 (means free (l1 ++ l3)) tr' (map (subst kept sigma) ts)) as (tr' & P1 & P2).
  { unfold starts in Q. cbn [word Bp_model.size] in Q.
    assert (BT := bound_tree m dst size l (l1 ++ l3) F3 WR RF).
    assert (SO : forall i n, Forall2 (shows (steps m size 1) anywhere m) (words m i n) tr ->
      (forall j, j < n -> steps m size 1 (i + j)) ->
      exists tr', Forall2 (shows anywhere anywhere dst) (words dst i n) tr' /\
            Forall2 (means free (l1 ++ l3)) tr' (map (subst kept sigma) ts)); [|exact (SO 1 _ S0 Q)].
    clear - BT M.
    induction M as [|a t tr ts Ma Ml IH]; intros i n S0 A.
    - destruct n as [|n]; [|inversion S0]. exists []. split; constructor.
    - destruct n as [|n]; [inversion S0|]. rewrite words_cons in S0. inversion S0 as [|? ? ? ? S1 F3]; subst.
      destruct (BT a t Ma i) as (a' & A1 & A2).
      { specialize (A 0 ltac:(lia)); rewrite Nat.add_0_r in A; exact A. }
      { exact S1. }
      destruct (IH (S i) n F3) as (tr' & P1 & P2).
      { intros j J. specialize (A (S j) ltac:(lia)). replace (S i + j) with (i + S j) by lia. exact A. }
      exists (a' :: tr'). rewrite words_cons. cbn [map]. split; constructor; assumption. }
  exists tr', (map (subst kept sigma) ts). cbn [word refs]. rewrite H0.
  split; [reflexivity|]. split; [intros; exact Logic.I|]. split; assumption.
Qed.
End Bind.
