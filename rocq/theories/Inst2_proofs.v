From Verif Require Import Base Atom_model Atom_proofs Bp_model Bp_spec Bp_proofs Bp2_proofs Bp3_proofs Inst_model Inst_spec Inst_proofs.
Local Open Scope nat_scope.

Section Meant.
Variable fuel : nat.
Variable ti : Z.
Variable h : hmap.
Variable s : nat -> term.
Hypothesis ME : meant fuel h s.
Hypothesis SM : length (vals h) <= limit.

Definition grows (x y : out) : Prop :=
  let '(m, e, l) := x in let '(m', e', l') := y in e <= e' /\ exists l2, l' = l ++ l2.

Lemma grows_refl : forall m m' e l, grows (m, e, l) (m', e, l).
Proof using. clear. intros. split; [lia|exists []; rewrite app_nil_r; reflexivity]. Qed.
Lemma grows_trans : forall x y z, grows x y -> grows y z -> grows x z.
Proof using.
  clear. intros [[m e] l] [[m1 e1] l1] [[m2 e2] l2] (A & a & ->) (B & b & ->). split; [lia|].
  exists (a ++ b). rewrite app_assoc. reflexivity.
Qed.

Lemma words_grow : forall build src b n r w x y,
  (forall si x y, build si x = Some y -> grows x y) ->
  build_words fuel (vals h) build src b r w n x = Some y -> grows x y.
Proof using.
  clear. intros build src b n. induction n as [|n IH]; intros r w [[m e] l] y G E; cbn [build_words] in E.
  - injection E as <-. apply grows_refl.
  - destruct ((getDescriptor (src r) =? VL_PTR)%Z && negb b)%bool.
    + destruct (valuate_at fuel (vals h) (place (src r)) w (m, e, l)) as [[[m1 e1] l1]|] eqn:V; [|discriminate].
      apply grows_trans with (m1, e1, l1); [exact (valuate_more _ _ _ _ _ _ _ _ _ _ V)|exact (IH _ _ _ _ G E)].
    + destruct (getDescriptor (src r) =? I_PTR)%Z.
      * destruct (build (place (src r)) (write m w (ptr e), e, l)) as [[[m1 e1] l1]|] eqn:V; [|discriminate].
        apply G in V. apply grows_trans with (m1, e1, l1); [exact V|exact (IH _ _ _ _ G E)].
      * apply IH in E; [|exact G]. exact E.
Qed.

Lemma structure_grow : forall d src si x y, build_structure fuel ti (vals h) d src si x = Some y -> grows x y.
Proof using.
  clear. induction d as [|d IH]; intros src si [[m e] l] y E; cbn [build_structure] in E; [discriminate|].
  apply words_grow in E; [|apply IH].
  eapply grows_trans; [|exact E]. split; [lia|exists []; rewrite app_nil_r; reflexivity].
Qed.

Lemma grows_fit : forall m e l m' e' l', grows (m, e, l) (m', e', l') -> e' <= limit -> length l' <= limit ->
  e <= limit /\ length l <= limit.
Proof using. clear. intros m e l m' e' l' (A & a & ->) B C. rewrite app_length in C. lia. Qed.

(** Words that are neither pointers to structures nor variables are copied. *)
Lemma build_flat : forall build src b n r w m e l,
  Forall (fun a => getDescriptor a <> I_PTR /\ getDescriptor a <> VL_PTR) (words src r n) ->
  exists m', build_words fuel (vals h) build src b r w n (m, e, l) = Some (m', e, l) /\
    words m' w n = words src r n /\ forall k, ~ (w <= k < w + n) -> m' k = m k.
Proof using.
  clear. intros build src b n. induction n as [|n IH]; intros r w m e l F; cbn [build_words].
  - exists m. split; [reflexivity|]. split; [reflexivity|]. reflexivity.
  - rewrite words_cons in F. inversion F as [|? ? (N1 & N2) F']; subst.
    destruct (getDescriptor (src r) =? VL_PTR)%Z eqn:D; [apply Z.eqb_eq in D; contradiction|].
    destruct (getDescriptor (src r) =? I_PTR)%Z eqn:D2; [apply Z.eqb_eq in D2; contradiction|].
    cbn [andb put]. rewrite !Nat.add_1_r.
    destruct (IH (S r) (S w) (write m w (src r)) e l F') as (m' & E & W & K).
    exists m'. split; [exact E|]. split.
    + rewrite !words_cons, W. f_equal. rewrite K by lia. apply write_eq.
    + intros k L. rewrite K by lia. apply write_neq. lia.
Qed.

Definition structure_ok (d : nat) : Prop := forall src m e l m' e' l' tr w,
  shows anywhere anywhere src w tr -> getDescriptor w = I_PTR -> quiet tr ->
  build_structure fuel ti (vals h) d src (place w) (m, e, l) = Some (m', e', l') -> e' <= limit -> length l' <= limit ->
  e < e' /\ (forall k, k < e -> m' k = m k) /\ inst fuel ti h s (within e e') m' l' false tr (ptr e).

Lemma words_built : forall d src b ts r w m e l m' e' l', structure_ok d ->
  Forall2 (shows anywhere anywhere src) (words src r (length ts)) ts -> Forall quiet ts ->
  build_words fuel (vals h) (build_structure fuel ti (vals h) d src) src b r w (length ts) (m, e, l) = Some (m', e', l') ->
  w + length ts <= e -> e' <= limit -> length l' <= limit ->
  (forall k, k < e -> ~ (w <= k < w + length ts) -> m' k = m k) /\
  Forall2 (inst fuel ti h s (within e e') m' l' b) ts (words m' w (length ts)).
Proof using ME SM.
  intros d src b ts. induction ts as [|t ts IH]; intros r w m e l m' e' l' OK F Q E L B1 B2; cbn [length] in *; cbn [build_words] in E.
  - injection E as <- <- <-. split; [reflexivity|constructor].
  - rewrite words_cons in F. inversion F as [|? ? ? ? S0 F']; subst. inversion Q as [|? ? Q0 Q']; subst.
    destruct (match (if ((getDescriptor (src r) =? VL_PTR)%Z && negb b)%bool then valuate_at fuel (vals h) (place (src r)) w (m, e, l)
             else if (getDescriptor (src r) =? I_PTR)%Z then build_structure fuel ti (vals h) d src (place (src r)) (write m w (ptr e), e, l)
             else Some (put (m, e, l) w (src r))) with Some o => Some o | None => None end) as [[[m1 e1] l1]|] eqn:V.
    2:{ destruct (if ((getDescriptor (src r) =? VL_PTR)%Z && negb b)%bool then _ else _); discriminate. }
    assert (V' : (if ((getDescriptor (src r) =? VL_PTR)%Z && negb b)%bool then valuate_at fuel (vals h) (place (src r)) w (m, e, l)
             else if (getDescriptor (src r) =? I_PTR)%Z then build_structure fuel ti (vals h) d src (place (src r)) (write m w (ptr e), e, l)
             else Some (put (m, e, l) w (src r))) = Some (m1, e1, l1)).
    { destruct (if ((getDescriptor (src r) =? VL_PTR)%Z && negb b)%bool then _ else _); [exact V|discriminate]. }
    clear V. rewrite V' in E. rewrite !Nat.add_1_r in E.
    assert (GR : grows (m1, e1, l1) (m', e', l')).
    { eapply words_grow; [|exact E]. intros; eapply structure_grow; eassumption. }
    destruct (grows_fit _ _ _ _ _ _ GR B1 B2) as (Le & Ll).
    destruct GR as (Ge & l2 & L2).
    assert (ST : e <= e1 /\ (forall k, k < e -> k <> w -> m1 k = m k) /\
      inst fuel ti h s (within e e1) m1 l1 b t (m1 w)).
    { destruct (getDescriptor (src r) =? VL_PTR)%Z eqn:D; cbn [andb] in V'.
      - apply Z.eqb_eq in D.
        assert (t = Leaf (src r)) by (inversion S0 as [|? D0|? ? D0]; subst; [reflexivity|rewrite D in D0; discriminate|rewrite D in D0; discriminate]). subst t.
        destruct b; cbn [negb] in V'.
        + destruct (getDescriptor (src r) =? I_PTR)%Z eqn:D2; [apply Z.eqb_eq in D2; rewrite D in D2; discriminate|].
          unfold put in V'. injection V' as <- <- <-. split; [lia|]. split; [intros k _ K; apply write_neq; exact K|].
          rewrite write_eq. apply inst_kept; [rewrite D; discriminate|left; reflexivity].
        + assert (Lw : w < e) by lia.
          destruct (valuate_holds fuel h s ME SM _ _ _ _ _ _ _ _ Lw V' Le Ll) as (G1 & _ & F1 & H1).
          split; [exact G1|]. split; [exact F1|]. apply inst_var; [exact D|exact H1].
      - apply Z.eqb_neq in D. destruct (getDescriptor (src r) =? I_PTR)%Z eqn:D2.
        + apply Z.eqb_eq in D2.
          destruct (OK _ _ _ _ _ _ _ _ _ S0 D2 Q0 V' Le Ll) as (G1 & F1 & I1).
          split; [lia|]. split; [intros k K1 K2; rewrite F1 by lia; apply write_neq; exact K2|].
          rewrite F1 by lia. rewrite write_eq.
          clear - I1 S0 D2. inversion I1; subst; [inversion S0; contradiction|inversion S0; contradiction|eapply inst_raw|eapply inst_node]; eauto.
        + apply Z.eqb_neq in D2. unfold put in V'. injection V' as <- <- <-. split; [lia|]. split; [intros k _ K; apply write_neq; exact K|].
          rewrite write_eq.
          assert (t = Leaf (src r)) by (inversion S0; subst; [reflexivity|contradiction|contradiction]). subst t.
          apply inst_kept; [exact D2|right; exact D]. }
    destruct ST as (G1 & F1 & I1).
    assert (Lw : S w + length ts <= e1) by lia.
    destruct (IH _ _ _ _ _ _ _ _ OK F' Q' E Lw B1 B2) as (F2 & I2).
    split.
    + intros k K1 K2. rewrite F2 by lia. apply F1; lia.
    + rewrite words_cons. constructor.
      * rewrite F2 by lia. rewrite L2. revert I1. apply inst_agree.
        -- intros i O. symmetry. apply F2; unfold within in O; lia.
        -- intros i O. unfold within in *; lia.
      * revert I2. apply Forall2_weaken. intros a y J. rewrite <- (app_nil_r l'). revert J. apply inst_agree; [reflexivity|].
        intros i O. unfold within in *; lia.
Qed.

Lemma quiet_all : forall hd ts, quiet (Node hd ts) -> Forall quiet ts.
Proof using. clear. intros hd ts Q. cbn in Q. induction ts as [|t ts IH]; constructor; cbn in Q; [apply Q|apply IH; apply Q]. Qed.

Lemma structure_built : forall d, structure_ok d.
Proof using ME SM.
  induction d as [|d IH]; intros src m e l m' e' l' tr w S0 D Q E B1 B2; cbn [build_structure] in E; [discriminate|].
  set (si := place w) in *. rewrite !Nat.add_1_r in E.
  assert (GR : grows (write m e (src si), S e + count (src si), l) (m', e', l')).
  { eapply words_grow; [|exact E]. intros; eapply structure_grow; eassumption. }
  destruct (grows_fit _ _ _ _ _ _ GR B1 B2) as (Le & _). destruct GR as (Ge & _).
  assert (Pe : place (ptr e) = e) by (apply ptr_place; lia).
  assert (De : getDescriptor (ptr e) = I_PTR) by (apply ptr_desc; lia).
  split; [lia|].
  inversion S0 as [? N|? ? O R K|? ts ? O R N K F]; subst; [contradiction| |].
  - cbn in Q. fold si in Q, E, R |- *.
    destruct (build_flat (build_structure fuel ti (vals h) d src) src (src si =? AObject ti 2)%Z (count (src si)) (S si) (S e)
      (write m e (src si)) (S e + count (src si)) l) as (m2 & E2 & W2 & K2).
    { replace (S si) with (si + 1) by lia. exact Q. }
    rewrite E2 in E. injection E as <- <- <-.
    split; [intros k L; rewrite K2 by lia; apply write_neq; lia|].
    apply inst_raw; rewrite ?Pe; auto.
    + split; lia.
    + rewrite K2 by lia. apply write_eq.
    + intros j L. split; lia.
    + replace (e + 1) with (S e) by lia. replace (si + 1) with (S si) by lia. exact W2.
  - fold si in F, E, R, N |- *.
    assert (LT : length ts = count (src si)).
    { apply Forall2_len in F. rewrite words_length in F. symmetry; exact F. }
    rewrite <- LT in E, F. replace (si + 1) with (S si) in F by lia.
    assert (Lw : S e + length ts <= S e + length ts) by lia.
    destruct (words_built d src _ ts _ _ _ _ _ _ _ _ IH F (quiet_all _ _ Q) E Lw B1 B2) as (F2 & I2).
    split; [intros k L; rewrite F2 by lia; apply write_neq; lia|].
    apply inst_node; rewrite ?Pe; auto.
    + split; lia.
    + rewrite F2 by lia. apply write_eq.
    + intros j L. split; lia.
    + replace (e + 1) with (S e) by lia. rewrite <- LT. revert I2. apply Forall2_weaken. intros a y J.
      rewrite <- (app_nil_r l'). revert J. apply inst_agree; [reflexivity|]. intros i O'. unfold within in *; lia.
Qed.

(** What the arguments say. *)
Lemma inst_means : forall ok m l tr b w t, inst fuel ti h s ok m l b tr w -> (forall l, means free l tr t) ->
  exists tr', shows ok ok m w tr' /\ means free l tr' (fill (AObject ti 2) s b t).
Proof using SM.
  intros ok m l tr; induction tr as [x|hd ws|hd ts F] using tree_nested; intros b w t J M.
  - pose proof (M []) as M0. inversion J as [? ? D H|? ? D N| |]; subst.
    + inversion M0 as [? ? D0|? ? ? ? ? D0 N0| ? ? D0 | |]; subst; [|rewrite D in D0; discriminate|contradiction].
      cbn [fill]. exact (holds_means fuel h s SM _ _ _ _ _ H).
    + exists (Leaf w). split; [constructor; exact D|].
      inversion M0 as [? ? D0|? ? ? ? ? D0 N0| ? ? D0 D1 | |]; subst.
      * destruct N as [->|N]; [|contradiction]. cbn [fill]. apply means_var; exact D0.
      * destruct (place w); discriminate N0.
      * cbn [fill]. apply means_atom; assumption.
  - pose proof (M []) as M0. inversion M0; subst. inversion J as [| |? ? ? ? D R O E K Q|]; subst.
    exists (Raw (m (place w)) (words m (place w + 1) (count (m (place w))))). split; [apply shows_raw; assumption|]. cbn [fill]. apply means_raw.
  - pose proof (M []) as M0. inversion M0 as [| | | |? ? ? ts' N0 M1]; subst. inversion J as [| | |? ? ? ? D R P O E K Q]; subst.
    cbn [fill].
    assert (M2 : Forall2 (fun t tt => forall l, means free l t tt) ts ts').
    { clear - M M1. assert (A : forall l, Forall2 (means free l) ts ts').
      { intro l. specialize (M l). inversion M; assumption. }
      clear M. induction M1 as [|a y la ly Ha Hl IH]; constructor.
      - intro l. specialize (A l). inversion A; assumption.
      - apply IH. intro l. specialize (A l). inversion A; assumption. }
    set (b' := (m (place w) =? AObject ti 2)%Z) in *.
    assert (X : exists tr', Forall2 (shows ok ok m) (words m (place w + 1) (count (m (place w)))) tr' /\
      Forall2 (means free l) tr' (map (fill (AObject ti 2) s b') ts')).
    { revert Q M2. generalize (words m (place w + 1) (count (m (place w)))). clear - F SM.
      intros ws Q. revert ts'. induction Q as [|a y la ly Ha Hl IH]; intros ts' M2; inversion M2 as [|? tt ? tts M3 M4]; subst.
      - exists []. split; constructor.
      - inversion F as [|? ? F0 F1]; subst. destruct (IH F1 _ M4) as (tr' & S1 & M5).
        destruct (F0 _ _ _ Ha M3) as (t1 & S2 & M6). exists (t1 :: tr'). split; constructor; assumption. }
    destruct X as (tr' & S1 & M5). exists (Node (m (place w)) tr'). split; [apply shows_node; assumption|].
    apply means_str; assumption.
Qed.
End Meant.
