(** Proofs about groups. *)
From Verif Require Import Base Float32 Float32_facts Float32_val Float32_round Atom_model Obj_model Obj_spec Obj_proofs View_model View_spec View_proofs Grp_model Grp_spec.

(** ** Maps *)
Lemma find_key m k v : map_find m k = Some v -> In (k, v) m.
Proof. induction m as [|(j, w) m IH]; cbn; [discriminate|]. destruct (Z.eqb_spec j k) as [->|N]; intros H; [inversion H; subst; left; reflexivity|right; auto]. Qed.
Lemma find_in m k v : NoDup (map fst m) -> (map_find m k = Some v <-> In (k, v) m).
Proof.
  intros N. split; [apply find_key|]. induction m as [|(j, w) m IH]; cbn; [contradiction|]. cbn in N. inversion N as [|? ? NI ND]; subst.
  intros [E|I]; [inversion E; subst; rewrite Z.eqb_refl; reflexivity|]. destruct (Z.eqb_spec j k) as [->|D]; [|apply IH; assumption].
  exfalso. apply NI. apply (in_map fst) in I. exact I.
Qed.
Lemma find_none m k : map_find m k = None <-> ~ In k (map fst m).
Proof.
  induction m as [|(j, w) m IH]; cbn; [tauto|]. destruct (Z.eqb_spec j k) as [->|N]; [split; [discriminate|intros H; exfalso; apply H; left; reflexivity]|]. rewrite IH. tauto.
Qed.
Lemma set_keys m k v : forall j, In j (map fst (map_set m k v)) <-> j = k \/ In j (map fst m).
Proof.
  intros j. induction m as [|(i, w) m IH]; cbn; [intuition congruence|]. destruct (Z.eqb_spec i k) as [->|N]; cbn; [intuition congruence|]. rewrite IH. tauto.
Qed.
Lemma set_nodup m k v : NoDup (map fst m) -> NoDup (map fst (map_set m k v)).
Proof.
  induction m as [|(i, w) m IH]; cbn; intros N; [constructor; [tauto|constructor]|]. inversion N as [|? ? NI ND]; subst.
  destruct (Z.eqb_spec i k) as [->|D]; cbn; [exact N|]. constructor; [|apply IH; exact ND]. rewrite set_keys. intros [->|H]; [apply D; reflexivity|contradiction].
Qed.
Lemma set_in m k v j w : NoDup (map fst m) -> (In (j, w) (map_set m k v) <-> (j = k /\ w = v) \/ (j <> k /\ In (j, w) m)).
Proof.
  induction m as [|(i, u) m IH]; cbn; intros N.
  - split; [intros [E|[]]; inversion E; subst; left; split; reflexivity|]. intros [(-> & ->)|(_ & [])]. left. reflexivity.
  - inversion N as [|? ? NI ND]; subst. destruct (Z.eqb_spec i k) as [->|D]; cbn.
    + split.
      * intros [E|I]; [inversion E; subst; left; split; reflexivity|]. right. split; [|right; exact I]. intros ->. apply NI. apply (in_map fst) in I. exact I.
      * intros [(-> & ->)|(Q & [E|I])]; [left; reflexivity|inversion E; subst; contradiction|right; exact I].
    + rewrite IH by exact ND. split.
      * intros [E|[H|(H & I)]]; [inversion E; subst; right; split; [exact D|left; reflexivity]|left; exact H|right; split; [exact H|right; exact I]].
      * intros [H|(H & [E|I])]; [right; left; exact H|left; exact E|right; right; split; assumption].
Qed.
Lemma erase_in m k j w : NoDup (map fst m) -> (In (j, w) (map_erase m k) <-> j <> k /\ In (j, w) m).
Proof.
  induction m as [|(i, u) m IH]; cbn; intros N; [tauto|]. inversion N as [|? ? NI ND]; subst. destruct (Z.eqb_spec i k) as [->|D]; cbn.
  - split.
    + intros I. split; [|right; exact I]. intros ->. apply NI. apply (in_map fst) in I. exact I.
    + intros (Q & [E|I]); [inversion E; subst; contradiction|exact I].
  - rewrite IH by exact ND. split.
    + intros [E|(H & I)]; [inversion E; subst; split; [exact D|left; reflexivity]|split; [exact H|right; exact I]].
    + intros (H & [E|I]); [left; exact E|right; split; assumption].
Qed.
Lemma erase_keys_incl m k j : In j (map fst (map_erase m k)) -> In j (map fst m).
Proof. induction m as [|(i, u) m IH]; cbn; [tauto|]. destruct (i =? k); cbn; tauto. Qed.
Lemma erase_nodup m k : NoDup (map fst m) -> NoDup (map fst (map_erase m k)).
Proof.
  induction m as [|(i, u) m IH]; cbn; intros N; [constructor|]. inversion N as [|? ? NI ND]; subst. destruct (i =? k); [exact ND|]. cbn. constructor; [|apply IH; exact ND].
  intros H. apply NI. apply (erase_keys_incl m k). exact H.
Qed.
Definition on_key (oid : Z) (f : gview -> gview) (kv : Z * gview) : Z * gview := if fst kv =? oid then (fst kv, f (snd kv)) else kv.
Lemma on_key_fst oid f m : map fst (map (on_key oid f) m) = map fst m.
Proof. rewrite map_map. apply map_ext. intros (j, w). unfold on_key. cbn. destruct (j =? oid); reflexivity. Qed.
Lemma on_key_absent oid f m : ~ In oid (map fst m) -> map (on_key oid f) m = m.
Proof.
  induction m as [|(j, w) m IH]; cbn; intros N; [reflexivity|]. unfold on_key at 1. cbn. destruct (Z.eqb_spec j oid) as [->|D]; [exfalso; apply N; left; reflexivity|].
  f_equal. apply IH. tauto.
Qed.

(** ** Places *)
Lemma place_eqb_eq a b : place_eqb a b = true <-> a = b.
Proof. destruct a, b; cbn; split; intros H; try reflexivity; try discriminate. Qed.
Lemma place_eqb_refl a : place_eqb a a = true.
Proof. destruct a; reflexivity. Qed.
Lemma place_dec (a b : place) : a = b \/ a <> b.
Proof. destruct a, b; (left; reflexivity) || (right; discriminate). Qed.
Lemma place_eqb_neq a b : a <> b -> place_eqb a b = false.
Proof. destruct a, b; intros H; try reflexivity; contradiction. Qed.
Ltac kinds := unfold NULL_PROGRAM, INSTANTIATED_PROGRAM, INSTANTIATED_CPP_PROGRAM, INSTANTIATED_ANTI_PROGRAM, INSTANTIATED_INPUT_LESS_PROGRAM, COMPOSITE_STATE, MODEL, OBJECT, MARKER, GROUP in *.
Lemma belongs_place v p : belongs (ntf v) (kind v) p <-> place_of v = Some p.
Proof.
  unfold place_of, belongs. destruct (ntf v) eqn:N.
  - split; [|intros H; inversion H; reflexivity]. destruct p; cbn; intros H; try (destruct H; discriminate); reflexivity.
  - split.
    + destruct p; intros H.
      * destruct H as (_ & [<-|[<-|[<-|[<-|[<-|[]]]]]]); reflexivity.
      * destruct H as (_ & ->). reflexivity.
      * destruct H as (_ & ->). reflexivity.
      * discriminate.
      * destruct H as (_ & ->). reflexivity.
      * destruct H as (_ & [<-|[<-|[]]]); reflexivity.
    + generalize (kind v). intros k.
      destruct (Z.eqb_spec k NULL_PROGRAM) as [->|]; [intros H; injection H as <-; split; cbn; auto 10|].
      destruct (Z.eqb_spec k INSTANTIATED_PROGRAM) as [->|]; [intros H; injection H as <-; split; cbn; auto 10|].
      destruct (Z.eqb_spec k INSTANTIATED_CPP_PROGRAM) as [->|]; [intros H; injection H as <-; split; cbn; auto 10|].
      destruct (Z.eqb_spec k COMPOSITE_STATE) as [->|]; [intros H; injection H as <-; split; cbn; auto 10|].
      destruct (Z.eqb_spec k MODEL) as [->|]; [intros H; injection H as <-; split; cbn; auto 10|]. cbn [orb].
      destruct (Z.eqb_spec k INSTANTIATED_ANTI_PROGRAM) as [->|]; [intros H; injection H as <-; split; reflexivity|].
      destruct (Z.eqb_spec k INSTANTIATED_INPUT_LESS_PROGRAM) as [->|]; [intros H; injection H as <-; split; reflexivity|].
      destruct (Z.eqb_spec k OBJECT) as [->|]; [intros H; injection H as <-; split; cbn; auto 10|].
      destruct (Z.eqb_spec k MARKER) as [->|]; [intros H; injection H as <-; split; cbn; auto 10|]. cbn [orb].
      destruct (Z.eqb_spec k GROUP) as [->|]; [intros H; injection H as <-; split; reflexivity|]. discriminate.
Qed.

(** ** The collections stay in order (C23) *)
Definition INV (home : Z -> place) (g : group) : Prop :=
  forall p, NoDup (map fst (views g p)) /\ forall k v, In (k, v) (views g p) -> k = vid v /\ place_of v = Some p /\ home k = p.

Lemma inv_views home g g' : (forall p, views g' p = views g p) -> INV home g -> INV home g'.
Proof. intros E I p. rewrite E. apply I. Qed.
Lemma inv_set home g p k v : INV home g -> k = vid v -> place_of v = Some p -> home k = p -> INV home (with_views g p (map_set (views g p) k v)).
Proof.
  intros I K P H q. cbn [views with_views]. destruct (place_dec q p) as [->|N]; [|rewrite place_eqb_neq by exact N; apply I].
  rewrite place_eqb_refl. destruct (I p) as (D & F). split; [apply set_nodup; exact D|]. intros j w J. apply set_in in J; [|exact D].
  destruct J as [(-> & ->)|(_ & J)]; [auto|apply F; exact J].
Qed.
Lemma inv_erase home g p k : INV home g -> INV home (with_views g p (map_erase (views g p) k)).
Proof.
  intros I q. cbn [views with_views]. destruct (place_dec q p) as [->|N]; [|rewrite place_eqb_neq by exact N; apply I].
  rewrite place_eqb_refl. destruct (I p) as (D & F). split; [apply erase_nodup; exact D|]. intros j w J. apply erase_in in J; [|exact D]. apply F, J.
Qed.
Lemma inv_home home g p k : INV home g -> In k (map fst (views g p)) -> home k = p.
Proof. intros I H. apply in_map_iff in H. destruct H as ((j, w) & E & H). cbn in E. subst. apply (I p) in H. apply H. Qed.
Lemma inv_absent home g p k : INV home g -> home k <> p -> ~ In k (map fst (views g p)).
Proof. intros I N H. apply N, (inv_home home g); assumption. Qed.
Lemma inv_find_absent home g p k : INV home g -> home k <> p -> map_find (views g p) k = None.
Proof. intros I N. apply find_none, (inv_absent home); assumption. Qed.
Lemma get_view_home home g k : INV home g -> get_view g k = map_find (views g (home k)) k.
Proof.
  intros I. unfold get_view. destruct (home k) eqn:H;
  repeat match goal with |- context [map_find (views g ?p) k] =>
    lazymatch p with Ntf => fail | _ => rewrite (inv_find_absent home g p k I) by (rewrite H; discriminate) end end;
  try (destruct (map_find (views g _) k); [reflexivity|]);
  repeat match goal with |- context [map_find (views g ?p) k] => rewrite (inv_find_absent home g p k I) by (rewrite H; discriminate) end; reflexivity.
Qed.
Lemma place_holding_home home g k : INV home g -> place_holding g k = if map_find (views g (home k)) k then Some (home k) else None.
Proof.
  intros I. unfold place_holding. destruct (home k) eqn:H;
  repeat match goal with |- context [map_find (views g ?p) k] => rewrite (inv_find_absent home g p k I) by (rewrite H; discriminate) end;
  destruct (map_find (views g _) k); reflexivity.
Qed.
Lemma change_views home g oid f : INV home g -> forall p, views (change_view g oid f) p = map (on_key oid f) (views g p).
Proof.
  intros I p. unfold change_view. rewrite (place_holding_home home) by exact I. destruct (map_find (views g (home oid)) oid) as [v|] eqn:F.
  - cbn [views with_views]. destruct (place_dec p (home oid)) as [->|N]; [rewrite place_eqb_refl; reflexivity|]. rewrite place_eqb_neq by exact N.
    symmetry. apply on_key_absent, (inv_absent home); [exact I|congruence].
  - symmetry. apply on_key_absent. destruct (place_dec p (home oid)) as [->|N]; [apply find_none; exact F|apply (inv_absent home); [exact I|congruence]].
Qed.
Definition same_place (v w : gview) : Prop := vid w = vid v /\ kind w = kind v /\ ntf w = ntf v.
Lemma same_place_of v w : same_place v w -> place_of w = place_of v.
Proof. intros (A & B & C). unfold place_of. rewrite B, C. reflexivity. Qed.
Lemma inv_change home g oid f : INV home g -> (forall v, same_place v (f v)) -> INV home (change_view g oid f).
Proof.
  intros I S p. rewrite (change_views home) by exact I. rewrite on_key_fst. destruct (I p) as (D & F). split; [exact D|].
  intros k v H. apply in_map_iff in H. destruct H as ((j, w) & E & H). apply F in H. unfold on_key in E. cbn in E. destruct (j =? oid); inversion E; subst; [|exact H].
  pose proof (S w) as Sw. rewrite (same_place_of w (f w) Sw). destruct Sw as (A & _). rewrite A. exact H.
Qed.
Lemma change_code g oid f : gcode (change_view g oid f) = gcode g /\ tal (change_view g oid f) = tal g /\ dcy (change_view g oid f) = dcy g.
Proof. unfold change_view. destruct (place_holding g oid); repeat split. Qed.

(** ** What each operation does *)
Definition same_core (g g' : group) : Prop := gcode g' = gcode g /\ tal g' = tal g /\ dcy g' = dcy g /\ pend g' = pend g.
Lemma active_is g v : should_be_active g v = is_active_pgm g (vw v).
Proof. reflexivity. Qed.
Definition right_ctl (g : group) (v : gview) : Prop := is_program (kind v) = true -> ctl v = Some (is_active_pgm g (vw v)).
Lemma arrive_core g p k v : same_core g (with_views g p (map_set (views g p) k v)).
Proof. repeat split. Qed.
Lemma same_core_newly g g' l : same_core g g' -> same_core g (with_newly g' l).
Proof. intros H. exact H. Qed.
Definition arrived (home : Z -> place) (g g' : group) (k : Z) (o : gop) : Prop :=
  exists v, vid v = k /\ place_of v = Some (home k) /\
    (forall p, views g' p = if place_eqb p (home k) then map_set (views g p) k v else views g p) /\ same_core g g' /\
    (equipped o -> (is_program (kind v) = true -> ctl v <> None) /\ (flt (get g ActThr) fzero = false -> right_ctl g v)).
Lemma right_both g v (X : Prop) : right_ctl g v -> (is_program (kind v) = true -> ctl v <> None) /\ (X -> right_ctl g v).
Proof. intros R. split; [|intros _; exact R]. intros K. rewrite (R K). discriminate. Qed.
Lemma arrived_set home g p j k v o : p = home k -> j = k -> vid v = k -> place_of v = Some p ->
  (equipped o -> (is_program (kind v) = true -> ctl v <> None) /\ (flt (get g ActThr) fzero = false -> right_ctl g v)) ->
  arrived home g (with_views g p (map_set (views g p) j v)) k o.
Proof.
  intros -> -> V P R. exists v. split; [exact V|]. split; [exact P|]. split; [|split; [repeat split|exact R]].
  intros p. cbn [views with_views]. destruct (place_dec p (home k)) as [->|N]; [rewrite place_eqb_refl; reflexivity|rewrite place_eqb_neq by exact N; reflexivity].
Qed.
Lemma arrived_salient home g g' k o b l : arrived home g g' k o -> arrived home g (if b : bool then with_newly g' l else g') k o.
Proof. intros H. destruct b; [|exact H]. destruct H as (v & A & B & C & D & E). exists v. split; [exact A|]. split; [exact B|]. split; [exact C|]. split; [exact D|exact E]. Qed.
Lemma not_program v g : is_program (kind v) = false -> right_ctl g v.
Proof. intros H Q. congruence. Qed.
Lemma home_of home v : belongs false (kind v) (home (vid v)) -> ntf v = false -> place_of v = Some (home (vid v)).
Proof. intros B N. apply belongs_place. rewrite N. exact B. Qed.
Lemma place_with_ctl v c : place_of (with_ctl v c) = place_of v.
Proof. reflexivity. Qed.
Lemma placed v p : ntf v = false -> belongs false (kind v) p -> place_of v = Some p.
Proof. intros N B. apply belongs_place. rewrite N. exact B. Qed.
Lemma load_arrives home g v made : proper home (LoadView v made) -> arrived home g (load g v made) (vid v) (LoadView v made).
Proof.
  intros (N & L & B). pose proof (placed v _ N B) as P. pose proof P as P'. unfold place_of in P. rewrite N in P. unfold load.
  destruct L as [L|[L|[L|[L|[L|[L|[L|[L|[L|[]]]]]]]]]]; rewrite <- L in *; cbn in P; injection P as P; rewrite <- P in P'; cbn -[c_active c_salient get map_set with_views].
  1:{ destruct (c_active g && c_salient g && flt (get g VisThr) (get_vis (vw v)));
      (apply arrived_set; [exact P|reflexivity|reflexivity|exact P'|intros _; apply right_both, not_program; cbn; rewrite <- L; reflexivity]). }
  1-3,5-6: apply arrived_set; [exact P|reflexivity|reflexivity|exact P'|intros _; apply right_both; intros _; reflexivity].
  1:{ apply arrived_set; [exact P|reflexivity|destruct made; reflexivity|destruct made; exact P'|]. intros Q. apply right_both. cbn in Q. rewrite Q by (symmetry; exact L). intros _. reflexivity. }
  all: apply arrived_set; [exact P|reflexivity|reflexivity|exact P'|intros _; apply right_both, not_program; rewrite <- L; reflexivity].
Qed.
Lemma inject_arrives home g v made t : proper home (Inject v made t) -> arrived home g (inject g v made t) (vid v) (Inject v made t).
Proof.
  intros (N & L & B). pose proof (placed v _ N B) as P. pose proof P as P'. unfold place_of in P. rewrite N in P. unfold inject.
  destruct L as [L|[L|[L|[L|[L|[L|[L|[L|[L|[]]]]]]]]]]; cbn [kind with_ijt]; rewrite <- L in *; cbn in P; injection P as P; rewrite <- P in P'; cbn -[is_active_pgm is_eligible_input map_set with_views with_newly with_ijt with_ctl].
  1:{ apply arrived_salient. apply arrived_set; [exact P|reflexivity|destruct (is_active_pgm g (vw (with_ijt v t))); reflexivity|destruct (is_active_pgm g (vw (with_ijt v t))); exact P'|]. intros (_ & Q). apply right_both. intros _. cbn [vw with_ijt] in *.
      destruct (is_active_pgm g (vw v)) eqn:A; cbn [ctl with_ctl with_ijt vw]; rewrite Q by (symmetry; exact L); rewrite A; reflexivity. }
  4:{ destruct made; [apply arrived_salient|]; (apply arrived_set; [exact P|reflexivity|reflexivity|exact P'|]); intros (Q & _); apply right_both; intros _; [reflexivity|]. specialize (Q (eq_sym L)). discriminate. }
  1-5: apply arrived_salient, arrived_set; [exact P|reflexivity|reflexivity|exact P'|intros _; apply right_both; intros _; reflexivity].
  all: apply arrived_salient, arrived_set; [exact P|reflexivity|reflexivity|exact P'|intros _; apply right_both, not_program; cbn; rewrite <- L; reflexivity].
Qed.
Lemma arrival home g o k g' : proper home o -> brings o = Some k -> run_gop g o = Some g' -> arrived home g g' k o.
Proof.
  intros P B R. destruct o; try discriminate; cbn [brings] in B; injection B as <-; cbn [run_gop] in R; injection R as <-.
  - apply load_arrives; exact P.
  - apply inject_arrives; exact P.
  - destruct P as (N & K & H). unfold inject_hlp. assert (Q : (kind (with_ijt v now) =? COMPOSITE_STATE) || (kind (with_ijt v now) =? MODEL) = true) by (cbn [kind with_ijt]; destruct K as [<-|[<-|[]]]; reflexivity).
    rewrite Q. apply arrived_set; [symmetry; exact H|reflexivity|reflexivity| |intros _; apply right_both; intros _; reflexivity]. unfold place_of. cbn [ntf kind with_ijt with_ctl]. rewrite N. destruct K as [<-|[<-|[]]]; reflexivity.
  - destruct P as (N & K & H). unfold inject_group. destruct (c_salient g && flt (get g SlnThr) (get_sln (vw v)) && flt (get g VisThr) (get_vis (vw v)));
    (apply arrived_set; [symmetry; exact H|reflexivity|reflexivity| |intros _; apply right_both, not_program; cbn; rewrite K; reflexivity]); unfold place_of; cbn [ntf kind with_seen]; rewrite N, K; reflexivity.
  - destruct P as (N & H). unfold inject_notification. apply arrived_set; [symmetry; exact H|reflexivity|reflexivity| |intros E; apply right_both, not_program; exact E]. unfold place_of. cbn [ntf with_ijt]. rewrite N. reflexivity.
  - destruct P as (N & K & H). unfold load_secondary. apply arrived_set; [symmetry; exact H|reflexivity|reflexivity| |].
    + unfold place_of. cbn [ntf kind]. rewrite N, K. reflexivity.
    + intros _. split; [discriminate|]. intros T _. cbn [ctl vw]. unfold is_active_pgm. f_equal. symmetry. rewrite andb_false_iff. left. rewrite andb_false_iff. left.
      unfold get_act, word. cbn [vcode reset with_word].
      destruct (Nat.lt_ge_cases VIEW_ACT (length (vcode (vw v)))) as [LT|GE].
      * rewrite put_same by exact LT. replace (num (of_num fzero)) with fzero by (vm_compute; reflexivity). exact T.
      * rewrite nth_overflow by (rewrite put_length; exact GE). replace (num 0) with fzero by (vm_compute; reflexivity). exact T.
Qed.

(** ** What an update does *)

(** The views are the same, up to pending changes and monitoring. *)
Definition quiet (v w : gview) : Prop :=
  same_place v w /\ ijt w = ijt v /\ ctl w = ctl v /\ seen w = seen v /\ vcode (vw w) = vcode (vw v).
Definition quiet_kv (a b : Z * gview) : Prop := fst b = fst a /\ quiet (snd a) (snd b).
Definition quiet_group (g g' : group) : Prop := forall p, Forall2 quiet_kv (views g p) (views g' p).
Lemma quiet_refl v : quiet v v.
Proof. repeat split. Qed.
Lemma quiet_trans a b c : quiet a b -> quiet b c -> quiet a c.
Proof. intros ((A & B & C) & D & E & F & G) ((A' & B' & C') & D' & E' & F' & G'). repeat split; congruence. Qed.
Lemma quiet_map m m' : Forall2 quiet_kv m m' -> map fst m' = map fst m.
Proof. induction 1 as [|a b m m' (H & _) _ IH]; [reflexivity|]. cbn. rewrite H, IH. reflexivity. Qed.
Lemma quiet_kv_refl m : Forall2 quiet_kv m m.
Proof. induction m; constructor; [split; [reflexivity|apply quiet_refl]|assumption]. Qed.
Lemma quiet_kv_trans a b c : Forall2 quiet_kv a b -> Forall2 quiet_kv b c -> Forall2 quiet_kv a c.
Proof.
  intros H. revert c. induction H as [|x y a b (K & Q) _ IH]; intros c H2; inversion H2 as [|? z ? c' (K' & Q') T]; subst; constructor; [|apply IH; exact T].
  split; [congruence|apply (quiet_trans _ (snd y)); assumption].
Qed.
Lemma quiet_in a b k w : Forall2 quiet_kv a b -> In (k, w) b -> exists v, In (k, v) a /\ quiet v w.
Proof.
  induction 1 as [|(i, v) (j, u) a b (K & Q) _ IH]; [contradiction|]. cbn in K, Q. intros [E|I].
  - inversion E; subst. exists v. split; [left; reflexivity|exact Q].
  - destruct (IH I) as (x & A & B). exists x. split; [right; exact A|exact B].
Qed.
Lemma quiet_in_back a b k v : Forall2 quiet_kv a b -> In (k, v) a -> exists w, In (k, w) b /\ quiet v w.
Proof.
  induction 1 as [|(i, x) (j, u) a b (K & Q) _ IH]; [contradiction|]. cbn in K, Q. intros [E|I].
  - inversion E; subst. exists u. split; [left; reflexivity|exact Q].
  - destruct (IH I) as (y & A & B). exists y. split; [right; exact A|exact B].
Qed.
Lemma inv_quiet home g g' : quiet_group g g' -> INV home g -> INV home g'.
Proof.
  intros Q I p. destruct (I p) as (D & F). rewrite (quiet_map _ _ (Q p)). split; [exact D|]. intros k w H.
  destruct (quiet_in _ _ _ _ (Q p) H) as (v & A & (S & _)). apply F in A. rewrite (same_place_of v w S). destruct S as (-> & _). exact A.
Qed.
Lemma quiet_change home g oid f : INV home g -> (forall v, quiet v (f v)) -> quiet_group g (change_view g oid f).
Proof.
  intros I Q p. rewrite (change_views home) by exact I. induction (views g p) as [|(k, v) m IH]; cbn; constructor; [|exact IH].
  unfold on_key. cbn. destruct (k =? oid); (split; [reflexivity|]); [apply Q|apply quiet_refl].
Qed.
Lemma view_mod_code v i x : vcode (view_mod v i x) = vcode v.
Proof. unfold view_mod, mod_res. repeat match goal with |- context [if ?b then _ else _] => destruct b end; reflexivity. Qed.
Lemma view_set_code v i x : vcode (view_set v i x) = vcode v.
Proof. unfold view_set, set_res. repeat match goal with |- context [if ?b then _ else _] => destruct b end; reflexivity. Qed.
Lemma quiet_execute home g o : INV home g -> quiet_group g (execute g o).
Proof.
  intros I. destruct o; cbn [execute]; apply (quiet_change home); try exact I; intros v; (split; [repeat split|]); repeat split; cbn [vw with_vw]; [apply view_mod_code|apply view_set_code].
Qed.
Lemma execute_code g o : gcode (execute g o) = gcode g /\ tal (execute g o) = tal g /\ dcy (execute g o) = dcy g.
Proof. destruct o; cbn [execute]; apply change_code. Qed.
Lemma change_misc g oid f : mon_sln (change_view g oid f) = mon_sln g /\ mon_act (change_view g oid f) = mon_act g /\ newly (change_view g oid f) = newly g /\ new_ctl (change_view g oid f) = new_ctl g.
Proof. unfold change_view. destruct (place_holding g oid); repeat split. Qed.
Lemma quiet_pending home l : forall g, INV home g -> quiet_group g (fold_left execute l g) /\ INV home (fold_left execute l g) /\
  gcode (fold_left execute l g) = gcode g /\ tal (fold_left execute l g) = tal g /\ dcy (fold_left execute l g) = dcy g.
Proof.
  induction l as [|o l IH]; intros g I; cbn [fold_left].
  - split; [intros p; apply quiet_kv_refl|]. split; [exact I|repeat split].
  - pose proof (quiet_execute home g o I) as Q. pose proof (inv_quiet home _ _ Q I) as I'. destruct (IH _ I') as (Q' & I'' & A & B & C). destruct (execute_code g o) as (A' & B' & C').
    split; [intros p; apply (quiet_kv_trans _ (views (execute g o) p)); [apply Q|apply Q']|]. split; [exact I''|]. repeat split; congruence.
Qed.
(** Before the loop. *)
Lemma update_param_views g p : views (update_param g p) = views g.
Proof. unfold update_param. destruct (changes (tal g p) =? 0); reflexivity. Qed.
Lemma update_sln_thr_views u g : views (update_sln_thr u g) = views g.
Proof. unfold update_sln_thr. rewrite update_param_views. destruct (_ && _); reflexivity. Qed.
Definition settled (u : Z) (g : group) : group := update_c_sln (update_c_act (update_vis_thr (update_act_thr (update_sln_thr u g)))).
Definition executed (g : group) : group := with_pend (fold_left execute (pend g) (with_newly g [])) [].
Lemma begin_split e g : exists a b, fst (update_begin e g) = with_mon (settled (ub e) (executed g)) a b.
Proof. unfold update_begin. cbn zeta. eexists. eexists. cbn [fst]. unfold settled, executed. reflexivity. Qed.
Lemma views_mon g a b : views (with_mon g a b) = views g.
Proof. reflexivity. Qed.
Lemma views_pend g l : views (with_pend g l) = views g.
Proof. reflexivity. Qed.
Lemma settled_views u g : views (settled u g) = views g.
Proof. unfold settled, update_act_thr, update_vis_thr, update_c_act, update_c_sln. rewrite !update_param_views. apply update_sln_thr_views. Qed.
Lemma begin_views e g : views (fst (update_begin e g)) = views (fold_left execute (pend g) (with_newly g [])).
Proof.
  destruct (begin_split e g) as (a & b & E). rewrite E, views_mon, settled_views. apply views_pend.
Qed.
Lemma begin_quiet home e g : INV home g -> quiet_group g (fst (update_begin e g)) /\ INV home (fst (update_begin e g)).
Proof.
  intros I. assert (I' : INV home (with_newly g [])) by exact I. destruct (quiet_pending home (pend g) _ I') as (Q & J & _).
  split; [intros p; rewrite begin_views; exact (Q p)|]. intros p. rewrite begin_views. apply J.
Qed.

(** One view. *)
Lemma res_code g v p : let '(w, _, _) := g_update_res g v p in same_place v w /\ ijt w = ijt v /\ ctl w = ctl v /\ seen w = seen v.
Proof. unfold g_update_res. destruct (update_res (vw v)) as (w, r). repeat split. Qed.
Lemma g_update_sln_frame g v p : let '(w, _, q) := g_update_sln g v p in same_place v w /\ ijt w = ijt v /\ ctl w = ctl v /\ seen w = seen v /\ p_new_ctl q = p_new_ctl p.
Proof.
  unfold g_update_sln. destruct (update_sln _ _ _) as (w, r). destruct (ntf v) eqn:N; [repeat split|]. destruct (feqb _ _); [repeat split|]. destruct (feqb _ _); repeat split.
Qed.
Lemma sln_frame e g s v p : let '(w, q) := _update_saliency e g s v p in same_place v w /\ ctl w = ctl v /\ seen w = seen v /\ p_new_ctl q = p_new_ctl p.
Proof.
  unfold _update_saliency. pose proof (g_update_sln_frame g v p) as F. destruct (g_update_sln g v p) as ((w, r), q). destruct F as (A & B & C & D & E).
  destruct (is_c_salient s); [|split; [exact A|auto]].
  destruct (flt (get g SlnThr) r); [destruct (_ || _ || _); [destruct (flt (former_sln_thr s) (get_sln (vw v)))|destruct (_ || _)]|]; destruct (is_c_active s); (split; [exact A|]; split; [exact C|]; split; [exact D|exact E]).
Qed.
Lemma g_update_act_frame g v p : let '(w, _, q) := g_update_act g v p in same_place v w /\ ijt w = ijt v /\ ctl w = ctl v /\ seen w = seen v /\ p_new_ctl q = p_new_ctl p.
Proof.
  unfold g_update_act. destruct (update_act _ _ _) as (w, r). destruct (ntf v) eqn:N; [repeat split|]. destruct (feqb _ _); [repeat split|]. destruct (feqb _ _); repeat split.
Qed.
Lemma vis_frame g s v : same_place v (_update_visibility g s v) /\ ctl (_update_visibility g s v) = ctl v.
Proof.
  unfold _update_visibility. destruct (update_vis (vw v)) as (w, r). cbn zeta.
  destruct (was_c_active s && was_c_salient s); [destruct (negb (is_c_active s) || negb (is_c_salient s)); [repeat split|]; destruct (negb (flt _ _)); [destruct (flt _ _); repeat split|destruct (negb (flt _ _)); repeat split]|].
  destruct (is_c_active s && is_c_salient s); [destruct (flt _ _)|]; repeat split.
Qed.
Lemma act_frame g s v p w q : _update_activation g s v p = Some (w, q) -> same_place v w /\ seen w = seen v.
Proof.
  unfold _update_activation. pose proof (g_update_act_frame g v p) as F. destruct (g_update_act g v p) as ((u, r), t). destruct F as (A & B & C & D & E).
  assert (K : forall x, Some (with_ctl u (Some x), q) = Some (w, q) -> same_place v w /\ seen w = seen v).
  { intros x H. injection H as <-. split; [exact A|exact D]. }
  destruct (was_c_active s && was_c_salient s); [destruct (negb (is_c_active s) || negb (is_c_salient s))|destruct (is_c_active s && is_c_salient s)]; repeat match goal with |- context [if ?b then _ else _] => destruct b end;
  destruct (ctl u); intros H; try discriminate; injection H as <- <-; (split; [exact A|exact D]).
Qed.
Lemma visit_frame e g s pl v p w q : visit e g s pl v p = Some (Some w, q) -> same_place v w.
Proof.
  unfold visit. destruct (invalid e (vid v)); [destruct (place_of v) as [x|]; [destruct (place_eqb x pl)|]; discriminate|].
  destruct (planned e <=? ijt v); [intros H; injection H as <- <-; repeat split|].
  pose proof (res_code g v p) as R. destruct (g_update_res g v p) as ((u, r), t). destruct R as (R & _).
  destruct (flt fzero r); [|destruct (place_of v) as [x|]; [destruct (place_eqb x pl)|]; discriminate].
  pose proof (sln_frame e g s u t) as F. destruct (_update_saliency e g s u t) as (u', t'). destruct F as (F & _).
  assert (T : forall x, same_place u' x -> same_place v x).
  { intros x (A & B & C). destruct R as (A' & B' & C'), F as (A'' & B'' & C''). repeat split; congruence. }
  destruct (kind u' =? GROUP); [intros H; injection H as <- <-; apply T, vis_frame|].
  destruct (is_program (kind u')); [|intros H; injection H as <- <-; apply T; repeat split].
  destruct (_update_activation g s u' t') as [(x, y)|] eqn:A; [|discriminate]. intros H. injection H as <- <-. apply act_frame in A. apply T, A.
Qed.
Lemma visit_defined e g s pl v p : place_of v = Some pl -> (is_program (kind v) = true -> ctl v <> None) -> visit e g s pl v p <> None.
Proof.
  intros P C. unfold visit. rewrite P, place_eqb_refl. destruct (invalid e (vid v)); [discriminate|]. destruct (planned e <=? ijt v); [discriminate|].
  pose proof (res_code g v p) as R. destruct (g_update_res g v p) as ((u, r), t). destruct R as ((_ & R & _) & _ & C1 & _).
  destruct (flt fzero r); [|discriminate]. pose proof (sln_frame e g s u t) as F. destruct (_update_saliency e g s u t) as (u', t'). destruct F as ((_ & F & _) & C2 & _).
  destruct (kind u' =? GROUP); [discriminate|]. destruct (is_program (kind u')) eqn:K; [|discriminate]. rewrite F, R in K. specialize (C K).
  assert (C' : ctl u' <> None) by congruence. unfold _update_activation. pose proof (g_update_act_frame g u' t') as A. destruct (g_update_act g u' t') as ((x, y), z). destruct A as (_ & _ & A & _).
  rewrite <- A in C'. destruct (ctl x); [|contradiction].
  repeat match goal with |- context [if ?b then _ else _] => destruct b end; discriminate.
Qed.

(** All the views of a collection, then all the collections. *)
Lemma visit_all_in e g s pl m : forall p m' p', visit_all e g s pl m p = Some (m', p') ->
  (forall k w, In (k, w) m' -> exists v q q', In (k, v) m /\ visit e g s pl v q = Some (Some w, q')).
Proof.
  induction m as [|(j, u) m IH]; intros p m' p' H k w I; cbn [visit_all] in H; [injection H as <- <-; contradiction|].
  destruct (visit e g s pl u p) as [(r, t)|] eqn:V; [|discriminate]. destruct (visit_all e g s pl m t) as [(m2, t2)|] eqn:A; [|discriminate]. injection H as <- <-.
  destruct r as [x|].
  - destruct I as [E|I]; [inversion E; subst; exists u, p, t; split; [left; reflexivity|exact V]|]. destruct (IH _ _ _ A k w I) as (v & q & q' & B & C). exists v, q, q'. split; [right; exact B|exact C].
  - destruct (IH _ _ _ A k w I) as (v & q & q' & B & C). exists v, q, q'. split; [right; exact B|exact C].
Qed.
Lemma visit_all_keys e g s pl m : forall p m' p', visit_all e g s pl m p = Some (m', p') -> forall k, In k (map fst m') -> In k (map fst m).
Proof.
  intros p m' p' H k I. apply in_map_iff in I. destruct I as ((j, w) & E & I). cbn in E. subst j. destruct (visit_all_in _ _ _ _ _ _ _ _ H k w I) as (v & _ & _ & A & _).
  apply (in_map fst) in A. exact A.
Qed.
Lemma visit_all_nodup e g s pl m : forall p m' p', visit_all e g s pl m p = Some (m', p') -> NoDup (map fst m) -> NoDup (map fst m').
Proof.
  induction m as [|(j, u) m IH]; intros p m' p' H N; cbn [visit_all] in H; [injection H as <- <-; constructor|].
  destruct (visit e g s pl u p) as [(r, t)|] eqn:V; [|discriminate]. destruct (visit_all e g s pl m t) as [(m2, t2)|] eqn:A; [|discriminate]. injection H as <- <-.
  inversion N as [|? ? NI ND]; subst. destruct r as [x|]; [|apply (IH _ _ _ A ND)]. cbn. constructor; [|apply (IH _ _ _ A ND)].
  intros I. apply NI, (visit_all_keys _ _ _ _ _ _ _ _ A), I.
Qed.
Lemma visit_all_out e g s pl m : forall p m' p', visit_all e g s pl m p = Some (m', p') -> NoDup (map fst m) ->
  forall k v, In (k, v) m -> exists q q' r, visit e g s pl v q = Some (r, q') /\ match r with Some w => In (k, w) m' | None => ~ In k (map fst m') end.
Proof.
  induction m as [|(j, u) m IH]; intros p m' p' H N k v I; cbn [visit_all] in H; [contradiction|].
  destruct (visit e g s pl u p) as [(r, t)|] eqn:V; [|discriminate]. destruct (visit_all e g s pl m t) as [(m2, t2)|] eqn:A; [|discriminate]. injection H as <- <-.
  inversion N as [|? ? NI ND]; subst. destruct I as [E|I].
  - inversion E; subst. exists p, t, r. split; [exact V|]. destruct r as [x|]; [left; reflexivity|]. intros Q. apply NI, (visit_all_keys _ _ _ _ _ _ _ _ A), Q.
  - destruct (IH _ _ _ A ND k v I) as (q & q' & r' & B & C). exists q, q', r'. split; [exact B|]. destruct r' as [w|].
    + destruct r; [right; exact C|exact C].
    + destruct r; [|exact C]. cbn. intros [->|Q]; [|contradiction]. apply NI. apply (in_map fst) in I. exact I.
Qed.
Lemma visit_all_defined e g s pl m : forall p, (forall k v, In (k, v) m -> place_of v = Some pl /\ (is_program (kind v) = true -> ctl v <> None)) -> visit_all e g s pl m p <> None.
Proof.
  induction m as [|(j, u) m IH]; intros p H; cbn [visit_all]; [discriminate|]. destruct (H j u (or_introl eq_refl)) as (A & B). pose proof (visit_defined e g s pl u p A B) as D.
  destruct (visit e g s pl u p) as [(r, t)|]; [|contradiction]. pose proof (IH t (fun k v I => H k v (or_intror I))) as E. destruct (visit_all e g s pl m t) as [(m2, t2)|]; [discriminate|contradiction].
Qed.
Lemma visit_with e g q m s pl v p : visit e (with_views g q m) s pl v p = visit e g s pl v p.
Proof. reflexivity. Qed.
Lemma visit_all_with e g q m s pl l : forall p, visit_all e (with_views g q m) s pl l p = visit_all e g s pl l p.
Proof. induction l as [|(j, u) l IH]; intros p; cbn [visit_all]; [reflexivity|]. rewrite visit_with. destruct (visit e g s pl u p) as [(r, t)|]; [|reflexivity]. rewrite IH. reflexivity. Qed.
Definition rest_same (g g' : group) : Prop :=
  gcode g' = gcode g /\ tal g' = tal g /\ dcy g' = dcy g /\ mon_sln g' = mon_sln g /\ mon_act g' = mon_act g /\ pend g' = pend g /\ newly g' = newly g /\ new_ctl g' = new_ctl g.
Lemma visit_places_spec e s pls : forall g p g' p', NoDup pls -> visit_places e g s pls p = Some (g', p') ->
  rest_same g g' /\ (forall pl, ~ In pl pls -> views g' pl = views g pl) /\
  (forall pl, In pl pls -> exists q q', visit_all e g s pl (views g pl) q = Some (views g' pl, q')).
Proof.
  induction pls as [|a pls IH]; intros g p g' p' N H; cbn [visit_places] in H.
  - injection H as <- <-. split; [repeat split|]. split; [reflexivity|contradiction].
  - destruct (visit_all e g s a (views g a) p) as [(m, t)|] eqn:V; [|discriminate]. inversion N as [|? ? NI ND]; subst. destruct (IH _ _ _ _ ND H) as (R & A & B). split; [exact R|]. split.
    + intros pl Q. rewrite A by (intros X; apply Q; right; exact X). cbn [views with_views]. rewrite place_eqb_neq; [reflexivity|]. intros ->. apply Q. left. reflexivity.
    + intros pl [<-|Q].
      * exists p, t. rewrite A by exact NI. cbn [views with_views]. rewrite place_eqb_refl. exact V.
      * destruct (B pl Q) as (q & q' & C). exists q, q'. rewrite visit_all_with in C. cbn [views with_views] in C. rewrite place_eqb_neq in C; [exact C|]. intros ->. contradiction.
Qed.
Lemma visit_places_defined e s pls : forall g p, NoDup pls -> (forall pl k v, In pl pls -> In (k, v) (views g pl) -> place_of v = Some pl /\ (is_program (kind v) = true -> ctl v <> None)) -> visit_places e g s pls p <> None.
Proof.
  induction pls as [|a pls IH]; intros g p N H; cbn [visit_places]; [discriminate|]. inversion N as [|? ? NI ND]; subst.
  pose proof (visit_all_defined e g s a (views g a) p (fun k v => H a k v (or_introl eq_refl))) as D. destruct (visit_all e g s a (views g a) p) as [(m, t)|] eqn:V; [|contradiction].
  apply (IH _ _ ND). intros q k v Q. cbn [views with_views]. rewrite place_eqb_neq; [apply H; right; exact Q|]. intros ->. contradiction.
Qed.
Lemma order_nodup : NoDup order.
Proof. unfold order. repeat constructor; cbn; intuition discriminate. Qed.
Lemma in_order p : In p order.
Proof. destruct p; cbn; auto 10. Qed.

(** The statistics. *)
Lemma watch_quiet delta n thr m : (forall v, vcode (fst (delta v)) = vcode v) -> Forall2 quiet_kv m (fst (watch delta n thr m)).
Proof.
  intros D. induction m as [|(k, v) m IH]; cbn; [constructor|]. unfold watch in IH. destruct (delta (vw v)) as (w, d) eqn:E. cbn. constructor; [|exact IH].
  split; [reflexivity|]. cbn. split; [repeat split|]. repeat split. cbn. pose proof (D (vw v)) as X. rewrite E in X. exact X.
Qed.
Lemma watch_places_quiet delta n thr pls : (forall v, vcode (fst (delta v)) = vcode v) -> forall g, quiet_group g (fst (watch_places delta n thr g pls)) /\ rest_same g (fst (watch_places delta n thr g pls)).
Proof.
  intros D. induction pls as [|a pls IH]; intros g; cbn [watch_places]; [split; [intros p; apply quiet_kv_refl|repeat split]|].
  pose proof (watch_quiet delta n thr (views g a) D) as W. destruct (watch delta n thr (views g a)) as (m, l). cbn [fst] in W.
  destruct (IH (with_views g a m)) as (Q & R). destruct (watch_places delta n thr (with_views g a m) pls) as (g', l'). cbn [fst] in *. split; [|exact R].
  intros p. apply (quiet_kv_trans _ (views (with_views g a m) p)); [|apply Q]. cbn [views with_views]. destruct (place_dec p a) as [->|N]; [rewrite place_eqb_refl; exact W|rewrite place_eqb_neq by exact N; apply quiet_kv_refl].
Qed.
Lemma gput_get g i x q : gindex q <> i -> get (gput g i x) q = get g q.
Proof. intros N. unfold get, gnum, gput. cbn [gcode with_code]. rewrite put_other by (intros H; apply N; congruence). reflexivity. Qed.
Definition stats_words (g : group) (p : progress) : list Z :=
  put (put (put (put (put (put (gcode g) GRP_AVG_SLN (of_num (mean_stat (st_sln p)))) GRP_AVG_ACT (of_num (mean_stat (st_act p))))
    GRP_HIGH_SLN (of_num (high (st_sln p)))) GRP_LOW_SLN (of_num (low (st_sln p)))) GRP_HIGH_ACT (of_num (high (st_act p)))) GRP_LOW_ACT (of_num (low (st_act p))).
Lemma update_stats_spec e g p : let '(g', _) := update_stats e g p in
  quiet_group g g' /\ gcode g' = stats_words g p /\ tal g' = tal g /\ pend g' = pend g /\
  dcy g' = mkdecay (sln_decay (dcy g)) (thr_decay (dcy g)) (step_decay (ub e) g) (percentage (dcy g)) (target (dcy g)) /\
  mon_sln g' = mon_sln g /\ mon_act g' = mon_act g /\ newly g' = newly g /\ new_ctl g' = new_ctl g.
Proof.
  unfold update_stats. cbn zeta. unfold gput.
  set (g0 := with_code _ (put _ GRP_LOW_ACT _)).
  assert (H0 : quiet_group g g0) by (intros q; apply quiet_kv_refl).
  assert (A : exists g1 l1, (if mon_sln g0 =? 0 then watch_places update_sln_delta SlnChg (gnum g0 GRP_SLN_CHG_THR) g0 non_ntf else (g0, [])) = (g1, l1) /\ quiet_group g0 g1 /\ rest_same g0 g1).
  { destruct (mon_sln g0 =? 0).
    - destruct (watch_places_quiet update_sln_delta SlnChg (gnum g0 GRP_SLN_CHG_THR) non_ntf (fun v => eq_refl) g0) as (Q & R).
      destruct (watch_places _ _ _ g0 _) as (g1, l1). exists g1, l1. auto.
    - exists g0, []. split; [reflexivity|]. split; [intros q; apply quiet_kv_refl|repeat split]. }
  destruct A as (g1 & l1 & -> & Q1 & R1).
  assert (A : exists g2 l2, (if mon_act g1 =? 0 then watch_places update_act_delta ActChg (gnum g1 GRP_ACT_CHG_THR) g1 non_ntf else (g1, [])) = (g2, l2) /\ quiet_group g1 g2 /\ rest_same g1 g2).
  { destruct (mon_act g1 =? 0).
    - destruct (watch_places_quiet update_act_delta ActChg (gnum g1 GRP_ACT_CHG_THR) non_ntf (fun v => eq_refl) g1) as (Q & R).
      destruct (watch_places _ _ _ g1 _) as (g2, l2). exists g2, l2. auto.
    - exists g1, []. split; [reflexivity|]. split; [intros q; apply quiet_kv_refl|repeat split]. }
  destruct A as (g2 & l2 & -> & Q2 & R2).
  destruct R1 as (a1 & a2 & a3 & a4 & a5 & a6 & a7 & a8), R2 as (b1 & b2 & b3 & b4 & b5 & b6 & b7 & b8).
  split; [|split; [rewrite b1, a1; reflexivity|]; split; [rewrite b2, a2; reflexivity|]; split; [rewrite b6, a6; reflexivity|]; split; [rewrite b3, a3; reflexivity|];
    split; [rewrite b4, a4; reflexivity|]; split; [rewrite b5, a5; reflexivity|]; split; [rewrite b7, a7; reflexivity|rewrite b8, a8; reflexivity]].
  intros q. apply (quiet_kv_trans _ (views g0 q)); [apply H0|]. apply (quiet_kv_trans _ (views g1 q)); [apply Q1|apply Q2].
Qed.
Lemma stats_get g p g' q : gcode g' = stats_words g p -> get g' q = get g q.
Proof. intros H. unfold get, gnum. rewrite H. unfold stats_words. repeat rewrite put_other by (destruct q; vm_compute; discriminate). reflexivity. Qed.

(** The whole update. *)
Lemma update_split e g g' out : update e g = Some (g', out) ->
  exists g1 s g2 p x l, update_begin e g = (g1, s) /\ visit_places e g1 s order (mkprog no_stats no_stats (newly g1) (new_ctl g1) [] []) = Some (g2, p) /\
    x = (if is_c_active s && is_c_salient s then [] else p_new_ctl p) /\
    update_stats e (with_new_ctl (with_newly g2 (p_newly p)) x) p = (g', l) /\
    out = mkout (notes p ++ l) (spread p) (if is_c_active s && is_c_salient s then p_new_ctl p else []) (p_newly p).
Proof.
  unfold update. destruct (update_begin e g) as (g1, s). destruct (visit_places e g1 s order _) as [(g2, p)|] eqn:V; [|discriminate]. cbn zeta.
  destruct (update_stats e _ p) as (g4, l) eqn:S. intros H. injection H as <- <-. exists g1, s, g2, p. eexists. exists l. split; [reflexivity|]. split; [exact V|]. split; [reflexivity|]. split; [exact S|reflexivity].
Qed.
Lemma get_with_newly g l x q : get (with_new_ctl (with_newly g l) x) q = get g q.
Proof. reflexivity. Qed.
Lemma views_with_newly g l x : views (with_new_ctl (with_newly g l) x) = views g.
Proof. reflexivity. Qed.
Lemma update_spec home e g g' out : INV home g -> update e g = Some (g', out) ->
  exists g1 s, update_begin e g = (g1, s) /\ quiet_group g g1 /\ INV home g1 /\ (forall q, get g' q = get g1 q) /\
    (forall pl, exists q q' m, visit_all e g1 s pl (views g1 pl) q = Some (m, q') /\ Forall2 quiet_kv m (views g' pl)).
Proof.
  intros I U. destruct (update_split e g g' out U) as (g1 & s & g2 & p & x & l & B & V & X & S & _). clear U. destruct (begin_quiet home e g I) as (Q & I1). rewrite B in Q, I1. cbn [fst] in Q, I1.
  exists g1, s. split; [exact B|]. split; [exact Q|]. split; [exact I1|].
  destruct (visit_places_spec _ _ _ _ _ _ _ order_nodup V) as (R & _ & W). clear V X.
  pose proof (update_stats_spec e (with_new_ctl (with_newly g2 (p_newly p)) x) p) as T. rewrite S in T. destruct T as (T & SC & _). split.
  - intros q. rewrite (stats_get _ _ _ q SC), get_with_newly. destruct R as (R & _). unfold get, gnum. rewrite R. reflexivity.
  - intros pl. destruct (W pl (in_order pl)) as (q & q' & E). exists q, q', (views g2 pl). split; [exact E|]. specialize (T pl). rewrite views_with_newly in T. exact T.
Qed.
Lemma visited home e g1 s pl m q q' m' : INV home g1 -> visit_all e g1 s pl (views g1 pl) q = Some (m, q') -> Forall2 quiet_kv m m' ->
  NoDup (map fst m') /\ forall k w, In (k, w) m' -> k = vid w /\ place_of w = Some pl /\ home k = pl.
Proof.
  intros I V Q. destruct (I pl) as (N & F). split; [rewrite (quiet_map _ _ Q); apply (visit_all_nodup _ _ _ _ _ _ _ _ V N)|].
  intros k w H. destruct (quiet_in _ _ _ _ Q H) as (u & A & (S & _)). destruct (visit_all_in _ _ _ _ _ _ _ _ V k u A) as (v & x & y & B & C).
  apply visit_frame in C. apply F in B. rewrite (same_place_of u w S), (same_place_of v u C). destruct S as (-> & _), C as (-> & _). exact B.
Qed.
Lemma update_inv home e g g' out : INV home g -> update e g = Some (g', out) -> INV home g'.
Proof.
  intros I U. destruct (update_spec home e g g' out I U) as (g1 & s & _ & _ & I1 & _ & W). intros pl. destruct (W pl) as (q & q' & m & V & Q). apply (visited home e g1 s pl m q q'); assumption.
Qed.
Lemma update_ids home e g g' out : INV home g -> update e g = Some (g', out) -> forall p k, In k (ids g' p) -> In k (ids g p).
Proof.
  intros I U p k H. destruct (update_spec home e g g' out I U) as (g1 & s & _ & Q1 & I1 & _ & W). destruct (W p) as (q & q' & m & V & Q). unfold ids in *. rewrite (quiet_map _ _ Q) in H.
  apply (visit_all_keys _ _ _ _ _ _ _ _ V) in H. rewrite (quiet_map _ _ (Q1 p)) in H. exact H.
Qed.
Definition has_ctl (g : group) : Prop := forall p k v, In (k, v) (views g p) -> is_program (kind v) = true -> ctl v <> None.
Lemma has_ctl_quiet g g' : quiet_group g g' -> has_ctl g -> has_ctl g'.
Proof. intros Q H p k w I K. destruct (quiet_in _ _ _ _ (Q p) I) as (v & A & ((_ & S & _) & _ & C & _)). rewrite C. apply (H p k v A). congruence. Qed.
Lemma update_defined home e g : INV home g -> has_ctl g -> update e g <> None.
Proof.
  intros I C. unfold update. destruct (begin_quiet home e g I) as (Q & I1). destruct (update_begin e g) as (g1, s). cbn [fst] in Q, I1. pose proof (has_ctl_quiet _ _ Q C) as C1.
  match goal with |- context [visit_places e g1 s order ?x] => pose proof (visit_places_defined e s order g1 x order_nodup) as D end.
  assert (H : forall pl k v, In pl order -> In (k, v) (views g1 pl) -> place_of v = Some pl /\ (is_program (kind v) = true -> ctl v <> None)).
  { intros pl k v _ X. split; [apply (I1 pl) in X; apply X|apply (C1 pl k v X)]. }
  specialize (D H). destruct (visit_places e g1 s order _) as [(g2, p)|]; [|contradiction]. cbn zeta. destruct (update_stats e _ p). discriminate.
Qed.

(** ** Any operation *)
Lemma gput_views g i x : views (gput g i x) = views g.
Proof. reflexivity. Qed.
Lemma group_mod_views g i x : views (group_mod g i x) = views g.
Proof. unfold group_mod. do 32 (destruct i as [|i]; [reflexivity|]). reflexivity. Qed.
Lemma group_set_views g i x : views (group_set g i x) = views g.
Proof.
  unfold group_set, _set_0_positive, _set_0_plus1, _set_minus1_plus1, _set_0_1.
  do 32 (destruct i as [|i]; [repeat match goal with |- context [if ?b then _ else _] => destruct b end; reflexivity|]). reflexivity.
Qed.
Definition touches (v w : gview) : Prop := same_place v w /\ ctl w = ctl v /\ seen w = seen v.
Lemma existing_views g oid v t : exists g1, views (inject_existing g oid v t) = views g1 /\
  (g1 = g \/ exists l, g1 = change_view (with_pend g l) oid (fun e => with_ijt (with_vw e (with_word (vw e) VIEW_SYNC (word (vw v) VIEW_SYNC))) t)).
Proof.
  unfold inject_existing. destruct (get_view g oid) as [e|]; [|exists g; auto]. cbn zeta.
  eexists. split; [|right; eexists; reflexivity]. unfold update_c_act, update_c_sln.
  match goal with |- context [if ?b then _ else _] => destruct b end; [etransitivity; [|apply update_param_views]; etransitivity; [|apply update_param_views]; reflexivity|].
  etransitivity; [apply update_param_views|]. apply update_param_views.
Qed.
Lemma existing_inv home g oid v t : INV home g -> INV home (inject_existing g oid v t) /\ forall p, ids (inject_existing g oid v t) p = ids g p.
Proof.
  intros I. destruct (existing_views g oid v t) as (g1 & E & [->|(l & ->)]).
  - split; [apply (inv_views home g); [intros p; rewrite E; reflexivity|exact I]|intros p; unfold ids; rewrite E; reflexivity].
  - split.
    + apply (inv_views home (change_view (with_pend g l) oid (fun e => with_ijt (with_vw e (with_word (vw e) VIEW_SYNC (word (vw v) VIEW_SYNC))) t))); [intros p; rewrite E; reflexivity|].
      apply inv_change; [exact I|]. intros w. repeat split.
    + intros p. unfold ids. rewrite E, (change_views home) by exact I. apply on_key_fst.
Qed.
Lemma arrived_inv home g g' k o : arrived home g g' k o -> INV home g -> INV home g'.
Proof.
  intros (v & V & P & W & _) I. apply (inv_views home (with_views g (home k) (map_set (views g (home k)) k v))).
  - intros p. rewrite W. cbn [views with_views]. destruct (place_dec p (home k)) as [->|N]; [rewrite place_eqb_refl; reflexivity|rewrite place_eqb_neq by exact N; reflexivity].
  - apply inv_set; auto.
Qed.
Lemma delete_views g v p : place_of v = Some p -> delete_view g v = with_views g p (map_erase (views g p) (vid v)).
Proof. intros H. unfold delete_view. rewrite H. reflexivity. Qed.
Lemma run_update g e g' : run_gop g (Update e) = Some g' -> exists out, update e g = Some (g', out).
Proof. cbn [run_gop]. generalize (update e g). intros [(g2, out)|] H; [|discriminate]. injection H as <-. exists out. reflexivity. Qed.
Lemma op_inv home g o g' : proper home o -> run_gop g o = Some g' -> INV home g -> INV home g'.
Proof.
  intros P R I. destruct (brings o) as [k|] eqn:B; [apply (arrived_inv home g g' k o); [apply arrival; assumption|exact I]|].
  destruct o; try discriminate.
  - cbn [run_gop] in R. injection R as <-. apply (inv_views home g); [intros p; rewrite group_mod_views; reflexivity|exact I].
  - cbn [run_gop] in R. injection R as <-. apply (inv_views home g); [intros p; rewrite group_set_views; reflexivity|exact I].
  - cbn [run_gop] in R. injection R as <-. apply existing_inv, I.
  - cbn [run_gop] in R. injection R as <-. exact I.
  - cbn [run_gop] in R. injection R as <-. unfold delete_view. destruct (place_of v); [apply inv_erase, I|exact I].
  - apply run_update in R. destruct R as (out & U). apply (update_inv home e g g' out I U).
Qed.
Lemma runs_inv home os : forall g g', Forall (proper home) os -> run_gops g os = Some g' -> INV home g -> INV home g'.
Proof.
  induction os as [|o os IH]; intros g g' P R I; cbn [run_gops] in R; [injection R as <-; exact I|]. inversion P; subst. destruct (run_gop g o) as [g1|] eqn:E; [|discriminate].
  apply (IH g1); [assumption|exact R|]. apply (op_inv home g o); assumption.
Qed.
Lemma new_inv home code a b : INV home (new_group code a b).
Proof. intros p. cbn. split; [constructor|contradiction]. Qed.

(** ** C23 *)
Lemma in_all_views g v : In v (all_views g) <-> exists p k, In (k, v) (views g p).
Proof.
  unfold all_views. rewrite in_map_iff. split.
  - intros ((k, w) & E & H). cbn in E. subst w. rewrite !in_app_iff in H. destruct H as [H|[H|[H|[H|[H|H]]]]]; eexists; eexists; exact H.
  - intros (p & k & H). exists (k, v). split; [reflexivity|]. rewrite !in_app_iff. destruct p; tauto.
Qed.
Lemma nodup_app {A} (l m : list A) : NoDup l -> NoDup m -> (forall x, In x l -> ~ In x m) -> NoDup (l ++ m).
Proof.
  induction l as [|a l IH]; cbn; intros N M D; [exact M|]. inversion N as [|? ? NI ND]; subst. constructor; [|apply IH; auto].
  rewrite in_app_iff. intros [H|H]; [contradiction|]. apply (D a); [left; reflexivity|exact H].
Qed.
Lemma vid_keys home g p : INV home g -> map vid (map snd (views g p)) = ids g p.
Proof.
  intros I. unfold ids. rewrite map_map. apply map_ext_in. intros (k, v) H. apply (I p) in H. cbn. symmetry. apply H.
Qed.
Lemma iterate_once home g : INV home g -> NoDup (map vid (all_views g)).
Proof.
  intros I. unfold all_views. rewrite !map_app. rewrite !(vid_keys home) by exact I.
  assert (D : forall p q k, p <> q -> In k (ids g p) -> ~ In k (ids g q)).
  { intros p q k N A B. apply N. apply (inv_home home g) in A; [|exact I]. apply (inv_home home g) in B; [|exact I]. congruence. }
  assert (N : forall p, NoDup (ids g p)) by (intros p; apply I).
  repeat (apply nodup_app; [apply N| |]); try apply N; intros k H; rewrite ?in_app_iff; intros X; repeat destruct X as [X|X]; (eapply D; [|exact H|exact X]; discriminate).
Qed.
Lemma stored_once home os code a b g : Forall (proper home) os -> run_gops (new_group code a b) os = Some g ->
  NoDup (map vid (all_views g)) /\
  (forall v, In v (all_views g) -> get_view g (vid v) = Some v /\
     exists p, belongs (ntf v) (kind v) p /\ In (vid v, v) (views g p) /\ forall q, In (vid v) (ids g q) -> q = p) /\
  (forall oid, (exists v, get_view g oid = Some v /\ vid v = oid /\ In v (all_views g)) <-> held g oid).
Proof.
  intros P R. pose proof (runs_inv home os _ _ P R (new_inv home code a b)) as I. split; [apply (iterate_once home), I|]. split.
  - intros v H. apply in_all_views in H. destruct H as (p & k & H). destruct (I p) as (N & F). destruct (F k v H) as (K & Q & G). subst k. split.
    + rewrite (get_view_home home) by exact I. rewrite G. apply find_in; assumption.
    + exists p. split; [apply belongs_place; exact Q|]. split; [exact H|]. intros q Y. apply (inv_home home g) in Y; [congruence|exact I].
  - intros oid. split.
    + intros (v & G & V & _). rewrite (get_view_home home) in G by exact I. exists (home oid). apply find_key in G. apply (in_map fst) in G. exact G.
    + intros (p & H). assert (G := inv_home home g p oid I H). rewrite (get_view_home home) by exact I. rewrite G. unfold ids in H. apply in_map_iff in H. destruct H as ((k, v) & E & H). cbn in E. subst k.
      destruct (I p) as (N & F). destruct (F oid v H) as (K & _ & _). exists v. split; [apply find_in; assumption|]. split; [symmetry; exact K|]. apply in_all_views. exists p, oid. exact H.
Qed.
Lemma held_home home g k : INV home g -> (held g k <-> In k (ids g (home k))).
Proof. intros I. split; [|intros H; exists (home k); exact H]. intros (p & H). pose proof (inv_home home g p k I H) as E. rewrite E. exact H. Qed.
Lemma holding home os code a b g o g' : Forall (proper home) os -> run_gops (new_group code a b) os = Some g -> proper home o -> run_gop g o = Some g' ->
  (forall k, brings o = Some k -> forall j, held g' j <-> j = k \/ held g j) /\
  (forall k, takes o = Some k -> forall j, held g' j <-> j <> k /\ held g j) /\
  (brings o = None -> takes o = None -> is_update o = false -> forall j, held g' j <-> held g j) /\
  (is_update o = true -> forall j, held g' j -> held g j).
Proof.
  intros P R Po Ro. pose proof (runs_inv home os _ _ P R (new_inv home code a b)) as I. split; [|split; [|split]].
  - intros k B j. destruct (arrival home g o k g' Po B Ro) as (v & _ & _ & W & _). assert (I' : INV home g') by (apply (op_inv home g o); assumption).
    rewrite !(held_home home) by assumption. unfold ids. rewrite W. destruct (place_dec (home j) (home k)) as [E|N].
    + rewrite E, place_eqb_refl. apply set_keys.
    + rewrite place_eqb_neq by exact N. split; [auto|]. intros [->|H]; [contradiction|exact H].
  - intros k T j. destruct o; try discriminate. cbn [takes] in T. injection T as <-. cbn [run_gop] in Ro. injection Ro as <-. cbn [proper] in Po. pose proof Po as Po'. apply belongs_place in Po.
    assert (I' : INV home (delete_view g v)) by (rewrite (delete_views g v _ Po); apply inv_erase, I).
    rewrite !(held_home home) by assumption. rewrite (delete_views g v _ Po). unfold ids. cbn [views with_views]. destruct (place_dec (home j) (home (vid v))) as [E|N].
    + rewrite E, place_eqb_refl. destruct (I (home (vid v))) as (D & _). rewrite !in_map_iff. split.
      * intros ((i, u) & X & H). cbn in X. subst i. apply erase_in in H; [|exact D]. split; [apply H|]. exists (j, u). split; [reflexivity|apply H].
      * intros (Y & (i, u) & X & H). cbn in X. subst i. exists (j, u). split; [reflexivity|]. apply erase_in; [exact D|auto].
    + rewrite place_eqb_neq by exact N. split; [intros H; split; [intros ->; contradiction|exact H]|tauto].
  - intros B T U j. destruct o; try discriminate; cbn [run_gop] in Ro; injection Ro as <-; unfold held, ids.
    + rewrite group_mod_views. tauto.
    + rewrite group_set_views. tauto.
    + destruct (existing_inv home g oid v now I) as (_ & E). unfold ids in E. split; intros (p & H); exists p; [rewrite <- E|rewrite E]; exact H.
    + tauto.
  - intros U j (p & H). destruct o; try discriminate. apply run_update in Ro. destruct Ro as (out & E). exists p. apply (update_ids home e g g' out I E), H.
Qed.

(** ** Parameters *)
Lemma gparam_eqb_refl p : gparam_eqb p p = true.
Proof. destruct p; reflexivity. Qed.
Lemma gparam_eqb_neq p q : p <> q -> gparam_eqb p q = false.
Proof. destruct p, q; intros H; try reflexivity; contradiction. Qed.
Lemma gparam_dec (p q : gparam) : p = q \/ p <> q.
Proof. destruct p, q; (left; reflexivity) || (right; discriminate). Qed.
Lemma gindex_inj p q : gindex p = gindex q -> p = q.
Proof. destruct p, q; intros H; try reflexivity; discriminate. Qed.
Lemma get_with_tal g p t q : get (with_tal g p t) q = get g q.
Proof. reflexivity. Qed.
Lemma get_with_dcy g d q : get (with_dcy g d) q = get g q.
Proof. reflexivity. Qed.
Lemma update_param_other g p q : q <> p -> get (update_param g p) q = get g q.
Proof. intros N. unfold update_param. rewrite get_with_tal. destruct (changes (tal g p) =? 0); [reflexivity|]. apply gput_get. intros H. apply N, gindex_inj, H. Qed.
Lemma update_param_at g p : (gindex p < length (gcode g))%nat ->
  get (update_param g p) p = if changes (tal g p) =? 0 then get g p else num (of_num (clamp01 (fadd (get g p) (tally_mean (tal g p))))).
Proof.
  intros L. unfold update_param. rewrite get_with_tal. destruct (changes (tal g p) =? 0); [reflexivity|]. unfold get at 1, gnum, gput. cbn [gcode with_code]. rewrite put_same by exact L. reflexivity.
Qed.
Lemma update_param_tal g p q : tal (update_param g p) q = if gparam_eqb q p then no_tally else tal g q.
Proof. unfold update_param. destruct (changes (tal g p) =? 0); reflexivity. Qed.
Lemma update_param_length g p : length (gcode (update_param g p)) = length (gcode g).
Proof. unfold update_param. destruct (changes (tal g p) =? 0); [reflexivity|]. cbn [gcode with_tal gput with_code]. apply put_length. Qed.
Lemma update_param_word g p i : i <> gindex p -> nth i (gcode (update_param g p)) 0 = nth i (gcode g) 0.
Proof. intros N. unfold update_param. destruct (changes (tal g p) =? 0); [reflexivity|]. cbn [gcode with_tal gput with_code]. apply put_other. auto. Qed.
Lemma update_param_dcy g p : dcy (update_param g p) = dcy g.
Proof. unfold update_param. destruct (changes (tal g p) =? 0); reflexivity. Qed.
Definition before_thr (u : Z) (g : group) : group :=
  let g := with_dcy g (compute_decay u g) in
  if (0 <? to_go (dcy g)) && negb (feqb (thr_decay (dcy g)) fzero) then mod_param g SlnThr (fmul (get g SlnThr) (thr_decay (dcy g))) else g.
Lemma update_sln_thr_is u g : update_sln_thr u g = update_param (before_thr u g) SlnThr.
Proof. reflexivity. Qed.
Lemma before_thr_get u g q : get (before_thr u g) q = get g q.
Proof. unfold before_thr. cbn zeta. destruct (_ && _); reflexivity. Qed.
Lemma before_thr_code u g : gcode (before_thr u g) = gcode g.
Proof. unfold before_thr. cbn zeta. destruct (_ && _); reflexivity. Qed.
Lemma before_thr_dcy u g : dcy (before_thr u g) = compute_decay u g.
Proof. unfold before_thr. cbn zeta. destruct (_ && _); reflexivity. Qed.
Lemma before_thr_tal u g q : q <> SlnThr -> tal (before_thr u g) q = tal g q.
Proof. intros N. unfold before_thr. cbn zeta. destruct (_ && _); [|reflexivity]. cbn [tal mod_param with_tal with_dcy]. rewrite gparam_eqb_neq by exact N. reflexivity. Qed.
Lemma sln_thr_other u g q : q <> SlnThr -> get (update_sln_thr u g) q = get g q.
Proof. intros N. rewrite update_sln_thr_is, update_param_other by exact N. apply before_thr_get. Qed.
Lemma sln_thr_tal u g q : tal (update_sln_thr u g) q = if gparam_eqb q SlnThr then no_tally else tal g q.
Proof. rewrite update_sln_thr_is, update_param_tal. destruct (gparam_dec q SlnThr) as [->|N]; [reflexivity|]. rewrite gparam_eqb_neq by exact N. apply before_thr_tal, N. Qed.
Lemma sln_thr_length u g : length (gcode (update_sln_thr u g)) = length (gcode g).
Proof. rewrite update_sln_thr_is, update_param_length, before_thr_code. reflexivity. Qed.

Definition settles (p : gparam) : bool := match p with CSlnThr | CActThr => false | _ => true end.
Ltac other_param := rewrite update_param_other by discriminate.
Lemma settled_same u g p : settles p = false -> get (settled u g) p = get g p.
Proof. unfold settled, update_act_thr, update_vis_thr, update_c_act, update_c_sln. intros H. destruct p; try discriminate; repeat other_param; apply sln_thr_other; discriminate. Qed.
Lemma settled_tal u g p : tal (settled u g) p = if settles p then no_tally else tal g p.
Proof. unfold settled, update_act_thr, update_vis_thr, update_c_act, update_c_sln. rewrite !update_param_tal, sln_thr_tal. destruct p; reflexivity. Qed.
Lemma settled_length u g : length (gcode (settled u g)) = length (gcode g).
Proof. unfold settled, update_act_thr, update_vis_thr, update_c_act, update_c_sln. rewrite !update_param_length. apply sln_thr_length. Qed.
Lemma update_param_cong g h p : get h p = get g p -> tal h p = tal g p -> length (gcode h) = length (gcode g) -> (gindex p < length (gcode g))%nat -> get (update_param h p) p = get (update_param g p) p.
Proof. intros G T L I. rewrite !update_param_at by (rewrite ?L; exact I). rewrite G, T. reflexivity. Qed.
Lemma settled_sln_thr u g : get (settled u g) SlnThr = get (update_sln_thr u g) SlnThr.
Proof. unfold settled, update_act_thr, update_vis_thr, update_c_act, update_c_sln. repeat other_param. reflexivity. Qed.
Lemma settled_get u g p : settles p = true -> p <> SlnThr -> (gindex p < length (gcode g))%nat -> get (settled u g) p = get (update_param g p) p.
Proof.
  unfold settled, update_act_thr, update_vis_thr, update_c_act, update_c_sln. intros S N L.
  destruct p; try discriminate; try contradiction; repeat other_param;
  (apply update_param_cong; [repeat other_param; apply sln_thr_other; discriminate|rewrite ?update_param_tal; cbn [gparam_eqb]; rewrite sln_thr_tal; reflexivity|rewrite ?update_param_length; apply sln_thr_length|exact L]).
Qed.
Lemma settled_quiet_param u g p : p <> SlnThr -> changes (tal g p) = 0 -> get (settled u g) p = get g p.
Proof.
  unfold settled, update_act_thr, update_vis_thr, update_c_act, update_c_sln. intros N C.
  assert (K : forall h, tal h p = tal g p -> get (update_param h p) p = get h p).
  { intros h T. unfold update_param. rewrite get_with_tal, T, C. reflexivity. }
  destruct p; try contradiction; repeat other_param; try (rewrite K by (rewrite ?update_param_tal; cbn [gparam_eqb]; rewrite sln_thr_tal; reflexivity)); repeat other_param; apply sln_thr_other; discriminate.
Qed.
Lemma executed_core home g : INV home g -> gcode (executed g) = gcode g /\ tal (executed g) = tal g /\ dcy (executed g) = dcy g /\ pend (executed g) = [].
Proof.
  intros I. assert (I' : INV home (with_newly g [])) by exact I. destruct (quiet_pending home (pend g) _ I') as (_ & _ & A & B & C). unfold executed. repeat split; [exact A|exact B|exact C].
Qed.
Lemma c_active_other g p : p <> CAct -> p <> CActThr -> c_active (update_param g p) = c_active g.
Proof. intros A B. unfold c_active. rewrite !update_param_other by congruence. reflexivity. Qed.
Lemma c_salient_other g p : p <> CSln -> p <> CSlnThr -> c_salient (update_param g p) = c_salient g.
Proof. intros A B. unfold c_salient. rewrite !update_param_other by congruence. reflexivity. Qed.
Lemma begin_state e g : let G := settled (ub e) (executed g) in
  snd (update_begin e g) = mkstate (get G SlnThr) (if act_in_order e then c_active (executed g) else c_active G) (c_active G) (if sln_in_order e then c_salient (executed g) else c_salient G) (c_salient G).
Proof.
  unfold update_begin. cbn zeta. cbn [snd]. unfold settled. change (with_pend (fold_left execute (pend (with_newly g [])) (with_newly g [])) []) with (executed g). generalize (executed g). clear g. intros g.
  unfold update_act_thr, update_vis_thr, update_c_act, update_c_sln.
  assert (A : forall h, c_active (update_param (update_param h ActThr) VisThr) = c_active h) by (intros h; rewrite !c_active_other by discriminate; reflexivity).
  assert (B : forall h, c_salient (update_param (update_param h ActThr) VisThr) = c_salient h) by (intros h; rewrite !c_salient_other by discriminate; reflexivity).
  rewrite A, B. rewrite (c_active_other (update_param _ CAct) CSln) by discriminate.
  assert (C : c_active (update_sln_thr (ub e) g) = c_active g) by (unfold c_active; rewrite !sln_thr_other by discriminate; reflexivity).
  assert (D : c_salient (update_sln_thr (ub e) g) = c_salient g) by (unfold c_salient; rewrite !sln_thr_other by discriminate; reflexivity).
  rewrite C, D. reflexivity.
Qed.
Lemma get_mon g a b q : get (with_mon g a b) q = get g q.
Proof. reflexivity. Qed.
Lemma begin_get e g q : get (fst (update_begin e g)) q = get (settled (ub e) (executed g)) q.
Proof. destruct (begin_split e g) as (a & b & E). rewrite E. apply get_mon. Qed.

(** ** What an update does to the words of the group *)
Lemma executes_core l : forall g, gcode (fold_left execute l g) = gcode g /\ tal (fold_left execute l g) = tal g /\ dcy (fold_left execute l g) = dcy g.
Proof.
  induction l as [|o l IH]; intros g; cbn [fold_left]; [repeat split|]. destruct (IH (execute g o)) as (A & B & C). destruct (execute_code g o) as (A' & B' & C'). repeat split; congruence.
Qed.
Lemma executed_get g q : get (executed g) q = get g q.
Proof. unfold get, gnum, executed. cbn [gcode with_pend]. rewrite (proj1 (executes_core (pend g) (with_newly g []))). reflexivity. Qed.
Lemma executed_code g : gcode (executed g) = gcode g.
Proof. unfold executed. cbn [gcode with_pend]. rewrite (proj1 (executes_core (pend g) (with_newly g []))). reflexivity. Qed.
Lemma executed_tal g q : tal (executed g) q = tal g q.
Proof. unfold executed. cbn [tal with_pend]. rewrite (proj1 (proj2 (executes_core (pend g) (with_newly g [])))). reflexivity. Qed.
Lemma executed_dcy g : dcy (executed g) = dcy g.
Proof. unfold executed. cbn [dcy with_pend]. rewrite (proj2 (proj2 (executes_core (pend g) (with_newly g [])))). reflexivity. Qed.
Lemma update_param_pend g p : pend (update_param g p) = pend g.
Proof. unfold update_param. destruct (changes (tal g p) =? 0); reflexivity. Qed.
Lemma settled_pend u g : pend (settled u g) = pend g.
Proof.
  unfold settled, update_act_thr, update_vis_thr, update_c_act, update_c_sln. rewrite !update_param_pend, update_sln_thr_is, update_param_pend. unfold before_thr. cbn zeta. destruct (_ && _); reflexivity.
Qed.
Lemma settled_word u g i : (forall p, i <> gindex p) -> nth i (gcode (settled u g)) 0 = nth i (gcode g) 0.
Proof.
  intros N. unfold settled, update_act_thr, update_vis_thr, update_c_act, update_c_sln. rewrite !update_param_word by apply N. rewrite update_sln_thr_is, update_param_word by apply N. rewrite before_thr_code. reflexivity.
Qed.
Lemma settled_dcy u g : dcy (settled u g) = compute_decay u g.
Proof. unfold settled, update_act_thr, update_vis_thr, update_c_act, update_c_sln. rewrite !update_param_dcy, update_sln_thr_is, update_param_dcy. apply before_thr_dcy. Qed.
Lemma stats_length g p : length (stats_words g p) = length (gcode g).
Proof. unfold stats_words. rewrite !put_length. reflexivity. Qed.
Definition stat_word (i : nat) : Prop := (17 <= i <= 22)%nat.
Lemma stats_other g p i : ~ stat_word i -> nth i (stats_words g p) 0 = nth i (gcode g) 0.
Proof. intros N. unfold stats_words, stat_word in *. repeat rewrite put_other by (unfold GRP_AVG_SLN, GRP_AVG_ACT, GRP_HIGH_SLN, GRP_LOW_SLN, GRP_HIGH_ACT, GRP_LOW_ACT; lia). reflexivity. Qed.
Lemma mon_core g a b : gcode (with_mon g a b) = gcode g /\ tal (with_mon g a b) = tal g /\ dcy (with_mon g a b) = dcy g /\ pend (with_mon g a b) = pend g.
Proof. repeat split. Qed.
Lemma newly_core g l x : gcode (with_new_ctl (with_newly g l) x) = gcode g /\ tal (with_new_ctl (with_newly g l) x) = tal g /\ dcy (with_new_ctl (with_newly g l) x) = dcy g /\ pend (with_new_ctl (with_newly g l) x) = pend g.
Proof. repeat split. Qed.
Lemma update_core e g g' out : update e g = Some (g', out) ->
  (forall q, get g' q = get (settled (ub e) (executed g)) q) /\ tal g' = tal (settled (ub e) (executed g)) /\
  length (gcode g') = length (gcode g) /\ pend g' = [] /\
  (forall i, ~ stat_word i -> nth i (gcode g') 0 = nth i (gcode (settled (ub e) (executed g))) 0) /\
  sln_decay (dcy g') = sln_decay (compute_decay (ub e) (executed g)) /\ thr_decay (dcy g') = thr_decay (compute_decay (ub e) (executed g)) /\
  percentage (dcy g') = percentage (compute_decay (ub e) (executed g)) /\ target (dcy g') = target (compute_decay (ub e) (executed g)).
Proof.
  intros U. destruct (update_split e g g' out U) as (g1 & s & g2 & p & x & l & B & V & X & S & _). clear U.
  destruct (begin_split e g) as (a & b & E). rewrite B in E. cbn [fst] in E. clear B.
  destruct (visit_places_spec _ _ _ _ _ _ _ order_nodup V) as ((R1 & R2 & R3 & _ & _ & R4 & _) & _). clear V X.
  pose proof (update_stats_spec e (with_new_ctl (with_newly g2 (p_newly p)) x) p) as T. rewrite S in T. destruct T as (_ & T1 & T2 & T3 & T4 & _). clear S.
  destruct (newly_core g2 (p_newly p) x) as (N1 & N2 & N3 & N4). destruct (mon_core (settled (ub e) (executed g)) a b) as (M1 & M2 & M3 & M4). rewrite <- E in M1, M2, M3, M4. clear E.
  assert (C : gcode g2 = gcode (settled (ub e) (executed g))) by congruence.
  split.
  { intros q. rewrite (stats_get _ _ _ q T1), get_with_newly. unfold get, gnum. rewrite C. reflexivity. }
  split; [congruence|]. split; [rewrite T1, stats_length, N1, C, settled_length, executed_code; reflexivity|].
  split; [rewrite T3, N4, R4, M4, settled_pend; reflexivity|]. split.
  { intros i NI. rewrite T1, stats_other by exact NI. rewrite N1, C. reflexivity. }
  rewrite T4. cbn [sln_decay thr_decay percentage target]. rewrite N3, R3, M3, settled_dcy. repeat split.
Qed.

(** ** C22: the parameters *)
Lemma param_of_index i p : param_of i = Some p -> i = gindex p.
Proof. do 9 (destruct i as [|i]; [discriminate || (intros H; injection H as <-; reflexivity)|]). discriminate. Qed.
Lemma group_mod_param g i x p : param_of i = Some p -> group_mod g i x = mod_param g p x.
Proof. do 9 (destruct i as [|i]; [discriminate || (intros H; injection H as <-; reflexivity)|]). discriminate. Qed.
Lemma group_set_param g i x p : param_of i = Some p -> group_set g i x = set_param g p x.
Proof. do 9 (destruct i as [|i]; [discriminate || (intros H; injection H as <-; reflexivity)|]). discriminate. Qed.
Definition near (g g' : group) (i : nat) : Prop := tal g' = tal g /\ dcy g' = dcy g /\ length (gcode g') = length (gcode g) /\ (forall j, j <> i -> nth j (gcode g') 0 = nth j (gcode g) 0) /\ pend g' = pend g.
Lemma near_refl g i : near g g i.
Proof. repeat split. Qed.
Lemma near_put g i x : near g (gput g i x) i.
Proof. split; [reflexivity|]. split; [reflexivity|]. split; [apply put_length|]. split; [|reflexivity]. intros j N. apply put_other. auto. Qed.
Lemma group_mod_near g i x : param_of i = None -> near g (group_mod g i x) i.
Proof.
  unfold group_mod. do 32 (destruct i as [|i]; [discriminate || (intros _; (apply near_put || apply near_refl))|]). intros _. apply near_refl.
Qed.
Lemma group_set_near g i x : param_of i = None -> near g (group_set g i x) i.
Proof.
  unfold group_set, _set_0_positive, _set_0_plus1, _set_minus1_plus1, _set_0_1.
  do 32 (destruct i as [|i]; [discriminate || (intros _; repeat match goal with |- context [if ?b then _ else _] => destruct b end; (apply near_put || apply near_refl))|]). intros _. apply near_refl.
Qed.
Lemma near_get g g' i p : near g g' i -> param_of i = None -> get g' p = get g p.
Proof. intros (_ & _ & _ & N & _) P. unfold get, gnum. rewrite N; [reflexivity|]. intros E. rewrite <- E in P. destruct p; discriminate. Qed.

Definition no_decay_set (g : group) : Prop := feqb (gnum g GRP_DCY_PER) fzero || feqb (gnum g GRP_DCY_PRD) fzero = true.
Definition grel (p : gparam) (g : group) (s : gabstract) : Prop :=
  length (gcode g) = 32%nat /\ get g p = g_value s p /\ tallied (g_asked s p) (tal g p) /\ (p = SlnThr -> no_decay_set g).
Lemma grel_core p g g' s : same_core g g' -> grel p g s -> grel p g' s.
Proof. intros (A & B & _) (L & V & T & N). unfold grel, no_decay_set, get, gnum in *. rewrite A, B. auto. Qed.
Lemma grel_ask p q g s x : grel p g s -> (forall r, Z.of_nat (length (g_asked (gask s q x) r)) < 4294967296) -> grel p (mod_param g q x) (gask s q x).
Proof.
  intros (L & V & T & N) B. split; [exact L|]. split; [exact V|]. split; [|exact N]. cbn [tal mod_param with_tal g_asked gask]. unfold gon. destruct (gparam_dec p q) as [->|D].
  - rewrite gparam_eqb_refl. apply tally_mod_tallied; [exact T|]. specialize (B q). cbn [g_asked gask] in B. unfold gon in B. rewrite gparam_eqb_refl in B. exact B.
  - rewrite gparam_eqb_neq by exact D. exact T.
Qed.
Lemma grel_near p g g' i s : near g g' i -> param_of i = None -> (p = SlnThr -> i <> GRP_DCY_PER /\ i <> GRP_DCY_PRD) -> grel p g s -> grel p g' s.
Proof.
  intros Q P D (L & V & T & N). pose proof (near_get g g' i p Q P) as E. destruct Q as (A & _ & C & W & _). split; [congruence|]. split; [congruence|]. split; [rewrite A; exact T|].
  intros ->. destruct (D eq_refl) as (X & Y). specialize (N eq_refl). unfold no_decay_set, gnum in *. rewrite !W by auto. exact N.
Qed.
Lemma five_settles p : existsb (gparam_eqb p) five = settles p.
Proof. destruct p; reflexivity. Qed.
Lemma tallied_changes cs t : tallied cs t -> (changes t =? 0) = match cs with [] => true | _ => false end.
Proof. intros (_ & B & _). rewrite B. destruct cs; [reflexivity|]. apply Z.eqb_neq. cbn [length]. lia. Qed.
Lemma param_gupdated g p s : (gindex p < length (gcode g))%nat -> get g p = g_value s p -> tallied (g_asked s p) (tal g p) -> get (update_param g p) p = gupdated (g_value s p) (g_asked s p).
Proof.
  intros L V T. rewrite update_param_at by exact L. rewrite (tallied_changes _ _ T), V. unfold gupdated. pose proof (mean_tally _ _ T) as M. destruct (g_asked s p); [reflexivity|]. rewrite M. reflexivity.
Qed.
Lemma no_decay_before u g : no_decay_set g -> tal (before_thr u g) = tal g.
Proof. intros N. unfold before_thr, compute_decay, no_decay_set in *. cbn zeta. rewrite N. reflexivity. Qed.
Lemma grel_update p e g g' out s : update e g = Some (g', out) -> grel p g s -> grel p g' (gsettle five s).
Proof.
  intros U (L & V & T & N). destruct (update_core e g g' out U) as (G & TT & LL & _ & W & _). clear U. split; [congruence|].
  assert (LX : forall q, (gindex q < length (gcode (executed g)))%nat) by (intros q; rewrite executed_code, L; destruct q; vm_compute; lia).
  assert (DX : p = SlnThr -> no_decay_set (executed g)) by (intros E; unfold no_decay_set, gnum; rewrite executed_code; apply N, E).
  split; [|split].
  - rewrite G. cbn [g_value gsettle]. rewrite five_settles. destruct (settles p) eqn:S.
    + destruct (gparam_dec p SlnThr) as [->|D].
      * rewrite settled_sln_thr, update_sln_thr_is. apply param_gupdated; [rewrite before_thr_code; apply LX|rewrite before_thr_get, executed_get; exact V|].
        rewrite (no_decay_before _ _ (DX eq_refl)), executed_tal. exact T.
      * rewrite settled_get by (assumption || apply LX). apply param_gupdated; [apply LX|rewrite executed_get; exact V|rewrite executed_tal; exact T].
    + rewrite settled_same by exact S. rewrite executed_get. exact V.
  - rewrite TT, settled_tal, executed_tal. cbn [g_asked gsettle]. rewrite five_settles. destruct (settles p); [apply tallied_none|exact T].
  - intros E. specialize (DX E). unfold no_decay_set, gnum in *. rewrite !W by (unfold stat_word, GRP_DCY_PER, GRP_DCY_PRD; lia). rewrite !settled_word by (intros q; destruct q; discriminate). exact DX.
Qed.
Lemma grel_op p g g' o s home : proper home o -> no_existing o -> (p = SlnThr -> no_decay_asked o) -> (forall r, Z.of_nat (length (g_asked (gabs_op five s o) r)) < 4294967296) ->
  run_gop g o = Some g' -> grel p g s -> grel p g' (gabs_op five s o).
Proof.
  intros P X D B R G. destruct (brings o) as [k|] eqn:K.
  { destruct (arrival home g o k g' P K R) as (v & _ & _ & _ & C & _). replace (gabs_op five s o) with s by (destruct o; try discriminate; reflexivity). apply (grel_core p g); assumption. }
  destruct o; try discriminate.
  - cbn [run_gop] in R. injection R as <-. cbn [gabs_op] in *. destruct (param_of i) as [q|] eqn:Q.
    + rewrite (group_mod_param g i x q Q). apply grel_ask; assumption.
    + apply (grel_near p g _ i); [apply group_mod_near, Q|exact Q|exact D|exact G].
  - cbn [run_gop] in R. injection R as <-. cbn [gabs_op] in *. destruct (param_of i) as [q|] eqn:Q.
    + rewrite (group_set_param g i x q Q). destruct (gparam_dec p q) as [->|NE].
      * change (set_param g q x) with (mod_param g q (fsub x (get g q))). destruct G as (L & V & T). rewrite V. apply grel_ask; [|exact B]. split; [exact L|]. split; [exact V|exact T].
      * destruct G as (L & V & T & N). split; [exact L|]. split; [exact V|]. split; [|exact N]. cbn [tal set_param with_tal g_asked gask]. unfold gon. rewrite gparam_eqb_neq by exact NE. exact T.
    + apply (grel_near p g _ i); [apply group_set_near, Q|exact Q|exact D|exact G].
  - contradiction.
  - cbn [run_gop] in R. injection R as <-. exact G.
  - cbn [run_gop] in R. injection R as <-. cbn [gabs_op]. unfold delete_view. destruct (place_of v); exact G.
  - apply run_update in R. destruct R as (out & U). apply (grel_update p e g g' out s U G).
Qed.
Lemma grel_runs home p os : forall g s g', Forall (proper home) os -> Forall no_existing os -> (p = SlnThr -> Forall no_decay_asked os) -> gfew five s os ->
  run_gops g os = Some g' -> grel p g s -> grel p g' (gabs_ops five s os).
Proof.
  induction os as [|o os IH]; intros g s g' P X D B R G; cbn [run_gops] in R; [injection R as <-; exact G|]. inversion P; subst. inversion X; subst. destruct B as (B0 & B).
  destruct (run_gop g o) as [g1|] eqn:E; [|discriminate]. cbn [gabs_ops fold_left]. apply (IH g1); try assumption.
  - intros Q. specialize (D Q). inversion D; assumption.
  - apply (grel_op p g g1 o s home); try assumption. intros Q. specialize (D Q). inversion D; assumption.
Qed.
Lemma settles_requests home code a b os p g' : length code = 32%nat -> Forall (proper home) os -> Forall no_existing os ->
  (p = SlnThr -> feqb (gnum (new_group code a b) GRP_DCY_PER) fzero = true /\ Forall no_decay_asked os) ->
  gfew five (gstart (new_group code a b)) os -> run_gops (new_group code a b) os = Some g' ->
  get g' p = g_value (gabs_ops five (gstart (new_group code a b)) os) p /\ tallied (g_asked (gabs_ops five (gstart (new_group code a b)) os) p) (tal g' p).
Proof.
  intros L P X D B R. assert (G : grel p (new_group code a b) (gstart (new_group code a b))).
  { split; [exact L|]. split; [reflexivity|]. split; [apply tallied_none|]. intros E. destruct (D E) as (Q & _). unfold no_decay_set. rewrite Q. reflexivity. }
  destruct (grel_runs home p os _ _ g' P X (fun E => proj2 (D E)) B R G) as (_ & V & T & _). auto.
Qed.

(** The range of the parameters. *)
Definition gwell (p : gparam) (g : group) : Prop := length (gcode g) = 32%nat /\ in_unit (get g p) /\ good_tally (tal g p) /\ (p = SlnThr -> no_decay_set g).
Lemma in_unit_finite' f : in_unit f -> is_finite f = true.
Proof. apply in_unit_finite. Qed.
Lemma get_valid g p : f32_valid (get g p) = true.
Proof. unfold get, gnum. apply num_valid. Qed.
Lemma gwell_param g p : (gindex p < length (gcode g))%nat -> in_unit (get g p) -> good_tally (tal g p) -> in_unit (get (update_param g p) p).
Proof.
  intros L U T. rewrite update_param_at by exact L. destruct (Z.eqb_spec (changes (tal g p)) 0) as [|N]; [exact U|].
  destruct T as (A & B & C). destruct (of_Z_u32 (changes (tal g p))) as (F & UV); [lia|]. pose proof unit_val_pos.
  assert (MN : tally_mean (tal g p) <> S754_nan) by (apply fdiv_not_nan; try assumption; [apply of_Z_valid|lia]).
  assert (MV : f32_valid (tally_mean (tal g p)) = true) by (apply fdiv_valid; [exact B|apply of_Z_valid]).
  assert (VX : f32_valid (fadd (get g p) (tally_mean (tal g p))) = true) by (apply fadd_valid; [apply get_valid|exact MV]).
  apply kept_unit; [apply clamp_valid; exact VX|]. apply clamp01_unit; [exact VX|]. apply fadd_not_nan; [apply in_unit_finite, U|exact MN].
Qed.
Lemma gwell_update p e g g' out : update e g = Some (g', out) -> gwell p g -> gwell p g'.
Proof.
  intros U (L & V & T & N). destruct (update_core e g g' out U) as (G & TT & LL & _ & W & _). clear U. split; [congruence|].
  assert (LX : forall q, (gindex q < length (gcode (executed g)))%nat) by (intros q; rewrite executed_code, L; destruct q; vm_compute; lia).
  assert (DX : p = SlnThr -> no_decay_set (executed g)) by (intros E; unfold no_decay_set, gnum; rewrite executed_code; apply N, E).
  split; [|split].
  - rewrite G. destruct (settles p) eqn:S.
    + destruct (gparam_dec p SlnThr) as [->|D].
      * rewrite settled_sln_thr, update_sln_thr_is. apply gwell_param; [rewrite before_thr_code; apply LX|rewrite before_thr_get, executed_get; exact V|].
        rewrite (no_decay_before _ _ (DX eq_refl)), executed_tal. exact T.
      * rewrite settled_get by (assumption || apply LX). apply gwell_param; [apply LX|rewrite executed_get; exact V|rewrite executed_tal; exact T].
    + rewrite settled_same by exact S. rewrite executed_get. exact V.
  - rewrite TT, settled_tal, executed_tal. destruct (settles p); [apply good_none|exact T].
  - intros E. specialize (DX E). unfold no_decay_set, gnum in *. rewrite !W by (unfold stat_word, GRP_DCY_PER, GRP_DCY_PRD; lia). rewrite !settled_word by (intros q; destruct q; discriminate). exact DX.
Qed.
Lemma gwell_core p g g' : same_core g g' -> gwell p g -> gwell p g'.
Proof. intros (A & B & _) (L & V & T & N). unfold gwell, no_decay_set, get, gnum in *. rewrite A, B. auto. Qed.
Lemma gwell_near p g g' i : near g g' i -> param_of i = None -> (p = SlnThr -> i <> GRP_DCY_PER /\ i <> GRP_DCY_PRD) -> gwell p g -> gwell p g'.
Proof.
  intros Q P D (L & V & T & N). pose proof (near_get g g' i p Q P) as E. destruct Q as (A & _ & C & W & _). split; [congruence|]. split; [rewrite E; exact V|]. split; [rewrite A; exact T|].
  intros ->. destruct (D eq_refl) as (X & Y). specialize (N eq_refl). unfold no_decay_set, gnum in *. rewrite !W by auto. exact N.
Qed.
Lemma gwell_ask p q g x : gwell p g -> (q = p -> f32_valid x = true /\ is_finite x = true) -> gwell p (mod_param g q x).
Proof.
  intros (L & V & T & N) X. split; [exact L|]. split; [exact V|]. split; [|exact N]. cbn [tal mod_param with_tal]. destruct (gparam_dec p q) as [->|D].
  - rewrite gparam_eqb_refl. destruct (X eq_refl). apply good_mod; assumption.
  - rewrite gparam_eqb_neq by exact D. exact T.
Qed.
Lemma gwell_op p g g' o home : proper home o -> no_existing o -> (p = SlnThr -> no_decay_asked o) -> tame o -> run_gop g o = Some g' -> gwell p g -> gwell p g'.
Proof.
  intros P X D S R G. destruct (brings o) as [k|] eqn:K.
  { destruct (arrival home g o k g' P K R) as (v & _ & _ & _ & C & _). apply (gwell_core p g); assumption. }
  destruct o; try discriminate.
  - cbn [run_gop] in R. injection R as <-. cbn [tame] in S. destruct (param_of i) as [q|] eqn:Q.
    + rewrite (group_mod_param g i x q Q). apply gwell_ask; [exact G|]. intros _. apply S. discriminate.
    + apply (gwell_near p g _ i); [apply group_mod_near, Q|exact Q|exact D|exact G].
  - cbn [run_gop] in R. injection R as <-. cbn [tame] in S. destruct (param_of i) as [q|] eqn:Q.
    + rewrite (group_set_param g i x q Q). change (set_param g q x) with (mod_param g q (fsub x (get g q))). apply gwell_ask; [exact G|]. intros ->. destruct S as (A & B & C); [discriminate|].
      destruct G as (_ & V & _). split; [apply fsub_valid; [exact A|apply get_valid]|]. apply sub_finite; try assumption; [apply get_valid|apply in_unit_finite, V|apply C|apply V].
    + apply (gwell_near p g _ i); [apply group_set_near, Q|exact Q|exact D|exact G].
  - contradiction.
  - cbn [run_gop] in R. injection R as <-. exact G.
  - cbn [run_gop] in R. injection R as <-. unfold delete_view. destruct (place_of v); exact G.
  - apply run_update in R. destruct R as (out & U). apply (gwell_update p e g g' out U G).
Qed.
Lemma gwell_runs home p os : forall g g', Forall (proper home) os -> Forall no_existing os -> (p = SlnThr -> Forall no_decay_asked os) -> Forall tame os -> run_gops g os = Some g' -> gwell p g -> gwell p g'.
Proof.
  induction os as [|o os IH]; intros g g' P X D S R G; cbn [run_gops] in R; [injection R as <-; exact G|]. inversion P; subst. inversion X; subst. inversion S; subst.
  destruct (run_gop g o) as [g1|] eqn:E; [|discriminate]. apply (IH g1); try assumption.
  - intros Q. specialize (D Q). inversion D; assumption.
  - apply (gwell_op p g g1 o home); try assumption. intros Q. specialize (D Q). inversion D; assumption.
Qed.
Lemma parameters_in_range home code a b os p g' : length code = 32%nat -> Forall (proper home) os -> Forall no_existing os ->
  (p = SlnThr -> feqb (gnum (new_group code a b) GRP_DCY_PER) fzero = true /\ Forall no_decay_asked os) ->
  Forall tame os -> in_unit (get (new_group code a b) p) -> run_gops (new_group code a b) os = Some g' -> in_unit (get g' p).
Proof.
  intros L P X D S U R. assert (G : gwell p (new_group code a b)).
  { split; [exact L|]. split; [exact U|]. split; [apply good_none|]. intros E. destruct (D E) as (Q & _). unfold no_decay_set. rewrite Q. reflexivity. }
  destruct (gwell_runs home p os _ g' P X (fun E => proj2 (D E)) S R G) as (_ & V & _). exact V.
Qed.

(** The other members. *)
Lemma gput_gnum g i x : (i < length (gcode g))%nat -> gnum (gput g i x) i = kept x.
Proof. intros L. unfold gnum, gput. cbn [gcode with_code]. rewrite put_same by exact L. reflexivity. Qed.
Lemma immediate g i x s : length (gcode g) = 32%nat -> span_of i = Some s ->
  gnum (group_mod g i x) i = kept (into_span s (fadd (gnum g i) x)) /\ gnum (group_set g i x) i = kept (into_span s x).
Proof.
  intros L. unfold group_mod, group_set. 
  do 31 (destruct i as [|i]; [discriminate || (intros H; injection H as <-;
    split; [apply gput_gnum; rewrite L; lia|unfold _set_0_positive, _set_0_plus1, into_span; destruct (flt x fzero); [|try destruct (flt fone x)]; apply gput_gnum; rewrite L; lia])|]).
  do 2 (destruct i as [|i]; [discriminate|]). discriminate.
Qed.
Lemma immediate_other g i x j : i <> j -> nth j (gcode (group_mod g i x)) 0 = nth j (gcode g) 0 /\ nth j (gcode (group_set g i x)) 0 = nth j (gcode g) 0.
Proof.
  intros N. destruct (param_of i) as [p|] eqn:P.
  - rewrite (group_mod_param g i x p P), (group_set_param g i x p P). split; reflexivity.
  - destruct (group_mod_near g i x P) as (_ & _ & _ & A & _). destruct (group_set_near g i x P) as (_ & _ & _ & B & _). split; [apply A|apply B]; auto.
Qed.
Lemma into_span_range s y : f32_valid y = true -> y <> S754_nan -> in_span s (kept (into_span s y)).
Proof.
  intros V N. destruct s; unfold in_span, into_span.
  - destruct (flt y fzero) eqn:F; [split; [vm_compute; reflexivity|exact Logic.I]|]. split; [|exact Logic.I]. apply kept_nonneg; [exact V|]. apply not_flt_zero; assumption.
  - pose proof (clamp_valid y V) as CV. pose proof (kept_unit _ CV (clamp01_unit y V N)) as U. unfold clamp01 in U. exact U.
Qed.
Lemma immediate_range g i x s : length (gcode g) = 32%nat -> span_of i = Some s -> f32_valid x = true ->
  (fadd (gnum g i) x <> S754_nan -> in_span s (gnum (group_mod g i x) i)) /\ (x <> S754_nan -> in_span s (gnum (group_set g i x) i)).
Proof.
  intros L S V. destruct (immediate g i x s L S) as (A & B). rewrite A, B. split; intros N; apply into_span_range; try assumption. apply fadd_valid; [|exact V]. unfold gnum. apply num_valid.
Qed.

(** ** C24: activation *)
Lemma res_act v : get_act (fst (update_res v)) = get_act v.
Proof. unfold update_res. destruct (feqb (get_res v) _); [reflexivity|]. cbn zeta. cbn [fst]. unfold get_act, word. cbn [vcode with_t_res with_word]. rewrite put_other by (vm_compute; discriminate). reflexivity. Qed.
Lemma sln_act v lo hi : get_act (fst (update_sln v lo hi)) = get_act v.
Proof.
  unfold update_sln. cbn zeta. cbn [fst]. unfold get_act, word. cbn [vcode with_p_sln with_t_sln]. destruct (pending (t_sln v)); [|reflexivity]. cbn [vcode with_word]. rewrite put_other by (vm_compute; discriminate). reflexivity.
Qed.
Lemma act_of_code a b : vcode a = vcode b -> get_act a = get_act b.
Proof. intros H. unfold get_act, word. rewrite H. reflexivity. Qed.
Lemma g_res_act g v p : let '(w, _, _) := g_update_res g v p in get_act (vw w) = get_act (vw v).
Proof. unfold g_update_res. pose proof (res_act (vw v)) as R. destruct (update_res (vw v)) as (w, r). exact R. Qed.
Lemma g_sln_act g v p : let '(w, _, _) := g_update_sln g v p in get_act (vw w) = get_act (vw v).
Proof.
  unfold g_update_sln. cbn zeta. match goal with |- context [update_sln ?x _ _] => set (w0 := x) end. assert (E : get_act w0 = get_act (vw v)) by (unfold w0; destruct (_ && _); reflexivity).
  pose proof (sln_act w0 (gnum g GRP_LOW_SLN_THR) (gnum g GRP_HIGH_SLN_THR)) as R. destruct (update_sln w0 _ _) as (w, r). cbn [fst] in R. rewrite E in R. clear E. clearbody w0.
  destruct (ntf v); [exact R|]. destruct (feqb _ _); [exact R|]. destruct (feqb _ _); exact R.
Qed.
Lemma saliency_act e g s v p : let '(w, _) := _update_saliency e g s v p in get_act (vw w) = get_act (vw v).
Proof.
  unfold _update_saliency. pose proof (g_sln_act g v p) as R. destruct (g_update_sln g v p) as ((w, r), q).
  destruct (is_c_salient s); [|exact R].
  destruct (flt (get g SlnThr) r); [destruct (_ || _ || _); [destruct (flt (former_sln_thr s) (get_sln (vw v)))|destruct (_ || _)]|]; destruct (is_c_active s); exact R.
Qed.
Lemma g_act_act g v p : let '(w, act, _) := g_update_act g v p in act = get_act (vw w).
Proof.
  unfold g_update_act. assert (R : let (w, r) := update_act (vw v) (gnum g GRP_LOW_ACT_THR) (gnum g GRP_HIGH_ACT_THR) in r = get_act w) by reflexivity.
  destruct (update_act (vw v) _ _) as (w, r). cbn zeta. destruct (ntf v); [exact R|]. destruct (feqb _ _); [exact R|]. destruct (feqb _ _); exact R.
Qed.
Definition truthful (g : group) (ca cs : bool) (v : gview) : Prop := is_program (kind v) = true -> ctl v = Some (flt (get g ActThr) (get_act (vw v)) && cs && ca).
Lemma activation_truthful g s v p w q : is_program (kind v) = true -> truthful g (was_c_active s) (was_c_salient s) v -> _update_activation g s v p = Some (w, q) -> truthful g (is_c_active s) (is_c_salient s) w.
Proof.
  intros K T. unfold _update_activation. specialize (T K). pose proof (g_act_act g v p) as A. pose proof (g_update_act_frame g v p) as F. destruct (g_update_act g v p) as ((u, r), t).
  destruct F as (_ & _ & C & _). rewrite C, T. subst r. intros H _. rewrite T in C. clear T.
  destruct (was_c_active s), (was_c_salient s), (is_c_active s), (is_c_salient s); cbn [andb orb negb] in H; rewrite ?andb_true_r, ?andb_false_r in *;
  destruct (flt (get g ActThr) (get_act (vw v))); cbn [negb] in H;
  destruct (flt (get g ActThr) (get_act (vw u))) eqn:E; cbn [negb] in H; injection H as <- <-; cbn [ctl with_ctl vw]; rewrite ?E; try reflexivity; exact C.
Qed.
Lemma visit_truthful e g s pl v p w q : ijt v < planned e -> truthful g (was_c_active s) (was_c_salient s) v -> visit e g s pl v p = Some (Some w, q) -> truthful g (is_c_active s) (is_c_salient s) w.
Proof.
  intros J T H. pose proof (visit_frame _ _ _ _ _ _ _ _ H) as (_ & K & _). destruct (is_program (kind v)) eqn:P; [|intros Q; congruence]. revert H.
  unfold visit. destruct (invalid e (vid v)); [destruct (place_of v) as [x|]; [destruct (place_eqb x pl)|]; discriminate|].
  replace (planned e <=? ijt v) with false by (symmetry; apply Z.leb_gt; exact J).
  pose proof (res_code g v p) as R. pose proof (g_res_act g v p) as RA. destruct (g_update_res g v p) as ((u, r), t). destruct R as ((_ & RK & _) & _ & RC & _).
  destruct (flt fzero r); [|destruct (place_of v) as [x|]; [destruct (place_eqb x pl)|]; discriminate].
  pose proof (sln_frame e g s u t) as F. pose proof (saliency_act e g s u t) as SA. destruct (_update_saliency e g s u t) as (u', t'). destruct F as ((_ & FK & _) & FC & _).
  assert (PK : is_program (kind u') = true) by congruence. rewrite PK. replace (kind u' =? GROUP) with false by (symmetry; apply Z.eqb_neq; intros E; rewrite E in PK; discriminate).
  destruct (_update_activation g s u' t') as [(x, y)|] eqn:A; [|discriminate]. intros H. injection H as <- <-.
  apply (activation_truthful g s u' t' x y PK); [|exact A]. intros _. rewrite FC, RC, SA, RA. apply T, P.
Qed.
Definition TRUE (g : group) : Prop := forall p k v, In (k, v) (views g p) -> right_ctl g v.
Lemma right_is_truthful g v : right_ctl g v <-> truthful g (c_active g) (c_salient g) v.
Proof. reflexivity. Qed.
Lemma truthful_get g h a b v : get h ActThr = get g ActThr -> truthful g a b v -> truthful h a b v.
Proof. intros E T K. rewrite (T K), E. reflexivity. Qed.
Lemma truthful_quiet g a b v w : quiet v w -> truthful g a b v -> truthful g a b w.
Proof. intros ((_ & K & _) & _ & C & _ & V) T P. rewrite K in P. rewrite C, (T P), (act_of_code _ _ V). reflexivity. Qed.
Lemma in_all g p k v : In (k, v) (views g p) -> In v (all_views g).
Proof. intros H. apply in_all_views. exists p, k. exact H. Qed.
Lemma update_true home e g g' out : INV home g -> act_in_order e = true -> sln_in_order e = true -> all_due e g -> changes (tal g ActThr) = 0 -> update e g = Some (g', out) -> TRUE g -> TRUE g' /\ get g' ActThr = get g ActThr /\ tal g' ActThr = no_tally.
Proof.
  intros I OA OS D C U T. destruct (update_core e g g' out U) as (G & TT & _). destruct (update_spec home e g g' out I U) as (g1 & s & B & Q1 & I1 & G1 & W). clear U.
  assert (EA : get g1 ActThr = get g ActThr). { rewrite <- G1, G, settled_quiet_param by (discriminate || (rewrite executed_tal; exact C)). apply executed_get. }
  split; [|split; [rewrite G1; exact EA|rewrite TT, settled_tal; reflexivity]].
  pose proof (begin_state e g) as S. cbn zeta in S. rewrite B in S. cbn [snd] in S. rewrite OA, OS in S.
  assert (CA : c_active (executed g) = c_active g) by (unfold c_active; rewrite !executed_get; reflexivity).
  assert (CS : c_salient (executed g) = c_salient g) by (unfold c_salient; rewrite !executed_get; reflexivity).
  rewrite CA, CS in S. assert (CA' : c_active (settled (ub e) (executed g)) = c_active g') by (unfold c_active; rewrite !G; reflexivity).
  assert (CS' : c_salient (settled (ub e) (executed g)) = c_salient g') by (unfold c_salient; rewrite !G; reflexivity). rewrite CA', CS' in S.
  intros p k w H. destruct (W p) as (x & y & m & V & Q). destruct (quiet_in _ _ _ _ Q H) as (u & A & QU). destruct (visit_all_in _ _ _ _ _ _ _ _ V k u A) as (v & x' & y' & BV & VV).
  destruct (quiet_in _ _ _ _ (Q1 p) BV) as (v0 & A0 & Q0). pose proof (T p k v0 A0) as T0. apply right_is_truthful in T0. apply (truthful_quiet _ _ _ _ _ Q0) in T0. apply (truthful_get g g1 _ _ _ EA) in T0.
  apply right_is_truthful. apply (truthful_quiet _ _ _ _ _ QU). apply (truthful_get g1 g'); [apply G1|].
  assert (J : ijt v < planned e). { destruct Q0 as (_ & -> & _). apply D, (in_all g p k), A0. }
  pose proof (visit_truthful e g1 s p v x' u y' J) as R. rewrite S in R. cbn [was_c_active was_c_salient is_c_active is_c_salient] in R. specialize (R T0). rewrite S in VV. exact (R VV).
Qed.
Lemma same_get g g' q : gcode g' = gcode g -> get g' q = get g q.
Proof. intros E. unfold get, gnum. rewrite E. reflexivity. Qed.
Lemma right_get g g' v : (forall q, get g' q = get g q) -> right_ctl g v -> right_ctl g' v.
Proof. intros E R K. rewrite (R K). unfold is_active_pgm, c_salient, c_active. rewrite !E. reflexivity. Qed.
Definition CALM (home : Z -> place) (t : spec_float) (g : group) : Prop := INV home g /\ TRUE g /\ changes (tal g ActThr) = 0 /\ get g ActThr = t.
Lemma calm_step home t g o g' : flt t fzero = false -> proper home o -> equipped o -> calm_op g o -> run_gop g o = Some g' -> CALM home t g -> CALM home t g'.
Proof.
  intros NT P E C R (I & T & N & A). assert (I' : INV home g') by (apply (op_inv home g o); assumption). split; [exact I'|].
  destruct (brings o) as [k|] eqn:K.
  { destruct (arrival home g o k g' P K R) as (v & V & PV & W & (C1 & C2 & _) & RC). assert (EG : forall q, get g' q = get g q) by (intros q; apply same_get, C1).
    split; [|split; [rewrite C2; exact N|rewrite EG; exact A]]. intros p j w H. rewrite W in H. apply (right_get g); [exact EG|].
    destruct (place_dec p (home k)) as [->|D]; [rewrite place_eqb_refl in H|rewrite place_eqb_neq in H by exact D; apply (T p j), H].
    apply set_in in H; [|apply I]. destruct H as [(-> & ->)|(_ & H)]; [|apply (T _ _ _ H)]. apply RC; [exact E|]. rewrite A. exact NT. }
  destruct o; try discriminate.
  - cbn [run_gop] in R. injection R as <-. cbn [calm_op] in C. destruct (param_of i) as [q|] eqn:Q.
    + rewrite (group_mod_param g i x q Q). split; [exact T|]. split; [|exact A]. cbn [tal mod_param with_tal]. rewrite gparam_eqb_neq; [exact N|]. intros <-. apply C, (param_of_index i ActThr Q).
    + pose proof (group_mod_near g i x Q) as X. split; [|split; [destruct X as (-> & _); exact N|rewrite (near_get _ _ _ _ X Q); exact A]].
      intros p k v H. rewrite group_mod_views in H. apply (right_get g); [intros q; apply (near_get _ _ _ _ X Q)|]. apply (T _ _ _ H).
  - cbn [run_gop] in R. injection R as <-. cbn [calm_op] in C. destruct (param_of i) as [q|] eqn:Q.
    + rewrite (group_set_param g i x q Q). split; [exact T|]. split; [|exact A]. cbn [tal set_param with_tal]. rewrite gparam_eqb_neq; [exact N|]. intros <-. apply C, (param_of_index i ActThr Q).
    + pose proof (group_set_near g i x Q) as X. split; [|split; [destruct X as (-> & _); exact N|rewrite (near_get _ _ _ _ X Q); exact A]].
      intros p k v H. rewrite group_set_views in H. apply (right_get g); [intros q; apply (near_get _ _ _ _ X Q)|]. apply (T _ _ _ H).
  - contradiction.
  - cbn [run_gop] in R. injection R as <-. split; [exact T|]. split; [exact N|exact A].
  - cbn [run_gop] in R. injection R as <-. unfold delete_view in *. destruct (place_of v) as [p|]; [|split; [exact T|]; split; [exact N|exact A]]. split; [|split; [exact N|exact A]].
    intros q k w H. cbn [views with_views] in H. destruct (place_dec q p) as [->|D]; [rewrite place_eqb_refl in H; apply erase_in in H; [|apply I]; apply (T p k w), H|rewrite place_eqb_neq in H by exact D; apply (T q k w H)].
  - apply run_update in R. destruct R as (out & U). cbn [calm_op] in C. destruct C as (OA & OS & D). destruct (update_true home e g g' out I OA OS D N U T) as (T' & A' & N'). split; [exact T'|]. split; [rewrite N'; reflexivity|]. rewrite A'. exact A.
Qed.
Lemma true_has_ctl g : TRUE g -> has_ctl g.
Proof. intros T p k v H K. rewrite (T p k v H K). discriminate. Qed.
Lemma run_defined g o : (forall e, o = Update e -> update e g <> None) -> run_gop g o <> None.
Proof.
  intros H. destruct o; cbn [run_gop]; [discriminate ..|]. specialize (H e eq_refl). generalize dependent (update e g). intros [(a, b)|] U; [discriminate|contradiction].
Qed.
Lemma calm_runs home t os : flt t fzero = false -> forall g, Forall (proper home) os -> Forall equipped os -> calm g os -> CALM home t g -> exists g', run_gops g os = Some g' /\ CALM home t g'.
Proof.
  intros NT. induction os as [|o os IH]; intros g P E C H; cbn [run_gops calm] in *; [exists g; auto|]. inversion P; subst. inversion E; subst. destruct C as (C0 & C).
  assert (D : run_gop g o <> None).
  { apply run_defined. intros e ->. destruct H as (I & T & _). apply (update_defined home e g I (true_has_ctl g T)). }
  destruct (run_gop g o) as [g1|] eqn:R; [|contradiction]. apply IH; try assumption. apply (calm_step home t g o); assumption.
Qed.
Lemma activity code a b os home : flt (get (new_group code a b) ActThr) fzero = false -> Forall (proper home) os -> Forall equipped os -> calm (new_group code a b) os ->
  exists g, run_gops (new_group code a b) os = Some g /\ activity_right g.
Proof.
  intros NT P E C. destruct (calm_runs home (get (new_group code a b) ActThr) os NT (new_group code a b) P E C) as (g & R & (_ & T & _)).
  - split; [apply new_inv|]. split; [intros p k v []|]. split; reflexivity.
  - exists g. split; [exact R|]. intros v H K. apply in_all_views in H. destruct H as (p & k & H). apply (T p k v H K).
Qed.

(** Controllers are never missing. *)
Lemma activation_ctl g s v p w q : ctl v <> None -> _update_activation g s v p = Some (w, q) -> ctl w <> None.
Proof.
  intros C. unfold _update_activation. pose proof (g_update_act_frame g v p) as F. destruct (g_update_act g v p) as ((u, r), t). destruct F as (_ & _ & E & _). rewrite <- E in C.
  destruct (ctl u) as [c|] eqn:K; [|contradiction].
  repeat match goal with |- context [if ?b then _ else _] => destruct b end; intros H; injection H as <- <-; cbn [ctl with_ctl]; congruence.
Qed.
Lemma visit_ctl e g s pl v p w q : visit e g s pl v p = Some (Some w, q) -> (is_program (kind v) = true -> ctl v <> None) -> is_program (kind w) = true -> ctl w <> None.
Proof.
  intros H C KW. pose proof (visit_frame _ _ _ _ _ _ _ _ H) as (_ & K & _). rewrite K in KW. specialize (C KW). revert H.
  unfold visit. destruct (invalid e (vid v)); [destruct (place_of v) as [x|]; [destruct (place_eqb x pl)|]; discriminate|].
  destruct (planned e <=? ijt v); [intros H; injection H as <- <-; exact C|].
  pose proof (res_code g v p) as R. destruct (g_update_res g v p) as ((u, r), t). destruct R as ((_ & RK & _) & _ & RC & _).
  destruct (flt fzero r); [|destruct (place_of v) as [x|]; [destruct (place_eqb x pl)|]; discriminate].
  pose proof (sln_frame e g s u t) as F. destruct (_update_saliency e g s u t) as (u', t'). destruct F as ((_ & FK & _) & FC & _).
  assert (PK : is_program (kind u') = true) by congruence. rewrite PK. replace (kind u' =? GROUP) with false by (symmetry; apply Z.eqb_neq; intros E; rewrite E in PK; discriminate).
  destruct (_update_activation g s u' t') as [(x, y)|] eqn:A; [|discriminate]. intros H. injection H as <- <-. apply (activation_ctl g s u' t' x y); [congruence|exact A].
Qed.
Lemma has_ctl_update home e g g' out : INV home g -> update e g = Some (g', out) -> has_ctl g -> has_ctl g'.
Proof.
  intros I U H p k w X K. destruct (update_spec home e g g' out I U) as (g1 & s & _ & Q1 & I1 & _ & W). destruct (W p) as (x & y & m & V & Q).
  destruct (quiet_in _ _ _ _ Q X) as (u & A & ((_ & KU & _) & _ & C & _)). rewrite C. destruct (visit_all_in _ _ _ _ _ _ _ _ V k u A) as (v & x' & y' & BV & VV).
  apply (visit_ctl _ _ _ _ _ _ _ _ VV); [|congruence]. apply (has_ctl_quiet _ _ Q1 H p k v BV).
Qed.
Lemma has_ctl_op home g o g' : proper home o -> equipped o -> run_gop g o = Some g' -> INV home g -> has_ctl g -> has_ctl g'.
Proof.
  intros P E R I H. destruct (brings o) as [k|] eqn:K.
  { destruct (arrival home g o k g' P K R) as (v & _ & _ & W & _ & C). destruct (C E) as (C' & _). intros p j w X. rewrite W in X.
    destruct (place_dec p (home k)) as [->|D]; [rewrite place_eqb_refl in X|rewrite place_eqb_neq in X by exact D; apply (H p j w X)].
    apply set_in in X; [|apply I]. destruct X as [(-> & ->)|(_ & X)]; [exact C'|apply (H _ _ _ X)]. }
  destruct o; try discriminate.
  - cbn [run_gop] in R. injection R as <-. intros p j w X. rewrite group_mod_views in X. apply (H _ _ _ X).
  - cbn [run_gop] in R. injection R as <-. intros p j w X. rewrite group_set_views in X. apply (H _ _ _ X).
  - cbn [run_gop] in R. injection R as <-. intros p j w X. destruct (existing_views g oid v now) as (g1 & EV & [->|(l & ->)]); rewrite EV in X; [apply (H _ _ _ X)|].
    rewrite (change_views home) in X by exact I. apply in_map_iff in X. destruct X as ((j', w') & EX & X). unfold on_key in EX. cbn in EX. destruct (j' =? oid); injection EX as <- <-; apply (H _ _ _ X).
  - cbn [run_gop] in R. injection R as <-. exact H.
  - cbn [run_gop] in R. injection R as <-. unfold delete_view. destruct (place_of v) as [p|]; [|exact H]. intros q j w X. cbn [views with_views] in X.
    destruct (place_dec q p) as [->|D]; [rewrite place_eqb_refl in X; apply erase_in in X; [|apply I]; apply (H p j w), X|rewrite place_eqb_neq in X by exact D; apply (H q j w X)].
  - apply run_update in R. destruct R as (out & U). apply (has_ctl_update home e g g' out I U H).
Qed.
Lemma runs_defined home os : forall g, Forall (proper home) os -> Forall equipped os -> INV home g -> has_ctl g -> run_gops g os <> None.
Proof.
  induction os as [|o os IH]; intros g P E I H; cbn [run_gops]; [discriminate|]. inversion P; subst. inversion E; subst.
  assert (D : run_gop g o <> None) by (apply run_defined; intros e ->; apply (update_defined home e g I H)).
  destruct (run_gop g o) as [g1|] eqn:R; [|contradiction]. apply IH; try assumption; [apply (op_inv home g o); assumption|apply (has_ctl_op home g o); assumption].
Qed.
Lemma never_undefined home os code a b : Forall (proper home) os -> Forall equipped os -> exists g, run_gops (new_group code a b) os = Some g.
Proof.
  intros P E. pose proof (runs_defined home os (new_group code a b) P E (new_inv home code a b)) as D. destruct (run_gops (new_group code a b) os) as [g|]; [exists g; reflexivity|].
  exfalso. apply D; [|reflexivity]. intros p k v [].
Qed.

(** Signals: the controllers newly activated. *)
Definition woken (v w : gview) : bool := match ctl v, ctl w with Some false, Some true => true | _, _ => false end.
Lemma res_signals g v p : let '(_, _, q) := g_update_res g v p in p_new_ctl q = p_new_ctl p.
Proof. unfold g_update_res. destruct (update_res (vw v)) as (w, r). destruct (_ && _ && _); reflexivity. Qed.
Lemma activation_signals g s v p w q : truthful g (was_c_active s) (was_c_salient s) v -> is_program (kind v) = true -> _update_activation g s v p = Some (w, q) ->
  p_new_ctl q = p_new_ctl p ++ (if woken v w then [vid v] else []) /\ (woken v w = true -> is_c_active s && is_c_salient s = true).
Proof.
  intros T K. specialize (T K). unfold _update_activation. pose proof (g_act_act g v p) as A. pose proof (g_update_act_frame g v p) as F. destruct (g_update_act g v p) as ((u, r), t).
  destruct F as ((VID & _) & _ & C & _ & PN). rewrite C, T. subst r. intros H. unfold woken. rewrite T. rewrite T in C. clear T.
  destruct (was_c_active s), (was_c_salient s), (is_c_active s), (is_c_salient s); cbn [andb orb negb] in H; rewrite ?andb_true_r, ?andb_false_r in *;
  destruct (flt (get g ActThr) (get_act (vw v))); cbn [negb] in H;
  destruct (flt (get g ActThr) (get_act (vw u))) eqn:E; cbn [negb] in H; injection H as <- <-; cbn [ctl with_ctl vw p_new_ctl]; rewrite ?C, ?app_nil_r; rewrite ?VID, ?PN; split; try reflexivity; discriminate.
Qed.
Definition waking (v : gview) (r : option gview) : list Z := match r with Some w => if is_program (kind v) && woken v w then [vid v] else [] | None => [] end.
Lemma visit_signals e g s pl v p r q : ijt v < planned e -> truthful g (was_c_active s) (was_c_salient s) v -> visit e g s pl v p = Some (r, q) ->
  p_new_ctl q = p_new_ctl p ++ waking v r /\ (waking v r <> [] -> is_c_active s && is_c_salient s = true).
Proof.
  intros J T. unfold visit. assert (NIL : forall (x q' : progress), (match place_of v with Some y => if place_eqb y pl then Some (None, x) else None | None => None end) = Some (r, q') -> r = None /\ q' = x).
  { intros x q'. destruct (place_of v) as [y|]; [|discriminate]. destruct (place_eqb y pl); [|discriminate]. intros H. injection H as <- <-. auto. }
  destruct (invalid e (vid v)); [intros H; apply NIL in H; destruct H as (-> & ->); cbn; rewrite app_nil_r; split; [reflexivity|contradiction]|].
  replace (planned e <=? ijt v) with false by (symmetry; apply Z.leb_gt; exact J).
  pose proof (res_signals g v p) as RS. pose proof (res_code g v p) as R. pose proof (g_res_act g v p) as RA. destruct (g_update_res g v p) as ((u, x), t). destruct R as ((RV & RK & _) & _ & RC & _).
  destruct (flt fzero x); [|intros H; apply NIL in H; destruct H as (-> & ->); cbn; rewrite app_nil_r; split; [exact RS|contradiction]].
  pose proof (sln_frame e g s u t) as F. pose proof (saliency_act e g s u t) as SA. destruct (_update_saliency e g s u t) as (u', t'). destruct F as ((FV & FK & _) & FC & _ & FN).
  assert (KE : kind u' = kind v) by congruence. rewrite KE. destruct (Z.eqb_spec (kind v) GROUP) as [EG|NG].
  { intros H. injection H as <- <-. unfold waking. rewrite EG. cbn. rewrite app_nil_r. split; [congruence|contradiction]. }
  destruct (is_program (kind v)) eqn:PK.
  - destruct (_update_activation g s u' t') as [(w, y)|] eqn:A; [|discriminate]. intros H. injection H as <- <-.
    assert (T' : truthful g (was_c_active s) (was_c_salient s) u') by (intros _; rewrite FC, RC, SA, RA; apply T, PK).
    destruct (activation_signals g s u' t' w y T' (eq_trans (f_equal is_program KE) PK) A) as (B & C). unfold waking. rewrite PK. cbn [andb].
    replace (woken v w) with (woken u' w) by (unfold woken; rewrite FC, RC; reflexivity). rewrite B, FN, RS, FV, RV. split; [reflexivity|]. intros N. apply C. destruct (woken u' w); [reflexivity|contradiction].
  - intros H. injection H as <- <-. unfold waking. rewrite PK. cbn. rewrite app_nil_r. split; [congruence|contradiction].
Qed.
Definition wakes (m m' : vmap) (k : Z) : Prop := exists v w, In (k, v) m /\ In (k, w) m' /\ is_program (kind v) = true /\ ctl v = Some false /\ ctl w = Some true.
Lemma woken_is v w : woken v w = true <-> ctl v = Some false /\ ctl w = Some true.
Proof. unfold woken. destruct (ctl v) as [[]|], (ctl w) as [[]|]; split; intros H; try discriminate; try (destruct H; discriminate); try reflexivity; auto. Qed.
Lemma visit_all_signals e g s pl m : forall p m' p', NoDup (map fst m) -> (forall k v, In (k, v) m -> k = vid v /\ ijt v < planned e /\ truthful g (was_c_active s) (was_c_salient s) v) ->
  visit_all e g s pl m p = Some (m', p') -> exists l, p_new_ctl p' = p_new_ctl p ++ l /\ NoDup l /\ (forall k, In k l <-> wakes m m' k) /\ (l <> [] -> is_c_active s && is_c_salient s = true).
Proof.
  induction m as [|(j, u) m IH]; intros p m' p' N H V; cbn [visit_all] in V.
  - injection V as <- <-. exists []. rewrite app_nil_r. split; [reflexivity|]. split; [constructor|]. split; [|contradiction]. intros k. split; [contradiction|]. intros (v & w & [] & _).
  - destruct (visit e g s pl u p) as [(r, t)|] eqn:E; [|discriminate]. destruct (visit_all e g s pl m t) as [(m2, t2)|] eqn:A; [|discriminate]. injection V as <- <-.
    inversion N as [|? ? NI ND]; subst. destruct (H j u (or_introl eq_refl)) as (J & D & T).
    destruct (visit_signals e g s pl u p r t D T E) as (S1 & S2). destruct (IH t m2 t2 ND (fun k v X => H k v (or_intror X)) A) as (l & L1 & L2 & L3 & L4).
    assert (KM : forall k, In k (map fst m2) -> In k (map fst m)) by (apply (visit_all_keys _ _ _ _ _ _ _ _ A)).
    assert (KL : forall k, In k l -> In k (map fst m)). { intros k X. apply L3 in X. destruct X as (v & w & X & _). apply (in_map fst) in X. exact X. }
    exists (waking u r ++ l). split; [rewrite L1, S1, app_assoc; reflexivity|]. split; [|split].
    + apply nodup_app; [|exact L2|].
      * unfold waking. destruct r as [w|]; [destruct (is_program (kind u) && woken u w)|]; repeat constructor. intros [].
      * intros x Q. unfold waking in Q. destruct r as [w|]; [|contradiction]. destruct (is_program (kind u) && woken u w); [|contradiction]. destruct Q as [<-|[]]. intros Y. apply KL in Y. rewrite <- J in Y. contradiction.
    + intros k. rewrite in_app_iff, L3. split.
      * intros [X|(v & w & X & Y & Z)].
        -- unfold waking in X. destruct r as [w|]; [|contradiction]. destruct (is_program (kind u) && woken u w) eqn:B; [|contradiction]. destruct X as [<-|[]]. apply andb_true_iff in B. destruct B as (B1 & B2). apply woken_is in B2.
           rewrite <- J. exists u, w. split; [left; reflexivity|]. split; [left; reflexivity|]. split; [exact B1|exact B2].
        -- exists v, w. split; [right; exact X|]. split; [destruct r; [right; exact Y|exact Y]|exact Z].
      * intros (v & w & X & Y & Z1 & Z2).
        assert (CASE : (k = j /\ v = u) \/ (k <> j /\ In (k, v) m)).
        { destruct X as [X|X]; [injection X as <- <-; left; auto|right]. split; [|exact X]. intros ->. apply NI. apply (in_map fst) in X. exact X. }
        destruct CASE as [(-> & ->)|(NE & X')].
        -- left. destruct r as [w'|].
           ++ destruct Y as [Y|Y]; [injection Y as <-|exfalso; apply NI, KM; apply (in_map fst) in Y; exact Y]. unfold waking. rewrite Z1. rewrite (proj2 (woken_is _ _) Z2). left. symmetry. exact J.
           ++ exfalso. apply NI, KM. apply (in_map fst) in Y. exact Y.
        -- right. exists v, w. split; [exact X'|]. split; [|auto]. destruct r as [w'|]; [destruct Y as [Y|Y]; [injection Y as Y; congruence|exact Y]|exact Y].
    + intros X. destruct (waking u r) eqn:WQ; [apply L4, X|apply S2; discriminate].
Qed.
Lemma visit_places_signals e s pls : forall g p g' p', NoDup pls -> (forall pl, In pl pls -> NoDup (map fst (views g pl))) ->
  (forall pl k v, In pl pls -> In (k, v) (views g pl) -> k = vid v /\ ijt v < planned e /\ truthful g (was_c_active s) (was_c_salient s) v) ->
  (forall pl pl' k, In pl pls -> In pl' pls -> In k (map fst (views g pl)) -> In k (map fst (views g pl')) -> pl = pl') ->
  visit_places e g s pls p = Some (g', p') -> exists l, p_new_ctl p' = p_new_ctl p ++ l /\ NoDup l /\ (forall k, In k l <-> exists pl, In pl pls /\ wakes (views g pl) (views g' pl) k) /\ (l <> [] -> is_c_active s && is_c_salient s = true).
Proof.
  induction pls as [|a pls IH]; intros g p g' p' N D H X V.
  - cbn [visit_places] in V. injection V as <- <-. exists []. rewrite app_nil_r. split; [reflexivity|]. split; [constructor|]. split; [|contradiction]. intros k. split; [contradiction|]. intros (pl & [] & _).
  - pose proof V as V0. cbn [visit_places] in V. destruct (visit_all e g s a (views g a) p) as [(m, t)|] eqn:E; [|discriminate]. inversion N as [|? ? NI ND]; subst.
    destruct (visit_all_signals e g s a (views g a) p m t (D a (or_introl eq_refl)) (fun k v Y => H a k v (or_introl eq_refl) Y) E) as (l & L1 & L2 & L3 & L4).
    assert (S : forall pl, In pl pls -> views (with_views g a m) pl = views g pl).
    { intros pl Q. cbn [views with_views]. rewrite place_eqb_neq; [reflexivity|]. intros ->. contradiction. }
    destruct (visit_places_spec e s pls _ _ _ _ ND V) as (_ & SA & _).
    assert (VA : views g' a = m) by (rewrite SA by exact NI; cbn [views with_views]; rewrite place_eqb_refl; reflexivity).
    destruct (IH (with_views g a m) t g' p' ND) as (l' & M1 & M2 & M3 & M4).
    + intros pl Q. rewrite S by exact Q. apply D. right. exact Q.
    + intros pl k v Q Y. rewrite S in Y by exact Q. apply (H pl k v); [right; exact Q|exact Y].
    + intros pl pl' k Q Q'. rewrite !S by assumption. apply X; right; assumption.
    + exact V.
    + exists (l ++ l'). split; [rewrite M1, L1, app_assoc; reflexivity|]. split; [|split].
      * apply nodup_app; [exact L2|exact M2|]. intros k K K'. apply L3 in K. apply M3 in K'. destruct K as (v & w & K & _). destruct K' as (pl & Q & v' & w' & K' & _). rewrite S in K' by exact Q.
        apply (in_map fst) in K, K'. cbn in K, K'. apply NI. rewrite (X a pl k (or_introl eq_refl) (or_intror Q) K K'). exact Q.
      * intros k. rewrite in_app_iff, L3, M3. split.
        -- intros [Y|(pl & Q & Y)]; [exists a; split; [left; reflexivity|rewrite VA; exact Y]|]. exists pl. split; [right; exact Q|]. rewrite S in Y by exact Q. exact Y.
        -- intros (pl & [<-|Q] & Y); [left; rewrite VA in Y; exact Y|right]. exists pl. split; [exact Q|]. rewrite S by exact Q. exact Y.
      * intros Y. destruct l; [apply M4, Y|apply L4; discriminate].
Qed.
Lemma executes_new_ctl l : forall g, new_ctl (fold_left execute l g) = new_ctl g.
Proof. induction l as [|o l IH]; intros g; cbn [fold_left]; [reflexivity|]. rewrite IH. destruct o; cbn [execute]; apply change_misc. Qed.
Lemma update_param_new_ctl g p : new_ctl (update_param g p) = new_ctl g.
Proof. unfold update_param. destruct (changes (tal g p) =? 0); reflexivity. Qed.
Lemma settled_new_ctl u g : new_ctl (settled u g) = new_ctl g.
Proof.
  unfold settled, update_act_thr, update_vis_thr, update_c_act, update_c_sln. rewrite !update_param_new_ctl, update_sln_thr_is, update_param_new_ctl. unfold before_thr. cbn zeta. destruct (_ && _); reflexivity.
Qed.
Lemma mon_new_ctl g a b : new_ctl (with_mon g a b) = new_ctl g.
Proof. reflexivity. Qed.
Lemma begin_new_ctl e g : new_ctl (fst (update_begin e g)) = new_ctl g.
Proof. destruct (begin_split e g) as (a & b & E). rewrite E, mon_new_ctl, settled_new_ctl. unfold executed. cbn [new_ctl with_pend]. rewrite executes_new_ctl. reflexivity. Qed.
Lemma update_signals home e g g' out : INV home g -> act_in_order e = true -> sln_in_order e = true -> all_due e g -> changes (tal g ActThr) = 0 -> new_ctl g = [] -> update e g = Some (g', out) -> TRUE g ->
  new_ctl g' = [] /\ NoDup (o_signal out) /\ forall k, In k (o_signal out) <-> exists v w, get_view g k = Some v /\ get_view g' k = Some w /\ is_program (kind v) = true /\ ctl v = Some false /\ ctl w = Some true.
Proof.
  intros I OA OS D C NC U T. pose proof (update_inv home e g g' out I U) as I'. destruct (update_core e g g' out U) as (G & _). destruct (update_split e g g' out U) as (g1 & s & g2 & p & x & l & B & V & X & S & O). clear U.
  destruct (begin_quiet home e g I) as (Q1 & I1). pose proof (begin_new_ctl e g) as N1. pose proof (begin_get e g) as BG. pose proof (begin_state e g) as BS. cbn zeta in BS. rewrite B in Q1, I1, N1, BG, BS. cbn [fst snd] in Q1, I1, N1, BG, BS. rewrite OA, OS in BS. clear B.
  assert (EA : get g1 ActThr = get g ActThr). { rewrite BG, settled_quiet_param by (discriminate || (rewrite executed_tal; exact C)). apply executed_get. }
  assert (CA : c_active (executed g) = c_active g) by (unfold c_active; rewrite !executed_get; reflexivity).
  assert (CS : c_salient (executed g) = c_salient g) by (unfold c_salient; rewrite !executed_get; reflexivity). rewrite CA, CS in BS.
  assert (H1 : forall pl, In pl order -> NoDup (map fst (views g1 pl))) by (intros pl _; apply I1).
  assert (H2 : forall pl k v, In pl order -> In (k, v) (views g1 pl) -> k = vid v /\ ijt v < planned e /\ truthful g1 (was_c_active s) (was_c_salient s) v).
  { intros pl k v _ Y. split; [apply (I1 pl), Y|]. destruct (quiet_in _ _ _ _ (Q1 pl) Y) as (v0 & A0 & Q0). split; [destruct Q0 as (_ & -> & _); apply D, (in_all g pl k), A0|].
    apply (truthful_get g g1 _ _ _ EA). apply (truthful_quiet _ _ _ _ _ Q0). rewrite BS. cbn [was_c_active was_c_salient]. apply (T pl k v0 A0). }
  assert (H3 : forall pl pl' k, In pl order -> In pl' order -> In k (map fst (views g1 pl)) -> In k (map fst (views g1 pl')) -> pl = pl').
  { intros pl pl' k _ _ A A'. apply (inv_home home g1 _ _ I1) in A. apply (inv_home home g1 _ _ I1) in A'. congruence. }
  destruct (visit_places_signals e s order g1 _ g2 p order_nodup H1 H2 H3 V) as (L & L1 & L2 & L3 & L4).
  cbn [p_new_ctl] in L1. rewrite N1, NC in L1. cbn [app] in L1.
  pose proof (update_stats_spec e (with_new_ctl (with_newly g2 (p_newly p)) x) p) as ST. rewrite S in ST. destruct ST as (SQ & _ & _ & _ & _ & _ & _ & _ & SN).
  assert (SIG : o_signal out = L). { subst out. cbn [o_signal]. rewrite L1. destruct (is_c_active s && is_c_salient s); [reflexivity|]. destruct L as [|z L]; [reflexivity|]. exfalso. specialize (L4 ltac:(discriminate)). discriminate. }
  split; [|split].
  - rewrite SN. cbn [new_ctl with_new_ctl]. rewrite X, L1. destruct (is_c_active s && is_c_salient s); [reflexivity|]. destruct L as [|z L]; [reflexivity|]. exfalso. specialize (L4 ltac:(discriminate)). discriminate.
  - rewrite SIG. exact L2.
  - intros k. rewrite SIG, L3. rewrite !(get_view_home home) by assumption. split.
    + intros (pl & _ & v & w & A & A' & K & CV & CW). destruct (quiet_in _ _ _ _ (Q1 pl) A) as (v0 & A0 & ((_ & K0 & _) & _ & C0 & _)).
      assert (A2 : In (k, w) (views (with_new_ctl (with_newly g2 (p_newly p)) x) pl)) by exact A'. destruct (quiet_in_back _ _ _ _ (SQ pl) A2) as (w0 & B0 & (_ & _ & C1 & _)).
      pose proof (in_map fst _ _ A0) as H0. apply (inv_home home g) in H0; [|exact I]. cbn in H0. rewrite H0. exists v0, w0. split; [apply find_in; [apply I|exact A0]|]. split; [apply find_in; [apply I'|exact B0]|]. repeat split; congruence.
    + intros (v & w & A & A' & K & CV & CW). apply find_key in A, A'. destruct (quiet_in_back _ _ _ _ (Q1 (home k)) A) as (v1 & B1 & ((_ & K1 & _) & _ & C1 & _)).
      destruct (quiet_in _ _ _ _ (SQ (home k)) A') as (w1 & B2 & (_ & _ & C2 & _)). exists (home k). split; [apply in_order|]. exists v1, w1. split; [exact B1|]. split; [exact B2|]. repeat split; congruence.
Qed.
Lemma group_mod_new_ctl g i x : new_ctl (group_mod g i x) = new_ctl g.
Proof. unfold group_mod. do 32 (destruct i as [|i]; [reflexivity|]). reflexivity. Qed.
Lemma group_set_new_ctl g i x : new_ctl (group_set g i x) = new_ctl g.
Proof.
  unfold group_set, _set_0_positive, _set_0_plus1, _set_minus1_plus1, _set_0_1.
  do 32 (destruct i as [|i]; [repeat match goal with |- context [if ?b then _ else _] => destruct b end; reflexivity|]). reflexivity.
Qed.
Lemma op_new_ctl g o g' : run_gop g o = Some g' -> no_existing o -> is_update o = false -> new_ctl g' = new_ctl g.
Proof.
  intros R X U. destruct o; try discriminate; cbn [run_gop] in R; try contradiction; injection R as <-.
  - apply group_mod_new_ctl.
  - apply group_set_new_ctl.
  - unfold load. repeat match goal with |- context [if ?b then _ else _] => destruct b end; reflexivity.
  - unfold inject. repeat match goal with |- context [if ?b then _ else _] => destruct b end; reflexivity.
  - unfold inject_hlp. match goal with |- context [if ?b then _ else _] => destruct b end; reflexivity.
  - reflexivity.
  - reflexivity.
  - reflexivity.
  - reflexivity.
  - unfold delete_view. destruct (place_of v); reflexivity.
Qed.
Lemma calm_new_ctl home t os : flt t fzero = false -> forall g g', Forall (proper home) os -> Forall equipped os -> calm g os -> run_gops g os = Some g' -> CALM home t g -> new_ctl g = [] -> new_ctl g' = [].
Proof.
  intros NT. induction os as [|o os IH]; intros g g' P E C R H N; cbn [run_gops calm] in *; [injection R as <-; exact N|]. inversion P; subst. inversion E; subst. destruct C as (C0 & C).
  destruct (run_gop g o) as [g1|] eqn:R1; [|discriminate]. apply (IH g1 g'); try assumption; [apply (calm_step home t g o); assumption|].
  destruct (is_update o) eqn:U.
  - destruct o; try discriminate. apply run_update in R1. destruct R1 as (out & U1). destruct H as (I & T & A & _). destruct C0 as (OA & OS & D). apply (update_signals home e g g1 out I OA OS D A N U1 T).
  - rewrite (op_new_ctl g o g1 R1); [exact N| |exact U]. destruct o; try exact Logic.I. exact C0.
Qed.
Lemma signals code a b os home g e g' out : flt (get (new_group code a b) ActThr) fzero = false -> Forall (proper home) os -> Forall equipped os -> calm (new_group code a b) os ->
  run_gops (new_group code a b) os = Some g -> calm_op g (Update e) -> update e g = Some (g', out) ->
  NoDup (o_signal out) /\ forall k, In k (o_signal out) <-> exists v w, get_view g k = Some v /\ get_view g' k = Some w /\ is_program (kind v) = true /\ ctl v = Some false /\ ctl w = Some true.
Proof.
  intros NT P E C R (OA & OS & D) U. assert (H0 : CALM home (get (new_group code a b) ActThr) (new_group code a b)).
  { split; [apply new_inv|]. split; [intros p k v []|]. split; reflexivity. }
  pose proof (calm_new_ctl home _ os NT _ _ P E C R H0 eq_refl) as N. destruct (calm_runs home _ os NT _ P E C H0) as (g0 & R0 & (I & T & A & _)). rewrite R in R0. injection R0 as <-.
  apply (update_signals home e g g' out I OA OS D A N U T).
Qed.

(** ** C25: what an update does to one view *)
Lemma find_on_key m j f oid : map_find (map (on_key j f) m) oid = option_map (fun v => if j =? oid then f v else v) (map_find m oid).
Proof.
  induction m as [|(k, v) m IH]; [reflexivity|]. cbn [map]. unfold on_key at 1. cbn [fst snd]. destruct (Z.eqb_spec k j) as [->|N].
  - cbn [map_find]. destruct (Z.eqb_spec j oid) as [->|M]; [reflexivity|]. rewrite IH. reflexivity.
  - cbn [map_find]. destruct (Z.eqb_spec k oid) as [->|M]; [|exact IH]. cbn. destruct (Z.eqb_spec j oid) as [->|]; [contradiction|reflexivity].
Qed.
Lemma change_get home g j f oid : INV home g -> (forall v, same_place v (f v)) -> get_view (change_view g j f) oid = option_map (fun v => if j =? oid then f v else v) (get_view g oid).
Proof.
  intros I S. rewrite !(get_view_home home) by (try apply inv_change; assumption). rewrite (change_views home) by exact I. apply find_on_key.
Qed.
Lemma with_vw_same v : with_vw v (vw v) = v.
Proof. destruct v. reflexivity. Qed.
Lemma execute_get home g o oid : INV home g -> get_view (execute g o) oid = option_map (fun v => with_vw v (asked_of oid (vw v) o)) (get_view g oid).
Proof.
  intros I. destruct o; cbn [execute]; (rewrite (change_get home); [|exact I|intros v; repeat split]); destruct (get_view g oid) as [v|]; cbn [option_map asked_of]; try reflexivity; destruct (_ =? oid); try reflexivity; rewrite with_vw_same; reflexivity.
Qed.
Lemma executes_get home l oid : forall g, INV home g -> get_view (fold_left execute l g) oid = option_map (fun v => with_vw v (fold_left (asked_of oid) l (vw v))) (get_view g oid).
Proof.
  induction l as [|o l IH]; intros g I; cbn [fold_left].
  - destruct (get_view g oid); [|reflexivity]. cbn. rewrite with_vw_same. reflexivity.
  - rewrite IH by (apply (inv_quiet home g); [apply (quiet_execute home), I|exact I]). rewrite (execute_get home) by exact I. destruct (get_view g oid); reflexivity.
Qed.
Definition bare (v w : gview) : Prop := quiet v w /\ t_res (vw w) = t_res (vw v).
Definition bare_kv (a b : Z * gview) : Prop := fst b = fst a /\ bare (snd a) (snd b).
Lemma bare_kv_refl m : Forall2 bare_kv m m.
Proof. induction m; constructor; [split; [reflexivity|split; [apply quiet_refl|reflexivity]]|assumption]. Qed.
Lemma bare_kv_trans a b c : Forall2 bare_kv a b -> Forall2 bare_kv b c -> Forall2 bare_kv a c.
Proof.
  intros H. revert c. induction H as [|x y a b (K & Q & R) _ IH]; intros c H2; inversion H2 as [|? z ? c' (K' & Q' & R') T]; subst; constructor; [|apply IH; exact T].
  split; [congruence|]. split; [apply (quiet_trans _ (snd y)); assumption|congruence].
Qed.
Lemma bare_find m m' oid : Forall2 bare_kv m m' -> match map_find m oid with Some v => exists w, map_find m' oid = Some w /\ bare v w | None => map_find m' oid = None end.
Proof.
  induction 1 as [|(k, v) (k', w) m m' (K & Q) _ IH]; [reflexivity|]. cbn in K, Q. subst k'. cbn [map_find]. destruct (k =? oid); [exists w; auto|exact IH].
Qed.
Lemma watch_bare delta n thr m : (forall v, vcode (fst (delta v)) = vcode v /\ t_res (fst (delta v)) = t_res v) -> Forall2 bare_kv m (fst (watch delta n thr m)).
Proof.
  intros D. induction m as [|(k, v) m IH]; cbn; [constructor|]. unfold watch in IH. destruct (delta (vw v)) as (w, d) eqn:E. cbn. constructor; [|exact IH].
  pose proof (D (vw v)) as X. rewrite E in X. destruct X as (X & Y). split; [reflexivity|]. cbn. split; [|exact Y]. split; [repeat split|]. repeat split. exact X.
Qed.
Lemma watch_places_bare delta n thr pls : (forall v, vcode (fst (delta v)) = vcode v /\ t_res (fst (delta v)) = t_res v) -> forall g p, Forall2 bare_kv (views g p) (views (fst (watch_places delta n thr g pls)) p).
Proof.
  intros D. induction pls as [|a pls IH]; intros g p; cbn [watch_places]; [apply bare_kv_refl|].
  pose proof (watch_bare delta n thr (views g a) D) as W. destruct (watch delta n thr (views g a)) as (m, l). cbn [fst] in W.
  pose proof (IH (with_views g a m) p) as Q. destruct (watch_places delta n thr (with_views g a m) pls) as (g', l'). cbn [fst] in *.
  apply (bare_kv_trans _ (views (with_views g a m) p)); [|exact Q]. cbn [views with_views]. destruct (place_dec p a) as [->|N]; [rewrite place_eqb_refl; exact W|rewrite place_eqb_neq by exact N; apply bare_kv_refl].
Qed.
Lemma update_stats_bare e g p q : Forall2 bare_kv (views g q) (views (fst (update_stats e g p)) q).
Proof.
  unfold update_stats. cbn zeta. unfold gput.
  match goal with |- context [gnum ?x GRP_SLN_CHG_THR] => set (g0 := x) end.
  assert (H0 : views g0 = views g) by reflexivity. rewrite <- H0. clearbody g0. clear H0.
  assert (A : exists g1 l1, (if mon_sln g0 =? 0 then watch_places update_sln_delta SlnChg (gnum g0 GRP_SLN_CHG_THR) g0 non_ntf else (g0, [])) = (g1, l1) /\ Forall2 bare_kv (views g0 q) (views g1 q)).
  { destruct (mon_sln g0 =? 0); [|exists g0, []; split; [reflexivity|apply bare_kv_refl]].
    pose proof (watch_places_bare update_sln_delta SlnChg (gnum g0 GRP_SLN_CHG_THR) non_ntf (fun v => conj eq_refl eq_refl) g0 q) as Q.
    destruct (watch_places _ _ _ g0 _) as (g1, l1). exists g1, l1. auto. }
  destruct A as (g1 & l1 & -> & Q1).
  assert (A : exists g2 l2, (if mon_act g1 =? 0 then watch_places update_act_delta ActChg (gnum g1 GRP_ACT_CHG_THR) g1 non_ntf else (g1, [])) = (g2, l2) /\ Forall2 bare_kv (views g1 q) (views g2 q)).
  { destruct (mon_act g1 =? 0); [|exists g1, []; split; [reflexivity|apply bare_kv_refl]].
    pose proof (watch_places_bare update_act_delta ActChg (gnum g1 GRP_ACT_CHG_THR) non_ntf (fun v => conj eq_refl eq_refl) g1 q) as Q.
    destruct (watch_places _ _ _ g1 _) as (g2, l2). exists g2, l2. auto. }
  destruct A as (g2 & l2 & -> & Q2). cbn [fst]. apply (bare_kv_trans _ (views g1 q)); assumption.
Qed.
(** The resilience after each of the steps of a visit. *)
Definition res_kept (v w : view) : Prop := t_res w = t_res v /\ word w VIEW_RES = word v VIEW_RES /\ length (vcode w) = length (vcode v).
Lemma res_kept_refl v : res_kept v v.
Proof. repeat split. Qed.
Lemma res_kept_trans a b c : res_kept a b -> res_kept b c -> res_kept a c.
Proof. intros (A & B & C) (A' & B' & C'). repeat split; congruence. Qed.
Lemma update_sln_res v lo hi : res_kept v (fst (update_sln v lo hi)).
Proof. unfold update_sln. cbn zeta. cbn [fst]. destruct (pending (t_sln v)); [|repeat split]. split; [reflexivity|]. split; [unfold word; cbn [vcode with_p_sln with_t_sln with_word]; apply put_other; vm_compute; discriminate|cbn [vcode with_p_sln with_t_sln with_word]; apply put_length]. Qed.
Lemma update_act_res v lo hi : res_kept v (fst (update_act v lo hi)).
Proof. unfold update_act. cbn zeta. cbn [fst]. destruct (pending (t_act v)); [|repeat split]. split; [reflexivity|]. split; [unfold word; cbn [vcode with_p_act with_t_act with_word]; apply put_other; vm_compute; discriminate|cbn [vcode with_p_act with_t_act with_word]; apply put_length]. Qed.
Lemma update_vis_res v : res_kept v (fst (update_vis v)).
Proof. unfold update_vis. cbn zeta. cbn [fst]. destruct (pending (t_vis v)); [|repeat split]. split; [reflexivity|]. split; [unfold word; cbn [vcode with_t_vis with_word]; apply put_other; vm_compute; discriminate|cbn [vcode with_t_vis with_word]; apply put_length]. Qed.
Lemma g_sln_res g v p : let '(w, _, _) := g_update_sln g v p in res_kept (vw v) (vw w).
Proof.
  unfold g_update_sln. cbn zeta. match goal with |- context [update_sln ?x _ _] => set (w0 := x) end. assert (E : res_kept (vw v) w0) by (unfold w0; destruct (_ && _); repeat split).
  pose proof (update_sln_res w0 (gnum g GRP_LOW_SLN_THR) (gnum g GRP_HIGH_SLN_THR)) as R. destruct (update_sln w0 _ _) as (w, r). cbn [fst] in R. pose proof (res_kept_trans _ _ _ E R) as Q. clear - Q.
  destruct (ntf v); [exact Q|]. destruct (feqb _ _); [exact Q|]. destruct (feqb _ _); exact Q.
Qed.
Lemma saliency_res e g s v p : let '(w, _) := _update_saliency e g s v p in res_kept (vw v) (vw w).
Proof.
  unfold _update_saliency. pose proof (g_sln_res g v p) as R. destruct (g_update_sln g v p) as ((w, r), q).
  destruct (is_c_salient s); [|exact R].
  destruct (flt (get g SlnThr) r); [destruct (_ || _ || _); [destruct (flt (former_sln_thr s) (get_sln (vw v)))|destruct (_ || _)]|]; destruct (is_c_active s); exact R.
Qed.
Lemma g_act_res g v p : let '(w, _, _) := g_update_act g v p in res_kept (vw v) (vw w).
Proof.
  unfold g_update_act. pose proof (update_act_res (vw v) (gnum g GRP_LOW_ACT_THR) (gnum g GRP_HIGH_ACT_THR)) as R. destruct (update_act (vw v) _ _) as (w, r). cbn [fst] in R. cbn zeta.
  destruct (ntf v); [exact R|]. destruct (feqb _ _); [exact R|]. destruct (feqb _ _); exact R.
Qed.
Lemma activation_res g s v p w q : _update_activation g s v p = Some (w, q) -> res_kept (vw v) (vw w).
Proof.
  unfold _update_activation. pose proof (g_act_res g v p) as R. destruct (g_update_act g v p) as ((u, r), t).
  destruct (ctl u); repeat match goal with |- context [if ?b then _ else _] => destruct b end; intros H; try discriminate; injection H as <- <-; exact R.
Qed.
Lemma visibility_res g s v : res_kept (vw v) (vw (_update_visibility g s v)).
Proof.
  unfold _update_visibility. pose proof (update_vis_res (vw v)) as R. destruct (update_vis (vw v)) as (w, r). cbn [fst] in R. cbn zeta.
  repeat match goal with |- context [if ?b then _ else _] => destruct b end; exact R.
Qed.
Lemma visit_fate e g s pl v p r q : visit e g s pl v p = Some (r, q) ->
  if invalid e (vid v) then r = None
  else if planned e <=? ijt v then r = Some v
  else if flt fzero (snd (update_res (vw v))) then exists w, r = Some w /\ res_kept (fst (update_res (vw v))) (vw w) else r = None.
Proof.
  unfold visit. assert (NIL : forall (x q' : progress), (match place_of v with Some y => if place_eqb y pl then Some (None, x) else None | None => None end) = Some (r, q') -> r = None).
  { intros x q'. destruct (place_of v) as [y|]; [|discriminate]. destruct (place_eqb y pl); [|discriminate]. intros H. injection H as <- _. auto. }
  destruct (invalid e (vid v)); [apply NIL|]. destruct (planned e <=? ijt v); [intros H; injection H as <- _; reflexivity|].
  assert (R : let '(u, x, _) := g_update_res g v p in vw u = fst (update_res (vw v)) /\ x = snd (update_res (vw v))) by (unfold g_update_res; destruct (update_res (vw v)); split; reflexivity).
  destruct (g_update_res g v p) as ((u, x), t). destruct R as (RU & ->). destruct (flt fzero (snd (update_res (vw v)))); [|apply NIL]. rewrite <- RU.
  pose proof (saliency_res e g s u t) as S. destruct (_update_saliency e g s u t) as (u', t').
  destruct (kind u' =? GROUP); [intros H; injection H as <- _; eexists; split; [reflexivity|]; apply (res_kept_trans _ (vw u')); [exact S|apply visibility_res]|].
  destruct (is_program (kind u')); [|intros H; injection H as <- _; exists u'; auto].
  destruct (_update_activation g s u' t') as [(w, y)|] eqn:A; [|discriminate]. intros H. injection H as <- _. exists w. split; [reflexivity|]. apply activation_res in A. apply (res_kept_trans _ (vw u')); assumption.
Qed.
Lemma mon_get_view g a b oid : get_view (with_mon g a b) oid = get_view g oid.
Proof. reflexivity. Qed.
Lemma get_view_views g h oid : views g = views h -> get_view g oid = get_view h oid.
Proof. intros E. unfold get_view. rewrite E. reflexivity. Qed.
Lemma begin_get_view home e g oid : INV home g -> get_view (fst (update_begin e g)) oid = option_map (fun v => with_vw v (fold_left (asked_of oid) (pend g) (vw v))) (get_view g oid).
Proof.
  intros I. rewrite (get_view_views _ _ oid (begin_views e g)). rewrite (executes_get home) by exact I. reflexivity.
Qed.
Lemma update_fate home e g g' out oid v : INV home g -> update e g = Some (g', out) -> get_view g oid = Some v ->
  let w := fold_left (asked_of oid) (pend g) (vw v) in
  if invalid e oid then get_view g' oid = None
  else if planned e <=? ijt v then exists u, get_view g' oid = Some u /\ ijt u = ijt v /\ vcode (vw u) = vcode w /\ t_res (vw u) = t_res w
  else if flt fzero (snd (update_res w)) then exists u, get_view g' oid = Some u /\ res_kept (fst (update_res w)) (vw u)
  else get_view g' oid = None.
Proof.
  intros I U GV w. pose proof (update_inv home e g g' out I U) as I'. destruct (update_split e g g' out U) as (g1 & s & g2 & p & x & l & B & V & X & S & O). clear U.
  destruct (begin_quiet home e g I) as (Q1 & I1). pose proof (begin_get_view home e g oid I) as BG. rewrite B in Q1, I1, BG. cbn [fst] in Q1, I1, BG. clear B. rewrite GV in BG. cbn [option_map] in BG. fold w in BG.
  destruct (visit_places_spec _ _ _ _ _ _ _ order_nodup V) as (_ & _ & W). destruct (W (home oid) (in_order _)) as (q & q' & VA).
  pose proof (update_stats_bare e (with_new_ctl (with_newly g2 (p_newly p)) x) p (home oid)) as SB. rewrite S in SB. cbn [fst] in SB. rewrite views_with_newly in SB.
  rewrite (get_view_home home) in BG by exact I1. apply find_key in BG. destruct (I1 (home oid)) as (N1 & F1). destruct (F1 _ _ BG) as (K1 & _ & _). cbn [vid with_vw] in K1.
  destruct (visit_all_out _ _ _ _ _ _ _ _ VA N1 _ _ BG) as (y & y' & r & VV & RR). pose proof (visit_fate _ _ _ _ _ _ _ _ VV) as FT. cbn [vid ijt vw with_vw] in FT. rewrite <- K1 in FT.
  pose proof (visit_all_nodup _ _ _ _ _ _ _ _ VA N1) as N2. pose proof (bare_find _ _ oid SB) as BF. rewrite (get_view_home home) by exact I'.
  assert (NONE : r = None -> map_find (views g' (home oid)) oid = None).
  { intros ->. apply find_none in RR. rewrite RR in BF. exact BF. }
  assert (SOME : forall u, r = Some u -> exists u', map_find (views g' (home oid)) oid = Some u' /\ bare u u').
  { intros u ->. apply (find_in _ _ _ N2) in RR. rewrite RR in BF. exact BF. }
  destruct (invalid e oid); [apply NONE, FT|]. destruct (planned e <=? ijt v).
  - destruct (SOME _ FT) as (u & A & ((_ & J & _ & _ & C) & R)). exists u. split; [exact A|]. split; [exact J|]. split; [exact C|exact R].
  - destruct (flt fzero (snd (update_res w))); [|apply NONE, FT]. destruct FT as (u & E & K). destruct (SOME _ E) as (u' & A & ((_ & _ & _ & _ & C) & R)). exists u'. split; [exact A|].
    destruct K as (K1' & K2 & K3). split; [congruence|]. split; [unfold word in *; rewrite C; exact K2|rewrite C; exact K3].
Qed.
Definition safe (oid : Z) (o : pendop) : Prop := leaves_alone oid (AskView o).
Lemma view_mod_res w i x : i <> VIEW_RES -> t_res (view_mod w i x) = t_res w.
Proof. intros N. unfold view_mod. destruct (Nat.eqb i VIEW_SLN); [reflexivity|]. destruct (Nat.eqb_spec i VIEW_RES); [contradiction|]. repeat match goal with |- context [if ?b then _ else _] => destruct b end; reflexivity. Qed.
Lemma view_set_res w i x : i <> VIEW_RES -> t_res (view_set w i x) = t_res w.
Proof. intros N. unfold view_set. destruct (Nat.eqb i VIEW_SLN); [reflexivity|]. destruct (Nat.eqb_spec i VIEW_RES); [contradiction|]. repeat match goal with |- context [if ?b then _ else _] => destruct b end; reflexivity. Qed.
Lemma asked_safe oid l : forall w, Forall (safe oid) l -> vcode (fold_left (asked_of oid) l w) = vcode w /\ t_res (fold_left (asked_of oid) l w) = t_res w.
Proof.
  induction l as [|o l IH]; intros w H; cbn [fold_left]; [auto|]. inversion H as [|? ? S T]; subst. destruct (IH (asked_of oid w o) T) as (A & B). rewrite A, B. clear IH A B.
  destruct o as [j i x|j i x]; cbn [asked_of]; cbn in S; destruct (Z.eqb_spec j oid) as [E|E]; auto; (destruct S as [S|S]; [contradiction|]).
  - split; [apply view_mod_code|apply view_mod_res, S].
  - split; [apply view_set_code|apply view_set_res, S].
Qed.
Lemma asked_code oid l : forall w, vcode (fold_left (asked_of oid) l w) = vcode w.
Proof.
  induction l as [|o l IH]; intros w; cbn [fold_left]; [reflexivity|]. rewrite IH. destruct o; cbn [asked_of]; destruct (_ =? oid); try reflexivity; [apply view_mod_code|apply view_set_code].
Qed.
Lemma find_set_other m k v oid : k <> oid -> map_find (map_set m k v) oid = map_find m oid.
Proof.
  intros N. induction m as [|(j, w) m IH]; cbn [map_set map_find].
  - destruct (Z.eqb_spec k oid); [contradiction|reflexivity].
  - destruct (Z.eqb_spec j k) as [->|M]; cbn [map_find]; [destruct (Z.eqb_spec k oid); [contradiction|reflexivity]|]. destruct (j =? oid); [reflexivity|exact IH].
Qed.
Lemma find_erase_other m k oid : k <> oid -> map_find (map_erase m k) oid = map_find m oid.
Proof.
  intros N. induction m as [|(j, w) m IH]; cbn [map_erase map_find]; [reflexivity|].
  destruct (Z.eqb_spec j k) as [->|M]; cbn [map_find]; [destruct (Z.eqb_spec k oid); [contradiction|reflexivity]|]. destruct (j =? oid); [reflexivity|exact IH].
Qed.
Lemma existing_get home g j v t oid : INV home g -> j <> oid -> get_view (inject_existing g j v t) oid = get_view g oid.
Proof.
  intros I N. destruct (existing_views g j v t) as (g1 & E & [->|(l & ->)]); rewrite (get_view_views _ _ oid E); [reflexivity|].
  rewrite (change_get home) by (try exact I; intros w; repeat split). change (get_view (with_pend g l) oid) with (get_view g oid). destruct (get_view g oid); [|reflexivity]. cbn.
  destruct (Z.eqb_spec j oid); [contradiction|reflexivity].
Qed.
Lemma change_pend g oid f : pend (change_view g oid f) = pend g.
Proof. unfold change_view. destruct (place_holding g oid); reflexivity. Qed.
Lemma existing_pend g j v t : exists l, pend (inject_existing g j v t) = pend g ++ l /\ Forall (fun o => match o with PMod i _ _ | PSet i _ _ => i = j end) l.
Proof.
  unfold inject_existing. destruct (get_view g j) as [e|]; [|exists []; rewrite app_nil_r; auto]. cbn zeta. eexists. split.
  - unfold update_c_act, update_c_sln. match goal with |- context [if ?b then with_newly _ _ else _] => destruct b end; [change (pend (with_newly ?a ?b)) with (pend a)|]; rewrite !update_param_pend, change_pend; cbn [pend with_pend]; reflexivity.
  - cbn [app]. constructor; [reflexivity|]. constructor; [reflexivity|]. destruct (_ && _); [constructor; [reflexivity|constructor]|constructor].
Qed.
Lemma op_keeps_view home g o g' oid : proper home o -> brings o <> Some oid -> takes o <> Some oid -> (forall j v t, o = Existing j v t -> j <> oid) -> is_update o = false -> run_gop g o = Some g' -> INV home g -> get_view g' oid = get_view g oid.
Proof.
  intros P BR TK EX NU R I. pose proof (op_inv home g o g' P R I) as I'. destruct (brings o) as [k|] eqn:K.
  { destruct (arrival home g o k g' P K R) as (v & _ & _ & W & _). rewrite !(get_view_home home) by assumption. rewrite W. destruct (place_dec (home oid) (home k)) as [->|N]; [rewrite place_eqb_refl; apply find_set_other; congruence|rewrite place_eqb_neq by exact N; reflexivity]. }
  destruct o; try discriminate; cbn [run_gop] in R; injection R as <-.
  - apply get_view_views, group_mod_views.
  - apply get_view_views, group_set_views.
  - apply (existing_get home); [exact I|]. apply (EX oid0 v now eq_refl).
  - reflexivity.
  - rewrite !(get_view_home home) by assumption. unfold delete_view. destruct (place_of v) as [p|]; [|reflexivity]. cbn [views with_views]. destruct (place_dec (home oid) p) as [->|N]; [rewrite place_eqb_refl; apply find_erase_other|rewrite place_eqb_neq by exact N; reflexivity].
    cbn [takes] in TK. congruence.
Qed.
Lemma op_pend home g o g' : proper home o -> is_update o = false -> run_gop g o = Some g' -> exists l, pend g' = pend g ++ l /\ forall oid, leaves_alone oid o -> Forall (safe oid) l.
Proof.
  intros P NU R. destruct (brings o) as [k|] eqn:K.
  { destruct (arrival home g o k g' P K R) as (v & _ & _ & _ & (_ & _ & _ & E) & _). exists []. rewrite app_nil_r. auto. }
  destruct o; try discriminate; cbn [run_gop] in R; injection R as <-.
  - exists []. rewrite app_nil_r. split; [|auto]. destruct (param_of i) as [p|] eqn:Q; [rewrite (group_mod_param g i x p Q); reflexivity|apply (group_mod_near g i x Q)].
  - exists []. rewrite app_nil_r. split; [|auto]. destruct (param_of i) as [p|] eqn:Q; [rewrite (group_set_param g i x p Q); reflexivity|apply (group_set_near g i x Q)].
  - destruct (existing_pend g oid v now) as (l & E & F). exists l. split; [exact E|]. intros k N. cbn in N. clear - F N. induction F as [|o l H _ IH]; constructor; [|exact IH].
    destruct o as [j i x|j i x]; cbn; left; congruence.
  - exists [o]. split; [reflexivity|]. intros oid L. constructor; [exact L|constructor].
  - exists []. rewrite app_nil_r. split; [|auto]. unfold delete_view. destruct (place_of v); reflexivity.
Qed.
Lemma leaves_alone_parts oid o : leaves_alone oid o -> is_update o = false -> brings o <> Some oid /\ takes o <> Some oid /\ forall j v t, o = Existing j v t -> j <> oid.
Proof.
  intros L U. destruct o; try discriminate; cbn in L; try (split; [apply L|]; split; [apply L|]; discriminate).
  - split; [discriminate|]. split; [discriminate|]. intros j w t E. injection E as -> _ _. exact L.
  - split; [discriminate|]. split; [discriminate|]. discriminate.
Qed.
(** Absent views stay absent. *)
Lemma update_absent home e g g' out oid : INV home g -> update e g = Some (g', out) -> get_view g oid = None -> get_view g' oid = None.
Proof.
  intros I U H. pose proof (update_inv home e g g' out I U) as I'. rewrite (get_view_home home) in * by assumption. apply find_none. apply find_none in H. intros X. apply H, (update_ids home e g g' out I U), X.
Qed.
Definition DOWN (home : Z -> place) (oid n : Z) (g : group) : Prop :=
  INV home g /\ Forall (safe oid) (pend g) /\
  ((0 < n /\ exists v, get_view g oid = Some v /\ length (vcode (vw v)) = 13%nat /\ t_res (vw v) = no_tally /\ counts n (get_res (vw v))) \/ (n <= 0 /\ get_view g oid = None)).
Lemma down_step home oid n g o g' : n <= 8388608 -> proper home o -> leaves_alone oid o -> due oid g o -> run_gop g o = Some g' -> DOWN home oid n g -> DOWN home oid (if is_update o then n - 1 else n) g'.
Proof.
  intros B P L D R (I & S & H). split; [apply (op_inv home g o); assumption|]. destruct (is_update o) eqn:U.
  - destruct o; try discriminate. apply run_update in R. destruct R as (out & R). destruct (update_core e g g' out R) as (_ & _ & _ & PE & _). split; [rewrite PE; constructor|].
    destruct H as [(N & v & GV & LV & TV & CV)|(N & GV)]; [|right; split; [lia|apply (update_absent home e g g' out); assumption]].
    pose proof (update_fate home e g g' out oid v I R GV) as F. cbn zeta in F. destruct D as (D1 & D2). rewrite D1 in F. replace (planned e <=? ijt v) with false in F by (symmetry; apply Z.leb_gt, D2, GV).
    destruct (asked_safe oid (pend g) (vw v) S) as (A1 & A2). set (w := fold_left (asked_of oid) (pend g) (vw v)) in *. clearbody w.
    assert (CW : counts n (get_res w)) by (unfold get_res, word in *; rewrite A1; exact CV).
    destruct (update_res_counts w n) as (C1 & C2 & C3 & C4); [congruence|congruence|lia|exact CW|]. replace (Z.max 0 (n - 1)) with (n - 1) in C1 by lia.
    assert (SN : snd (update_res w) = get_res (fst (update_res w))) by exact C4. rewrite SN, (counts_positive (n - 1)) in F by (lia || exact C1).
    destruct (Z.ltb_spec 0 (n - 1)).
    + left. split; [lia|]. destruct F as (u & GU & (K1 & K2 & K3)). exists u. split; [exact GU|]. split; [congruence|]. split; [congruence|]. unfold get_res in *. rewrite K2. exact C1.
    + right. split; [lia|exact F].
  - destruct (op_pend home g o g' P U R) as (l & E & F). split; [rewrite E; apply Forall_app; split; [exact S|apply F, L]|].
    destruct (leaves_alone_parts oid o L U) as (L1 & L2 & L3). rewrite (op_keeps_view home g o g' oid P L1 L2 L3 U R I). exact H.
Qed.
Lemma down_runs home oid os : forall n g g', n <= 8388608 -> Forall (proper home) os -> Forall (leaves_alone oid) os -> always_due oid g os -> run_gops g os = Some g' -> DOWN home oid n g -> DOWN home oid (n - count_updates os) g'.
Proof.
  induction os as [|o os IH]; intros n g g' B P L D R H; cbn [run_gops always_due] in *.
  - injection R as <-. unfold count_updates. cbn. rewrite Z.sub_0_r. exact H.
  - inversion P; subst. inversion L; subst. destruct D as (D0 & D). destruct (run_gop g o) as [g1|] eqn:R1; [|discriminate].
    assert (E : n - count_updates (o :: os) = (if is_update o then n - 1 else n) - count_updates os) by (unfold count_updates; cbn [filter]; destruct (is_update o); cbn [length]; lia).
    rewrite E. apply (IH _ g1); try assumption; [destruct (is_update o); lia|]. apply (down_step home oid n g o); assumption.
Qed.
Lemma group_countdown home code a b os0 g oid v n os g' : Forall (proper home) os0 -> run_gops (new_group code a b) os0 = Some g ->
  get_view g oid = Some v -> length (vcode (vw v)) = 13%nat -> t_res (vw v) = no_tally -> word (vw v) VIEW_RES = init_res n -> 1 <= n <= 8388608 -> Forall (fun o => leaves_alone oid (AskView o)) (pend g) ->
  Forall (proper home) os -> Forall (leaves_alone oid) os -> always_due oid g os -> run_gops g os = Some g' ->
  (count_updates os < n -> exists u, get_view g' oid = Some u /\ feqb (get_res (vw u)) (f32_of_Z (n - count_updates os)) = true) /\ (n <= count_updates os -> get_view g' oid = None).
Proof.
  intros P0 R0 GV LV TV WV N S P L D R. pose proof (runs_inv home os0 _ _ P0 R0 (new_inv home code a b)) as I.
  assert (H : DOWN home oid n g).
  { split; [exact I|]. split; [exact S|]. left. split; [lia|]. exists v. split; [exact GV|]. split; [exact LV|]. split; [exact TV|]. unfold get_res. rewrite WV. apply init_res_counts. lia. }
  apply (down_runs home oid os n g g') in H; try assumption; [|lia]. destruct H as (_ & _ & [(A & u & GU & _ & _ & CU)|(A & GU)]).
  - split; [intros _|lia]. exists u. split; [exact GU|]. apply counts_eq; [|exact CU]. assert (0 <= count_updates os) by (unfold count_updates; lia). lia.
  - split; [lia|]. intros _. exact GU.
Qed.
(** Unlimited resilience. *)
Lemma asked_infinite oid l : forall w, word w VIEW_RES = PlusInfinity -> word (fold_left (asked_of oid) l w) VIEW_RES = PlusInfinity.
Proof. intros w H. unfold word in *. rewrite asked_code. exact H. Qed.
Definition STAY (home : Z -> place) (oid : Z) (g : group) : Prop := INV home g /\ exists v, get_view g oid = Some v /\ word (vw v) VIEW_RES = PlusInfinity.
Lemma infinite_res w : word w VIEW_RES = PlusInfinity -> update_res w = (w, infinite).
Proof. intros H. unfold update_res, get_res. rewrite H. replace (num PlusInfinity) with infinite by (vm_compute; reflexivity). reflexivity. Qed.
Lemma existing_word home g j v t oid u : INV home g -> get_view g oid = Some u -> exists u', get_view (inject_existing g j v t) oid = Some u' /\ word (vw u') VIEW_RES = word (vw u) VIEW_RES.
Proof.
  intros I G. destruct (existing_views g j v t) as (g1 & E & [->|(l & ->)]); rewrite (get_view_views _ _ oid E); [exists u; auto|].
  rewrite (change_get home) by (try exact I; intros w; repeat split). change (get_view (with_pend g l) oid) with (get_view g oid). rewrite G. cbn [option_map]. eexists. split; [reflexivity|].
  destruct (j =? oid); [|reflexivity]. cbn [vw with_ijt with_vw]. unfold word. cbn [vcode with_word]. apply put_other. vm_compute. discriminate.
Qed.
Lemma stay_step home oid g o g' : proper home o -> keeps oid o -> never_invalid oid o -> run_gop g o = Some g' -> STAY home oid g -> STAY home oid g'.
Proof.
  intros P (K1 & K2) V R (I & v & G & W). split; [apply (op_inv home g o); assumption|]. destruct (is_update o) eqn:U.
  - destruct o; try discriminate. apply run_update in R. destruct R as (out & R). cbn in V. pose proof (update_fate home e g g' out oid v I R G) as F. cbn zeta in F. rewrite V in F.
    pose proof (asked_infinite oid (pend g) (vw v) W) as AW. rewrite (infinite_res _ AW) in F. cbn [fst snd] in F. set (w := fold_left (asked_of oid) (pend g) (vw v)) in *. clearbody w.
    destruct (planned e <=? ijt v); [destruct F as (u & GU & _ & CU & _); exists u; split; [exact GU|]; unfold word in *; rewrite CU; exact AW|].
    replace (flt fzero infinite) with true in F by (vm_compute; reflexivity). destruct F as (u & GU & (_ & K & _)). exists u. split; [exact GU|]. congruence.
  - destruct o; try discriminate.
    1-8,10-11: exists v; split; [|exact W]; rewrite (op_keeps_view home g _ g' oid P K1 K2 ltac:(discriminate) eq_refl R I); exact G.
    cbn [run_gop] in R. injection R as <-. destruct (existing_word home g oid0 v0 now oid v I G) as (u & GU & WU). exists u. split; [exact GU|congruence].
Qed.
Lemma group_unlimited home code a b os0 g oid v n os g' : Forall (proper home) os0 -> run_gops (new_group code a b) os0 = Some g ->
  get_view g oid = Some v -> word (vw v) VIEW_RES = init_res n -> n < 0 ->
  Forall (proper home) os -> Forall (keeps oid) os -> Forall (never_invalid oid) os -> run_gops g os = Some g' -> exists u, get_view g' oid = Some u.
Proof.
  intros P0 R0 GV WV N P K V R. pose proof (runs_inv home os0 _ _ P0 R0 (new_inv home code a b)) as I.
  assert (H : STAY home oid g). { split; [exact I|]. exists v. split; [exact GV|]. rewrite WV. unfold init_res. replace (n <? 0) with true by (symmetry; apply Z.ltb_lt; exact N). reflexivity. }
  clear - P K V R H. revert g g' P K V R H. induction os as [|o os IH]; intros g g' P K V R H; cbn [run_gops] in R.
  - injection R as <-. destruct H as (_ & u & G & _). exists u. exact G.
  - inversion P; subst. inversion K; subst. inversion V; subst. destruct (run_gop g o) as [g1|] eqn:R1; [|discriminate]. apply (IH g1 g'); try assumption. apply (stay_step home oid g o); assumption.
Qed.
