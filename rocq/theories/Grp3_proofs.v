(** Proofs about newly salient views, flags, visibility, change monitoring and
    decay. *)
From Coq Require Import Floats.SpecFloat.
From Verif Require Import Base Float32 Float32_facts Float32_round Atom_model Obj_model Obj_spec Float32_val View_model View_spec View_proofs Grp_model Grp_spec Grp_proofs Grp_more Grp_one Grp2_spec Grp2_proofs.

(** ** Newly salient views *)
Lemma injected_newly g v made t : injectable (kind v) -> (kind v = INSTANTIATED_CPP_PROGRAM -> made = true) ->
  newly (inject g v made t) = newly g ++ (if flt (get g SlnThr) (get_sln (vw v)) && c_salient g && c_active g then [vid v] else []).
Proof.
  intros K M. unfold inject. cbn zeta. cbn [kind vid vw with_ijt]. fold (is_eligible_input g (vw v)).
  assert (F : forall h, newly h = newly g -> newly (if is_eligible_input g (vw v) then with_newly h (newly h ++ [vid v]) else h) = newly g ++ (if is_eligible_input g (vw v) then [vid v] else [])).
  { intros h E. destruct (is_eligible_input g (vw v)); [cbn [newly with_newly]; rewrite E; reflexivity|rewrite app_nil_r; exact E]. }
  assert (E : forall h, gcode h = gcode g -> is_eligible_input h (vw v) = is_eligible_input g (vw v)).
  { intros h E. unfold is_eligible_input, c_salient, c_active, get, gnum. rewrite E. reflexivity. }
  assert (K' : kind v = NULL_PROGRAM \/ kind v <> NULL_PROGRAM) by (destruct (Z.eq_dec (kind v) NULL_PROGRAM); auto).
  destruct (kind v =? NULL_PROGRAM); [rewrite E by reflexivity; apply F; reflexivity|]. destruct (_ || _ || _); [rewrite E by reflexivity; apply F; reflexivity|].
  destruct (Z.eqb_spec (kind v) INSTANTIATED_CPP_PROGRAM) as [C|C]; [rewrite (M C); rewrite E by reflexivity; apply F; reflexivity|].
  repeat match goal with |- context [if ?b then _ else _] => match b with is_eligible_input _ _ => fail 1 | _ => destruct b end end; try (rewrite E by reflexivity); apply F; reflexivity.
Qed.
Lemma visit_ijt e g s pl v u l : visit_fun e g s pl v = Some (Some u, l) -> ijt v < planned e -> 
  ijt u = (if is_c_salient s && flt (get g SlnThr) (get_sln (vw u)) && holds (get_sync (ub e) u) then now e else ijt v).
Proof.
  unfold visit_fun. cbn zeta. intros H D. destruct (invalid e (vid v)); [destruct (erased pl v); discriminate|]. replace (planned e <=? ijt v) with false in H by (symmetry; apply Z.leb_gt; exact D).
  destruct (flt fzero (res_val g v)); [|destruct (erased pl v); discriminate].
  assert (RJ : ijt (res_view g v) = ijt v) by (unfold res_view, g_update_res; destruct (update_res (vw v)); reflexivity).
  set (v1 := res_view g v) in *. destruct (sln_rest g v1) as (_ & _ & _ & _ & _ & SJ & _ & _ & _ & _ & _ & _ & SV).
  set (v2 := renewed e g s (sln_view g v1) (sln_val g v1)) in *.
  assert (W : vw v2 = vw (sln_view g v1)) by (unfold v2, renewed; destruct (_ && _); reflexivity).
  assert (HO : forall z, negb (once z) && holds z = holds z). { intros z. unfold once, holds, SYNC_ONCE, SYNC_ONCE_AXIOM, SYNC_PERIODIC, SYNC_HOLD, SYNC_AXIOM. destruct (Z.eqb_spec z 2) as [->|]; [reflexivity|]. destruct (Z.eqb_spec z 3) as [->|]; [reflexivity|]. cbn [orb]. apply andb_false_r. }
  assert (J : ijt v2 = if is_c_salient s && flt (get g SlnThr) (get_sln (vw v2)) && holds (get_sync (ub e) v2) then now e else ijt v).
  { assert (Y : get_sync (ub e) v2 = get_sync (ub e) (sln_view g v1)) by (unfold get_sync; rewrite W; reflexivity). rewrite Y, W, <- SV. unfold v2, renewed. rewrite <- !andb_assoc, HO, andb_assoc. destruct (_ && _); [reflexivity|]. congruence. }
  clearbody v2. destruct (kind v2 =? GROUP).
  - injection H as H1 _. rewrite <- H1. destruct (visibility_vw g s v2) as (_ & VJ & _ & _ & _ & VS & VY). rewrite VJ, VS, J. replace (get_sync (ub e) (_update_visibility g s v2)) with (get_sync (ub e) v2) by (unfold get_sync; rewrite VY; reflexivity). reflexivity.
  - destruct (is_program (kind v2)); [|injection H as H1 _; rewrite <- H1; exact J].
    destruct (activated g s _ _ _) as [w|] eqn:AC; [|discriminate]. injection H as H1 _. rewrite <- H1. destruct (activated_vw _ _ _ _ _ _ AC) as (AW & AJ & _). destruct (act_rest g v2) as (_ & _ & _ & _ & BS & BY & BJ).
    rewrite AJ, BJ, J. unfold get_sync. rewrite AW, BS, BY. reflexivity.
Qed.
Lemma begin_is e g g1 s : update_begin e g = (g1, s) -> (forall q, get g1 q = get (settled (ub e) (executed g)) q).
Proof.
  intros B q. destruct (begin_split e g) as (a & b & E). rewrite B in E. cbn [fst] in E. rewrite E. apply get_mon.
Qed.
Lemma renewed_injection home code a b os g e g' out k v w : Forall (proper home) os -> run_gops (new_group code a b) os = Some g -> update e g = Some (g', out) ->
  get_view g k = Some v -> ijt v < planned e -> get_view g' k = Some w ->
  ijt w = (if c_salient g' && salient g' w && holds (get_sync (ub e) w) then now e else ijt v).
Proof.
  intros P R U G D G'. pose proof (runs_inv home os _ _ P R (new_inv home code a b)) as I. destruct (update_core e g g' out U) as (GG & _). destruct (update_one home e g g' out I U) as (g1 & s & B & O). clear U.
  specialize (O k). rewrite G in O. destruct O as (r & l & V & GV & _). rewrite G' in GV. destruct r as [u|]; [|discriminate GV]. cbn [option_map] in GV. injection GV as ->.
  pose proof (visit_ijt _ _ _ _ _ _ _ V D) as J. cbn [ijt with_vw] in J.
  set (w := if place_eqb (home k) Ntf then u else looked g1 u) in *.
  assert (W : ijt w = ijt u /\ vcode (vw w) = vcode (vw u)) by (unfold w; destruct (place_eqb (home k) Ntf); [auto|destruct (looked_core g1 u) as (_ & _ & _ & X1 & _ & _ & X2); auto]). destruct W as (W1 & W2). clearbody w.
  rewrite W1, J. unfold salient, get_sync, get_sln, word. rewrite W2. rewrite (begin_is e g g1 s B), <- GG.
  pose proof (begin_state e g) as S. cbn zeta in S. rewrite B in S. cbn [snd] in S. rewrite S. cbn [is_c_salient]. replace (c_salient (settled (ub e) (executed g))) with (c_salient g') by (unfold c_salient; rewrite !GG; reflexivity). reflexivity.
Qed.

(** ** Flags *)
Lemma flags g i x : length (gcode g) = 32%nat -> In i [GRP_DCY_TGT; GRP_DCY_AUTO; GRP_NTF_NEW] ->
  gnum (group_set g i x) i = (if feqb x fzero || feqb x fone then kept x else gnum g i) /\ group_mod g i x = g.
Proof.
  intros L H. assert (LI : (i < 32)%nat) by (destruct H as [<-|[<-|[<-|[]]]]; vm_compute; lia). 
  assert (A : group_mod g i x = g /\ group_set g i x = _set_0_1 g i x) by (destruct H as [<-|[<-|[<-|[]]]]; split; reflexivity). destruct A as (-> & ->). split; [|reflexivity].
  unfold _set_0_1. destruct (feqb x fzero || feqb x fone) eqn:E.
  - unfold gput, gnum. cbn [gcode with_code]. rewrite put_same by lia. reflexivity.
  - reflexivity.
Qed.

(** ** Visibility *)
Definition sees (g : group) (a s : bool) (v : gview) : Prop :=
  kind v = GROUP -> seen v = if flt (get g VisThr) (get_vis (vw v)) && s && a then Some (get_cov v) else None.
Definition SEEN (g : group) : Prop := forall p k v, In (k, v) (views g p) -> sees g (c_active g) (c_salient g) v.
Lemma visibility_step g s v : sees g (was_c_active s) (was_c_salient s) v -> sees g (is_c_active s) (is_c_salient s) (_update_visibility g s v).
Proof.
  intros H K. destruct (visibility_vw g s v) as (_ & _ & _ & VK & _). rewrite VK in K. specialize (H K). clear VK. revert H. unfold _update_visibility, update_vis. cbn zeta. set (w1 := with_t_vis _ no_tally).
  assert (C : get_cov (with_vw v w1) = get_cov v).
  { unfold get_cov. cbn [kind with_vw vw]. destruct (kind v =? GROUP); [|reflexivity]. f_equal. unfold w1, word. cbn [vcode with_t_vis]. destruct (pending _); [|reflexivity]. cbn [vcode with_word]. apply put_other. vm_compute. discriminate. }
  rewrite C. assert (C' : forall x, get_cov (with_seen (with_vw v w1) x) = get_cov v) by (intros x; exact C).
  destruct (was_c_active s), (was_c_salient s), (is_c_active s), (is_c_salient s); cbn [andb orb negb]; destruct (flt (get g VisThr) (get_vis (vw v))), (flt (get g VisThr) (get_vis w1)) eqn:F; cbn [andb orb negb]; intros H; cbn [seen with_seen with_vw vw]; rewrite ?F; cbn [andb]; rewrite ?C', ?C; try reflexivity; try exact H.
Qed.
Lemma visit_sees e g s pl v u l : visit_fun e g s pl v = Some (Some u, l) -> ijt v < planned e -> sees g (was_c_active s) (was_c_salient s) v -> sees g (is_c_active s) (is_c_salient s) u.
Proof.
  intros H D T K. destruct (visit_kind _ _ _ _ _ _ _ H) as (_ & KU & _). rewrite KU in K. specialize (T K). revert H.
  unfold visit_fun. cbn zeta. intros H. destruct (invalid e (vid v)); [destruct (erased pl v); discriminate|]. replace (planned e <=? ijt v) with false in H by (symmetry; apply Z.leb_gt; exact D).
  destruct (flt fzero (res_val g v)); [|destruct (erased pl v); discriminate]. destruct (res_counts g v) as (_ & _ & _ & _ & _ & RS & RV & _ & RC & _). destruct (res_same_place g v) as (_ & RK & _). set (v1 := res_view g v) in *.
  destruct (sln_rest g v1) as (_ & _ & _ & _ & _ & _ & _ & SS & SV & _ & SC & _). destruct (sln_same_place g v1) as (_ & SK & _).
  set (v2 := renewed e g s (sln_view g v1) (sln_val g v1)) in *.
  assert (W : vw v2 = vw (sln_view g v1) /\ seen v2 = seen (sln_view g v1) /\ kind v2 = kind (sln_view g v1)) by (clear; unfold v2, renewed; destruct (_ && _); repeat split). destruct W as (W1 & W2 & W3). clearbody v2.
  assert (K2 : kind v2 = GROUP) by congruence. rewrite K2, Z.eqb_refl in H. injection H as H1 _. rewrite <- H1.
  assert (T2 : sees g (was_c_active s) (was_c_salient s) v2).
  { intros _. rewrite W2, SS, RS, T. unfold get_vis, get_cov. rewrite K2, K, W1, SV, RV, SC, RC. reflexivity. }
  apply (visibility_step g s v2 T2). rewrite H1. congruence.
Qed.
Lemma sees_get g h a s v : get h VisThr = get g VisThr -> sees g a s v -> sees h a s v.
Proof. intros E T K. rewrite (T K), E. reflexivity. Qed.
Lemma sees_core g a s v w : kind w = kind v -> seen w = seen v -> vcode (vw w) = vcode (vw v) -> sees g a s v -> sees g a s w.
Proof. intros K S C T KW. rewrite K in KW. rewrite S, (T KW). unfold get_vis, get_cov, word. rewrite C, K. reflexivity. Qed.
Lemma update_seen home e g g' out : INV home g -> act_in_order e = true -> sln_in_order e = true -> all_due e g -> changes (tal g VisThr) = 0 -> update e g = Some (g', out) -> SEEN g ->
  SEEN g' /\ get g' VisThr = get g VisThr /\ tal g' VisThr = no_tally.
Proof.
  intros I OA OS D C U T. pose proof (update_inv home e g g' out I U) as I'. destruct (update_core e g g' out U) as (G & TT & _). destruct (update_one home e g g' out I U) as (g1 & s & B & O). clear U.
  pose proof (begin_is e g g1 s B) as G1.
  assert (EA : get g1 VisThr = get g VisThr). { rewrite G1, settled_quiet_param by (discriminate || (rewrite executed_tal; exact C)). apply executed_get. }
  assert (EB : get g' VisThr = get g1 VisThr) by (rewrite G, G1; reflexivity).
  split; [|split; [congruence|rewrite TT, settled_tal; reflexivity]].
  pose proof (begin_state e g) as S. cbn zeta in S. rewrite B in S. cbn [snd] in S. rewrite OA, OS in S.
  assert (CA : c_active (executed g) = c_active g) by (unfold c_active; rewrite !executed_get; reflexivity).
  assert (CS : c_salient (executed g) = c_salient g) by (unfold c_salient; rewrite !executed_get; reflexivity).
  rewrite CA, CS in S. assert (CA' : c_active (settled (ub e) (executed g)) = c_active g') by (unfold c_active; rewrite !G; reflexivity).
  assert (CS' : c_salient (settled (ub e) (executed g)) = c_salient g') by (unfold c_salient; rewrite !G; reflexivity). rewrite CA', CS' in S.
  intros p k w H. destruct (I' p) as (ND & F). destruct (F k w H) as (_ & _ & HK). assert (GW : get_view g' k = Some w) by (rewrite (get_view_home home) by exact I'; rewrite HK; apply find_in; assumption).
  specialize (O k). destruct (get_view g k) as [v|] eqn:GV; [|destruct O as (N & _); congruence]. destruct O as (r & l & V & GX & _). rewrite GW in GX. destruct r as [u|]; [|discriminate GX]. cbn [option_map] in GX.
  rewrite (get_view_home home) in GV by exact I. apply find_key in GV. pose proof (T _ _ _ GV) as T0.
  set (v' := with_vw v (fold_left (asked_of k) (pend g) (vw v))) in *.
  assert (T1 : sees g1 (was_c_active s) (was_c_salient s) v').
  { apply (sees_get g g1 _ _ _ EA). rewrite S. cbn [was_c_active was_c_salient]. apply (sees_core _ _ _ v); try reflexivity; [|exact T0]. unfold v'. cbn [vw with_vw]. apply asked_code. }
  assert (J : ijt v' < planned e) by (change (ijt v < planned e); apply D; apply (in_all g (home k) k v), GV). pose proof (visit_sees _ _ _ _ _ _ _ V J T1) as TU. rewrite S in TU. cbn [is_c_active is_c_salient] in TU.
  apply (sees_get g1 g' _ _ _ EB). assert (EW : w = if place_eqb (home k) Ntf then u else looked g1 u) by congruence. rewrite EW. destruct (place_eqb (home k) Ntf); [exact TU|]. destruct (looked_core g1 u) as (_ & LK & _ & _ & _ & LS & LC). apply (sees_core _ _ _ u); assumption.
Qed.
Lemma set_weak m k v j w : In (j, w) (map_set m k v) -> w = v \/ In (j, w) m.
Proof. induction m as [|(i, u) m IH]; cbn; [intros [E|[]]; inversion E; auto|]. destruct (i =? k); cbn; intros [E|E]; [inversion E; auto|auto|auto|destruct (IH E); auto]. Qed.
Lemma with_set_in g p k u q j w : In (j, w) (views (with_views g p (map_set (views g p) k u)) q) -> w = u \/ In (j, w) (views g q).
Proof. cbn [views with_views]. destruct (place_dec q p) as [->|D]; [rewrite place_eqb_refl; apply set_weak|rewrite place_eqb_neq by exact D; auto]. Qed.
Lemma not_group_sees g a s v : kind v <> GROUP -> sees g a s v.
Proof. intros N K. contradiction. Qed.
Lemma brought_sees home g o g' : proper home o -> clear_op g o -> (exists k, brings o = Some k) -> run_gop g o = Some g' ->
  forall p j w, In (j, w) (views g' p) -> sees g (c_active g) (c_salient g) w \/ In (j, w) (views g p).
Proof.
  intros P C (k & B) R p j w H. destruct o; try discriminate B; cbn [run_gop] in R; injection R as <-; cbn [clear_op] in C.
  - unfold load in H. cbn zeta in H. destruct (Z.eqb_spec (kind v) GROUP) as [K|K].
    + apply with_set_in in H. destruct H as [->|H]; [left|right; exact H]. intros _. specialize (C K). destruct (flt (get g VisThr) (get_vis (vw v))) eqn:F; destruct (c_active g), (c_salient g); cbn [andb seen with_seen vw]; rewrite ?F; cbn [andb]; reflexivity || exact C.
    + repeat match type of H with context [if ?b then _ else _] => destruct b end; try (right; exact H); apply with_set_in in H; (destruct H as [->|H]; [left; apply not_group_sees; exact K|right; exact H]).
  - cbn [proper] in P. destruct P as (_ & L & _). assert (K : kind v <> GROUP) by (intros E; rewrite E in L; vm_compute in L; intuition discriminate).
    assert (F : forall h, In (j, w) (views (if is_eligible_input h (vw (with_ijt v now)) then with_newly h (newly h ++ [vid (with_ijt v now)]) else h) p) -> In (j, w) (views h p)) by (intros h; destruct (is_eligible_input h _); auto).
    assert (Q : forall pl u, kind u <> GROUP -> In (j, w) (views (with_views g pl (map_set (views g pl) (vid (with_ijt v now)) u)) p) -> sees g (c_active g) (c_salient g) w \/ In (j, w) (views g p)).
    { intros pl u KU X. apply with_set_in in X. destruct X as [->|X]; [left; apply not_group_sees, KU|right; exact X]. }
    unfold inject in H. cbn zeta in H.
    destruct (kind (with_ijt v now) =? NULL_PROGRAM); [apply F in H; apply Q in H; [exact H|destruct (is_active_pgm g _); exact K]|].
    destruct (_ || _ || _) in H; [apply F in H; apply Q in H; [exact H|exact K]|]. destruct (_ =? INSTANTIATED_CPP_PROGRAM) in H; [destruct made; [apply F in H|]; apply Q in H; (exact H || exact K)|].
    destruct (_ =? INSTANTIATED_ANTI_PROGRAM) in H; [apply F in H; apply Q in H; [exact H|exact K]|]. destruct (_ =? INSTANTIATED_INPUT_LESS_PROGRAM) in H; [apply F in H; apply Q in H; [exact H|exact K]|].
    destruct (_ || _) in H; [apply F in H; apply Q in H; [exact H|exact K]|]. apply F in H. right. exact H.
  - cbn [proper] in P. destruct P as (_ & L & _). assert (K : kind v <> GROUP) by (intros E; rewrite E in L; vm_compute in L; intuition discriminate).
    unfold inject_hlp in H. cbn zeta in H. destruct (_ || _) in H; [|right; exact H]. apply with_set_in in H. destruct H as [->|H]; [left; apply not_group_sees; exact K|right; exact H].
  - contradiction.
  - unfold inject_notification in H. apply with_set_in in H. destruct H as [->|H]; [left; apply not_group_sees; exact C|right; exact H].
  - cbn [proper] in P. destruct P as (_ & L & _). unfold load_secondary in H. apply with_set_in in H. destruct H as [->|H]; [left; apply not_group_sees; cbn [kind]; rewrite L; discriminate|right; exact H].
Qed.
Lemma sees_all g g' a s v : (forall q, get g' q = get g q) -> sees g a s v -> sees g' a s v.
Proof. intros E. apply sees_get, E. Qed.
Definition CLEAR (home : Z -> place) (g : group) : Prop := INV home g /\ SEEN g /\ changes (tal g VisThr) = 0.
Lemma c_same g g' : (forall q, get g' q = get g q) -> c_active g' = c_active g /\ c_salient g' = c_salient g.
Proof. intros E. unfold c_active, c_salient. rewrite !E. auto. Qed.
Lemma clear_step home g o g' : proper home o -> clear_op g o -> run_gop g o = Some g' -> CLEAR home g -> CLEAR home g'.
Proof.
  intros P C R (I & T & N). assert (I' : INV home g') by (apply (op_inv home g o); assumption). split; [exact I'|].
  assert (KEEP : (forall q, get g' q = get g q) -> (forall p j w, In (j, w) (views g' p) -> sees g (c_active g) (c_salient g) w \/ In (j, w) (views g p)) -> SEEN g').
  { intros E H p j w X. destruct (c_same g g' E) as (-> & ->). apply (sees_all g g' _ _ _ E). destruct (H p j w X) as [Y|Y]; [exact Y|apply (T p j w Y)]. }
  destruct (brings o) as [k|] eqn:K.
  { destruct (arrival home g o k g' P K R) as (v & V & PV & W & (C1 & C2 & _) & RC). split; [|rewrite C2; exact N]. apply KEEP; [intros q; apply same_get, C1|]. apply (brought_sees home g o g' P C); [exists k; exact K|exact R]. }
  destruct o; try discriminate K.
  - cbn [run_gop] in R. injection R as <-. cbn [clear_op] in C. destruct (param_of i) as [q|] eqn:Q.
    + rewrite (group_mod_param g i x q Q). split; [exact T|]. cbn [tal mod_param with_tal]. rewrite gparam_eqb_neq; [exact N|]. intros <-. apply C, (param_of_index i VisThr Q).
    + pose proof (group_mod_near g i x Q) as X. split; [|destruct X as (-> & _); exact N]. apply KEEP; [intros q; apply (near_get _ _ _ _ X Q)|]. intros p j w H. rewrite group_mod_views in H. right. exact H.
  - cbn [run_gop] in R. injection R as <-. cbn [clear_op] in C. destruct (param_of i) as [q|] eqn:Q.
    + rewrite (group_set_param g i x q Q). split; [exact T|]. cbn [tal set_param with_tal]. rewrite gparam_eqb_neq; [exact N|]. intros <-. apply C, (param_of_index i VisThr Q).
    + pose proof (group_set_near g i x Q) as X. split; [|destruct X as (-> & _); exact N]. apply KEEP; [intros q; apply (near_get _ _ _ _ X Q)|]. intros p j w H. rewrite group_set_views in H. right. exact H.
  - contradiction.
  - cbn [run_gop] in R. injection R as <-. split; [exact T|exact N].
  - cbn [run_gop] in R. injection R as <-. unfold delete_view in *. destruct (place_of v) as [p|]; [|split; [exact T|exact N]]. split; [|exact N].
    intros q k w H. cbn [views with_views] in H. destruct (place_dec q p) as [->|D]; [rewrite place_eqb_refl in H; apply erase_in in H; [|apply I]; apply (T p k w), H|rewrite place_eqb_neq in H by exact D; apply (T q k w H)].
  - apply run_update in R. destruct R as (out & U). cbn [clear_op] in C. destruct C as (OA & OS & D). destruct (update_seen home e g g' out I OA OS D N U T) as (T' & A' & N'). split; [exact T'|]. rewrite N'. reflexivity.
Qed.
Lemma visibility home code a b os g : Forall (proper home) os -> clear (new_group code a b) os -> run_gops (new_group code a b) os = Some g -> sight_right g.
Proof.
  intros P C R. assert (H : CLEAR home (new_group code a b)) by (split; [apply new_inv|]; split; [intros p k v []|reflexivity]).
  assert (F : CLEAR home g).
  { revert P C R H. generalize (new_group code a b). induction os as [|o os IH]; intros g0 P C R H; cbn [run_gops clear] in *; [injection R as <-; exact H|]. inversion P; subst. destruct C as (C0 & C). destruct (run_gop g0 o) as [g1|] eqn:R1; [|discriminate R]. apply (IH g1); try assumption. apply (clear_step home g0 o); assumption. }
  clear H. destruct F as (_ & T & _). intros v H K. apply in_all_views in H. destruct H as (p & k & H). rewrite (T p k v H K). reflexivity.
Qed.
