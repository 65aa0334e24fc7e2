(** Statistics, newly salient views and monitoring of groups; refutations. *)
From Coq Require Import Floats.SpecFloat.
From Verif Require Import Base Float32 Float32_facts Atom_model Obj_model Obj_spec Float32_val View_model View_spec View_proofs Grp_model Grp_spec Grp_proofs.

(** ** What the visit of a view adds to the statistics and to the newly salient views *)
Definition fresh_view (e : env) (g : group) (s : gstate) (v w : gview) : bool :=
  is_c_salient s && flt (get g SlnThr) (get_sln (vw w)) &&
  (if once (get_sync (ub e) w) then negb (flt (former_sln_thr s) (get_sln (vw v))) else holds (get_sync (ub e) w)).
Lemma sln_of_code a b : vcode a = vcode b -> get_sln a = get_sln b.
Proof. intros H. unfold get_sln, word. rewrite H. reflexivity. Qed.
Lemma res_effect g v p : let '(w, _, q) := g_update_res g v p in get_sln (vw w) = get_sln (vw v) /\ word (vw w) VIEW_SYNC = word (vw v) VIEW_SYNC /\ st_sln q = st_sln p /\ st_act q = st_act p /\ p_newly q = p_newly p.
Proof.
  unfold g_update_res. assert (R : get_sln (fst (update_res (vw v))) = get_sln (vw v) /\ word (fst (update_res (vw v))) VIEW_SYNC = word (vw v) VIEW_SYNC).
  { unfold update_res. destruct (feqb (get_res (vw v)) _); [split; reflexivity|]. cbn zeta. cbn [fst]. unfold get_sln, word. cbn [vcode with_t_res with_word]. rewrite !put_other by (vm_compute; discriminate). split; reflexivity. }
  destruct (update_res (vw v)) as (w, r). cbn [fst] in R. cbn [vw with_vw]. split; [apply R|]. split; [apply R|]. destruct (_ && _ && _); repeat split.
Qed.
Lemma g_sln_effect g v p : let '(w, x, q) := g_update_sln g v p in x = get_sln (vw w) /\ word (vw w) VIEW_SYNC = word (vw v) VIEW_SYNC /\ st_sln q = count (st_sln p) x /\ st_act q = st_act p /\ p_newly q = p_newly p.
Proof.
  unfold g_update_sln. cbn zeta. match goal with |- context [update_sln ?x _ _] => set (w0 := x) end. assert (E : word w0 VIEW_SYNC = word (vw v) VIEW_SYNC) by (unfold w0; destruct (_ && _); reflexivity).
  assert (R : let (w, x) := update_sln w0 (gnum g GRP_LOW_SLN_THR) (gnum g GRP_HIGH_SLN_THR) in x = get_sln w /\ word w VIEW_SYNC = word w0 VIEW_SYNC).
  { unfold update_sln. cbn zeta. split; [reflexivity|]. unfold word. cbn [vcode with_p_sln with_t_sln]. destruct (pending (t_sln w0)); [|reflexivity]. cbn [vcode with_word]. apply put_other. vm_compute. discriminate. }
  rewrite E in R. clear E. clearbody w0. destruct (update_sln w0 _ _) as (w, r). destruct R as (R1 & R2).
  destruct (ntf v); [repeat split; assumption|]. destruct (feqb _ _); [repeat split; assumption|]. destruct (feqb _ _); repeat split; assumption.
Qed.
Lemma sync_of_word u v w : word (vw w) VIEW_SYNC = word (vw v) VIEW_SYNC -> get_sync u w = get_sync u v.
Proof. intros H. unfold get_sync. rewrite H. reflexivity. Qed.
Lemma saliency_effect e g s v p : let '(w, q) := _update_saliency e g s v p in
  word (vw w) VIEW_SYNC = word (vw v) VIEW_SYNC /\ st_sln q = count (st_sln p) (get_sln (vw w)) /\ st_act q = st_act p /\ p_newly q = p_newly p ++ (if fresh_view e g s v w then [vid w] else []).
Proof.
  unfold _update_saliency. pose proof (g_sln_effect g v p) as E. destruct (g_update_sln g v p) as ((w, r), q). destruct E as (R & W & S1 & S2 & S3). subst r.
  set (G := get_sync (ub e) w). change ((G =? SYNC_ONCE) || (G =? SYNC_ONCE_AXIOM) || (G =? SYNC_PERIODIC)) with (once G). change ((G =? SYNC_HOLD) || (G =? SYNC_AXIOM)) with (holds G).
  destruct (is_c_salient s) eqn:CS.
  2:{ unfold fresh_view. rewrite CS. cbn [andb]. rewrite app_nil_r. auto. }
  assert (X : forall u, vw u = vw w -> fresh_view e g s v u = flt (get g SlnThr) (get_sln (vw w)) && (if once G then negb (flt (former_sln_thr s) (get_sln (vw v))) else holds G)).
  { intros u U. unfold fresh_view. rewrite CS, U. cbn [andb]. replace (get_sync (ub e) u) with G by (unfold G; symmetry; apply sync_of_word; rewrite U; reflexivity). reflexivity. }
  destruct (flt (get g SlnThr) (get_sln (vw w))); [destruct (once G); [destruct (flt (former_sln_thr s) (get_sln (vw v)))|destruct (holds G)]|]; destruct (is_c_active s); rewrite X by reflexivity; cbn [andb negb];
  cbn [st_sln st_act p_newly vw with_ijt vid]; rewrite ?app_nil_r, ?S3; auto.
Qed.
Lemma g_act_effect g v p : let '(w, x, q) := g_update_act g v p in x = get_act (vw w) /\ get_sln (vw w) = get_sln (vw v) /\ word (vw w) VIEW_SYNC = word (vw v) VIEW_SYNC /\ vid w = vid v /\ st_sln q = st_sln p /\ st_act q = count (st_act p) x /\ p_newly q = p_newly p.
Proof.
  unfold g_update_act. assert (R : let (w, x) := update_act (vw v) (gnum g GRP_LOW_ACT_THR) (gnum g GRP_HIGH_ACT_THR) in x = get_act w /\ get_sln w = get_sln (vw v) /\ word w VIEW_SYNC = word (vw v) VIEW_SYNC).
  { unfold update_act. cbn zeta. split; [reflexivity|]. unfold get_sln, word. cbn [vcode with_p_act with_t_act]. destruct (pending (t_act (vw v))); [|split; reflexivity]. cbn [vcode with_word]. rewrite !put_other by (vm_compute; discriminate). split; reflexivity. }
  destruct (update_act (vw v) _ _) as (w, r). destruct R as (R1 & R2 & R3). cbn zeta. destruct (ntf v); [repeat split; assumption|]. destruct (feqb _ _); [repeat split; assumption|]. destruct (feqb _ _); repeat split; assumption.
Qed.
Lemma activation_effect g s v p w q : _update_activation g s v p = Some (w, q) ->
  get_sln (vw w) = get_sln (vw v) /\ word (vw w) VIEW_SYNC = word (vw v) VIEW_SYNC /\ vid w = vid v /\ st_sln q = st_sln p /\ st_act q = count (st_act p) (get_act (vw w)) /\ p_newly q = p_newly p.
Proof.
  unfold _update_activation. pose proof (g_act_effect g v p) as E. destruct (g_update_act g v p) as ((u, r), t). destruct E as (R & A & B & C & D & F & G). subst r.
  repeat match goal with |- context [if ?b then _ else _] => destruct b end; destruct (ctl u); intros H; try discriminate; injection H as <- <-; cbn [vw with_ctl vid st_sln st_act p_newly]; auto 10.
Qed.
Lemma visibility_effect g s v : get_sln (vw (_update_visibility g s v)) = get_sln (vw v) /\ word (vw (_update_visibility g s v)) VIEW_SYNC = word (vw v) VIEW_SYNC /\ vid (_update_visibility g s v) = vid v.
Proof.
  unfold _update_visibility. assert (R : get_sln (fst (update_vis (vw v))) = get_sln (vw v) /\ word (fst (update_vis (vw v))) VIEW_SYNC = word (vw v) VIEW_SYNC).
  { unfold update_vis. cbn zeta. cbn [fst]. unfold get_sln, word. destruct (pending (t_vis (vw v))); [|split; reflexivity]. cbn [vcode with_word with_t_vis]. rewrite !put_other by (vm_compute; discriminate). split; reflexivity. }
  destruct (update_vis (vw v)) as (w, r). cbn [fst] in R. cbn zeta. repeat match goal with |- context [if ?b then _ else _] => destruct b end; (split; [apply R|]; split; [apply R|reflexivity]).
Qed.
Definition effect (e : env) (g : group) (s : gstate) (v : gview) (r : option gview) (p q : progress) : Prop :=
  match r with
  | None => st_sln q = st_sln p /\ st_act q = st_act p /\ p_newly q = p_newly p
  | Some w => st_sln q = count (st_sln p) (get_sln (vw w)) /\ st_act q = (if is_program (kind w) then count (st_act p) (get_act (vw w)) else st_act p) /\
              p_newly q = p_newly p ++ (if fresh_view e g s v w then [vid w] else [])
  end.
Lemma fresh_same e g s v v' w w' : get_sln (vw v') = get_sln (vw v) -> get_sln (vw w') = get_sln (vw w) -> word (vw w') VIEW_SYNC = word (vw w) VIEW_SYNC -> fresh_view e g s v' w' = fresh_view e g s v w.
Proof. intros A B C. unfold fresh_view. rewrite A, B, (sync_of_word _ w w' C). reflexivity. Qed.
Lemma visit_effect e g s pl v p r q : ijt v < planned e -> visit e g s pl v p = Some (r, q) -> effect e g s v r p q.
Proof.
  intros J. unfold visit. assert (NIL : forall (x q' : progress), (match place_of v with Some y => if place_eqb y pl then Some (None, x) else None | None => None end) = Some (r, q') -> r = None /\ q' = x).
  { intros x q'. destruct (place_of v) as [y|]; [|discriminate]. destruct (place_eqb y pl); [|discriminate]. intros H. injection H as <- <-. auto. }
  destruct (invalid e (vid v)); [intros H; apply NIL in H; destruct H as (-> & ->); repeat split|].
  replace (planned e <=? ijt v) with false by (symmetry; apply Z.leb_gt; exact J).
  pose proof (res_effect g v p) as R. destruct (g_update_res g v p) as ((u, x), t). destruct R as (R1 & R2 & R3 & R4 & R5).
  destruct (flt fzero x); [|intros H; apply NIL in H; destruct H as (-> & ->); repeat split; assumption].
  pose proof (sln_frame e g s u t) as F. pose proof (saliency_effect e g s u t) as E. destruct (_update_saliency e g s u t) as (u', t'). destruct F as ((FV & FK & _) & _). destruct E as (E0 & E1 & E2 & E3).
  rewrite R3 in E1. rewrite R4 in E2. rewrite R5 in E3.
  assert (FR : fresh_view e g s v u' = fresh_view e g s u u') by (apply fresh_same; [symmetry; exact R1|reflexivity|reflexivity]).
  destruct (Z.eqb_spec (kind u') GROUP) as [EG|NG].
  { intros H. injection H as <- <-. destruct (visibility_effect g s u') as (V1 & V2 & V3). destruct (vis_frame g s u') as ((_ & VK & _) & _). cbn [effect]. rewrite V1, V3, VK, EG. cbn [is_program]. split; [exact E1|]. split; [exact E2|].
    rewrite (fresh_same e g s v v u' _ eq_refl V1 V2), FR. exact E3. }
  destruct (is_program (kind u')) eqn:PK.
  - destruct (_update_activation g s u' t') as [(w, y)|] eqn:A; [|discriminate]. intros H. injection H as <- <-. pose proof (proj1 (act_frame _ _ _ _ _ _ A)) as (_ & AK & _).
    destruct (activation_effect g s u' t' w y A) as (A1 & A2 & A3 & A4 & A5 & A6). cbn [effect]. rewrite AK, PK, A1, A3, A4, A5, A6. split; [exact E1|]. split; [rewrite E2; reflexivity|].
    rewrite (fresh_same e g s v v u' w eq_refl A1 A2), FR. exact E3.
  - intros H. injection H as <- <-. cbn [effect]. rewrite PK, FR. auto.
Qed.

(** ** Statistics over all the views *)
Definition counted (l : list spec_float) (s : stats) : stats := fold_left count l s.
Lemma visit_all_counts e g s pl m : forall p m' p', (forall k v, In (k, v) m -> ijt v < planned e) -> visit_all e g s pl m p = Some (m', p') ->
  st_sln p' = counted (slns (map snd m')) (st_sln p) /\ st_act p' = counted (acts (map snd m')) (st_act p).
Proof.
  induction m as [|(j, u) m IH]; intros p m' p' D H; cbn [visit_all] in H; [injection H as <- <-; split; reflexivity|].
  destruct (visit e g s pl u p) as [(r, t)|] eqn:V; [|discriminate]. destruct (visit_all e g s pl m t) as [(m2, t2)|] eqn:A; [|discriminate]. injection H as <- <-.
  apply visit_effect in V; [|apply (D j u), or_introl, eq_refl]. destruct (IH t m2 t2 (fun k v X => D k v (or_intror X)) A) as (I1 & I2). rewrite I1, I2. destruct r as [w|]; destruct V as (V1 & V2 & _); rewrite V1, V2; [|split; reflexivity].
  cbn [map snd slns]. unfold counted. cbn [fold_left]. split; [reflexivity|]. unfold acts. cbn [filter]. destruct (is_program (kind w)); reflexivity.
Qed.
Lemma slns_app a b : slns (a ++ b) = slns a ++ slns b.
Proof. apply map_app. Qed.
Lemma acts_app a b : acts (a ++ b) = acts a ++ acts b.
Proof. unfold acts. rewrite filter_app. apply map_app. Qed.
Lemma counted_app a b s : counted (a ++ b) s = counted b (counted a s).
Proof. apply fold_left_app. Qed.
Definition gather (g : group) (pls : list place) : list gview := concat (map (fun p => map snd (views g p)) pls).
Lemma visit_places_counts e s pls : forall g p g' p', NoDup pls -> (forall pl k v, In pl pls -> In (k, v) (views g pl) -> ijt v < planned e) -> visit_places e g s pls p = Some (g', p') ->
  st_sln p' = counted (slns (gather g' pls)) (st_sln p) /\ st_act p' = counted (acts (gather g' pls)) (st_act p).
Proof.
  induction pls as [|a pls IH]; intros g p g' p' N D V; [cbn [visit_places] in V; injection V as <- <-; split; reflexivity|].
  cbn [visit_places] in V. destruct (visit_all e g s a (views g a) p) as [(m, t)|] eqn:E; [|discriminate]. inversion N as [|? ? NI ND]; subst.
  destruct (visit_all_counts _ _ _ _ _ _ _ _ (fun k v X => D a k v (or_introl eq_refl) X) E) as (C1 & C2).
  destruct (visit_places_spec e s pls _ _ _ _ ND V) as (_ & SA & _).
  assert (VA : views g' a = m) by (rewrite SA by exact NI; cbn [views with_views]; rewrite place_eqb_refl; reflexivity).
  destruct (IH (with_views g a m) t g' p' ND) as (I1 & I2); [|exact V|].
  - intros pl k v Q Y. cbn [views with_views] in Y. rewrite place_eqb_neq in Y by (intros ->; contradiction). apply (D pl k v); [right; exact Q|exact Y].
  - rewrite I1, I2, C1, C2. unfold gather. cbn [map concat]. rewrite VA, slns_app, acts_app, !counted_app. split; reflexivity.
Qed.
Lemma gather_order g : gather g order = all_views g.
Proof. unfold gather, order, all_views. cbn [map concat]. rewrite !map_app, app_nil_r. reflexivity. Qed.
Lemma quiet_slns m m' : Forall2 quiet_kv m m' -> slns (map snd m') = slns (map snd m) /\ acts (map snd m') = acts (map snd m).
Proof.
  induction 1 as [|(i, v) (j, w) m m' (_ & (_ & K & _) & _ & _ & _ & C) _ (IH1 & IH2)]; [split; reflexivity|]. cbn [map snd] in *. cbn [slns map]. unfold acts in *. cbn [filter]. rewrite K. split.
  - fold (slns (map snd m')). fold (slns (map snd m)). rewrite IH1, (sln_of_code _ _ C). reflexivity.
  - destruct (is_program (kind v)); cbn [map]; rewrite IH2; [rewrite (act_of_code _ _ C); reflexivity|reflexivity].
Qed.
Lemma quiet_gather g g' pls : quiet_group g g' -> slns (gather g' pls) = slns (gather g pls) /\ acts (gather g' pls) = acts (gather g pls).
Proof.
  intros Q. unfold gather. induction pls as [|a pls (IH1 & IH2)]; [split; reflexivity|]. cbn [map concat]. rewrite !slns_app, !acts_app, IH1, IH2. destruct (quiet_slns _ _ (Q a)) as (A & B). rewrite A, B. split; reflexivity.
Qed.
Lemma stats_word_at g p i x : length (gcode g) = 32%nat -> In (i, x) [(GRP_AVG_SLN, mean_stat (st_sln p)); (GRP_AVG_ACT, mean_stat (st_act p)); (GRP_HIGH_SLN, high (st_sln p)); (GRP_LOW_SLN, low (st_sln p)); (GRP_HIGH_ACT, high (st_act p)); (GRP_LOW_ACT, low (st_act p))] ->
  nth i (stats_words g p) 0 = of_num x.
Proof.
  intros L H. unfold stats_words. repeat (destruct H as [H|H]; [injection H as <- <-; repeat rewrite put_other by (vm_compute; discriminate); rewrite put_same by (rewrite ?put_length, L; vm_compute; repeat constructor); reflexivity|]). contradiction.
Qed.
Lemma group_stats home e g g' out : INV home g -> length (gcode g) = 32%nat -> all_due e g -> update e g = Some (g', out) ->
  let S := counted (slns (all_views g')) no_stats in let A := counted (acts (all_views g')) no_stats in
  gnum g' GRP_AVG_SLN = kept (mean_stat S) /\ gnum g' GRP_HIGH_SLN = kept (high S) /\ gnum g' GRP_LOW_SLN = kept (low S) /\
  gnum g' GRP_AVG_ACT = kept (mean_stat A) /\ gnum g' GRP_HIGH_ACT = kept (high A) /\ gnum g' GRP_LOW_ACT = kept (low A).
Proof.
  intros I L D U. pose proof (update_core e g g' out U) as (_ & _ & LG & _). destruct (update_split e g g' out U) as (g1 & s & g2 & p & x & l & B & V & X & S & _). clear U.
  destruct (begin_quiet home e g I) as (Q1 & I1). rewrite B in Q1, I1. cbn [fst] in Q1, I1.
  assert (DUE : forall pl k v, In pl order -> In (k, v) (views g1 pl) -> ijt v < planned e).
  { intros pl k v _ Y. destruct (quiet_in _ _ _ _ (Q1 pl) Y) as (v0 & A0 & (_ & -> & _)). apply D, (in_all g pl k), A0. }
  destruct (visit_places_counts e s order g1 _ g2 p order_nodup DUE V) as (C1 & C2). cbn [st_sln st_act] in C1, C2.
  pose proof (update_stats_spec e (with_new_ctl (with_newly g2 (p_newly p)) x) p) as T. rewrite S in T. destruct T as (SQ & T1 & _). clear S.
  assert (SQ' : quiet_group g2 g') by (intros pl; specialize (SQ pl); rewrite views_with_newly in SQ; exact SQ).
  destruct (quiet_gather g2 g' order SQ') as (E1 & E2). rewrite gather_order in E1, E2. rewrite <- E1 in C1. rewrite <- E2 in C2. cbn zeta. rewrite <- C1, <- C2.
  assert (L2 : length (gcode (with_new_ctl (with_newly g2 (p_newly p)) x)) = 32%nat) by (rewrite <- (stats_length _ p), <- T1, LG; exact L).
  unfold gnum. rewrite T1. unfold kept. repeat split; f_equal; apply stats_word_at; try exact L2; cbn; tauto.
Qed.

(** The numbers read in words are even: storing them loses nothing. *)
Lemma num_even w : num w <> S754_nan -> 0 <= key (num w) -> key (num w) = 2 * (key (num w) / 2).
Proof.
  intros N K. assert (U : is_u32 (asFloat w)) by (unfold is_u32, asFloat, u32; apply Z.mod_pos_bound; lia).
  assert (B : key (num w) = asFloat w \/ key (num w) = 0).
  { unfold num in *. rewrite (key_of_bits _ U N) in *. destruct (Z.leb_spec 2147483648 (asFloat w)); [right; lia|left; reflexivity]. }
  destruct B as [B|B]; rewrite B; [|reflexivity]. unfold asFloat, u32. rewrite Z.shiftl_mul_pow2 by lia. change (2 ^ 1) with 2.
  rewrite (Z.mul_comm w 2). change 4294967296 with (2 * 2147483648). rewrite Z.mul_mod_distr_l by lia. rewrite (Z.mul_comm 2 (w mod _)), Z.div_mul by lia. lia.
Qed.
Definition good (f : spec_float) : Prop := f32_valid f = true /\ f <> S754_nan /\ 0 <= key f.
Lemma good_zero : good fzero.
Proof. split; [reflexivity|]. split; [discriminate|]. vm_compute. discriminate. Qed.
Lemma good_num w : fle fzero (num w) = true -> good (num w).
Proof. intros H. pose proof (fle_not_nan _ H) as N. split; [apply num_valid|]. split; [exact N|]. apply (fle_zero_key _ (num_valid w) N), H. Qed.
Lemma counted_high l : forall s, good (high s) -> Forall good l ->
  good (high (counted l s)) /\ key (high s) <= key (high (counted l s)) /\ Forall (fun x => key x <= key (high (counted l s))) l /\ (high (counted l s) = high s \/ In (high (counted l s)) l).
Proof.
  induction l as [|x l IH]; intros s G H; [cbn; split; [exact G|]; split; [lia|]; split; [constructor|left; reflexivity]|].
  inversion H as [|? ? GX GL]; subst. unfold counted in *. cbn [fold_left].
  assert (C : (high (count s x) = x \/ high (count s x) = high s) /\ key (high s) <= key (high (count s x)) /\ key x <= key (high (count s x))).
  { unfold count. cbn zeta. destruct G as (G1 & G2 & G3), GX as (X1 & X2 & X3). rewrite (flt_key (high s) x) by assumption. destruct (Z.ltb_spec (key (high s)) (key x)); cbn [high]; [split; [left; reflexivity|lia]|].
    destruct (flt x (low s)); cbn [high]; (split; [right; reflexivity|lia]). }
  destruct C as (C1 & C2 & C3). destruct (IH (count s x)) as (I1 & I2 & I3 & I4); [destruct C1 as [->| ->]; assumption|exact GL|].
  split; [exact I1|]. split; [lia|]. split; [constructor; [lia|exact I3]|]. destruct I4 as [E|E]; [|right; right; exact E]. rewrite E. destruct C1 as [->| ->]; [right; left; reflexivity|left; reflexivity].
Qed.
Lemma kept_good w : good (num w) -> good (kept (num w)) /\ key (kept (num w)) = key (num w).
Proof. intros (A & B & C). destruct (kept_key _ A B C) as (X & Y & Z). pose proof (num_even w B C) as E. rewrite <- E in Z. split; [split; [exact Y|split; [exact X|lia]]|exact Z]. Qed.
Lemma high_is_max ws : Forall (fun w => fle fzero (num w) = true) ws -> let H := kept (high (counted (map num ws) no_stats)) in
  Forall (fun w => fle (num w) H = true) ws /\ (ws = [] -> feqb H fzero = true) /\ (ws <> [] -> Exists (fun w => feqb (num w) H = true) ws).
Proof.
  intros G. assert (GL : Forall good (map num ws)) by (apply Forall_map; revert G; apply Forall_impl; intros w; apply good_num).
  destruct (counted_high (map num ws) no_stats good_zero GL) as (A & B & C & D). cbn zeta. set (h := high (counted (map num ws) no_stats)) in *.
  assert (K : good (kept h) /\ key (kept h) = key h).
  { destruct D as [->|D]; [apply (kept_good 0), good_zero|]. apply in_map_iff in D. destruct D as (w & <- & _). apply kept_good, A. }
  destruct K as ((K1 & K2 & K3) & K4). rewrite Forall_forall in G. rewrite Forall_map, Forall_forall in C.
  assert (L : Forall (fun w => fle (num w) (kept h) = true) ws).
  { apply Forall_forall. intros w W. destruct (good_num w (G w W)) as (W1 & W2 & W3). rewrite fle_key by assumption. apply Z.leb_le. rewrite K4. apply C, W. }
  split; [exact L|]. split.
  - intros ->. destruct D as [D|[]]. rewrite D. vm_compute. reflexivity.
  - intros N. apply Exists_exists. destruct D as [D|D].
    + destruct ws as [|w ws]; [contradiction|]. exists w. split; [left; reflexivity|]. destruct (good_num w (G w (or_introl eq_refl))) as (W1 & W2 & W3). rewrite feqb_key by assumption. apply Z.eqb_eq. rewrite K4.
      pose proof (C w (or_introl eq_refl)) as Q. rewrite D in *. cbn [high no_stats] in *. change (key fzero) with 0 in *. lia.
    + apply in_map_iff in D. destruct D as (w & E & W). exists w. split; [exact W|]. destruct (good_num w (G w W)) as (W1 & W2 & W3). rewrite feqb_key by assumption. apply Z.eqb_eq. rewrite K4, <- E. reflexivity.
Qed.
Lemma counted_sum l : forall s, avg (counted l s) = fold_left fadd l (avg s) /\ (0 <= updates s -> updates s + Z.of_nat (length l) < 4294967296 -> updates (counted l s) = updates s + Z.of_nat (length l)).
Proof.
  induction l as [|x l IH]; intros s; [cbn; split; [reflexivity|lia]|]. unfold counted in *. cbn [fold_left]. destruct (IH (count s x)) as (A & B).
  assert (C : avg (count s x) = fadd (avg s) x /\ updates (count s x) = u32 (updates s + 1)) by (unfold count; cbn zeta; destruct (flt _ _); [|destruct (flt _ _)]; split; reflexivity).
  destruct C as (C1 & C2). rewrite A, C1. split; [reflexivity|]. intros P Q. rewrite C2 in B. unfold u32 in B. cbn [length] in *. rewrite Z.mod_small in B by lia. rewrite B by lia. lia.
Qed.
Lemma mean_is_average l : Z.of_nat (length l) < 4294967296 -> mean_stat (counted l no_stats) = average l.
Proof.
  intros B. destruct (counted_sum l no_stats) as (A & C). unfold mean_stat. rewrite A, C by (cbn [updates no_stats]; lia). cbn [updates no_stats avg Z.add]. destruct l as [|x l]; [reflexivity|].
  replace (Z.of_nat (length (x :: l)) =? 0) with false by (symmetry; apply Z.eqb_neq; cbn [length]; lia). reflexivity.
Qed.

(** ** Newly salient views *)
Definition one_of {A} (r : option A) : list A := match r with Some x => [x] | None => [] end.
Lemma visit_all_fresh e g s pl m : forall p m' p', NoDup (map fst m) -> (forall k v, In (k, v) m -> k = vid v /\ ijt v < planned e) -> visit_all e g s pl m p = Some (m', p') ->
  exists l, p_newly p' = p_newly p ++ l /\ forall k, In k l <-> exists v w, In (k, v) m /\ In (k, w) m' /\ fresh_view e g s v w = true.
Proof.
  induction m as [|(j, u) m IH]; intros p m' p' N D H; cbn [visit_all] in H.
  - injection H as <- <-. exists []. rewrite app_nil_r. split; [reflexivity|]. intros k. split; [contradiction|]. intros (v & w & [] & _).
  - destruct (visit e g s pl u p) as [(r, t)|] eqn:V; [|discriminate]. destruct (visit_all e g s pl m t) as [(m2, t2)|] eqn:A; [|discriminate]. injection H as <- <-.
    inversion N as [|? ? NI ND]; subst. destruct (D j u (or_introl eq_refl)) as (J & JD). pose proof V as V0. apply visit_effect in V; [|exact JD].
    destruct (IH t m2 t2 ND (fun k v X => D k v (or_intror X)) A) as (l & L1 & L2).
    assert (KM : forall k, In k (map fst m2) -> In k (map fst m)) by (apply (visit_all_keys _ _ _ _ _ _ _ _ A)).
    assert (X : forall k v w, (In (k, v) ((j, u) :: m) /\ In (k, w) (match r with Some w => (j, w) :: m2 | None => m2 end)) <-> (k = j /\ v = u /\ r = Some w) \/ (k <> j /\ In (k, v) m /\ In (k, w) m2)).
    { intros k v w. split.
      - intros (Y & Z). destruct (Z.eq_dec k j) as [->|NE].
        + left. split; [reflexivity|]. split; [destruct Y as [Y|Y]; [injection Y as ->; reflexivity|exfalso; apply NI; apply (in_map fst) in Y; exact Y]|].
          destruct r as [x|]; [destruct Z as [Z|Z]; [injection Z as ->; reflexivity|]|]; exfalso; apply NI, KM; apply (in_map fst) in Z; exact Z.
        + right. split; [exact NE|]. split; [destruct Y as [Y|Y]; [injection Y as Y1 _; congruence|exact Y]|]. destruct r as [x|]; [destruct Z as [Z|Z]; [injection Z as Z1 _; congruence|exact Z]|exact Z].
      - intros [(-> & -> & ->)|(NE & Y & Z)]; [split; left; reflexivity|]. split; [right; exact Y|]. destruct r; [right|]; exact Z. }
    destruct r as [w0|].
    + destruct V as (_ & _ & V). pose proof (visit_frame _ _ _ _ _ _ _ _ V0) as (VV & _). exists ((if fresh_view e g s u w0 then [vid w0] else []) ++ l). split; [rewrite L1, V, app_assoc; reflexivity|].
      intros k. rewrite in_app_iff, L2. split.
      * intros [Y|(v & w & Y1 & Y2 & Y3)].
        -- destruct (fresh_view e g s u w0) eqn:F; [|contradiction]. destruct Y as [<-|[]]. exists u, w0. rewrite VV, <- J. split; [left; reflexivity|]. split; [left; reflexivity|exact F].
        -- exists v, w. split; [right; exact Y1|]. split; [right; exact Y2|exact Y3].
      * intros (v & w & Y1 & Y2 & Y3). destruct (proj1 (X k v w) (conj Y1 Y2)) as [(-> & -> & E)|(NE & Z1 & Z2)]; [|right; exists v, w; auto]. injection E as <-. left. rewrite Y3. left. congruence.
    + destruct V as (_ & _ & V). exists l. split; [rewrite L1, V; reflexivity|]. intros k. rewrite L2. split.
      * intros (v & w & Y1 & Y2 & Y3). exists v, w. split; [right; exact Y1|]. split; [exact Y2|exact Y3].
      * intros (v & w & Y1 & Y2 & Y3). destruct (proj1 (X k v w) (conj Y1 Y2)) as [(-> & -> & E)|(NE & Z1 & Z2)]; [discriminate|]. exists v, w; auto.
Qed.
Lemma visit_places_fresh e s pls : forall g p g' p', NoDup pls -> (forall pl, In pl pls -> NoDup (map fst (views g pl))) -> (forall pl k v, In pl pls -> In (k, v) (views g pl) -> k = vid v /\ ijt v < planned e) ->
  visit_places e g s pls p = Some (g', p') -> exists l, p_newly p' = p_newly p ++ l /\ forall k, In k l <-> exists pl v w, In pl pls /\ In (k, v) (views g pl) /\ In (k, w) (views g' pl) /\ fresh_view e g s v w = true.
Proof.
  induction pls as [|a pls IH]; intros g p g' p' N D H V.
  - cbn [visit_places] in V. injection V as <- <-. exists []. rewrite app_nil_r. split; [reflexivity|]. intros k. split; [contradiction|]. intros (pl & v & w & [] & _).
  - cbn [visit_places] in V. destruct (visit_all e g s a (views g a) p) as [(m, t)|] eqn:E; [|discriminate]. inversion N as [|? ? NI ND]; subst.
    destruct (visit_all_fresh e g s a (views g a) p m t (D a (or_introl eq_refl)) (fun k v Y => H a k v (or_introl eq_refl) Y) E) as (l & L1 & L2).
    assert (S : forall pl, In pl pls -> views (with_views g a m) pl = views g pl).
    { intros pl Q. cbn [views with_views]. rewrite place_eqb_neq; [reflexivity|]. intros ->. contradiction. }
    destruct (visit_places_spec e s pls _ _ _ _ ND V) as (_ & SA & _).
    assert (VA : views g' a = m) by (rewrite SA by exact NI; cbn [views with_views]; rewrite place_eqb_refl; reflexivity).
    destruct (IH (with_views g a m) t g' p' ND) as (l' & M1 & M2).
    + intros pl Q. rewrite S by exact Q. apply D. right. exact Q.
    + intros pl k v Q Y. rewrite S in Y by exact Q. apply (H pl k v); [right; exact Q|exact Y].
    + exact V.
    + exists (l ++ l'). split; [rewrite M1, L1, app_assoc; reflexivity|]. intros k. rewrite in_app_iff, L2, M2. split.
      * intros [(v & w & Y1 & Y2 & Y3)|(pl & v & w & Q & Y1 & Y2 & Y3)]; [exists a, v, w; rewrite VA; split; [left; reflexivity|auto]|]. exists pl, v, w. rewrite S in Y1 by exact Q. split; [right; exact Q|]. split; [exact Y1|]. split; [exact Y2|exact Y3].
      * intros (pl & v & w & [<-|Q] & Y1 & Y2 & Y3); [left; rewrite VA in Y2; exists v, w; auto|right]. exists pl, v, w. rewrite S by exact Q. split; [exact Q|]. split; [exact Y1|]. split; [exact Y2|exact Y3].
Qed.
Lemma update_param_newly g p : newly (update_param g p) = newly g.
Proof. unfold update_param. destruct (changes (tal g p) =? 0); reflexivity. Qed.
Lemma executes_newly l : forall g, newly (fold_left execute l g) = newly g.
Proof. induction l as [|o l IH]; intros g; cbn [fold_left]; [reflexivity|]. rewrite IH. destruct o; cbn [execute]; apply change_misc. Qed.
Lemma settled_newly u g : newly (settled u g) = newly g.
Proof.
  unfold settled, update_act_thr, update_vis_thr, update_c_act, update_c_sln. rewrite !update_param_newly, update_sln_thr_is, update_param_newly. unfold before_thr. cbn zeta. destruct (_ && _); reflexivity.
Qed.
Lemma mon_newly g a b : newly (with_mon g a b) = newly g.
Proof. reflexivity. Qed.
Lemma begin_newly e g : newly (fst (update_begin e g)) = [].
Proof. destruct (begin_split e g) as (a & b & E). rewrite E, mon_newly, settled_newly. unfold executed. cbn [newly with_pend]. rewrite executes_newly. reflexivity. Qed.
Lemma newly_salient home e g g' out : INV home g -> all_due e g -> update e g = Some (g', out) ->
  forall k, In k (o_newly out) <-> exists v w, get_view g k = Some v /\ get_view g' k = Some w /\ c_salient g' = true /\ flt (get g' SlnThr) (get_sln (vw w)) = true /\
    (if once (get_sync (ub e) w) then flt (get g' SlnThr) (get_sln (vw v)) = false else holds (get_sync (ub e) w) = true).
Proof.
  intros I D U. pose proof (update_inv home e g g' out I U) as I'. destruct (update_core e g g' out U) as (G & _). destruct (update_split e g g' out U) as (g1 & s & g2 & p & x & l & B & V & X & S & O). clear U.
  destruct (begin_quiet home e g I) as (Q1 & I1). pose proof (begin_newly e g) as N1. pose proof (begin_get e g) as BG. pose proof (begin_state e g) as BS. cbn zeta in BS. rewrite B in Q1, I1, N1, BG, BS. cbn [fst snd] in Q1, I1, N1, BG, BS. clear B.
  assert (FS : former_sln_thr s = get g' SlnThr) by (rewrite BS, G; reflexivity). assert (ES : get g1 SlnThr = get g' SlnThr) by (rewrite BG, G; reflexivity).
  assert (CS : is_c_salient s = c_salient g') by (rewrite BS; cbn [is_c_salient]; unfold c_salient; rewrite !G; reflexivity). clear BS BG G.
  assert (H2 : forall pl k v, In pl order -> In (k, v) (views g1 pl) -> k = vid v /\ ijt v < planned e).
  { intros pl k v _ Y. split; [apply (I1 pl), Y|]. destruct (quiet_in _ _ _ _ (Q1 pl) Y) as (v0 & A0 & (_ & -> & _)). apply D, (in_all g pl k), A0. }
  destruct (visit_places_fresh e s order g1 _ g2 p order_nodup (fun pl _ => proj1 (I1 pl)) H2 V) as (L & L1 & L2). cbn [p_newly] in L1. rewrite N1 in L1. cbn [app] in L1.
  pose proof (update_stats_spec e (with_new_ctl (with_newly g2 (p_newly p)) x) p) as ST. rewrite S in ST. destruct ST as (SQ & _). clear S V.
  assert (SQ' : quiet_group g2 g') by (intros pl; specialize (SQ pl); rewrite views_with_newly in SQ; exact SQ). clear SQ.
  assert (FR : forall v v0 w w0, quiet v0 v -> quiet w w0 -> (fresh_view e g1 s v w = true <-> c_salient g' = true /\ flt (get g' SlnThr) (get_sln (vw w0)) = true /\
    (if once (get_sync (ub e) w0) then flt (get g' SlnThr) (get_sln (vw v0)) = false else holds (get_sync (ub e) w0) = true))).
  { intros v v0 w w0 (_ & _ & _ & _ & CV) (_ & _ & _ & _ & CW). unfold fresh_view. rewrite CS, ES, FS, (sln_of_code _ _ CV), <- (sln_of_code _ _ CW). replace (get_sync (ub e) w0) with (get_sync (ub e) w) by (unfold get_sync, word; rewrite CW; reflexivity).
    rewrite !andb_true_iff, and_assoc. destruct (once (get_sync (ub e) w)); [rewrite negb_true_iff|]; tauto. }
  intros k. subst out. cbn [o_newly]. rewrite L1, L2. rewrite !(get_view_home home) by assumption. split.
  - intros (pl & v & w & _ & A & A' & F). destruct (quiet_in _ _ _ _ (Q1 pl) A) as (v0 & A0 & QV). destruct (quiet_in_back _ _ _ _ (SQ' pl) A') as (w0 & B0 & QW).
    pose proof (in_map fst _ _ A0) as H0. apply (inv_home home g) in H0; [|exact I]. cbn in H0. rewrite H0. exists v0, w0. split; [apply find_in; [apply I|exact A0]|]. split; [apply find_in; [apply I'|exact B0]|]. apply (FR v v0 w w0 QV QW), F.
  - intros (v & w & A & A' & F). apply find_key in A, A'. destruct (quiet_in_back _ _ _ _ (Q1 (home k)) A) as (v1 & B1 & QV). destruct (quiet_in _ _ _ _ (SQ' (home k)) A') as (w1 & B2 & QW).
    exists (home k), v1, w1. split; [apply in_order|]. split; [exact B1|]. split; [exact B2|]. apply (FR v1 v w1 w QV QW), F.
Qed.

(** ** Times of updates *)
Lemma next_time upr base ref now : 0 < upr -> 0 < base -> ref <= now -> exists t k, get_next_upr_time upr base ref now = Some t /\ now < t <= now + upr * base /\ t = ref + k * (upr * base) /\ 0 < k.
Proof.
  intros U B R. unfold get_next_upr_time. replace (upr =? 0) with false by (symmetry; apply Z.eqb_neq; lia). assert (P : 0 < upr * base) by nia. set (P0 := upr * base) in *. clearbody P0.
  pose proof (Z.rem_bound_pos (now - ref) P0 ltac:(lia) P) as RB. pose proof (Z.quot_rem' (now - ref) P0) as Q. exists (now - Z.rem (now - ref) P0 + P0), (Z.quot (now - ref) P0 + 1).
  split; [reflexivity|]. split; [lia|]. assert (0 <= Z.quot (now - ref) P0) by (apply Z.quot_pos; lia). split; [|lia]. rewrite Z.mul_add_distr_r, (Z.mul_comm (Z.quot _ _)). lia.
Qed.
Lemma prev_time upr base ref now : 0 < upr -> 0 < base -> ref <= now -> exists t k, get_prev_upr_time upr base ref now = Some t /\ now - upr * base < t <= now /\ t = ref + k * (upr * base) /\ get_next_upr_time upr base ref now = Some (t + upr * base).
Proof.
  intros U B R. unfold get_prev_upr_time, get_next_upr_time. replace (upr =? 0) with false by (symmetry; apply Z.eqb_neq; lia). assert (P : 0 < upr * base) by nia. set (P0 := upr * base) in *. clearbody P0.
  pose proof (Z.rem_bound_pos (now - ref) P0 ltac:(lia) P) as RB. pose proof (Z.quot_rem' (now - ref) P0) as Q. exists (now - Z.rem (now - ref) P0), (Z.quot (now - ref) P0).
  split; [reflexivity|]. split; [lia|]. split; [|reflexivity]. rewrite (Z.mul_comm (Z.quot _ _)). lia.
Qed.
Lemma planned_constant upr base : 0 < upr -> forall n t i, (i <= n)%nat -> nth_error (planned_times (repeat upr n) base (Some t)) i = Some (t + Z.of_nat i * (upr * base)).
Proof.
  intros U. induction n as [|n IH]; intros t i L; cbn [repeat planned_times].
  - replace i with 0%nat by lia. cbn. f_equal. lia.
  - destruct i as [|i]; [cbn; f_equal; lia|]. cbn [nth_error]. unfold next_planned. replace (0 <? upr) with true by (symmetry; apply Z.ltb_lt; exact U). rewrite IH by lia. f_equal. lia.
Qed.
Lemma grid upr base ref now n i t : 0 < upr -> 0 < base -> ref <= now -> nth_error (planned_times (repeat upr n) base (first_update upr base ref now)) i = Some t ->
  exists k, t = ref + k * (upr * base) /\ now + Z.of_nat i * (upr * base) < t <= now + (Z.of_nat i + 1) * (upr * base).
Proof.
  intros U B R H. unfold first_update in H. replace (0 <? upr) with true in H by (symmetry; apply Z.ltb_lt; exact U). destruct (next_time upr base ref now U B R) as (t0 & k & E & L & K & _). rewrite E in H.
  assert (I : (i <= n)%nat).
  { assert (LEN : forall l s, (length (planned_times l base s) <= S (length l))%nat) by (induction l as [|u l IHl]; intros [s|]; cbn; [lia|lia|specialize (IHl (next_planned u base s)); lia|lia]).
    specialize (LEN (repeat upr n) (Some t0)). rewrite repeat_length in LEN. assert (i < length (planned_times (repeat upr n) base (Some t0)))%nat by (apply nth_error_Some; congruence). lia. }
  rewrite (planned_constant upr base U n t0 i I) in H. injection H as <-. exists (k + Z.of_nat i). nia.
Qed.
Lemma grid_count upr base ref now n : 0 < upr -> length (planned_times (repeat upr n) base (first_update upr base ref now)) = S n.
Proof.
  intros U. unfold first_update, get_next_upr_time. replace (0 <? upr) with true by (symmetry; apply Z.ltb_lt; exact U). replace (upr =? 0) with false by (symmetry; apply Z.eqb_neq; lia).
  generalize (now - Z.rem (now - ref) (upr * base) + upr * base). induction n as [|n IH]; intros t; cbn [repeat planned_times length]; [reflexivity|]. unfold next_planned. replace (0 <? upr) with true by (symmetry; apply Z.ltb_lt; exact U). rewrite IH. reflexivity.
Qed.
(** A period of zero stops the updates for good. *)
Lemma stops base t a b : planned_times (a ++ 0 :: b) base t = planned_times (a ++ [0]) base t.
Proof.
  revert t. induction a as [|u a IH]; intros [t|]; cbn [app planned_times]; try reflexivity; [destruct b; reflexivity|]. rewrite IH. reflexivity.
Qed.

(** ** Witnesses *)
Definition w_code (sln_thr act_thr c_sln c_act : spec_float) : list Z :=
  put (put (put (put (put (repeat 0 32) GRP_SLN_THR (of_num sln_thr)) GRP_ACT_THR (of_num act_thr)) GRP_C_SLN (of_num c_sln)) GRP_C_ACT (of_num c_act)) GRP_SLN_CHG_THR (of_num fone).
Definition w_prog (oid : Z) (act : spec_float) : gview := mkgv oid INSTANTIATED_PROGRAM false 0 (w_view half (f32_of_Z 10) act fzero) None None.
Definition w_obj (oid : Z) (sln : spec_float) : gview := mkgv oid OBJECT false 0 (w_view sln (f32_of_Z 10) fzero fzero) None None.
Definition w_env (t : Z) : env := mkenv t t (fun _ => false) 0 true true.
Definition w_home (k : Z) : place := if k =? 1 then Ipgm else Other.
Definition three_quarters : spec_float := fadd half quarter.

Lemma all_parameters_refuted : exists home code os p g', length code = 32%nat /\ Forall (proper home) os /\ Forall no_existing os /\ Forall tame os /\ gfew all_params (gstart (new_group code 0 0)) os /\
  run_gops (new_group code 0 0) os = Some g' /\ get g' p <> g_value (gabs_ops all_params (gstart (new_group code 0 0)) os) p.
Proof.
  exists w_home, (w_code fzero fzero fone fone), [AskSet 6 half; Update (w_env 10)], CSlnThr. eexists. split; [reflexivity|]. split; [repeat constructor|]. split; [repeat constructor|].
  split; [repeat constructor; vm_compute; reflexivity|]. split; [repeat split; intros []; vm_compute; reflexivity|]. split; [vm_compute; reflexivity|]. vm_compute. discriminate.
Qed.
Lemma early_refuted : exists home code os p g', length code = 32%nat /\ Forall (proper home) os /\ Forall tame os /\ Forall (fun o => is_update o = false) os /\ In p five /\
  run_gops (new_group code 0 0) os = Some g' /\ get g' p <> get (new_group code 0 0) p.
Proof.
  exists w_home, (w_code fzero fzero fone fone), [Inject (w_obj 2 half) true 0; AskSet 7 half; Existing 2 (w_obj 2 half) 5], CAct. eexists. split; [reflexivity|].
  split; [constructor; [cbn; unfold injectable, w_home; cbn; tauto|repeat constructor]|]. split; [repeat constructor; vm_compute; reflexivity|].
  split; [repeat constructor|]. split; [cbn; tauto|]. split; [vm_compute; reflexivity|]. vm_compute. discriminate.
Qed.
Lemma set_value_range_refuted : exists home code os p g', length code = 32%nat /\ Forall (proper home) os /\ Forall no_existing os /\ Forall gvalid os /\ in_unit (get (new_group code 0 0) p) /\
  run_gops (new_group code 0 0) os = Some g' /\ ~ in_unit (get g' p).
Proof.
  exists w_home, (w_code fzero fzero fone fone), [AskMod 3 infinite; AskMod 3 (S754_infinity true); Update (w_env 10)], ActThr. eexists. split; [reflexivity|]. split; [repeat constructor|]. split; [repeat constructor|].
  split; [repeat constructor|]. split; [split; vm_compute; reflexivity|]. split; [vm_compute; reflexivity|]. vm_compute. intros (A & _). discriminate.
Qed.
Lemma threshold_refuted : exists home code os g, Forall (proper home) os /\ Forall equipped os /\ Forall no_existing os /\ flt (get (new_group code 0 0) ActThr) fzero = false /\
  run_gops (new_group code 0 0) os = Some g /\ ~ activity_right g.
Proof.
  exists w_home, (w_code fzero quarter fone fone), [Inject (w_prog 1 half) true 0; AskSet 3 three_quarters; Update (w_env 10)]. eexists.
  split; [constructor; [cbn; unfold injectable, w_home; cbn; tauto|repeat constructor]|]. split; [constructor; [cbn; split; discriminate|repeat constructor]|]. split; [repeat constructor|]. split; [vm_compute; reflexivity|]. split; [vm_compute; reflexivity|].
  intros A. match type of A with activity_right ?g => assert (E : exists v, In v (all_views g) /\ is_program (kind v) = true /\ ctl v = Some true /\ should_be_active g v = false) end.
  - eexists. split; [left; reflexivity|]. vm_compute. repeat split.
  - destruct E as (v & I & K & C & S). specialize (A v I K). congruence.
Qed.
Definition w_env_rl (t : Z) : env := mkenv t t (fun _ => false) 0 false false.
Lemma order_refuted : exists home code os g, Forall (proper home) os /\ Forall equipped os /\ Forall no_existing os /\ flt (get (new_group code 0 0) ActThr) fzero = false /\
  Forall (fun o => match o with AskMod i _ | AskSet i _ => i <> GRP_ACT_THR | _ => True end) os /\ run_gops (new_group code 0 0) os = Some g /\ ~ activity_right g.
Proof.
  exists w_home, (w_code fzero quarter fone fzero), [Inject (w_prog 1 half) true 0; AskSet 7 fone; Update (w_env_rl 10)]. eexists.
  split; [constructor; [cbn; unfold injectable, w_home; cbn; tauto|repeat constructor]|]. split; [constructor; [cbn; split; discriminate|repeat constructor]|]. split; [repeat constructor|]. split; [vm_compute; reflexivity|].
  split; [repeat constructor; discriminate|]. split; [vm_compute; reflexivity|].
  intros A. match type of A with activity_right ?g => assert (E : exists v, In v (all_views g) /\ is_program (kind v) = true /\ ctl v = Some false /\ should_be_active g v = true) end.
  - eexists. split; [left; reflexivity|]. vm_compute. repeat split.
  - destruct E as (v & I & K & C & S). specialize (A v I K). congruence.
Qed.
Lemma existing_refuted : exists home code os g, Forall (proper home) os /\ Forall equipped os /\ flt (get (new_group code 0 0) ActThr) fzero = false /\
  Forall (fun o => match o with AskMod i _ | AskSet i _ => i <> GRP_ACT_THR | Update e => act_in_order e = true /\ sln_in_order e = true | _ => True end) os /\ run_gops (new_group code 0 0) os = Some g /\ ~ activity_right g.
Proof.
  exists w_home, (w_code fzero quarter fone fzero), [Inject (w_prog 1 half) true 0; Inject (w_obj 2 half) true 0; AskSet 7 fone; Existing 2 (w_obj 2 half) 5; Update (w_env 10)]. eexists.
  split; [repeat (constructor; [cbn; unfold injectable, w_home; cbn; tauto|]); constructor|]. split; [repeat (constructor; [cbn; try split; discriminate|]); repeat constructor|]. split; [vm_compute; reflexivity|].
  split; [repeat constructor; discriminate|]. split; [vm_compute; reflexivity|].
  intros A. match type of A with activity_right ?g => assert (E : exists v, In v (all_views g) /\ is_program (kind v) = true /\ ctl v = Some false /\ should_be_active g v = true) end.
  - eexists. split; [left; reflexivity|]. vm_compute. repeat split.
  - destruct E as (v & I & K & C & S). specialize (A v I K). congruence.
Qed.
Lemma group_not_stored : exists g v t, kind v = GROUP /\ ~ held (inject g v true t) (vid v).
Proof.
  exists (new_group (w_code fzero fzero fone fone) 0 0), (mkgv 3 GROUP false 0 (w_view half (f32_of_Z 10) fzero fone) None None), 5. split; [reflexivity|].
  intros (p & H). destruct p; vm_compute in H; exact H.
Qed.
Lemma missing_program : exists home code os, length code = 32%nat /\ Forall (proper home) os /\ run_gops (new_group code 0 0) os = None.
Proof.
  exists w_home, (w_code fzero quarter fone fzero), [Inject (mkgv 1 INSTANTIATED_CPP_PROGRAM false 0 (w_view half (f32_of_Z 10) half fzero) None None) false 0; AskSet 7 fone; Update (w_env 10)]. split; [reflexivity|].
  split; [constructor; [cbn; unfold injectable, w_home; cbn; tauto|repeat constructor]|]. vm_compute. reflexivity.
Qed.
Lemma low_refuted : exists home code os g v, Forall (proper home) os /\ run_gops (new_group code 0 0) os = Some g /\ all_due (w_env 10) g /\ all_views g = [v] /\
  exists g' out w, update (w_env 10) g = Some (g', out) /\ all_views g' = [w] /\ feqb (get_sln (vw w)) half = true /\ feqb (gnum g' GRP_LOW_SLN) fone = true.
Proof.
  exists w_home, (w_code fzero fzero fone fone), [Inject (w_obj 2 half) true 0]. eexists. eexists. split; [constructor; [cbn; unfold injectable, w_home; cbn; tauto|constructor]|]. split; [vm_compute; reflexivity|].
  split; [intros v [<-|[]]; vm_compute; reflexivity|]. split; [reflexivity|]. eexists. eexists. eexists. split; [vm_compute; reflexivity|]. split; [reflexivity|]. split; vm_compute; reflexivity.
Qed.
Lemma newly_refuted : exists home code os g e g' out v w, Forall (proper home) os /\ run_gops (new_group code 0 0) os = Some g /\ all_due e g /\ update e g = Some (g', out) /\
  get_view g 2 = Some v /\ get_view g' 2 = Some w /\ get_sync 0 w = SYNC_ONCE /\ c_salient g = true /\ c_salient g' = true /\
  flt (get g SlnThr) (get_sln (vw v)) = false /\ flt (get g' SlnThr) (get_sln (vw w)) = true /\ ~ In 2 (o_newly out).
Proof.
  exists w_home, (w_code three_quarters fzero fone fone), [Inject (w_obj 2 half) true 0; AskSet 2 quarter]. eexists. exists (w_env 10). eexists. eexists. eexists. eexists.
  split; [repeat (constructor; [cbn; unfold injectable, w_home; cbn; tauto|]); constructor|]. split; [vm_compute; reflexivity|]. split; [intros v [<-|[]]; vm_compute; reflexivity|]. split; [vm_compute; reflexivity|].
  split; [vm_compute; reflexivity|]. split; [vm_compute; reflexivity|]. repeat (split; [vm_compute; reflexivity|]). vm_compute. tauto.
Qed.

(** ** The statements of C53 and C54 *)
Lemma slns_words l : slns l = map num (map (fun v => word (vw v) VIEW_SLN) l).
Proof. unfold slns. rewrite map_map. reflexivity. Qed.
Lemma acts_words l : acts l = map num (map (fun v => word (vw v) VIEW_ACT) (filter (fun v => is_program (kind v)) l)).
Proof. unfold acts. rewrite map_map. reflexivity. Qed.
Lemma high_stat l h : Forall (fun x => fle fzero x = true) l -> (exists ws, l = map num ws) -> h = kept (high (counted l no_stats)) ->
  Forall (fun x => fle x h = true) l /\ (l = [] -> feqb h fzero = true) /\ (l <> [] -> Exists (fun x => feqb x h = true) l).
Proof.
  intros G (ws & ->) ->. rewrite Forall_map in G. destruct (high_is_max ws G) as (A & B & C). split; [rewrite Forall_map; exact A|]. split; [destruct ws; [auto|discriminate]|].
  intros N. apply Exists_exists. destruct ws as [|w ws]; [contradiction|]. specialize (C ltac:(discriminate)). apply Exists_exists in C. destruct C as (x & X & E). exists (num x). split; [apply in_map, X|exact E].
Qed.
Lemma run_inv home os code a b g : Forall (proper home) os -> run_gops (new_group code a b) os = Some g -> INV home g.
Proof. intros P R. apply (runs_inv home os _ _ P R (new_inv home code a b)). Qed.
Lemma run_length home os : forall g g', Forall (proper home) os -> run_gops g os = Some g' -> INV home g -> length (gcode g') = length (gcode g).
Proof.
  induction os as [|o os IH]; intros g g' P R I; cbn [run_gops] in R; [injection R as <-; reflexivity|]. inversion P; subst. destruct (run_gop g o) as [g1|] eqn:E; [|discriminate].
  rewrite (IH g1 g') by (try assumption; apply (op_inv home g o); assumption). clear IH R. destruct (brings o) as [k|] eqn:K.
  { destruct (arrival home g o k g1 H1 K E) as (v & _ & _ & _ & (C & _) & _). rewrite C. reflexivity. }
  destruct o; try discriminate; cbn [run_gop] in E.
  - injection E as <-. destruct (param_of i) as [q|] eqn:Q; [rewrite (group_mod_param g i x q Q); reflexivity|apply (group_mod_near g i x Q)].
  - injection E as <-. destruct (param_of i) as [q|] eqn:Q; [rewrite (group_set_param g i x q Q); reflexivity|apply (group_set_near g i x Q)].
  - injection E as <-. unfold inject_existing. destruct (get_view g oid) as [e|]; [|reflexivity]. cbn zeta. unfold update_c_act, update_c_sln.
    match goal with |- context [if ?b then with_newly _ _ else _] => destruct b end; [change (gcode (with_newly ?a ?b)) with (gcode a)|]; rewrite !update_param_length; unfold change_view; destruct (place_holding _ _); reflexivity.
  - injection E as <-. reflexivity.
  - injection E as <-. unfold delete_view. destruct (place_of v); reflexivity.
  - apply (run_update g e g1) in E. destruct E as (out & E). apply (update_core e g g1 out E).
Qed.
Lemma statistics home os code a b g e g' out : length code = 32%nat -> Forall (proper home) os -> run_gops (new_group code a b) os = Some g -> all_due e g -> update e g = Some (g', out) ->
  Z.of_nat (length (all_views g')) < 4294967296 ->
  gnum g' GRP_AVG_SLN = kept (average (slns (all_views g'))) /\ gnum g' GRP_AVG_ACT = kept (average (acts (all_views g'))) /\
  (Forall (fun x => fle fzero x = true) (slns (all_views g')) ->
     Forall (fun x => fle x (gnum g' GRP_HIGH_SLN) = true) (slns (all_views g')) /\ (slns (all_views g') = [] -> feqb (gnum g' GRP_HIGH_SLN) fzero = true) /\
     (slns (all_views g') <> [] -> Exists (fun x => feqb x (gnum g' GRP_HIGH_SLN) = true) (slns (all_views g')))) /\
  (Forall (fun x => fle fzero x = true) (acts (all_views g')) ->
     Forall (fun x => fle x (gnum g' GRP_HIGH_ACT) = true) (acts (all_views g')) /\ (acts (all_views g') = [] -> feqb (gnum g' GRP_HIGH_ACT) fzero = true) /\
     (acts (all_views g') <> [] -> Exists (fun x => feqb x (gnum g' GRP_HIGH_ACT) = true) (acts (all_views g')))).
Proof.
  intros L P R D U B. pose proof (run_inv home os code a b g P R) as I. assert (LG : length (gcode g) = 32%nat) by (rewrite (run_length home os _ _ P R (new_inv home code a b)); exact L).
  destruct (group_stats home e g g' out I LG D U) as (S1 & S2 & _ & A1 & A2 & _). clear U. set (l := all_views g') in *. clearbody l.
  assert (LA : (length (acts l) <= length l)%nat) by (unfold acts; rewrite map_length; clear; induction l as [|x l IH]; cbn; [lia|destruct (is_program (kind x)); cbn; lia]).
  split; [rewrite S1, mean_is_average; [reflexivity|unfold slns; rewrite map_length; exact B]|]. split; [rewrite A1, mean_is_average; [reflexivity|lia]|]. split.
  - intros G. apply high_stat; [exact G|rewrite slns_words; eexists; reflexivity|exact S2].
  - intros G. apply high_stat; [exact G|rewrite acts_words; eexists; reflexivity|exact A2].
Qed.
Lemma crossing home os code a b g e g' out : Forall (proper home) os -> run_gops (new_group code a b) os = Some g -> all_due e g -> update e g = Some (g', out) -> get g' SlnThr = get g SlnThr ->
  forall k v w, get_view g k = Some v -> get_view g' k = Some w ->
  (once (get_sync (ub e) w) = true -> (In k (o_newly out) <-> c_salient g' = true /\ salient g v = false /\ salient g' w = true)) /\
  (holds (get_sync (ub e) w) = true -> (In k (o_newly out) <-> c_salient g' = true /\ salient g' w = true)).
Proof.
  intros P R D U T k v w GV GW. pose proof (newly_salient home e g g' out (run_inv home os code a b g P R) D U k) as N. unfold salient. rewrite <- T.
  assert (X : In k (o_newly out) <-> c_salient g' = true /\ flt (get g' SlnThr) (get_sln (vw w)) = true /\ (if once (get_sync (ub e) w) then flt (get g' SlnThr) (get_sln (vw v)) = false else holds (get_sync (ub e) w) = true)).
  { rewrite N. split; [intros (v' & w' & A & B & C); rewrite GV in A; rewrite GW in B; injection A as <-; injection B as <-; exact C|intros C; exists v, w; auto]. }
  split; intros S; rewrite X.
  - rewrite S. tauto.
  - assert (O : once (get_sync (ub e) w) = false).
    { unfold holds, once in *. apply orb_true_iff in S. destruct S as [S|S]; apply Z.eqb_eq in S; rewrite S; reflexivity. }
    rewrite O. tauto.
Qed.
Lemma only_present home os code a b g e g' out k : Forall (proper home) os -> run_gops (new_group code a b) os = Some g -> all_due e g -> update e g = Some (g', out) -> In k (o_newly out) -> held g k /\ held g' k.
Proof.
  intros P R D U H. pose proof (run_inv home os code a b g P R) as I. pose proof (update_inv home e g g' out I U) as I'. apply (newly_salient home e g g' out I D U) in H. destruct H as (v & w & A & B & _).
  rewrite (get_view_home home) in A by exact I. rewrite (get_view_home home) in B by exact I'. apply find_key in A, B. apply (in_map fst) in A, B. split; exists (home k); assumption.
Qed.
Lemma fate home os code a b g e g' out oid v : Forall (proper home) os -> run_gops (new_group code a b) os = Some g -> update e g = Some (g', out) -> get_view g oid = Some v ->
  (get_view g' oid = None <-> invalid e oid = true \/ (ijt v < planned e /\ flt fzero (snd (update_res (fold_left (asked_of oid) (pend g) (vw v)))) = false)).
Proof.
  intros P R U G. pose proof (update_fate home e g g' out oid v (run_inv home os code a b g P R) U G) as F. cbn zeta in F. destruct (invalid e oid); [split; [auto|intros _; exact F]|].
  destruct (Z.leb_spec (planned e) (ijt v)).
  - destruct F as (u & F & _). rewrite F. split; [discriminate|]. intros [X|(X & _)]; [discriminate|lia].
  - destruct (flt fzero (snd (update_res _))) eqn:E; [destruct F as (u & F & _); rewrite F; split; [discriminate|]; intros [X|(_ & X)]; discriminate|]. split; [auto|intros _; exact F].
Qed.
