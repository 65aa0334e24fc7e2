(** Proofs about control values of views. *)
From Verif Require Import Base Float32 Float32_facts Float32_round Float32_val Atom_model Obj_model Obj_spec Obj_proofs View_model View_spec.

(** ** Words *)
Lemma put_length l i x : length (put l i x) = length l.
Proof. revert i; induction l as [|a l IH]; intros [|i]; cbn; auto. Qed.
Lemma put_same l i x d : (i < length l)%nat -> nth i (put l i x) d = x.
Proof. revert i; induction l as [|a l IH]; intros [|i] L; cbn in *; try lia; auto. apply IH. lia. Qed.
Lemma put_other l i j x d : i <> j -> nth j (put l i x) d = nth j l d.
Proof. revert i j; induction l as [|a l IH]; intros [|i] [|j] N; cbn; auto; try lia. Qed.

Lemma as_float_u32 a : is_u32 (asFloat a).
Proof. unfold asFloat, u32, is_u32. apply Z.mod_pos_bound. lia. Qed.
Lemma num_valid a : f32_valid (num a) = true.
Proof. apply of_bits_valid, as_float_u32. Qed.
Lemma of_num_range f : f32_valid f = true -> 0 <= of_num f < 2147483648.
Proof. intros V. pose proof (bits_of_range f V) as B. unfold of_num, Float, u32, is_u32 in *. rewrite Z.shiftr_div_pow2 by lia. change (2 ^ 1) with 2. generalize dependent (bits_of_f32 f). intros b B. lia. Qed.
Lemma inf_word w : 0 <= w < 2147483648 -> (w =? PlusInfinity) = feqb (num w) infinite.
Proof.
  intros W. assert (B : asFloat w = 2 * w). { unfold asFloat, u32. rewrite Z.shiftl_mul_pow2 by lia. change (2 ^ 1) with 2. lia. }
  destruct (w =? PlusInfinity) eqn:Q.
  - apply Z.eqb_eq in Q. subst w. reflexivity.
  - apply Z.eqb_neq in Q. symmetry. apply not_true_iff_false. intros E. apply Q. unfold num in E. rewrite B in E.
    assert (F : f32_of_bits (2 * w) = infinite).
    { destruct (f32_of_bits (2 * w)) as [s|s| |s m e]; try discriminate; destruct s; try discriminate; reflexivity. }
    assert (U : is_u32 (2 * w)) by (unfold is_u32; lia).
    pose proof (bits_of_of_bits (2 * w) U) as H. rewrite F in H. specialize (H ltac:(discriminate)). change (bits_of_f32 infinite) with 2139095040 in H. unfold PlusInfinity. lia.
Qed.

(** ** Validity *)
Lemma clamp_valid x : f32_valid x = true -> f32_valid (clamp01 x) = true.
Proof. intros V. unfold clamp01. destruct (flt x fzero); [reflexivity|]. destruct (flt fone x); [reflexivity|exact V]. Qed.
Lemma total_valid cs : Forall (fun x => f32_valid x = true) cs -> f32_valid (total cs) = true.
Proof.
  unfold total. assert (G : forall a, f32_valid a = true -> Forall (fun x => f32_valid x = true) cs -> f32_valid (fold_left fadd cs a) = true).
  { induction cs as [|c cs IH]; intros a A F; cbn [fold_left]; [exact A|]. inversion F; subst. apply IH; [apply fadd_valid; assumption|assumption]. }
  intros F. apply G; [reflexivity|exact F].
Qed.
Lemma mean_valid cs : Forall (fun x => f32_valid x = true) cs -> f32_valid (mean cs) = true.
Proof. intros F. apply fdiv_valid; [apply total_valid, F|apply of_Z_valid]. Qed.
Lemma total_app cs x : total (cs ++ [x]) = fadd (total cs) x.
Proof. unfold total. rewrite fold_left_app. reflexivity. Qed.

(** ** Refinement *)
Definition tally_of (v : view) (k : ctrl) : tally := match k with Sln => t_sln v | Act => t_act v | Vis => t_vis v | Res => t_res v end.
Definition tallied (cs : list spec_float) (t : tally) : Prop := acc t = total cs /\ changes t = Z.of_nat (length cs) /\ Z.of_nat (length cs) < 4294967296.
Definition Rel (v : view) (s : abstract) : Prop :=
  length (vcode v) = 13%nat /\ (forall k, 0 <= word v (member k) < 2147483648) /\
  (forall k, value v k = a_value s k) /\ (forall k, tallied (a_asked s k) (tally_of v k)) /\
  (forall k, Forall (fun x => f32_valid x = true) (a_asked s k)) /\
  (feqb (a_value s Res) infinite = true -> a_asked s Res = []).

Lemma value_word v k : value v k = num (word v (member k)).
Proof. destruct k; reflexivity. Qed.
Lemma start_rel v : fresh v -> Rel v (start v).
Proof.
  intros (L & W & A & B & C & D). split; [exact L|]. split; [exact W|]. split; [reflexivity|]. split; [|split; [constructor|reflexivity]].
  intros k. cbn [start a_asked]. replace (tally_of v k) with no_tally by (destruct k; symmetry; assumption). repeat split.
Qed.
Lemma tally_mod_tallied cs t x : tallied cs t -> Z.of_nat (length (cs ++ [x])) < 4294967296 -> tallied (cs ++ [x]) (tally_mod t x).
Proof.
  intros (A & B & C) L. unfold tallied, tally_mod. cbn [acc changes]. rewrite A, B, total_app. repeat split; try assumption.
  rewrite app_length in *. cbn [length] in *. unfold u32. rewrite Z.mod_small by lia. lia.
Qed.
Lemma pending_total cs t : tallied cs t -> pending t = negb (feqb (total cs) fzero).
Proof.
  intros (A & B & C). unfold pending. rewrite A, B. destruct cs as [|c cs]; [reflexivity|].
  replace (0 <? Z.of_nat (length (c :: cs))) with true by (symmetry; apply Z.ltb_lt; cbn [length]; lia). reflexivity.
Qed.
Lemma mean_tally cs t : tallied cs t -> tally_mean t = mean cs.
Proof. intros (A & B & C). unfold tally_mean, mean. rewrite A, B. reflexivity. Qed.
Lemma tallied_none : tallied [] no_tally.
Proof. repeat split. Qed.

(** The words, values and tallies of a view after each of the elementary changes. *)
Lemma rel_ask v s k x (v' : view) :
  Rel v s -> f32_valid x = true -> (k = Res -> feqb (a_value s Res) infinite = false) -> vcode v' = vcode v ->
  tally_of v' k = tally_mod (tally_of v k) x -> (forall j, j <> k -> tally_of v' j = tally_of v j) ->
  Z.of_nat (length (a_asked s k ++ [x])) < 4294967296 ->
  Rel v' (mkabs (a_value s) (on (a_asked s) k (a_asked s k ++ [x]))).
Proof.
  intros (L & W & V & T & F & I) X KI C TK TJ B. assert (WW : forall i, word v' i = word v i) by (intros; unfold word; rewrite C; reflexivity).
  split; [rewrite C; exact L|]. split; [intros; rewrite WW; apply W|]. split; [intros j; rewrite value_word, WW, <- value_word; apply V|]. cbn [a_asked].
  split; [|split]; [intros j; unfold on; destruct (ctrl_eqb j k) eqn:E|intros j; unfold on; destruct (ctrl_eqb j k) eqn:E|].
  - replace j with k by (destruct j, k; try discriminate; reflexivity). rewrite TK. apply tally_mod_tallied; [apply T|exact B].
  - rewrite TJ; [apply T|]. intros ->. destruct k; discriminate.
  - apply Forall_app. split; [apply F|]. constructor; [exact X|constructor].
  - apply F.
  - cbn [a_value]. intros Q. unfold on. destruct (ctrl_eqb Res k) eqn:E; [|apply I, Q]. destruct k; try discriminate. rewrite KI in Q by reflexivity. discriminate.
Qed.
Lemma rel_update v s k x (v' : view) :
  Rel v s -> f32_valid x = true -> vcode v' = put (vcode v) (member k) (of_num x) ->
  tally_of v' k = no_tally -> (forall j, j <> k -> tally_of v' j = tally_of v j) ->
  Rel v' (mkabs (on (a_value s) k (kept x)) (on (a_asked s) k [])).
Proof.
  intros (L & W & V & T & F & I) X C TK TJ.
  assert (LM : (member k < 13)%nat) by (destruct k; cbn; lia).
  assert (WK : word v' (member k) = of_num x) by (unfold word; rewrite C; apply put_same; rewrite L; exact LM).
  assert (WJ : forall j, j <> k -> word v' (member j) = word v (member j)).
  { intros j N. unfold word. rewrite C. apply put_other. destruct j, k; try contradiction; discriminate. }
  assert (EQ : forall j, ctrl_eqb j k = true -> j = k) by (intros [] E; destruct k; try discriminate; reflexivity).
  assert (NE : forall j, ctrl_eqb j k = false -> j <> k) by (intros j E ->; destruct k; discriminate).
  split; [rewrite C, put_length; exact L|]. split; [|split; [|split; [|split]]]; [intros j; cbn [a_value a_asked]; unfold on; destruct (ctrl_eqb j k) eqn:E ..|].
  - rewrite (EQ _ E), WK. apply of_num_range. exact X.
  - rewrite WJ by (apply NE, E). apply W.
  - rewrite (EQ _ E), value_word, WK. reflexivity.
  - rewrite value_word, WJ, <- value_word by (apply NE, E). apply V.
  - rewrite (EQ _ E), TK. apply tallied_none.
  - rewrite TJ by (apply NE, E). apply T.
  - constructor.
  - apply F.
  - cbn [a_value a_asked]. unfold on. destruct (ctrl_eqb Res k) eqn:E; [reflexivity|exact I].
Qed.
Lemma rel_ext v s s' : Rel v s -> (forall k, a_value s k = a_value s' k) -> (forall k, a_asked s k = a_asked s' k) -> Rel v s'.
Proof. intros (L & W & V & T & F & I) A B. split; [exact L|]. split; [exact W|]. split; [intros; rewrite <- A; apply V|]. split; [intros; rewrite <- B; apply T|]. split; [intros; rewrite <- B; apply F|]. rewrite <- A, <- B. exact I. Qed.
(** Updating when nothing changes the word. *)
Lemma rel_clear v s k (v' : view) :
  Rel v s -> vcode v' = vcode v -> tally_of v' k = no_tally -> (forall j, j <> k -> tally_of v' j = tally_of v j) ->
  Rel v' (mkabs (on (a_value s) k (a_value s k)) (on (a_asked s) k [])).
Proof.
  intros (L & W & V & T & F & I) C TK TJ. assert (WW : forall i, word v' i = word v i) by (intros; unfold word; rewrite C; reflexivity).
  assert (EQ : forall j, ctrl_eqb j k = true -> j = k) by (intros [] E; destruct k; try discriminate; reflexivity).
  assert (NE : forall j, ctrl_eqb j k = false -> j <> k) by (intros j E ->; destruct k; discriminate).
  split; [rewrite C; exact L|]. split; [intros; rewrite WW; apply W|]. split; [|split; [|split]]; [intros j; cbn [a_value a_asked]; unfold on; destruct (ctrl_eqb j k) eqn:E ..|].
  - rewrite (EQ _ E), value_word, WW, <- value_word. apply V.
  - rewrite value_word, WW, <- value_word. apply V.
  - rewrite (EQ _ E), TK. apply tallied_none.
  - rewrite TJ by (apply NE, E). apply T.
  - constructor.
  - apply F.
  - cbn [a_value a_asked]. unfold on. destruct (ctrl_eqb Res k) eqn:E; [reflexivity|exact I].
Qed.
Lemma value_valid v s k : Rel v s -> f32_valid (a_value s k) = true.
Proof. intros (L & W & V & T & F & I). rewrite <- V, value_word. apply num_valid. Qed.

Lemma ctrl_of_none i : ctrl_of i = None -> Nat.eqb i VIEW_SLN = false /\ Nat.eqb i VIEW_RES = false /\ Nat.eqb i VIEW_ACT = false /\ Nat.eqb i GRP_VIEW_VIS = false.
Proof. do 9 (destruct i as [|i]; [discriminate || (repeat split; reflexivity)|]). repeat split; reflexivity. Qed.
Lemma ctrl_of_some i k : ctrl_of i = Some k -> i = member k.
Proof. do 9 (destruct i as [|i]; [discriminate || (intros H; inversion H; reflexivity)|]). discriminate. Qed.
Lemma op_rel v s o : Rel v s -> valid_vop o -> (forall k, Z.of_nat (length (a_asked (abs_op s o) k)) < 4294967296) -> Rel (run_vop v o) (abs_op s o).
Proof.
  intros R O B. pose proof R as (L & W & V & T & F & I).
  assert (ASK : forall k x, f32_valid x = true -> (forall k', Z.of_nat (length (a_asked (ask s k x) k')) < 4294967296) ->
    Rel (match k with Sln => with_t_sln v (tally_mod (t_sln v) x) | Act => with_t_act v (tally_mod (t_act v) x) | Vis => with_t_vis v (tally_mod (t_vis v) x)
         | Res => if word v VIEW_RES =? PlusInfinity then v else with_t_res v (tally_mod (t_res v) x) end) (ask s k x)).
  { intros k x X BB. destruct k; cbn [ask] in *.
    { apply (rel_ask v); try assumption; try reflexivity; [discriminate|intros [] N; try contradiction; reflexivity|]. specialize (BB Sln). exact BB. }
    { apply (rel_ask v); try assumption; try reflexivity; [discriminate|intros [] N; try contradiction; reflexivity|]. specialize (BB Act). exact BB. }
    { apply (rel_ask v); try assumption; try reflexivity; [discriminate|intros [] N; try contradiction; reflexivity|]. specialize (BB Vis). exact BB. }
    change (word v VIEW_RES) with (word v (member Res)). rewrite (inf_word _ (W Res)). rewrite <- value_word, V.
    destruct (feqb (a_value s Res) infinite) eqn:E; [exact R|].
    apply (rel_ask v); try assumption; try reflexivity; [intros _; exact E|intros [] N; try contradiction; reflexivity|]. specialize (BB Res). exact BB. }
  destruct o as [i x|i x|k low high].
  - cbn [run_vop abs_op] in *. unfold view_mod. destruct (ctrl_of i) as [k|] eqn:C.
    + apply ctrl_of_some in C. subst i. specialize (ASK k x O B). destruct k; exact ASK.
    + destruct (ctrl_of_none i C) as (-> & -> & -> & ->). exact R.
  - cbn [run_vop abs_op] in *. unfold view_set. destruct (ctrl_of i) as [k|] eqn:C.
    + apply ctrl_of_some in C. subst i.
      assert (X : f32_valid (fsub x (a_value s k)) = true) by (apply fsub_valid; [exact O|apply (value_valid v s k R)]).
      specialize (ASK k _ X B). rewrite <- (V k) in *. destruct k; exact ASK.
    + destruct (ctrl_of_none i C) as (-> & -> & -> & ->). exact R.
  - cbn [run_vop abs_op]. clear ASK.
    assert (VA : f32_valid (fadd (a_value s k) (mean (a_asked s k))) = true) by (apply fadd_valid; [apply (value_valid v s k R)|apply mean_valid, F]).
    destruct k; unfold updated.
    + pose proof (T Sln) as TT. cbn [tally_of] in TT. unfold update_sln. rewrite (pending_total _ _ TT). destruct (feqb (total (a_asked s Sln)) fzero) eqn:Z; cbn [negb fst].
      * apply (rel_clear v); try assumption; try reflexivity. intros [] N; try contradiction; reflexivity.
      * rewrite (mean_tally _ _ TT). change (get_sln v) with (value v Sln). rewrite V.
        apply (rel_update v); try assumption; try reflexivity; [apply clamp_valid; exact VA|]. intros [] N; try contradiction; reflexivity.
    + pose proof (T Act) as TT. cbn [tally_of] in TT. unfold update_act. rewrite (pending_total _ _ TT). destruct (feqb (total (a_asked s Act)) fzero) eqn:Z; cbn [negb fst].
      * apply (rel_clear v); try assumption; try reflexivity. intros [] N; try contradiction; reflexivity.
      * rewrite (mean_tally _ _ TT). change (get_act v) with (value v Act). rewrite V.
        apply (rel_update v); try assumption; try reflexivity; [apply clamp_valid; exact VA|]. intros [] N; try contradiction; reflexivity.
    + pose proof (T Vis) as TT. cbn [tally_of] in TT. unfold update_vis. rewrite (pending_total _ _ TT). destruct (feqb (total (a_asked s Vis)) fzero) eqn:Z; cbn [negb fst].
      * apply (rel_clear v); try assumption; try reflexivity. intros [] N; try contradiction; reflexivity.
      * rewrite (mean_tally _ _ TT). change (get_vis v) with (value v Vis). rewrite V.
        apply (rel_update v); try assumption; try reflexivity; [apply clamp_valid; exact VA|]. intros [] N; try contradiction; reflexivity.
    + unfold update_res. change (get_res v) with (value v Res). rewrite V. change (S754_infinity false) with infinite.
      destruct (feqb (a_value s Res) infinite) eqn:IN; cbn [fst].
      * assert (Q : a_asked s Res = []) by (apply I; first [assumption|reflexivity]). apply (rel_ext v s); [exact R|intros []; reflexivity|]. intros []; cbn [a_asked]; unfold on; cbn [ctrl_eqb]; try reflexivity. exact Q.
      * pose proof (T Res) as TT. cbn [tally_of] in TT. rewrite (pending_total _ _ TT). rewrite (mean_tally _ _ TT).
        set (moved := if negb (feqb (total (a_asked s Res)) fzero) then fadd (a_value s Res) (mean (a_asked s Res)) else a_value s Res).
        replace (if feqb (total (a_asked s Res)) fzero then a_value s Res else fadd (a_value s Res) (mean (a_asked s Res))) with moved by (subst moved; destruct (feqb _ fzero); reflexivity).
        assert (VM : f32_valid moved = true) by (subst moved; destruct (feqb _ fzero); [apply (value_valid v s Res R)|exact VA]).
        assert (VS : f32_valid (fsub moved fone) = true) by (apply fsub_valid; [exact VM|reflexivity]).
        apply (rel_update v); try assumption; try reflexivity; [destruct (flt _ fzero); [reflexivity|exact VS]|]. intros [] N; try contradiction; reflexivity.
Qed.

Lemma refines v os : fresh v -> Forall valid_vop os -> few (start v) os ->
  forall k, value (run_vops v os) k = a_value (abs_ops (start v) os) k.
Proof.
  intros FR VO FE. assert (G : forall os v s, Rel v s -> Forall valid_vop os -> few s os -> Rel (run_vops v os) (abs_ops s os)).
  { clear. induction os as [|o os IH]; intros v s R VO FE; [exact R|]. cbn [run_vops abs_ops fold_left]. inversion VO; subst. destruct FE as (B & FE).
    apply IH; [apply op_rel|..]; assumption. }
  intros k. apply (G os v (start v) (start_rel v FR) VO FE).
Qed.

(** ** Range *)
Lemma fadd_not_nan_r x y : x <> S754_nan -> is_finite y = true -> fadd x y <> S754_nan.
Proof.
  intros X Y. destruct x as [a|a| |a m e]; try contradiction; destruct y as [b|b| |b n g]; try discriminate; unfold fadd; cbn [SFadd]; try discriminate.
  - destruct (Bool.eqb a b); discriminate.
  - apply normalize_not_nan.
Qed.
Lemma fsub_not_nan_r x y : x <> S754_nan -> is_finite y = true -> fsub x y <> S754_nan.
Proof.
  intros X Y. destruct x as [a|a| |a m e]; try contradiction; destruct y as [b|b| |b n g]; try discriminate; unfold fsub; cbn [SFsub]; try discriminate.
  - destruct (Bool.eqb a (negb b)); discriminate.
  - apply normalize_not_nan.
Qed.
Lemma fdiv_not_nan x y : f32_valid x = true -> f32_valid y = true -> x <> S754_nan -> is_finite y = true -> 0 < val y -> fdiv x y <> S754_nan.
Proof.
  intros VX VY X Y P. destruct x as [a|a| |a m e] eqn:E; try contradiction.
  - apply fdiv_rounded; auto.
  - destruct y as [b|b| |b n g]; try discriminate; destruct b; discriminate.
  - apply fdiv_rounded; auto.
Qed.
Lemma of_Z_u32 n : 0 < n < 4294967296 -> is_finite (f32_of_Z n) = true /\ unit_val <= val (f32_of_Z n).
Proof.
  intros N. pose proof unit_val_pos as U. pose proof (of_Z_rounded n) as R. split.
  - apply val_finite_iff; [apply of_Z_valid|apply of_Z_not_nan|].
    assert (RP : repr (sc 1 32)).
    { unfold repr. rewrite Z.abs_eq by (apply Z.lt_le_incl, sc_pos; lia). split; [|right; exists 1, 32; repeat split; lia]. apply Z.lt_le_incl, sc_mono_exp; lia. }
    assert (S32 : sc 1 32 = 4294967296 * unit_val). { change 32 with (0 + 32). rewrite <- sc_shift by lia. reflexivity. }
    pose proof (rounded_le _ _ _ (sc 1 32) R RP). pose proof (rounded_ge _ _ _ 0 R repr_0).
    assert (sc 1 32 < sc 8388608 105) by (apply sc_mono_exp; lia). nia.
  - apply (rounded_ge _ _ _ _ R repr_unit). nia.
Qed.
Lemma fle_zero_key f : f32_valid f = true -> f <> S754_nan -> (fle fzero f = true <-> 0 <= key f).
Proof. intros V N. rewrite fle_key by (assumption || reflexivity || discriminate). change (key fzero) with 0. apply Z.leb_le. Qed.
Lemma fle_not_nan f : fle fzero f = true -> f <> S754_nan.
Proof. intros H ->. discriminate. Qed.
(** Keeping a number that is not negative drops its lowest bit. *)
Lemma key_bits_nonneg f : f32_valid f = true -> f <> S754_nan -> 0 <= key f -> bits_of_f32 f = key f \/ bits_of_f32 f = 2147483648 /\ key f = 0.
Proof.
  intros V N K. destruct f as [s|s| |s m e]; try contradiction.
  - destruct s; [right; split; reflexivity|left; reflexivity].
  - destruct s; [exfalso; apply K; reflexivity|left; reflexivity].
  - apply unit_bits; [exact V|reflexivity|exact K].
Qed.
Lemma key_max f : f32_valid f = true -> key f <= 2139095040.
Proof.
  intros V. destruct f as [s|s| |s m e]; try (cbn; lia); [destruct s; cbn; lia|]. pose proof (magn_pos m e V) as M. rewrite key_finite. destruct s; lia.
Qed.
Lemma kept_key f : f32_valid f = true -> f <> S754_nan -> 0 <= key f ->
  kept f <> S754_nan /\ f32_valid (kept f) = true /\ key (kept f) = 2 * (key f / 2).
Proof.
  intros V N K. pose proof (key_bits_nonneg f V N K) as KB. pose proof (bits_of_range f V) as B. pose proof (key_max f V) as KM.
  unfold kept, num, of_num. rewrite halved by exact B. set (b := bits_of_f32 f) in *. set (k := key f) in *. clearbody b k. unfold is_u32 in B.
  assert (W : is_u32 (2 * (b / 2))) by (unfold is_u32; lia).
  assert (NB : f32_of_bits (2 * (b / 2)) <> S754_nan). { intros Q. apply nan_bits in Q; [|exact W]. lia. }
  split; [exact NB|]. split; [apply of_bits_valid; exact W|]. rewrite key_of_bits by assumption. destruct (2147483648 <=? 2 * (b / 2)) eqn:L; lia.
Qed.
Lemma kept_nonneg f : f32_valid f = true -> fle fzero f = true -> fle fzero (kept f) = true.
Proof.
  intros V P. pose proof (fle_not_nan f P) as N. pose proof (proj1 (fle_zero_key f V N) P) as K. destruct (kept_key f V N K) as (N' & V' & K').
  apply fle_zero_key; [exact V'|exact N'|]. rewrite K'. lia.
Qed.
Lemma kept_unit f : f32_valid f = true -> in_unit f -> in_unit (kept f).
Proof. intros V U. apply (stored f V U). Qed.
Lemma clamp01_unit x : f32_valid x = true -> x <> S754_nan -> in_unit (clamp01 x).
Proof. intros V N. apply (clamp_unit x V N). Qed.
Lemma not_flt_zero x : f32_valid x = true -> x <> S754_nan -> flt x fzero = false -> fle fzero x = true.
Proof.
  intros V N H. rewrite flt_key in H by (assumption || reflexivity || discriminate). rewrite fle_key by (assumption || reflexivity || discriminate).
  rewrite Z.ltb_ge in H. apply Z.leb_le. exact H.
Qed.

Definition good_tally (t : tally) : Prop := acc t <> S754_nan /\ f32_valid (acc t) = true /\ 0 <= changes t < 4294967296.
Definition Good (v : view) : Prop :=
  length (vcode v) = 13%nat /\ (forall k, 0 <= word v (member k) < 2147483648) /\ (forall k, in_range k (value v k)) /\ (forall k, good_tally (tally_of v k)).
Lemma good_none : good_tally no_tally.
Proof. repeat split; cbn; lia || discriminate. Qed.
Lemma good_mod t x : good_tally t -> f32_valid x = true -> is_finite x = true -> good_tally (tally_mod t x).
Proof.
  intros (A & B & C) X F. split; [apply fadd_not_nan_r; assumption|]. split; [apply fadd_valid; assumption|]. cbn [changes tally_mod]. unfold u32. apply Z.mod_pos_bound. lia.
Qed.
Lemma good_mean t : good_tally t -> pending t = true -> tally_mean t <> S754_nan /\ f32_valid (tally_mean t) = true.
Proof.
  intros (A & B & C) P. unfold pending in P. apply andb_true_iff in P as (P & _). apply Z.ltb_lt in P.
  destruct (of_Z_u32 (changes t)) as (F & U); [lia|]. pose proof unit_val_pos. split; [apply fdiv_not_nan; try assumption; [apply of_Z_valid|lia]|apply fdiv_valid; [exact B|apply of_Z_valid]].
Qed.
Lemma range_finite k f : in_range k f -> f <> infinite -> is_finite f = true.
Proof. intros (A & _) N. destruct f as [s|s| |s m e]; try reflexivity; try discriminate. destruct s; [discriminate|contradiction]. Qed.
Lemma sub_finite x y : f32_valid x = true -> f32_valid y = true -> is_finite x = true -> is_finite y = true ->
  fle fzero x = true -> fle fzero y = true -> is_finite (fsub x y) = true.
Proof.
  intros VX VY FX FY PX PY. pose proof (fle_not_nan x PX) as NX. pose proof (fle_not_nan y PY) as NY.
  pose proof (fsub_rounded x y VX VY FX FY) as R. apply fle_val in PX, PY; try assumption; try reflexivity; try discriminate. rewrite val_fzero in *.
  apply val_finite_iff; [apply fsub_valid; assumption|apply R|].
  pose proof (rounded_le _ _ _ (val x) R (repr_val x VX)). pose proof (rounded_ge _ _ _ (- val y) R (repr_opp _ (repr_val y VY))).
  pose proof (proj1 (val_finite_iff x VX NX) FX). pose proof (proj1 (val_finite_iff y VY NY) FY). lia.
Qed.

Lemma good_ask v k (t : tally) (v' : view) : Good v -> vcode v' = vcode v -> good_tally t -> tally_of v' k = t -> (forall j, j <> k -> tally_of v' j = tally_of v j) -> Good v'.
Proof.
  intros (L & W & I & T) C TT TK TJ. assert (WW : forall i, word v' i = word v i) by (intros; unfold word; rewrite C; reflexivity).
  split; [rewrite C; exact L|]. split; [intros; rewrite WW; apply W|]. split; [intros j; rewrite value_word, WW, <- value_word; apply I|].
  intros j. assert (D : j = k \/ j <> k) by (destruct j, k; (left; reflexivity) || (right; discriminate)). destruct D as [->|N]; [rewrite TK; exact TT|rewrite TJ by exact N; apply T].
Qed.
Lemma good_update v k x (v' : view) : Good v -> f32_valid x = true -> in_range k (kept x) -> vcode v' = put (vcode v) (member k) (of_num x) ->
  tally_of v' k = no_tally -> (forall j, j <> k -> tally_of v' j = tally_of v j) -> Good v'.
Proof.
  intros (L & W & I & T) X R C TK TJ.
  assert (LM : (member k < 13)%nat) by (destruct k; cbn; lia).
  assert (WK : word v' (member k) = of_num x) by (unfold word; rewrite C; apply put_same; rewrite L; exact LM).
  assert (WJ : forall j, j <> k -> word v' (member j) = word v (member j)).
  { intros j N. unfold word. rewrite C. apply put_other. destruct j, k; try contradiction; discriminate. }
  assert (D : forall j, j = k \/ j <> k) by (intros j; destruct j, k; (left; reflexivity) || (right; discriminate)).
  split; [rewrite C, put_length; exact L|]. split; [|split]; intros j; destruct (D j) as [->|N].
  - rewrite WK. apply of_num_range, X.
  - rewrite WJ by exact N. apply W.
  - rewrite value_word, WK. exact R.
  - rewrite value_word, WJ, <- value_word by exact N. apply I.
  - rewrite TK. apply good_none.
  - rewrite TJ by exact N. apply T.
Qed.
Lemma unit_range k x : in_unit x -> in_range k x.
Proof. intros (A & B). split; [exact A|]. destruct k; [exact B|exact B|exact B|exact Logic.I]. Qed.
Lemma good_clamped v k t : Good v -> good_tally t -> pending t = true -> k <> Res ->
  let x := clamp01 (fadd (value v k) (tally_mean t)) in f32_valid x = true /\ in_range k (kept x).
Proof.
  intros (L & W & I & T) G P K x. destruct (good_mean t G P) as (N & V).
  assert (F : is_finite (value v k) = true). { apply in_unit_finite. destruct (I k) as (A & B). split; [exact A|]. destruct k; try contradiction; exact B. }
  assert (VV : f32_valid (value v k) = true) by (rewrite value_word; apply num_valid).
  assert (VX : f32_valid (fadd (value v k) (tally_mean t)) = true) by (apply fadd_valid; assumption).
  assert (NX : fadd (value v k) (tally_mean t) <> S754_nan) by (apply fadd_not_nan; assumption).
  split; [apply clamp_valid; exact VX|]. apply unit_range, kept_unit; [apply clamp_valid; exact VX|]. apply clamp01_unit; assumption.
Qed.
Lemma good_op v o : Good v -> sensible_vop o -> Good (run_vop v o).
Proof.
  intros G S. pose proof G as (L & W & I & T).
  assert (VV : forall k, f32_valid (value v k) = true) by (intros k; rewrite value_word; apply num_valid).
  assert (ASK : forall k x, f32_valid x = true -> is_finite x = true ->
    Good (match k with Sln => with_t_sln v (tally_mod (t_sln v) x) | Act => with_t_act v (tally_mod (t_act v) x) | Vis => with_t_vis v (tally_mod (t_vis v) x)
         | Res => with_t_res v (tally_mod (t_res v) x) end)).
  { intros k x X F. pose proof (good_mod _ x (T k) X F) as TT. destruct k; cbn [tally_of] in TT.
    - eapply (good_ask v Sln _ _ G); [reflexivity|exact TT|reflexivity|]. intros [] N; try contradiction; reflexivity.
    - eapply (good_ask v Act _ _ G); [reflexivity|exact TT|reflexivity|]. intros [] N; try contradiction; reflexivity.
    - eapply (good_ask v Vis _ _ G); [reflexivity|exact TT|reflexivity|]. intros [] N; try contradiction; reflexivity.
    - eapply (good_ask v Res _ _ G); [reflexivity|exact TT|reflexivity|]. intros [] N; try contradiction; reflexivity. }
  destruct o as [i x|i x|k low high]; cbn [run_vop sensible_vop] in *.
  - destruct S as (X & F). unfold view_mod. destruct (Nat.eqb i VIEW_SLN); [exact (ASK Sln x X F)|]. destruct (Nat.eqb i VIEW_RES).
    { unfold mod_res. destruct (_ =? _); [exact G|exact (ASK Res x X F)]. }
    destruct (Nat.eqb i VIEW_ACT); [exact (ASK Act x X F)|]. destruct (Nat.eqb i GRP_VIEW_VIS); [exact (ASK Vis x X F)|exact G].
  - destruct S as (X & F & P).
    assert (SET : forall k, value v k <> infinite -> f32_valid (fsub x (value v k)) = true /\ is_finite (fsub x (value v k)) = true).
    { intros k N. split; [apply fsub_valid; [exact X|apply VV]|]. apply sub_finite; try assumption; [apply VV|apply (range_finite k); [apply I|exact N]|apply (I k)]. }
    assert (NI : forall k, k <> Res -> value v k <> infinite). { intros k K Q. pose proof (I k) as (_ & J). destruct k; try contradiction; rewrite Q in J; discriminate. }
    unfold view_set. destruct (Nat.eqb i VIEW_SLN); [apply (ASK Sln); apply (SET Sln), NI; discriminate|]. destruct (Nat.eqb i VIEW_RES).
    { unfold set_res. destruct (word v VIEW_RES =? PlusInfinity) eqn:Q; [exact G|]. apply (ASK Res); apply (SET Res); intros E;
        change (word v VIEW_RES) with (word v (member Res)) in Q; rewrite (inf_word _ (W Res)), <- value_word, E in Q; discriminate. }
    destruct (Nat.eqb i VIEW_ACT); [apply (ASK Act); apply (SET Act), NI; discriminate|]. destruct (Nat.eqb i GRP_VIEW_VIS); [apply (ASK Vis); apply (SET Vis), NI; discriminate|exact G].
  - clear ASK. destruct k.
    + unfold update_sln. cbn [fst]. destruct (pending (t_sln v)) eqn:P.
      * destruct (good_clamped v Sln (t_sln v) G (T Sln) P ltac:(discriminate)) as (A & B).
        apply (good_update v Sln _ _ G A B); [reflexivity|reflexivity|]. intros [] N; try contradiction; reflexivity.
      * apply (good_ask v Sln no_tally); [exact G|reflexivity|apply good_none|reflexivity|]. intros [] N; try contradiction; reflexivity.
    + unfold update_act. cbn [fst]. destruct (pending (t_act v)) eqn:P.
      * destruct (good_clamped v Act (t_act v) G (T Act) P ltac:(discriminate)) as (A & B).
        apply (good_update v Act _ _ G A B); [reflexivity|reflexivity|]. intros [] N; try contradiction; reflexivity.
      * apply (good_ask v Act no_tally); [exact G|reflexivity|apply good_none|reflexivity|]. intros [] N; try contradiction; reflexivity.
    + unfold update_vis. cbn [fst]. destruct (pending (t_vis v)) eqn:P.
      * destruct (good_clamped v Vis (t_vis v) G (T Vis) P ltac:(discriminate)) as (A & B).
        apply (good_update v Vis _ _ G A B); [reflexivity|reflexivity|]. intros [] N; try contradiction; reflexivity.
      * apply (good_ask v Vis no_tally); [exact G|reflexivity|apply good_none|reflexivity|]. intros [] N; try contradiction; reflexivity.
    + unfold update_res. destruct (feqb (get_res v) (S754_infinity false)) eqn:Q; [exact G|]. cbn [fst].
      assert (NI : value v Res <> infinite) by (intros E; change (get_res v) with (value v Res) in Q; rewrite E in Q; discriminate).
      pose proof (range_finite Res _ (I Res) NI) as F.
      set (r := if pending (t_res v) then fadd (get_res v) (tally_mean (t_res v)) else get_res v).
      assert (R : f32_valid r = true /\ r <> S754_nan).
      { subst r. destruct (pending (t_res v)) eqn:P.
        - destruct (good_mean (t_res v) (T Res) P) as (N & V). split; [apply fadd_valid; [apply (VV Res)|exact V]|apply fadd_not_nan; [exact F|exact N]].
        - split; [apply (VV Res)|]. apply fle_not_nan. apply (I Res). }
      destruct R as (RV & RN). assert (SV : f32_valid (fsub r fone) = true) by (apply fsub_valid; [exact RV|reflexivity]).
      assert (SN : fsub r fone <> S754_nan) by (apply fsub_not_nan_r; [exact RN|reflexivity]).
      set (x := if flt (fsub r fone) fzero then fzero else fsub r fone).
      assert (X : f32_valid x = true /\ fle fzero x = true).
      { subst x. destruct (flt (fsub r fone) fzero) eqn:LT; [split; reflexivity|]. split; [exact SV|apply not_flt_zero; assumption]. }
      destruct X as (XV & XP).
      apply (good_update v Res x _ G XV); [split; [apply kept_nonneg; assumption|exact Logic.I]|reflexivity|reflexivity|]. intros [] N; try contradiction; reflexivity.
Qed.
Lemma stays_in_range v os : fresh v -> (forall k, in_range k (value v k)) -> Forall sensible_vop os ->
  forall k, in_range k (value (run_vops v os) k).
Proof.
  intros (L & W & A & B & C & D) I S. assert (G : Good v). { split; [exact L|]. split; [exact W|]. split; [exact I|]. intros []; cbn [tally_of]; rewrite ?A, ?B, ?C, ?D; apply good_none. }
  clear - G S. revert v G. induction S as [|o os HO HS IH]; intros v G; [apply G|]. cbn [run_vops fold_left]. apply IH, good_op; assumption.
Qed.

(** ** Direction *)
Lemma fle_not_nan_r f : fle f fzero = true -> f <> S754_nan.
Proof. intros H ->. discriminate. Qed.
Lemma nonneg_val f : f32_valid f = true -> f <> S754_nan -> (fle fzero f = true <-> 0 <= val f).
Proof. intros V N. rewrite fle_val by (assumption || reflexivity || discriminate). rewrite val_fzero. tauto. Qed.
Lemma nonpos_val f : f32_valid f = true -> f <> S754_nan -> (fle f fzero = true <-> val f <= 0).
Proof. intros V N. rewrite fle_val by (assumption || reflexivity || discriminate). rewrite val_fzero. tauto. Qed.
Lemma inf_or_finite f : f <> S754_nan -> f = S754_infinity true \/ f = infinite \/ is_finite f = true.
Proof. destruct f as [s|[]| |s m e]; intros N; try contradiction; auto. Qed.
Lemma fadd_nonneg x y : nonneg x -> nonneg y -> nonneg (fadd x y).
Proof.
  intros (VX & PX) (VY & PY). split; [apply fadd_valid; assumption|]. pose proof (fle_not_nan _ PX) as NX. pose proof (fle_not_nan _ PY) as NY.
  destruct (inf_or_finite x NX) as [->|[->|FX]]; [discriminate PX| |].
  - destruct (inf_or_finite y NY) as [->|[->|FY]]; [discriminate PY|reflexivity|]. destruct y as [b|b| |b n g]; try discriminate; reflexivity.
  - destruct (inf_or_finite y NY) as [->|[->|FY]]; [discriminate PY| |].
    + destruct x as [b|b| |b n g]; try discriminate; reflexivity.
    + pose proof (fadd_rounded x y VX VY FX FY) as R. apply nonneg_val; [apply fadd_valid; assumption|apply R|]. apply nonneg_val in PX, PY; try assumption.
      apply (rounded_ge _ _ _ 0 R repr_0). lia.
Qed.
Lemma fadd_nonpos x y : nonpos x -> nonpos y -> nonpos (fadd x y).
Proof.
  intros (VX & PX) (VY & PY). split; [apply fadd_valid; assumption|]. pose proof (fle_not_nan_r _ PX) as NX. pose proof (fle_not_nan_r _ PY) as NY.
  destruct (inf_or_finite x NX) as [->|[->|FX]]; [|discriminate PX|].
  - destruct (inf_or_finite y NY) as [->|[->|FY]]; [reflexivity|discriminate PY|]. destruct y as [b|b| |b n g]; try discriminate; reflexivity.
  - destruct (inf_or_finite y NY) as [->|[->|FY]]; [|discriminate PY|].
    + destruct x as [b|b| |b n g]; try discriminate; reflexivity.
    + pose proof (fadd_rounded x y VX VY FX FY) as R. apply nonpos_val; [apply fadd_valid; assumption|apply R|]. apply nonpos_val in PX, PY; try assumption.
      apply (rounded_le _ _ _ 0 R repr_0). lia.
Qed.
Lemma total_nonneg cs : Forall nonneg cs -> nonneg (total cs).
Proof.
  unfold total. assert (G : forall a, nonneg a -> Forall nonneg cs -> nonneg (fold_left fadd cs a)).
  { induction cs as [|c cs IH]; intros a A F; cbn [fold_left]; [exact A|]. inversion F; subst. apply IH; [apply fadd_nonneg; assumption|assumption]. }
  intros F. apply G; [split; reflexivity|exact F].
Qed.
Lemma total_nonpos cs : Forall nonpos cs -> nonpos (total cs).
Proof.
  unfold total. assert (G : forall a, nonpos a -> Forall nonpos cs -> nonpos (fold_left fadd cs a)).
  { induction cs as [|c cs IH]; intros a A F; cbn [fold_left]; [exact A|]. inversion F; subst. apply IH; [apply fadd_nonpos; assumption|assumption]. }
  intros F. apply G; [split; reflexivity|exact F].
Qed.
Lemma fdiv_nonneg x y : nonneg x -> f32_valid y = true -> is_finite y = true -> 0 < val y -> nonneg (fdiv x y).
Proof.
  intros (VX & PX) VY FY P. pose proof (fle_not_nan _ PX) as NX. split; [apply fdiv_valid; assumption|].
  destruct (inf_or_finite x NX) as [->|[->|FX]]; [discriminate PX| |].
  - destruct y as [b|b| |b n g]; try discriminate; [destruct b; cbn in P; lia|]. destruct b; [|reflexivity]. exfalso. apply valid_exp in VY. pose proof (sc_pos (Zpos n) g). rewrite val_finite in P. cbn [cond_Zopp] in P. lia.
  - pose proof (fdiv_rounded x y VX VY FX FY P) as R. apply nonneg_val; [apply fdiv_valid; assumption|apply R|]. apply nonneg_val in PX; try assumption.
    apply (rounded_ge _ _ _ 0 R repr_0). pose proof unit_val_pos. nia.
Qed.
Lemma fdiv_nonpos x y : nonpos x -> f32_valid y = true -> is_finite y = true -> 0 < val y -> nonpos (fdiv x y).
Proof.
  intros (VX & PX) VY FY P. pose proof (fle_not_nan_r _ PX) as NX. split; [apply fdiv_valid; assumption|].
  destruct (inf_or_finite x NX) as [->|[->|FX]]; [|discriminate PX|].
  - destruct y as [b|b| |b n g]; try discriminate; [destruct b; cbn in P; lia|]. destruct b; [|reflexivity]. exfalso. apply valid_exp in VY. pose proof (sc_pos (Zpos n) g). rewrite val_finite in P. cbn [cond_Zopp] in P. lia.
  - pose proof (fdiv_rounded x y VX VY FX FY P) as R. apply nonpos_val; [apply fdiv_valid; assumption|apply R|]. apply nonpos_val in PX; try assumption.
    apply (rounded_le _ _ _ 0 R repr_0). pose proof unit_val_pos. nia.
Qed.
Lemma mean_nonneg cs : Forall nonneg cs -> cs <> [] -> Z.of_nat (length cs) < 4294967296 -> nonneg (mean cs).
Proof.
  intros F N L. destruct (of_Z_u32 (Z.of_nat (length cs))) as (FI & U); [destruct cs; [contradiction|cbn [length] in *; lia]|]. pose proof unit_val_pos.
  apply fdiv_nonneg; [apply total_nonneg, F|apply of_Z_valid|exact FI|lia].
Qed.
Lemma mean_nonpos cs : Forall nonpos cs -> cs <> [] -> Z.of_nat (length cs) < 4294967296 -> nonpos (mean cs).
Proof.
  intros F N L. destruct (of_Z_u32 (Z.of_nat (length cs))) as (FI & U); [destruct cs; [contradiction|cbn [length] in *; lia]|]. pose proof unit_val_pos.
  apply fdiv_nonpos; [apply total_nonpos, F|apply of_Z_valid|exact FI|lia].
Qed.
Lemma fadd_ge x y : f32_valid x = true -> is_finite x = true -> nonneg y -> fle x (fadd x y) = true.
Proof.
  intros VX FX (VY & PY). pose proof (fle_not_nan _ PY) as NY. assert (NX : x <> S754_nan) by (intros ->; discriminate).
  destruct (inf_or_finite y NY) as [->|[->|FY]]; [discriminate PY| |].
  - destruct x as [b|b| |b n g]; try discriminate; reflexivity.
  - pose proof (fadd_rounded x y VX VY FX FY) as R. apply fle_val; try assumption; [apply fadd_valid; assumption|apply R|]. apply nonneg_val in PY; try assumption.
    apply (rounded_ge _ _ _ _ R (repr_val x VX)). lia.
Qed.
Lemma fadd_le x y : f32_valid x = true -> is_finite x = true -> nonpos y -> fle (fadd x y) x = true.
Proof.
  intros VX FX (VY & PY). pose proof (fle_not_nan_r _ PY) as NY. assert (NX : x <> S754_nan) by (intros ->; discriminate).
  destruct (inf_or_finite y NY) as [->|[->|FY]]; [|discriminate PY|].
  - destruct x as [b|b| |b n g]; try discriminate; reflexivity.
  - pose proof (fadd_rounded x y VX VY FX FY) as R. apply fle_val; try assumption; [apply fadd_valid; assumption|apply R|]. apply nonpos_val in PY; try assumption.
    apply (rounded_le _ _ _ _ R (repr_val x VX)). lia.
Qed.
Lemma num_even w : num w <> S754_nan -> Z.even (key (num w)) = true.
Proof.
  intros N. unfold num in *. pose proof (as_float_u32 w) as U. rewrite key_of_bits by assumption.
  assert (E : Z.even (asFloat w) = true).
  { unfold asFloat, u32. rewrite Z.shiftl_mul_pow2 by lia. change (2 ^ 1) with 2. replace ((w * 2) mod 4294967296) with (2 * (w mod 2147483648)) by lia. rewrite Z.even_mul. reflexivity. }
  destruct (2147483648 <=? asFloat w); [|exact E]. rewrite Z.even_opp, Z.even_sub, E. reflexivity.
Qed.
Lemma fle_refl f : f32_valid f = true -> f <> S754_nan -> fle f f = true.
Proof. intros V N. rewrite fle_key by assumption. apply Z.leb_refl. Qed.
Lemma updated_up k w cs : k <> Res -> in_unit (num w) -> Forall nonneg cs -> Z.of_nat (length cs) < 4294967296 -> fle (num w) (updated k (num w) cs) = true.
Proof.
  intros K U F L. pose proof (in_unit_not_nan _ U) as NW. pose proof (num_valid w) as VW. pose proof (in_unit_finite _ U) as FW.
  assert (E : updated k (num w) cs = if feqb (total cs) fzero then num w else kept (clamp01 (fadd (num w) (mean cs)))).
  { unfold updated, clamp01. destruct k; try contradiction; destruct (feqb (total cs) fzero); reflexivity. }
  rewrite E. destruct (feqb (total cs) fzero) eqn:Z; [apply fle_refl; assumption|].
  assert (CN : cs <> []) by (intros ->; discriminate). pose proof (mean_nonneg cs F CN L) as M.
  pose proof (fadd_ge (num w) (mean cs) VW FW M) as G. set (x := fadd (num w) (mean cs)) in *.
  assert (VX : f32_valid x = true) by (apply fadd_valid; [exact VW|apply M]).
  assert (NX : x <> S754_nan) by (apply fadd_not_nan; [exact FW|apply fle_not_nan, M]).
  rewrite fle_key in G by assumption. apply Z.leb_le in G.
  pose proof (proj1 (in_unit_key _ VW NW) U) as KW.
  pose proof (clamp_valid x VX) as VC. pose proof (clamp01_unit x VX NX) as UC. pose proof (in_unit_not_nan _ UC) as NC.
  pose proof (proj1 (in_unit_key _ VC NC) UC) as KC. destruct (kept_key _ VC NC (proj1 KC)) as (KN & KV & KK).
  rewrite fle_key by assumption. rewrite KK. apply Z.leb_le. pose proof (num_even w NW) as EV. rewrite Z.even_spec in EV. destruct EV as (h & EV).
  assert (C : key (num w) <= key (clamp01 x)).
  { unfold clamp01 in *. destruct (flt x fzero) eqn:A. { rewrite flt_key in A by (assumption || reflexivity || discriminate). change (key fzero) with 0 in *. lia. }
    destruct (flt fone x); [change (key fone) with 1065353216; lia|exact G]. }
  rewrite EV in *. lia.
Qed.
Lemma updated_down k w cs : k <> Res -> in_unit (num w) -> Forall nonpos cs -> Z.of_nat (length cs) < 4294967296 -> fle (updated k (num w) cs) (num w) = true.
Proof.
  intros K U F L. pose proof (in_unit_not_nan _ U) as NW. pose proof (num_valid w) as VW. pose proof (in_unit_finite _ U) as FW.
  assert (E : updated k (num w) cs = if feqb (total cs) fzero then num w else kept (clamp01 (fadd (num w) (mean cs)))).
  { unfold updated, clamp01. destruct k; try contradiction; destruct (feqb (total cs) fzero); reflexivity. }
  rewrite E. destruct (feqb (total cs) fzero) eqn:Z; [apply fle_refl; assumption|].
  assert (CN : cs <> []) by (intros ->; discriminate). pose proof (mean_nonpos cs F CN L) as M.
  pose proof (fadd_le (num w) (mean cs) VW FW M) as G. set (x := fadd (num w) (mean cs)) in *.
  assert (VX : f32_valid x = true) by (apply fadd_valid; [exact VW|apply M]).
  assert (NX : x <> S754_nan) by (apply fadd_not_nan; [exact FW|apply fle_not_nan_r, M]).
  rewrite fle_key in G by assumption. apply Z.leb_le in G.
  pose proof (proj1 (in_unit_key _ VW NW) U) as KW.
  pose proof (clamp_valid x VX) as VC. pose proof (clamp01_unit x VX NX) as UC. pose proof (in_unit_not_nan _ UC) as NC.
  pose proof (proj1 (in_unit_key _ VC NC) UC) as KC. destruct (kept_key _ VC NC (proj1 KC)) as (KN & KV & KK).
  rewrite fle_key by assumption. rewrite KK. apply Z.leb_le.
  assert (C : key (clamp01 x) <= key (num w)).
  { unfold clamp01 in *. destruct (flt x fzero); [change (key fzero) with 0; lia|]. destruct (flt fone x) eqn:A; [|exact G].
    rewrite flt_key in A by (assumption || reflexivity || discriminate). change (key fone) with 1065353216 in *. lia. }
  lia.
Qed.

(** ** Resilience *)
Definition counts (n : Z) (f : spec_float) : Prop := f32_valid f = true /\ is_finite f = true /\ val f = n * unit_val.
Lemma counts_eq n f : 0 <= n <= 16777216 -> (counts n f -> feqb f (f32_of_Z n) = true).
Proof.
  intros N (V & F & E). apply feqb_val; [exact V|apply of_Z_valid|intros ->; discriminate|apply of_Z_not_nan|]. rewrite of_Z_exact by lia. exact E.
Qed.
Lemma sc_int m e k : sc m e = k * unit_val -> e <= 0 -> -1000 <= e -> m = k * 2 ^ (- e).
Proof.
  unfold sc, unit_val. intros H E EB. assert (P : 2 ^ 1000 = 2 ^ (e + 1000) * 2 ^ (- e)) by (rewrite <- Z.pow_add_r by lia; f_equal; lia). rewrite P in H. clear P.
  assert (0 < 2 ^ (e + 1000)) by (apply Z.pow_pos_nonneg; lia). nia.
Qed.
Lemma counts_even n f : 0 <= n <= 8388608 -> counts n f -> Z.even (key f) = true /\ 0 <= key f.
Proof.
  intros N (V & F & E). pose proof unit_val_pos as U. destruct f as [s|s| |s m e]; try discriminate; [split; [reflexivity|cbn; lia]|].
  rewrite val_finite in E. pose proof (valid_mant _ _ _ V) as M. pose proof (valid_exp _ _ _ V) as X. pose proof (mg_lt_inf _ _ _ V) as P. pose proof (magn_pos m e V) as MP.
  destruct s; cbn [cond_Zopp] in E; [nia|]. rewrite key_finite. split; [|lia]. unfold magn. destruct (Zpos m <? 8388608) eqn:L.
  - apply Z.ltb_lt in L. apply sc_int in E; [|lia|lia]. destruct M as (_ & [M|M]); [|lia]. rewrite M in E. rewrite E. change (2 ^ - -149) with (2 * 2 ^ 148). rewrite !Z.even_mul. apply orb_true_r.
  - apply Z.ltb_ge in L. rewrite Z.even_add, Z.even_mul, Z.even_sub. change (Z.even 8388608) with true. rewrite orb_true_r.
    assert (EV : Z.even (Zpos m) = true).
    { destruct (Z.le_gt_cases 0 e) as [G|G].
      - assert (SC : sc (Zpos m) e = (Zpos m * 2 ^ e) * unit_val). { unfold sc, unit_val. rewrite <- Z.mul_assoc, <- Z.pow_add_r by lia. reflexivity. }
        assert (Q : Zpos m * 2 ^ e = n) by nia. assert (2 ^ 0 <= 2 ^ e) by (apply Z.pow_le_mono_r; lia). change (2 ^ 0) with 1 in *.
        assert (Zpos m = 8388608) by nia. rewrite H0. reflexivity.
      - apply sc_int in E; [|lia|lia]. rewrite E. replace (- e) with (1 + (- e - 1)) by lia. rewrite Z.pow_add_r by lia. rewrite !Z.even_mul. change (Z.even (2 ^ 1)) with true. rewrite orb_true_l, orb_true_r. reflexivity. }
    rewrite EV. reflexivity.
Qed.
Lemma counts_kept n f : 0 <= n <= 8388608 -> counts n f -> counts n (kept f).
Proof.
  intros N C. destruct (counts_even n f N C) as (EV & P). destruct C as (V & F & E). assert (NN : f <> S754_nan) by (intros ->; discriminate).
  destruct (kept_key f V NN P) as (KN & KV & KK). rewrite Z.even_spec in EV. destruct EV as (h & EV). assert (KE : key (kept f) = key f) by (rewrite KK, EV; lia).
  assert (VE : val (kept f) = val f).
  { apply feqb_val; try assumption. rewrite feqb_key by assumption. rewrite KE. apply Z.eqb_refl. }
  split; [exact KV|]. split; [|lia]. apply val_finite_iff; [exact KV|exact KN|]. rewrite VE. apply val_finite_iff; assumption.
Qed.
Lemma of_Z_counts n : 0 <= n <= 16777216 -> counts n (f32_of_Z n).
Proof.
  intros N. split; [apply of_Z_valid|]. rewrite of_Z_exact by lia. split; [|reflexivity]. destruct (Z.eq_dec n 0) as [->|]; [reflexivity|]. apply of_Z_u32. lia.
Qed.
Lemma counts_sub n f : 0 <= n <= 8388608 -> counts n f -> counts (n - 1) (fsub f fone).
Proof.
  intros N (V & F & E). pose proof (fsub_rounded f fone V eq_refl F eq_refl) as R. rewrite E, val_fone in R.
  assert (VE : val (fsub f fone) = (n - 1) * unit_val) by (apply (rounded_exact _ 1 _ _ ltac:(lia) R); [apply repr_int; lia|lia]).
  assert (VV : f32_valid (fsub f fone) = true) by (apply fsub_valid; [exact V|reflexivity]).
  split; [exact VV|]. split; [|exact VE]. apply val_finite_iff; [exact VV|apply R|]. rewrite VE. pose proof unit_val_pos.
  assert (LT : 8388609 * unit_val < sc 8388608 105). { change (8388609 * unit_val) with (sc 8388609 0). apply sc_mono_exp; lia. } generalize dependent (sc 8388608 105). intros. rewrite Z.abs_mul, (Z.abs_eq unit_val) by lia. assert (Z.abs (n - 1) <= 8388609) by lia. nia.
Qed.
Lemma update_res_counts v n : length (vcode v) = 13%nat -> t_res v = no_tally -> 0 <= n <= 8388608 -> counts n (get_res v) ->
  counts (Z.max 0 (n - 1)) (get_res (fst (update_res v))) /\ t_res (fst (update_res v)) = no_tally /\ length (vcode (fst (update_res v))) = 13%nat /\
  snd (update_res v) = get_res (fst (update_res v)).
Proof.
  intros L T N C. unfold update_res. pose proof C as (V & F & E). replace (feqb (get_res v) (S754_infinity false)) with false.
  2:{ symmetry. destruct (get_res v) as [s|s| |s m e]; try discriminate; destruct s; reflexivity. }
  rewrite T. change (pending no_tally) with false. cbn [fst snd]. pose proof (counts_sub n _ N C) as CS.
  set (x := if flt (fsub (get_res v) fone) fzero then fzero else fsub (get_res v) fone).
  assert (X : counts (Z.max 0 (n - 1)) x).
  { subst x. destruct CS as (SV & SF & SE). assert (SN : fsub (get_res v) fone <> S754_nan) by (intros Q; rewrite Q in SF; discriminate). pose proof unit_val_pos.
    destruct (flt (fsub (get_res v) fone) fzero) eqn:LT.
    - apply flt_val in LT; try assumption; try reflexivity; try discriminate. rewrite val_fzero in LT. replace (Z.max 0 (n - 1)) with 0 by nia. repeat split.
    - assert (~ val (fsub (get_res v) fone) < 0). { rewrite <- val_fzero. intros G. apply flt_val in G; try assumption; try reflexivity; try discriminate. rewrite G in LT. discriminate. }
      replace (Z.max 0 (n - 1)) with (n - 1) by nia. repeat split; assumption. }
  assert (G : get_res (with_t_res (with_word v VIEW_RES (of_num x)) no_tally) = kept x).
  { unfold get_res, word, with_t_res, with_word. cbn [vcode]. rewrite put_same by (rewrite L; vm_compute; repeat split; lia || congruence). reflexivity. }
  rewrite G. split; [apply counts_kept; [lia|exact X]|]. split; [reflexivity|]. split; [|reflexivity]. cbn [vcode with_t_res with_word]. rewrite put_length. exact L.
Qed.
Lemma init_res_counts n : 0 <= n <= 8388608 -> counts n (num (init_res n)).
Proof. intros N. unfold init_res. replace (n <? 0) with false by (symmetry; apply Z.ltb_ge; lia). apply counts_kept; [exact N|]. apply of_Z_counts. lia. Qed.
Lemma counts_positive n f : 0 <= n -> counts n f -> flt fzero f = (0 <? n).
Proof.
  intros N (V & F & E). assert (NN : f <> S754_nan) by (intros ->; discriminate). pose proof unit_val_pos.
  destruct (flt fzero f) eqn:L; symmetry.
  - apply flt_val in L; try assumption; try reflexivity; try discriminate. rewrite val_fzero in L. nia.
  - apply Z.ltb_ge. destruct (Z.le_gt_cases n 0); [assumption|]. exfalso. assert (flt fzero f = true) by (apply flt_val; try assumption; try reflexivity; try discriminate; rewrite val_fzero; nia). congruence.
Qed.
Lemma countdown v n : length (vcode v) = 13%nat -> t_res v = no_tally -> word v VIEW_RES = init_res n -> 0 <= n <= 8388608 ->
  forall k, Z.of_nat k <= n -> feqb (get_res (res_updates k v)) (f32_of_Z (n - Z.of_nat k)) = true /\ flt fzero (get_res (res_updates k v)) = (Z.of_nat k <? n).
Proof.
  intros L T W N. assert (C : counts n (get_res v)) by (unfold get_res; rewrite W; apply init_res_counts, N). clear W.
  intros k K. assert (G : counts (n - Z.of_nat k) (get_res (res_updates k v))).
  { revert v n L T N C K. induction k as [|k IH]; intros v n L T N C K; cbn [res_updates]; [replace (n - Z.of_nat 0) with n by lia; exact C|].
    destruct (update_res_counts v n L T N C) as (C' & T' & L' & _). specialize (IH (fst (update_res v)) (n - 1)). replace (n - Z.of_nat (S k)) with (n - 1 - Z.of_nat k) by lia.
    apply IH; try assumption; try lia. replace (Z.max 0 (n - 1)) with (n - 1) in C' by lia. exact C'. }
  split; [apply counts_eq; [lia|exact G]|]. rewrite (counts_positive (n - Z.of_nat k)); [|lia|exact G]. apply eq_true_iff_eq. rewrite !Z.ltb_lt. lia.
Qed.
Lemma unlimited v : word v VIEW_RES = PlusInfinity -> forall k, res_updates k v = v.
Proof. intros W. induction k as [|k IH]; [reflexivity|]. cbn [res_updates]. unfold update_res at 1. unfold get_res. rewrite W. exact IH. Qed.

Lemma too_many_life : get_res (fst (update_res (mkview (put (repeat 0 13) 4%nat (init_res 8388610)) no_tally no_tally no_tally no_tally 0 0 0 0 fzero fzero))) = f32_of_Z 8388608.
Proof. vm_compute. reflexivity. Qed.
Lemma never_expires : let v := mkview (put (repeat 0 13) 4%nat (init_res 33554432)) no_tally no_tally no_tally no_tally 0 0 0 0 fzero fzero in
  forall k, res_updates k v = v.
Proof. intros v. induction k as [|k IH]; [reflexivity|]. cbn [res_updates]. replace (fst (update_res v)) with v; [exact IH|]. vm_compute. reflexivity. Qed.

(** ** One update *)
Lemma abs_asks s os : Forall no_update os -> forall k, a_value (abs_ops s os) k = a_value s k.
Proof.
  revert s. induction os as [|o os IH]; intros s F k; [reflexivity|]. inversion F; subst. cbn [abs_ops fold_left]. change (a_value (abs_ops (abs_op s o) os) k = a_value s k).
  rewrite IH by assumption. destruct o as [i x|i x|j lo hi]; [| |contradiction]; cbn [abs_op]; destruct (ctrl_of i) as [[]|]; cbn [ask]; try reflexivity; destruct (feqb (a_value s Res) infinite); reflexivity.
Qed.
Lemma few_app s os os' : few s (os ++ os') <-> few s os /\ few (abs_ops s os) os'.
Proof.
  revert s. induction os as [|o os IH]; intros s; cbn [app few]; [cbn; tauto|]. rewrite IH. cbn [abs_ops fold_left]. tauto.
Qed.
Lemma few_asked s os k : (forall k, Z.of_nat (length (a_asked s k)) < 4294967296) -> few s os -> Z.of_nat (length (a_asked (abs_ops s os) k)) < 4294967296.
Proof. revert s. induction os as [|o os IH]; intros s A F; [apply A|]. destruct F as (F1 & F2). cbn [abs_ops fold_left]. apply IH; assumption. Qed.
Lemma one_update v os k low high : fresh v -> Forall valid_vop os -> few (start v) os -> Forall no_update os ->
  value (run_vops v (os ++ [Update k low high])) k = updated k (value v k) (a_asked (abs_ops (start v) os) k).
Proof.
  intros FR VO FE NU. rewrite refines; [|exact FR|apply Forall_app; split; [exact VO|constructor; [exact Logic.I|constructor]]|].
  - unfold abs_ops. rewrite fold_left_app. cbn [fold_left abs_op a_value]. unfold on. replace (ctrl_eqb k k) with true by (destruct k; reflexivity).
    change (fold_left abs_op os (start v)) with (abs_ops (start v) os). rewrite abs_asks by exact NU. reflexivity.
  - apply few_app. split; [exact FE|]. cbn [few abs_op a_asked]. split; [|exact Logic.I]. intros j. unfold on. destruct (ctrl_eqb j k); [cbn; lia|].
    apply few_asked; [cbn; lia|exact FE].
Qed.
Lemma value_num v k : value v k = num (word v (member k)).
Proof. destruct k; reflexivity. Qed.
Lemma moves_up v os k low high : fresh v -> Forall valid_vop os -> few (start v) os -> Forall no_update os -> k <> Res -> in_range k (value v k) ->
  Forall nonneg (a_asked (abs_ops (start v) os) k) -> fle (value v k) (value (run_vops v (os ++ [Update k low high])) k) = true.
Proof.
  intros FR VO FE NU K R A. rewrite one_update by assumption. rewrite value_num in *. apply updated_up; [exact K| |exact A|apply few_asked; [cbn; lia|exact FE]].
  destruct k; try contradiction; exact R.
Qed.
Lemma moves_down v os k low high : fresh v -> Forall valid_vop os -> few (start v) os -> Forall no_update os -> k <> Res -> in_range k (value v k) ->
  Forall nonpos (a_asked (abs_ops (start v) os) k) -> fle (value (run_vops v (os ++ [Update k low high])) k) (value v k) = true.
Proof.
  intros FR VO FE NU K R A. rewrite one_update by assumption. rewrite value_num in *. apply updated_down; [exact K| |exact A|apply few_asked; [cbn; lia|exact FE]].
  destruct k; try contradiction; exact R.
Qed.

(** ** Notification periods *)
Lemma trailing_snoc {A} (p : A -> bool) l x : trailing p (l ++ [x]) = if p x then trailing p l + 1 else 0.
Proof.
  induction l as [|a l IH]; [cbn [app trailing forallb length]; rewrite andb_true_r; destruct (p x); reflexivity|].
  cbn [app trailing]. change (a :: l ++ [x]) with ((a :: l) ++ [x]). rewrite forallb_app. cbn [forallb]. rewrite andb_true_r.
  destruct (p x) eqn:P.
  - rewrite andb_true_r. cbn [forallb app]. destruct (p a && forallb p l) eqn:Q; [cbn [length]; rewrite app_length; cbn [length]; lia|exact IH].
  - rewrite andb_false_r. exact IH.
Qed.
Lemma ask_periods v o : no_update o -> low_sln (run_vop v o) = low_sln v /\ high_sln (run_vop v o) = high_sln v.
Proof.
  destruct o as [i x|i x|j lo hi]; [| |contradiction]; intros _; cbn [run_vop]; unfold view_mod, view_set;
  repeat match goal with |- context [if Nat.eqb ?a ?b then _ else _] => destruct (Nat.eqb a b) end; try (split; reflexivity);
  unfold mod_res, set_res; destruct (word v VIEW_RES =? PlusInfinity); split; reflexivity.
Qed.
Lemma asks_periods v os : Forall no_update os -> low_sln (run_vops v os) = low_sln v /\ high_sln (run_vops v os) = high_sln v.
Proof.
  revert v. induction os as [|o os IH]; intros v F; [split; reflexivity|]. inversion F; subst. cbn [run_vops fold_left]. change (fold_left run_vop os (run_vop v o)) with (run_vops (run_vop v o) os).
  destruct (IH (run_vop v o)) as (A & B); [assumption|]. destruct (ask_periods v o) as (C & D); [assumption|]. split; congruence.
Qed.
Lemma sln_periods v low high : let w := fst (update_sln v low high) in
  low_sln w = (if flt (get_sln w) low then u32 (low_sln v + 1) else 0) /\
  high_sln w = (if flt (get_sln w) low then high_sln v else if flt high (get_sln w) then u32 (high_sln v + 1) else 0).
Proof.
  cbv zeta. unfold update_sln. cbn [fst]. set (w := with_t_sln _ no_tally). assert (G : forall a b, get_sln (with_p_sln w a b) = get_sln w) by reflexivity. rewrite G.
  assert (L : low_sln w = low_sln v) by (subst w; destruct (pending (t_sln v)); reflexivity). assert (H : high_sln w = high_sln v) by (subst w; destruct (pending (t_sln v)); reflexivity).
  unfold count_periods. cbn [low_sln high_sln with_p_sln]. rewrite L, H. destruct (flt (get_sln w) low); split; reflexivity.
Qed.
Lemma history_snoc v low high steps ops :
  let h := sln_history v low high steps in
  let w := fst (update_sln (run_vops (fst h) ops) low high) in
  sln_history v low high (steps ++ [ops]) = (w, snd h ++ [get_sln w]).
Proof.
  revert v. induction steps as [|o steps IH]; intros v; cbv zeta in *; [reflexivity|]. cbn [app sln_history].
  specialize (IH (fst (update_sln (run_vops v o) low high))). rewrite IH.
  destruct (sln_history (fst (update_sln (run_vops v o) low high)) low high steps) as [a b]. reflexivity.
Qed.
Lemma trailing_nonneg {A} (p : A -> bool) l : 0 <= trailing p l <= Z.of_nat (length l).
Proof. induction l as [|a l IH]; cbn [trailing]; [cbn; lia|]. destruct (forallb p (a :: l)); cbn [length] in *; lia. Qed.
Lemma low_counted v low high steps : low_sln v = 0 -> Forall (Forall no_update) steps -> Z.of_nat (length steps) < 4294967296 ->
  let h := sln_history v low high steps in low_sln (fst h) = trailing (fun x => flt x low) (snd h) /\ length (snd h) = length steps.
Proof.
  intros L0. cbv zeta. induction steps as [|o steps IH] using rev_ind; intros F N; [split; [exact L0|reflexivity]|].
  apply Forall_app in F. destruct F as (F & Fo). inversion Fo; subst. rewrite app_length in *. cbn [length] in *. destruct (IH F) as (A & B); [lia|].
  rewrite history_snoc. cbn [fst snd]. rewrite trailing_snoc, app_length. cbn [length]. split; [|lia].
  destruct (sln_periods (run_vops (fst (sln_history v low high steps)) o) low high) as (P & _). rewrite P. destruct (asks_periods (fst (sln_history v low high steps)) o) as (Q & _); [assumption|]. rewrite Q, A.
  destruct (flt _ low); [|reflexivity]. pose proof (trailing_nonneg (fun x => flt x low) (snd (sln_history v low high steps))) as T. rewrite B in T. unfold u32. apply Z.mod_small. lia.
Qed.
Lemma high_counted v low high steps : high_sln v = 0 -> Forall (Forall no_update) steps -> Z.of_nat (length steps) < 4294967296 ->
  let h := sln_history v low high steps in Forall (fun x => flt x low = false) (snd h) ->
  high_sln (fst h) = trailing (fun x => flt high x) (snd h) /\ length (snd h) = length steps.
Proof.
  intros L0. cbv zeta. induction steps as [|o steps IH] using rev_ind; intros F N G; [split; [exact L0|reflexivity]|].
  apply Forall_app in F. destruct F as (F & Fo). inversion Fo; subst. rewrite app_length in *. cbn [length] in *.
  pose proof (history_snoc v low high steps o) as HS. cbv zeta in HS. pose proof (sln_periods (run_vops (fst (sln_history v low high steps)) o) low high) as P. cbv zeta in P. destruct P as (_ & P). generalize dependent (fst (update_sln (run_vops (fst (sln_history v low high steps)) o) low high)). intros w HS P. rewrite HS in *. cbn [fst snd] in *. apply Forall_app in G. destruct G as (G & Gx). inversion Gx as [|? ? Gy Gn]; subst. destruct (IH F) as (A & B); [lia|exact G|].
  rewrite trailing_snoc, app_length. cbn [length]. split; [|lia].
  rewrite P. destruct (asks_periods (fst (sln_history v low high steps)) o) as (_ & Q); [assumption|]. rewrite Q, A.
  rewrite Gy. destruct (flt high _); [|reflexivity]. pose proof (trailing_nonneg (fun x => flt high x) (snd (sln_history v low high steps))) as T. rewrite B in T. unfold u32. apply Z.mod_small. lia.
Qed.

(** ** Copying a value between groups *)
Lemma nan_not_lt f : flt fone f = true -> f <> S754_nan.
Proof. intros H ->. discriminate. Qed.
Lemma fmul_nonneg x y : in_unit x -> in_unit y -> f32_valid x = true -> f32_valid y = true -> in_unit (fmul x y) /\ f32_valid (fmul x y) = true.
Proof.
  intros UX UY VX VY. pose proof (in_unit_finite _ UX) as FX. pose proof (in_unit_finite _ UY) as FY. pose proof (in_unit_not_nan _ UX) as NX. pose proof (in_unit_not_nan _ UY) as NY.
  pose proof (fmul_rounded x y VX VY FX FY) as R. pose proof (fmul_valid x y VX VY) as V. split; [|exact V]. pose proof unit_val_pos as U.
  destruct UX as (X0 & X1), UY as (Y0 & Y1). apply fle_val in X0, X1, Y0, Y1; try assumption; try reflexivity; try discriminate. rewrite val_fzero, ?val_fone in *.
  split; apply fle_val; try assumption; try reflexivity; try discriminate; try (exact (proj1 R)).
  - rewrite val_fzero. apply (rounded_ge _ _ _ 0 R repr_0). nia.
  - rewrite val_fone. apply (rounded_le _ _ _ _ R repr_unit). nia.
Qed.
Lemma morph_unit v s d : f32_valid v = true -> f32_valid s = true -> f32_valid d = true -> in_unit v -> in_unit s -> in_unit d -> flt fzero s = true ->
  in_unit (MorphValue v s d).
Proof.
  intros VV VS VD UV US UD S. unfold MorphValue. destruct (feqb v fzero); [exact UD|]. rewrite S. destruct (flt fzero d) eqn:D; [|exact UV].
  destruct (fmul_nonneg v d UV UD VV VD) as (UM & VM). set (m := fmul v d) in *.
  pose proof (in_unit_finite _ US) as FS. pose proof (in_unit_not_nan _ US) as NS. pose proof (in_unit_not_nan _ UM) as NM. apply flt_val in S; try assumption; try reflexivity; try discriminate. rewrite val_fzero in S.
  destruct (fdiv_nonneg m s) as (VQ & PQ); [split; [exact VM|apply UM]|exact VS|exact FS|exact S|]. destruct (flt fone (fdiv m s)) eqn:O; [split; reflexivity|].
  split; [exact PQ|]. pose proof (fle_not_nan _ PQ) as NQ. apply fle_val; try assumption; try reflexivity; try discriminate.
  destruct (Z.le_gt_cases (val (fdiv m s)) (val fone)) as [|G]; [assumption|]. exfalso. assert (flt fone (fdiv m s) = true) by (apply flt_val; try assumption; try reflexivity; try discriminate). congruence.
Qed.

(** ** Witnesses *)
Definition w_view (sln res act vis : spec_float) : view :=
  mkview [0; 0; 0; of_num sln; of_num res; 0; 0; of_num act; of_num vis; 0; 0; 0; 0] no_tally no_tally no_tally no_tally 0 0 0 0 fzero fzero.
Definition half : spec_float := fdiv fone (f32_of_Z 2).
Lemma w_fresh : fresh (w_view fzero fone half fone).
Proof. split; [reflexivity|]. split; [intros []; vm_compute; split; congruence|]. repeat split. Qed.
Lemma range_refuted : exists v os, fresh v /\ (forall k, in_range k (value v k)) /\ Forall valid_vop os /\ ~ in_range Sln (value (run_vops v os) Sln).
Proof.
  exists (w_view fzero fone half fone), [AskAdd 3 infinite; AskAdd 3 (S754_infinity true); Update Sln fzero fone]. split; [exact w_fresh|].
  split; [intros []; vm_compute; split; trivial|]. split; [repeat constructor|]. vm_compute. intros (A & _). discriminate.
Qed.
Lemma many_asks n v : t_sln (run_vops v (repeat (AskAdd 3 fzero) n)) = mktally (Nat.iter n (fun a => fadd a fzero) (acc (t_sln v))) (if (n =? 0)%nat then changes (t_sln v) else u32 (changes (t_sln v) + Z.of_nat n)) /\
  vcode (run_vops v (repeat (AskAdd 3 fzero) n)) = vcode v.
Proof.
  induction n as [|n IH]; [cbn; split; [destruct (t_sln v); reflexivity|reflexivity]|].
  replace (repeat (AskAdd 3 fzero) (S n)) with (repeat (AskAdd 3 fzero) n ++ [AskAdd 3 fzero]) by (clear; induction n as [|n IH]; [reflexivity|cbn [repeat app] in *; f_equal; exact IH]).
  unfold run_vops in *. rewrite fold_left_app. cbn [fold_left]. set (w := fold_left run_vop (repeat (AskAdd 3 fzero) n) v) in *. destruct IH as (A & B). split; [|exact B].
  change (t_sln (run_vop w (AskAdd 3 fzero))) with (tally_mod (t_sln w) fzero). rewrite A. unfold tally_mod. cbn [acc changes Nat.iter nat_rect Nat.eqb]. f_equal.
  destruct (Nat.eqb_spec n 0) as [->|N]; [f_equal; lia|]. unfold u32. rewrite Zplus_mod_idemp_l. f_equal. lia.
Qed.
Lemma half_stays n : Nat.iter n (fun a => fadd a fzero) (fadd fzero half) = half.
Proof. induction n as [|n IH]; [vm_compute; reflexivity|]. cbn [Nat.iter nat_rect] in *. unfold Nat.iter in IH. rewrite IH. vm_compute. reflexivity. Qed.
Lemma many_asked n s : a_asked (abs_ops s (repeat (AskAdd 3 fzero) n)) Sln = a_asked s Sln ++ repeat fzero n.
Proof.
  revert s. induction n as [|n IH]; intros s; cbn [repeat abs_ops fold_left]; [rewrite app_nil_r; reflexivity|].
  change (fold_left abs_op (repeat (AskAdd 3 fzero) n)) with (fun s => abs_ops s (repeat (AskAdd 3 fzero) n)). cbv beta. rewrite IH. cbn [abs_op ctrl_of ask a_asked]. unfold on. cbn [ctrl_eqb].
  rewrite <- app_assoc. reflexivity.
Qed.
Lemma total_zeros n a : fold_left fadd (repeat fzero n) a = Nat.iter n (fun a => fadd a fzero) a.
Proof. revert a. induction n as [|n IH]; intros a; [reflexivity|]. cbn [repeat fold_left]. rewrite IH. clear. induction n as [|n IH]; [reflexivity|]. cbn [Nat.iter nat_rect] in *. unfold Nat.iter in *. rewrite IH. reflexivity. Qed.
Lemma lost_requests : exists v os, fresh v /\ (forall k, in_range k (value v k)) /\ Forall sensible_vop os /\ Forall no_update os /\
  value (run_vops v (os ++ [Update Sln fzero fone])) Sln <> updated Sln (value v Sln) (a_asked (abs_ops (start v) os) Sln).
Proof.
  assert (N : exists n, Z.of_nat n = 4294967295 /\ (n =? 0)%nat = false).
  { exists (Z.to_nat 4294967295). rewrite Z2Nat.id by lia. split; [reflexivity|]. apply Nat.eqb_neq. intros E. apply (f_equal Z.of_nat) in E. rewrite Z2Nat.id in E by lia. discriminate. }
  destruct N as (n & N & N0). exists (w_view fzero fone half fone), (AskAdd 3 half :: repeat (AskAdd 3 fzero) n). split; [exact w_fresh|].
  split; [intros []; vm_compute; split; trivial|]. split; [constructor; [split; reflexivity|]; apply Forall_forall; intros x X; apply repeat_spec in X; subst; split; reflexivity|].
  split; [constructor; [exact Logic.I|]; apply Forall_forall; intros x X; apply repeat_spec in X; subst; exact Logic.I|].
  set (v := w_view fzero fone half fone). cbn [app]. unfold run_vops. cbn [fold_left]. rewrite fold_left_app. cbn [fold_left].
  change (fold_left run_vop (repeat (AskAdd 3 fzero) n) (run_vop v (AskAdd 3 half))) with (run_vops (run_vop v (AskAdd 3 half)) (repeat (AskAdd 3 fzero) n)).
  destruct (many_asks n (run_vop v (AskAdd 3 half))) as (T & C). set (w := run_vops (run_vop v (AskAdd 3 half)) (repeat (AskAdd 3 fzero) n)) in *.
  assert (P : pending (t_sln w) = false). { rewrite T, N0, N. unfold pending. cbn [changes]. replace (changes (t_sln (run_vop v (AskAdd 3 half)))) with 1 by (vm_compute; reflexivity). reflexivity. }
  assert (E : value (run_vop w (Update Sln fzero fone)) Sln = fzero).
  { cbn [run_vop value]. unfold update_sln. rewrite P. cbn [fst]. unfold get_sln, word. cbn [vcode with_p_sln with_t_sln]. rewrite C. vm_compute. reflexivity. }
  rewrite E. cbn [abs_ops fold_left]. change (fold_left abs_op (repeat (AskAdd 3 fzero) n) (abs_op (start v) (AskAdd 3 half))) with (abs_ops (abs_op (start v) (AskAdd 3 half)) (repeat (AskAdd 3 fzero) n)).
  rewrite many_asked. replace (a_asked (abs_op (start v) (AskAdd 3 half)) Sln) with [half] by (vm_compute; reflexivity). cbn [app].
  assert (TT : total (half :: repeat fzero n) = half) by (unfold total; cbn [fold_left]; rewrite total_zeros, half_stays; reflexivity).
  unfold updated, mean. rewrite TT. cbn [length]. rewrite repeat_length. replace (Z.of_nat (S n)) with 4294967296 by lia. vm_compute. discriminate.
Qed.
Lemma high_refuted : exists v low high steps, fresh v /\ high_sln v = 0 /\ Forall (Forall no_update) steps /\
  snd (sln_history v low high steps) = [fone; fzero; fone] /\ high_sln (fst (sln_history v low high steps)) = 2 /\
  trailing (fun x => flt high x) (snd (sln_history v low high steps)) = 1 /\ flt fzero low = true /\ flt low high = true /\ flt high fone = true.
Proof.
  exists (w_view fzero fone half fone), (fdiv half (f32_of_Z 2)), half, [[AskSet 3 fone]; [AskSet 3 fzero]; [AskSet 3 fone]]. split; [exact w_fresh|]. split; [reflexivity|].
  split; [repeat constructor|]. repeat split; vm_compute; reflexivity.
Qed.
Lemma morph_range_refuted : exists v s d, in_unit v /\ in_unit s /\ in_unit d /\ flt fone (MorphValue v s d) = true.
Proof. exists fone, fzero, half. repeat split; vm_compute; reflexivity. Qed.
Definition quarter : spec_float := fdiv fone (f32_of_Z 4).
Lemma morph_side_refuted : exists v s d, in_unit v /\ in_unit s /\ in_unit d /\ flt fzero s = true /\
  flt s v = true /\ flt d (MorphValue v s d) = false.
Proof.
  exists fone, (num (of_num (fdiv (f32_of_Z 3) (f32_of_Z 4)))), fone. repeat split; vm_compute; reflexivity.
Qed.
Lemma morph_hidden_refuted : exists v s d, in_unit v /\ in_unit s /\ in_unit d /\ flt fzero s = true /\
  flt s v = false /\ flt d (MorphValue v s d) = true.
Proof. exists quarter, half, fzero. repeat split; vm_compute; reflexivity. Qed.
Lemma unlimited_init v n : n < 0 -> word v VIEW_RES = init_res n -> forall k, res_updates k v = v.
Proof. intros N W. apply unlimited. rewrite W. unfold init_res. replace (n <? 0) with true by (symmetry; apply Z.ltb_lt; exact N). reflexivity. Qed.
Lemma too_fast : exists v n, length (vcode v) = 13%nat /\ t_res v = no_tally /\ word v VIEW_RES = init_res n /\ 0 <= n < 2147483648 /\
  get_res (res_updates 1 v) = f32_of_Z (n - 2) /\ feqb (f32_of_Z (n - 2)) (f32_of_Z (n - 1)) = false.
Proof.
  exists (mkview (put (repeat 0 13) 4%nat (init_res 8388610)) no_tally no_tally no_tally no_tally 0 0 0 0 fzero fzero), 8388610.
  split; [reflexivity|]. split; [reflexivity|]. split; [vm_compute; reflexivity|]. split; [lia|]. split; vm_compute; reflexivity.
Qed.
Lemma immortal : exists v n, length (vcode v) = 13%nat /\ t_res v = no_tally /\ word v VIEW_RES = init_res n /\ 0 <= n < 2147483648 /\
  forall k, flt fzero (get_res (res_updates k v)) = true.
Proof.
  exists (mkview (put (repeat 0 13) 4%nat (init_res 33554432)) no_tally no_tally no_tally no_tally 0 0 0 0 fzero fzero), 33554432.
  split; [reflexivity|]. split; [reflexivity|]. split; [vm_compute; reflexivity|]. split; [lia|]. intros k. rewrite never_expires. vm_compute. reflexivity.
Qed.
