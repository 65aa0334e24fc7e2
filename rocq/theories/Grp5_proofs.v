(** Proofs about the decay of saliencies and thresholds in a group. *)
From Coq Require Import Floats.SpecFloat.
From Verif Require Import Base Float32 Float32_facts Float32_round Rate_float Atom_model Obj_model Obj_spec Float32_val View_model View_spec View_proofs Grp_model Grp_spec Grp_proofs Grp_more Grp_one Grp2_spec Grp2_proofs Grp3_proofs Grp4_proofs.

(** ** The saliency of a view through a visit *)
Lemma res_tal g v : t_sln (vw (res_view g v)) = t_sln (vw v) /\ length (vcode (vw (res_view g v))) = length (vcode (vw v)).
Proof.
  unfold res_view, g_update_res, update_res. cbn zeta. destruct (feqb (get_res (vw v)) _); [split; reflexivity|]. cbn [vw with_vw]. split; [reflexivity|]. cbn. apply put_length.
Qed.
Lemma act_tal g v : t_sln (vw (act_view g v)) = t_sln (vw v) /\ length (vcode (vw (act_view g v))) = length (vcode (vw v)).
Proof.
  unfold act_view, g_update_act, update_act. cbn zeta.
  destruct (ntf v); [|destruct (feqb _ _); [|destruct (feqb _ _)]]; cbn [vw with_vw]; destruct (pending _); cbn; rewrite ?put_length; split; reflexivity.
Qed.
Lemma vis_tal g s v : t_sln (vw (_update_visibility g s v)) = t_sln (vw v) /\ length (vcode (vw (_update_visibility g s v))) = length (vcode (vw v)).
Proof.
  unfold _update_visibility, update_vis. cbn zeta. set (w1 := with_t_vis _ no_tally).
  assert (W : t_sln w1 = t_sln (vw v) /\ length (vcode w1) = length (vcode (vw v))) by (unfold w1; destruct (pending _); cbn; rewrite ?put_length; split; reflexivity). clearbody w1.
  repeat match goal with |- context [if ?b then _ else _] => destruct b end; exact W.
Qed.
Definition faded (d : decay) (x : spec_float) : spec_float := if (0 <? to_go d) && negb (feqb (sln_decay d) fzero) then updated Sln x [fmul x (sln_decay d)] else x.
Lemma sln_tal g v : t_sln (vw v) = no_tally -> length (vcode (vw v)) = 13%nat ->
  t_sln (vw (sln_view g v)) = no_tally /\ length (vcode (vw (sln_view g v))) = 13%nat /\ get_sln (vw (sln_view g v)) = faded (dcy g) (get_sln (vw v)).
Proof.
  intros T L. unfold sln_view, g_update_sln. cbn zeta. unfold faded. set (b := (0 <? to_go (dcy g)) && _). unfold update_sln. cbn zeta.
  set (w0 := if b then _ else _).
  assert (A : exists w1, (if pending (t_sln w0) then with_word w0 VIEW_SLN (of_num (clamp01 (fadd (get_sln w0) (tally_mean (t_sln w0))))) else w0) = w1 /\ length (vcode w1) = 13%nat /\ get_sln w1 = if b then updated Sln (get_sln (vw v)) [fmul (get_sln (vw v)) (sln_decay (dcy g))] else get_sln (vw v)).
  { eexists. split; [reflexivity|]. unfold w0. destruct b.
    - unfold mod_sln. rewrite T. set (y := fmul _ _). unfold updated, mean, total. cbn [fold_left length]. unfold pending. cbn [acc with_t_sln t_sln tally_mod no_tally]. replace (0 <? changes (tally_mod no_tally y)) with true by reflexivity. cbn [andb].
      destruct (feqb (fadd fzero y) fzero); cbn [negb]; [split; [exact L|reflexivity]|]. split; [cbn [vcode with_word]; rewrite put_length; exact L|].
      unfold get_sln at 1, word. cbn [vcode with_word]. rewrite put_same by (change (vcode (with_t_sln (vw v) (tally_mod no_tally y))) with (vcode (vw v)); rewrite L; unfold VIEW_SLN; lia). reflexivity.
    - rewrite T. cbn [pending acc no_tally]. replace (pending no_tally) with false by reflexivity. auto. }
  destruct A as (w1 & -> & L1 & G1). rewrite <- G1. clear G1. clearbody w0 b. clear w0. destruct (ntf v); [split; [reflexivity|split; [exact L1|reflexivity]]|].
  match goal with |- context [if feqb ?x ?y then _ else _] => destruct (feqb x y) end; [split; [reflexivity|split; [exact L1|reflexivity]]|].
  match goal with |- context [if feqb ?x ?y then _ else _] => destruct (feqb x y) end; (split; [reflexivity|split; [exact L1|reflexivity]]).
Qed.
Lemma visit_faded e g s pl v u l : visit_fun e g s pl v = Some (Some u, l) -> ijt v < planned e -> t_sln (vw v) = no_tally -> length (vcode (vw v)) = 13%nat ->
  t_sln (vw u) = no_tally /\ length (vcode (vw u)) = 13%nat /\ get_sln (vw u) = faded (dcy g) (get_sln (vw v)).
Proof.
  unfold visit_fun. cbn zeta. intros H D T L. destruct (invalid e (vid v)); [destruct (erased pl v); discriminate|]. replace (planned e <=? ijt v) with false in H by (symmetry; apply Z.leb_gt; exact D).
  destruct (flt fzero (res_val g v)); [|destruct (erased pl v); discriminate]. destruct (res_tal g v) as (R1 & R2). destruct (res_counts g v) as (_ & R3 & _). set (v1 := res_view g v) in *.
  destruct (sln_tal g v1) as (S1 & S2 & S3); [congruence|congruence|]. set (v2 := renewed e g s (sln_view g v1) (sln_val g v1)) in *.
  assert (W : vw v2 = vw (sln_view g v1)) by (clear; unfold v2, renewed; destruct (_ && _); reflexivity). clearbody v2. rewrite <- W in S1, S2, S3. rewrite R3 in S3.
  destruct (kind v2 =? GROUP).
  - injection H as H1 _. rewrite <- H1. destruct (vis_tal g s v2) as (A & B). destruct (visibility_vw g s v2) as (_ & _ & _ & _ & _ & C & _). rewrite A, B, C. auto.
  - destruct (is_program (kind v2)); [|injection H as H1 _; rewrite <- H1; auto].
    destruct (activated g s _ _ _) as [w|] eqn:AC; [|discriminate]. injection H as H1 _. rewrite <- H1. destruct (activated_vw _ _ _ _ _ _ AC) as (AW & _). destruct (act_rest g v2) as (_ & _ & _ & _ & C & _). destruct (act_tal g v2) as (A & B). rewrite AW, A, B, C. auto.
Qed.
(** ** The state of the decay *)
Lemma update_dcy e g g' out : update e g = Some (g', out) ->
  dcy (fst (update_begin e g)) = compute_decay (ub e) g /\
  let d := compute_decay (ub e) g in let n := if 0 <? to_go d then to_go d - 1 else to_go d in
  dcy g' = mkdecay (sln_decay d) (thr_decay d) (if negb (feqb (gnum g GRP_DCY_AUTO) fzero) && ((n <=? 0) && flt fzero (gnum g GRP_DCY_PRD)) then to_int32 (ub e) (gnum g GRP_DCY_PRD) else n) (percentage d) (target d).
Proof.
  intros U. destruct (update_split e g g' out U) as (g1 & s & g2 & p & x & l & B & V & X & S & _). clear U.
  assert (BD : dcy (fst (update_begin e g)) = compute_decay (ub e) g).
  { destruct (begin_split e g) as (a & b & E). destruct (mon_core (settled (ub e) (executed g)) a b) as (_ & _ & M & _). rewrite <- E in M. clear E. rewrite M, settled_dcy. unfold compute_decay, gnum. rewrite executed_code, executed_dcy. reflexivity. }
  assert (BN : forall i, (forall q, i <> gindex q) -> gnum g1 i = gnum g i) by (intros i Hi; pose proof (begin_num e g i Hi) as Q; rewrite B in Q; exact Q).
  split; [exact BD|]. rewrite B in BD. cbn [fst] in BD. clear B.
  destruct (visit_places_spec _ _ _ _ _ _ _ order_nodup V) as ((R1 & _ & R2 & _) & _). clear V X.
  pose proof (update_stats_spec e (with_new_ctl (with_newly g2 (p_newly p)) x) p) as T. rewrite S in T. destruct T as (_ & _ & _ & _ & T & _). clear S. cbn zeta. rewrite T. unfold step_decay, gnum. cbn [dcy gcode with_new_ctl with_newly]. rewrite R1, R2, BD.
  fold (gnum g1 GRP_DCY_AUTO) (gnum g1 GRP_DCY_PRD). rewrite !BN by (intros []; discriminate). reflexivity.
Qed.
(** The number of updates for which the decay remains to be applied, and of those
    at which it has been, after [n] updates. *)
Definition left (auto : bool) (p n : Z) : Z := if auto then p - n mod p else Z.max 0 (p - n).
Definition done (auto : bool) (p n : Z) : nat := Z.to_nat (if auto then n else Z.min n p).
Definition DCY (per tgt : spec_float) (auto : bool) (p n : Z) (g : group) : Prop :=
  gnum g GRP_DCY_PER = per /\ gnum g GRP_DCY_TGT = tgt /\ feqb (gnum g GRP_DCY_PRD) (f32_of_Z p) = true /\ negb (feqb (gnum g GRP_DCY_AUTO) fzero) = auto /\
  let ppp := fdiv per (gnum g GRP_DCY_PRD) in
  if n =? 0 then dcy g = no_decay
  else dcy g = mkdecay (if feqb tgt fzero then ppp else fzero) (if feqb tgt fzero then fzero else ppp) (left auto p n) ppp tgt.
Definition fair (per tgt ppp : spec_float) : Prop := feqb per fzero = false /\ feqb ppp ppp = true /\ (feqb tgt fzero = true \/ feqb tgt fone = true).
Lemma prd_positive P p : f32_valid P = true -> feqb P (f32_of_Z p) = true -> 1 <= p <= 16777216 -> feqb P fzero = false /\ flt fzero P = true.
Proof.
  intros V E B. assert (NP : P <> S754_nan) by (intros ->; discriminate). pose proof E as E'. apply feqb_val in E'; [|exact V|apply of_Z_valid|exact NP|apply of_Z_not_nan]. rewrite of_Z_exact in E' by lia. pose proof unit_val_pos as U.
  assert (VZ : f32_valid fzero = true) by reflexivity. assert (NZ : fzero <> S754_nan) by discriminate. assert (Z0 : val fzero = 0) by reflexivity. split.
  - destruct (feqb P fzero) eqn:Q; [|reflexivity]. apply feqb_val in Q; try assumption. nia.
  - apply flt_val; try assumption. nia.
Qed.
Lemma left_zero auto p : 1 <= p -> left auto p 0 = p.
Proof. intros H. unfold left. rewrite Z.mod_0_l by lia. destruct auto; lia. Qed.
Lemma feqb_self x : x <> S754_nan -> feqb x x = true.
Proof. intros N. destruct x as [[]|[]| |[] m e]; try reflexivity; [congruence| |]; unfold feqb, SFeqb, SFcompare; rewrite Z.compare_refl, Pcompare_refl; reflexivity. Qed.
Lemma compute_is per tgt auto p n u g : DCY per tgt auto p n g -> 1 <= p <= 16777216 -> 0 <= n -> fair per tgt (fdiv per (gnum g GRP_DCY_PRD)) ->
  let ppp := fdiv per (gnum g GRP_DCY_PRD) in compute_decay u g = mkdecay (if feqb tgt fzero then ppp else fzero) (if feqb tgt fzero then fzero else ppp) (left auto p n) ppp tgt.
Proof.
  intros (H1 & H2 & H3 & H4 & H5) B N (F1 & F2 & F3). cbn zeta in *. destruct (prd_positive (gnum g GRP_DCY_PRD) p (num_valid _) H3 B) as (Z0 & _). unfold compute_decay. rewrite H1, H2, F1, Z0. cbn [orb]. set (ppp := fdiv per (gnum g GRP_DCY_PRD)) in *.
  destruct (Z.eqb_spec n 0) as [->|NZ].
  - rewrite H5. cbn [percentage target no_decay]. replace (feqb tgt fminus1) with false by (destruct F3 as [F3|F3]; symmetry; destruct tgt as [[]|[]| |[] m e]; try reflexivity; try discriminate F3). rewrite orb_true_r, (int_prd u (gnum g GRP_DCY_PRD) p (num_valid _) H3) by lia. rewrite left_zero by lia. destruct (feqb tgt fzero); reflexivity.
  - rewrite H5. cbn [percentage target]. rewrite F2. rewrite (feqb_self tgt); [reflexivity|]. clear - F3. intros ->. destruct F3; discriminate.
Qed.
Lemma left_next auto p n : 1 <= p -> 0 <= n -> let m := if 0 <? left auto p n then left auto p n - 1 else left auto p n in
  left auto p (n + 1) = if auto && (m <=? 0) then p else m.
Proof.
  intros P N. unfold left. destruct auto; cbn [andb].
  - pose proof (Z.mod_pos_bound n p ltac:(lia)) as B. rewrite (mod_succ n p N P). cbn zeta. replace (0 <? p - n mod p) with true by (symmetry; apply Z.ltb_lt; lia).
    destruct (Z.eqb_spec (n mod p + 1) p); destruct (Z.leb_spec (p - n mod p - 1) 0); lia.
  - cbn zeta. destruct (Z.ltb_spec 0 (Z.max 0 (p - n))); lia.
Qed.
Lemma dcy_update per tgt auto p n e g g' out : update e g = Some (g', out) -> DCY per tgt auto p n g -> 1 <= p <= 16777216 -> 0 <= n -> fair per tgt (fdiv per (gnum g GRP_DCY_PRD)) ->
  DCY per tgt auto p (n + 1) g' /\ gnum g' GRP_DCY_PRD = gnum g GRP_DCY_PRD.
Proof.
  intros U D B N F. pose proof (compute_is per tgt auto p n (ub e) g D B N F) as C. cbn zeta in C. destruct (update_dcy e g g' out U) as (_ & E). cbn zeta in E. rewrite C in E. cbn [sln_decay thr_decay to_go percentage target] in E. clear C.
  assert (M : forall i, In i [GRP_DCY_PER; GRP_DCY_TGT; GRP_DCY_PRD; GRP_DCY_AUTO] -> gnum g' i = gnum g i).
  { intros i Hi. unfold gnum. rewrite (update_member e g g' out i U); [reflexivity| |]; destruct Hi as [<-|[<-|[<-|[<-|[]]]]]; first [intros []; discriminate|unfold stat_word, GRP_DCY_PER, GRP_DCY_TGT, GRP_DCY_PRD, GRP_DCY_AUTO; lia]. }
  assert (M1 : gnum g' GRP_DCY_PER = gnum g GRP_DCY_PER) by (apply M; cbn; auto). assert (M2 : gnum g' GRP_DCY_TGT = gnum g GRP_DCY_TGT) by (apply M; cbn; auto).
  assert (M3 : gnum g' GRP_DCY_PRD = gnum g GRP_DCY_PRD) by (apply M; cbn; auto). assert (M4 : gnum g' GRP_DCY_AUTO = gnum g GRP_DCY_AUTO) by (apply M; cbn; auto). clear M.
  split; [|exact M3]. destruct D as (H1 & H2 & H3 & H4 & _). unfold DCY. rewrite M1, M2, M3, M4. split; [exact H1|]. split; [exact H2|]. split; [exact H3|]. split; [exact H4|]. cbn zeta.
  replace (n + 1 =? 0) with false by (symmetry; apply Z.eqb_neq; lia). rewrite E. f_equal. rewrite H4. destruct (prd_positive (gnum g GRP_DCY_PRD) p (num_valid _) H3 B) as (_ & ->). rewrite andb_true_r.
  rewrite (int_prd (ub e) (gnum g GRP_DCY_PRD) p (num_valid _) H3) by lia. symmetry. apply left_next; lia.
Qed.
Lemma existing_dcy g j v t : dcy (inject_existing g j v t) = dcy g.
Proof.
  unfold inject_existing. destruct (get_view g j) as [e|]; [|reflexivity]. cbn zeta. unfold update_c_act, update_c_sln.
  set (g1 := change_view _ _ _). assert (C : dcy g1 = dcy g) by (unfold g1, change_view; destruct (place_holding _ _); reflexivity). clearbody g1.
  match goal with |- context [if ?b then with_newly _ _ else _] => destruct b end; [unfold with_newly; cbn [dcy]|]; rewrite !update_param_dcy; exact C.
Qed.
Lemma op_dcy home g o g' : proper home o -> is_update o = false -> run_gop g o = Some g' -> dcy g' = dcy g.
Proof.
  intros P NU R. destruct (brings o) as [k|] eqn:K.
  { destruct (arrival home g o k g' P K R) as (v & _ & _ & _ & (_ & _ & E & _) & _). exact E. }
  destruct o; try discriminate; cbn [run_gop] in R; injection R as <-.
  - destruct (param_of i) as [q|] eqn:Q; [rewrite (group_mod_param g i x q Q); reflexivity|apply (group_mod_near g i x Q)].
  - destruct (param_of i) as [q|] eqn:Q; [rewrite (group_set_param g i x q Q); reflexivity|apply (group_set_near g i x Q)].
  - apply existing_dcy.
  - reflexivity.
  - unfold delete_view. destruct (place_of v); reflexivity.
Qed.
Definition dcy_members : list nat := [GRP_DCY_PER; GRP_DCY_TGT; GRP_DCY_PRD; GRP_DCY_AUTO].
Lemma steady_in ms o i : steady ms o -> In i ms -> steady [i] o.
Proof. intros S N. destruct o; cbn [steady] in *; auto; (intros [->|[]]; exact (S N)). Qed.
Lemma dcy_op per tgt auto p n home g o g' : proper home o -> is_update o = false -> steady dcy_members o -> run_gop g o = Some g' -> DCY per tgt auto p n g -> DCY per tgt auto p n g' /\ gnum g' GRP_DCY_PRD = gnum g GRP_DCY_PRD.
Proof.
  intros P NU S R (H1 & H2 & H3 & H4 & H5). pose proof (op_dcy home g o g' P NU R) as E.
  assert (M : forall i, In i dcy_members -> gnum g' i = gnum g i).
  { intros i Hi. apply (op_member_num home g o g' i P R (steady_in _ _ _ S Hi)); destruct Hi as [<-|[<-|[<-|[<-|[]]]]]; first [intros []; discriminate|unfold stat_word, GRP_DCY_PER, GRP_DCY_TGT, GRP_DCY_PRD, GRP_DCY_AUTO; lia]. }
  unfold DCY. rewrite !M by (vm_compute; tauto). rewrite E. auto 10.
Qed.
(** ** The saliency of a view *)
Lemma asked_spares oid l : forall w, Forall (fun o => spares oid (AskView o)) l -> t_sln (fold_left (asked_of oid) l w) = t_sln w.
Proof.
  induction l as [|o l IH]; intros w H; cbn [fold_left]; [auto|]. inversion H as [|? ? S T]; subst. rewrite (IH (asked_of oid w o) T). clear IH.
  destruct o as [j i x|j i x]; cbn [asked_of]; cbn in S; destruct (Z.eqb_spec j oid) as [E|E]; auto; (destruct S as [S|S]; [contradiction|]).
  - unfold view_mod, mod_res. destruct (Nat.eqb_spec i VIEW_SLN); [contradiction|]. repeat match goal with |- context [if ?b then _ else _] => destruct b end; reflexivity.
  - unfold view_set, set_res. destruct (Nat.eqb_spec i VIEW_SLN); [contradiction|]. repeat match goal with |- context [if ?b then _ else _] => destruct b end; reflexivity.
Qed.
Lemma op_pend_spares home g o g' oid : proper home o -> is_update o = false -> spares oid o -> run_gop g o = Some g' -> Forall (fun o => spares oid (AskView o)) (pend g) -> Forall (fun o => spares oid (AskView o)) (pend g').
Proof.
  intros P NU S R H. destruct (brings o) as [k|] eqn:K.
  { destruct (arrival home g o k g' P K R) as (v & _ & _ & _ & (_ & _ & _ & E) & _). rewrite E. exact H. }
  destruct o; try discriminate; cbn [run_gop] in R; injection R as <-.
  - replace (pend (group_mod g i x)) with (pend g); [exact H|]. destruct (param_of i) as [p|] eqn:Q; [rewrite (group_mod_param g i x p Q); reflexivity|symmetry; apply (group_mod_near g i x Q)].
  - replace (pend (group_set g i x)) with (pend g); [exact H|]. destruct (param_of i) as [p|] eqn:Q; [rewrite (group_set_param g i x p Q); reflexivity|symmetry; apply (group_set_near g i x Q)].
  - destruct (existing_pend g oid0 v now) as (l & -> & F). apply Forall_app. split; [exact H|]. cbn in S. clear - F S. induction F as [|o l H _ IH]; constructor; [|exact IH]. destruct o as [j i x|j i x]; cbn; left; congruence.
  - cbn [pend with_pend]. apply Forall_app. split; [exact H|]. constructor; [exact S|constructor].
  - unfold delete_view. destruct (place_of v); exact H.
Qed.
Lemma spares_parts oid o : spares oid o -> is_update o = false -> brings o <> Some oid /\ takes o <> Some oid /\ forall j v t, o = Existing j v t -> j <> oid.
Proof.
  intros L U. destruct o; try discriminate; cbn in L; try (split; [apply L|]; split; [apply L|]; discriminate).
  - split; [discriminate|]. split; [discriminate|]. intros j w t E. injection E as -> _ _. exact L.
  - split; [discriminate|]. split; [discriminate|]. discriminate.
Qed.
Lemma times_out {A} n (f : A -> A) : forall x, f (times n f x) = times n f (f x).
Proof. induction n as [|n IH]; intros x; cbn [times]; [reflexivity|apply IH]. Qed.
Lemma done_next auto p n {A} (f : A -> A) x : 1 <= p -> 0 <= n -> times (done auto p (n + 1)) f x = if 0 <? left auto p n then f (times (done auto p n) f x) else times (done auto p n) f x.
Proof.
  intros P N. unfold done, left. destruct auto.
  - pose proof (Z.mod_pos_bound n p ltac:(lia)) as B. replace (0 <? p - n mod p) with true by (symmetry; apply Z.ltb_lt; lia). rewrite times_out. replace (Z.to_nat (n + 1)) with (S (Z.to_nat n)) by lia. reflexivity.
  - destruct (Z.ltb_spec 0 (Z.max 0 (p - n))).
    + rewrite times_out. replace (Z.to_nat (Z.min (n + 1) p)) with (S (Z.to_nat (Z.min n p))) by lia. reflexivity.
    + replace (Z.min (n + 1) p) with (Z.min n p) by lia. reflexivity.
Qed.
(** The decay applies to saliencies when the target is 0, and else to the
    threshold. *)
Definition fade (ppp tgt : spec_float) (x : spec_float) : spec_float := if feqb tgt fzero then updated Sln x [fmul x ppp] else x.
Definition FADE (home : Z -> place) (oid : Z) (per tgt prd : spec_float) (auto : bool) (p n : Z) (x0 : spec_float) (g : group) : Prop :=
  INV home g /\ DCY per tgt auto p n g /\ gnum g GRP_DCY_PRD = prd /\ Forall (fun o => spares oid (AskView o)) (pend g) /\
  forall v, get_view g oid = Some v -> length (vcode (vw v)) = 13%nat /\ t_sln (vw v) = no_tally /\ get_sln (vw v) = times (done auto p n) (fade (fdiv per prd) tgt) x0.
Lemma fade_update home oid per tgt prd auto p n x0 e g g' out : update e g = Some (g', out) -> due oid g (Update e) -> 1 <= p <= 16777216 -> 0 <= n -> fair per tgt (fdiv per prd) -> feqb (fdiv per prd) fzero = false ->
  FADE home oid per tgt prd auto p n x0 g -> FADE home oid per tgt prd auto p (n + 1) x0 g'.
Proof.
  intros U (_ & DUE) B N F NZ (I & D & PRD & S & H). rewrite <- PRD in F. destruct (dcy_update per tgt auto p n e g g' out U D B N F) as (D' & P'). pose proof (compute_is per tgt auto p n (ub e) g D B N F) as C. cbn zeta in C. rewrite PRD in C.
  destruct (update_dcy e g g' out U) as (E & _). rewrite C in E. clear C. destruct (update_core e g g' out U) as (_ & _ & _ & PE & _). pose proof (update_inv home e g g' out I U) as I'.
  destruct (update_one home e g g' out I U) as (g1 & s & B1 & O). rewrite B1 in E. cbn [fst] in E. specialize (O oid). clear U B1.
  split; [exact I'|]. split; [exact D'|]. split; [congruence|]. split; [rewrite PE; constructor|]. intros u Hu.
  destruct (get_view g oid) as [v|] eqn:G; [|destruct O as (O & _); congruence]. destruct O as (q & l & V & GV & _). destruct (H v eq_refl) as (H1 & H2 & H3). rewrite Hu in GV.
  destruct q as [w|]; cbn [option_map] in GV; [|discriminate GV].
  destruct (visit_faded _ _ _ _ _ _ _ V) as (A1 & A2 & A3); cbn [ijt vw with_vw]; [apply DUE; reflexivity|rewrite asked_spares by exact S; exact H2|rewrite asked_code; exact H1|].
  assert (AC : get_sln (fold_left (asked_of oid) (pend g) (vw v)) = get_sln (vw v)) by (unfold get_sln, word; rewrite asked_code; reflexivity). cbn [vw with_vw] in A3. rewrite AC in A3.
  assert (W : t_sln (vw u) = t_sln (vw w) /\ vcode (vw u) = vcode (vw w)).
  { injection GV as ->. destruct (place_eqb (home oid) Ntf); [auto|]. unfold looked. cbn zeta. destruct (mon_sln g1 =? 0), (mon_act g1 =? 0); cbn; auto. }
  destruct W as (W1 & W2). split; [rewrite W2; exact A2|]. split; [congruence|]. assert (WG : get_sln (vw u) = get_sln (vw w)) by (unfold get_sln, word; rewrite W2; reflexivity). rewrite WG, A3, H3, done_next by lia. rewrite E. unfold faded, fade. cbn [to_go sln_decay].
  destruct (feqb tgt fzero) eqn:TZ; [rewrite NZ, andb_true_r; reflexivity|]. replace (feqb fzero fzero) with true by reflexivity. rewrite andb_false_r. destruct (0 <? left auto p n); reflexivity.
Qed.
Lemma fade_op home oid per tgt prd auto p n x0 g o g' : proper home o -> is_update o = false -> spares oid o -> steady dcy_members o -> run_gop g o = Some g' -> FADE home oid per tgt prd auto p n x0 g -> FADE home oid per tgt prd auto p n x0 g'.
Proof.
  intros P NU S ST R (I & D & PRD & PE & H). destruct (dcy_op per tgt auto p n home g o g' P NU ST R D) as (D' & P'). split; [apply (op_inv home g o); assumption|]. split; [exact D'|]. split; [congruence|].
  split; [apply (op_pend_spares home g o g' oid P NU S R PE)|]. destruct (spares_parts oid o S NU) as (L1 & L2 & L3). rewrite (op_keeps_view home g o g' oid P L1 L2 L3 NU R I). exact H.
Qed.
Lemma fade_runs home oid per tgt prd auto p x0 os : 1 <= p <= 16777216 -> fair per tgt (fdiv per prd) -> feqb (fdiv per prd) fzero = false -> forall n g g', 0 <= n -> Forall (proper home) os -> Forall (spares oid) os -> Forall (steady dcy_members) os -> always_due oid g os -> run_gops g os = Some g' ->
  FADE home oid per tgt prd auto p n x0 g -> FADE home oid per tgt prd auto p (n + count_updates os) x0 g'.
Proof.
  intros B F NZ. induction os as [|o os IH]; intros n g g' N P S ST D R H; cbn [run_gops always_due] in *; [injection R as <-; unfold count_updates; cbn; rewrite Z.add_0_r; exact H|].
  inversion P; subst. inversion S; subst. inversion ST; subst. destruct D as (D0 & D). destruct (run_gop g o) as [g1|] eqn:R1; [|discriminate R].
  assert (E : n + count_updates (o :: os) = (if is_update o then n + 1 else n) + count_updates os) by (unfold count_updates; cbn [filter]; destruct (is_update o); cbn [length]; lia).
  rewrite E. apply (IH _ g1); try assumption; [destruct (is_update o); lia|]. destruct (is_update o) eqn:U.
  - destruct o; try discriminate U. apply run_update in R1. destruct R1 as (out & R1). apply (fade_update home oid per tgt prd auto p n x0 e g g1 out); assumption.
  - apply (fade_op home oid per tgt prd auto p n x0 g o); assumption.
Qed.
Lemma fresh_dcy home code a b os : forall g, Forall (proper home) os -> Forall (fun o => is_update o = false) os -> run_gops (new_group code a b) os = Some g -> dcy g = no_decay.
Proof.
  assert (K : forall g0 g, Forall (proper home) os -> Forall (fun o => is_update o = false) os -> run_gops g0 os = Some g -> dcy g = dcy g0).
  { induction os as [|o os IH]; intros g0 g P U R; cbn [run_gops] in R; [injection R as <-; reflexivity|]. inversion P; subst. inversion U; subst. destruct (run_gop g0 o) as [g1|] eqn:R1; [|discriminate R]. rewrite (IH g1 g) by assumption. apply (op_dcy home g0 o g1); assumption. }
  intros g P U R. rewrite (K _ _ P U R). reflexivity.
Qed.
Lemma dcy_start p g : dcy g = no_decay -> feqb (gnum g GRP_DCY_PRD) (f32_of_Z p) = true -> DCY (gnum g GRP_DCY_PER) (gnum g GRP_DCY_TGT) (negb (feqb (gnum g GRP_DCY_AUTO) fzero)) p 0 g.
Proof. intros H P. unfold DCY. cbn. auto 10. Qed.
Lemma saliency_decays home code a b os0 g oid v os g' u p : Forall (proper home) os0 -> Forall (fun o => is_update o = false) os0 -> run_gops (new_group code a b) os0 = Some g ->
  get_view g oid = Some v -> length (vcode (vw v)) = 13%nat -> t_sln (vw v) = no_tally -> Forall (fun o => spares oid (AskView o)) (pend g) ->
  1 <= p <= 16777216 -> feqb (gnum g GRP_DCY_PRD) (f32_of_Z p) = true ->
  let per := gnum g GRP_DCY_PER in let tgt := gnum g GRP_DCY_TGT in let ppp := fdiv per (gnum g GRP_DCY_PRD) in
  feqb per fzero = false -> feqb ppp fzero = false -> ppp <> S754_nan -> feqb tgt fzero = true \/ feqb tgt fone = true ->
  Forall (proper home) os -> Forall (spares oid) os -> Forall (steady dcy_members) os -> always_due oid g os -> run_gops g os = Some g' -> get_view g' oid = Some u ->
  get_sln (vw u) = if feqb tgt fzero then times (Z.to_nat (if feqb (gnum g GRP_DCY_AUTO) fzero then Z.min (count_updates os) p else count_updates os)) (fun x => updated Sln x [fmul x ppp]) (get_sln (vw v)) else get_sln (vw v).
Proof.
  intros P0 U0 R0 GV L T PS B PR per tgt ppp NP NZ NN TG P S ST D R GU. pose proof (runs_inv home os0 _ _ P0 R0 (new_inv home code a b)) as I.
  set (auto := negb (feqb (gnum g GRP_DCY_AUTO) fzero)).
  assert (H : FADE home oid per tgt (gnum g GRP_DCY_PRD) auto p 0 (get_sln (vw v)) g).
  { split; [exact I|]. split; [apply dcy_start; [apply (fresh_dcy home code a b os0); assumption|exact PR]|]. split; [reflexivity|]. split; [exact PS|]. intros w Hw. rewrite GV in Hw. injection Hw as <-. split; [exact L|]. split; [exact T|].
    unfold done. replace (if auto then 0 else Z.min 0 p) with 0 by (destruct auto; lia). reflexivity. }
  apply (fade_runs home oid per tgt (gnum g GRP_DCY_PRD) auto p (get_sln (vw v)) os) with (g' := g') in H; try assumption; [|split; [exact NP|]; split; [apply feqb_self; exact NN|exact TG]|lia]. rewrite Z.add_0_l in H.
  destruct H as (_ & _ & _ & _ & H). destruct (H u GU) as (_ & _ & E). rewrite E. fold ppp. unfold done, auto, fade. clear. destruct (feqb tgt fzero).
  - destruct (feqb (gnum g GRP_DCY_AUTO) fzero); reflexivity.
  - generalize (Z.to_nat (if negb (feqb (gnum g GRP_DCY_AUTO) fzero) then count_updates os else Z.min (count_updates os) p)). intros n. induction n as [|n IH]; [reflexivity|exact IH].
Qed.
(** ** The saliency threshold *)
Definition lift (ppp tgt : spec_float) (x : spec_float) : spec_float := if feqb tgt fzero then x else gupdated x [fmul x ppp].
Definition THR (home : Z -> place) (per tgt prd : spec_float) (auto : bool) (p n : Z) (x0 : spec_float) (g : group) : Prop :=
  INV home g /\ DCY per tgt auto p n g /\ gnum g GRP_DCY_PRD = prd /\ length (gcode g) = 32%nat /\ tal g SlnThr = no_tally /\ get g SlnThr = times (done auto p n) (lift (fdiv per prd) tgt) x0.
Lemma thr_update home per tgt prd auto p n x0 e g g' out : update e g = Some (g', out) -> 1 <= p <= 16777216 -> 0 <= n -> fair per tgt (fdiv per prd) -> feqb (fdiv per prd) fzero = false ->
  THR home per tgt prd auto p n x0 g -> THR home per tgt prd auto p (n + 1) x0 g'.
Proof.
  intros U B N F NZ (I & D & PRD & L & T & H). rewrite <- PRD in F. destruct (dcy_update per tgt auto p n e g g' out U D B N F) as (D' & P'). pose proof (compute_is per tgt auto p n (ub e) g D B N F) as C. cbn zeta in C. rewrite PRD in C.
  pose proof (update_inv home e g g' out I U) as I'. destruct (update_core e g g' out U) as (G & TA & LE & _). clear U.
  split; [exact I'|]. split; [exact D'|]. split; [congruence|]. split; [congruence|]. split; [rewrite TA, settled_tal; reflexivity|].
  rewrite G, settled_sln_thr, update_sln_thr_is. rewrite update_param_at by (rewrite before_thr_code, executed_code, L; vm_compute; repeat constructor). rewrite before_thr_get.
  destruct (executed_core home g I) as (E1 & E2 & E3 & _). assert (EG : forall q, get (executed g) q = get g q) by (intros q; unfold get, gnum; rewrite E1; reflexivity). rewrite EG.
  assert (C' : compute_decay (ub e) (executed g) = compute_decay (ub e) g) by (unfold compute_decay, gnum; rewrite E1, E3; reflexivity).
  rewrite done_next by lia. rewrite <- H. unfold before_thr. cbn zeta. change (dcy (with_dcy (executed g) (compute_decay (ub e) (executed g)))) with (compute_decay (ub e) (executed g)). rewrite C', C. cbn [to_go thr_decay]. unfold lift.
  change (get (with_dcy (executed g) ?d) SlnThr) with (get (executed g) SlnThr). rewrite EG. destruct (feqb tgt fzero) eqn:TZ.
  - replace (feqb fzero fzero) with true by reflexivity. rewrite andb_false_r. cbn [tal with_dcy]. rewrite E2, T. cbn [changes no_tally]. replace (0 =? 0) with true by reflexivity. destruct (0 <? left auto p n); reflexivity.
  - rewrite NZ, andb_true_r. cbn [negb]. destruct (0 <? left auto p n); [|cbn [tal with_dcy]; rewrite E2, T; reflexivity].
    cbn [tal mod_param with_tal with_dcy]. rewrite gparam_eqb_refl, E2, T. reflexivity.
Qed.
Lemma op_sln_thr home g o g' : proper home o -> is_update o = false -> steady [GRP_SLN_THR] o -> run_gop g o = Some g' -> length (gcode g') = length (gcode g) /\ tal g' SlnThr = tal g SlnThr /\ get g' SlnThr = get g SlnThr.
Proof.
  intros P NU S R. destruct (brings o) as [k|] eqn:K.
  { destruct (arrival home g o k g' P K R) as (v & _ & _ & _ & (A & B & _) & _). unfold get, gnum. rewrite A, B. auto. }
  destruct o; try discriminate; cbn [run_gop] in R; injection R as <-; cbn [steady] in S.
  - assert (NI : i <> GRP_SLN_THR) by (intros ->; apply S; left; reflexivity). destruct (param_of i) as [q|] eqn:Q.
    + rewrite (group_mod_param g i x q Q). split; [reflexivity|]. split; [|reflexivity]. cbn [tal mod_param with_tal]. rewrite gparam_eqb_neq; [reflexivity|]. intros E. apply NI. rewrite (param_of_index i q Q), <- E. reflexivity.
    + destruct (group_mod_near g i x Q) as (A & _ & B & C & _). rewrite A. split; [exact B|]. split; [reflexivity|]. unfold get, gnum. rewrite C by (apply not_eq_sym; exact NI). reflexivity.
  - assert (NI : i <> GRP_SLN_THR) by (intros ->; apply S; left; reflexivity). destruct (param_of i) as [q|] eqn:Q.
    + rewrite (group_set_param g i x q Q). split; [reflexivity|]. split; [|reflexivity]. cbn [tal set_param with_tal]. rewrite gparam_eqb_neq; [reflexivity|]. intros E. apply NI. rewrite (param_of_index i q Q), <- E. reflexivity.
    + destruct (group_set_near g i x Q) as (A & _ & B & C & _). rewrite A. split; [exact B|]. split; [reflexivity|]. unfold get, gnum. rewrite C by (apply not_eq_sym; exact NI). reflexivity.
  - unfold inject_existing. destruct (get_view g oid) as [e|]; [|auto]. cbn zeta. unfold update_c_act, update_c_sln.
    set (g1 := change_view _ _ _). assert (C : gcode g1 = gcode g /\ tal g1 = tal g) by (unfold g1, change_view; destruct (place_holding _ _); auto). clearbody g1. destruct C as (C1 & C2).
    assert (K1 : get g1 SlnThr = get g SlnThr) by (unfold get, gnum; rewrite C1; reflexivity).
    match goal with |- context [if ?b then with_newly ?h _ else _] => assert (Z1 : length (gcode h) = length (gcode g) /\ tal h SlnThr = tal g SlnThr /\ get h SlnThr = get g SlnThr) end.
    { rewrite !update_param_length, C1, !update_param_tal. cbn [gparam_eqb]. rewrite C2, !update_param_other by discriminate. auto. }
    match goal with |- context [if ?b then with_newly _ _ else _] => destruct b end; exact Z1.
  - auto.
  - unfold delete_view. destruct (place_of v); auto.
Qed.
Lemma thr_op home per tgt prd auto p n x0 g o g' : proper home o -> is_update o = false -> steady (GRP_SLN_THR :: dcy_members) o -> run_gop g o = Some g' -> THR home per tgt prd auto p n x0 g -> THR home per tgt prd auto p n x0 g'.
Proof.
  intros P NU ST R (I & D & PRD & L & T & H).
  assert (ST' : steady dcy_members o) by (clear - ST; destruct o; cbn [steady] in *; auto; intros Q; apply ST; right; exact Q).
  destruct (dcy_op per tgt auto p n home g o g' P NU ST' R D) as (D' & P'). destruct (op_sln_thr home g o g' P NU (steady_in _ _ _ ST (or_introl eq_refl)) R) as (A & B & C).
  split; [apply (op_inv home g o); assumption|]. split; [exact D'|]. split; [congruence|]. split; [congruence|]. split; congruence.
Qed.
Lemma thr_runs home per tgt prd auto p x0 os : 1 <= p <= 16777216 -> fair per tgt (fdiv per prd) -> feqb (fdiv per prd) fzero = false -> forall n g g', 0 <= n -> Forall (proper home) os -> Forall (steady (GRP_SLN_THR :: dcy_members)) os -> run_gops g os = Some g' ->
  THR home per tgt prd auto p n x0 g -> THR home per tgt prd auto p (n + count_updates os) x0 g'.
Proof.
  intros B F NZ. induction os as [|o os IH]; intros n g g' N P ST R H; cbn [run_gops] in *; [injection R as <-; unfold count_updates; cbn; rewrite Z.add_0_r; exact H|].
  inversion P; subst. inversion ST; subst. destruct (run_gop g o) as [g1|] eqn:R1; [|discriminate R].
  assert (E : n + count_updates (o :: os) = (if is_update o then n + 1 else n) + count_updates os) by (unfold count_updates; cbn [filter]; destruct (is_update o); cbn [length]; lia).
  rewrite E. apply (IH _ g1); try assumption; [destruct (is_update o); lia|]. destruct (is_update o) eqn:U.
  - destruct o; try discriminate U. apply run_update in R1. destruct R1 as (out & R1). apply (thr_update home per tgt prd auto p n x0 e g g1 out); assumption.
  - apply (thr_op home per tgt prd auto p n x0 g o); assumption.
Qed.
Lemma threshold_decays home code a b os0 g os g' p : Forall (proper home) os0 -> Forall (fun o => is_update o = false) os0 -> run_gops (new_group code a b) os0 = Some g ->
  length (gcode g) = 32%nat -> tal g SlnThr = no_tally ->
  1 <= p <= 16777216 -> feqb (gnum g GRP_DCY_PRD) (f32_of_Z p) = true ->
  let per := gnum g GRP_DCY_PER in let tgt := gnum g GRP_DCY_TGT in let ppp := fdiv per (gnum g GRP_DCY_PRD) in
  feqb per fzero = false -> feqb ppp fzero = false -> ppp <> S754_nan -> feqb tgt fzero = true \/ feqb tgt fone = true ->
  Forall (proper home) os -> Forall (steady (GRP_SLN_THR :: dcy_members)) os -> run_gops g os = Some g' ->
  get g' SlnThr = if feqb tgt fzero then get g SlnThr else times (Z.to_nat (if feqb (gnum g GRP_DCY_AUTO) fzero then Z.min (count_updates os) p else count_updates os)) (fun x => gupdated x [fmul x ppp]) (get g SlnThr).
Proof.
  intros P0 U0 R0 L T B PR per tgt ppp NP NZ NN TG P ST R. pose proof (runs_inv home os0 _ _ P0 R0 (new_inv home code a b)) as I.
  set (auto := negb (feqb (gnum g GRP_DCY_AUTO) fzero)).
  assert (H : THR home per tgt (gnum g GRP_DCY_PRD) auto p 0 (get g SlnThr) g).
  { split; [exact I|]. split; [apply dcy_start; [apply (fresh_dcy home code a b os0); assumption|exact PR]|]. split; [reflexivity|]. split; [exact L|]. split; [exact T|].
    unfold done. replace (if auto then 0 else Z.min 0 p) with 0 by (destruct auto; lia). reflexivity. }
  apply (thr_runs home per tgt (gnum g GRP_DCY_PRD) auto p (get g SlnThr) os) with (g' := g') in H; try assumption; [|split; [exact NP|]; split; [apply feqb_self; exact NN|exact TG]|lia]. rewrite Z.add_0_l in H.
  destruct H as (_ & _ & _ & _ & _ & E). rewrite E. fold ppp. unfold done, auto, lift. clear. destruct (feqb tgt fzero).
  - generalize (Z.to_nat (if negb (feqb (gnum g GRP_DCY_AUTO) fzero) then count_updates os else Z.min (count_updates os) p)). intros n. generalize (get g SlnThr). induction n as [|n IH]; intros y; [reflexivity|exact (IH y)].
  - destruct (feqb (gnum g GRP_DCY_AUTO) fzero); reflexivity.
Qed.

(** ** Witnesses *)
Definition configured (l : list (nat * spec_float)) : list gop := map (fun p => AskSet (fst p) (snd p)) l.
Definition w_group (oid : Z) (sln vis : spec_float) : gview := mkgv oid GROUP false 0 (w_view sln (f32_of_Z 10) fzero vis) None None.
Definition g_home (k : Z) : place := if k =? 7 then Grp else w_home k.
Lemma period_zero_refuted : exists home code os g e g' out v,
  Forall (proper home) os /\ run_gops (new_group code 0 0) os = Some g /\ gnum g GRP_SLN_NTF_PRD = fzero /\ update e g = Some (g', out) /\ get_view g' 2 = Some v /\
  flt (get_sln (vw v)) (gnum g GRP_LOW_SLN_THR) = true /\ flt (gnum g GRP_LOW_SLN_THR) (gnum g GRP_HIGH_SLN_THR) = true /\ In (HighSln 2) (o_notes out).
Proof.
  exists w_home, (w_code half fzero fone fone), (configured [(GRP_LOW_SLN_THR, half); (GRP_HIGH_SLN_THR, three_quarters)] ++ [Inject (w_obj 2 quarter) true 0]).
  eexists. exists (w_env 10). eexists. eexists. eexists. split; [repeat (constructor; [cbn; unfold injectable, w_home; cbn; tauto|]); constructor|].
  split; [vm_compute; reflexivity|]. split; [vm_compute; reflexivity|]. split; [vm_compute; reflexivity|]. split; [vm_compute; reflexivity|]. split; [vm_compute; reflexivity|]. split; [vm_compute; reflexivity|]. vm_compute. auto.
Qed.
Lemma sight_refuted : exists home code os g, Forall (proper home) os /\ run_gops (new_group code 0 0) os = Some g /\ c_active g = false /\ ~ sight_right g.
Proof.
  exists g_home, (w_code fzero fzero fone fzero), [InjectGroup (w_group 7 half half)]. eexists. split; [repeat (constructor; [cbn; unfold g_home; cbn; tauto|]); constructor|].
  split; [vm_compute; reflexivity|]. split; [vm_compute; reflexivity|]. intros H. specialize (H (with_seen (w_group 7 half half) (Some false))). vm_compute in H. assert (K := H (or_introl eq_refl) eq_refl). discriminate K.
Qed.
Lemma every_period_refuted : exists home code os g g1 g2,
  Forall (proper home) os /\ run_gops (new_group code 0 0) os = Some g /\ gnum g GRP_SLN_CHG_PRD = fone /\ flt (gnum g GRP_SLN_CHG_THR) fone = true /\ mon_sln g = 0 /\
  run_gops g [Update (w_env 20)] = Some g1 /\ mon_sln g1 <> 0 /\ run_gops g1 [Update (w_env 30)] = Some g2 /\ mon_sln g2 = 0.
Proof.
  exists w_home, (w_code half fzero fone fone), (configured [(GRP_SLN_CHG_THR, quarter); (GRP_SLN_CHG_PRD, fone)]). eexists. eexists. eexists.
  split; [repeat constructor|]. split; [vm_compute; reflexivity|]. split; [vm_compute; reflexivity|]. split; [vm_compute; reflexivity|]. split; [vm_compute; reflexivity|]. split; [vm_compute; reflexivity|]. split; [vm_compute; discriminate|]. split; vm_compute; reflexivity.
Qed.
Lemma percentage_refuted : exists home code os g v us g' u,
  Forall (proper home) os /\ run_gops (new_group code 0 0) os = Some g /\ get_view g 2 = Some v /\
  feqb (gnum g GRP_DCY_PER) (SFopp half) = true /\ feqb (gnum g GRP_DCY_PRD) (f32_of_Z 2) = true /\ gnum g GRP_DCY_TGT = fzero /\
  us = [Update (w_env 10); Update (w_env 20)] /\ run_gops g us = Some g' /\ get_view g' 2 = Some u /\
  feqb (get_sln (vw u)) (fadd (get_sln (vw v)) (fmul (get_sln (vw v)) (SFopp half))) = false.
Proof.
  exists w_home, (w_code half fzero fone fone), (configured [(GRP_DCY_PER, SFopp half); (GRP_DCY_PRD, f32_of_Z 2)] ++ [Inject (w_obj 2 fone) true 0]). eexists. eexists. exists [Update (w_env 10); Update (w_env 20)]. eexists. eexists.
  split; [repeat (constructor; [cbn; unfold injectable, w_home; cbn; tauto|]); constructor|].
  repeat (split; [vm_compute; reflexivity|]). vm_compute. reflexivity.
Qed.

(** ** The statements for saliencies and for activations *)
Lemma sln_notified home code a b os0 g oid v prd os gz e g' out : Forall (proper home) os0 -> run_gops (new_group code a b) os0 = Some g ->
  get_view g oid = Some v -> ntf v = false -> low_sln (vw v) = 0 -> high_sln (vw v) = 0 -> 1 <= prd <= 16777216 -> feqb (gnum g GRP_SLN_NTF_PRD) (f32_of_Z prd) = true ->
  Forall (proper home) os -> Forall (keeps oid) os -> Forall (steady [GRP_SLN_NTF_PRD; GRP_LOW_SLN_THR; GRP_HIGH_SLN_THR]) os ->
  always_due oid g (os ++ [Update e]) -> run_gops g os = Some gz -> update e gz = Some (g', out) -> get_view g' oid <> None ->
  let low := gnum g GRP_LOW_SLN_THR in let high := gnum g GRP_HIGH_SLN_THR in let l := trace (sln_of oid) g (os ++ [Update e]) in
  (In (LowSln oid) (o_notes out) <-> 0 < trailing (fun x => flt x low) l /\ trailing (fun x => flt x low) l mod prd = 0) /\
  (In (HighSln oid) (o_notes out) <-> flt (sln_of oid g') low = false /\ flt high (sln_of oid g') = true /\ stretch low high l mod prd = 0).
Proof. intros. apply (chan_notified sln_chan home code a b os0 g oid v prd os gz e g' out sln_good); auto. Qed.
Lemma act_notified home code a b os0 g oid v prd os gz e g' out : Forall (proper home) os0 -> run_gops (new_group code a b) os0 = Some g ->
  get_view g oid = Some v -> ntf v = false -> is_program (kind v) = true -> low_act (vw v) = 0 -> high_act (vw v) = 0 -> 1 <= prd <= 16777216 -> feqb (gnum g GRP_ACT_NTF_PRD) (f32_of_Z prd) = true ->
  Forall (proper home) os -> Forall (keeps oid) os -> Forall (steady [GRP_ACT_NTF_PRD; GRP_LOW_ACT_THR; GRP_HIGH_ACT_THR]) os ->
  always_due oid g (os ++ [Update e]) -> run_gops g os = Some gz -> update e gz = Some (g', out) -> get_view g' oid <> None ->
  let low := gnum g GRP_LOW_ACT_THR in let high := gnum g GRP_HIGH_ACT_THR in let l := trace (act_of oid) g (os ++ [Update e]) in
  (In (LowAct oid) (o_notes out) <-> 0 < trailing (fun x => flt x low) l /\ trailing (fun x => flt x low) l mod prd = 0) /\
  (In (HighAct oid) (o_notes out) <-> flt (act_of oid g') low = false /\ flt high (act_of oid g') = true /\ stretch low high l mod prd = 0).
Proof. intros. apply (chan_notified act_chan home code a b os0 g oid v prd os gz e g' out act_good); auto. Qed.
Lemma sln_change_reported home code a b os0 g oid v os gz e g' out u d : Forall (proper home) os0 -> run_gops (new_group code a b) os0 = Some g -> get_view g oid = Some v -> ntf v = false ->
  Forall (proper home) os -> Forall (keeps oid) os -> run_gops g os = Some gz -> update e gz = Some (g', out) -> get_view g' oid = Some u ->
  (In (SlnChg oid d) (o_notes out) <-> mon_sln g' = 0 /\ d = fsub (get_sln (vw u)) (last_looked (i_sln (vw v)) (trace (fun h => (mon_sln h, sln_of oid h)) g os)) /\ flt (gnum g' GRP_SLN_CHG_THR) (fabs d) = true).
Proof. exact (change_reported sln_mon home code a b os0 g oid v os gz e g' out u d sln_mon_good). Qed.
Lemma act_change_reported home code a b os0 g oid v os gz e g' out u d : Forall (proper home) os0 -> run_gops (new_group code a b) os0 = Some g -> get_view g oid = Some v -> ntf v = false ->
  Forall (proper home) os -> Forall (keeps oid) os -> run_gops g os = Some gz -> update e gz = Some (g', out) -> get_view g' oid = Some u ->
  (In (ActChg oid d) (o_notes out) <-> mon_act g' = 0 /\ d = fsub (get_act (vw u)) (last_looked (i_act (vw v)) (trace (fun h => (mon_act h, act_of oid h)) g os)) /\ flt (gnum g' GRP_ACT_CHG_THR) (fabs d) = true).
Proof. exact (change_reported act_mon home code a b os0 g oid v os gz e g' out u d act_mon_good). Qed.
Lemma sln_countdown home code a b os0 g os g' prd : 0 <= prd <= 16777216 -> Forall (proper home) os0 -> run_gops (new_group code a b) os0 = Some g ->
  Forall (proper home) os -> Forall (steady [GRP_SLN_CHG_THR; GRP_SLN_CHG_PRD]) os -> run_gops g os = Some g' -> flt (gnum g GRP_SLN_CHG_THR) fone = true -> feqb (gnum g GRP_SLN_CHG_PRD) (f32_of_Z prd) = true ->
  mon_sln g' = countdown (mon_sln g) prd (count_updates os).
Proof. exact (mon_counts sln_mon home code a b os0 g os g' prd sln_mon_good). Qed.
Lemma act_countdown home code a b os0 g os g' prd : 0 <= prd <= 16777216 -> Forall (proper home) os0 -> run_gops (new_group code a b) os0 = Some g ->
  Forall (proper home) os -> Forall (steady [GRP_ACT_CHG_THR; GRP_ACT_CHG_PRD]) os -> run_gops g os = Some g' -> flt (gnum g GRP_ACT_CHG_THR) fone = true -> feqb (gnum g GRP_ACT_CHG_PRD) (f32_of_Z prd) = true ->
  mon_act g' = countdown (mon_act g) prd (count_updates os).
Proof. exact (mon_counts act_mon home code a b os0 g os g' prd act_mon_good). Qed.
Lemma stopped e g g' out : update e g = Some (g', out) ->
  (feqb (gnum g GRP_SLN_CHG_THR) fone = true -> mon_sln g' = if 0 <? mon_sln g then -1 else mon_sln g) /\
  (feqb (gnum g GRP_ACT_CHG_THR) fone = true -> mon_act g' = if 0 <? mon_act g then -1 else mon_act g).
Proof.
  intros U. destruct (mg_update sln_mon sln_mon_good e g g' out U) as (A & _). destruct (mg_update act_mon act_mon_good e g g' out U) as (B & _). cbn [w_mon w_thr w_prd sln_mon act_mon] in A, B. rewrite A, B. clear A B U.
  assert (K : forall x, feqb x fone = true -> flt x fone = false) by (intros x; unfold feqb, flt, SFeqb, SFltb; destruct (SFcompare x fone) as [[]|]; congruence).
  unfold step_monitor. split; intros H; rewrite (K _ H), H.
  - destruct (Z.leb_spec (mon_sln g) 0), (Z.ltb_spec 0 (mon_sln g)); try lia; reflexivity.
  - destruct (Z.leb_spec (mon_act g) 0), (Z.ltb_spec 0 (mon_act g)); try lia; reflexivity.
Qed.
