(** The search for a guard builder; what the builders with constants do; counterexamples. *)
From Verif Require Import Base Float32 Atom_model Utils_model Op_model Gd_model Gb_model Gb_spec Gb2_proofs Gb3_proofs Gb4_proofs.
From Verif Require Gd_spec Gd_proofs.

Lemma search_found : forall tol x word n i j, search tol x word i n = Some j ->
  (i <= j < i + n)%nat /\ exists a, word j = Some a /\ isFloat a = true /\ Equal tol (num a) x = true.
Proof.
  intros tol x word. induction n as [|n IH]; intros i j E; [discriminate|]. cbn [search] in E. destruct (word i) as [a|] eqn:Ea; [|discriminate].
  destruct (isFloat a && Equal tol (num a) x) eqn:T; [injection E as <-; apply andb_true_iff in T; split; [lia|eauto]|].
  destruct (IH _ _ E) as [B K]. split; [lia|exact K].
Qed.
Lemma search_complete : forall tol x word n i j a, (i <= j < i + n)%nat -> (forall l, (i <= l <= j)%nat -> word l <> None) ->
  word j = Some a -> isFloat a = true -> Equal tol (num a) x = true -> exists j', (i <= j' <= j)%nat /\ search tol x word i n = Some j'.
Proof.
  intros tol x word. induction n as [|n IH]; intros i j a B R Ea Fa Qa; [lia|]. cbn [search].
  destruct (word i) as [c|] eqn:Ec; [|exfalso; apply (R i); [lia|exact Ec]].
  destruct (isFloat c && Equal tol (num c) x) eqn:T; [exists i; split; [lia|reflexivity]|].
  destruct (Nat.eq_dec i j) as [->|N]; [exfalso; assert (c = a) as -> by congruence; rewrite Fa, Qa in T; discriminate|].
  destruct (IH (S i) j a) as (j' & B' & E'); try assumption; [lia|intros l L; apply R; lia|]. exists j'. split; [lia|exact E'].
Qed.
Section Find.
Variables (tol : spec_float) (imdl : code) (k : nat) (q0 q1 : Z) (target cause consequent : times).
Lemma found_right : forall b i, find_imdl tol imdl k q0 q1 target cause consequent = Some (b, i) ->
  exists p d, (b = Arg Sum p d /\ shows tol imdl k i (fsub (num q1) (num q0))) \/ (b = Arg Product p d /\ shows tol imdl k i (fdiv (num q1) (num q0))).
Proof.
  intros b i E. unfold find_imdl in E. unfold shows. destruct (get imdl k) as [h|]; [|discriminate].
  destruct (search _ _ _ _ _) as [j|] eqn:S1 in E; [injection E as <- <-; do 2 eexists; left; split; [reflexivity|]; apply search_found in S1; apply S1|].
  destruct (feqb _ _); [discriminate|]. destruct (search _ _ _ _ _) as [j|] eqn:S2 in E; [|discriminate]. injection E as <- <-.
  do 2 eexists; right; split; [reflexivity|]. apply search_found in S2. replace (k + (j - k))%nat with j by lia. apply S2.
Qed.
Lemma sum_found : forall n i, exposes imdl k n -> (1 <= i <= n)%nat -> shows tol imdl k i (fsub (num q1) (num q0)) ->
  exists j p d, (1 <= j <= i)%nat /\ find_imdl tol imdl k q0 q1 target cause consequent = Some (Arg Sum p d, j).
Proof.
  intros n i (h & Eh & <- & R) B (a & Ea & Fa & Qa).
  destruct (search_complete tol (fsub (num q1) (num q0)) (fun i => get imdl (k + i)) (Z.to_nat (getAtomCount h)) 1 i a) as (j & Bj & Ej); try assumption; [lia|intros l L; apply R; lia|].
  exists j. do 2 eexists. split; [exact Bj|]. unfold find_imdl, get at 1. rewrite Eh. cbv zeta. rewrite Ej. reflexivity.
Qed.
Lemma product_never : forall n i p d, exposes imdl k n -> (n <= k)%nat -> find_imdl tol imdl k q0 q1 target cause consequent <> Some (Arg Product p d, i).
Proof.
  intros n i p d (h & Eh & <- & R) B E. unfold find_imdl, get at 1 in E. rewrite Eh in E. cbv zeta in E.
  replace (Z.to_nat (getAtomCount h) - k)%nat with 0%nat in E by lia. cbn [search] in E.
  destruct (search _ _ _ _ _); [discriminate|]. destruct (feqb _ _); discriminate.
Qed.
Lemma value_accepted : forall s, isFloat s = true -> find_mk_val tol s q0 q1 target cause consequent <> None.
Proof. intros s F. unfold find_mk_val. rewrite F. destruct (Equal _ _ _); [discriminate|]. destruct (negb _); discriminate. Qed.
End Find.

(** ** Constants: the times of the goal are overwritten *)
Lemma constant_backward : forall o ar p k d m c w c' first s a e x, setting o (Cst ar p k d) m c w -> finish o (Cst ar p k d) m c w = Some c' ->
  is s (after (rhs m)) (VTime a) -> is s (before (rhs m)) (VTime e) -> is_i64 a -> is_i64 e -> is_i64 (a - p) -> is_i64 (e - p) -> is_i64 (a - d) ->
  two o (match ar with Sum => o_sub o | Product => o_div o end) (at_ s (member (rhs m))) (Some (VFloat k)) = Some x -> bindable x ->
  exists s', backward o first c' s = Some s' /\ is s' (t0 m) (VTime (a - p)) /\ is s' (t1 m) (VTime (e - p)) /\ at_ s' q0 = Some x /\
    is s' (after (rhs m)) (VTime (a - d)) /\ is s' (before (rhs m)) (VTime (e - p)) /\
    (forall y, ~ In y (map Z.to_nat [q0; t0 m; t1 m; after (rhs m); before (rhs m)]) -> s' y = s y).
Proof.
  intros o ar p k d m c w c' first s a e x H E A T Ia Ie Sa Se Sd X Bx. destruct (setting_reads _ _ _ _ _ _ _ H E eq_refl) as (Ip & F & B & W & _ & Bw).
  destruct H as (Ho & Hm & Hb & Hh & Hd & Hc). cbn in Hb. destruct Hb as (_ & Id & _ & Tp). pose proof (times_nodup m Hm Hd) as N. pose proof (tpl_nodup m Hm Hd Tp) as N9.
  assert (B = bwd_times o m p ++ [gets (after (rhs m)) (minus o (v (after (rhs m))) (dur d)); gets (before (rhs m)) (minus o (v (before (rhs m))) (dur p))] ++
              [gets q0 (bwd_op o ar (v (member (rhs m))) (Lit (VFloat k)))]) as -> by (injection W as _ <-; reflexivity).
  rewrite Bw, guards_app. rewrite (bwd_times_eval o m first Ho Hm Hd s p a e) by assumption. set (s1 := Gd_model.set _ _ _). cbn [app eval_guards].
  assert (A1 : is s1 (after (rhs m)) (VTime a)) by (unfold is, s1; rewrite !Gd_proofs.set_neq; [exact A|differ N..]).
  rewrite (gets_minus o first s1 _ _ a d) by assumption. set (s2 := Gd_model.set _ _ _).
  assert (T2 : is s2 (before (rhs m)) (VTime e)) by (unfold is, s2, s1; rewrite !Gd_proofs.set_neq; [exact T|differ N..]).
  rewrite (gets_minus o first s2 _ _ e p) by assumption. set (s3 := Gd_model.set _ _ _).
  assert (Q : Gd_model.eval (ops o) s3 (bwd_op o ar (v (member (rhs m))) (Lit (VFloat k))) = Some x).
  { unfold bwd_op. rewrite eval_op2. cbn [Gd_model.eval v]. replace (s3 (Z.to_nat (member (rhs m)))) with (at_ s (member (rhs m))); [exact X|].
    unfold at_, s3, s2, s1. rewrite !Gd_proofs.set_neq; [reflexivity|differ N9..]. }
  pose proof (gets_value o first s3 q0 _ _ x Q Bx) as G.
  eexists. split; [etransitivity; [|reflexivity]; cbv beta iota; unfold bwd_op, op2; rewrite G; reflexivity|]. unfold is, at_.
  split; [rewrite Gd_proofs.set_neq by differ N9; unfold s3, s2, s1; do 3 rewrite Gd_proofs.set_neq by differ N; apply Gd_proofs.set_eq|].
  split; [rewrite Gd_proofs.set_neq by differ N9; unfold s3, s2; do 2 rewrite Gd_proofs.set_neq by differ N; apply Gd_proofs.set_eq|].
  split; [apply Gd_proofs.set_eq|].
  split; [rewrite Gd_proofs.set_neq by differ N9; unfold s3; rewrite Gd_proofs.set_neq by differ N; apply Gd_proofs.set_eq|].
  split; [rewrite Gd_proofs.set_neq by differ N9; apply Gd_proofs.set_eq|].
  cbn [map In]. intros y Ny. unfold s3, s2, s1. rewrite !Gd_proofs.set_neq; try reflexivity; intros ->; apply Ny; auto 10.
Qed.

(** ** Counterexamples *)
Definition codes : opcodes := {| o_add := 1; o_sub := 2; o_mul := 3; o_div := 4; o_id := 5 |}.
Definition m1 : mdl := {| lhs := {| after := 3; before := 4; member := 5 |}; rhs := {| after := 6; before := 7; member := 8 |}; has_tpl := true |}.
Definition head1 : code := repeat 0 11.
Definition env_of (l : list (nat * val)) : env := fold_right (fun p s => Gd_model.set s (fst p) (snd p)) (fun _ => None) l.
Lemma setting1 : forall b, builder_ok b m1 -> complete b -> setting codes b m1 head1 10.
Proof.
  intros b B C. repeat split; try assumption; cbn; try lia.
  - repeat constructor; cbn; lia.
  - repeat constructor; cbn; intuition discriminate.
Qed.
Definition f1 : Z := 0x1FC00000. (* 1 *)
Definition f2 : Z := 0x20000000. (* 2 *)
Definition f3 : Z := 0x20200000. (* 3 *)
Definition observed_target : times := {| t_after := 0; t_before := 100 |}.
Definition observed_cause : times := {| t_after := 50; t_before := 60 |}.
Definition observed_consequent : times := {| t_after := 200; t_before := 250 |}.

Ltac good_b := cbn; unfold is_i64, float_word, f1, f2, f3; repeat split; lia || reflexivity || exact Logic.I.
(** The code is not what the comments say. *)
Lemma documented_refuted : forall b, In b [Speed 200 150; NoArg 200 150 10; Arg Sum 200 150; Cst Sum 200 f1 150] ->
  setting codes b m1 head1 10 /\ exists c', finish codes b m1 head1 10 = Some c' /\
    (forall F B, documented codes b m1 = Some (F, B) -> guards c' 3 = Some F /\ guards c' 4 <> Some B).
Proof.
  intros b I. split; [apply setting1; cbn in I; repeat destruct I as [<-|I]; try contradiction; good_b|].
  cbn in I; repeat destruct I as [<-|I]; try contradiction; eexists; (split; [vm_compute; reflexivity|]); intros F B E; vm_compute in E; injection E as <- <-; (split; [vm_compute; reflexivity|vm_compute; discriminate]).
Qed.
Lemma unreadable : exists c', finish codes (CstArg 200 150 AOther) m1 head1 10 = Some c' /\ guards c' 4 = None.
Proof. eexists. split; [vm_compute; reflexivity|]. vm_compute. reflexivity. Qed.
Lemma documented_holds : forall o b m, match b with Plain | Timing _ | CstArg _ _ (AFloat _) | CstArg _ _ (AObj _ _) => True | _ => False end ->
  documented o b m = written o b m.
Proof. intros o [|p|p off|p off cd|a p off|a p k off|p off [x|h args|]] m H; try contradiction; reflexivity. Qed.

(** The goal is overwritten. *)
Lemma goal_refuted : let b := Cst Sum 200 f1 50 in setting codes b m1 head1 10 /\ exists c' s s', finish codes b m1 head1 10 = Some c' /\
  is s (after (rhs m1)) (VTime 200) /\ backward codes 3 c' s = Some s' /\ ~ same s s' (after (rhs m1)).
Proof.
  cbv zeta. split; [apply setting1; good_b|].
  eexists. exists (env_of [(6%nat, VTime 200); (7%nat, VTime 250); (8%nat, VFloat f3)]). eexists.
  split; [vm_compute; reflexivity|]. split; [reflexivity|]. split; [vm_compute; reflexivity|]. vm_compute. discriminate.
Qed.
(** The observation is not reproduced. *)
Lemma observation_refuted : let b := default_builder true observed_target observed_cause observed_consequent in
  setting codes b m1 head1 10 /\ exists c', finish codes b m1 head1 10 = Some c' /\
  (exists s s', is s (t0 m1) (VTime 0) /\ is s (t1 m1) (VTime 100) /\ forward codes 3 c' s = Some s' /\ is s' (before (rhs m1)) (VTime 300)) /\
  (exists s s', is s (after (rhs m1)) (VTime 200) /\ is s (before (rhs m1)) (VTime 250) /\ backward codes 3 c' s = Some s' /\ is s' (before (lhs m1)) (VTime 50)).
Proof.
  cbv zeta. split; [apply setting1; good_b|]. eexists. split; [vm_compute; reflexivity|]. split.
  - exists (env_of [(1%nat, VTime 0); (2%nat, VTime 100)]). eexists. split; [reflexivity|]. split; [reflexivity|]. split; [vm_compute; reflexivity|]. vm_compute. reflexivity.
  - exists (env_of [(6%nat, VTime 200); (7%nat, VTime 250)]). eexists. split; [reflexivity|]. split; [reflexivity|]. split; [vm_compute; reflexivity|]. vm_compute. reflexivity.
Qed.
(** An argument that explains the value as a product is not found. *)
Definition tolerance : spec_float := f32_of_bits 0x3A83126F.
Definition instance : code := [0; 0; 0; 0; ASet 1; f3].
Definition f6 : Z := 0x20600000. (* 6 *)
Lemma product_refuted : exposes instance 4 1 /\ shows tolerance instance 4 1 (fdiv (num f6) (num f2)) /\
  find_imdl tolerance instance 4 f2 f6 observed_target observed_cause observed_consequent = None.
Proof.
  split; [|split].
  - exists (ASet 1). split; [reflexivity|]. split; [vm_compute; reflexivity|]. intros i B. assert (i = 1%nat) as -> by lia. discriminate.
  - exists f3. split; [reflexivity|]. split; vm_compute; reflexivity.
  - vm_compute. reflexivity.
Qed.
(** A value is taken as the cause although it has nothing to do with the change. *)
Lemma cause_refuted : exists s s', num s <> num s' /\
  find_mk_val tolerance s f2 f6 observed_target observed_cause observed_consequent = find_mk_val tolerance s' f2 f6 observed_target observed_cause observed_consequent /\
  find_mk_val tolerance s f2 f6 observed_target observed_cause observed_consequent <> None.
Proof. exists f1, f2. split; [vm_compute; discriminate|]. split; [vm_compute; reflexivity|]. vm_compute. discriminate. Qed.
