(** The guards that each builder writes. *)
From Verif Require Import Base Float32 Atom_model Utils_model Op_model Gd_model Gb_model Gb_spec Atom_proofs Utils_proofs Gb_proofs.

Definition w_time (l r f d : Z) : writer :=
  {| code_of := write_guard l r f d; size := 6; target := l;
     body := fun e => [Operator f 2; VLPointer r; ptr (e + 4); ADuration; hi d; lo d];
     means := gets l (op2 f (v r) (dur d)) |}.
Definition w_speed_fwd (o : opcodes) (q1 q0 s p : Z) : writer :=
  {| code_of := speed_fwd o q1 q0 s p; size := 9; target := q1;
     body := fun e => [Operator (o_add o) 2; VLPointer q0; ptr (e + 4); Operator (o_mul o) 2; VLPointer s; ptr (e + 7); ADuration; hi p; lo p];
     means := gets q1 (plus o (v q0) (op2 (o_mul o) (v s) (dur p))) |}.
Definition w_speed_bwd (o : opcodes) (s q1 q0 p : Z) : writer :=
  {| code_of := speed_bwd o s q1 q0 p; size := 9; target := s;
     body := fun e => [Operator (o_div o) 2; ptr (e + 4); ptr (e + 7); Operator (o_sub o) 2; VLPointer q1; VLPointer q0; ADuration; hi p; lo p];
     means := gets s (op2 (o_div o) (minus o (v q1) (v q0)) (dur p)) |}.
Definition w_binary (l f a b : Z) (ea eb : expr) : writer :=
  {| code_of := binary_guard l f a b; size := 4; target := l; body := fun _ => [Operator f 2; a; b]; means := gets l (op2 f ea eb) |}.
Definition w_id (o : opcodes) (l a : Z) : writer :=
  {| code_of := const_guard o l (AFloat a); size := 3; target := l; body := fun _ => [Operator (o_id o) 1; a]; means := gets l (Op (Z.to_nat (o_id o)) [Lit (VFloat a)]) |}.
Definition w_object (o : opcodes) (l h : Z) (args : list Z) : writer :=
  {| code_of := const_guard o l (AObj h args); size := 2 + length args; target := l; body := fun _ => h :: args;
     means := gets l (Str KObject (map (fun x => Lit (VFloat x)) args)) |}.

Lemma time_good : forall l r f d, var_ok l -> var_ok r -> op_ok f -> is_i64 d -> good (w_time l r f d).
Proof. exact write_guard_good. Qed.
Lemma sfwd_good : forall o q1 q0 s p, var_ok q1 -> var_ok q0 -> var_ok s -> op_ok (o_add o) -> op_ok (o_mul o) -> is_i64 p -> good (w_speed_fwd o q1 q0 s p).
Proof. exact speed_fwd_good. Qed.
Lemma sbwd_good : forall o s q1 q0 p, var_ok q1 -> var_ok q0 -> var_ok s -> op_ok (o_div o) -> op_ok (o_sub o) -> is_i64 p -> good (w_speed_bwd o s q1 q0 p).
Proof. exact speed_bwd_good. Qed.
Lemma bin_good : forall l f a b ea eb, var_ok l -> op_ok f -> simple a ea -> simple b eb -> good (w_binary l f a b ea eb).
Proof. exact binary_good. Qed.
Lemma ident_good : forall o l a, var_ok l -> op_ok (o_id o) -> float_word a -> good (w_id o l a).
Proof. exact id_good. Qed.
Lemma obj_good : forall o l h args, var_ok l -> getDescriptor h = OBJECT -> getAtomCount h = Z.of_nat (length args) -> Forall float_word args -> good (w_object o l h args).
Proof. exact object_good. Qed.

Definition fwd_w (o : opcodes) (m : mdl) (p : Z) : list writer :=
  [w_time (after (rhs m)) (t0 m) (o_add o) p; w_time (before (rhs m)) (t1 m) (o_add o) p].
Definition bwd_w (o : opcodes) (m : mdl) (p : Z) : list writer :=
  [w_time (t0 m) (after (rhs m)) (o_sub o) p; w_time (t1 m) (before (rhs m)) (o_sub o) p].
Definition cause_w (o : opcodes) (m : mdl) (a b : Z) : list writer :=
  [w_time (after (lhs m)) (after (rhs m)) (o_sub o) a; w_time (before (lhs m)) (before (rhs m)) (o_sub o) b].

Definition writers (o : opcodes) (b : builder) (m : mdl) : list writer * list writer :=
  let q1 := member (rhs m) in let arg := member (lhs m) in
  match b with
  | Plain => ([], [])
  | Timing p => (fwd_w o m p, bwd_w o m p)
  | Speed p off => (fwd_w o m p ++ [w_speed_fwd o q1 q0 arg p], bwd_w o m p ++ cause_w o m off p ++ [w_speed_bwd o arg q1 q0 p])
  | NoArg p off _ => (fwd_w o m p, bwd_w o m p ++ cause_w o m off p)
  | Arg a p off => (fwd_w o m p ++ [w_binary q1 (fwd_opcode o a) (VLPointer q0) (VLPointer arg) (v q0) (v arg)],
                    bwd_w o m p ++ cause_w o m off p ++ [w_binary arg (bwd_opcode o a) (VLPointer q1) (VLPointer q0) (v q1) (v q0)])
  | Cst a p k off => (fwd_w o m p ++ [w_binary q1 (fwd_opcode o a) (VLPointer q0) k (v q0) (Lit (VFloat k))],
                      bwd_w o m p ++ [w_time (after (rhs m)) (after (rhs m)) (o_sub o) off; w_time (before (rhs m)) (before (rhs m)) (o_sub o) p] ++
                      [w_binary q0 (bwd_opcode o a) (VLPointer q1) k (v q1) (Lit (VFloat k))])
  | CstArg p off (AFloat x) => (fwd_w o m p, bwd_w o m p ++ cause_w o m off p ++ [w_id o arg x])
  | CstArg p off (AObj h args) => (fwd_w o m p, bwd_w o m p ++ cause_w o m off p ++ [w_object o arg h args])
  | CstArg p off AOther => ([], [])
  end.

Lemma object_small : forall h (args : list Z), getDescriptor h = OBJECT -> getAtomCount h = Z.of_nat (length args) -> (length args < 256)%nat.
Proof. intros h args D H. unfold getAtomCount in H. rewrite D in H. cbn in H. rewrite land_255 in H. lia. Qed.

Lemma premise_vars : forall m, mdl_ok m -> var_ok (t0 m) /\ var_ok (t1 m).
Proof. unfold mdl_ok, pattern_ok, var_ok, t0, t1. intros m H. destruct (has_tpl m); lia. Qed.

Ltac each t := repeat (apply Forall_cons; [t|]); apply Forall_nil.
Lemma builder_reads : forall o b m (c : code) (w : nat) F B, opcodes_ok o -> mdl_ok m -> builder_ok b m -> head_ok c w -> written o b m = Some (F, B) ->
  exists c', finish o b m c w = Some c' /\ guards c' 3 = Some F /\ guards c' 4 = Some B /\
  (forall j x, (j <= w)%nat -> ~ (3 <= j <= 10)%nat -> nth_error c j = Some x -> nth_error c' j = Some x).
Proof.
  intros o b m c w F B Ho Hm Hb Hh E. pose proof (premise_vars m Hm) as [P0 P1].
  destruct Ho as (Oa & Os & Om & Od & Oi & _). destruct Hm as ((L0 & L1 & L2) & (R0 & R1 & R2)).
  assert (Q : var_ok q0) by (unfold var_ok, q0; lia).
  assert (Gf : forall p, is_i64 p -> Forall good (fwd_w o m p)) by (intros p Hp; each ltac:(apply time_good; assumption)).
  assert (Gb : forall p, is_i64 p -> Forall good (bwd_w o m p)) by (intros p Hp; each ltac:(apply time_good; assumption)).
  assert (Gc : forall a p, is_i64 a -> is_i64 p -> Forall good (cause_w o m a p)) by (intros a p Ha Hp; each ltac:(apply time_good; assumption)).
  assert (Ofw : forall a, op_ok (fwd_opcode o a)) by (intros []; assumption).
  assert (Obw : forall a, op_ok (bwd_opcode o a)) by (intros []; assumption).
  assert (Sv : forall x, var_ok x -> simple (VLPointer x) (v x)) by (intros x Hx; left; exists x; auto).
  assert (Sf : forall x, float_word x -> simple x (Lit (VFloat x))) by (intros x Hx; right; auto).
  assert (Hw : forall FW BW l, steps o b m = Some l -> run l (c, w, w) = run (both FW BW) (c, w, w) -> map means FW = F -> map means BW = B ->
    Forall good FW -> Forall good BW -> (length FW < 256)%nat -> (length BW < 256)%nat -> (length FW + length BW + total FW + total BW < 1000)%nat ->
    exists c', finish o b m c w = Some c' /\ guards c' 3 = Some F /\ guards c' 4 = Some B /\
    (forall j x, (j <= w)%nat -> ~ (3 <= j <= 10)%nat -> nth_error c j = Some x -> nth_error c' j = Some x)).
  { intros FW BW l El Er <- <- GF GB NF NB T. apply both_finish with l; auto. }
  assert (T : forall x, has_tpl m = true -> premise m = x -> x = Some (0, 1, 2)) by (unfold premise; intros x -> <-; reflexivity).
  assert (T0 : has_tpl m = true -> t0 m = 1 /\ t1 m = 2) by (unfold t0, t1; intros ->; auto).
  destruct b as [|p|p off|p off cd|a p off|a p k off|p off [x|h args|]]; cbn [written builder_ok] in *.
  - injection E as <- <-. apply (Hw [] [] _ eq_refl); cbn; auto; try lia. now rewrite !Nat.add_0_r.
  - injection E as <- <-. apply (Hw (fwd_w o m p) (bwd_w o m p) (both (fwd_w o m p) (bwd_w o m p))); auto; try (cbn; lia).
    unfold steps, timing_premise, t0, t1, fwd_w, bwd_w. unfold t0, t1. destruct (has_tpl m); reflexivity.
  - destruct Hb as (Hp & Hf & Ht). injection E as <- <-. destruct (T0 Ht) as [E0 E1].
    set (W := writers o (Speed p off) m). apply (Hw (fst W) (snd W) (both (fst W) (snd W))); auto; try (cbn; lia).
    + unfold steps. rewrite (T _ Ht eq_refl). subst W. unfold writers, fwd_w, bwd_w. rewrite E0, E1. reflexivity.
    + subst W; cbn [writers fst snd]. apply Forall_app. split; [auto|]. each ltac:(apply sfwd_good; assumption).
    + subst W; cbn [writers fst snd]. apply Forall_app. split; [auto|]. apply Forall_app. split; [auto|]. each ltac:(apply sbwd_good; assumption).
  - destruct Hb as (Hp & Hf & Ht). injection E as <- <-. destruct (T0 Ht) as [E0 E1].
    set (W := writers o (NoArg p off cd) m). apply (Hw (fst W) (snd W) (both (fst W) (snd W))); auto; try (cbn; lia).
    + unfold steps. rewrite (T _ Ht eq_refl). subst W. unfold writers, fwd_w, bwd_w. rewrite E0, E1. reflexivity.
    + apply Gf; auto.
    + subst W; cbn [writers fst snd]. apply Forall_app. split; auto.
  - destruct Hb as (Hp & Hf & Ht). injection E as <- <-. destruct (T0 Ht) as [E0 E1].
    set (W := writers o (Arg a p off) m). apply (Hw (fst W) (snd W) (both (fst W) (snd W))); auto; try (cbn; lia).
    + unfold steps. rewrite (T _ Ht eq_refl). subst W. unfold writers, fwd_w, bwd_w. rewrite E0, E1. reflexivity.
    + subst W; cbn [writers fst snd]. apply Forall_app. split; [auto|]. each ltac:(apply bin_good; auto).
    + subst W; cbn [writers fst snd]. apply Forall_app. split; [auto|]. apply Forall_app. split; [auto|]. each ltac:(apply bin_good; auto).
  - destruct Hb as (Hp & Hf & Hk & Ht). injection E as <- <-. destruct (T0 Ht) as [E0 E1].
    set (W := writers o (Cst a p k off) m). apply (Hw (fst W) (snd W) (both (fst W) (snd W))); auto; try (cbn; lia).
    + unfold steps. rewrite (T _ Ht eq_refl). subst W. unfold writers, fwd_w, bwd_w. rewrite E0, E1. reflexivity.
    + subst W; cbn [writers fst snd]. apply Forall_app. split; [auto|]. each ltac:(apply bin_good; auto).
    + subst W; cbn [writers fst snd]. apply Forall_app. split; [auto|]. each ltac:(first [apply time_good; solve [auto]|apply bin_good; auto]).
  - destruct Hb as (Hp & Hf & Ht & Hk). injection E as <- <-. destruct (T0 Ht) as [E0 E1].
    set (W := writers o (CstArg p off (AFloat x)) m). apply (Hw (fst W) (snd W) (both (fst W) (snd W))); auto; try (cbn; lia).
    + unfold steps. subst W. unfold writers, fwd_w, bwd_w. rewrite E0, E1. reflexivity.
    + apply Gf; auto.
    + subst W; cbn [writers fst snd]. apply Forall_app. split; [auto|]. apply Forall_app. split; [auto|]. each ltac:(apply ident_good; auto).
  - destruct Hb as (Hp & Hf & Ht & Hd & Hn & Ha). injection E as <- <-. destruct (T0 Ht) as [E0 E1]. pose proof (object_small h args Hd Hn).
    set (W := writers o (CstArg p off (AObj h args)) m). apply (Hw (fst W) (snd W) (both (fst W) (snd W))); auto; try (cbn; lia).
    + unfold steps. subst W. unfold writers, fwd_w, bwd_w. rewrite E0, E1. reflexivity.
    + apply Gf; auto.
    + subst W; cbn [writers fst snd]. apply Forall_app. split; [auto|]. apply Forall_app. split; [auto|]. each ltac:(apply obj_good; auto).
  - discriminate.
Qed.
