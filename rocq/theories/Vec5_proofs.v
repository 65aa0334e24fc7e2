(** Lemmas for the operators on vectors (C150 to C155): what is read afterwards, and expressions on two facts. *)
From Verif Require Import Base Float32 Float32_facts Float32_round Atom_model Atom_proofs Op_model Bp_model Bp_spec Bp_proofs Vec_model Vec_spec Vec_proofs Vec2_proofs Vec3_proofs Vec4_proofs.
Local Open Scope nat_scope.

Lemma pairs_u32 f xs : forall ys, (forall x y, is_u32 x -> is_u32 y -> is_u32 (f x y)) -> Forall is_u32 xs -> Forall is_u32 ys -> Forall is_u32 (pairs f xs ys).
Proof.
  intros ys H X. revert ys. induction X as [|x xs A X IH]; intros ys Y; [constructor|]. destruct Y as [|y ys B Y]; [constructor|]. cbn. constructor; [apply H; assumption|apply IH, Y].
Qed.
Lemma oper_u32 o f : plus_or_minus o = Some f -> forall x y, is_u32 x -> is_u32 y -> is_u32 (f x y).
Proof. destruct o; cbn; intros E; try discriminate; injection E as <-; intros x y; apply bits2_u32; [apply fadd_valid|apply fsub_valid]. Qed.
Lemma vector_u32 bound v3 v2 v q m n c k xs d : vector_at bound v3 v2 v q m n c k xs d -> Forall is_u32 xs.
Proof. intros (h & w & _ & _ & _ & _ & N & _). eapply numbers_u32, N. Qed.

Section Read.
Context (grown : nat -> nat) (bound : nat -> nat -> option Z) (here : nat).
Context (vec3 vec2 vec quat : Z) (fuel : nat).
Context (root : Z -> Z) (product quotient : list Z -> list Z -> list Z) (angle : list Z -> list Z -> Z).
Notation c := (mkc Code here).
Notation vector_at := (vector_at bound vec3 vec2 vec quat).
Notation apply_op := (apply_op grown bound false here vec3 vec2 vec quat fuel root product quotient angle).

Lemma settled_extra k n m d : settled (words_for k n) m d -> settled (extra false k n) m d.
Proof. unfold extra. rewrite Nat.add_0_r. auto. Qed.
Lemma atomic_cells a s : cells (mem (set_atomic false here a s)) = cells (mem s).
Proof. reflexivity. Qed.
Lemma kept_atomic a s M : kept_but here (mem (set_atomic false here a s)) M -> kept_but here (mem s) M.
Proof. intros (A & B). split; [|exact B]. intros i H. rewrite A by exact H. cbn. apply Nat.eqb_neq in H. rewrite H. reflexivity. Qed.

Lemma finish k vs s : opcodes vec3 vec2 vec quat -> Forall is_u32 vs -> length vs < 256 ->
  match dimension k with Some n => length vs = n | None => True end ->
  (Z.of_nat (length (cells (mem s)) + words_for k (length vs)) <= 4096)%Z ->
  let s' := written grown false here vec3 vec2 vec quat k vs (set_atomic false here Nil s) in
  kept_but here (mem s) (mem s') /\ exists d, vector_at (mem s') 1 c k (map stored vs) d.
Proof.
  intros O U L D B s'. destruct (written_reads grown bound here vec3 vec2 vec quat k vs (set_atomic false here Nil s) O U L D B) as (A & E).
  split; [eapply kept_atomic, A|exact E].
Qed.

Lemma sum_partial o f k xs ys d e n s : opcodes vec3 vec2 vec quat -> plus_or_minus o = Some f -> k <> Quaternion -> n < fuel ->
  vector_at (hide here (mem s)) n (child c 1) k xs d -> vector_at (hide here (mem s)) n (child c 2) k ys e -> length xs = length ys ->
  settled (words_for k (length xs)) (mem s) d -> settled (words_for k (length xs)) (mem s) e ->
  (Z.of_nat (length (cells (mem s)) + words_for k (length xs)) <= 4096)%Z ->
  exists s', apply_op o c s = Some (true, s') /\ kept_but here (mem s) (mem s') /\ exists d', vector_at (mem s') 1 c k (both f xs ys) d'.
Proof.
  intros O P KQ F X Y L Sd Se B.
  pose proof (op_sum grown bound false here vec3 vec2 vec quat fuel root product quotient angle o f k xs ys d e n s O P KQ F X Y L (settled_extra _ _ _ _ Sd) (settled_extra _ _ _ _ Se)) as E.
  eexists. split; [exact E|]. rewrite both_eq. fold (pairs f xs ys). destruct (vector_dim _ _ _ _ _ _ _ _ _ _ _ X) as (D1 & D2).
  apply finish; rewrite ?pairs_length by exact L; auto. apply pairs_u32; [eapply oper_u32, P|eapply vector_u32, X|eapply vector_u32, Y].
Qed.

Lemma scale_partial k x xs d n s : opcodes vec3 vec2 vec quat -> k <> Quaternion -> n < fuel ->
  settled (words_for k (length xs)) (mem s) d -> (Z.of_nat (length (cells (mem s)) + words_for k (length xs)) <= 4096)%Z ->
  (number_at bound (hide here (mem s)) n (child c 1) x -> vector_at (hide here (mem s)) n (child c 2) k xs d ->
    exists s', apply_op Times c s = Some (true, s') /\ kept_but here (mem s) (mem s') /\ exists d', vector_at (mem s') 1 c k (map (fun y => stored (bits2 fmul x y)) xs) d') /\
  (vector_at (hide here (mem s)) n (child c 1) k xs d -> number_at bound (hide here (mem s)) n (child c 2) x ->
    (exists s', apply_op Times c s = Some (true, s') /\ kept_but here (mem s) (mem s') /\ exists d', vector_at (mem s') 1 c k (map (fun y => stored (bits2 fmul y x)) xs) d') /\
    (feqb (f32_of_bits x) fzero = false ->
     exists s', apply_op Over c s = Some (true, s') /\ kept_but here (mem s) (mem s') /\ exists d', vector_at (mem s') 1 c k (map (fun y => stored (bits2 fdiv y x)) xs) d')).
Proof.
  intros O KQ F Sd B. apply settled_extra in Sd.
  assert (Fin : forall g e, vector_at (hide here (mem s)) n e k xs d -> (forall y, is_u32 y -> is_u32 (g y)) ->
    let s' := written grown false here vec3 vec2 vec quat k (map g xs) (set_atomic false here Nil s) in
    kept_but here (mem s) (mem s') /\ exists d', vector_at (mem s') 1 c k (map (fun y => stored (g y)) xs) d').
  { intros g e V U s'. rewrite <- (map_map g stored). destruct (vector_dim _ _ _ _ _ _ _ _ _ _ _ V) as (D1 & D2). apply finish; rewrite ?map_length; auto.
    pose proof (vector_u32 _ _ _ _ _ _ _ _ _ _ _ V) as X. clear - X U. induction X; cbn; constructor; auto. }
  assert (Nu : forall e, number_at bound (hide here (mem s)) n e x -> is_u32 x) by (intros e (? & w & _ & _ & _ & <-); apply asFloat_u32).
  split.
  - intros X V. eexists. split; [eapply op_times_left; eauto|]. eapply Fin; [exact V|]. intros y U. apply bits2_u32; [apply fmul_valid|eapply Nu, X|exact U].
  - intros V X. split; [|intros Z0]; (eexists; split; [first [eapply op_times_right|eapply op_over]; eauto|]).
    + exact (Fin (fun y => bits2 fmul y x) _ V (fun y U => bits2_u32 _ _ _ fmul_valid U (Nu _ X))).
    + exact (Fin (fun y => bits2 fdiv y x) _ V (fun y U => bits2_u32 _ _ _ fdiv_valid U (Nu _ X))).
Qed.

Lemma distance_partial k xs ys d e n s : opcodes vec3 vec2 vec quat -> k <> Quaternion -> n < fuel ->
  vector_at (hide here (mem s)) n (child c 1) k xs d -> vector_at (hide here (mem s)) n (child c 2) k ys e -> length xs = length ys ->
  exists s', apply_op Distance c s = Some (true, s') /\ kept_but here (mem s) (mem s') /\
    fetch bound (mem s') c = Some (Float (root (total k (differences xs ys)))).
Proof.
  intros O KQ F X Y L. eexists. split; [exact (op_distance grown bound false here vec3 vec2 vec quat fuel root product quotient angle k xs ys d e n s O KQ F X Y L)|]. split.
  - apply (kept_atomic Nil s). split; [|exists []; cbn; rewrite app_nil_r; reflexivity]. intros i H. cbn. apply Nat.eqb_neq in H. rewrite H. reflexivity.
  - cbn. rewrite Nat.eqb_refl. reflexivity.
Qed.

Lemma differ_partial o k k' xs ys d e n s : opcodes vec3 vec2 vec quat -> n < fuel ->
  vector_at (hide here (mem s)) n (child c 1) k xs d -> vector_at (hide here (mem s)) n (child c 2) k' ys e ->
  match o with Plus | Minus | Distance => k <> k' \/ length xs <> length ys | Times | Over => k <> k' \/ k <> Quaternion end ->
  exists s', apply_op o c s = Some (false, s') /\ kept_but here (mem s) (mem s') /\ cells (mem s') = cells (mem s) /\ fetch bound (mem s') c = Some Nil.
Proof.
  intros O F X Y H. eexists. split; [exact (op_differ grown bound false here vec3 vec2 vec quat fuel root product quotient angle o k k' xs ys d e n s O F X Y H)|]. split; [|split; [reflexivity|cbn; rewrite Nat.eqb_refl; reflexivity]].
  apply (kept_atomic Nil s). split; [|exists []; cbn; rewrite app_nil_r; reflexivity]. intros i N. cbn. apply Nat.eqb_neq in N. rewrite N. reflexivity.
Qed.

(** Two quaternions. *)
Lemma four_now m s n d xs : near here m s -> n < fuel -> numbers_at bound (hide here m) n d xs -> length xs = 4 -> four bound fuel (mem s) d = Some xs.
Proof.
  intros N F X L. destruct xs as [|a [|b [|c' [|d' [|]]]]]; try discriminate. unfold four.
  rewrite (number_now _ _ _ _ _ _ _ _ _ N F (X 0 a eq_refl)), (number_now _ _ _ _ _ _ _ _ _ N F (X 1 b eq_refl)), (number_now _ _ _ _ _ _ _ _ _ N F (X 2 c' eq_refl)), (number_now _ _ _ _ _ _ _ _ _ N F (X 3 d' eq_refl)). reflexivity.
Qed.
Lemma quaternions_run o xs ys d e n s : opcodes vec3 vec2 vec quat -> n < fuel ->
  vector_at (hide here (mem s)) n (child c 1) Quaternion xs d -> vector_at (hide here (mem s)) n (child c 2) Quaternion ys e ->
  settled 5 (mem s) d -> settled 5 (mem s) e -> exists b s', apply_op o c s = Some (b, s') /\ (b = true <-> o = Times \/ o = Over).
Proof.
  intros O F X Y Sd Se. rewrite (operands grown bound false here vec3 vec2 vec quat fuel root product quotient angle o s n _ xs d _ ys e F X Y).
  assert (N : near here (mem s) (set_atomic false here Nil s)) by (apply near_atomic, near_self).
  destruct (vector_dim _ _ _ _ _ _ _ _ _ _ _ X) as (_ & Dm). destruct (vector_dim _ _ _ _ _ _ _ _ _ _ _ Y) as (_ & Dm'). cbn [dimension] in Dm, Dm'.
  destruct (vector_head _ _ _ _ _ _ _ _ _ _ _ X) as (h & w & Lx & Wx & Dx & Ox & Nx & Fx & _).
  destruct (vector_head _ _ _ _ _ _ _ _ _ _ _ Y) as (h' & w' & Ly & Wy & Dy & Oy & Ny & Fy & _).
  specialize (Fx ltac:(discriminate)). specialize (Fy ltac:(discriminate)). subst h h'.
  destruct (found _ _ _ _ _ _ _ _ _ N F Lx Wx) as (E1 & E2). destruct (found _ _ _ _ _ _ _ _ _ N F Ly Wy) as (E3 & E4).
  destruct (is_kind _ _ _ _ _ _ O Ox) as (I1 & I2 & I3 & I4). destruct (is_kind _ _ _ _ _ _ O Oy) as (J1 & J2 & J3 & J4).
  pose proof (four_now _ _ _ _ _ N F Nx Dm) as Q1. pose proof (four_now _ _ _ _ _ N F Ny Dm') as Q2.
  assert (G : forall f, gives grown false here (mem s) (set_atomic false here Nil s) (extra false Quaternion (length (pairs f xs ys))) (pairwise bound fuel f d e) (pairs f xs ys)).
  { intros f. rewrite pairs_length, Dm by lia. eapply pairwise_gives; eauto; lia. }
  assert (S1 : forall f, flat grown false here quat 4 (pairwise bound fuel f d e) (set_atomic false here Nil s) = Some (written grown false here vec3 vec2 vec quat Quaternion (pairs f xs ys) (set_atomic false here Nil s))).
  { intros f. pose proof (pairs_length f xs ys ltac:(lia)) as PL. rewrite Dm in PL. rewrite <- PL at 1.
    exact (flat_written grown false here vec3 vec2 vec quat (mem s) _ Quaternion _ _ N (G f) ltac:(discriminate)). }
  destruct o; cbn [user_of]; unfold sum, user_mul, user_div, user_dis; rewrite E1, E2, E3, E4, I1, I2, I3, I4, ?J1, ?J2, ?J3, ?J4, ?(object_not_float _ Dx); cbn [andb orb].
  1,2: rewrite S1; eexists _, _; split; [reflexivity|split; [discriminate|intros [?|?]; discriminate]].
  1,2: unfold quaternion; rewrite Q1, Q2, (surjective_pairing (set_head grown false here (AObject quat 4) _)); eexists _, _; split; [reflexivity|split; auto].
  rewrite Q1, Q2. eexists _, _. split; [reflexivity|split; [discriminate|intros [?|?]; discriminate]].
Qed.

Lemma safe_partial o k k' xs ys d e n s : opcodes vec3 vec2 vec quat -> n < fuel ->
  vector_at (hide here (mem s)) n (child c 1) k xs d -> vector_at (hide here (mem s)) n (child c 2) k' ys e ->
  settled (words_for k (length xs)) (mem s) d -> settled (words_for k (length xs)) (mem s) e -> apply_op o c s <> None.
Proof.
  intros O F X Y Sd Se. destruct (vector_dim _ _ _ _ _ _ _ _ _ _ _ X) as (_ & Dm). destruct (vector_dim _ _ _ _ _ _ _ _ _ _ _ Y) as (_ & Dm').
  assert (KD : k = k' \/ k <> k') by (destruct k, k'; first [left; reflexivity|right; discriminate]).
  destruct KD as [<-|Ne].
  2:{ destruct (differ_partial o k k' xs ys d e n s O F X Y) as (s' & -> & _); [destruct o; auto|discriminate]. }
  assert (QD : k = Quaternion \/ k <> Quaternion) by (destruct k; first [left; reflexivity|right; discriminate]).
  destruct QD as [->|Q].
  { cbn [dimension] in Dm. rewrite Dm in Sd, Se. destruct (quaternions_run o xs ys d e n s O F X Y Sd Se) as (b & s' & -> & _). discriminate. }
  destruct (Nat.eq_dec (length xs) (length ys)) as [L|L].
  2:{ destruct (differ_partial o k k xs ys d e n s O F X Y) as (s' & -> & _); [destruct o; auto|discriminate]. }
  apply settled_extra in Sd, Se. destruct o.
  - rewrite (op_sum grown bound false here vec3 vec2 vec quat fuel root product quotient angle Plus (bits2 fadd) k xs ys d e n s O eq_refl Q F X Y L Sd Se). discriminate.
  - rewrite (op_sum grown bound false here vec3 vec2 vec quat fuel root product quotient angle Minus (bits2 fsub) k xs ys d e n s O eq_refl Q F X Y L Sd Se). discriminate.
  - destruct (differ_partial Times k k xs ys d e n s O F X Y (or_intror Q)) as (s' & -> & _). discriminate.
  - destruct (differ_partial Over k k xs ys d e n s O F X Y (or_intror Q)) as (s' & -> & _). discriminate.
  - destruct (distance_partial k xs ys d e n s O Q F X Y L) as (s' & -> & _). discriminate.
Qed.
End Read.
