(** Lemmas for the operators on vectors (C150 to C155): the operators. *)
From Verif Require Import Base Float32 Float32_facts Float32_round Atom_model Atom_proofs Op_model Bp_model Vec_model Vec_spec Vec_proofs Vec2_proofs Vec3_proofs.
Local Open Scope nat_scope.

Section Ops.
Context (grown : nat -> nat) (bound : nat -> nat -> option Z) (expr : bool) (here : nat).
Context (vec3 vec2 vec quat : Z) (fuel : nat).
Context (root : Z -> Z) (product quotient : list Z -> list Z -> list Z) (angle : list Z -> list Z -> Z).
Notation c := (mkc Code here).
Notation opcode := (opcode vec3 vec2 vec quat).
Notation vector_at := (vector_at bound vec3 vec2 vec quat).
Notation written := (written grown expr here vec3 vec2 vec quat).
Notation near := (near here).
Notation user_of := (user_of grown bound expr here vec3 vec2 vec quat fuel root product quotient angle).
Notation apply_op := (apply_op grown bound expr here vec3 vec2 vec quat fuel root product quotient angle).
Notation set_atomic := (set_atomic expr here).
Notation extra := (extra expr).

Lemma near_self s : near (mem s) s.
Proof. clear grown bound expr vec3 vec2 vec quat fuel root product quotient angle. split; [|auto]. split; [|exists []; cbn; rewrite app_nil_r; reflexivity]. intros i w H. cbn [hide code_] in H. destruct (i =? here); [discriminate|exact H]. Qed.
Lemma near_atomic m s a : near m s -> near m (set_atomic a s).
Proof.
  clear grown bound vec3 vec2 vec quat fuel root product quotient angle. intros N. destruct (near_grown (fun n => n) expr here m s a [] N) as (A & _). cbn [pushes fold_left] in A. destruct N as (_ & B & C & D).
  destruct (patch_cells expr here a (mem s)) as (P1 & P2 & P3). unfold Vec2_proofs.near, Vec_model.set_atomic. cbn [mem]. rewrite P1, P2, P3. auto.
Qed.

(** ** The operators of the executive refuse vectors *)
Definition heads_of (a b : Z) (o : oper) : Prop :=
  (getDescriptor a = OBJECT /\ getDescriptor b = OBJECT) \/
  (getDescriptor a = OBJECT /\ isFloat b = true) \/
  (isFloat a = true /\ getDescriptor b = OBJECT).
Lemma words_head m e w : fetch bound m e = Some w -> exists t, words_at bound m e = w :: t.
Proof. intros H. unfold words_at. rewrite H. destruct (fetch bound m (child e 1)); [destruct (fetch bound m (child e 2))|]; eauto. Qed.
Lemma object_no_time w : getDescriptor w = OBJECT -> is_time w = false /\ is_dur w = false.
Proof. intros H. unfold is_time, is_dur. rewrite H. split; reflexivity. Qed.
Lemma std_nil o a b x y : heads_of a b o -> std_of o (a :: x) (b :: y) = nil_.
Proof.
  intros [(A & B)|[(A & B)|(A & B)]].
  - pose proof (object_not_float _ A) as A1. pose proof (object_not_float _ B) as B1. destruct (object_no_time _ A) as (A2 & A3). destruct (object_no_time _ B) as (B2 & B3).
    destruct o; unfold std_of, add, sub, mul, div, dis, heads; rewrite A1, ?A2, ?A3; reflexivity.
  - pose proof (object_not_float _ A) as A1. destruct (object_no_time _ A) as (A2 & A3).
    destruct o; unfold std_of, add, sub, mul, div, dis, heads; rewrite A1, ?A2, ?A3; reflexivity.
  - pose proof (object_not_float _ B) as B1. destruct (object_no_time _ B) as (B2 & B3).
    destruct o; unfold std_of, add, sub, mul, div, dis, heads; rewrite A, B1, ?B2, ?B3; reflexivity.
Qed.
Lemma apply_user o s l r a b : dereference bound fuel (mem s) (child c 1) = Some l -> dereference bound fuel (mem s) (child c 2) = Some r ->
  fetch bound (mem s) l = Some a -> fetch bound (mem s) r = Some b -> heads_of a b o ->
  apply_op o c s = user_of o c (set_atomic Nil s).
Proof.
  intros L R A B H. unfold Vec_model.apply_op, operate, standard. rewrite L, R. destruct (words_head _ _ _ A) as (x & ->). destruct (words_head _ _ _ B) as (y & ->).
  rewrite (std_nil o a b x y H). reflexivity.
Qed.

(** ** Vectors as operands *)
Lemma vector_head m n e k xs d : vector_at m n e k xs d -> exists h w, leads bound m n e h /\ fetch bound m h = Some w /\ getDescriptor w = OBJECT /\ asOpcode w = opcode k /\
  numbers_at bound m n d xs /\ (k <> Any -> d = h) /\ (k = Any -> leads bound m n (child h 1) d /\ exists u, fetch bound m d = Some u /\ getAtomCount u = Z.of_nat (length xs) /\ length xs < 256).
Proof.
  clear grown expr here fuel root product quotient angle. intros (h & w & L & W & D & O & N & K). exists h, w. repeat (split; [assumption|]). split.
  - intros KA. destruct k; cbn [dimension] in K; [apply K..|congruence|apply K].
  - intros ->. cbn [dimension] in K. destruct K as (K & u & U & S & G). split; [exact K|]. exists u. split; [exact U|]. split; [exact G|].
    assert (G' : getAtomCount u = Z.land u (Z.ones 8)) by (unfold getAtomCount; rewrite S; reflexivity). rewrite G', Z.land_ones in G by lia.
    pose proof (Z.mod_pos_bound u (2 ^ 8) ltac:(lia)). change (2 ^ 8)%Z with 256%Z in *. lia.
Qed.
Lemma vector_dim m n e k xs d : vector_at m n e k xs d -> length xs < 256 /\ match dimension k with Some i => length xs = i | None => True end.
Proof.
  clear grown expr here fuel root product quotient angle. intros V. destruct (vector_head _ _ _ _ _ _ V) as (h0 & w0 & _ & _ & _ & _ & _ & _ & K). destruct V as (h & w & _ & _ & _ & _ & _ & D).
  destruct k; cbn [dimension] in *; try (split; lia). split; [|exact I]. destruct (K eq_refl) as (_ & u & _ & _ & B). exact B.
Qed.

Definition pairs (f : Z -> Z -> Z) (xs ys : list Z) : list Z := map (fun p => f (fst p) (snd p)) (combine xs ys).
Lemma pairs_length f xs ys : length xs = length ys -> length (pairs f xs ys) = length xs.
Proof. clear. intros E. unfold pairs. rewrite map_length, combine_length. lia. Qed.

Lemma sum_run f k xs ys d e n m s : opcodes vec3 vec2 vec quat -> k <> Quaternion -> n < fuel -> near m s ->
  vector_at (hide here m) n (child c 1) k xs d -> vector_at (hide here m) n (child c 2) k ys e -> length xs = length ys ->
  settled (extra k (length xs)) m d -> settled (extra k (length xs)) m e ->
  sum grown bound expr here vec3 vec2 vec quat fuel f c s = Some (true, written k (pairs f xs ys) s).
Proof.
  intros O KQ F N X Y L Sd Se.
  destruct (vector_head _ _ _ _ _ _ X) as (h & w & Lx & Wx & Dx & Ox & Nx & Fx & Ax).
  destruct (vector_head _ _ _ _ _ _ Y) as (h' & w' & Ly & Wy & Dy & Oy & Ny & Fy & Ay).
  destruct (found _ _ _ _ _ _ _ _ _ N F Lx Wx) as (E1 & E2). destruct (found _ _ _ _ _ _ _ _ _ N F Ly Wy) as (E3 & E4).
  destruct (is_kind _ _ _ _ _ _ O Ox) as (I1 & I2 & I3 & I4). destruct (is_kind _ _ _ _ _ _ O Oy) as (J1 & J2 & J3 & J4).
  unfold sum. rewrite E1, E2, E3, E4, I1, I2, I3, J1, J2, J3.
  assert (G : gives grown expr here m s (extra k (length (pairs f xs ys))) (pairwise bound fuel f d e) (pairs f xs ys)) by (rewrite pairs_length by exact L; eapply pairwise_gives; eauto).
  destruct (vector_dim _ _ _ _ _ _ X) as (_ & Dm).
  destruct k; cbn [andb]; try congruence.
  - rewrite <- (Fx ltac:(discriminate)), <- (Fy ltac:(discriminate)). cbn [dimension] in Dm. unfold done.
    replace 3 with (length (pairs f xs ys)) by (rewrite pairs_length by exact L; exact Dm).
    change vec3 with (opcode Three) at 1. rewrite (flat_written grown expr here vec3 vec2 vec quat m s Three) by (assumption || discriminate). reflexivity.
  - rewrite <- (Fx ltac:(discriminate)), <- (Fy ltac:(discriminate)). cbn [dimension] in Dm. unfold done.
    replace 2 with (length (pairs f xs ys)) by (rewrite pairs_length by exact L; exact Dm).
    change vec2 with (opcode Two) at 1. rewrite (flat_written grown expr here vec3 vec2 vec quat m s Two) by (assumption || discriminate). reflexivity.
  - destruct (Ax eq_refl) as (Lv & u & U & Cu & _). destruct (Ay eq_refl) as (Lv' & u' & U' & Cu' & _).
    rewrite (values_found _ _ _ _ _ _ _ _ _ N F Lv U), (values_found _ _ _ _ _ _ _ _ _ N F Lv' U'), Cu, Cu', !Nat2Z.id, L, Nat.eqb_refl.
    unfold done. rewrite <- L, <- (pairs_length f xs ys L). rewrite (long_written grown expr here vec3 vec2 vec quat m s) by assumption. reflexivity.
Qed.

Lemma operands o s n k xs d k' ys e : n < fuel ->
  vector_at (hide here (mem s)) n (child c 1) k xs d -> vector_at (hide here (mem s)) n (child c 2) k' ys e ->
  apply_op o c s = user_of o c (set_atomic Nil s).
Proof.
  intros F X Y. pose proof (near_self s) as N.
  destruct (vector_head _ _ _ _ _ _ X) as (h & w & Lx & Wx & Dx & _).
  destruct (vector_head _ _ _ _ _ _ Y) as (h' & w' & Ly & Wy & Dy & _).
  destruct (found _ _ _ _ _ _ _ _ _ N F Lx Wx) as (E1 & E2). destruct (found _ _ _ _ _ _ _ _ _ N F Ly Wy) as (E3 & E4).
  eapply apply_user; eauto. left. auto.
Qed.

Lemma op_sum o f k xs ys d e n s : opcodes vec3 vec2 vec quat -> plus_or_minus o = Some f -> k <> Quaternion -> n < fuel ->
  vector_at (hide here (mem s)) n (child c 1) k xs d -> vector_at (hide here (mem s)) n (child c 2) k ys e -> length xs = length ys ->
  settled (extra k (length xs)) (mem s) d -> settled (extra k (length xs)) (mem s) e ->
  apply_op o c s = Some (true, written k (pairs f xs ys) (set_atomic Nil s)).
Proof.
  intros O P KQ F X Y L Sd Se. rewrite (operands o s n k xs d k ys e F X Y).
  assert (N : near (mem s) (set_atomic Nil s)) by (apply near_atomic, near_self).
  destruct o; cbn [plus_or_minus] in P; try discriminate; injection P as <-; cbn [Vec_model.user_of]; apply sum_run with (d := d) (e := e) (n := n) (m := mem s); auto.
Qed.

(** ** A number and a vector *)
Lemma each_run f k xs d n m s other h w : opcodes vec3 vec2 vec quat -> k <> Quaternion -> n < fuel -> near m s ->
  vector_at (hide here m) n h k xs d -> leads bound (hide here m) n h w -> forall a, fetch bound (hide here m) w = Some a ->
  settled (extra k (length xs)) m d ->
  each grown bound expr here vec3 vec2 vec fuel f a w s other = Some (true, written k (map f xs) s).
Proof.
  intros O KQ F N X Lw a A Sd.
  destruct (vector_head _ _ _ _ _ _ X) as (h' & w' & Lx & Wx & Dx & Ox & Nx & Fx & Ax).
  destruct (found _ _ _ _ _ _ _ _ _ N F Lx Wx) as (E1 & E2). destruct (found _ _ _ _ _ _ _ _ _ N F Lw A) as (E3 & E4).
  rewrite E1 in E3. injection E3 as <-. rewrite A in Wx. injection Wx as <-.
  destruct (is_kind _ _ _ _ _ _ O Ox) as (I1 & I2 & I3 & I4).
  unfold each. rewrite I1, I2, I3. 
  assert (G : gives grown expr here m s (extra k (length (map f xs))) (scaled bound fuel f d) (map f xs)) by (rewrite map_length; eapply scaled_gives; eauto).
  destruct (vector_dim _ _ _ _ _ _ X) as (_ & Dm).
  destruct k; try congruence.
  - rewrite <- (Fx ltac:(discriminate)). cbn [dimension] in Dm. unfold done.
    replace 3 with (length (map f xs)) by (rewrite map_length; exact Dm).
    change vec3 with (opcode Three) at 1. rewrite (flat_written grown expr here vec3 vec2 vec quat m s Three) by (assumption || discriminate). reflexivity.
  - rewrite <- (Fx ltac:(discriminate)). cbn [dimension] in Dm. unfold done.
    replace 2 with (length (map f xs)) by (rewrite map_length; exact Dm).
    change vec2 with (opcode Two) at 1. rewrite (flat_written grown expr here vec3 vec2 vec quat m s Two) by (assumption || discriminate). reflexivity.
  - destruct (Ax eq_refl) as (Lv & u & U & Cu & _).
    rewrite (values_found _ _ _ _ _ _ _ _ _ N F Lv U), Cu, Nat2Z.id.
    unfold done. rewrite <- (map_length f xs). rewrite (long_written grown expr here vec3 vec2 vec quat m s) by assumption. reflexivity.
Qed.

Lemma op_times_left k x xs d n s : opcodes vec3 vec2 vec quat -> k <> Quaternion -> n < fuel ->
  number_at bound (hide here (mem s)) n (child c 1) x -> vector_at (hide here (mem s)) n (child c 2) k xs d ->
  settled (extra k (length xs)) (mem s) d ->
  apply_op Times c s = Some (true, written k (map (bits2 fmul x) xs) (set_atomic Nil s)).
Proof.
  intros O KQ F (h & w & Lx & Wx & Fx & Vx) Y Sd. pose proof (near_self s) as N0.
  assert (N : near (mem s) (set_atomic Nil s)) by (apply near_atomic, near_self).
  destruct (vector_head _ _ _ _ _ _ Y) as (h' & w' & Ly & Wy & Dy & Oy & _).
  destruct (found _ _ _ _ _ _ _ _ _ N0 F Lx Wx) as (E1 & E2). destruct (found _ _ _ _ _ _ _ _ _ N0 F Ly Wy) as (E3 & E4).
  rewrite (apply_user Times s _ _ _ _ E1 E3 E2 E4) by (right; right; auto). cbn [Vec_model.user_of]. unfold user_mul.
  destruct (found _ _ _ _ _ _ _ _ _ N F Lx Wx) as (E5 & E6). destruct (found _ _ _ _ _ _ _ _ _ N F Ly Wy) as (E7 & E8). rewrite E5, E6, E7, E8, Fx, Vx.
  eapply each_run; eauto.
Qed.
Lemma op_times_right k y xs d n s : opcodes vec3 vec2 vec quat -> k <> Quaternion -> n < fuel ->
  vector_at (hide here (mem s)) n (child c 1) k xs d -> number_at bound (hide here (mem s)) n (child c 2) y ->
  settled (extra k (length xs)) (mem s) d ->
  apply_op Times c s = Some (true, written k (map (fun x => bits2 fmul x y) xs) (set_atomic Nil s)).
Proof.
  intros O KQ F X (h & w & Ly & Wy & Fy & Vy) Sd. pose proof (near_self s) as N0.
  assert (N : near (mem s) (set_atomic Nil s)) by (apply near_atomic, near_self).
  destruct (vector_head _ _ _ _ _ _ X) as (h' & w' & Lx & Wx & Dx & Ox & _).
  destruct (found _ _ _ _ _ _ _ _ _ N0 F Lx Wx) as (E1 & E2). destruct (found _ _ _ _ _ _ _ _ _ N0 F Ly Wy) as (E3 & E4).
  rewrite (apply_user Times s _ _ _ _ E1 E3 E2 E4) by (right; left; auto). cbn [Vec_model.user_of]. unfold user_mul.
  destruct (found _ _ _ _ _ _ _ _ _ N F Lx Wx) as (E5 & E6). destruct (found _ _ _ _ _ _ _ _ _ N F Ly Wy) as (E7 & E8). rewrite E5, E6, E7, E8, Fy, Vy, (object_not_float _ Dx).
  destruct (is_kind _ _ _ _ _ _ O Ox) as (I1 & I2 & I3 & I4).
  replace (is vec3 w' || is vec2 w' || is vec w')%bool with true by (rewrite I1, I2, I3; destruct k; try reflexivity; congruence).
  eapply each_run; eauto.
Qed.
Lemma op_over k y xs d n s : opcodes vec3 vec2 vec quat -> k <> Quaternion -> n < fuel ->
  vector_at (hide here (mem s)) n (child c 1) k xs d -> number_at bound (hide here (mem s)) n (child c 2) y -> feqb (f32_of_bits y) fzero = false ->
  settled (extra k (length xs)) (mem s) d ->
  apply_op Over c s = Some (true, written k (map (fun x => bits2 fdiv x y) xs) (set_atomic Nil s)).
Proof.
  intros O KQ F X (h & w & Ly & Wy & Fy & Vy) Z0 Sd. pose proof (near_self s) as N0.
  assert (N : near (mem s) (set_atomic Nil s)) by (apply near_atomic, near_self).
  destruct (vector_head _ _ _ _ _ _ X) as (h' & w' & Lx & Wx & Dx & Ox & _).
  destruct (found _ _ _ _ _ _ _ _ _ N0 F Lx Wx) as (E1 & E2). destruct (found _ _ _ _ _ _ _ _ _ N0 F Ly Wy) as (E3 & E4).
  rewrite (apply_user Over s _ _ _ _ E1 E3 E2 E4) by (right; left; auto). cbn [Vec_model.user_of]. unfold user_div.
  destruct (found _ _ _ _ _ _ _ _ _ N F Lx Wx) as (E5 & E6). destruct (found _ _ _ _ _ _ _ _ _ N F Ly Wy) as (E7 & E8). unfold num. rewrite E5, E6, E7, E8, Fy, Vy, Z0.
  destruct (is_kind _ _ _ _ _ _ O Ox) as (I1 & I2 & I3 & I4).
  replace (is vec3 w' || is vec2 w' || is vec w')%bool with true by (rewrite I1, I2, I3; destruct k; try reflexivity; congruence).
  eapply each_run; eauto.
Qed.

(** ** Distance *)
Lemma op_distance k xs ys d e n s : opcodes vec3 vec2 vec quat -> k <> Quaternion -> n < fuel ->
  vector_at (hide here (mem s)) n (child c 1) k xs d -> vector_at (hide here (mem s)) n (child c 2) k ys e -> length xs = length ys ->
  apply_op Distance c s = Some (true, set_atomic (Float (root (total k (differences xs ys)))) (set_atomic Nil s)).
Proof.
  intros O KQ F X Y L. rewrite (operands Distance s n k xs d k ys e F X Y).
  assert (N : near (mem s) (set_atomic Nil s)) by (apply near_atomic, near_self).
  destruct (vector_head _ _ _ _ _ _ X) as (h & w & Lx & Wx & Dx & Ox & Nx & Fx & Ax).
  destruct (vector_head _ _ _ _ _ _ Y) as (h' & w' & Ly & Wy & Dy & Oy & Ny & Fy & Ay).
  destruct (found _ _ _ _ _ _ _ _ _ N F Lx Wx) as (E1 & E2). destruct (found _ _ _ _ _ _ _ _ _ N F Ly Wy) as (E3 & E4).
  destruct (is_kind _ _ _ _ _ _ O Ox) as (I1 & I2 & I3 & I4). destruct (is_kind _ _ _ _ _ _ O Oy) as (J1 & J2 & J3 & J4).
  cbn [Vec_model.user_of]. unfold user_dis. rewrite E1, E2, E3, E4, I1, I2, I3, J1, J2, J3.
  destruct (vector_dim _ _ _ _ _ _ X) as (_ & Dm).
  destruct k; cbn [andb]; try congruence.
  - rewrite <- (Fx ltac:(discriminate)), <- (Fy ltac:(discriminate)). cbn [dimension] in Dm. destruct xs as [|x xs]; [discriminate|]. destruct ys as [|y ys]; [discriminate|].
    assert (L0 : length xs = length ys) by (cbn [length] in L; lia). rewrite <- Dm. rewrite (norm2_run _ _ _ _ _ _ _ _ _ _ _ _ N F L0 Nx Ny). reflexivity.
  - rewrite <- (Fx ltac:(discriminate)), <- (Fy ltac:(discriminate)). cbn [dimension] in Dm. destruct xs as [|x xs]; [discriminate|]. destruct ys as [|y ys]; [discriminate|].
    assert (L0 : length xs = length ys) by (cbn [length] in L; lia). rewrite <- Dm. rewrite (norm2_run _ _ _ _ _ _ _ _ _ _ _ _ N F L0 Nx Ny). reflexivity.
  - destruct (Ax eq_refl) as (Lv & u & U & Cu & _). destruct (Ay eq_refl) as (Lv' & u' & U' & Cu' & _).
    rewrite (values_found _ _ _ _ _ _ _ _ _ N F Lv U), (values_found _ _ _ _ _ _ _ _ _ N F Lv' U'), Cu, Cu', !Nat2Z.id, L, Nat.eqb_refl.
    rewrite <- L. rewrite (squares_run _ _ _ _ _ _ _ _ N F xs ys 1 0%Z L Nx Ny). reflexivity.
Qed.

(** ** No common kind *)
Lemma op_differ o k k' xs ys d e n s : opcodes vec3 vec2 vec quat -> n < fuel ->
  vector_at (hide here (mem s)) n (child c 1) k xs d -> vector_at (hide here (mem s)) n (child c 2) k' ys e ->
  match o with Plus | Minus | Distance => k <> k' \/ length xs <> length ys | Times | Over => k <> k' \/ k <> Quaternion end ->
  apply_op o c s = Some (false, set_atomic Nil (set_atomic Nil s)).
Proof.
  intros O F X Y Df. rewrite (operands o s n k xs d k' ys e F X Y).
  assert (N : near (mem s) (set_atomic Nil s)) by (apply near_atomic, near_self).
  destruct (vector_head _ _ _ _ _ _ X) as (h & w & Lx & Wx & Dx & Ox & Nx & Fx & Ax).
  destruct (vector_head _ _ _ _ _ _ Y) as (h' & w' & Ly & Wy & Dy & Oy & Ny & Fy & Ay).
  destruct (found _ _ _ _ _ _ _ _ _ N F Lx Wx) as (E1 & E2). destruct (found _ _ _ _ _ _ _ _ _ N F Ly Wy) as (E3 & E4).
  destruct (is_kind _ _ _ _ _ _ O Ox) as (I1 & I2 & I3 & I4). destruct (is_kind _ _ _ _ _ _ O Oy) as (J1 & J2 & J3 & J4).
  destruct (vector_dim _ _ _ _ _ _ X) as (_ & Dm). destruct (vector_dim _ _ _ _ _ _ Y) as (_ & Dm').
  assert (Q : (k = Any /\ k' = Any /\ (length xs <> length ys \/ o = Times \/ o = Over)) \/ k <> k' \/ (k <> Quaternion /\ (o = Times \/ o = Over))).
  { destruct o, k, k'; cbn [dimension] in *; try (right; left; discriminate); try (left; repeat split; try (left; intuition congruence); (right; intuition fail) || intuition fail);
      try (right; right; split; [discriminate|intuition fail]); exfalso; intuition congruence. }
  assert (V : k = Any -> k' = Any -> values_of bound fuel (mem (set_atomic Nil s)) h = Some (d, length xs) /\ values_of bound fuel (mem (set_atomic Nil s)) h' = Some (e, length ys)).
  { intros A B. destruct (Ax A) as (Lv & u & U & Cu & _). destruct (Ay B) as (Lv' & u' & U' & Cu' & _).
    rewrite (values_found _ _ _ _ _ _ _ _ _ N F Lv U), (values_found _ _ _ _ _ _ _ _ _ N F Lv' U'), Cu, Cu', !Nat2Z.id. auto. }
  pose proof (object_not_float _ Dx) as Nf. pose proof (object_not_float _ Dy) as Nf'.
  destruct o; cbn [Vec_model.user_of]; unfold sum, user_mul, user_div, user_dis; rewrite E1, E2, E3, E4, I1, I2, I3, I4, ?J1, ?J2, ?J3, ?J4, ?Nf, ?Nf'; cbn zeta.
  all: destruct k; cbn [andb orb]; try reflexivity; destruct k'; cbn [andb orb]; try reflexivity; try (exfalso; intuition congruence).
  all: destruct (V eq_refl eq_refl) as (-> & ->); replace (length xs =? length ys) with false by (symmetry; apply Nat.eqb_neq; intuition congruence); reflexivity.
Qed.
End Ops.
