(** Properties C150 to C155 (operators on vectors). *)
From Verif Require Import Base Float32 Atom_model Op_model Bp_model Bp_spec Vec_model Vec_spec Vec5_proofs Vec6_proofs Vec7_proofs.
Local Open Scope nat_scope.

(** ** C150 Sums and differences of vectors *)

(** Full statement: the sum (the difference) of two vectors of the same kind and dimension is,
    where the expression was, the vector of the sums (the differences) of their components,
    and all else is as before.  False for quaternions: the expression fails and nil is there;
    neither is there a distance (C152). *)
Theorem C150_quaternion_refuted : exists s xs ys d e, opcodes 50 51 52 53 /\
  vec_at (hide 0 (mem s)) 2 (child top 1) Quaternion xs d /\ vec_at (hide 0 (mem s)) 2 (child top 2) Quaternion ys e /\
  inside d = Code /\ inside e = Code /\ length (cells (mem s)) + 10 <= capacity (mem s) /\
  forall o, o = Plus \/ o = Minus \/ o = Distance -> exists s', app_ false o top s = Some (false, s') /\ fetch nowhere (mem s') top = Some Nil.
Proof. exact quaternion_refuted. Qed.
Print Assumptions C150_quaternion_refuted.
(** Proved for the other kinds, wherever the operands are (in the code, in values of variables,
    in results of other expressions), if the array of values does not move while they are in
    it and keeps below 4096 words; [n] is the number of pointers to follow. *)
Theorem C150_sum_partial : forall grown bound here vec3 vec2 vec quat fuel root product quotient angle o f k xs ys d e n s,
  let c := mkc Code here in
  opcodes vec3 vec2 vec quat -> plus_or_minus o = Some f -> k <> Quaternion -> n < fuel ->
  vector_at bound vec3 vec2 vec quat (hide here (mem s)) n (child c 1) k xs d ->
  vector_at bound vec3 vec2 vec quat (hide here (mem s)) n (child c 2) k ys e -> length xs = length ys ->
  settled (words_for k (length xs)) (mem s) d -> settled (words_for k (length xs)) (mem s) e ->
  (Z.of_nat (length (cells (mem s)) + words_for k (length xs)) <= 4096)%Z ->
  exists s', apply_op grown bound false here vec3 vec2 vec quat fuel root product quotient angle o c s = Some (true, s') /\
    kept_but here (mem s) (mem s') /\ exists d', vector_at bound vec3 vec2 vec quat (mem s') 1 c k (both f xs ys) d'.
Proof. exact sum_partial. Qed.
Print Assumptions C150_sum_partial.
Example C150_example : vec_at (hide 0 (mem x_start)) 2 (child top 1) Any [b1; b2] (mkc Code 5) /\
  vec_at (hide 0 (mem x_start)) 2 (child top 2) Any [b3; b3] (mkc (Values 0) 3) /\
  settled (words_for Any 2) (mem x_start) (mkc Code 5) /\ settled (words_for Any 2) (mem x_start) (mkc (Values 0) 3) /\
  match app_ false Plus top x_start with
  | Some (r, s') => r = true /\ code_ (mem s') 0 = Some (ValuePointer 6) /\
      skipn 6 (cells (mem s')) = [AObject 52 1; IPointer 8; ASet 2; Float 1082130432; Float 1084227584]
  | None => False
  end.
Proof. split; [exact x_left|]. split; [exact x_right|]. split; [exact I|]. split; [cbn; lia|]. vm_compute. auto. Qed.

(** ** C151 A vector times or divided by a number *)

(** Full statement: a number times a vector, a vector times a number, a vector divided by a
    number other than zero are the vectors of the products (quotients) of the components.
    False for quaternions. *)
Theorem C151_quaternion_refuted : exists s xs d, opcodes 50 51 52 53 /\
  vec_at (hide 0 (mem s)) 2 (child top 1) Quaternion xs d /\ number_at nowhere (hide 0 (mem s)) 2 (child top 2) b2 /\
  forall o, o = Times \/ o = Over -> exists s', app_ false o top s = Some (false, s') /\ fetch nowhere (mem s') top = Some Nil.
Proof. exact scale_refuted. Qed.
Print Assumptions C151_quaternion_refuted.
Theorem C151_scale_partial : forall grown bound here vec3 vec2 vec quat fuel root product quotient angle k x xs d n s,
  let c := mkc Code here in
  let apply_op := apply_op grown bound false here vec3 vec2 vec quat fuel root product quotient angle in
  let vector_at := vector_at bound vec3 vec2 vec quat in
  opcodes vec3 vec2 vec quat -> k <> Quaternion -> n < fuel ->
  settled (words_for k (length xs)) (mem s) d -> (Z.of_nat (length (cells (mem s)) + words_for k (length xs)) <= 4096)%Z ->
  (number_at bound (hide here (mem s)) n (child c 1) x -> vector_at (hide here (mem s)) n (child c 2) k xs d ->
    exists s', apply_op Times c s = Some (true, s') /\ kept_but here (mem s) (mem s') /\ exists d', vector_at (mem s') 1 c k (map (fun y => stored (bits2 fmul x y)) xs) d') /\
  (vector_at (hide here (mem s)) n (child c 1) k xs d -> number_at bound (hide here (mem s)) n (child c 2) x ->
    (exists s', apply_op Times c s = Some (true, s') /\ kept_but here (mem s) (mem s') /\ exists d', vector_at (mem s') 1 c k (map (fun y => stored (bits2 fmul y x)) xs) d') /\
    (feqb (f32_of_bits x) fzero = false ->
     exists s', apply_op Over c s = Some (true, s') /\ kept_but here (mem s) (mem s') /\ exists d', vector_at (mem s') 1 c k (map (fun y => stored (bits2 fdiv y x)) xs) d')).
Proof. exact scale_partial. Qed.
Print Assumptions C151_scale_partial.
Example C151_example : match app_ false Times top (start g_code [] 128) with
  | Some (r, s') => r = true /\ cells (mem s') = [AObject 50 3; Float b2; Float 1082130432; Float 1086324736] | None => False end.
Proof. vm_compute. auto. Qed.

(** ** C152 The distance of two vectors *)

(** Full statement: the distance of two vectors of the same kind and dimension is the root of
    the sum of the squares of the differences of their components; for quaternions, the angle.
    For quaternions it is false: C150_quaternion_refuted.  [root] is any function. *)
Theorem C152_distance_partial : forall grown bound here vec3 vec2 vec quat fuel root product quotient angle k xs ys d e n s,
  let c := mkc Code here in
  opcodes vec3 vec2 vec quat -> k <> Quaternion -> n < fuel ->
  vector_at bound vec3 vec2 vec quat (hide here (mem s)) n (child c 1) k xs d ->
  vector_at bound vec3 vec2 vec quat (hide here (mem s)) n (child c 2) k ys e -> length xs = length ys ->
  exists s', apply_op grown bound false here vec3 vec2 vec quat fuel root product quotient angle Distance c s = Some (true, s') /\
    kept_but here (mem s) (mem s') /\ fetch bound (mem s') c = Some (Float (root (total k (differences xs ys)))).
Proof. exact distance_partial. Qed.
Print Assumptions C152_distance_partial.
Example C152_example : match app_ false Distance top x_start with
  | Some (r, s') => r = true /\ code_ (mem s') 0 = Some (Float 1084227584) /\ total Any (differences [b1; b2] [b3; b3]) = 1084227584%Z | None => False end.
Proof. vm_compute. auto. Qed.

(** ** C153 No use of freed memory *)

(** Full statement: evaluating an operator on vectors reads no memory that was freed.  False:
    if the array of values is full and has the operands, it moves while they are read. *)
Theorem C153_freed_refuted : exists s xs ys d e, opcodes 50 51 52 53 /\
  vec_at (hide 0 (mem s)) 2 (child top 1) Three xs d /\ vec_at (hide 0 (mem s)) 2 (child top 2) Three ys e /\
  length (cells (mem s)) <= capacity (mem s) /\ app_ false Plus top s = None.
Proof. exact freed_refuted. Qed.
Print Assumptions C153_freed_refuted.
(** Proved for all operators and kinds, if there is room or the operands are elsewhere. *)
Theorem C153_safe_partial : forall grown bound here vec3 vec2 vec quat fuel root product quotient angle o k k' xs ys d e n s,
  let c := mkc Code here in
  opcodes vec3 vec2 vec quat -> n < fuel ->
  vector_at bound vec3 vec2 vec quat (hide here (mem s)) n (child c 1) k xs d ->
  vector_at bound vec3 vec2 vec quat (hide here (mem s)) n (child c 2) k' ys e ->
  settled (words_for k (length xs)) (mem s) d -> settled (words_for k (length xs)) (mem s) e ->
  apply_op grown bound false here vec3 vec2 vec quat fuel root product quotient angle o c s <> None.
Proof. exact safe_partial. Qed.
Print Assumptions C153_safe_partial.
Example C153_example : (forall room, vec_at (hide 0 (mem (v_start room))) 2 (child top 1) Three [b1; b2; b3] (mkc (Values 0) 0)) /\
  settled (words_for Three 3) (mem (v_start 12)) (mkc (Values 0) 0) /\ app_ false Plus top (v_start 12) <> None /\ app_ false Plus top (v_start 10) = None.
Proof. split; [exact v_left|]. split; [cbn; lia|]. vm_compute. split; [discriminate|reflexivity]. Qed.

(** ** C154 Operands that do not go together *)

(** Full statement: an operator fails, leaving nil, if its operands are not two vectors of the
    same kind and dimension.  False: the identifiers of two devices are added, if their bits
    look like those of a vector; the next words of the code are taken as components. *)
Theorem C154_device_refuted : exists s a b, fetch nowhere (mem s) (child top 1) = Some a /\ fetch nowhere (mem s) (child top 2) = Some b /\
  getDescriptor a = DEVICE /\ getDescriptor b = DEVICE /\ exists s', app_ false Plus top s = Some (true, s').
Proof. exact device_refuted. Qed.
Print Assumptions C154_device_refuted.
(** Proved for vectors of different kinds or dimensions; products and quotients of vectors
    that are not quaternions fail as well. *)
Theorem C154_differ_partial : forall grown bound here vec3 vec2 vec quat fuel root product quotient angle o k k' xs ys d e n s,
  let c := mkc Code here in
  opcodes vec3 vec2 vec quat -> n < fuel ->
  vector_at bound vec3 vec2 vec quat (hide here (mem s)) n (child c 1) k xs d ->
  vector_at bound vec3 vec2 vec quat (hide here (mem s)) n (child c 2) k' ys e ->
  match o with Plus | Minus | Distance => k <> k' \/ length xs <> length ys | Times | Over => k <> k' \/ k <> Quaternion end ->
  exists s', apply_op grown bound false here vec3 vec2 vec quat fuel root product quotient angle o c s = Some (false, s') /\
    kept_but here (mem s) (mem s') /\ cells (mem s') = cells (mem s) /\ fetch bound (mem s') c = Some Nil.
Proof. exact differ_partial. Qed.
Print Assumptions C154_differ_partial.
Example C154_example : vec_at (hide 0 (mem x_start)) 2 (child top 1) Any [b1; b2] (mkc Code 5) /\ vec_at (hide 0 (mem x_start)) 2 (child top 2) Any [b3; b3] (mkc (Values 0) 3) /\
  match app_ false Times top x_start with Some (r, s') => r = false /\ code_ (mem s') 0 = Some Nil /\ length (cells (mem s')) = 6 | None => False end.
Proof. split; [exact x_left|]. split; [exact x_right|]. vm_compute. auto. Qed.

(** ** C155 What is learned is what is computed *)

(** Full statement: the operation on the values of two facts, made when a guard is looked for,
    gives what the guard gives later.  False for a vector and a number: nothing is found,
    while the guard gives the product; *)
Theorem C155_mixed_refuted : exists l, bae Times (Operator 9 2) m_num m_vec (m_num 3) (m_vec 3) = Some l /\ found_result l = [] /\
  exists s', app_ false Times top (start g_code [] 128) = Some (true, s') /\ exists d, vec_at (mem s') 1 top Three [b2; 1082130432%Z; 1086324736%Z] d.
Proof. exact mixed_refuted. Qed.
Print Assumptions C155_mixed_refuted.
(** for infinite numbers; *)
Theorem C155_infinity_refuted : exists l, bae Minus (Operator 9 2) m_num m_num PlusInfinity PlusInfinity = Some l /\
  sub [PlusInfinity] [PlusInfinity] = Some (true, Atomic PlusInfinity) /\ l <> [PlusInfinity].
Proof. exact infinity_refuted. Qed.
Print Assumptions C155_infinity_refuted.
(** and for quaternions: a difference is found, while the guard fails. *)
Theorem C155_quaternion_refuted : exists l, bae Minus (Operator 9 2) m_quat m_quat (m_quat 3) (m_quat 3) = Some l /\ found_result l <> [] /\
  exists s', app_ false Minus top q_start = Some (false, s').
Proof. exact expression_refuted. Qed.
Print Assumptions C155_quaternion_refuted.
(** Proved for two vectors of the same kind and dimension, wherever they are in the two
    objects, and for two finite numbers. *)
Theorem C155_vectors_partial : forall grown vec3 vec2 vec quat fuel root product quotient angle o f op q0 q1 v0 v1 t0 t1 k xs ys,
  opcodes vec3 vec2 vec quat -> plus_or_minus o = Some f -> k <> Quaternion -> 2 <= fuel ->
  shows anywhere anywhere q0 v0 t0 -> shows anywhere anywhere q1 v1 t1 -> getDescriptor v0 = I_PTR -> getDescriptor v1 = I_PTR ->
  vector_tree vec3 vec2 vec quat k t1 xs -> vector_tree vec3 vec2 vec quat k t0 ys -> length xs = length ys -> 3 + tsize t1 + tsize t0 <= limit ->
  exists l d, build_and_evaluate grown vec3 vec2 vec quat fuel root product quotient angle o op q0 q1 v0 v1 = Some l /\
    vector_at (fun _ _ => None) vec3 vec2 vec quat (list_memory (found_result l)) 1 (mkc Code 0) k (both f xs ys) d.
Proof. exact expression_partial. Qed.
Print Assumptions C155_vectors_partial.
Theorem C155_numbers_partial : forall grown vec3 vec2 vec quat fuel root product quotient angle o op q0 q1 v0 v1,
  isFloat v0 = true -> isFloat v1 = true -> v0 <> PlusInfinity -> v1 <> PlusInfinity ->
  (o = Over -> feqb (num v0) fzero = false) -> o <> Distance ->
  exists a, build_and_evaluate grown vec3 vec2 vec quat fuel root product quotient angle o op q0 q1 v0 v1 = Some [a] /\ std_of o [v1] [v0] = Some (true, Atomic a).
Proof. exact expression_numbers. Qed.
Print Assumptions C155_numbers_partial.
Example C155_example : shows anywhere anywhere m_vec (m_vec 3) (Bp_spec.Node (AObject 50 3) (map Leaf [f1; f2; f3])) /\
  vector_tree 50 51 52 53 Three (Bp_spec.Node (AObject 50 3) (map Leaf [f1; f2; f3])) [b1; b2; b3] /\
  bae Minus (Operator 9 2) m_vec m_vec (m_vec 3) (m_vec 3) = Some [Nil; AObject 50 3; 0%Z; 0%Z; 0%Z] /\ found_result [Nil; AObject 50 3; 0%Z; 0%Z; 0%Z] = [AObject 50 3; 0%Z; 0%Z; 0%Z].
Proof. split; [exact v_tree|]. split; [exact v_is|]. split; vm_compute; reflexivity. Qed.
