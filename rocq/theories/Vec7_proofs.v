(** Witnesses for the operators on vectors (C150 to C155). *)
From Verif Require Import Base Float32 Atom_model Op_model Bp_model Bp_spec Vec_model Vec_spec.
Local Open Scope nat_scope.

(** 1.0, 2.0, 3.0 *)
Definition f1 : Z := Float 1065353216.
Definition f2 : Z := Float 1073741824.
Definition f3 : Z := Float 1077936128.
Definition b1 : Z := 1065353216.
Definition b2 : Z := 1073741824.
Definition b3 : Z := 1077936128.
Definition nowhere : nat -> nat -> option Z := fun _ _ => None.
Definition start (code values : list Z) (n : nat) : state := mks (mkm (nth_error code) values n 0) [].
Definition double (n : nat) : nat := 2 * n.
Definition app_ (expr : bool) := apply_op double nowhere expr 0 50 51 52 53 5 (fun x => x) (fun p _ => p) (fun p _ => p) (fun _ _ => b1).
Definition vec_at := vector_at nowhere 50 51 52 53.
Definition top : context := mkc Code 0.

Lemma ops : opcodes 50 51 52 53.
Proof.
  split; [|intros []; cbn; lia]. repeat (apply NoDup_cons; [intros H; cbn in H; intuition discriminate|]). apply NoDup_nil.
Qed.

Ltac here := eapply Here; [reflexivity|discriminate|discriminate|discriminate].
Ltac follow := first [here | eapply Inside; [reflexivity|reflexivity|follow] | eapply Value; [reflexivity|reflexivity|follow]].
Ltac components := let i := fresh in let x := fresh in let E := fresh in
  intros i x E; repeat (destruct i as [|i]; [injection E as <-; eexists _, _; split; [follow|repeat split; reflexivity]|]); destruct i; discriminate.
Ltac plain := eexists _, _; split; [follow|]; split; [reflexivity|]; split; [reflexivity|]; split; [reflexivity|]; split; [components|split; reflexivity].

(** ** Quaternions *)
Definition q_code : list Z := [Operator 9 2; IPointer 3; IPointer 8; AObject 53 4; f1; f2; f3; f1; AObject 53 4; f1; f1; f1; f1].
Definition q_start : state := start q_code [] 128.
Definition hq : memory := hide 0 (mem q_start).
Lemma q_left : vec_at hq 2 (child top 1) Quaternion [b1; b2; b3; b1] (mkc Code 3).
Proof. plain. Qed.
Lemma q_right : vec_at hq 2 (child top 2) Quaternion [b1; b1; b1; b1] (mkc Code 8).
Proof. plain. Qed.
Lemma quaternion_refuted : exists s xs ys d e, opcodes 50 51 52 53 /\
  vec_at (hide 0 (mem s)) 2 (child top 1) Quaternion xs d /\ vec_at (hide 0 (mem s)) 2 (child top 2) Quaternion ys e /\
  inside d = Code /\ inside e = Code /\ length (cells (mem s)) + 10 <= capacity (mem s) /\
  forall o, o = Plus \/ o = Minus \/ o = Distance -> exists s', app_ false o top s = Some (false, s') /\ fetch nowhere (mem s') top = Some Nil.
Proof.
  exists q_start, [b1; b2; b3; b1], [b1; b1; b1; b1], (mkc Code 3), (mkc Code 8). split; [exact ops|]. split; [exact q_left|]. split; [exact q_right|].
  split; [reflexivity|]. split; [reflexivity|]. split; [cbn; lia|]. intros o H.
  destruct o; try (exfalso; intuition discriminate); (eexists; split; [vm_compute; reflexivity|reflexivity]).
Qed.
Definition n_code : list Z := [Operator 9 2; IPointer 3; f2; AObject 53 4; f1; f2; f3; f1].
Lemma scale_refuted : exists s xs d, opcodes 50 51 52 53 /\
  vec_at (hide 0 (mem s)) 2 (child top 1) Quaternion xs d /\ number_at nowhere (hide 0 (mem s)) 2 (child top 2) b2 /\
  forall o, o = Times \/ o = Over -> exists s', app_ false o top s = Some (false, s') /\ fetch nowhere (mem s') top = Some Nil.
Proof.
  exists (start n_code [] 128), [b1; b2; b3; b1], (mkc Code 3). split; [exact ops|]. split; [plain|]. split; [eexists _, _; split; [follow|repeat split; reflexivity]|].
  intros o H. destruct o; try (exfalso; intuition discriminate); (eexists; split; [vm_compute; reflexivity|reflexivity]).
Qed.

(** ** The array of values moves *)
Definition v_cells : list Z := [AObject 50 3; f1; f2; f3; AObject 50 3; f1; f1; f1].
Definition v_start (room : nat) : state := start [Operator 9 2; ValuePointer 0; ValuePointer 4] v_cells room.
Lemma v_left room : vec_at (hide 0 (mem (v_start room))) 2 (child top 1) Three [b1; b2; b3] (mkc (Values 0) 0).
Proof. plain. Qed.
Lemma v_right room : vec_at (hide 0 (mem (v_start room))) 2 (child top 2) Three [b1; b1; b1] (mkc (Values 0) 4).
Proof. plain. Qed.
Lemma freed_refuted : exists s xs ys d e, opcodes 50 51 52 53 /\
  vec_at (hide 0 (mem s)) 2 (child top 1) Three xs d /\ vec_at (hide 0 (mem s)) 2 (child top 2) Three ys e /\
  length (cells (mem s)) <= capacity (mem s) /\ app_ false Plus top s = None.
Proof.
  exists (v_start 8), [b1; b2; b3], [b1; b1; b1], (mkc (Values 0) 0), (mkc (Values 0) 4).
  split; [exact ops|]. split; [apply v_left|]. split; [apply v_right|]. split; [cbn; lia|vm_compute; reflexivity].
Qed.

(** ** Words that look like vectors *)
Definition d_code : list Z := [Operator 9 2; Device 0 50 1; Device 0 50 2; f1; f2; f3].
Lemma device_refuted : exists s a b, fetch nowhere (mem s) (child top 1) = Some a /\ fetch nowhere (mem s) (child top 2) = Some b /\
  getDescriptor a = DEVICE /\ getDescriptor b = DEVICE /\ exists s', app_ false Plus top s = Some (true, s').
Proof. exists (start d_code [] 128), (Device 0 50 1), (Device 0 50 2). repeat split. eexists. vm_compute. reflexivity. Qed.

(** ** Expressions on two facts *)
Definition bae := build_and_evaluate double 50 51 52 53 5 (fun x => x) (fun p _ => p) (fun p _ => p) (fun _ _ => b1).
(** A marker whose value is a vector. *)
Definition marker (l : list Z) : Bp_model.mem := fun i => nth i l UndefinedAtom.
Definition m_vec : Bp_model.mem := marker [Atom_model.Marker 20 3; RPointer 0; RPointer 1; IPointer 4; AObject 50 3; f1; f2; f3].
Definition m_num : Bp_model.mem := marker [Atom_model.Marker 20 3; RPointer 0; RPointer 1; f2].
Definition g_code : list Z := [Operator 9 2; IPointer 3; f2; AObject 50 3; f1; f2; f3].
Lemma mixed_refuted : exists l, bae Times (Operator 9 2) m_num m_vec (m_num 3) (m_vec 3) = Some l /\ found_result l = [] /\
  exists s', app_ false Times top (start g_code [] 128) = Some (true, s') /\ exists d, vec_at (mem s') 1 top Three [b2; 1082130432%Z; 1086324736%Z] d.
Proof.
  eexists. split; [vm_compute; reflexivity|]. split; [vm_compute; reflexivity|]. eexists. split; [vm_compute; reflexivity|]. exists (mkc (Values 0) 0). plain.
Qed.
Lemma infinity_refuted : exists l, bae Minus (Operator 9 2) m_num m_num PlusInfinity PlusInfinity = Some l /\
  sub [PlusInfinity] [PlusInfinity] = Some (true, Atomic PlusInfinity) /\ l <> [PlusInfinity].
Proof. eexists. split; [vm_compute; reflexivity|]. split; [vm_compute; reflexivity|discriminate]. Qed.
Definition m_quat : Bp_model.mem := marker [Atom_model.Marker 20 3; RPointer 0; RPointer 1; IPointer 4; AObject 53 4; f1; f2; f3; f1].
Lemma expression_refuted : exists l, bae Minus (Operator 9 2) m_quat m_quat (m_quat 3) (m_quat 3) = Some l /\ found_result l <> [] /\
  exists s', app_ false Minus top q_start = Some (false, s').
Proof. eexists. split; [vm_compute; reflexivity|]. split; [discriminate|]. eexists. vm_compute. reflexivity. Qed.

(** ** Examples *)
Definition x_code : list Z := [Operator 9 2; IPointer 3; ValuePointer 1; AObject 52 1; IPointer 5; ASet 2; f1; f2].
Definition x_start : state := start x_code [Nil; AObject 52 1; IPointer 3; ASet 2; f3; f3] 128.
Lemma x_left : vec_at (hide 0 (mem x_start)) 2 (child top 1) Any [b1; b2] (mkc Code 5).
Proof.
  eexists _, _. split; [follow|]. split; [reflexivity|]. split; [reflexivity|]. split; [reflexivity|]. split; [components|].
  split; [follow|]. eexists. split; [reflexivity|]. split; reflexivity.
Qed.
Lemma x_right : vec_at (hide 0 (mem x_start)) 2 (child top 2) Any [b3; b3] (mkc (Values 0) 3).
Proof.
  eexists _, _. split; [follow|]. split; [reflexivity|]. split; [reflexivity|]. split; [reflexivity|]. split; [components|].
  split; [follow|]. eexists. split; [reflexivity|]. split; reflexivity.
Qed.
Lemma v_tree : shows anywhere anywhere m_vec (m_vec 3) (Bp_spec.Node (AObject 50 3) (map Leaf [f1; f2; f3])).
Proof.
  change (AObject 50 3) with (m_vec (place (m_vec 3))). apply shows_node; try reflexivity; try discriminate; try (intros; exact I).
  repeat (apply Forall2_cons; [apply shows_leaf; discriminate|]). apply Forall2_nil.
Qed.
Lemma v_is : vector_tree 50 51 52 53 Three (Bp_spec.Node (AObject 50 3) (map Leaf [f1; f2; f3])) [b1; b2; b3].
Proof.
  exists (AObject 50 3), [f1; f2; f3]. split; [reflexivity|]. split; [reflexivity|]. split; [repeat (apply Forall_cons; [reflexivity|]); apply Forall_nil|]. split; [reflexivity|]. split; reflexivity.
Qed.
