(* Vocabulary for the statements about guards. *)

From Coq Require Import List ZArith Bool Arith.
From Verif Require Import Gd_model.
Import ListNotations.

(* The value of an expression under bindings. *)
Inductive denotes (ops : nat -> list val -> option val) (s : env) : expr -> val -> Prop :=
  | denotes_var : forall x v, s x = Some v -> denotes ops s (Var x) v
  | denotes_lit : forall v, denotes ops s (Lit v) v
  | denotes_op : forall f args vs v,
      Forall2 (denotes ops s) args vs -> ops f vs = Some v -> denotes ops s (Op f args) v
  | denotes_str : forall k args vs,
      Forall2 (denotes ops s) args vs -> denotes ops s (Str k args) (VStr k vs).

(* A guard as a condition on bindings: a test has a value other than false; an
   assignment says that the variable has the value of the expression. *)
Definition satisfied (ops : nat -> list val -> option val) (s : env) (g : guard) : Prop :=
  match g with
  | Test e => exists v, denotes ops s e v /\ v <> VBool false
  | Assign x e => exists v, denotes ops s e v /\ s x = Some v
  end.

(* The variables assigned by guards, in order. *)
Fixpoint targets (gs : list guard) : list nat :=
  match gs with
  | [] => []
  | Test _ :: gs => targets gs
  | Assign x _ :: gs => x :: targets gs
  end.

(* x occurs in e, outside any literal structure. *)
Inductive operand (x : nat) : expr -> Prop :=
  | operand_var : operand x (Var x)
  | operand_op : forall f args a, In a args -> operand x a -> operand x (Op f args).

(* x occurs in e. *)
Inductive occurs (x : nat) : expr -> Prop :=
  | occurs_var : occurs x (Var x)
  | occurs_op : forall f args a, In a args -> occurs x a -> occurs x (Op f args)
  | occurs_str : forall k args a, In a args -> occurs x a -> occurs x (Str k args).

(* A literal without variables, whose operators, if any, give one-word values. *)
Definition one_word (v : val) : Prop :=
  match v with VFloat _ | VBool _ | VAtom _ => True | _ => False end.

Inductive ground (ops : nat -> list val -> option val) : expr -> Prop :=
  | ground_lit : forall v, ground ops (Lit v)
  | ground_op : forall f args,
      (forall vs v, ops f vs = Some v -> one_word v) -> ground ops (Op f args)
  | ground_str : forall k args, (forall a, In a args -> ground ops a) -> ground ops (Str k args).

(* A number or a structure. *)
Definition number_or_structure (v : val) : Prop :=
  match v with
  | VFloat _ | VTime _ | VDuration _ | VStr _ _ => True
  | _ => False
  end.

(* An expression whose value, if any, is a number, or a structure that an
   operator made, or a literal object whose parts are literals or operators that
   give one-word values. *)
Inductive definite (ops : nat -> list val -> option val) : expr -> Prop :=
  | definite_number : forall z, definite ops (Lit (VFloat z))
  | definite_op : forall f args,
      (forall vs v, ops f vs = Some v -> number_or_structure v) -> definite ops (Op f args)
  | definite_str : forall args,
      ground ops (Str KObject args) -> definite ops (Str KObject args).

Definition definite_assignments (ops : nat -> list val -> option val) (gs : list guard) : Prop :=
  forall x e, In (Assign x e) gs -> definite ops e.

(* Bound, or a template argument (of which there are [first]). *)
Definition given (first : nat) (s : env) (x : nat) : Prop :=
  x < first \/ s x <> None.

(* e is the expression of the first of the guards that assigns x. *)
Definition first_for (gs : list guard) (x : nat) (e : expr) : Prop :=
  exists l1 l2, gs = l1 ++ Assign x e :: l2 /\ ~ In x (targets l1).

(* x is given, or its first assignment uses operands that are obtainable. *)
Inductive obtainable (first : nat) (s : env) (gs : list guard) : nat -> Prop :=
  | obtainable_given : forall x, given first s x -> obtainable first s gs x
  | obtainable_assigned : forall x e,
      first_for gs x e ->
      (forall y, operand y e -> obtainable first s gs y) ->
      obtainable first s gs x.

(* Every operand of every guard is obtainable, save in the assignments of
   variables that are given. *)
Definition operands_obtainable (first : nat) (s : env) (gs : list guard) : Prop :=
  forall g, In g gs ->
  match g with
  | Test e => forall y, operand y e -> obtainable first s gs y
  | Assign x e => given first s x \/ forall y, operand y e -> obtainable first s gs y
  end.

(* The expression of a guard. *)
Definition body (g : guard) : expr :=
  match g with Test e => e | Assign _ e => e end.

(* The compiler writes an assignment only before an expression in parentheses or
   a set: r_comp/compiler.cpp:1667-1680. *)
Definition as_written (gs : list guard) : Prop :=
  forall x y, ~ In (Assign x (Var y)) gs.

(* A variable that guards assign is assigned before it is used. *)
Definition in_order (s : env) (gs : list guard) : Prop :=
  forall l1 g l2 x, gs = l1 ++ g :: l2 -> occurs x (body g) -> s x = None ->
  In x (targets gs) -> In x (targets l1).

(* The variables inside literal structures are all bound. *)
Definition literals_bound (s : env) (gs : list guard) : Prop :=
  forall g x, In g gs -> occurs x (body g) -> operand x (body g) \/ s x <> None.

(* The operators always have a value, other than false. *)
Definition never_failing (ops : nat -> list val -> option val) : Prop :=
  forall f vs, exists v, ops f vs = Some v /\ v <> VBool false.

(* No variable that is not given is assigned from itself, directly or through
   others: the first assignments can be ranked. *)
Definition ranked (first : nat) (s : env) (gs : list guard) (r : nat -> nat) : Prop :=
  forall x e y, first_for gs x e -> operand y e ->
  ~ given first s x -> ~ given first s y -> r y < r x.

(* The scan ends with answer b. *)
Definition scan_answers (first : nat) (s : env) (gs : list guard) (b : bool) : Prop :=
  exists n, forall m, n <= m -> scan_guards first s m gs = Some b.

(* The scan never ends. *)
Definition scan_endless (first : nat) (s : env) (gs : list guard) : Prop :=
  forall n, scan_guards first s n gs = None.

Definition time_bound (s : env) (x : nat) : Prop := exists t, s x = Some (VTime t).

(* Every test applies an operator. *)
Definition tests_apply_operators (gs : list guard) : Prop :=
  forall e, In (Test e) gs -> exists f args, e = Op f args.

(* Every assignment of x applies an operator that makes times. *)
Definition assigned_times (ops : nat -> list val -> option val) (gs : list guard) (x : nat) : Prop :=
  forall e, In (Assign x e) gs ->
  exists f args, e = Op f args /\ forall vs v, ops f vs = Some v -> exists t, v = VTime t.

(* The assignments of x use what is bound, and y. *)
Definition uses_only (s : env) (gs : list guard) (x y : nat) : Prop :=
  forall e z, In (Assign x e) gs -> occurs z e -> s z <> None \/ z = y.
