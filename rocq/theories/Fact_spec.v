(** Vocabulary for C17-C19, C47. *)
From Verif Require Import Base Float32 Atom_model Utils_model Match_model Match_spec Fact_model.
Local Open Scope nat_scope.

Section Spec.
Context (E : env).

(** A wildcard or a variable. *)
Definition unconstrained (a : Z) : Prop := wild a \/ getDescriptor a = VL_PTR.
(** With [same], a variable only stands for a variable. *)
Definition same_state (same : bool) (a b : Z) : Prop :=
  same = true -> wild a \/ wild b \/ (getDescriptor a = VL_PTR <-> getDescriptor b = VL_PTR).

(** Two objects agree up to wildcards, variables and tolerances. *)
Section Agree.
Context (same : bool).
Inductive agree_member : cobj -> nat -> cobj -> nat -> Prop :=
| agree_open l i r j a b : nth_error (code_of l) i = Some a -> nth_error (code_of r) j = Some b ->
    same_state same a b -> unconstrained a \/ unconstrained b -> agree_member l i r j
| agree_inner l i r j a b : nth_error (code_of l) i = Some a -> nth_error (code_of r) j = Some b ->
    getDescriptor a = I_PTR -> getDescriptor b = I_PTR ->
    agree_structure l (index a) r (index b) -> agree_member l i r j
| agree_ref l i r j a b x y : nth_error (code_of l) i = Some a -> nth_error (code_of r) j = Some b ->
    getDescriptor a = R_PTR -> getDescriptor b = R_PTR ->
    nth_error (refs_of l) (index a) = Some x -> nth_error (refs_of r) (index b) = Some y ->
    agree_object x y -> agree_member l i r j
| agree_atom l i r j a b : nth_error (code_of l) i = Some a -> nth_error (code_of r) j = Some b ->
    ~ unconstrained a -> ~ unconstrained b -> getDescriptor a <> I_PTR -> getDescriptor a <> R_PTR ->
    atoms_equal E a b -> agree_member l i r j
with agree_structure : cobj -> nat -> cobj -> nat -> Prop :=
| agree_time l i r j h t t' : nth_error (code_of l) i = Some h -> nth_error (code_of r) j = Some h ->
    getDescriptor h = TIMESTAMP -> GetInt64 (code_of l) (i + 1) = Some t -> GetInt64 (code_of r) (j + 1) = Some t' ->
    (Z.abs (t - t') < ttol E)%Z -> agree_structure l i r j
| agree_members l i r j h : nth_error (code_of l) i = Some h -> nth_error (code_of r) j = Some h ->
    getDescriptor h <> TIMESTAMP ->
    (forall k, 1 <= k <= arity h -> agree_member l (i + k) r (j + k)) -> agree_structure l i r j
with agree_object : nat -> nat -> Prop :=
(** entities, ontologies, models and composite states by identity, the others by their members *)
| agree_identity x o h : heap E x = Some o -> nth_error (code_of o) 0 = Some h -> by_identity E (asOpcode h) = true ->
    agree_object x x
| agree_content x y l r h : heap E x = Some l -> heap E y = Some r ->
    nth_error (code_of l) 0 = Some h -> nth_error (code_of r) 0 = Some h -> by_identity E (asOpcode h) = false ->
    1 <= arity h -> (forall k, 1 <= k <= arity h -> agree_member l k r k) -> agree_object x y.
End Agree.

(** A duration of [d] microseconds, below 2^31, at [i]; as written by SetDuration. *)
Definition short_duration_at (o : cobj) (i : nat) (d : Z) : Prop :=
  (0 <= d < 2 ^ 31)%Z /\ nth_error (code_of o) i = Some ADuration /\
  nth_error (code_of o) (i + 1) = Some 0%Z /\ nth_error (code_of o) (i + 2) = Some d.

(** The values of two (mk.val object attribute value) contradict each other. *)
Definition values_differ (l r : cobj) (a b : Z) : Prop :=
  (isFloat a = true /\ isFloat b = true /\ ~ atoms_equal E a b) \/
  (isFloat a = false /\ isFloat b = false /\
   ((getDescriptor a = NIL /\ getDescriptor b = R_PTR) \/ (getDescriptor a = R_PTR /\ getDescriptor b = NIL) \/
    (getDescriptor a = getDescriptor b /\ ~ wild a /\
     ((getDescriptor a = R_PTR /\ exists x y, nth_error (refs_of l) (index a) = Some x /\
         nth_error (refs_of r) (index b) = Some y /\ ~ agree_object false x y) \/
      (getDescriptor a = I_PTR /\ ~ agree_structure false l (index a) r (index b)) \/
      (getDescriptor a <> R_PTR /\ getDescriptor a <> I_PTR /\ a <> b))))).
Definition designates (o : cobj) (i : nat) (x : nat) : Prop :=
  exists a, nth_error (code_of o) i = Some a /\ nth_error (refs_of o) (index a) = Some x.
(** The same attribute of the same object has different values. *)
Definition contradicts (F : fact_ops) (x y : nat) : Prop :=
  exists l r h o at_ a b, heap E x = Some l /\ heap E y = Some r /\
    nth_error (code_of l) 0 = Some h /\ nth_error (code_of r) 0 = Some h /\ asOpcode h = op_mkval F /\
    designates l MK_VAL_OBJ o /\ designates r MK_VAL_OBJ o /\ designates l MK_VAL_ATTR at_ /\ designates r MK_VAL_ATTR at_ /\
    nth_error (code_of l) MK_VAL_VALUE = Some a /\ nth_error (code_of r) MK_VAL_VALUE = Some b /\ values_differ l r a b.

(** The opcodes are different from each other. *)
Definition distinct_ops (F : fact_ops) : Prop :=
  op_mkval F <> op_ent (ops E) /\ op_mkval F <> op_ont (ops E) /\ op_mkval F <> op_imdl F /\ op_mkval F <> op_icst F /\
  op_fact F <> op_antifact F /\ op_fact F <> op_mkval F /\ op_fact F <> op_icst F /\
  op_antifact F <> op_mkval F /\ op_antifact F <> op_icst F /\
  (0 <= op_fact F < 4096)%Z /\ (0 <= op_antifact F < 4096)%Z.

(** Facts. *)
Definition fact_of (F : fact_ops) (f : nat) (o : cobj) (pos : bool) (object : nat) (after before : Z) : Prop :=
  heap E f = Some o /\ nth_error (code_of o) 0 = Some (fact_head (if pos then op_fact F else op_antifact F)) /\
  nth_error (refs_of o) 0 = Some object /\
  get_after o = Ok after /\ get_before o = Ok before.
(** What the accessors read from the object [o]. *)
Definition reads (F : fact_ops) (o : cobj) (pos : bool) (object : nat) (after before : Z) : Prop :=
  nth_error (code_of o) 0 = Some (fact_head (if pos then op_fact F else op_antifact F)) /\
  nth_error (refs_of o) 0 = Some object /\ get_after o = Ok after /\ get_before o = Ok before.
(** Components of composite states are facts. *)
Definition components_are_facts (F : fact_ops) (components : nat -> list nat) : Prop :=
  forall x y o h, In y (components x) -> heap E y = Some o -> nth_error (code_of o) 0 = Some h ->
    asOpcode h = op_fact F \/ asOpcode h = op_antifact F.
Definition opposite (r : result) : result := match r with Positive => Negative | Negative => Positive | Failure => Failure end.
End Spec.
