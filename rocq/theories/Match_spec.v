(** Vocabulary for C13-C16. *)
From Verif Require Import Base Float32 Atom_model Utils_model Match_model.
Local Open Scope nat_scope.

(** The variable [k] has the value [v]. *)
Definition value_at (m : bmap) (k : nat) (v : value) : Prop := nth_error (vals m) k = Some (Some v).
Definition bound (v : value) : Prop := match v with Unbound _ => False | _ => True end.
(** The variable [k] holds the time [t]. *)
Definition time_of (m : bmap) (k : nat) (t : Z) : Prop :=
  exists h s, value_at m k (StructV (h :: s)) /\ getDescriptor h = TIMESTAMP /\ GetInt64 (h :: s) 1 = Some t.

(** Each unbound value knows its own position; this is how maps are initialised
    ([add_unbound_value]) and copied. *)
Definition own (m : bmap) : Prop := forall k id, value_at m k (Unbound id) -> id = k.

(** Nothing that had a value has changed. *)
Definition keeps (m m' : bmap) : Prop :=
  length (vals m') = length (vals m) /\
  forall k v, value_at m k v -> bound v -> value_at m' k v.
(** Nothing that had a value has changed, except that a time may have become another time. *)
Definition keeps_but_times (m m' : bmap) : Prop :=
  length (vals m') = length (vals m) /\
  forall k v, value_at m k v -> bound v -> value_at m' k v \/
    exists t t', time_of m k t /\ time_of m' k t'.

Section Spec.
Context (E : env).

(** Two numbers are the same, or the magnitude of their difference is below the tolerance. *)
Definition close (l r : spec_float) : Prop :=
  feqb l r = true \/ flt (SFabs (fsub l r)) (ftol E) = true.
(** Numbers equal up to the tolerance, other atoms equal. *)
Definition atoms_equal (a b : Z) : Prop :=
  a = b \/ (isFloat a = true /\ isFloat b = true /\
            close (f32_of_bits (asFloat a)) (f32_of_bits (asFloat b))).

Definition wild (a : Z) : Prop := getDescriptor a = WILDCARD \/ getDescriptor a = T_WILDCARD.

(** [s] holds at [j] the same words as [c] at [i], up to the position of inner structures. *)
Inductive copy_of (c : list Z) : nat -> list Z -> nat -> Prop :=
| copy_struct i s j h :
    nth_error c i = Some h -> (forall k, 0 <= k <= arity h -> copy_word c (i + k) s (j + k)) ->
    copy_of c i s j
with copy_word (c : list Z) : nat -> list Z -> nat -> Prop :=
| copy_atom i s j a : nth_error c i = Some a -> getDescriptor a <> I_PTR -> nth_error s j = Some a ->
    copy_word c i s j
| copy_inner i s j a b : nth_error c i = Some a -> getDescriptor a = I_PTR ->
    nth_error s j = Some b -> getDescriptor b = I_PTR -> copy_of c (index a) s (index b) ->
    copy_word c i s j.

(** The object [o], at [i], equals the pattern [p], at [j], once the variables of
    the pattern are replaced by their values in [m]. *)
Section Same.
Context (m : bmap).
Inductive same_member : cobj -> nat -> cobj -> nat -> Prop :=
(** the object leaves this member open *)
| same_open o i p j a : nth_error (code_of o) i = Some a -> wild a \/ getDescriptor a = VL_PTR -> same_member o i p j
(** the pattern accepts anything *)
| same_any o i p j b : nth_error (code_of p) j = Some b -> wild b -> same_member o i p j
(** a variable *)
| same_variable o i p j b v : nth_error (code_of p) j = Some b -> getDescriptor b = VL_PTR ->
    value_at m (index b) v -> same_value o i v -> same_member o i p j
| same_inner o i p j a b : nth_error (code_of o) i = Some a -> nth_error (code_of p) j = Some b ->
    getDescriptor a = I_PTR -> getDescriptor b = I_PTR ->
    same_structure o (index a) p (index b) -> same_member o i p j
| same_reference o i p j a b r r' : nth_error (code_of o) i = Some a -> nth_error (code_of p) j = Some b ->
    getDescriptor a = R_PTR -> getDescriptor b = R_PTR ->
    nth_error (refs_of o) (index a) = Some r -> nth_error (refs_of p) (index b) = Some r' ->
    same_object r r' -> same_member o i p j
| same_atom o i p j a b : nth_error (code_of o) i = Some a -> nth_error (code_of p) j = Some b ->
    getDescriptor a <> I_PTR -> getDescriptor a <> R_PTR -> atoms_equal a b -> same_member o i p j
with same_structure : cobj -> nat -> cobj -> nat -> Prop :=
| same_time o i p j h t t' : nth_error (code_of o) i = Some h -> nth_error (code_of p) j = Some h ->
    getDescriptor h = TIMESTAMP -> GetInt64 (code_of o) (i + 1) = Some t -> GetInt64 (code_of p) (j + 1) = Some t' ->
    (Z.abs (t - t') < ttol E)%Z -> same_structure o i p j
| same_members o i p j h : nth_error (code_of o) i = Some h -> nth_error (code_of p) j = Some h ->
    (forall k, 1 <= k <= arity h -> same_member o (i + k) p (j + k)) -> same_structure o i p j
with same_object : nat -> nat -> Prop :=
| same_self r : same_object r r
| same_content r r' o p h : heap E r = Some o -> heap E r' = Some p ->
    nth_error (code_of o) 0 = Some h -> nth_error (code_of p) 0 = Some h ->
    (forall k, 1 <= k <= arity h -> same_member o k p k) -> same_object r r'
with same_value : cobj -> nat -> value -> Prop :=
| value_atom o i a b : nth_error (code_of o) i = Some a -> atoms_equal a b -> same_value o i (AtomV b)
| value_copy o i a s : nth_error (code_of o) i = Some a -> getDescriptor a = I_PTR ->
    copy_of (code_of o) (index a) s 0 -> same_value o i (StructV s)
| value_structure o i a s : nth_error (code_of o) i = Some a -> getDescriptor a = I_PTR ->
    same_structure o (index a) (mkcobj s []) 0 -> same_value o i (StructV s)
(** the member designates the reference [r]; that the member is a reference is
    not required (see C14_object_value_refuted) *)
| value_object o i a r r' : nth_error (code_of o) i = Some a -> nth_error (refs_of o) (index a) = Some r ->
    same_object r r' -> same_value o i (ObjV r').
End Same.

(** No pattern uses (ti : :), whose variables are narrowed instead of compared. *)
Definition no_ti (l : list Z) : Prop := Forall (fun a => a <> ti_atom E) l.
Definition heap_no_ti : Prop := forall r o, heap E r = Some o -> no_ti (code_of o).
Definition map_no_ti (m : bmap) : Prop := forall k s, value_at m k (StructV s) -> no_ti s.

(** Histories of matches. *)
Inductive op := MatchObject (object pattern : nat)
              | MatchFact (lenient : bool) (fact pattern : nat) (after before : nat).
Definition run_op (fuel : nat) (m : bmap) (x : op) : outcome bmap :=
  match x with
  | MatchObject o p => do r <- match_object E (match_ E fuel) m o p; Ok (snd r)
  | MatchFact l o p a b => do r <- match_fact E fuel l m o p a b; Ok (snd r)
  end.
Fixpoint run (fuel : nat) (m : bmap) (l : list op) : outcome bmap :=
  match l with [] => Ok m | x :: l' => do m1 <- run_op fuel m x; run fuel m1 l' end.
Definition object_op (x : op) : Prop := match x with MatchObject _ _ => True | _ => False end.
End Spec.

(** Every structure of an object of the heap fits the 12-bit index of an inner
    pointer once it is copied on its own. *)
Definition structures_fit (E : env) : Prop :=
  forall r o fuel i s n, heap E r = Some o -> copy_structure fuel (code_of o) [] 0 i = Ok (s, n) -> (Z.of_nat n <= 4096)%Z.

(** ** Abstraction *)
(** No null value. *)
Definition full (m : bmap) : Prop := Forall (fun v => v <> None) (vals m).
(** The first value of the map for which [P] holds is that of the variable [k]. *)
Definition first_with (m : bmap) (P : value -> Prop) (k : nat) : Prop :=
  (exists v, value_at m k v /\ P v) /\ forall j v, j < k -> value_at m j v -> ~ P v.
Definition none_with (m : bmap) (P : value -> Prop) : Prop := forall j v, value_at m j v -> ~ P v.
Definition holds_atom (E : env) (a : Z) (v : value) : Prop := exists b, v = AtomV b /\ atoms_equal E b a.
Definition holds_object (o : nat) (v : value) : Prop := v = ObjV o.

(** Histories of abstractions. *)
Inductive absop := AbsAtom (a : Z) | AbsObject (o : nat) | AbsStructure (c : list Z) (i : nat) (first : Z).
Definition abs_op (E : env) (fuel : nat) (m : bmap) (x : absop) : outcome (Z * bmap) :=
  match x with
  | AbsAtom a => get_atom_variable E m a
  | AbsObject o => get_object_variable m o
  | AbsStructure c i f => get_structure_variable E fuel m c i f
  end.
Fixpoint abs_run (E : env) (fuel : nat) (m : bmap) (l : list absop) : outcome bmap :=
  match l with [] => Ok m | x :: l' => do r <- abs_op E fuel m x; abs_run E fuel (snd r) l' end.
Definition empty_map : bmap := mkmap [] 0.

(** ** Counting the variables without a value *)
Definition is_unbound_slot (v : option value) : bool := match v with Some (Unbound _) => true | _ => false end.
Definition unbound_count (m : bmap) : nat := length (filter is_unbound_slot (vals m)).
Definition counted (m : bmap) : Prop := unbound m = Z.of_nat (unbound_count m).
(** The counter is a uint32. *)
Definition small (m : bmap) : Prop := (Z.of_nat (length (vals m)) < 2 ^ 32)%Z.
