(** Vocabulary for the statements about instances. *)
From Verif Require Import Base Atom_model Bp_model Bp_spec Inst_model.
Local Open Scope nat_scope.

(** The times of the first fact are two variables of the facts; at most 256 variables
    (the indices given to [add_unbound_value] have 8 bits). *)
Definition ready (h : hmap) : Prop :=
  exists a b, fwd_after h = Z.of_nat a /\ fwd_before h = Z.of_nat b /\ a <> b /\
    first h <= a < length (vals h) /\ first h <= b < length (vals h) /\ length (vals h) <= 256.

(** The variables of the facts, save the two times, in order. *)
Definition exposed (h : hmap) : list nat :=
  filter (fun j => negb (Z.of_nat j =? fwd_after h)%Z && negb (Z.of_nat j =? fwd_before h)%Z)
    (seq (first h) (length (vals h) - first h)).

(** What the values of the map stand for; all entries are there. *)
Definition meant (fuel : nat) (h : hmap) (s : nat -> term) : Prop :=
  forall x, x < length (vals h) -> exists v, nth_error (vals h) x = Some (Some v) /\ stands fuel x v (s x).

(** The words of the set held by the member [k] of an object. *)
Definition elements (o : obj) (k : nat) : list Z :=
  words (word o) (place (word o k) + 1) (count (word o (place (word o k)))).

(** A word of an object means a term. *)
Definition word_means (o : obj) (w : Z) (t : term) : Prop :=
  exists tr, shows anywhere anywhere (word o) w tr /\ means free (refs o) tr t.

(** No word of raw data looks like an internal pointer or a variable. *)
Fixpoint quiet (t : tree) : Prop :=
  match t with
  | Leaf _ => True
  | Raw _ ws => Forall (fun w => getDescriptor w <> I_PTR /\ getDescriptor w <> VL_PTR) ws
  | Node _ ts => fold_right (fun t P => quiet t /\ P) True ts
  end.

(** The template of a composite state or model: its structure and what it says; no
    references in it. *)
Definition template (hlp : obj) (tr : tree) (t : term) : Prop :=
  getDescriptor (word hlp 1) = I_PTR /\ shows anywhere anywhere (word hlp) (word hlp 1) tr /\
  quiet tr /\ (forall l, means free l tr t).

(** Replace variables, save directly in the structures of head [ti]. *)
Fixpoint fill (ti : Z) (s : nat -> term) (in_ti : bool) (t : term) : term :=
  match t with
  | TVar x => if in_ti then TVar x else s x
  | TStr h ts => TStr h (map (fill ti s (h =? ti)%Z) ts)
  | _ => t
  end.

(** The variables of a term, [true]: directly in a structure of head [ti]. *)
Fixpoint vars (ti : Z) (in_ti : bool) (t : term) : list (nat * bool) :=
  match t with
  | TVar x => [(x, in_ti)]
  | TStr h ts => flat_map (vars ti (h =? ti)%Z) ts
  | _ => []
  end.

(** What a fact of an instance says. *)
Definition instance (fact opcode : Z) (hlp tpl : term) (args : list term) (wr : bool) (after before : term) : term :=
  TObj (AObject fact 5)
    [TObj (AObject opcode 5) [hlp; tpl; TStr (ASet (Z.of_nat (length args))) args; TAtom (Boolean wr); TAtom one];
     after; before; TAtom one; TAtom one].

(** A map knows a value for a variable: what a caller reads is no variable. *)
Definition knows (h : hmap) (x : nat) : Prop :=
  exists v, nth_error (vals h) x = Some (Some v) /\ v <> Unbound.

(** A map for the same pattern, with any values. *)
Definition alike (h h' : hmap) : Prop :=
  length (vals h) = length (vals h') /\ first h = first h' /\ fwd_after h = fwd_after h' /\ fwd_before h = fwd_before h'.

(** A map has a value, which is no wildcard, for a variable. *)
Definition definite (h : hmap) (x : nat) : Prop :=
  exists v, nth_error (vals h) x = Some (Some v) /\
    match v with
    | Unbound => False
    | AtomV a => getDescriptor a <> WILDCARD /\ getDescriptor a <> T_WILDCARD
    | _ => True
    end.

(** A map gives a variable this meaning. *)
Definition gives (fuel : nat) (h : hmap) (x : nat) (t : term) : Prop :=
  exists v, nth_error (vals h) x = Some (Some v) /\ stands fuel x v t.

(** The two times are structures. *)
Definition timed (h : hmap) : Prop :=
  forall z, z = fwd_after h \/ z = fwd_before h -> exists m, nth_error (vals h) (Z.to_nat z) = Some (Some (StructureV m)).

(** A word of the code, not raw data, is this variable. *)
Definition occurs (o : obj) (x : nat) : Prop :=
  exists k, starts o k /\ getDescriptor (word o k) = VL_PTR /\ place (word o k) = x.

(** No word of raw data looks like a variable. *)
Definition clear_code (o : obj) : Prop :=
  forall k, 1 <= k < size o -> getDescriptor (word o k) = VL_PTR -> starts o k.

(** The entries of a map: the variables [X], without value; no entry beyond the last of them. *)
Definition describes (vs : list (option value)) (X : nat -> Prop) : Prop :=
  (forall x, nth_error vs x = Some (Some Unbound) <-> X x) /\
  (forall x v, nth_error vs x = Some (Some v) -> v = Unbound) /\
  (forall n, length vs <= n <-> forall x, X x -> x < n).
