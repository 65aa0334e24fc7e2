(** Vocabulary of the statements about the model base. *)
From Verif Require Import Base Atom_model Mb_model.

Section Spec.
Context (o : ops) (thz : Z) (pack : tree -> tree).
(** A model equal to [m] is live (in use), or failed and remembered; [since t]: last
    compared to at time [t]. *)
Definition live (b : base) (m : mdl) : Prop := exists e, In e (white b) /\ equal o m (e_mdl e) = true.
Definition failed (b : base) (m : mdl) : Prop := exists e, In e (black b) /\ equal o m (e_mdl e) = true.
Definition failed_since (b : base) (m : mdl) (t : Z) : Prop := exists e, In e (black b) /\ equal o m (e_mdl e) = true /\ touch e = t.
(** The very model [k] is live. *)
Definition in_use (b : base) (k : mdl) : Prop := In k (map e_mdl (white b)).
(** What is asked of the users of the base: a model is not loaded as live and as
    failed; and packing the first model of a new pair does not make the second one
    equal to a failed one (they differ by the address of the first). *)
Definition regular_op (b : base) (x : op) : Prop :=
  match x with
  | LoadMdl m true _ => ~ failed b m
  | LoadMdl m false _ => ~ live b m
  | SubmitPair m0 m1 _ => ~ live b m0 -> ~ failed b (redirect m1 (as_tree m0)) -> ~ failed b (redirect m1 (pack (as_tree m0)))
  | _ => True
  end.
Fixpoint regular (b : base) (xs : list op) : Prop :=
  match xs with [] => True | x :: xs' => regular_op b x /\ regular (step o thz pack b x) xs' end.
(** The time of an operation. *)
Definition time_of (x : op) : option Z :=
  match x with
  | Submit _ now | SubmitPair _ _ now | Failure _ now | Trim now | LoadMdl _ _ now => Some now
  | Timeout _ => None
  end.
Definition not_before (t : Z) (x : op) : Prop := match time_of x with Some now => t <= now | None => True end.
Definition trims_before (t : Z) (x : op) : Prop := match x with Trim now => now < t | _ => True end.
(** Operations that end the life of [m]. *)
Definition ends (m : mdl) (x : op) : Prop :=
  match x with Failure m' _ | Timeout m' => equal o m m' = true | _ => False end.
(** The first model that an instance in a fact refers to, by the 10 low bits of its
    address. *)
Definition refers_alike (f g : fact) : Prop := Z.land (first_ref f) 0x3FF = Z.land (first_ref g) 0x3FF.
End Spec.
(** The template arguments of a model are not among its house keeping data (members 6
    to 10). *)
Definition args_apart (m : mdl) : Prop := asIndex (nth 1 (mcode m) 0) < 6 \/ 10 < asIndex (nth 1 (mcode m) 0).
(** Two models of the same content: same code but for the house keeping data, same
    kinds of facts, and payloads that are the same up to the addresses of what they
    refer to (except for the entities and ontology members). *)
Inductive alike : tree -> tree -> Prop :=
| alike_known a : alike (Known a) (Known a)
| alike_node a b c ls rs : Forall2 alike ls rs -> alike (Node a c ls) (Node b c rs).
Definition payload (f : fact) : tree := Node (p_addr f) (p_code f) (p_refs f).
Record same_content (a b : mdl) : Prop := {
  sc_length : length (mcode a) = length (mcode b);
  sc_code : forall i x y, (i < 6 \/ 10 < i)%nat -> nth_error (mcode a) i = Some x -> nth_error (mcode b) i = Some y -> x = y;
  sc_lhs : f_head (lhs a) = f_head (lhs b) /\ alike (payload (lhs a)) (payload (lhs b));
  sc_rhs : f_head (rhs a) = f_head (rhs b) /\ alike (payload (rhs a)) (payload (rhs b)) }.
