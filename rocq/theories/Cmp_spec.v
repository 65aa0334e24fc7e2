(** Vocabulary for what is compiled and decompiled: parts of what is written, names and where
    they are defined and used, what a decompiled text shows. *)
From Verif Require Import Base Cmp_model.
Local Open Scope nat_scope.

(** [Sub t u]: [u] is part of [t]. *)
Inductive Sub : tree -> tree -> Prop :=
| sub_here t : Sub t t
| sub_node x c n p l t u : In t l -> Sub t u -> Sub (Node x c n p l) u
| sub_set x l t u : In t l -> Sub t u -> Sub (SetOf x l) u.

(** Definitions and uses of names, in the order they are written. *)
Inductive event := D (x : nat) | U (x : nat).
Definition label (x : option nat) : list event := match x with Some x => [D x] | None => [] end.
Fixpoint events (t : tree) : list event :=
  match t with
  | Var x => [D x]
  | Use x => [U x]
  | Node x _ _ _ l | SetOf x l => label x ++ flat_map events l
  | _ => []
  end.
Fixpoint defined (l : list event) : list nat :=
  match l with [] => [] | D x :: l => x :: defined l | U _ :: l => defined l end.
(** Each use comes after a definition, or is in [known]. *)
Definition Declared (known : nat -> Prop) (t : tree) : Prop :=
  forall a x b, events t = a ++ U x :: b -> known x \/ In (D x) a.

Definition ends_with_rest (l : list tree) : Prop := exists l', l = l' ++ [Rest].

(** Members as many as the class says, or up to [::] (but not [(ptn ::)]); sets below 256. *)
Definition Counted (t : tree) : Prop :=
  match t with
  | Node _ _ n p l => length l = n \/ (ends_with_rest l /\ (p = true -> 2 <= length l))
  | SetOf _ l => length l < 256
  | _ => True
  end.

(** Names defined within a member, or by its label. *)
Definition inside (t : tree) : list nat := match t with Var _ => [] | _ => defined (events t) end.
(** No member is just a name that an earlier member of the same structure has within itself. *)
Definition Late (t : tree) : Prop :=
  match t with
  | Node _ _ _ _ l | SetOf _ l =>
      forall i j a x, i < j -> nth_error l i = Some a -> nth_error l j = Some (Use x) -> ~ In x (inside a)
  | _ => True
  end.

(** [Shown rho t o]: [o] is [t], each name [x] being the one of the index [rho x]. *)
Inductive Shown (rho : nat -> nat) : tree -> out -> Prop :=
| S_val z : Shown rho (Val z) (OVal z)
| S_raw h l : Shown rho (Raw h l) (ORaw h (map W l))
| S_any i : Shown rho Any (OWild i)
| S_rest : Shown rho Rest ORest
| S_var x : Shown rho (Var x) (OWild (rho x))
| S_use x : Shown rho (Use x) (OUse (rho x))
| S_node x c n p l k l' : (forall y, x = Some y -> rho y = k) -> Forall2 (Shown rho) l l' -> Shown rho (Node x c n p l) (ONode k c l')
| S_set x l k l' : (forall y, x = Some y -> rho y = k) -> Forall2 (Shown rho) l l' -> Shown rho (SetOf x l) (OSet k l').

(** What is written is in order, [open] or not: members counted, [::] at the end, variables and
    wildcards in skeletons, labels not on [|[]]. *)
Inductive Ordered : bool -> tree -> Prop :=
| o_val b z : Ordered b (Val z)
| o_raw b h l : Ordered b (Raw h l)
| o_any : Ordered true Any
| o_rest : Ordered true Rest
| o_var x : Ordered true (Var x)
| o_use b x : Ordered b (Use x)
| o_node b x c n p l : (length l = n \/ (length l <= n /\ ends_with_rest l)) ->
    (forall k t, nth_error l k = Some t -> Ordered (b || (p && (k =? 0))) t) ->
    (forall k, nth_error l k = Some Rest -> S k = length l) -> Ordered b (Node x c n p l)
| o_set b x l : (x = None \/ l <> []) -> (forall t, In t l -> Ordered b t) ->
    (forall k, nth_error l k = Some Rest -> S k = length l) -> Ordered b (SetOf x l).

(** No set ends with [::]. *)
Definition NoRest (t : tree) : Prop := match t with SetOf _ l => ~ In Rest l | _ => True end.
