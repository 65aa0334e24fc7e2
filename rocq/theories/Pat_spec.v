(** Vocabulary for patterns and their variables: patterns as trees, inputs that conform to
    them, paths from the head of a pattern to a variable. *)
From Verif Require Import Base Pat_model.
Local Open Scope nat_scope.

(** A pattern: anything, a constant, a given object (with its content), a structure. *)
Inductive tree := TAny | TLeaf (z : Z) | TObj (o : nat) (t : tree) | TNode (k : Z) (l : list tree).

(** A pointer in an object does not lead to the head of that object. *)
Definition inner (c : cursor) (i : nat) : Prop := match c with Stem _ => True | Ref _ _ => i <> 0 end.

(** An object begins with a head. *)
Definition Headed (w : world) (o : nat) : Prop := exists k n, word_of w o 0 = Some (Head k n).

(** [Reads w p c t]: what is written at [c] is the pattern [t].  A variable that is used again
    stands for anything. *)
Inductive Reads (w : world) (p : list word) : cursor -> tree -> Prop :=
| R_wild c : fetch w p c = Some Wild -> Reads w p c TAny
| R_tail c : fetch w p c = Some Tail -> Reads w p c TAny
| R_leaf c z : fetch w p c = Some (Leaf z) -> Reads w p c (TLeaf z)
| R_ptr c i t : fetch w p c = Some (Ip i) -> inner c i -> Reads w p (move c i) t -> Reads w p c t
| R_ref c r o t : fetch w p c = Some (Rp r) -> reference_of w (object_of w c) r = Some o ->
    Headed w o -> Reads w p (Ref o 0) t -> Reads w p c (TObj o t)
| R_again c i : fetch w p c = Some (Vl i) -> inner c i -> fetch w p (move c i) = Some Wild -> Reads w p c TAny
| R_arg k i t : fetch w p (Stem k) = Some (Gp i) -> i <> 0 -> Reads w p (Ref (instance w) i) t -> Reads w p (Stem k) t
| R_node c k l : fetch w p c = Some (Head k (length l)) ->
    (forall j t, nth_error l j = Some t -> Reads w p (child c (S j)) t) -> Reads w p c (TNode k l).

(** [Lands w o i o' i']: the pointers from the word [i] of the object [o] end at [o'], [i']. *)
Inductive Lands (w : world) : nat -> nat -> nat -> nat -> Prop :=
| L_here o i v : word_of w o i = Some v ->
    match v with Leaf _ | Wild | Tail | Head _ _ => True | _ => False end -> Lands w o i o i
| L_in o i k o' i' : word_of w o i = Some (Ip k) \/ word_of w o i = Some (Vl k) -> Lands w o k o' i' -> Lands w o i o' i'
| L_ref o i r o' : word_of w o i = Some (Rp r) -> reference_of w o r = Some o' -> Lands w o i o' 0.

(** [Fits w o i t]: what is at the word [i] of [o] conforms to [t].  A given object: that object,
    or what is written in place (not an object) and has the same content. *)
Inductive Fits (w : world) : nat -> nat -> tree -> Prop :=
| F_any o i : Fits w o i TAny
| F_leaf o i z : word_of w o i = Some (Leaf z) -> Fits w o i (TLeaf z)
| F_obj o t : Fits w o 0 (TObj o t)
| F_place o o' i t : Fits w o' (S i) t -> Fits w o' (S i) (TObj o t)
| F_node o i k l : word_of w o i = Some (Head k (length l)) ->
    (forall j t, nth_error l j = Some t -> exists o' i', Lands w o (i + S j) o' i' /\ Fits w o' i' t) ->
    Fits w o i (TNode k l).

(** [At p k path v]: [path], member after member, leads from the structure at [k] of the
    pattern to the variable at [v]. *)
Inductive At (p : list word) : nat -> list nat -> nat -> Prop :=
| at_last k s n j : nth_error p k = Some (Head s n) -> 1 <= j <= n ->
    (forall x, 1 <= x < j -> nth_error p (k + x) <> Some Tail) ->
    nth_error p (k + j) = Some Wild -> At p k [j] (k + j)
| at_in k s n j i path v : nth_error p k = Some (Head s n) -> 1 <= j <= n ->
    (forall x, 1 <= x < j -> nth_error p (k + x) <> Some Tail) ->
    nth_error p (k + j) = Some (Ip i) -> At p i path v -> At p k (j :: path) v.

(** [Follow w o i path o' i']: the same path from the structure at [i] of the object [o] leads
    to the word [i'] of [o']. *)
Inductive Follow (w : world) : nat -> nat -> list nat -> nat -> nat -> Prop :=
| f_last o i j : Follow w o i [j] o (i + j)
| f_in o i j s path o' i' : word_of w o (i + j) = Some (Ip s) -> Follow w o s path o' i' -> Follow w o i (j :: path) o' i'
| f_ref o i j r o1 path o' i' : word_of w o (i + j) = Some (Rp r) -> reference_of w o r = Some o1 ->
    Follow w o1 0 path o' i' -> Follow w o i (j :: path) o' i'.

(** [Laid p k F]: the structure at [k] and the structures in it take the words [F] of the code
    (each as often as it is used). *)
Inductive Laid (p : list word) : nat -> list nat -> Prop :=
| laid k s n F : nth_error p k = Some (Head s n) -> Members p (S k) n F -> Laid p k (k :: F)
with Members (p : list word) : nat -> nat -> list nat -> Prop :=
| members_none m : Members p m 0 []
| members_tail m n : nth_error p m = Some Tail -> Members p m (S n) [m]
| members_in m n i F G : nth_error p m = Some (Ip i) -> Laid p i F -> Members p (S m) n G -> Members p m (S n) (m :: F ++ G)
| members_word m n v G : nth_error p m = Some v -> v <> Tail -> (forall i, v <> Ip i) -> Members p (S m) n G ->
    Members p m (S n) (m :: G).

(** Indices within their bits: 8 for inputs and words of the program, 12 for words of objects;
    and the references that are used are there. *)
Definition Small (w : world) (p : list word) : Prop :=
  length p <= 256 /\ length (inputs w) <= 256 /\
  (forall o b, heap w o = Some b -> length (code b) <= 4096) /\
  (forall o i r, word_of w o i = Some (Rp r) -> reference_of w o r <> None).

(** The head of a time (atom.h:150), and a time of 64 bits as the two words of its code, the high
    one first (r_code/utils.h:149-152). *)
Definition time_words (t : Z) : list word := [Head 417333248 2; decode (t / 2 ^ 32); decode (t mod 2 ^ 32)].
