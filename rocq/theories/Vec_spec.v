(** What the theorems about operators on vectors say (C150 to C155). *)
From Verif Require Import Base Float32 Atom_model Op_model Bp_model Bp_spec Vec_model.
Local Open Scope nat_scope.

Section Reading.
Context (bound : nat -> nat -> option Z).

(** Following at most [n] pointers from [c] one gets to [d], whose word is not a pointer. *)
Inductive leads (m : memory) : nat -> context -> context -> Prop :=
| Here n c w : fetch bound m c = Some w ->
    getDescriptor w <> I_PTR -> getDescriptor w <> VL_PTR -> getDescriptor w <> VALUE_PTR -> leads m n c c
| Inside n c d w : fetch bound m c = Some w -> getDescriptor w = I_PTR ->
    leads m n (mkc (inside c) (place w)) d -> leads m (S n) c d
| Variable_ n c d w : fetch bound m c = Some w -> getDescriptor w = VL_PTR ->
    leads m n (mkc (Bound (place w)) 0) d -> leads m (S n) c d
| Value n c d w : fetch bound m c = Some w -> getDescriptor w = VALUE_PTR ->
    leads m n (mkc (Values (address_ m)) (place w)) d -> leads m (S n) c d.

(** There is the number [x] (its bits) at [c]. *)
Definition number_at (m : memory) (n : nat) (c : context) (x : Z) : Prop :=
  exists d w, leads m n c d /\ fetch bound m d = Some w /\ isFloat w = true /\ asFloat w = x.
(** The numbers [xs] are the children of [d]. *)
Definition numbers_at (m : memory) (n : nat) (d : context) (xs : list Z) : Prop :=
  forall i x, nth_error xs i = Some x -> number_at m n (child d (S i)) x.

(** The kinds of vectors. *)
Inductive kind := Three | Two | Any | Quaternion.
Context (vec3 vec2 vec quat : Z).
Definition opcode (k : kind) : Z := match k with Three => vec3 | Two => vec2 | Any => vec | Quaternion => quat end.
Definition dimension (k : kind) : option nat := match k with Three => Some 3 | Two => Some 2 | Any => None | Quaternion => Some 4 end.

(** At [c] there is a vector of kind [k] with components [xs]; [d] is where the components
    are. *)
Definition vector_at (m : memory) (n : nat) (c : context) (k : kind) (xs : list Z) (d : context) : Prop :=
  exists e w, leads m n c e /\ fetch bound m e = Some w /\ getDescriptor w = OBJECT /\ asOpcode w = opcode k /\
  numbers_at m n d xs /\
  match dimension k with
  | Some k => d = e /\ length xs = k
  | None => leads m n (child e 1) d /\ exists u, fetch bound m d = Some u /\ getDescriptor u = SET /\ getAtomCount u = Z.of_nat (length xs)
  end.
End Reading.

(** The memory without the word of index [here]. *)
Definition hide (here : nat) (m : memory) : memory :=
  mkm (fun i => if i =? here then None else code_ m i) (cells m) (capacity m) (address_ m).

(** [d] stays where it is while [k] words are added to the values. *)
Definition settled (k : nat) (m : memory) (d : context) : Prop :=
  match inside d with Values _ => length (cells m) + k <= capacity m | _ => True end.

(** The opcodes of the four kinds are distinct. *)
Definition opcodes (vec3 vec2 vec quat : Z) : Prop :=
  NoDup [vec3; vec2; vec; quat] /\ forall k, (0 <= opcode vec3 vec2 vec quat k < 4096)%Z.

(** Words added for a vector of kind [k] with [n] components. *)
Definition words_for (k : kind) (n : nat) : nat := match k with Any => 3 + n | _ => 1 + n end.

(** A number stored in an atom looses its last bit. *)
Definition stored (x : Z) : Z := (2 * (x / 2))%Z.
Fixpoint both (f : Z -> Z -> Z) (xs ys : list Z) : list Z :=
  match xs, ys with x :: xs, y :: ys => stored (f x y) :: both f xs ys | _, _ => [] end.

(** Arithmetic on the bits of float32. *)
Definition bits2 (f : spec_float -> spec_float -> spec_float) (x y : Z) : Z := bits_of_f32 (f (f32_of_bits x) (f32_of_bits y)).
Definition plus_or_minus (o : oper) : option (Z -> Z -> Z) :=
  match o with Plus => Some (bits2 fadd) | Minus => Some (bits2 fsub) | _ => None end.

(** The sum of the squares of the differences, in order; of the vectors of any dimension,
    from zero. *)
Fixpoint differences (xs ys : list Z) : list Z :=
  match xs, ys with x :: xs, y :: ys => let d := bits2 fsub x y in bits2 fmul d d :: differences xs ys | _, _ => [] end.
Definition total (k : kind) (l : list Z) : Z :=
  match k, l with
  | Any, l => fold_left (bits2 fadd) l 0%Z
  | _, a :: l => fold_left (bits2 fadd) l a
  | _, [] => 0%Z
  end.

(** What was there is still there: the old values are a prefix of the new ones, and only the
    word [here] of the code may change. *)
Definition kept_but (here : nat) (m m' : memory) : Prop :=
  (forall i, i <> here -> code_ m' i = code_ m i) /\ exists l, cells m' = cells m ++ l.

(** A structure that is a vector of kind [k] with components [xs]. *)
Definition vector_tree (vec3 vec2 vec quat : Z) (k : kind) (t : tree) (xs : list Z) : Prop :=
  exists h ws, getDescriptor h = OBJECT /\ asOpcode h = opcode vec3 vec2 vec quat k /\
  Forall (fun w => isFloat w = true) ws /\ xs = map asFloat ws /\
  match dimension k with
  | Some n => t = Bp_spec.Node h (map Leaf ws) /\ length ws = n
  | None => exists u, getDescriptor u = SET /\ t = Bp_spec.Node h [Bp_spec.Node u (map Leaf ws)]
  end.
(** A list of words as a memory. *)
Definition list_memory (l : list Z) : memory := mkm (nth_error l) [] 0 0.
