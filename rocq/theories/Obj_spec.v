(** Vocabulary of the statements about objects. *)
From Verif Require Import Base Float32 Atom_model CellList_model Obj_model.

(** ** Equality and hashing *)

(** The cached hash, if any, is that of the present content. *)
Definition fresh_hash (o : obj) : Prop := hash_value o = 0 \/ compute_hash o = Some (hash_value o).

(** Small enough for the sizes to fit in the hash. *)
Definition small (o : obj) : Prop := (0 < length (code o) < 4096 /\ length (refs o) < 256)%nat.

Definition same_hash (a b : obj) : Prop := exists h, option_map fst (hash a) = Some h /\ option_map fst (hash b) = Some h.

(** What equality should mean: for an entity, being the same object; for another
    object, same atoms and same referred objects. *)
Definition is_ent (ent_opcode : Z) (o : obj) : Prop := exists a c, code o = a :: c /\ asOpcode a = ent_opcode.
Definition same_object (ent_opcode : Z) (a b : obj) : Prop :=
  (is_ent ent_opcode a \/ is_ent ent_opcode b -> ident a = ident b) /\
  (~ is_ent ent_opcode a -> ~ is_ent ent_opcode b -> code a = code b /\ refs a = refs b).

(** ** The propagation threshold *)

Inductive request := Mod (member : nat) (v : spec_float) | SetTo (member : nat) (v : spec_float).
Definition request_on (r : request) : nat := match r with Mod i _ | SetTo i _ => i end.
Definition do_request (c : list Z) (r : request) : option (list Z) :=
  match r with Mod i v => obj_mod c i v | SetTo i v => obj_set c i v end.
Fixpoint do_requests (c : list Z) (rs : list request) : option (list Z) :=
  match rs with
  | [] => Some c
  | r :: rs' => match do_request c r with Some c' => do_requests c' rs' | None => None end
  end.

(** A number between 0 and 1 (not a NaN). *)
Definition in_unit (f : spec_float) : Prop := fle fzero f = true /\ fle f fone = true.

(** A request that a caller may reasonably make: a modification by a number, or
    setting to a number between 0 and 1. *)
Definition sensible (r : request) : Prop :=
  match r with
  | Mod _ v => f32_valid v = true /\ v <> S754_nan
  | SetTo _ v => f32_valid v = true /\ in_unit v
  end.

(** The threshold (the last of the members counted by the first atom) is also
    the last atom of the code: no member is a structure of its own. *)
Definition flat (c : list Z) : Prop := exists a c', c = a :: c' /\ getAtomCount a = Z.of_nat (length c').
Definition threshold_last (c : list Z) : Prop := flat c /\ (1 < length c)%nat.

(** ** Identifiers and storage *)

Inductive op := Bind (o : nat) | Invalidate (o : nat).
Definition run_op (m : memory) (x : op) : option memory :=
  match x with Bind o => bind m o | Invalidate o => invalidate m o end.
Fixpoint run (m : memory) (ops : list op) : option memory :=
  match ops with
  | [] => Some m
  | x :: ops' => match run_op m x with Some m' => run m' ops' | None => None end
  end.

(** A memory before loading: nothing stored, last_oid_ = -1. *)
Definition start (m : memory) : Prop :=
  last_oid m = 0xFFFFFFFF /\ objects m = @empty nat /\ forall o, storage (ents m o) = None /\ invalidated (ents m o) = false.

Definition bound (ops : list op) : list nat :=
  flat_map (fun x => match x with Bind o => [o] | Invalidate _ => [] end) ops.

(** Objects that have been given an identifier by the image or by [bind]. *)
Definition identified (loaded : list nat) (ops : list op) (o : nat) : Prop := In o loaded \/ In o (bound ops).

(** Each object is registered at most once, and not after its invalidation. *)
Definition registered_once (loaded : list nat) (ops : list op) : Prop :=
  forall ops1 o ops2, ops = ops1 ++ Bind o :: ops2 -> ~ In o loaded /\ ~ In (Bind o) ops1 /\ ~ In (Invalidate o) ops1.

(** The objects listed by the memory, e.g. when it is saved as an image. *)
Definition listed (m : memory) : option (list nat) := option_map (map snd) (iterate (objects m)).
