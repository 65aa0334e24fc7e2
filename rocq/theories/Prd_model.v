(** Model of r_exec/factory.{h,cpp}: the simulations of a prediction, as they are
    written in its code and read back (factory.h:404-425, 452-486,
    factory.cpp:550-574, 626-646). *)
From Verif Require Import Base Atom_model.
Local Open Scope Z_scope.

(** A prediction: its code, its references (0 is the target), the validities it
    depends on.  Objects are [nat]. *)
Record pred := mkpred { code : list Z; refs : list nat; validities : list nat }.

(** Reading beyond the end of the code gives the default atom (r_code/resized_vector.h). *)
Definition at_ (p : pred) (i : Z) : Z := nth (Z.to_nat i) (code p) 0xFFFFFFFF.

(** factory.cpp:558-574; [opcode] is that of predictions, [thr] the atom of the
    propagation threshold.  The arity is 3 (r_code/replicode_defs.h:245-247).
    [Atom::Set] takes a [uint8]. *)
Definition construct (opcode thr : Z) (target : nat) (sims : list nat) (vs : list nat) : pred :=
  mkpred ([AObject opcode 3; RPointer 0; IPointer 4; thr; ASet (u8 (Z.of_nat (length sims)))] ++
          map (fun i => RPointer (1 + Z.of_nat i)) (seq 0 (length sims)))
         (target :: sims) vs.

(** factory.h:458-461 *)
Definition simulations_size (p : pred) : Z := getAtomCount (at_ p (asIndex (at_ p 2))).
(** factory.h:468-472; [None] when the reference does not exist (undefined). *)
Definition get_simulation (p : pred) (i : Z) : option nat :=
  nth_error (refs p) (Z.to_nat (asIndex (at_ p (asIndex (at_ p 2) + i)))).

(** The simulations as all the loops of the code visit them: from 0 to the size. *)
Definition visited (p : pred) : list (option nat) :=
  map (fun i => get_simulation p (Z.of_nat i)) (seq 0 (Z.to_nat (simulations_size p))).

(** factory.h:452 *)
Definition is_simulation (p : pred) : bool := 0 <? simulations_size p.

(** factory.cpp:626-636: [root s] is the controller at the root of [s]; the outer
    [None] is the undefined reading of a reference. *)
Fixpoint find_root (root : nat -> nat) (r : nat) (l : list (option nat)) : option (option nat) :=
  match l with
  | [] => Some None
  | None :: _ => None
  | Some s :: t => if Nat.eqb (root s) r then Some (Some s) else find_root root r t
  end.
Definition simulation_of_root (root : nat -> nat) (r : nat) (p : pred) : option (option nat) := find_root root r (visited p).

(** factory.cpp:638-646 *)
Definition has_simulation (p : pred) (s : nat) : bool :=
  existsb (fun o => match o with Some s' => Nat.eqb s' s | None => false end) (visited p).

(** factory.cpp:550-556 *)
Fixpoint all_some (l : list (option nat)) : option (list nat) :=
  match l with
  | [] => Some []
  | Some s :: t => match all_some t with Some r => Some (s :: r) | None => None end
  | None :: _ => None
  end.
Definition derive (opcode thr : Z) (target : nat) (source : pred) : option pred :=
  match all_some (visited source) with
  | Some sims => Some (construct opcode thr target sims (validities source))
  | None => None
  end.
