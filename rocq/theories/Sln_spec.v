(** Vocabulary of the statements about the propagation of saliency. *)
From Coq Require Import Floats.SpecFloat.
From Verif Require Import Base Float32 Atom_model Obj_model View_model Grp_model Sln_model.

(** An object is linked to its markers and, if it is a marker, to its references. *)
Definition linked (n : net) (o x : Z) : Prop := (marker n o = true /\ In x (refs n o)) \/ In x (marks n o).
(** The magnitude of the change is above the propagation threshold of the object. *)
Definition passes (n : net) (c : spec_float) (o : Z) : Prop := flt (psln n o) (SFabs c) = true.
(** The rule: the change goes from an object to the objects linked to it, if it
    exceeds the threshold of the former; from there it goes on in the same way.  The
    root group is never reached. *)
Inductive reached (n : net) (c : spec_float) (o : Z) : Z -> Prop :=
| reached_direct x : passes n c o -> linked n o x -> x <> root n -> reached n c o x
| reached_on x y : reached n c o x -> passes n c x -> linked n x y -> y <> root n -> reached n c o y.

(** The requests expected: for each view of each object, in the group that hosts
    the view, one saliency request with the change scaled to the threshold of that
    group. *)
Definition carried (c source destination : spec_float) : spec_float :=
  if flt fzero source then if flt fzero destination then fdiv (fmul c destination) source else c
  else fadd destination c.
Definition expected (host_thr : Z -> spec_float) (views : Z -> list (Z * Z)) (gone : list Z) (c thr : spec_float) (os : list Z) (h oid : Z) (x : spec_float) : Prop :=
  exists o, In o os /\ ~ In o gone /\ In (h, oid) (views o) /\ x = carried c thr (host_thr h) /\ feqb x fzero = false.
