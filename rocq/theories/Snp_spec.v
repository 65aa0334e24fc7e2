(* Vocabulary for statements on images of the memory. *)
From Coq Require Import List Bool Arith.
From Verif Require Import Snp_model.
Import ListNotations.

(* The references of an object, without the hidden one of models and states. *)
Definition shown (o : ob) : list nat :=
  match okind o with Plain => refs o | _ => removelast (refs o) end.

(* What is reached from an object by references. *)
Inductive Reach (m : memory) (next : ob -> list nat) (x : nat) : nat -> Prop :=
| RSelf : Reach m next x x
| RStep y z : Reach m next x y -> In z (next (m y)) -> Reach m next x z.

(* References of an object and of its views. *)
Definition next_views (o : ob) : list nat := shown o ++ flat_map there (views o).

(* References that are taken along: all, or those to objects that cannot be
   listed or are not taken from the list. *)
Definition taken (m : memory) (all : bool) (o : ob) : list nat :=
  filter (fun r => if all then true else if named (m r) then dead (m r) else true) (shown o).

(* References without cycles. *)
Definition acyclic (m : memory) : Prop :=
  exists rank : nat -> nat, forall x r, In r (shown (m x)) -> rank r < rank x.

(* [a] comes before [b] in a list. *)
Definition comes_before (a b : nat) (l : list nat) : Prop :=
  exists u v w, l = u ++ a :: v ++ b :: w.

(* The image has all that an object of it refers to. *)
Definition complete (m : memory) (l : list nat) (x : nat) : Prop :=
  forall r, In r (shown (m x)) -> In r l.

(* Views with a group, and all groups and origins in the image. *)
Definition views_in (m : memory) (l : list nat) (x : nat) : Prop :=
  forall v, In v (views (m x)) -> vgroup v <> None /\ forall r, In r (there v) -> In r l.
