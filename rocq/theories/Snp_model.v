(* Images made of the objects in memory: which objects are taken, in which
   order, and how references become indices. *)
From Coq Require Import List Bool Arith.
Import ListNotations.

(* r_code/atom.h, the kind of the first atom of an object, as far as hidden
   references go. *)
Inductive kind := Mdl | Cst | Plain.

(* r_code/object.h:163-230, class _View: the group and the origin. *)
Record view := View { vgroup : option nat; vorigin : option nat }.

(* r_code/object.h:245-330, class Code: number of words, references (as the
   identities of objects), whether it has an identifier (get_oid() not
   UNDEFINED_OID), is_invalidated(), and its views in the order of iteration. *)
Record ob := Ob { okind : kind; words : nat; refs : list nat; named : bool;
                  dead : bool; views : list view }.

(* A memory gives the object of every identity. *)
Definition memory := nat -> ob.

(* r_comp/segments.cpp:511-521, get_reference_count, with
   MDL_HIDDEN_REFS = CST_HIDDEN_REFS = 1 (replicode_defs.h:203, 217); a model or
   a state without references is not considered. *)
Definition reference_count (o : ob) : nat :=
  match okind o with
  | Mdl => length (refs o) - 1
  | Cst => length (refs o) - 1
  | Plain => length (refs o)
  end.

Definition followed (o : ob) : list nat := firstn (reference_count o) (refs o).

(* The objects of an image in order, each by its identity: code_segment_.objects_
   and ptrs_to_indices_ (segments.h:160-200). *)
Definition has (x : nat) (l : list nat) : bool := existsb (Nat.eqb x) l.

(* A loop over references, stopped when a call does not return. *)
Fixpoint each (f : nat -> list nat -> option (list nat)) (rs : list nat) (l : list nat) : option (list nat) :=
  match rs with
  | [] => Some l
  | r :: q => match f r l with Some l' => each f q l' | None => None end
  end.

(* r_comp/segments.cpp:523-556, add_object(object, include_invalidated); [None]
   if the calls are nested deeper than [fuel]. *)
Fixpoint add (fuel : nat) (m : memory) (all : bool) (x : nat) (l : list nat) : option (list nat) :=
  match fuel with
  | O => None
  | S f =>
      if has x l then Some l
      else
        match each (fun r l1 =>
                if all || negb (named (m r)) || dead (m r) then add f m all r l1 else Some l1)
              (followed (m x)) l with
        | Some l' => Some (l' ++ [x])
        | None => None
        end
  end.

(* r_comp/segments.cpp:491-500, add_objects(objects, include_invalidated). *)
Fixpoint add_all (fuel : nat) (m : memory) (all : bool) (xs : list nat) (l : list nat) : option (list nat) :=
  match xs with
  | [] => Some l
  | x :: r =>
      if all || negb (dead (m x)) then
        match add fuel m all x l with Some l' => add_all fuel m all r l' | None => None end
      else add_all fuel m all r l
  end.

(* r_exec/mem.cpp:1426-1436 and 1483-1493, get_models and get_objects. *)
Definition get_models (fuel : nat) (m : memory) (models : list nat) : option (list nat) :=
  add_all fuel m false models [].
Definition get_objects (fuel : nat) (m : memory) (all : bool) (objects : list nat) : option (list nat) :=
  add_all fuel m all objects [].

(* The references of a view that are not NULL. *)
Definition there (v : view) : list nat :=
  match vgroup v with Some g => [g] | None => [] end ++
  match vorigin v with Some o => [o] | None => [] end.

(* r_comp/segments.cpp:558-617, add_object(object, imported_objects): an object
   comes before what it refers to; references of views are followed too. *)
Fixpoint import (fuel : nat) (m : memory) (x : nat) (l : list nat) : option (list nat) :=
  match fuel with
  | O => None
  | S f =>
      if has x l then Some l
      else
        each (fun r l1 => if has r l1 then Some l1 else import f m r l1)
             (followed (m x) ++ flat_map there (views (m x))) (l ++ [x])
  end.

(* r_comp/segments.cpp:502-509, add_objects(objects, imported_objects). *)
Definition import_all (fuel : nat) (m : memory) (xs : list nat) : option (list nat) :=
  each (import fuel m) xs [].

(* ptrs_to_indices_: the index of an object, in sixteen bits (segments.cpp:541). *)
Fixpoint position (x : nat) (l : list nat) : option nat :=
  match l with
  | [] => None
  | y :: r => if Nat.eqb x y then Some 0 else match position x r with Some i => Some (S i) | None => None end
  end.
Definition index (x : nat) (l : list nat) : option nat :=
  match position x l with Some i => Some (i mod Nat.pow 2 16) | None => None end.

(* r_comp/segments.cpp:642-656, build_references: the references of an object in
   the image. *)
Definition image_refs (m : memory) (l : list nat) (x : nat) : list nat :=
  flat_map (fun r => match index r l with Some i => [i] | None => [] end) (followed (m x)).

(* r_code/object.cpp:113-116, the constructor of SysView, and segments.cpp:658-675: the
   references of a view; they are 0 until they are set, and the list is extended
   if needed. *)
Fixpoint put (l : list nat) (j v : nat) : list nat :=
  match l, j with
  | [], O => [v]
  | [], S k => 0 :: put [] k v
  | _ :: r, O => v :: r
  | a :: r, S k => a :: put r k v
  end.
Definition set_ref (l : list nat) (o : option nat) (j : nat) (vs : list nat) : list nat :=
  match o with
  | None => vs
  | Some x => match index x l with Some i => put vs j i | None => vs end
  end.
Definition view_refs (l : list nat) (v : view) : list nat :=
  set_ref l (vorigin v) 1 (set_ref l (vgroup v) 0 (repeat 0 (length (there v)))).

(* r_code/object.cpp:246-252 and 139-142, get_size of an object with [n]
   references, and of its views: no markers, VIEW_CODE_MAX_SIZE = 13 words for
   the code of a view. *)
Definition size (o : ob) (n : nat) (vs : list nat) : nat :=
  5 + words o + n + fold_right (fun k a => 2 + 13 + k + a) 0 vs.

(* The size when an object is added (object.cpp:174-197, segments.cpp:484-489)
   and the size in the end. *)
Definition size_added (m : memory) (x : nat) : nat :=
  size (m x) (length (refs (m x))) (map (fun v => length (there v)) (views (m x))).
Definition size_built (m : memory) (l : list nat) (x : nat) : nat :=
  size (m x) (length (image_refs m l x)) (map (fun v => length (view_refs l v)) (views (m x))).

(* r_comp/segments.cpp:484-489, the object map: offsets by the sizes so far. *)
Fixpoint offsets (f : nat -> nat) (at_ : nat) (l : list nat) : list nat :=
  match l with
  | [] => []
  | x :: r => at_ :: offsets f (at_ + f x) r
  end.
Definition object_map (m : memory) (l : list nat) : list nat := offsets (size_added m) 0 l.

(* r_comp/segments.cpp:361-370, CodeSegment::write: where each object is written. *)
Definition written (m : memory) (l : list nat) : list nat := offsets (size_built m l) 0 l.

(* r_comp/segments.cpp:691-715, unpack_objects: the object a reference of the
   image leads to, by what it was made from. *)
Definition unpack (l : list nat) (is : list nat) : list (option nat) := map (nth_error l) is.
