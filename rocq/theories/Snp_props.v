(* C178 to C182: images made of the objects in memory. *)
From Coq Require Import List Bool Arith.
From Verif Require Import Snp_model Snp_spec Snp_proofs Snp2_proofs.
Import ListNotations.

(* C178.  The image has what was asked for, once, and only that. *)

(* An image that is made has exactly the live objects of the list (or all of
   them) and what is taken along from them, each once. *)
Theorem C178_contents_partial : forall m all f xs l,
  get_objects f m all xs = Some l ->
  NoDup l /\
  forall y, In y l <-> exists x, In x xs /\ (all = true \/ dead (m x) = false) /\ Reach m (taken m all) x y.
Proof. exact all_exact. Qed.
Print Assumptions C178_contents_partial.

(* It is made if references have no cycles. *)
Theorem C178_ends_partial : forall m all, acyclic m -> forall xs, exists f l, get_objects f m all xs = Some l.
Proof. exact add_all_ends. Qed.
Print Assumptions C178_ends_partial.

(* When groups and origins are taken along, cycles do no harm. *)
Theorem C178_import_partial : forall m U,
  (forall x, In x U -> forall r, In r (next_views (m x)) -> In r U) ->
  forall xs, incl xs U ->
  exists l, import_all (S (length U)) m xs = Some l /\ NoDup l /\
    forall y, In y l <-> exists x, In x xs /\ Reach m next_views x y.
Proof. exact import_all_done. Qed.
Print Assumptions C178_import_partial.

(* With a cycle the image is not made, however deep the calls may go. *)
Theorem C178_refuted : exists m x, forall f all, get_objects f m all [x] = None.
Proof. exact endless_witness. Qed.
Print Assumptions C178_refuted.

Example C178_case :
  get_objects 3 world true [0; 5] = Some [4; 1; 3; 0; 5] /\ import_all 6 world [0] = Some [0; 4; 1; 3; 5] /\
  import_all 2 loop [0] = Some [0].
Proof. repeat split. Qed.
Example C178_acyclic : acyclic pair.
Proof.
  exists (fun x => match x with 1 => 0 | _ => 1 end). intros x r R.
  destruct x as [|[|[|x]]]; cbn in R; intuition; subst; repeat constructor.
Qed.

(* C179.  Objects made from the image refer to what the original ones refer to. *)

(* If all objects are taken. *)
Theorem C179_all_partial : forall m f xs l,
  get_objects f m true xs = Some l -> length l <= Nat.pow 2 16 ->
  forall x, In x l -> unpack l (image_refs m l x) = map Some (shown (m x)).
Proof. exact all_refs. Qed.
Print Assumptions C179_all_partial.

(* Otherwise, if the live objects that are referred to are in the list. *)
Theorem C179_live_partial : forall m f xs l,
  get_objects f m false xs = Some l -> length l <= Nat.pow 2 16 ->
  (forall x r, In x l -> In r (shown (m x)) -> named (m r) = true -> dead (m r) = false -> In r xs) ->
  forall x, In x l -> unpack l (image_refs m l x) = map Some (shown (m x)).
Proof. exact live_refs. Qed.
Print Assumptions C179_live_partial.

(* When groups and origins are taken along. *)
Theorem C179_import_partial : forall m U,
  (forall x, In x U -> forall r, In r (next_views (m x)) -> In r U) ->
  length U <= Nat.pow 2 16 ->
  forall xs, incl xs U ->
  exists l, import_all (S (length U)) m xs = Some l /\
    forall x, In x l -> unpack l (image_refs m l x) = map Some (shown (m x)).
Proof. exact import_refs. Qed.
Print Assumptions C179_import_partial.

(* In any case those that are in the image, in order. *)
Theorem C179_found_partial : forall m l x,
  length l <= Nat.pow 2 16 ->
  unpack l (image_refs m l x) = map Some (filter (fun r => has r l) (shown (m x))).
Proof. exact refs_found. Qed.
Print Assumptions C179_found_partial.

(* An image of the models: a reference is left out and another one takes its place. *)
Theorem C179_refuted :
  exists m models l x,
    (forall f, 3 <= f -> get_models f m models = Some l) /\ In x models /\ In x l /\
    unpack l (image_refs m l x) <> map Some (shown (m x)) /\
    (exists a b, nth_error (shown (m x)) 1 = Some a /\ nth_error (unpack l (image_refs m l x)) 1 = Some (Some b) /\ a <> b).
Proof. exact models_witness. Qed.
Print Assumptions C179_refuted.

Example C179_case :
  unpack [4; 1; 3; 0; 5] (image_refs world [4; 1; 3; 0; 5] 0) = [Some 4; Some 1; Some 3].
Proof. reflexivity. Qed.

(* C180.  The map of an image says where each object is. *)

Theorem C180_map_partial : forall m l,
  length l <= Nat.pow 2 16 ->
  (forall x, In x l -> okind (m x) = Plain /\ complete m l x /\ views_in m l x) ->
  object_map m l = written m l.
Proof. exact map_exact. Qed.
Print Assumptions C180_map_partial.

(* After a model it does not, although nothing is left out. *)
Theorem C180_refuted :
  exists m objects l,
    (forall f, 3 <= f -> get_objects f m true objects = Some l) /\
    (forall x, In x l -> complete m l x /\ views_in m l x) /\
    object_map m l <> written m l.
Proof. exact map_witness. Qed.
Print Assumptions C180_refuted.

Example C180_case :
  object_map pair [1; 2; 3] = [0; 6; 13] /\ written pair [1; 2; 3] = [0; 6; 13] /\
  forall x, In x [1; 2; 3] -> okind (pair x) = Plain /\ complete pair [1; 2; 3] x /\ views_in pair [1; 2; 3] x.
Proof.
  split; [reflexivity|]. split; [reflexivity|]. intros x I.
  assert (x = 1 \/ x = 2 \/ x = 3) as [Z|[Z|Z]] by (cbn in I; intuition); subst x;
    (split; [reflexivity|split; [intros r R; cbn in R; cbn; intuition|intros v []]]).
Qed.

(* C181.  In an image objects come after those they refer to. *)

Theorem C181_all_partial : forall m f xs l x r,
  get_objects f m true xs = Some l -> In x l -> In r (shown (m x)) -> comes_before r x l.
Proof. exact all_order. Qed.
Print Assumptions C181_all_partial.

Theorem C181_taken_partial : forall m all f xs l x r,
  get_objects f m all xs = Some l -> In x l -> In r (taken m all (m x)) -> comes_before r x l.
Proof. exact taken_order. Qed.
Print Assumptions C181_taken_partial.

Theorem C181_refuted :
  exists m objects l x r,
    (forall f, 3 <= f -> get_objects f m false objects = Some l) /\
    (forall y, complete m l y) /\ In x l /\ In r (shown (m x)) /\ In r l /\ ~ comes_before r x l.
Proof. exact order_witness. Qed.
Print Assumptions C181_refuted.

Example C181_case : get_objects 3 pair true [2; 1] = Some [1; 2] /\ comes_before 1 2 [1; 2].
Proof. split; [reflexivity|]. exists [], [], []. reflexivity. Qed.

(* C182.  Views made from the image have the group and the origin of the original ones. *)

Theorem C182_views_partial : forall l v,
  length l <= Nat.pow 2 16 -> (vgroup v = None -> vorigin v = None) ->
  (forall r, In r (there v) -> In r l) ->
  unpack l (view_refs l v) = map Some (there v).
Proof. exact views_unpacked. Qed.
Print Assumptions C182_views_partial.

(* As it is when groups and origins are taken along. *)
Theorem C182_import_partial : forall m U,
  (forall x, In x U -> forall r, In r (next_views (m x)) -> In r U) ->
  length U <= Nat.pow 2 16 ->
  forall xs, incl xs U ->
  exists l, import_all (S (length U)) m xs = Some l /\
    forall x v, In x l -> In v (views (m x)) -> (vgroup v = None -> vorigin v = None) ->
    unpack l (view_refs l v) = map Some (there v).
Proof. exact import_views. Qed.
Print Assumptions C182_import_partial.

(* A group that is not in the image becomes the first object of it. *)
Theorem C182_refuted :
  exists m models l x v g y,
    (forall f, 3 <= f -> get_models f m models = Some l) /\ In x l /\ In v (views (m x)) /\
    vgroup v = Some g /\ unpack l (view_refs l v) = [Some y] /\ y <> g.
Proof. exact view_witness. Qed.
Print Assumptions C182_refuted.

Example C182_case :
  import_all 6 world [0] = Some [0; 4; 1; 3; 5] /\
  unpack [0; 4; 1; 3; 5] (view_refs [0; 4; 1; 3; 5] (View (Some 5) (Some 4))) = [Some 5; Some 4].
Proof. split; reflexivity. Qed.
