(** C43, C44, C45, C49: objects. *)
From Verif Require Import Base Float32 Float32_facts Atom_model CellList_model Obj_model Obj_spec Obj_proofs.

(** ** C43 Equality, hash, existence check *)

(** Full statement: equal objects have equal hashes, equality is an equivalence,
    the existence check finds an equal object.  It holds of objects of the same
    sizes whose cached hash is up to date; the existence check looks nothing up. *)
Theorem C43_equal_same_hash_partial : forall e a b,
  (0 < length (code a))%nat -> length (code a) = length (code b) -> length (refs a) = length (refs b) ->
  (ident a = ident b -> a = b) -> fresh_hash a -> fresh_hash b ->
  obj_equal e a b = Some true -> same_hash a b.
Proof. exact equal_same_hash. Qed.
Print Assumptions C43_equal_same_hash_partial.

(** Among objects with the same hash, the comparison is defined and says exactly
    whether they are the same: same atoms and same references, or, for
    entities, the same object. *)
Theorem C43_equal_is_sameness : forall e a b,
  small a -> small b -> fresh_hash a -> fresh_hash b -> same_hash a b ->
  exists r, obj_equal e a b = Some r /\ (r = true <-> same_object e a b).
Proof. exact equal_in_bucket. Qed.
Print Assumptions C43_equal_is_sameness.

Theorem C43_equivalence : forall e a b c,
  (forall x, In x [a; b; c] -> small x /\ fresh_hash x) ->
  (forall x y, In x [a; b; c] -> In y [a; b; c] -> same_hash x y /\ (ident x = ident y -> x = y)) ->
  obj_equal e a a = Some true /\
  obj_equal e a b = obj_equal e b a /\
  (obj_equal e a b = Some true -> obj_equal e b c = Some true -> obj_equal e a c = Some true).
Proof. exact equivalence. Qed.
Print Assumptions C43_equivalence.

(** Of objects of different sizes, one may be equal to the other, not the
    converse, and the hashes differ. *)
Theorem C43_equal_same_hash_refuted : exists e a b,
  fresh_hash a /\ fresh_hash b /\ small a /\ small b /\ ident a <> ident b /\
  obj_equal e a b = Some true /\ obj_equal e b a = None /\ ~ same_hash a b.
Proof. exact hash_refuted. Qed.
Print Assumptions C43_equal_same_hash_refuted.

(** The cached hash survives a change of the content. *)
Theorem C43_hash_after_change_refuted : exists e a b0 b1 h0 b,
  fresh_hash a /\ fresh_hash b0 /\ hash b0 = Some (h0, b1) /\
  ident b = ident b1 /\ hash_value b = hash_value b1 /\ code b = code a /\ refs b = refs a /\
  obj_equal e a b = Some true /\ obj_equal e b a = Some true /\ ~ same_hash a b.
Proof. exact stale_refuted. Qed.
Print Assumptions C43_hash_after_change_refuted.

Theorem C43_existence_check_refuted : exists e known k o,
  In k known /\ obj_equal e k o = Some true /\ same_object e k o /\ same_hash k o /\
  ~ In (check_existence known o) known.
Proof. exact existence_refuted. Qed.
Print Assumptions C43_existence_check_refuted.

(** Two markers that refer to the same two objects. *)
Example C43_example :
  let a := mkobj 1 [Marker 9 2; RPointer 0; RPointer 1] [5; 6]%nat 0 in
  let b := mkobj 2 [Marker 9 2; RPointer 0; RPointer 1] [5; 6]%nat 0 in
  let c := mkobj 3 [Marker 9 2; RPointer 0; RPointer 1] [5; 7]%nat 0 in
  small a /\ fresh_hash a /\ same_hash a b /\ same_hash a c /\
  obj_equal 3 a b = Some true /\ obj_equal 3 b a = Some true /\ obj_equal 3 a c = Some false.
Proof.
  cbv zeta. split; [split; cbn; lia|]. split; [left; reflexivity|]. split; [eexists; split; vm_compute; reflexivity|].
  split; [eexists; split; vm_compute; reflexivity|]. repeat split; vm_compute; reflexivity.
Qed.

(** ** C44 Propagation threshold *)

(** Requests on a member that is not the last atom have no effect. *)
Theorem C44_other_members : forall c r, S (request_on r) <> length c -> do_request c r = Some c.
Proof. exact other_members. Qed.
Print Assumptions C44_other_members.

(** Whatever the requests, only the last atom may change. *)
Theorem C44_other_atoms_unchanged : forall rs c,
  exists c', do_requests c rs = Some c' /\ length c' = length c /\
    forall i, S i <> length c -> nth_error c' i = nth_error c i.
Proof. exact requests_total. Qed.
Print Assumptions C44_other_atoms_unchanged.

(** The threshold stays in [0,1], when it is the last atom, for modifications by
    a number and settings to a number of [0,1].  Missing: other settings, NaN,
    and objects with structured members (refuted below). *)
Theorem C44_range_partial : forall rs c c' x,
  threshold_last c -> Forall sensible rs -> get_psln_thr c = Some x -> in_unit x -> do_requests c rs = Some c' ->
  exists x', get_psln_thr c' = Some x' /\ in_unit x'.
Proof. exact threshold_range. Qed.
Print Assumptions C44_range_partial.

(** A modification adds, saturates at 0 and 1, and loses at most the last bit. *)
Theorem C44_modification_effect : forall c i v x,
  threshold_last c -> S i = length c -> f32_valid v = true -> v <> S754_nan -> get_psln_thr c = Some x -> in_unit x ->
  exists c' x', obj_mod c i v = Some c' /\ get_psln_thr c' = Some x' /\
    (flt (fadd x v) fzero = true -> x' = fzero) /\ (flt fone (fadd x v) = true -> x' = fone) /\
    (in_unit (fadd x v) -> key (fadd x v) - 1 <= key x' <= key (fadd x v)).
Proof. exact modification_effect. Qed.
Print Assumptions C44_modification_effect.

Theorem C44_set_range_refuted : exists c i v c' x',
  threshold_last c /\ S i = length c /\ f32_valid v = true /\ v <> S754_nan /\ is_finite v = true /\
  obj_set c i v = Some c' /\ get_psln_thr c' = Some x' /\ ~ in_unit x'.
Proof. exact set_range_refuted. Qed.
Print Assumptions C44_set_range_refuted.

Theorem C44_nan_refuted : exists c i v c' x',
  threshold_last c /\ S i = length c /\ obj_mod c i v = Some c' /\ get_psln_thr c' = Some x' /\ ~ in_unit x'.
Proof. exact nan_refuted. Qed.
Print Assumptions C44_nan_refuted.

(** With a structured member, requests on the threshold are ignored and requests
    on the last atom change something else. *)
Theorem C44_structured_refuted : exists c i v c' j,
  nth_error c i <> None /\ get_psln_thr c = option_map num (nth_error c i) /\ v = fone /\
  obj_mod c i v = Some c /\ obj_set c i v = Some c /\ get_psln_thr c <> Some v /\
  obj_set c j v = Some c' /\ j <> i /\ nth_error c' j <> nth_error c j.
Proof. exact nested_refuted. Qed.
Print Assumptions C44_structured_refuted.

(** 0.5, +3, -0.25 (2^-2) on a two-member object: 0.75. *)
Example C44_example :
  let c := [AObject 7 2; Float 0; Float 0x3F000000] in
  threshold_last c /\ Forall sensible [Mod 2 fthree; Mod 1 fthree; Mod 2 (S754_finite true 8388608 (-25))] /\
  exists c', do_requests c [Mod 2 fthree; Mod 1 fthree; Mod 2 (S754_finite true 8388608 (-25))] = Some c' /\
    get_psln_thr c' = Some (f32_of_bits 0x3F400000).
Proof.
  cbv zeta. split; [split; [do 2 eexists; split; [reflexivity|vm_compute; reflexivity]|cbn; lia]|].
  split; [repeat constructor; vm_compute; try reflexivity; discriminate|].
  eexists. split; [vm_compute; reflexivity|]. vm_compute. reflexivity.
Qed.

(** ** C45 Identifiers *)

(** Full statement: no two registered objects ever have the same identifier.
    Proved for images whose objects have distinct, defined identifiers, as long
    as the 32-bit counter does not wrap. *)
Theorem C45_unique_partial : forall os ops top m0 m1 m,
  load m0 os = Some m1 -> run m1 ops = Some m ->
  (forall o, In o os -> 0 <= oid (ents m0 o) <= top) ->
  (forall a b, In a os -> In b os -> oid (ents m0 a) = oid (ents m0 b) -> a = b) ->
  Z.of_nat (length os) <= top + 1 -> top + Z.of_nat (length (bound ops)) < UNDEFINED_OID ->
  (forall o, identified os ops o -> 0 <= oid (ents m o) < UNDEFINED_OID) /\
  (forall a b, identified os ops a -> identified os ops b -> oid (ents m a) = oid (ents m b) -> a = b).
Proof. exact ids_unique_top. Qed.
Print Assumptions C45_unique_partial.

(** An image in which an object has the undefined identifier (saving a memory
    puts unregistered referred objects in the image as they are) restarts the
    counter at 0. *)
Theorem C45_unique_refuted : exists m0 os ops m1 m a b,
  start m0 /\ NoDup os /\ load m0 os = Some m1 /\ run m1 ops = Some m /\
  (forall x y, In x os -> In y os -> oid (ents m0 x) = oid (ents m0 y) -> x = y) /\
  a <> b /\ identified os ops a /\ identified os ops b /\ storage (ents m a) <> None /\ storage (ents m b) <> None /\
  oid (ents m a) = oid (ents m b).
Proof. exact ids_undefined_refuted. Qed.
Print Assumptions C45_unique_refuted.

Example C45_example : exists m0 m1 m, start m0 /\
  load m0 [0; 1; 2]%nat = Some m1 /\ run m1 [Bind 3; Invalidate 1; Bind 4; Bind 5]%nat = Some m /\
  map (fun o => oid (ents m o)) [0; 1; 2; 3; 4; 5]%nat = [10; 20; 30; 31; 32; 33].
Proof.
  exists (w_mem (fun o => match o with O => 10 | 1%nat => 20 | 2%nat => 30 | _ => UNDEFINED_OID end)). do 2 eexists.
  split; [apply w_start|]. split; [vm_compute; reflexivity|]. split; [vm_compute; reflexivity|]. vm_compute. reflexivity.
Qed.

(** ** C49 The store of objects *)

(** No history of registrations and deletions makes the store fail. *)
Theorem C49_store_never_fails : forall m0 os ops, start m0 -> os <> [] ->
  exists m1 m, load m0 os = Some m1 /\ run m1 ops = Some m.
Proof. exact history_total. Qed.
Print Assumptions C49_store_never_fails.

(** Deleting a registered object takes one entry of that object out of the
    store, and nothing else, and keeps the order. *)
Theorem C49_delete_only_that_object : forall m0 os ops m1 m o,
  start m0 -> load m0 os = Some m1 -> run m1 ops = Some m ->
  storage (ents m o) <> None -> invalidated (ents m o) = false -> keep m = false ->
  exists l1 l2 m', listed m = Some (l1 ++ o :: l2) /\ invalidate m o = Some m' /\ listed m' = Some (l1 ++ l2).
Proof. exact delete_only. Qed.
Print Assumptions C49_delete_only_that_object.

(** Full statement: the store lists exactly the registered objects that were not
    deleted, each once.  Proved when no object is registered twice. *)
Theorem C49_lists_live_objects_partial : forall m0 os ops m1 m,
  start m0 -> NoDup os -> registered_once os ops -> load m0 os = Some m1 -> run m1 ops = Some m ->
  exists l, listed m = Some l /\ NoDup l /\
    forall o, In o l <-> (In o os \/ In o (bound ops) /\ null_pgm (ents m0 o) = false) /\
                         (keep m0 = true \/ ~ In (Invalidate o) ops).
Proof. exact listed_exact. Qed.
Print Assumptions C49_lists_live_objects_partial.

(** A notification injected in two groups is registered twice
    (hlp_controller.cpp:301-309) and stays listed after its deletion. *)
Theorem C49_lists_live_objects_refuted : exists m0 os ops m1 m l o,
  start m0 /\ keep m0 = false /\ NoDup os /\ load m0 os = Some m1 /\ run m1 ops = Some m /\
  ops = [Bind o; Bind o; Invalidate o] /\ ~ In o os /\ listed m = Some l /\ In o l.
Proof. exact listed_refuted. Qed.
Print Assumptions C49_lists_live_objects_refuted.

Example C49_example : exists m1 m,
  registered_once [0; 1]%nat [Bind 2; Invalidate 1; Bind 3; Invalidate 2]%nat /\
  load (w_mem (fun o => match o with O => 0 | 1%nat => 1 | _ => UNDEFINED_OID end)) [0; 1]%nat = Some m1 /\
  run m1 [Bind 2; Invalidate 1; Bind 3; Invalidate 2]%nat = Some m /\ listed m = Some [0; 3]%nat.
Proof.
  do 2 eexists. split; [|split; [vm_compute; reflexivity|split; [vm_compute; reflexivity|vm_compute; reflexivity]]].
  intros ops1 o ops2 E. destruct ops1 as [|x1 [|x2 [|x3 [|x4 ops1]]]]; cbn in E; inversion E; subst; try (cbn; intuition discriminate).
  destruct ops1; discriminate.
Qed.
