(** Property theorems C01-C04. *)
From Verif Require Import Base Float32 Atom_model Atom_spec Atom_proofs Float32_facts Atom_float_proofs.

(** C01: what was put into an atom is read back with the accessors of its kind.
    (Node atoms are the exception: see C04.) *)
Theorem C01_atom_fields_survive_encoding :
  forall v, fits v -> (forall n, v <> VNode n) -> read_back (build v) = Some v.
Proof. exact read_back_build. Qed.
Print Assumptions C01_atom_fields_survive_encoding.
Example C01_case : fits (VHead HObject 4095 255) /\ read_back (build (VHead HObject 4095 255)) = Some (VHead HObject 4095 255).
Proof. split; [cbn; unfold is_u8; lia|vm_compute; reflexivity]. Qed.

(** C01: the tests for the two truth values accept exactly these. *)
Theorem C01_truth_values :
  forall v, fits v ->
  (isBooleanTrue (build v) = true <-> v = VBool true) /\ (isBooleanFalse (build v) = true <-> v = VBool false).
Proof. exact truth_values. Qed.
Print Assumptions C01_truth_values.
Example C01_truth_case : isBooleanTrue (build (VBool true)) = true /\ isBooleanFalse (build (VBool true)) = false /\
  isBooleanFalse (build VNil) = false.
Proof. vm_compute. auto. Qed.

(** C01: the number of atoms that follow a head is the one announced. *)
Theorem C01_following_atoms :
  forall v n, fits v -> following_atoms v = Some n -> getAtomCount (build v) = n.
Proof. exact following. Qed.
Print Assumptions C01_following_atoms.
Example C01_following_case : getAtomCount (build (VString 9)) = 3.
Proof. vm_compute. reflexivity. Qed.

(** C02: two constructor calls with different kinds or different fields never
    produce the same atom. *)
Theorem C02_atoms_never_confused :
  forall v w, fits v -> fits w -> v <> w -> build v <> build w.
Proof. exact (fun v w Hv Hw Hne E => Hne (build_inj v w Hv Hw E)). Qed.
Print Assumptions C02_atoms_never_confused.
Example C02_case : build (VDevice 1 2 3) <> build (VNode 2).
Proof. vm_compute. discriminate. Qed.

(** C02: numbers, and only numbers, are recognised as floats. *)
Theorem C02_float_test_is_exact :
  forall v, fits v -> (isFloat (build v) = true <-> exists b, v = VFloat b).
Proof. exact isFloat_iff. Qed.
Print Assumptions C02_float_test_is_exact.

(** C02: exactly the multi-atom kinds (and the null program) are structural. *)
Theorem C02_structural_test_is_exact :
  forall v, fits v ->
  (isStructural (build v) = true <->
   (exists h o n, v = VHead h o n) \/ (exists n, v = VSet n) \/ (exists n, v = VCPtr n) \/
   (exists n, v = VString n) \/ v = VTimestamp \/ v = VDuration \/ (exists b, v = VNullProgram b)).
Proof. exact structural_iff. Qed.
Print Assumptions C02_structural_test_is_exact.
Example C02_structural_case : isStructural (build VDuration) = true /\ isStructural (build (VPtr PI 3)) = false.
Proof. vm_compute. auto. Qed.

(** C03: a stored number is the number with its lowest significand bit cleared. *)
Theorem C03_stored_number :
  forall b, is_u32 b -> is_finite (f32_of_bits b) = true ->
  f32_of_bits (store_load b) = clear_low (f32_of_bits b).
Proof. exact store_value. Qed.
Print Assumptions C03_stored_number.

(** C03: the order of numbers is preserved. *)
Theorem C03_order_preserved :
  forall b1 b2, is_u32 b1 -> is_u32 b2 ->
  is_finite (f32_of_bits b1) = true -> is_finite (f32_of_bits b2) = true ->
  fle (f32_of_bits b1) (f32_of_bits b2) = true ->
  fle (f32_of_bits (store_load b1)) (f32_of_bits (store_load b2)) = true.
Proof. exact store_monotone. Qed.
Print Assumptions C03_order_preserved.

(** C03: the magnitude never grows. *)
Theorem C03_magnitude_never_grows :
  forall b, is_u32 b -> is_finite (f32_of_bits b) = true ->
  fle (SFabs (f32_of_bits (store_load b))) (SFabs (f32_of_bits b)) = true.
Proof. exact store_magnitude. Qed.
Print Assumptions C03_magnitude_never_grows.

(** C03: storing twice changes nothing more. *)
Theorem C03_storing_is_idempotent :
  forall b, is_u32 b -> store_load (store_load b) = store_load b.
Proof. exact store_idem. Qed.
Print Assumptions C03_storing_is_idempotent.

(** C03: zero and one are exact. *)
Theorem C03_zero_and_one_exact :
  f32_of_bits (store_load (bits_of_f32 fzero)) = fzero /\
  f32_of_bits (store_load (bits_of_f32 fone)) = fone.
Proof. exact (conj eq_refl eq_refl). Qed.
Print Assumptions C03_zero_and_one_exact.
Example C03_case : is_finite (f32_of_bits 0x3EAAAAAB) = true /\ store_load 0x3EAAAAAB = 0x3EAAAAAA.
Proof. vm_compute. auto. Qed.
(** Outside the finite numbers: a NaN whose payload is 1 comes back as +infinity. *)
Example C03_nan_becomes_infinity :
  f32_of_bits 0x7F800001 = S754_nan /\ f32_of_bits (store_load 0x7F800001) = S754_infinity false.
Proof. vm_compute. auto. Qed.

(** C04: the node id of a node atom is lost (except id 0). *)
Theorem C04_node_id_refuted : exists n, is_u8 n /\ getNodeID (Node n) <> n.
Proof. exact node_refuted. Qed.
Print Assumptions C04_node_id_refuted.

(** C04: the undefined number does not read as nil, and neither does the
    undefined timestamp. *)
Theorem C04_undefined_reads_as_nil_refuted :
  exists a, In a [UndefinedFloat; UndefinedTimestamp] /\ readsAsNil a = false.
Proof. exact nil_refuted. Qed.
Print Assumptions C04_undefined_reads_as_nil_refuted.

(** C04: the undefined number is also the encoding of an ordinary number. *)
Theorem C04_undefined_number_distinct_refuted :
  exists b, is_u32 b /\ is_finite (f32_of_bits b) = true /\ Float b = UndefinedFloat.
Proof. exact undef_collides. Qed.
Print Assumptions C04_undefined_number_distinct_refuted.

(** C04, the part that holds: device atoms report their node id, and nil and
    the undefined boolean, node, device, device function and string read as nil.
    Missing: node atoms, the undefined number, the undefined timestamp. *)
Theorem C04_special_atoms_partial :
  (forall n c d, is_u8 n -> is_u8 c -> is_u8 d -> getNodeID (Device n c d) = n) /\
  (forall a, In a [Nil; UndefinedBoolean; UndefinedNode; UndefinedDevice;
                   UndefinedDeviceFunction; UndefinedString] -> readsAsNil a = true).
Proof. exact special_atoms. Qed.
Print Assumptions C04_special_atoms_partial.
Example C04_case : getNodeID (Device 7 1 2) = 7 /\ getNodeID (Node 7) = 0.
Proof. vm_compute. auto. Qed.
