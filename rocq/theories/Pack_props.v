(** Theorems about packing. *)
From Verif Require Import Base Atom_model Pack_model Pack_spec Pack_proofs.

(** ** C36 Packing and unpacking a model preserves it *)

(** Packing a well-formed pattern of a packed size up to 4096 succeeds, keeps the
    pattern itself as the hidden reference, and unpacking the result, with or without
    one more reference, gives back the same code and the same references, facts and
    their objects included, provided the recursion may go deep enough.  Missing:
    patterns that are not well-formed in the sense of [well_formed], below. *)
Theorem C36_round_trip_partial : forall h facts groups, well_formed h facts groups -> Z.of_nat (packed_size h facts) <= 4096 ->
  exists p, pack_hlp h = Some p /\ p_hidden p = h /\ length (p_code p) = packed_size h facts /\
    forall extra, (length extra <= 1)%nat -> exists N, forall fuel, (N <= fuel)%nat -> unpack_hlp fuel (p_code p) (p_refs p ++ extra) = Some h.
Proof. exact round_trip. Qed.
Print Assumptions C36_round_trip_partial.
(** An object that refers twice to the same other object by the same reference comes
    back with two references. *)
Theorem C36_twice_refuted : exists h f o p h', h_refs h = [F f; G 200] /\ f_refs f = [New o] /\ (exists vs, reading (o_code o) 0 (count_at (o_code o) 0 + 1) vs [0; 0]%nat) /\
  pack_hlp h = Some p /\ unpack_hlp 20 (p_code p) (p_refs p) = Some h' /\ h_refs h' = [F (mkfact (f_code f) [New (mkpayload [AObject 11 2; RPointer 0; RPointer 1] [100; 100])]); G 200] /\ h' <> h.
Proof. exact twice_refuted. Qed.
Print Assumptions C36_twice_refuted.
(** A duration of 2214600000 microseconds (about 37 minutes) in a guard comes back as
    2214595904: its low word is taken for an inner pointer. *)
Theorem C36_duration_refuted : exists h f p h' n, h_refs h = [F f; G 200] /\ simple_fact f /\ get (h_code h) n = ADuration /\ get (h_code h) (n + 2) = 2214600000 /\
  pack_hlp h = Some p /\ unpack_hlp 20 (p_code p) (p_refs p) = Some h' /\ get (h_code h') n = ADuration /\ get (h_code h') (n + 2) = 2214595904.
Proof. exact duration_refuted. Qed.
Print Assumptions C36_duration_refuted.
(** A well-formed model of two facts, with shared references, an inner set, guards and
    an output group. *)
Example C36_ex_well_formed : well_formed model0 facts0 [200].
Proof. exact model0_well_formed. Qed.
Example C36_ex : exists p, pack_hlp model0 = Some p /\ p_refs p = [100; 101; 9; 102; 200] /\ length (p_code p) = 49%nat /\ packed_size model0 facts0 = 49%nat /\ unpack_hlp 2 (p_code p) (p_refs p ++ [77]) = Some model0.
Proof. exists (packed_of model0). vm_compute. auto. Qed.
