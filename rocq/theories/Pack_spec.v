(** Vocabulary of the statements about packing. *)
From Verif Require Import Base Atom_model Pack_model.

(** Reading [k] atoms of the code [c] from position [j], following inner pointers when
    they are met: [vs] are the positions read and [rs] the references met, in order. *)
Inductive reading (c : list Z) : nat -> nat -> list nat -> list nat -> Prop :=
| read_none j : reading c j 0 [] []
| read_ref j k r vs rs : (j < length c)%nat -> Z.of_nat r < 4096 -> get c j = RPointer (Z.of_nat r) -> reading c (S j) k vs rs -> reading c j (S k) (j :: vs) (r :: rs)
| read_ptr j k i vs1 rs1 vs rs : (j < length c)%nat -> Z.of_nat i < 4096 -> get c j = IPointer (Z.of_nat i) -> reading c i (count_at c i + 1) vs1 rs1 ->
    reading c (S j) k vs rs -> reading c j (S k) (j :: vs1 ++ vs) (rs1 ++ rs)
| read_atom j k vs rs : (j < length c)%nat -> getDescriptor (get c j) <> R_PTR -> getDescriptor (get c j) <> I_PTR -> reading c (S j) k vs rs -> reading c j (S k) (j :: vs) rs.
(** An object is an expression: read from its head, each of its atoms is met, and its
    references are met in order, each once. *)
Definition expression (o : payload) : Prop :=
  exists vs, reading (o_code o) 0 (count_at (o_code o) 0 + 1) vs (seq 0 (length (o_refs o))) /\ forall p, (p < length (o_code o))%nat -> In p vs.
(** A pattern is a fact without inner pointers, whose references are objects, met in
    order. *)
Record simple_fact (f : fact) : Prop := {
  sf_size : length (f_code f) = (count_at (f_code f) 0 + 1)%nat;
  sf_flat : forall a, In a (f_code f) -> getDescriptor a <> I_PTR;
  sf_refs : filter (fun a => getDescriptor a =? R_PTR) (f_code f) = map (fun r => RPointer (Z.of_nat r)) (seq 0 (length (f_refs f)));
  sf_few : Z.of_nat (length (f_refs f)) <= 4096;
  sf_objects : Forall (fun x => match x with New o => expression o | Old _ => False end) (f_refs f) }.
(** A pointer that can be moved: it points in the code, and its unused bits are 0. *)
Definition movable (n : nat) (a : Z) : Prop :=
  (getDescriptor a = I_PTR -> a = IPointer (asIndex a) /\ (Z.to_nat (asIndex a) < n)%nat) /\
  (getDescriptor a = ASSIGN_PTR -> a = AssignmentPointer (asAssignmentIndex a) (asIndex a) /\ (Z.to_nat (asIndex a) < n)%nat).
(** An unpacked pattern set: the facts and then the groups are its references, in
    order; the code is the header and the set of patterns, immediately followed by the
    guards and the output groups. *)
Record well_formed (h : hlp) (facts : list fact) (groups : list Z) : Prop := {
  wf_refs : h_refs h = map F facts ++ map G groups;
  wf_facts : Forall simple_fact facts;
  wf_set : (5 < index_at (h_code h) HLP_OBJS)%nat;
  wf_count : count_at (h_code h) (index_at (h_code h) HLP_OBJS) = length facts;
  wf_patterns : forall i, (i < length facts)%nat -> get (h_code h) (index_at (h_code h) HLP_OBJS + 1 + i) = RPointer (Z.of_nat i);
  wf_next : index_at (h_code h) HLP_FWD_GUARDS = (index_at (h_code h) HLP_OBJS + length facts + 1)%nat;
  wf_sets : forall i, In i [HLP_FWD_GUARDS; HLP_BWD_GUARDS; HLP_OUT_GRPS] -> get (h_code h) i = IPointer (asIndex (get (h_code h) i)) /\ (index_at (h_code h) i < length (h_code h))%nat;
  wf_after : (index_at (h_code h) HLP_FWD_GUARDS <= index_at (h_code h) HLP_OUT_GRPS)%nat;
  wf_groups_in : (index_at (h_code h) HLP_OUT_GRPS + length groups < length (h_code h))%nat;
  wf_groups_count : count_at (h_code h) (index_at (h_code h) HLP_OUT_GRPS) = length groups;
  wf_groups : forall j, (j < length groups)%nat -> get (h_code h) (index_at (h_code h) HLP_OUT_GRPS + 1 + j) = RPointer (Z.of_nat (length facts + j));
  wf_trailing : forall i, (index_at (h_code h) HLP_FWD_GUARDS <= i < length (h_code h))%nat -> movable (length (h_code h)) (get (h_code h) i) }.
(** The size of a packed pattern: its own code, and that of the facts and of their
    objects. *)
Definition object_size (x : fref) : nat := match x with New o => length (o_code o) | Old _ => 0 end.
Definition packed_size (h : hlp) (facts : list fact) : nat :=
  (length (h_code h) + list_sum (map (fun f => length (f_code f) + list_sum (map object_size (f_refs f))) facts))%nat.
