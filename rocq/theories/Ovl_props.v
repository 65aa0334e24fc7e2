(** C33: rolling back an evaluation; C63: the copy left waiting for other inputs; C64:
    reading results back. *)
From Verif Require Import Base Atom_model Ovl_model Ovl_spec Ovl_proofs.

(** The program code is not always restored: a place that was changed and committed, then
    changed again, gets its original content back, not the committed one. *)
Theorem C33_rollback_refuted : exists o es o' r, reached o /\ changes es /\ run (commit o) es = Some o' /\ small (length es) /\ small (length (values_ o)) /\
  rollback o' = Some r /\ code_ r <> code_ o.
Proof. exact rollback_loses_commit. Qed.
Print Assumptions C33_rollback_refuted.
(** The same of the undoing of patches back to a recorded position. *)
Theorem C33_unpatch_refuted : exists o es o' r, reached o /\ changes es /\ run o es = Some o' /\ small (length (patches o) + length es) /\
  unpatch_code o' (get_last_patch_index o) = Some r /\ code_ r <> code_ o.
Proof. exact unpatch_loses_patch. Qed.
Print Assumptions C33_unpatch_refuted.
(** If every place changed since the commit had its original content at the commit, the
    rollback gives back the committed state, code and values. *)
Theorem C33_rollback_partial : forall o es o', reached o -> changes es -> run (commit o) es = Some o' -> small (length es) -> small (length (values_ o)) ->
  (forall i, In i (touched es) -> pristine o i) -> rollback o' = Some (commit o).
Proof. exact rollback_restores. Qed.
Print Assumptions C33_rollback_partial.
(** What a rollback does in all cases: the values are those of the commit; places changed
    since then get their original content, the others keep the committed one. *)
Theorem C33_rollback_exact : forall o es o', reached o -> changes es -> run (commit o) es = Some o' -> small (length es) -> small (length (values_ o)) ->
  exists r, rollback o' = Some r /\ values_ r = values_ o /\
  forall j, nth_error (code_ r) j = if in_dec Nat.eq_dec j (touched es) then nth_error (source o) j else nth_error (code_ o) j.
Proof. exact rollback_exact. Qed.
Print Assumptions C33_rollback_exact.
(** Committed patches are kept. *)
Theorem C33_commit_keeps : forall o, code_ (commit o) = code_ o /\ values_ (commit o) = values_ o /\ (reached o -> small (length (values_ o)) -> rollback (commit o) = Some (commit o)).
Proof. exact commit_keeps. Qed.
Print Assumptions C33_commit_keeps.
(** Before any commit: the code is that of the creation, the value store is emptied. *)
Theorem C33_first_rollback : forall src tpl o es o', src <> [] -> create src tpl = Some o -> changes es -> run o es = Some o' -> small (length es) ->
  (forall i, In i (touched es) -> pristine o i) -> exists r, rollback o' = Some r /\ code_ r = code_ o /\ values_ r = [].
Proof. exact first_rollback. Qed.
Print Assumptions C33_first_rollback.
Theorem C33_unpatch_partial : forall o es o', reached o -> changes es -> run o es = Some o' -> small (length (patches o) + length es) ->
  (forall i, In i (touched es) -> pristine o i) ->
  exists r, unpatch_code o' (get_last_patch_index o) = Some r /\ code_ r = code_ o /\ patches r = patches o.
Proof. exact unpatch_restores. Qed.
Print Assumptions C33_unpatch_partial.
(** A reset gives the overlay of the program with its template arguments, whatever was
    done before. *)
Theorem C33_reset : forall src tpl o l o', src <> [] -> create src tpl = Some o -> run o l = Some o' ->
  exists r, reset_ o' tpl = Some r /\ code_ r = code_ o /\ values_ r = [] /\ patches r = [].
Proof. exact reset_pristine. Qed.
Print Assumptions C33_reset.
(** A program of four places, with a template argument; two evaluations, one committed. *)
Definition four : list Z := [0x80000001; 0x80000002; 0x80000003; 0x80000004].
Example C33_case : exists o0 o o', create four [(0%nat, 0x80000063)] = Some o0 /\ run o0 [Patch 1 7; Value 2 [0xC7000000; 0; 9]] = Some o /\
  run (commit o) [Patch 3 8; Patch 3 11] = Some o' /\ code_ o' = [0x80000063; 7; ValuePointer 128; 11] /\
  changes [Patch 3 8; Patch 3 11] /\ (forall i, In i (touched [Patch 3 8; Patch 3 11]) -> pristine o i) /\
  rollback o' = Some (commit o) /\ code_ (commit o) = [0x80000063; 7; ValuePointer 128; 0x80000004].
Proof.
  eexists. eexists. eexists. split; [vm_compute; reflexivity|]. split; [vm_compute; reflexivity|]. split; [vm_compute; reflexivity|]. split; [vm_compute; reflexivity|].
  split; [apply Forall_cons; [exact Logic.I|apply Forall_cons; [exact Logic.I|constructor]]|].
  split; [intros i [<-|[<-|[]]]; reflexivity|]. split; vm_compute; reflexivity.
Qed.
Example C33_unpatch_case : exists o o' r, run (load four) [Patch 1 7] = Some o /\ run o [Patch 2 8; Value 3 [1; 2]] = Some o' /\
  get_last_patch_index o = 1 /\ unpatch_code o' 1 = Some r /\ code_ r = [0x80000001; 7; 0x80000003; 0x80000004] /\ patches r = [1%nat].
Proof. eexists. eexists. eexists. split; [reflexivity|]. split; [reflexivity|]. split; [reflexivity|]. split; [reflexivity|]. split; reflexivity. Qed.

(** The copy left waiting does not have the computed values of the committed state: what
    its code refers to is not what was computed. *)
Theorem C63_values_refuted : exists o f i n, reached o /\ offspring (commit o) = Some f /\ code_ f = code_ o /\ small (length (values_ o)) /\
  designated o (nth i (code_ o) 0) n <> [] /\ designated f (nth i (code_ f) 0) n <> designated o (nth i (code_ o) 0) n.
Proof. exact offspring_loses_values. Qed.
Print Assumptions C63_values_refuted.
(** What the copy is: the committed values lie 128 places further; the code is the one a
    rollback would give. *)
Theorem C63_exact : forall o es o', reached o -> changes es -> run (commit o) es = Some o' -> small (length es) -> small (length (values_ o)) ->
  exists f, offspring o' = Some f /\ values_ f = repeat unset 128 ++ values_ o /\ patches f = [] /\
  forall j, nth_error (code_ f) j = if in_dec Nat.eq_dec j (touched es) then nth_error (source o) j else nth_error (code_ o) j.
Proof. exact offspring_exact. Qed.
Print Assumptions C63_exact.
(** The code of the copy is the committed one, if every place changed since then had its
    original content. *)
Theorem C63_code_partial : forall o es o', reached o -> changes es -> run (commit o) es = Some o' -> small (length es) -> small (length (values_ o)) ->
  (forall i, In i (touched es) -> pristine o i) -> exists f, offspring o' = Some f /\ code_ f = code_ o.
Proof. exact offspring_code. Qed.
Print Assumptions C63_code_partial.
Example C63_case : exists o o' f, run (load four) [Patch 1 7] = Some o /\ run (commit o) [Patch 2 8] = Some o' /\ offspring o' = Some f /\
  code_ o' = [0x80000001; 7; 8; 0x80000004] /\ code_ f = [0x80000001; 7; 0x80000003; 0x80000004].
Proof. eexists. eexists. eexists. split; [reflexivity|]. split; [reflexivity|]. split; [reflexivity|]. split; reflexivity. Qed.

(** A result is not always read back: the place of a result is kept in 12 bits. *)
Theorem C64_read_back_refuted : exists o i a o' p, reached o /\ set_value o i a = Some o' /\ nth_error (code_ o') i = Some p /\ designated o' p (length a) <> a.
Proof. exact read_back_fails. Qed.
Print Assumptions C64_read_back_refuted.
(** With fewer than 4096 atoms in the store, it is, until its place is patched again or
    rolled back. *)
Theorem C64_read_back_partial : forall o i a o' l o'', set_value o i a = Some o' -> Z.of_nat (length (values_ o)) < 4096 ->
  (forall x, In x l -> is_change x \/ x = Commit) -> ~ In i (touched l) -> run o' l = Some o'' ->
  exists p, nth_error (code_ o'') i = Some p /\ designated o'' p (length a) = a.
Proof. exact read_back. Qed.
Print Assumptions C64_read_back_partial.
Example C64_case : exists o' o'', set_value (load four) 1 [0xC7000000; 0; 9] = Some o' /\ run o' [Value 2 [0xC9000000; 1; 2]; Commit; Patch 3 5] = Some o'' /\
  designated o'' (nth 1 (code_ o'') 0) 3 = [0xC7000000; 0; 9] /\ designated o'' (nth 2 (code_ o'') 0) 3 = [0xC9000000; 1; 2].
Proof. eexists. eexists. split; [reflexivity|]. split; [reflexivity|]. split; reflexivity. Qed.
