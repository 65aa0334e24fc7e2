(** C168, C169: loading and starting. *)
From Verif Require Import Base Atom_model Utils_model Ld_model Ld_spec Ld_proofs Ld2_proofs Ld3_proofs.
Local Open Scope nat_scope.

(** C168, in full: a model (or composite state) is refused exactly if one of its guards refers to another
    object.  One with an assignment [x:(add 0 obj)] as a guard is accepted. *)
Theorem C168_assignment_refuted : exists f c, guards_accepted f c = Ok true /\ Refers c HLP_FWD_GUARDS.
Proof. exists 20, assigning. exact assignment_missed. Qed.
Print Assumptions C168_assignment_refuted.

(** One that compares with a certain duration is refused. *)
Theorem C168_duration_refuted : exists f c, guards_accepted f c = Ok false /\ ~ Refers c HLP_FWD_GUARDS /\ ~ Refers c HLP_BWD_GUARDS.
Proof. exists 20, comparing. exact duration_refused. Qed.
Print Assumptions C168_duration_refuted.

(** Without times, durations and assignments (and objects of other kinds within the guards): exactly. *)
Theorem C168_exact_partial c : Ends c -> Within c HLP_FWD_GUARDS -> Within c HLP_BWD_GUARDS ->
  Free strange c HLP_FWD_GUARDS -> Free strange c HLP_BWD_GUARDS ->
  exists b N, (forall f, N <= f -> guards_accepted f c = Ok b) /\ (b = true <-> ~ Refers c HLP_FWD_GUARDS /\ ~ Refers c HLP_BWD_GUARDS).
Proof. exact (accepted_iff c). Qed.
Print Assumptions C168_exact_partial.

(** What is accepted has no references, if there are no assignments. *)
Theorem C168_accepted_partial f c : guards_accepted f c = Ok true ->
  Free (ASSIGN_PTR :: others) c HLP_FWD_GUARDS -> Free (ASSIGN_PTR :: others) c HLP_BWD_GUARDS -> ~ Refers c HLP_FWD_GUARDS /\ ~ Refers c HLP_BWD_GUARDS.
Proof. exact (accepted_no_reference f c). Qed.
Print Assumptions C168_accepted_partial.

(** What is refused has one, if there are no times and no durations. *)
Theorem C168_refused_partial f c : guards_accepted f c = Ok false ->
  Free [TIMESTAMP; DURATION] c HLP_FWD_GUARDS -> Free [TIMESTAMP; DURATION] c HLP_BWD_GUARDS -> Refers c HLP_FWD_GUARDS \/ Refers c HLP_BWD_GUARDS.
Proof. exact (refused_reference f c). Qed.
Print Assumptions C168_refused_partial.

(** [(gtr v0 (add 1 v1))] and [(gtr v0 obj)]. *)
Example C168_example :
  let c x := [AModel 0 5; IPointer 6; IPointer 6; IPointer 7; IPointer 6; IPointer 6; ASet 0; ASet 1; IPointer 9; Operator 1 2; VLPointer 0; IPointer 12; Operator 2 2; 0%Z; x] in
  Ends (c (VLPointer 1)) /\ Within (c (VLPointer 1)) 3 /\ Within (c (VLPointer 1)) 4 /\ Free strange (c (VLPointer 1)) 3 /\ Free strange (c (VLPointer 1)) 4 /\
  guards_accepted 20 (c (VLPointer 1)) = Ok true /\ guards_accepted 20 (c (RPointer 1)) = Ok false.
Proof.
  intros c. assert (L : In 3 [3; 7; 8; 9; 10; 11; 12; 13; 14; 4; 6] /\ In 4 [3; 7; 8; 9; 10; 11; 12; 13; 14; 4; 6]) by (cbn; tauto).
  assert (C : closed (c (VLPointer 1)) [3; 7; 8; 9; 10; 11; 12; 13; 14; 4; 6] = true) by (vm_compute; reflexivity).
  split; [apply (ends_by _ (fun i => nth i [9; 1; 1; 8; 1; 1; 0; 7; 6; 5; 0; 4; 3; 0; 0] 0)); vm_compute; reflexivity|].
  split; [exact (within_by _ _ _ C (proj1 L) eq_refl)|]. split; [exact (within_by _ _ _ C (proj2 L) eq_refl)|].
  split; [exact (free_by strange _ _ _ C (proj1 L) eq_refl)|]. split; [exact (free_by strange _ _ _ C (proj2 L) eq_refl)|]. split; vm_compute; reflexivity.
Qed.

(** C169, in full: when the memory starts, every time in an initial object gets later by the time of the
    start (at most the last time there is), and nothing else in the object changes.  A time that two
    members have in common gets later twice; the times among the arguments of a program stay as they
    are; a time that is not known becomes the one just before the start. *)
Theorem C169_shared_refuted : exists f ref c d t v, init_timestamps f ref c = Ok d /\ time_at c t = Some v /\ time_at d t = Some (v + 2 * ref)%Z /\ (0 < ref)%Z.
Proof. exists 20, 1000%Z, shared. destruct shared_twice as (d & H1 & H2 & H3). exists d, 3, 5%Z. repeat split; assumption. Qed.
Print Assumptions C169_shared_refuted.

Theorem C169_program_refuted : exists f ref c t v, init_timestamps f ref c = Ok c /\ Reach c 0 t /\ kind c t TIMESTAMP /\ time_at c t = Some v /\ (0 < ref)%Z.
Proof. exists 20, 1000%Z, instance, 5, 5%Z. destruct instance_left as (H1 & H2 & H3 & H4). repeat split; assumption. Qed.
Print Assumptions C169_program_refuted.

Theorem C169_unknown_refuted : exists f ref c d t, init_timestamps f ref c = Ok d /\ nth_error c t = Some UndefinedTimestamp /\
  nth_error d t = Some ATimestamp /\ time_at d t = Some (ref - 1)%Z.
Proof. exists 20, 1000%Z, unknown. destruct unknown_known as (d & H1 & H2 & H3). exists d, 2. repeat split; assumption. Qed.
Print Assumptions C169_unknown_refuted.

(** In an object with no times in common, none that are not known, and no programs, states or models in
    it: exactly that. *)
Theorem C169_shifted_partial c ref : Ends c -> Within c 0 -> Unshared c 0 -> TimesApart c 0 -> Free (ASSIGN_PTR :: others) c 0 -> (0 <= ref <= max_time)%Z ->
  exists N, forall f, N <= f -> exists d, init_timestamps f ref c = Ok d /\ length d = length c /\
    (forall t, Reach c 0 t -> kind c t TIMESTAMP -> exists v, time_at c t = Some v /\ time_at d t = Some (later ref v)) /\
    (forall j, (forall t, Reach c 0 t -> kind c t TIMESTAMP -> j <> t + 1 /\ j <> t + 2) -> nth_error d j = nth_error c j).
Proof. exact (times_shifted c ref). Qed.
Print Assumptions C169_shifted_partial.

(** A fact from one time to the last one. *)
Example C169_example :
  let c := [AObject 1 4; RPointer 0; IPointer 5; IPointer 8; 0%Z; ATimestamp; 0%Z; 7%Z; ATimestamp; 2147483647%Z; 4294967290%Z] in
  Ends c /\ Within c 0 /\ Unshared c 0 /\ TimesApart c 0 /\ Free (ASSIGN_PTR :: others) c 0 /\
  init_timestamps 20 4294967296 c = Ok [AObject 1 4; RPointer 0; IPointer 5; IPointer 8; 0%Z; ATimestamp; 1%Z; 7%Z; ATimestamp; 2147483647%Z; 4294967295%Z].
Proof.
  intros c. assert (L : In 0 [0; 1; 2; 3; 4; 5; 8]) by (cbn; tauto). assert (C : closed c [0; 1; 2; 3; 4; 5; 8] = true) by (vm_compute; reflexivity).
  split; [apply (ends_by _ (fun i => nth i [9; 1; 2; 2] 0)); vm_compute; reflexivity|].
  split; [exact (within_by _ _ _ C L eq_refl)|]. split; [exact (unshared_by _ _ _ C L eq_refl)|]. split; [exact (apart_by _ _ _ C L eq_refl)|].
  split; [exact (free_by (ASSIGN_PTR :: others) _ _ _ C L eq_refl)|]. vm_compute. reflexivity.
Qed.
