(** Witnesses, and checks of the conditions on given codes. *)
From Verif Require Import Base Atom_model Utils_model Ld_model Ld_spec Ld_proofs.
Local Open Scope nat_scope.

Definition structb (d : Z) : bool := existsb (Z.eqb d) [C_PTR; SET; OBJECT; S_SET; MARKER; OPERATOR; GROUP; INSTANTIATED_PROGRAM; INSTANTIATED_CPP_PROGRAM;
        INSTANTIATED_INPUT_LESS_PROGRAM; INSTANTIATED_ANTI_PROGRAM; COMPOSITE_STATE; MODEL].
Lemma structb_spec d : structb d = true <-> structure d.
Proof.
  unfold structb, structure. rewrite existsb_exists. split; [intros (x & H & E); apply Z.eqb_eq in E; subst; exact H|intros H; exists d; split; [exact H|apply Z.eqb_refl]].
Qed.
Definition succs (c : code) (i : nat) : list nat :=
  match nth_error c i with
  | None => []
  | Some a => if (getDescriptor a =? I_PTR)%Z || (getDescriptor a =? ASSIGN_PTR)%Z then [Z.to_nat (asIndex a)]
              else if structb (getDescriptor a) then seq (S i) (Z.to_nat (getAtomCount a)) else []
  end.
Lemma succs_in c i j : Step c i j -> In j (succs c i).
Proof.
  intros H. unfold succs. inversion H as [a E D|a E D|a k E D Hk]; subst; rewrite E.
  - rewrite D. left. reflexivity.
  - rewrite D. left. reflexivity.
  - destruct (Z.eqb_spec (getDescriptor a) I_PTR) as [F|_].
    { exfalso. rewrite F in D. unfold structure in D. cbn in D. repeat (destruct D as [D|D]; [discriminate|]). destruct D. }
    destruct (Z.eqb_spec (getDescriptor a) ASSIGN_PTR) as [F|_].
    { exfalso. rewrite F in D. unfold structure in D. cbn in D. repeat (destruct D as [D|D]; [discriminate|]). destruct D. }
    cbn [orb]. rewrite (proj2 (structb_spec _) D). apply in_seq. lia.
Qed.
Lemma succs_step c i j : In j (succs c i) -> Step c i j.
Proof.
  unfold succs. destruct (nth_error c i) as [a|] eqn:E; [|intros []].
  destruct (Z.eqb_spec (getDescriptor a) I_PTR) as [F|_]; [intros [<-|[]]; exact (step_pointer c i a E F)|].
  destruct (Z.eqb_spec (getDescriptor a) ASSIGN_PTR) as [F|_]; [intros [<-|[]]; exact (step_assignment c i a E F)|]. cbn [orb].
  destruct (structb (getDescriptor a)) eqn:D; [|intros []]. intros H. apply in_seq in H. assert (M : j = i + (j - i)) by lia. rewrite M.
  apply (step_member c i a (j - i) E (proj1 (structb_spec _) D)). lia.
Qed.
Definition mem (l : list nat) (j : nat) : bool := existsb (Nat.eqb j) l.
Lemma mem_in l j : mem l j = true <-> In j l.
Proof. unfold mem. rewrite existsb_exists. split; [intros (x & H & E); apply Nat.eqb_eq in E; subst; exact H|intros H; exists j; split; [exact H|apply Nat.eqb_refl]]. Qed.
Definition closed (c : code) (l : list nat) : bool := forallb (fun i => forallb (mem l) (succs c i)) l.
Lemma closed_reach c l r j : closed c l = true -> In r l -> Reach c r j -> In j l.
Proof.
  intros H Hr R. induction R as [|r x y St _ IH]; [exact Hr|]. apply IH. unfold closed in H. rewrite forallb_forall in H. specialize (H r Hr).
  rewrite forallb_forall in H. apply mem_in. exact (H x (succs_in _ _ _ St)).
Qed.
Lemma path_reach c : forall l r j, (fix ok r l := match l with [] => r =? j | x :: l => mem (succs c r) x && ok x l end) r l = true -> Reach c r j.
Proof.
  induction l as [|x l IH]; intros r j H; cbn in H; [apply Nat.eqb_eq in H; subst; constructor|]. apply andb_true_iff in H. destruct H as (H1 & H2).
  apply (reach_step c r x); [apply succs_step, mem_in; exact H1|exact (IH x j H2)].
Qed.
Lemma ends_by c rank : forallb (fun i => forallb (fun j => rank j <? rank i) (succs c i)) (seq 0 (length c)) = true -> Ends c.
Proof.
  intros H. exists rank. intros i j St. assert (L : i < length c). { apply nth_error_Some. inversion St as [a E D|a E D|a k E D Hk]; congruence. }
  rewrite forallb_forall in H. specialize (H i ltac:(apply in_seq; lia)). rewrite forallb_forall in H. apply Nat.ltb_lt. exact (H j (succs_in _ _ _ St)).
Qed.
Lemma within_by c l r : closed c l = true -> In r l -> forallb (fun i => i <? length c) l = true -> Within c r.
Proof. intros HC Hr H j R. rewrite forallb_forall in H. apply Nat.ltb_lt, H. exact (closed_reach _ _ _ _ HC Hr R). Qed.
Lemma free_by k c l r : closed c l = true -> In r l -> forallb (fun i => match nth_error c i with Some a => negb (existsb (Z.eqb (getDescriptor a)) k) | None => true end) l = true -> Free k c r.
Proof.
  intros HC Hr H j d R (a & E & D) Hin. rewrite forallb_forall in H. specialize (H j (closed_reach _ _ _ _ HC Hr R)). rewrite E in H.
  apply negb_true_iff in H. assert (existsb (Z.eqb (getDescriptor a)) k = true); [|congruence]. apply existsb_exists. exists d. split; [exact Hin|]. apply Z.eqb_eq. exact D.
Qed.
Lemma unshared_by c l r : closed c l = true -> In r l ->
  forallb (fun i => forallb (fun i' => (i =? i') || negb (existsb (fun j => mem (succs c i') j) (succs c i))) l && negb (mem (succs c i) r)) l = true -> Unshared c r.
Proof.
  intros HC Hr H. rewrite forallb_forall in H. split.
  - intros i i' j Ri Ri' S1 S2. specialize (H i (closed_reach _ _ _ _ HC Hr Ri)). apply andb_true_iff in H. destruct H as (H & _). rewrite forallb_forall in H.
    specialize (H i' (closed_reach _ _ _ _ HC Hr Ri')). apply orb_true_iff in H. destruct H as [H|H]; [apply Nat.eqb_eq; exact H|]. exfalso. apply negb_true_iff in H.
    assert (existsb (fun j => mem (succs c i') j) (succs c i) = true); [|congruence]. apply existsb_exists. exists j. split; [exact (succs_in _ _ _ S1)|apply mem_in; exact (succs_in _ _ _ S2)].
  - intros i Ri St. specialize (H i (closed_reach _ _ _ _ HC Hr Ri)). apply andb_true_iff in H. destruct H as (_ & H). apply negb_true_iff in H.
    rewrite (proj2 (mem_in _ _) (succs_in _ _ _ St)) in H. discriminate.
Qed.
Lemma apart_by c l r : closed c l = true -> In r l ->
  forallb (fun t => match nth_error c t with Some a => negb (getDescriptor a =? TIMESTAMP)%Z || ((a =? ATimestamp)%Z && (t + 2 <? length c) && negb (mem l (t + 1)) && negb (mem l (t + 2))) | None => true end) l = true -> TimesApart c r.
Proof.
  intros HC Hr H t R (a & E & D). rewrite forallb_forall in H. specialize (H t (closed_reach _ _ _ _ HC Hr R)). rewrite E, D in H. cbn in H.
  rewrite !andb_true_iff, !negb_true_iff in H. destruct H as (((H1 & H2) & H3) & H4). apply Z.eqb_eq in H1. subst a. split; [exact E|]. split; [apply Nat.ltb_lt; exact H2|].
  split; intros Q; apply (closed_reach _ _ _ _ HC Hr), mem_in in Q; congruence.
Qed.

(** A model; its forward guard: [x:(add 0 obj)], with a reference to another object. *)
Definition assigning : code :=
  [AModel 0 5; IPointer 6; IPointer 6; IPointer 7; IPointer 6; IPointer 6; ASet 0; ASet 1; AssignmentPointer 0 9; Operator 1 2; 0%Z; RPointer 0].
Lemma assignment_missed : guards_accepted 20 assigning = Ok true /\ Refers assigning HLP_FWD_GUARDS.
Proof.
  split; [vm_compute; reflexivity|]. exists 11. split; [apply (path_reach assigning [7; 8; 9; 11]); vm_compute; reflexivity|].
  eexists. split; [reflexivity|vm_compute; reflexivity].
Qed.
(** A model; its forward guard: [(gtr v0 2231s369ms728us)]. *)
Definition comparing : code :=
  [AModel 0 5; IPointer 6; IPointer 6; IPointer 7; IPointer 6; IPointer 6; ASet 0; ASet 1; IPointer 9; Operator 1 2; VLPointer 0; IPointer 12; ADuration; 0%Z; 2231369728%Z].
Lemma duration_refused : guards_accepted 20 comparing = Ok false /\ ~ Refers comparing HLP_FWD_GUARDS /\ ~ Refers comparing HLP_BWD_GUARDS.
Proof.
  split; [vm_compute; reflexivity|].
  assert (Q : forall r, In r [3; 4] -> ~ Refers comparing r).
  { intros r Hr (j & R & a & E & D). assert (C : In j [3; 7; 8; 9; 10; 11; 12; 4; 6]).
    { apply (closed_reach comparing _ r); [vm_compute; reflexivity| |exact R]. destruct Hr as [<-|[<-|[]]]; cbn; tauto. }
    cbn [In] in C. repeat (destruct C as [<-|C]; [vm_compute in E; injection E as <-; vm_compute in D; discriminate|]). destruct C. }
  split; apply Q; [left; reflexivity|right; left; reflexivity].
Qed.

(** Two members with one time. *)
Definition shared : code := [AObject 1 2; IPointer 3; IPointer 3; ATimestamp; 0%Z; 5%Z].
Lemma shared_twice : exists d, init_timestamps 20 1000 shared = Ok d /\ time_at shared 3 = Some 5%Z /\ time_at d 3 = Some 2005%Z.
Proof. eexists. split; [vm_compute; reflexivity|]. split; vm_compute; reflexivity. Qed.
(** A program with a time among its arguments. *)
Definition instance : code := [InstantiatedProgram 1 2; RPointer 0; IPointer 3; ASet 1; IPointer 5; ATimestamp; 0%Z; 5%Z].
Lemma instance_left : init_timestamps 20 1000 instance = Ok instance /\ Reach instance 0 5 /\ kind instance 5 TIMESTAMP /\ time_at instance 5 = Some 5%Z.
Proof.
  split; [vm_compute; reflexivity|]. split; [apply (path_reach instance [2; 3; 4; 5]); vm_compute; reflexivity|].
  split; [eexists; split; [reflexivity|vm_compute; reflexivity]|vm_compute; reflexivity].
Qed.
(** A time that is not known. *)
Definition unknown : code := [AObject 1 1; IPointer 2; UndefinedTimestamp; 4294967295%Z; 4294967295%Z].
Lemma unknown_known : exists d, init_timestamps 20 1000 unknown = Ok d /\ nth_error d 2 = Some ATimestamp /\ time_at d 2 = Some 999%Z.
Proof. eexists. split; [vm_compute; reflexivity|]. split; vm_compute; reflexivity. Qed.
