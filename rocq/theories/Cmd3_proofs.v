(** Cases in which the commands of programs do not do what they are for. *)
From Verif Require Import Base Cmd_model Cmd_spec Cmd_proofs.
Local Open Scope nat_scope.

Definition no_device (d : nat) : bool := false.
Definition a_device (d : nat) : bool := true.
(** An injection, then a function that is not known. *)
Definition half : list production := [mkp true (Inj (Existing 7) true) 9 [7] 0; mkp true Unknown 3 [] 0].
Theorem half_refuted : exists l e n, inject_productions no_device 1 [] 100 [] false 0 0 100 1 false true l = Some (false, e, n) /\ carried_out e <> [].
Proof. exists half, [Injected (Old 7)], None. split; [reflexivity|discriminate]. Qed.

(** A new object injected by a production of red: the program is injected. *)
Definition fresh_red : list production := [mkp true (Inj (Described 3) true) 9 [] 20].
Theorem red_object_refuted : exists l e n,
  Forall known l /\ Forall no_long_probe l /\
  inject_productions no_device 1 [] 100 [] false 0 0 100 1 true true l = Some (true, e, n) /\ carried_out e = [Injected Self] /\
  all_meant no_device (0, 0)%Z 0 l = [Injected (New 0)].
Proof.
  exists fresh_red, [Injected Self], None. repeat split; try reflexivity; repeat constructor; discriminate.
Qed.
(** The same beyond the end of the code. *)
Theorem red_code_refuted : exists l, Forall known l /\ Forall no_long_probe l /\
  inject_productions no_device 1 [] 100 [] false 0 0 100 1 true true l = None.
Proof.
  exists [mkp true (Inj (Described 3) true) 9 [] 120]. repeat split; try reflexivity; repeat constructor; discriminate.
Qed.
(** A probe of 255 objects. *)
Theorem probe_refuted : exists l, Forall known l /\ forallb ok l = true /\
  inject_productions no_device 1 [] 100 [] false 0 0 100 1 false true l = None.
Proof. exists [mkp true (Probe 255) 9 [] 0]. repeat split; try reflexivity; repeat constructor; discriminate. Qed.

(** A stop: one element more is announced than is written. *)
Definition stopping : list production := [mkp true (Inj (Existing 7) true) 9 [7] 0; mkp true Stop 3 [] 0].
Theorem stop_refuted : exists l e n, inject_productions no_device 1 [2] 100 [5] true 0 0 100 1 false true l = Some (true, e, Some n) /\
  words n 7 = Some (WSet 2) /\ says (sizes_of l) n 8 (Command 0) /\ words n 9 = None.
Proof.
  exists stopping. eexists _, _. split; [vm_compute; reflexivity|]. split; [vm_compute; reflexivity|]. split; [|vm_compute; reflexivity].
  exists 10. split; [vm_compute; reflexivity|]. cbn [sizes_of nth_error stopping size].
  intros j J. do 9 (destruct j as [|j]; [vm_compute; reflexivity|]). lia.
Qed.
(** 128 commands to devices: no element is announced. *)
Definition many : list production := repeat (mkp true (Device 0) 5 [] 0) 128.
Lemma many_checked : match inject_productions a_device 1 [] 100 [5] true 0 0 100 1 false true many with
  | Some (true, _, Some n) => match words n 3, words n 6 with Some (WI 6), Some (WSet 0) => true | _, _ => false end
  | _ => false
  end = true.
Proof. vm_compute. reflexivity. Qed.
Theorem many_refuted : exists l e n, Forall plain l /\ inject_productions a_device 1 [] 100 [5] true 0 0 100 1 false true l = Some (true, e, Some n) /\
  length (all_news a_device 0 l) = 256 /\ words n 3 = Some (WI 6) /\ words n 6 = Some (WSet 0).
Proof.
  pose proof many_checked as M. exists many.
  destruct (inject_productions a_device 1 [] 100 [5] true 0 0 100 1 false true many) as [[[[|] e] [n|]]|]; try discriminate.
  exists e, n. split; [apply Forall_forall; intros p H; apply repeat_spec in H; subst; exact I|]. split; [reflexivity|].
  split; [vm_compute; reflexivity|]. destruct (words n 3) as [[| |[|[|[|[|[|[|[|i]]]]]]]| | |]|]; try discriminate.
  destruct (words n 6) as [[|[|k]| | | |]|]; try discriminate. split; reflexivity.
Qed.
(** An object without a view: a notification of nothing. *)
Theorem empty_refuted : exists l e n, Forall plain l /\ inject_productions no_device 1 [] 100 [5] true 0 0 100 1 false true l = Some (true, e, Some n) /\
  all_news no_device 0 l = [] /\ notified e = [5].
Proof. exists [mkp true (Inj (Described 3) false) 9 [] 0]. eexists _, _. repeat split; try (vm_compute; reflexivity). repeat constructor. Qed.

(** * Paths *)
(** A program 1, of code 2; its view is in group 3. *)
Definition w_heap : heap := mkheap
  (fun o => match o with
            | 1 => Some (mkbody [Head KObject 2; Rp 0; Ip 3; Head KSet 1; Leaf 5] [2])
            | 2 => Some (mkbody [Head KObject 1; Leaf 6] [])
            | 3 => Some (mkbody (Head KGroup 13 :: repeat (Leaf 0) 13) [])
            | 4 => Some (mkbody [Head KObject 2; Ip 3; Leaf 9; Head KObject 1; Leaf 8] [])
            | _ => None
            end)
  (fun v => match v with
            | 1 => Some (mkvbody [Head KSet 6; Leaf 0; Leaf 0; Leaf 0; Leaf 0; Rp 0; Rp 1] [3; 3] 3 77)
            | _ => None
            end).
Definition w_this : context := mkc 1 (Some 1) false 0.
Definition w_group : context := mkc 3 (Some 1) false 0.

(** The group of the view: the code of the program is found. *)
Theorem view_group_refuted : exists h c p d, walk 10 h c p = Some (At d) /\ c_obj d = 2 /\
  exists e, path_to h c p e /\ c_obj e = 3.
Proof.
  exists w_heap, w_this, [ToView; ToMember 5]. eexists. split; [vm_compute; reflexivity|]. split; [reflexivity|].
  eexists. split; [eapply path_view; [reflexivity|]|].
  - eapply path_member; [|constructor]. eapply leads_view_ref; reflexivity.
  - reflexivity.
Qed.

(** A member of a group, the group being an input or [this]: taken as one of a view. *)
Theorem group_refuted : exists h c d m, stays h c [] /\ path_to h c [] d /\ named h d m = Some (GroupAt 3 m) /\
  forall fuel, get_member fuel h c [] m = Some (ViewOf 3 0 m).
Proof.
  exists w_heap, w_group, w_group, 1. repeat split; try constructor.
  intros q i s e d r E. destruct q; discriminate.
Qed.
(** A group reached by a reference: undefined. *)
Theorem group_undefined_refuted : exists h c d m, stays h c [] /\ path_to h c [] d /\ named h d m = Some (GroupAt 3 m) /\
  forall fuel, get_member fuel h c [] m = None.
Proof.
  exists w_heap, (mkc 3 None false 0), (mkc 3 None false 0), 1. repeat split; try constructor.
  intros q i s e d r E. destruct q; discriminate.
Qed.
(** A member of a structure inside an object: the member of the object of that number. *)
Theorem inner_refuted : exists h c p d m, path_to h c p d /\ named h d m = Some (ObjectAt 4 4) /\
  forall fuel, 2 <= fuel -> get_member fuel h c p m = Some (ObjectAt 4 1).
Proof.
  exists w_heap, (mkc 4 None false 0), [ToMember 1], (mkc 4 None false 3), 1. split; [|split].
  - eapply path_member; [|constructor]. eapply leads_in; [reflexivity|]. eapply leads_head. reflexivity.
  - reflexivity.
  - intros [|[|fuel]] F; try lia. reflexivity.
Qed.

(** * red *)
(** Odd numbers, or those in the pattern. *)
Definition odds : section := mksec false Nat.odd (fun _ => []) [1].
Definition nothing : section := mksec false (fun _ => false) (fun _ => []) [2].
Theorem red_stops_refuted : exists pos neg l, definite pos /\ definite neg /\
  reduced pos neg l = [(1, 1); (3, 1)] /\ red pos neg l = ([(1, 1)], true).
Proof. exists odds, nothing, [Some 1; Some 2; Some 3]. repeat split; intros x []. Qed.
Theorem red_guard_refuted : exists pos neg l, anti pos = false /\ definite neg /\ reduced pos neg l = [] /\ red pos neg l = ([(1, 1)], true).
Proof. exists (mksec false Nat.odd (fun _ => [Gives false]) [1]), nothing, [Some 1]. repeat split. intros x []. Qed.
Theorem red_anti_refuted : exists pos neg l, anti pos = true /\ definite neg /\ reduced pos neg l = [(2, 1)] /\ red pos neg l = ([], false).
Proof. exists (mksec true Nat.odd (fun _ => []) [1]), nothing, [Some 2]. repeat split. intros x []. Qed.

(** * Facts of devices *)
Theorem tolerance_refuted : exists now reference period tolerance,
  (reference <= now)%Z /\ (0 < period)%Z /\ (0 <= tolerance < period)%Z /\ (fact_before now reference period < fact_after now reference period tolerance)%Z.
Proof. exists 1000%Z, 0%Z, 100%Z, 60%Z. repeat split; vm_compute; congruence. Qed.
(** The execution is before the interval of the fact. *)
Theorem early_refuted : exists now reference period tolerance,
  (reference <= now)%Z /\ (0 < period)%Z /\ (0 <= tolerance)%Z /\ (2 * tolerance < period)%Z /\ (now < fact_after now reference period tolerance)%Z.
Proof. exists 1000%Z, 0%Z, 100%Z, 10%Z. repeat split; vm_compute; congruence. Qed.
