(** C09, C10: the cell list. *)
From Verif Require Import Base CellList_model CellList_spec CellList_proofs.

(** ** C09 In every reachable state, every allowed operation succeeds and has
    exactly the effect it has on an ordinary sequence, as seen by iteration,
    size, front and back. *)
Theorem C09_list_refines_sequence : forall (A : Type) (eqb : A -> A -> bool) s l m (o : op A),
  reached eqb s l m -> allowed l o ->
  exists s' l', run_op eqb s o = Some s' /\ seq_op eqb l o l' /\ shows s' l'.
Proof. exact @list_refines. Qed.
Print Assumptions C09_list_refines_sequence.

Theorem C09_reachable_lists_are_consistent : forall (A : Type) (eqb : A -> A -> bool) s l m,
  reached eqb s l m -> shows s l.
Proof. exact @reached_shows. Qed.
Print Assumptions C09_reachable_lists_are_consistent.

(** Freed cells are reused and none is lost: the vector holds exactly as many
    cells as the largest size reached since the list was created or cleared. *)
Theorem C09_cells_reused : forall (A : Type) (eqb : A -> A -> bool) s l m,
  reached eqb s l m -> length (cells s) = m.
Proof. exact @cells_reused. Qed.
Print Assumptions C09_cells_reused.

(** Three insertions, an erasure in the middle, one insertion: cell 1 is reused. *)
Example C09_example :
  exists s, run Nat.eqb empty [PushBack 10; PushBack 20; PushFront 5; Erase 0; PushBack 30; Cull (Nat.eqb 5)]%nat = Some s /\
  iterate s = Some [(1, 20); (0, 30)]%nat /\ size s = 2%nat /\ length (cells s) = 3%nat.
Proof. eexists. split; [vm_compute; reflexivity|]. repeat split. Qed.

Example C09_reached : exists s, reached Nat.eqb s [(0, 10); (1, 20)]%nat 2 /\ allowed [(0, 10); (1, 20)]%nat (Erase (A := nat) 0).
Proof.
  eexists. split; [|left; reflexivity].
  refine (reached_step Nat.eqb _ [(0, 10)]%nat 1 (PushBack 20%nat) _ [(0, 10); (1, 20)]%nat _ I _ _).
  - refine (reached_step Nat.eqb _ [] 0 (PushBack 10%nat) _ [(0, 10)]%nat _ I _ _).
    + apply reached_empty.
    + vm_compute. reflexivity.
    + reflexivity.
  - vm_compute. reflexivity.
  - reflexivity.
Qed.

(** ** C10 Locations *)

(** The location reported by [push_back] is where the new element lives, and no
    live element had it. *)
Theorem C10_push_back_location : forall (A : Type) (eqb : A -> A -> bool) s l m t,
  reached eqb s l m ->
  exists s' h, push_back s t = Some (s', Some h) /\ iterate s' = Some (l ++ [(h, t)]) /\ ~ In h (map fst l).
Proof. exact @push_back_location. Qed.
Print Assumptions C10_push_back_location.

(** It designates that element through any later history that does not take
    the element out. *)
Theorem C10_location_stable : forall (A : Type) (eqb : A -> A -> bool) h a s l m s' l',
  reached eqb s l m -> In (h, a) l -> later eqb h a s l s' l' ->
  In (h, a) l' /\ option_map data (nth_error (cells s') h) = Some a.
Proof. exact @location_stable. Qed.
Print Assumptions C10_location_stable.

(** Erasing by location takes out exactly the element that lives there. *)
Theorem C10_erase_by_location : forall (A : Type) (eqb : A -> A -> bool) h a s l1 l2 m,
  reached eqb s (l1 ++ (h, a) :: l2) m ->
  exists s', erase s h = Some (s', match l2 with (j, _) :: _ => Some j | [] => None end) /\
    iterate s' = Some (l1 ++ l2).
Proof. exact @erase_location. Qed.
Print Assumptions C10_erase_by_location.

(** [push_front] reports the right location only when it reuses a cell. *)
Theorem C10_push_front_location_partial : forall (A : Type) (eqb : A -> A -> bool) s l m t,
  reached eqb s l m -> (length l < m)%nat ->
  exists s' h, push_front s t = Some (s', Some h) /\ iterate s' = Some ((h, t) :: l) /\ ~ In h (map fst l).
Proof. exact @push_front_location. Qed.
Print Assumptions C10_push_front_location_partial.

Theorem C10_push_front_location_refuted : exists (s : cells_list nat) l m t s' h,
  reached Nat.eqb s l m /\ push_front s t = Some (s', Some h) /\
  option_map data (nth_error (cells s') h) <> Some t.
Proof. exact push_front_location_refuted. Qed.
Print Assumptions C10_push_front_location_refuted.

(** The element at location 0 survives a removal, a cull and insertions around it. *)
Example C10_example : exists s s',
  run Nat.eqb empty [PushBack 10; PushBack 20]%nat = Some s /\
  run Nat.eqb s [PushFront 30; Remove 20; Cull (Nat.eqb 30); PushBack 40]%nat = Some s' /\
  iterate s' = Some [(0, 10); (2, 40)]%nat.
Proof. do 2 eexists. split; [vm_compute; reflexivity|]. split; vm_compute; reflexivity. Qed.
