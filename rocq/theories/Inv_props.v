(** Properties C93 to C97 (predictions, simulations, invalidation). *)
From Verif Require Import Base Atom_model Prd_model Prd_spec Prd_proofs.
From Verif Require Inv_model Inv_spec Inv_proofs.
From Coq Require Import Permutation.

(** ** C93 The simulations of a prediction *)

(** Full statement: the simulation at index [i] of a prediction is the [i]-th that
    it was made with, for each [i] up to their number (factory.h:463-467). *)
Theorem C93_indices_refuted : exists op thr t l i, (length l < 256)%nat /\ (i < length l)%nat /\
  get_simulation (construct op thr t l []) (Z.of_nat i) <> nth_error l i.
Proof. exact order_refuted. Qed.
Print Assumptions C93_indices_refuted.
Theorem C93_number_refuted : exists op thr t l, l <> [] /\ is_simulation (construct op thr t l []) = false.
Proof. exact many_refuted. Qed.
Print Assumptions C93_number_refuted.
(** As it is, with fewer than 256 simulations: visiting all the indices gives all
    the simulations, the last one first. *)
Theorem C93_all_visited_partial : forall op thr t l vs, (length l < 256)%nat ->
  visited (construct op thr t l vs) = map Some (rotated l) /\ Permutation (rotated l) l.
Proof. exact (fun op thr t l vs L => conj (visited_is op thr t l vs L) (rotated_perm l)). Qed.
Print Assumptions C93_all_visited_partial.
Theorem C93_membership_partial : forall op thr t l vs s, (length l < 256)%nat ->
  has_simulation (construct op thr t l vs) s = true <-> In s l.
Proof. exact has_is. Qed.
Print Assumptions C93_membership_partial.
Theorem C93_is_simulation_partial : forall op thr t l vs, (length l < 256)%nat ->
  is_simulation (construct op thr t l vs) = true <-> l <> [].
Proof. exact is_simulation_is. Qed.
Print Assumptions C93_is_simulation_partial.
Example C93_example : visited (construct 1 0 5 [7; 8; 9]%nat []) = map Some [9; 7; 8]%nat.
Proof. reflexivity. Qed.

(** ** C94 The simulation of a prediction for a root *)

(** Full statement: the first simulation with the given root (factory.h:474-478). *)
Theorem C94_first_refuted : exists op thr t l root r, (length l < 256)%nat /\
  simulation_of_root root r (construct op thr t l []) <> Some (first_of_root root r l).
Proof. exact first_refuted. Qed.
Print Assumptions C94_first_refuted.
(** Proved: one with that root, and none only if there is none ... *)
Theorem C94_some_partial : forall op thr t l vs root r, (length l < 256)%nat ->
  (forall s, simulation_of_root root r (construct op thr t l vs) = Some (Some s) -> In s l /\ root s = r) /\
  (simulation_of_root root r (construct op thr t l vs) = Some None <-> forall s, In s l -> root s <> r).
Proof. exact root_found. Qed.
Print Assumptions C94_some_partial.
(** ... the first one if no two simulations have the same root. *)
Theorem C94_first_partial : forall op thr t l vs root r, (length l < 256)%nat -> NoDup (map root l) ->
  simulation_of_root root r (construct op thr t l vs) = Some (first_of_root root r l).
Proof. exact root_unique. Qed.
Print Assumptions C94_first_partial.
Example C94_example : NoDup (map (fun s => s - 4)%nat [7; 8; 9]%nat) /\
  simulation_of_root (fun s => s - 4)%nat 5 (construct 1 0 5 [7; 8; 9]%nat []) = Some (Some 9%nat).
Proof. split; [repeat constructor; cbn; intuition lia|reflexivity]. Qed.

(** ** C95 Predictions made from predictions *)

(** Full statement: a prediction made from another one belongs to the same
    simulations and depends on the same validities. *)
Theorem C95_inherited_refuted : exists op thr t l q,
  derive op thr t (construct op thr t l []) = Some q /\ visited q = [] /\ l <> [].
Proof. exact derive_refuted. Qed.
Print Assumptions C95_inherited_refuted.
(** Proved, through any number of generations, for fewer than 256 simulations. *)
Theorem C95_inherited_partial : forall c op thr t l vs, (length l < 256)%nat ->
  exists q l', chain (construct op thr t l vs) c = Some q /\ validities q = vs /\
    visited q = map Some l' /\ Permutation l' l.
Proof. exact chain_sims. Qed.
Print Assumptions C95_inherited_partial.
Example C95_example : option_map visited (chain (construct 1 0 5 [7; 8; 9]%nat [3%nat]) [(1, 0, 6%nat); (1, 0, 4%nat)]) = Some (map Some [7; 8; 9]%nat).
Proof. reflexivity. Qed.

Import Inv_model Inv_spec Inv_proofs.
Local Open Scope nat_scope.

(** ** C96 What is invalidated *)

(** After any history of objects made, given more to hold, invalidated and checked,
    an object is reported as invalidated if and only if it rests, directly or not,
    on one that was invalidated (or is the simulation of a goal that was).  The
    checks made before, which set flags, do not matter. *)
Theorem C96_invalidated_iff : forall rank fuel l, (forall x, rank x < fuel) -> fine rank start l ->
  exists H fl, run fuel start none l = Some (H, fl) /\
    forall o, exists fl' b, is_invalidated H fuel fl o = Some (fl', b) /\
      (b = true <-> exists d, rests (shapes_after start l) o d /\ hit l d).
Proof. exact answer_exact. Qed.
Print Assumptions C96_invalidated_iff.
Example C96_example : (forall x, w_rank x < 10) /\ fine w_rank start w_history /\
  match run 10 start none w_history with
  | Some (H, fl) => option_map snd (is_invalidated H 10 fl 8) = Some true /\ option_map snd (is_invalidated H 10 fl 0) = Some false
  | None => False
  end.
Proof. exact (conj w_ranked (conj w_fine w_answer)). Qed.

(** ** C97 Invalidation is for good *)
Theorem C97_invalidated_stays : forall rank fuel l1 l2, (forall x, rank x < fuel) -> fine rank start l1 -> fine rank start (l1 ++ l2) ->
  forall o H fl fl', run fuel start none l1 = Some (H, fl) -> is_invalidated H fuel fl o = Some (fl', true) ->
  exists H2 fl2 fl3, run fuel start none (l1 ++ l2) = Some (H2, fl2) /\ is_invalidated H2 fuel fl2 o = Some (fl3, true).
Proof. exact stays_observed. Qed.
Print Assumptions C97_invalidated_stays.
Example C97_example : fine w_rank start (w_history ++ []) /\ fine w_rank start w_history.
Proof. rewrite app_nil_r. exact (conj w_fine w_fine). Qed.
