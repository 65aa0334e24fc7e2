(** C71: commitment to solutions; C72: damaging simulations; C73: simulated requirements. *)
From Verif Require Import Base Float32 Sol_model Sol_spec Sol_proofs.

(** Mandatory solutions are not committed to when there is no optional one. *)
Theorem C71_mandatory_refuted : exists now mine sm d st, fail_m st = [] /\ fail_o st = [] /\ good_m st <> [] /\ (forall s, In s (good_m st) -> usable d s) /\ snd (commit now mine sm d st) = [].
Proof. exact mandatory_not_committed. Qed.
Print Assumptions C71_mandatory_refuted.
(** The chosen optional solution has no confidence at all, although another one is
    certain. *)
Theorem C71_best_refuted : exists now mine sm st b, fail_m st = [] /\ fail_o st = [] /\ good_m st = [] /\ (forall s, In s (good_o st) -> usable nothing_dead s) /\
  snd (commit now mine sm nothing_dead st) = [b] /\ fst (sm (s_sim b)) = S754_zero false /\
  exists s, In s (good_o st) /\ fst (sm (s_sim s)) = fone /\ now < snd (sm (s_sim s)).
Proof. exact worst_chosen. Qed.
Print Assumptions C71_best_refuted.
(** An invalidated mandatory solution is committed to. *)
Theorem C71_invalidated_refuted : exists now mine sm d st s, fail_m st = [] /\ fail_o st = [] /\ In s (snd (commit now mine sm d st)) /\ d (s_sim s) = true /\ s_gone s = true.
Proof. exact dead_committed. Qed.
Print Assumptions C71_invalidated_refuted.
(** If a mandatory solution makes a stronger goal fail, nothing is committed to. *)
Theorem C71_cave_in : forall now mine sm d st s, In s (fail_m st) -> usable d s -> damaging now mine s -> snd (commit now mine sm d st) = [].
Proof. exact commit_caves. Qed.
Print Assumptions C71_cave_in.
(** Otherwise, if there is an optional solution that is usable and harmless, and the
    scores are numbers: the best of those, then all mandatory ones. *)
Theorem C71_best_partial : forall now mine sm d st,
  (forall s, In s (fail_m st) -> usable d s -> ~ damaging now mine s) ->
  (forall s, In s (good_o st) -> is_number (score now sm s)) ->
  (exists s, In s (good_o st) /\ usable d s /\ harmless now mine st s) ->
  exists b, snd (commit now mine sm d st) = b :: good_m st /\ In b (good_o st) /\ usable d b /\ harmless now mine st b /\
    forall s, In s (good_o st) -> usable d s -> harmless now mine st s -> flt (score now sm b) (score now sm s) = false.
Proof. exact commit_best. Qed.
Print Assumptions C71_best_partial.
(** If there is none, nothing. *)
Theorem C71_none : forall now mine sm d st, (forall s, In s (good_o st) -> ~ (usable d s /\ harmless now mine st s)) -> snd (commit now mine sm d st) = [].
Proof. exact commit_none. Qed.
Print Assumptions C71_none.
(** Afterwards all stored simulations are stopped, and no other one. *)
Theorem C71_stopped : forall now mine sm d st n, fst (commit now mine sm d st) n = true <-> d n = true \/ exists s, In s (all_stored st) /\ s_sim s = n.
Proof. exact commit_stops. Qed.
Print Assumptions C71_stopped.
(** Three optional solutions of which the best one harms, and a mandatory one. *)
Definition a_store : stored :=
  mkstored [mksol 9 false 9 (Some (half, 200))] [mksol 8 false 1 (Some (fone, 10))] [mksol 4 false 4 None] [mksol 1 false 1 None; mksol 2 false 2 None; mksol 3 false 3 None].
Definition some_sims : sims := fun n => match n with 1%nat => (fone, 20) | 2%nat => (half, 50) | _ => (fone, 60) end.
Example C71_case : snd (commit 0 (fone, 100) some_sims nothing_dead a_store) = [mksol 3 false 3 None; mksol 4 false 4 None] /\
  (forall s, In s (fail_m a_store) -> usable nothing_dead s -> ~ damaging 0 (fone, 100) s) /\
  (forall s, In s (good_o a_store) -> is_number (score 0 some_sims s)) /\
  (exists s, In s (good_o a_store) /\ usable nothing_dead s /\ harmless 0 (fone, 100) a_store s).
Proof.
  split; [vm_compute; reflexivity|]. split; [|split].
  - intros s [<-|[]] _ D. apply stronger_iff in D. vm_compute in D. discriminate.
  - intros s [<-|[<-|[<-|[]]]]; split; try (vm_compute; reflexivity); vm_compute; discriminate.
  - exists (mksol 3 false 3 None). split; [right; right; left; reflexivity|]. split; [split; reflexivity|]. intros f [<-|[]] _ E; discriminate.
Qed.

(** After the decision of a simulated goal, a simulation that makes a stronger goal fail
    still runs: the first mandatory one found hides the others. *)
Theorem C72_stopped_refuted : exists now mine d st s, In s (fail_o st) /\ d (s_sim s) = false /\ damaging now mine s /\ scommit now mine d st (s_sim s) = false.
Proof. exact damage_left. Qed.
Print Assumptions C72_stopped_refuted.
(** If no mandatory one is damaging, exactly the damaging optional ones are stopped. *)
Theorem C72_stopped_partial : forall now mine d st, (forall s, In s (fail_m st) -> d (s_sim s) = false -> ~ damaging now mine s) ->
  forall n, scommit now mine d st n = true <-> d n = true \/ exists f, In f (fail_o st) /\ s_sim f = n /\ damaging now mine f.
Proof. exact scommit_spec. Qed.
Print Assumptions C72_stopped_partial.
(** Otherwise, exactly the first mandatory one. *)
Theorem C72_first : forall now mine d st p s q, fail_m st = p ++ s :: q -> (forall x, In x p -> d (s_sim x) = false -> ~ damaging now mine x) -> d (s_sim s) = false -> damaging now mine s ->
  forall n, scommit now mine d st n = true <-> n = s_sim s \/ d n = true.
Proof. exact scommit_first. Qed.
Print Assumptions C72_first.
Example C72_case : map (scommit 0 (fone, 100) nothing_dead a_store) [1; 2; 3; 4; 9]%nat = [true; false; false; false; false].
Proof. vm_compute. reflexivity. Qed.

(** The monitor of a simulated requirement decides twice: a simulation is stopped that one
    decision leaves running. *)
Theorem C73_once_refuted : exists now mine st n, let s := mksr nothing_dead false true in
  sr_dead (sr_update now mine st s) n = false /\ sr_dead (sr_horizon now mine st s) n = true.
Proof. exact decides_twice. Qed.
Print Assumptions C73_once_refuted.
(** It is removed at the horizon, after these two decisions. *)
Theorem C73_removed : forall now mine st s, sr_invalid s = false -> sr_listed (sr_horizon now mine st s) = false /\
  forall n, sr_dead (sr_horizon now mine st s) n = scommit now mine (scommit now mine (sr_dead s) st) st n.
Proof. exact sr_removed. Qed.
Print Assumptions C73_removed.
(** If no mandatory simulation is damaging, the second one changes nothing. *)
Theorem C73_once_partial : forall now mine st s, sr_invalid s = false -> (forall x, In x (fail_m st) -> sr_dead s (s_sim x) = false -> ~ damaging now mine x) ->
  forall n, sr_dead (sr_horizon now mine st s) n = sr_dead (sr_update now mine st s) n.
Proof. exact sr_once. Qed.
Print Assumptions C73_once_partial.
(** If the goal is invalidated before, nothing is done; the monitor stays in the list. *)
Theorem C73_invalidated : forall now mine st s, sr_invalid s = true -> sr_horizon now mine st s = s.
Proof. exact sr_stays. Qed.
Print Assumptions C73_invalidated.
Example C73_case : map (sr_dead (sr_horizon 0 (fone, 100) a_store (mksr nothing_dead false true))) [1; 2]%nat = [true; false].
Proof. vm_compute. reflexivity. Qed.
