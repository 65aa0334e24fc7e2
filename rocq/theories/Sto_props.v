(* C192 to C198: what a model keeps for later. *)
From Coq Require Import ZArith QArith List Bool Arith.
From Verif Require Import Sto_model Sto_spec Sto_proofs Sto2_proofs.
Import ListNotations.
Open Scope Z_scope.

(* C192.  A requirement that comes after the facts is used with the facts that
   still hold, each once, the latest first. *)
Theorem C192_late : forall clash chains es k r,
  named es -> nth_error (jobs (caches (run clash chains es))) k = Some r ->
  again (caches (run clash chains (es ++ [Batch false k]))) =
  again (caches (run clash chains es)) ++ map (fun f => (f, r))
    (filter (open_fact es) (once (inputs actual es)) ++
     filter (fun f => open_target es f && (time es <? until f)) (once (inputs foreseen es))).
Proof. exact late. Qed.
Print Assumptions C192_late.
(* The requirement is done with then. *)
Theorem C192_once : forall clash chains es k r, nth_error (jobs (caches (run clash chains es))) k = Some r ->
  exists l1 l2, jobs (caches (run clash chains es)) = l1 ++ r :: l2 /\ length l1 = k /\
    jobs (caches (run clash chains (es ++ [Batch false k]))) = l1 ++ l2.
Proof. exact job_done. Qed.
Print Assumptions C192_once.
(* Every positive requirement will be, and no other. *)
Theorem C192_job : forall clash chains es r e2,
  rneg r = false -> (forall k, ~ In (Batch false k) e2) -> In r (jobs (caches (run clash chains (es ++ Store r :: e2)))).
Proof. exact job_kept. Qed.
Print Assumptions C192_job.
Theorem C192_from : forall clash chains es r,
  In r (jobs (caches (run clash chains es))) -> In (Store r) es /\ rneg r = false.
Proof. exact job_from. Qed.
Print Assumptions C192_from.

Definition fact1 := Fa 1 0 50 None false.
Definition fact2 := Fa 2 0 20 None false.
Definition fact3 := Fa 3 0 90 None false.
Definition fact4 := Fa 4 0 90 None false.
Definition weak1 := Re 7 false [] 0 100 1 0.
Definition events1 := [Input fact1; Input fact2; Input fact3; Input fact4; Input fact1; Pass 20; Look 2; Kill 4; Store weak1].
Definition never (a b : nat) := false.
Definition always (a b : nat) := true.
Example C192_case : named events1 /\ nth_error (jobs (caches (run never never events1))) 0 = Some weak1 /\
  again (caches (run never never (events1 ++ [Batch false 0]))) = [(fact3, weak1); (fact1, weak1)].
Proof.
  split; [|split; reflexivity]. intros f g F G. cbn in F, G.
  repeat (destruct F as [F|F]; [try discriminate F; injection F as <-|]); try destruct F;
  repeat (destruct G as [G|G]; [try discriminate G; injection G as <-|]); try destruct G; cbn; intros E; try discriminate E; reflexivity.
Qed.

(* C193.  The same for predictions of which the target still holds. *)
Theorem C193_refuted : forall clash chains, exists es k f r,
  named es /\ In (Input f) es /\ foreseen f = true /\ open_target es f = true /\ In (Store r) es /\
  nth_error (jobs (caches (run clash chains es))) k = Some r /\
  again (caches (run clash chains (es ++ [Batch false k]))) = [].
Proof.
  intros. exists [Pass 10; Input (Fa 1 10 10 (Some (5, 100)) false); Store (Re 7 false [] 0 100 1 0)], 0%nat,
    (Fa 1 10 10 (Some (5, 100)) false), (Re 7 false [] 0 100 1 0).
  split.
  { intros f g F G. cbn in F, G. repeat (destruct F as [F|F]; [try discriminate F; injection F as <-|]); try destruct F;
    repeat (destruct G as [G|G]; [try discriminate G; injection G as <-|]); try destruct G; reflexivity. }
  split; [right; left; reflexivity|]. split; [reflexivity|]. split; [reflexivity|]. split; [right; right; left; reflexivity|]. split; reflexivity.
Qed.
Print Assumptions C193_refuted.
(* Predictions are facts of the moment at which they are made: none is ever used. *)
Theorem C193_none_partial : forall clash chains es,
  (forall e1 f e2, es = e1 ++ Input f :: e2 -> foreseen f = true -> until f <= time e1) ->
  forall f r, In (f, r) (again (caches (run clash chains es))) -> target f = None.
Proof. intros clash chains es H. exact (proj2 (none_predicted clash chains es H)). Qed.
Print Assumptions C193_none_partial.
Definition pred1 := Fa 1 10 10 (Some (5, 100)) false.
Example C193_case :
  (forall e1 f e2, [Pass 10; Input pred1; Input fact3; Store weak1; Batch false 0] = e1 ++ Input f :: e2 -> foreseen f = true -> until f <= time e1) /\
  again (caches (run never never [Pass 10; Input pred1; Input fact3; Store weak1; Batch false 0])) = [(fact3, weak1)].
Proof.
  split; [|reflexivity]. intros e1 f e2 H F.
  destruct e1 as [|? [|? [|? [|? [|? [|? ?]]]]]]; cbn in H; inversion H; subst; try discriminate F; cbn; discriminate.
Qed.

(* C194.  The same for the model in the secondary group. *)
Theorem C194_refuted : forall clash chains, exists es k f r,
  In (Input2 f) es /\ actual f = true /\ open_fact es f = true /\ In (Store r) es /\
  nth_error (jobs2 (caches (run clash chains es))) k = Some r /\
  again2 (caches (run clash chains (es ++ [Batch true k]))) = [].
Proof.
  intros. exists [Input2 (Fa 1 0 50 None false); Store (Re 7 false [] 0 100 1 0)], 0%nat, (Fa 1 0 50 None false), (Re 7 false [] 0 100 1 0).
  split; [left; reflexivity|]. split; [reflexivity|]. split; [reflexivity|]. split; [right; left; reflexivity|]. split; reflexivity.
Qed.
Print Assumptions C194_refuted.
Theorem C194_none_partial : forall clash chains es, again2 (caches (run clash chains es)) = [].
Proof. intros. exact (proj2 (proj2 (none_second clash chains es))). Qed.
Print Assumptions C194_none_partial.

(* C195.  Each requirement is kept where it belongs for as long as it lasts: the
   current ones in a list are all those stored, the latest first. *)
Theorem C195_kept : forall clash chains es,
  let s := demands (run clash chains es) in
  filter (current es) (rpos s) = filter (current es) (stored false false es) /\
  filter (current es) (rneg_ s) = filter (current es) (stored false true es) /\
  filter (current es) (spos s) = filter (current es) (stored true false es) /\
  filter (current es) (sneg s) = filter (current es) (stored true true es) /\
  filter (current es) (rpos2 s) = filter (current es) (stored2 false es) /\
  filter (current es) (rneg2 s) = filter (current es) (stored2 true es).
Proof. exact kept_reqs. Qed.
Print Assumptions C195_kept.
Definition weak2 := Re 8 false [1; 2]%nat 0 100 (1 # 2) 4.
Definition strong2 := Re 9 true [1]%nat 0 100 1 5.
Definition old1 := Re 5 false [] 0 5 1 0.
Definition events2 := [Store old1; Store weak1; Store weak2; Pass 10; Store strong2; LookReq false false 3].
Example C195_case :
  rpos (demands (run never never events2)) = [weak1] /\ spos (demands (run never never events2)) = [weak2] /\
  sneg (demands (run never never events2)) = [strong2] /\ rpos2 (demands (run never never events2)) = [weak1; old1] /\
  filter (current events2) (stored2 false events2) = [weak1].
Proof. repeat split. Qed.

(* C196.  A simulated prediction made on a weak requirement falls if a strong one
   that opposes it in the same simulation comes, and not otherwise. *)
Theorem C196_only : forall clash chains es p,
  falls (demands (run clash chains es)) p = true ->
  exists e1 r e2 e q, es = e1 ++ Store r :: e2 /\ In (Store e) e1 /\ opposes clash e r /\ mixed e1 = true /\
    grounded e1 q (rid e) /\ grounded es p (rid e).
Proof. exact falls_sound. Qed.
Print Assumptions C196_only.
Theorem C196_falls : forall clash chains e1 r e2 e p q,
  In (Store e) e1 -> current e1 e = true -> opposes clash e r -> mixed e1 = true ->
  grounded e1 q (rid e) -> grounded (e1 ++ Store r :: e2) p (rid e) ->
  falls (demands (run clash chains (e1 ++ Store r :: e2))) p = true.
Proof. exact falls_complete. Qed.
Print Assumptions C196_falls.
Definition events3 := [Counts 1 1; Store weak2; Attach 20 8; Pass 10].
Example C196_case :
  In (Store weak2) events3 /\ current events3 weak2 = true /\ opposes always weak2 strong2 /\ mixed events3 = true /\
  grounded events3 20 8 /\ falls (demands (run always never events3)) 20 = false /\
  falls (demands (run always never (events3 ++ [Store strong2]))) 20 = true /\
  falls (demands (run always never (events3 ++ [Store strong2; Attach 21 8]))) 21 = true.
Proof.
  split; [right; left; reflexivity|]. split; [reflexivity|]. split.
  { split; [reflexivity|]. split; [reflexivity|]. split; [exists 1%nat; split; [reflexivity|left; reflexivity]|]. split; [reflexivity|discriminate]. }
  split; [reflexivity|]. split; [exists [Counts 1 1; Store weak2], [Pass 10]; split; reflexivity|]. repeat split.
Qed.

(* C197.  It falls whenever a strong requirement that is at least as sure clashes
   with its ground in one of its simulations, or in fact. *)
Theorem C197_refuted : exists clash chains es e p q r1 r2,
  clash (rinst e) (rinst r1) = true /\ clash (rinst e) (rinst r2) = true /\
  In (Store e) es /\ current es e = true /\ mixed es = true /\ grounded es p (rid e) /\ In q (rsims e) /\
  rneg r1 = true /\ In q (rsims r1) /\ (rcfd e <= rcfd r1)%Q /\ rneg r2 = true /\ rsims r2 = [] /\ (rcfd e <= rcfd r2)%Q /\
  falls (demands (run clash chains (es ++ [Store r1; Store r2]))) p = false.
Proof.
  exists always, never, events3, weak2, 20%nat, 1%nat, (Re 9 true [1; 2]%nat 0 100 1 5), (Re 10 true [] 0 100 1 5).
  split; [reflexivity|]. split; [reflexivity|]. split; [right; left; reflexivity|]. split; [reflexivity|]. split; [reflexivity|].
  split; [exists [Counts 1 1; Store weak2], [Pass 10]; split; reflexivity|]. split; [left; reflexivity|]. split; [reflexivity|].
  split; [left; reflexivity|]. split; [discriminate|]. split; [reflexivity|]. split; [reflexivity|]. split; [discriminate|reflexivity].
Qed.
Print Assumptions C197_refuted.
(* What is not in exactly one simulation makes none fall. *)
Theorem C197_stand_partial : forall clash chains es r p, rneg r = false \/ length (rsims r) <> 1%nat ->
  falls (demands (run clash chains (es ++ [Store r]))) p = falls (demands (run clash chains es)) p.
Proof. exact others_stand. Qed.
Print Assumptions C197_stand_partial.
Example C197_case : rneg (Re 9 true [1; 2]%nat 0 100 1 5) = false \/ length (rsims (Re 9 true [1; 2]%nat 0 100 1 5)) <> 1%nat.
Proof. right. discriminate. Qed.

(* C198.  A monitor that waits for requirements is told of every positive one
   until it chains, leaves or is lost, and of nothing else. *)
Theorem C198_told : forall clash chains es m, NoDup (waits es) ->
  told_of m (told (guards (run clash chains es))) = heard chains m false false es.
Proof. exact heard_run. Qed.
Print Assumptions C198_told.
Definition on8 (m i : nat) := (i =? 8)%nat && (m =? 1)%nat.
Definition events4 := [Store old1; Wait 1; Wait 2; Store weak1; Store strong2; Store weak2; Store old1; Lose 2; Store weak1].
Example C198_case : NoDup (waits events4) /\
  told (guards (run never on8 events4)) = [(2%nat, weak1); (1%nat, weak1); (2%nat, weak2); (1%nat, weak2); (2%nat, old1)] /\
  heard on8 1 false false events4 = [weak1; weak2] /\ heard on8 2 false false events4 = [weak1; weak2; old1].
Proof. split; [|repeat split]. cbn. constructor; [intros [H|[]]; discriminate|]. constructor; [intros []|constructor]. Qed.
