(** Theorems about evidence caches and requirement counters. *)
From Verif Require Import Base Ev_model Ev_spec Ev_proofs.

(** ** C37 Evidence caches keep exactly the usable evidence *)

(** Whatever was stored and is usable at a time not earlier than any operation so far
    is in the cache. *)
Theorem C37_kept : forall after before l now e, (forall t, In t (times l) -> t <= now) -> In e (stored l) -> usable after before (invalidated l) now e ->
  In e (cache (run after before no_evidence l)).
Proof. exact kept. Qed.
Print Assumptions C37_kept.
(** Each piece of evidence is in the cache at most once. *)
Theorem C37_once : forall after before l, NoDup (cache (run after before no_evidence l)).
Proof. exact once. Qed.
Print Assumptions C37_once.
(** The cache is made of stored evidence only, most recently stored first. *)
Theorem C37_order : forall after before l, subseq (cache (run after before no_evidence l)) (rev (stored l)).
Proof. exact in_order. Qed.
Print Assumptions C37_order.
(** Storing a piece of evidence that is not in the cache leaves nothing else in it but
    what is usable at that time. *)
Theorem C37_cleaned : forall after before l e now x, ~ In e (cache (run after before no_evidence l)) ->
  In x (cache (run after before no_evidence (l ++ [StoreEv e now]))) -> x = e \/ usable after before (invalidated l) now x.
Proof. exact cleaned. Qed.
Print Assumptions C37_cleaned.
(** Looking for evidence of a target finds nothing exactly when no stored evidence
    that is usable now matches the target (and, for predicted evidence, is more
    confident than it). *)
Theorem C37_not_found : forall after before f above now l, (forall t, In t (times l) -> t <= now) ->
  let m := run after before no_evidence l in
  (snd (check_evidences after before f (dead_in m) now (cache m)) = None <-> forall x, In x (stored l) -> usable after before (invalidated l) now x -> f x = Failure) /\
  (snd (check_predicted_evidences after before f above (dead_in m) now (cache m)) = None <-> forall x, In x (stored l) -> usable after before (invalidated l) now x -> f x = Failure \/ above x = false).
Proof. exact not_found. Qed.
Print Assumptions C37_not_found.
(** What is found was stored, is usable and matches as reported, and is before any
    other such evidence in the cache. *)
Theorem C37_found : forall after before f above now l x r,
  let m := run after before no_evidence l in
  snd (check_predicted_evidences after before f above (dead_in m) now (cache m)) = Some (x, r) ->
  In x (stored l) /\ usable after before (invalidated l) now x /\ f x = r /\ r <> Failure /\ above x = true /\
  exists l1 l2, cache m = l1 ++ x :: l2 /\ forall y, In y l1 -> usable after before (invalidated l) now y -> f y <> Failure -> above y = false.
Proof. intros after before f above now l x r. exact (answered after before f above now l x r). Qed.
Print Assumptions C37_found.
Theorem C37_found_actual : forall after before f now l x r,
  let m := run after before no_evidence l in
  snd (check_evidences after before f (dead_in m) now (cache m)) = Some (x, r) ->
  In x (stored l) /\ usable after before (invalidated l) now x /\ f x = r /\ r <> Failure /\
  exists l1 l2, cache m = l1 ++ x :: l2 /\ forall y, In y l1 -> usable after before (invalidated l) now y -> f y = Failure.
Proof. exact found_actual. Qed.
Print Assumptions C37_found_actual.
(** Evidence [n] is about [[n - 10, n]]: at 25, 20 is no longer usable, 30 is, 40 was
    invalidated; storing 30 again changes nothing. *)
Definition history : list op := [StoreEv 20 15; StoreEv 30 16; StoreEv 40 17; Invalidate 40; StoreEv 50 18; StoreEv 30 25].
Example C37_ex : let m := run (fun e => e - 10) (fun e => e) no_evidence history in
  cache m = [50; 30; 20] /\ snd (check_evidences (fun e => e - 10) (fun e => e) (fun e => if e =? 20 then Positive else if e =? 30 then Negative else Failure) (dead_in m) 25 (cache m)) = Some (30, Negative) /\
  cache (run (fun e => e - 10) (fun e => e) m [CheckEv (fun _ => Failure) 25]) = [50; 30].
Proof. repeat split; reflexivity. Qed.

(** ** C38 Requirement bookkeeping balances *)

(** The counters are the additions minus the removals of each kind, and the total is
    their sum, whenever these balances are in the range of the counters. *)
Theorem C38_balance : forall l, 0 <= balance true l -> 0 <= balance false l -> balance true l + balance false l < 2 ^ 32 ->
  let c := fold_left count_step l no_requirement in strong c = balance true l /\ weak c = balance false l /\ total c = strong c + weak c.
Proof. exact balanced. Qed.
Print Assumptions C38_balance.
(** In all cases they are, modulo 2^32. *)
Theorem C38_modulo : forall l, let c := fold_left count_step l no_requirement in
  strong c = u32 (balance true l) /\ weak c = u32 (balance false l) /\ total c = u32 (balance true l + balance false l).
Proof. exact counted. Qed.
Print Assumptions C38_modulo.
Example C38_ex : let l := [Add true; Add false; Add false; Remove true; Add true; Remove false] in
  balance true l = 1 /\ balance false l = 1 /\ fold_left count_step l no_requirement = mkcounts 1 1 2.
Proof. repeat split; reflexivity. Qed.

(** ** C57 The requirements of a pair of models are withdrawn exactly once *)

(** When the pair is created, each model that is a requirement is counted by the
    controller of the model it requires, and the other counters are unchanged. *)
Theorem C57_counted : forall p, fresh p -> exists q, set_secondary p = Some q /\ fresh q /\ primary q = primary p /\ secondary q = secondary p /\ length (others q) = length (others p) /\
  forall i c, nth_error (others p) i = Some c -> nth_error (others q) i = Some (increased (claim (primary p) i true + claim (secondary p) i true) (claim (primary p) i false + claim (secondary p) i false) c).
Proof. exact pair_counted. Qed.
Print Assumptions C57_counted.
(** If only the primary controller is killed, any number of times, or the secondary
    one, once, the counters come back to what they were before the pair.  Missing: the
    other ways to end a pair, below. *)
Theorem C57_withdrawn_partial : forall p q n, fresh p -> set_secondary p = Some q ->
  (exists r, pair_run q (KillPrimary :: repeat KillPrimary n) = Some r /\ others r = others p) /\ (exists r, pair_run q [KillSecondary] = Some r /\ others r = others p).
Proof. exact withdrawn_once. Qed.
Print Assumptions C57_withdrawn_partial.
(** The secondary controller is killed, then the primary: the counters go below 0. *)
Theorem C57_twice_refuted : exists p q r, fresh p /\ others p = [mkcounts 0 0 0] /\ set_secondary p = Some q /\ others q = [mkcounts 0 1 1] /\ pair_run q [KillSecondary; KillPrimary] = Some r /\ others r = [mkcounts 0 4294967295 4294967295].
Proof. exact withdrawn_twice. Qed.
Print Assumptions C57_twice_refuted.
(** The same, when the secondary controller is a requirement too: an element is read
    that does not exist. *)
Theorem C57_undefined_refuted : exists p q, fresh p /\ set_secondary p = Some q /\ pair_run q [KillSecondary; KillPrimary] = None /\ pair_run q [KillSecondary; KillSecondary] = None.
Proof. exact withdrawn_undefined. Qed.
Print Assumptions C57_undefined_refuted.
(** If the views are deleted otherwise, the requirements remain counted. *)
Theorem C57_never_refuted : exists p q r, fresh p /\ others p = [mkcounts 0 0 0] /\ set_secondary p = Some q /\ pair_run q [DeletePrimary; DeleteSecondary; KillPrimary] = Some r /\ others r = [mkcounts 0 1 1].
Proof. exact never_withdrawn. Qed.
Print Assumptions C57_never_refuted.
Example C57_ex : fresh pair1 /\ match set_secondary pair1 with Some q => others q = [mkcounts 2 1 3; mkcounts 1 3 4] /\ option_map others (pair_run q [KillPrimary; KillPrimary]) = Some [mkcounts 1 1 2; mkcounts 0 3 3] | None => False end.
Proof. split; [exact pair1_fresh|]. split; reflexivity. Qed.
