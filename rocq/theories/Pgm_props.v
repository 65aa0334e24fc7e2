(** C34: programs react to every combination of inputs; C35: anti-programs notice every
    occurrence; C65: run-once programs; C66: anti-programs keep watching; C67: no overlay
    is used after its release; C68: input-less programs. *)
From Verif Require Import Base Pgm_model Pgm_spec Pgm_proofs.

(** Not every combination fires: when an input matches two patterns, the program takes the
    first one that waits, and combinations that need the other one are lost. *)
Theorem C34_every_combination_refuted : exists pats pmatch guards cf s h, NoDup pats /\ stream s /\ run_once cf = false /\
  must_fire pats pmatch guards cf s h /\ ~ In h (fired pats pmatch guards cf s).
Proof. exact ambiguous_missed. Qed.
Print Assumptions C34_every_combination_refuted.
(** Nothing else fires: every firing is a combination that matches all patterns and
    guards, in scope; for every match relation and every kind of program. *)
Theorem C34_sound : forall pats pmatch guards cf s, NoDup pats -> stream s ->
  forall h, In h (fired pats pmatch guards cf s) -> must_fire pats pmatch guards cf s h.
Proof. exact fired_sound. Qed.
Print Assumptions C34_sound.
(** No combination fires twice. *)
Theorem C34_once : forall pats pmatch guards cf s, NoDup pats -> stream s -> NoDup (fired pats pmatch guards cf s).
Proof. exact fired_once. Qed.
Print Assumptions C34_once.
(** If no input matches two patterns that wait, every combination fires. *)
Theorem C34_every_combination_partial : forall pats pmatch guards cf s, NoDup pats -> stream s -> unambiguous pats pmatch -> run_once cf = false -> pats <> [] ->
  forall h, must_fire pats pmatch guards cf s h -> In h (fired pats pmatch guards cf s).
Proof. exact fired_complete. Qed.
Print Assumptions C34_every_combination_partial.
(** Two patterns, the first matched by the even inputs, the second by the odd ones; five
    inputs, a time scope that the third and later inputs fall out of for the first. *)
Definition parity : history -> nat -> nat -> bool := fun _ p k => Bool.eqb (Nat.even k) (Nat.eqb p 0).
Definition five : list moment := moments [1; 2; 5; 6; 20].
Example C34_case : NoDup [0%nat; 1%nat] /\ stream five /\ unambiguous [0%nat; 1%nat] parity /\
  fired [0%nat; 1%nat] parity (fun _ => true) (mkcfg 4 false false) five = [[(0, 0); (1, 1)]; [(1, 1); (0, 2)]; [(0, 2); (1, 3)]]%nat.
Proof.
  split; [constructor; [intros [E|[]]; discriminate|constructor; [intros []|constructor]]|]. split; [|split; [|vm_compute; reflexivity]].
  - split; [|split].
    + intros [|[|[|[|[|i]]]]] L; unfold when; cbn in *; lia.
    + intros [|[|[|[|[|i]]]]] [|[|[|[|[|j]]]]] L; unfold when; cbn in *; lia.
    + intros i j x _. unfold five. rewrite nth_moments. discriminate.
  - intros h p q k _ P Q _ _ M1 M2. unfold parity in *. destruct P as [<-|[<-|[]]]; destruct Q as [<-|[<-|[]]]; auto; destruct (Nat.even k); discriminate.
Qed.

(** An anti-program fires although what it watches occurred during its time scope: the
    signaling job that was pending is not cancelled. *)
Theorem C35_quiet_refuted : exists pats pmatch guards scope es t h, 0 < scope /\ In t (snd (arun pats pmatch guards scope false (anti_start pats scope 0) 0 es)) /\
  occurrence pats pmatch guards h /\ h <> [] /\ forall x, In x h -> t - scope < arrival es (snd x) <= t.
Proof. exact old_job_fires. Qed.
Print Assumptions C35_quiet_refuted.
(** In general: whatever occurred, every pending job fires when its time has come. *)
Theorem C35_job_fires : forall pats pmatch guards scope ro es t a, fst (arun pats pmatch guards scope ro (anti_start pats scope t) 0 es) = a -> aalive a = true -> forall now,
  snd (tick pats ro a now) = (let n := length (filter (fun u => u <=? now) (jobs a)) in if ro then Nat.min 1 n else n).
Proof. exact job_fires. Qed.
Print Assumptions C35_job_fires.
(** An occurrence is not noticed after a candidate whose guards failed. *)
Theorem C35_notice_refuted : exists pats pmatch guards scope k h, 0 < scope /\ occurrence pats pmatch guards h /\ ends_at h k /\ h <> [] /\
  forall ts, length ts = S k -> jobs (feed pats pmatch guards scope false (anti_start pats scope 0) 0 ts) = jobs (anti_start pats scope 0).
Proof. exact guard_failure_blinds. Qed.
Print Assumptions C35_notice_refuted.
(** If the guards of the program never fail and no input matches two patterns that wait,
    then after a restart (at position k0) the first occurrence starts a new period and
    brings the program back to its initial state; nothing else does. *)
Theorem C35_notice_partial : forall pats pmatch guards scope ro, NoDup pats -> pats <> [] -> unambiguous pats pmatch ->
  (forall h, combination pats pmatch h -> complete pats h -> guards h = true) ->
  forall a k0 ts now, alist a = [fresh pats] ->
  (forall h j, combination pats pmatch h -> complete pats h -> from k0 h -> ends_at h j -> (k0 + length ts <= j)%nat) ->
  jobs (feed pats pmatch guards scope ro a k0 ts) = jobs a /\
  ((exists h, combination pats pmatch h /\ complete pats h /\ from k0 h /\ ends_at h (k0 + length ts)) ->
     alist (feed pats pmatch guards scope ro a k0 (ts ++ [now])) = [fresh pats] /\ jobs (feed pats pmatch guards scope ro a k0 (ts ++ [now])) = jobs a ++ [now + scope]) /\
  (~ (exists h, combination pats pmatch h /\ complete pats h /\ from k0 h /\ ends_at h (k0 + length ts)) -> jobs (feed pats pmatch guards scope ro a k0 (ts ++ [now])) = jobs a).
Proof. exact noticed. Qed.
Print Assumptions C35_notice_partial.
Example C35_case :
  jobs (feed [0%nat; 1%nat] parity (fun _ => true) 10 false (anti_start [0%nat; 1%nat] 10 0) 0 [3]) = [10] /\
  jobs (feed [0%nat; 1%nat] parity (fun _ => true) 10 false (anti_start [0%nat; 1%nat] 10 0) 0 [3; 4]) = [10; 14] /\
  snd (arun [0%nat; 1%nat] parity (fun _ => true) 10 false (anti_start [0%nat; 1%nat] 10 0) 0 [Input 3 true; Tick 12; Tick 30]) = [12].
Proof. split; [reflexivity|]. split; reflexivity. Qed.

(** A run-once program can fire twice: inputs that are already queued are reduced after
    the program is invalidated. *)
Theorem C65_once_refuted : exists pats pmatch guards cf s, run_once cf = true /\ stream s /\ length (fired pats pmatch guards cf s) = 2%nat.
Proof. exact run_once_twice. Qed.
Print Assumptions C65_once_refuted.
(** It fires once at most on one input, and is dead after. *)
Theorem C65_per_input_partial : forall pmatch guards cf c k now gone, run_once cf = true -> (length (snd (reduce pmatch guards cf c k now gone)) <= 1)%nat.
Proof. exact once_per_input. Qed.
Print Assumptions C65_per_input_partial.
Theorem C65_then_dead : forall pmatch guards cf c k now gone, run_once cf = true ->
  snd (reduce pmatch guards cf c k now gone) <> [] -> is_alive (fst (reduce pmatch guards cf c k now gone)) = false.
Proof. exact once_then_dead. Qed.
Print Assumptions C65_then_dead.
(** Anti-programs and input-less programs: once, over all inputs and all time. *)
Theorem C65_anti_once : forall pats pmatch guards scope ro es t, ro = true -> (length (snd (arun pats pmatch guards scope ro (anti_start pats scope t) 0 es)) <= 1)%nat.
Proof. exact anti_once. Qed.
Print Assumptions C65_anti_once.
Theorem C65_input_less_once : forall scope ro es, ro = true -> (length (snd (irun scope ro idle es)) <= 1)%nat.
Proof. exact il_once. Qed.
Print Assumptions C65_input_less_once.
Example C65_case : snd (arun [0%nat] parity (fun _ => true) 10 true (anti_start [0%nat] 10 0) 0 [Input 3 true; Tick 10; Tick 13; Tick 30]) = [10] /\
  snd (irun 10 true idle [Activate 0; Deactivate; Activate 5; Passes 10 true; Passes 15 true]) = [10] /\
  snd (reduce parity (fun _ => true) (mkcfg 0 true false) (start [0%nat]) 2 7 (fun _ => false)) = [[(0%nat, 2%nat)]].
Proof. split; [reflexivity|]. split; reflexivity. Qed.

(** An anti-program that may run many times fires once and then never again as long as
    nothing occurs. *)
Theorem C66_again_refuted : exists pats pmatch guards scope es, 0 < scope /\ es = [Tick 10; Tick 20; Tick 30; Tick 40] /\ scope = 10 /\
  snd (arun pats pmatch guards scope false (anti_start pats scope 0) 0 es) = [10].
Proof. exact no_second_watch. Qed.
Print Assumptions C66_again_refuted.
(** In general. *)
Theorem C66_silent : forall pats pmatch guards scope ro es t, quiet es -> (length (snd (arun pats pmatch guards scope ro (anti_start pats scope t) 0 es)) <= 1)%nat.
Proof. exact silent_after_one. Qed.
Print Assumptions C66_silent.
Example C66_case : quiet [Tick 5; Tick 10; Tick 25] /\ snd (arun [0%nat] parity (fun _ => true) 10 false (anti_start [0%nat] 10 0) 0 [Tick 5; Tick 10; Tick 25]) = [10].
Proof. split; [|reflexivity]. repeat (apply Forall_cons; [exact Logic.I|]). constructor. Qed.

(** After a firing, an anti-program that may run again goes on with an overlay whose last
    reference has been dropped. *)
Theorem C67_freed_refuted : exists pats pmatch guards scope es, sound (fst (arun pats pmatch guards scope false (anti_start pats scope 0) 0 es)) = false /\
  alist (fst (arun pats pmatch guards scope false (anti_start pats scope 0) 0 es)) <> [].
Proof. exact freed_overlay. Qed.
Print Assumptions C67_freed_refuted.
(** A run-once anti-program keeps its overlay while no input matches. *)
Theorem C67_kept_partial : forall pats pmatch guards scope es t, (forall h p j, pmatch h p j = false) ->
  sound (fst (arun pats pmatch guards scope true (anti_start pats scope t) 0 es)) = true.
Proof. exact kept_overlay. Qed.
Print Assumptions C67_kept_partial.
Example C67_case : snd (arun [0%nat] (fun _ _ _ => false) (fun _ => true) 10 true (anti_start [0%nat] 10 0) 0 [Input 3 true; Tick 10; Input 11 true]) = [10] /\
  sound (fst (arun [0%nat] (fun _ _ _ => false) (fun _ => true) 10 true (anti_start [0%nat] 10 0) 0 [Input 3 true; Tick 10; Input 11 true])) = true.
Proof. split; reflexivity. Qed.

(** An input-less program that is deactivated and activated again before its job runs
    fires more than once per time scope. *)
Theorem C68_once_per_scope_refuted : exists scope es, 0 < scope /\ ~ apart scope 0 (snd (irun scope false idle (Activate 0 :: es))).
Proof. exact reactivated_twice. Qed.
Print Assumptions C68_once_per_scope_refuted.
(** As long as it stays active, its firings are at least a time scope apart, however
    late the jobs run, and however often activation is confirmed. *)
Theorem C68_once_per_scope_partial : forall scope ro es t, stays_on es -> apart scope t (snd (irun scope ro idle (Activate t :: es))).
Proof. exact il_apart. Qed.
Print Assumptions C68_once_per_scope_partial.
(** If jobs run on time, it fires at every multiple of the time scope. *)
Theorem C68_period : forall scope ro n t, ro = false ->
  snd (irun scope ro idle (Activate t :: map (fun i => Passes (t + scope * Z.of_nat i) true) (seq 1 n))) = map (fun i => t + scope * Z.of_nat i) (seq 1 n).
Proof. exact il_period. Qed.
Print Assumptions C68_period.
Example C68_case : stays_on [Passes 4 true; Activate 5; Passes 12 true; Passes 21 true; Passes 30 true] /\
  snd (irun 10 false idle (Activate 0 :: [Passes 4 true; Activate 5; Passes 12 true; Passes 21 true; Passes 30 true])) = [12; 30].
Proof. split; [|reflexivity]. repeat (apply Forall_cons; [discriminate|]). constructor. Qed.
