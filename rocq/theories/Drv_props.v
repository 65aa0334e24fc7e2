(* C199 to C201: drives. *)
From Coq Require Import ZArith QArith List Bool Arith Lia.
From Verif Require Import Drv_model Drv_spec Drv_proofs.
Import ListNotations.

(* C199.  A drive has at most one outcome, however often and to however many
   models it comes. *)
Theorem C199_once : forall w es d, (length (outcomes d (log (run w es))) <= 1)%nat.
Proof. exact at_most_once. Qed.
Print Assumptions C199_once.
Theorem C199_final : forall w es d e2,
  outcomes d (log (run w es)) <> [] -> outcomes d (log (run w (es ++ e2))) = outcomes d (log (run w es)).
Proof. exact silent_after. Qed.
Print Assumptions C199_final.

Definition plain := Se (fun _ => 1) (fun _ => 1 # 2) (fun c => match c with O => 3 | _ => 1 end)%nat.
Definition first := Ar 0 7 1 true false true KUnknown true.
Definition second := Ar 1 7 1 true false true KUnknown false.
Example C199_case :
  log (run plain [Arrive first; Arrive second; Arrive first; Evidence 0 true; Timer 1; Timer 2; Arrive first]) =
    [GoalIn 0 0; GoalIn 1 1; GoalIn 0 2; GoalOut 0 0 0 7 true; GoalOut 0 1 0 7 true; DriveOut 0 2 7 true].
Proof. reflexivity. Qed.

(* C200.  The outcome of the goal of a drive is told to every output group but the
   last, and the same outcome of the drive to the last. *)
Theorem C200_groups : forall w es c k g d ok,
  In (GoalOut c k g d ok) (log (run w es)) ->
  (k < groups w c - 1)%nat /\
  (forall j, (j < groups w c - 1)%nat -> In (GoalOut c j g d ok) (log (run w es))) /\
  In (DriveOut c (groups w c - 1) d ok) (log (run w es)).
Proof. intros w es. exact (proj1 (closed_run w es)). Qed.
Print Assumptions C200_groups.
Theorem C200_last : forall w es c k d ok, In (DriveOut c k d ok) (log (run w es)) -> k = (groups w c - 1)%nat.
Proof. intros w es. exact (proj2 (closed_run w es)). Qed.
Print Assumptions C200_last.
Example C200_case :
  log (run plain [Arrive first; Timer 0; Timer 0]) =
    [GoalIn 0 0; GoalOut 0 0 0 7 false; AbsentIn 0 0 0; GoalOut 0 1 0 7 false; AbsentIn 0 1 0; DriveOut 0 2 7 false].
Proof. reflexivity. Qed.

(* C201.  A drive that concerns a model gets an outcome: at once, or when the jobs of
   the monitor of its goal are done. *)
Theorem C201_refuted : exists w es a g e2,
  concerned w a /\ In (GoalIn (actl a) g) (log (run w (es ++ [Arrive a]))) /\ (2 <= jobs g e2)%nat /\
  ~ In (Kill (adrv a)) (es ++ [Arrive a] ++ e2) /\
  (forall e3, ~ In (Kill (adrv a)) e3 -> (forall b, ~ In (Arrive b) e3) ->
     outcomes (adrv a) (log (run w (es ++ [Arrive a] ++ e2 ++ e3))) = []).
Proof.
  exists plain, [], first, 0%nat, [Timer 0; PredOk 0; Timer 0].
  split; [split; [reflexivity|split; [left; reflexivity|reflexivity]]|]. split; [left; reflexivity|]. split; [cbn; lia|].
  split; [cbn; intros [H|[H|[H|[H|[]]]]]; discriminate|].
  intros e3 K A. rewrite !app_assoc. unfold run. rewrite fold_left_app.
  set (s := fold_left (step plain) (([] ++ [Arrive first]) ++ [Timer 0; PredOk 0; Timer 0]) init). assert (M : ms s = []) by reflexivity. assert (L : log s = [GoalIn 0 0]) by reflexivity. clearbody s.
  revert s M L. induction e3 as [|e e3 IH]; intros s M L; [cbn; rewrite L; reflexivity|].
  cbn [fold_left]. apply IH; [intros X; apply K; right; exact X|intros b X; apply (A b); right; exact X| |];
  destruct e; cbn [step]; rewrite ?M; auto; exfalso; apply (A a); left; reflexivity.
Qed.
Print Assumptions C201_refuted.
Theorem C201_taken_partial : forall w es a, concerned w a -> is_dead (run w es) (adrv a) = false ->
  let s := run w (es ++ [Arrive a]) in
  outcomes (adrv a) (log s) <> [] \/ exists m, In m (ms s) /\ drv m = adrv a /\ ctl m = actl a /\ off m = false /\
    (aknown a = KUnknown -> In (GoalIn (actl a) (goal m)) (log s)).
Proof. exact taken. Qed.
Print Assumptions C201_taken_partial.
(* Unless its goal is predicted to be reached, or left to another. *)
Theorem C201_settled_partial : forall w es m e2,
  In m (ms (run w es)) -> off m = false -> ~ In (PredOk (goal m)) e2 -> ~ In (Left (goal m)) e2 -> (2 <= jobs (goal m) e2)%nat ->
  In (Kill (drv m)) (es ++ e2) \/ exists ok, outcomes (drv m) (log (run w (es ++ e2))) = [ok].
Proof. exact settled. Qed.
Print Assumptions C201_settled_partial.
Example C201_case :
  concerned plain first /\ is_dead (run plain []) 7 = false /\
  In (Mn 0 0 7 true true false) (ms (run plain [Arrive first])) /\ (2 <= jobs 0 [Timer 0; PredNo 0; Timer 0])%nat /\
  outcomes 7 (log (run plain ([Arrive first] ++ [Timer 0; PredNo 0; Timer 0]))) = [false].
Proof. split; [split; [reflexivity|split; [left; reflexivity|reflexivity]]|]. split; [reflexivity|]. split; [left; reflexivity|]. split; [cbn; lia|reflexivity]. Qed.
