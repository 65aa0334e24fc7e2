(* C170 to C177: planning. *)
From Coq Require Import ZArith List Bool.
From Verif Require Import Pln_model Pln_spec Pln_proofs Pln2_proofs.
Import ListNotations.
Local Open Scope Z_scope.

(* C170.  Simulated backward chaining ends. *)

(* Each step through a model takes the allowance from the time that is left;
   there is never less than none. *)
Theorem C170_time_partial : forall mo h s0 w k s,
  0 <= h -> Branch mo h s0 w k s ->
  thz s = thz s0 - models w * allowance h /\ (0 < models w -> models w * allowance h < thz s0).
Proof. exact branch_time. Qed.
Print Assumptions C170_time_partial.

(* With an allowance, so many steps at most. *)
Theorem C170_bound_partial : forall mo h s0 w k s,
  2 <= h -> Branch mo h s0 w k s -> 0 < models w -> models w < thz s0 /\ mets w < thz s0.
Proof. exact branch_bound. Qed.
Print Assumptions C170_bound_partial.

(* Requirements met do not add to it: each was made by a step through a model. *)
Theorem C170_requirements_partial : forall mo h s0 w k s,
  Branch mo h s0 w k s -> mets w + (if k then 1 else 0) <= models w.
Proof. exact branch_mets. Qed.
Print Assumptions C170_requirements_partial.

(* The time at the root. *)
Theorem C170_root_partial : forall h m x,
  0 <= h -> 0 <= m ->
  0 <= get_sim_thz h m x <= m /\ (0 < get_sim_thz h m x -> get_sim_thz h m x + h <= x).
Proof. exact sim_thz_bound. Qed.
Print Assumptions C170_root_partial.

(* Without an allowance there is no end. *)
Theorem C170_refuted :
  exists mo h s0, 0 <= h /\ forall n : nat, exists w k s, Branch mo h s0 w k s /\ models w = Z.of_nat n.
Proof. exact endless_witness. Qed.
Print Assumptions C170_refuted.

Example C170_case :
  Branch Nat.eqb 10 (s_root 100) [Through false] false s_opt /\ thz s_opt = 100 - 1 * 5.
Proof. split; [exact opt_branch|reflexivity]. Qed.

(* C171.  A simulated branch is mandatory exactly after an opposite. *)

Theorem C171_modes_partial : forall mo h s0 w k s,
  0 <= h -> mode s0 = MRoot -> Branch mo h s0 w k s -> plain w ->
  0 <= opposites w <= 1 /\ (mode s = MMandatory <-> opposites w = 1).
Proof. exact branch_opposites. Qed.
Print Assumptions C171_modes_partial.

Theorem C171_refuted :
  exists mo h s0 w1 s1 w2 s2,
    0 <= h /\ mode s0 = MRoot /\
    Branch mo h s0 w1 false s1 /\ opposites w1 = 1 /\ mode s1 = MOptional /\
    Branch mo h s0 w2 false s2 /\ opposites w2 = 2.
Proof. exact opposite_witness. Qed.
Print Assumptions C171_refuted.

Example C171_case : plain [Through true] /\ Branch Nat.eqb 10 (s_root 100) [Through true] false s_man /\
  mode s_man = MMandatory.
Proof. split; [intros o [H|[]]; discriminate|]. split; [exact man_branch|reflexivity]. Qed.

(* C172.  A branch keeps its root, its confidence and its deadline. *)

Theorem C172_root : forall mo h s0 w k s, 0 <= h -> Branch mo h s0 w k s -> root s = root s0.
Proof. exact branch_root. Qed.
Print Assumptions C172_root.

Theorem C172_kept : forall mo h s0 w k s, 0 <= h -> mode s0 <> MRoot -> Branch mo h s0 w k s ->
  mode s <> MRoot /\ cfd s = cfd s0 /\ before s = before s0.
Proof. exact branch_solution. Qed.
Print Assumptions C172_kept.

Theorem C172_first : forall mo h s0 e now self o c l x k s, 0 <= h -> mode s0 = MRoot ->
  In x (fst (abduce mo h e now self (Some s0) o c l)) -> simulated x = Some (k, s) ->
  cfd s = c /\ before s = now + (thz s0 - allowance h) /\ ctl s = Some self.
Proof. exact first_step. Qed.
Print Assumptions C172_first.

Theorem C172_command : forall mo h s0 w k s e now self o c l t s' at_, 0 <= h -> 0 <= thz s0 ->
  Branch mo h s0 w k s ->
  In (SimCmd t s' at_) (fst (abduce mo h e now self (Some s) o c l)) ->
  t = flip o (lhs e) /\ cmd e = true /\ ev e = Fail /\ pev e = Fail /\
  mode s' <> MRoot /\ root s' = root s0 /\ ctl s' = Some self /\ opp s' = o /\ up s' = Some s /\
  thz s' = thz s0 - (models w + 1) * allowance h /\
  now <= at_ /\ (now <= before s' -> at_ <= before s').
Proof. exact command_time. Qed.
Print Assumptions C172_command.

Example C172_case : root s_opt = root (s_root 100) /\ cfd s_opt = 1 /\ before s_opt = 0 + (100 - 5) /\
  exists s' , fst (abduce Nat.eqb 10 (Env true NoReq NoReq true Fail Fail true t0 t0) 3 4 (Some s_opt) false 1 [t0])
    = [SimCmd t0 s' 50].
Proof. repeat split. eexists. vm_compute. reflexivity. Qed.

(* C173.  Simulations do not act, and real goals lead to real ones. *)

Theorem C173_simulated_partial : forall mo h s0 w k s e now self o c l x, 0 <= h ->
  Branch mo h s0 w k s -> w <> [] ->
  In x (fst (abduce mo h e now self (Some s) o c l) ++ fst (check_simulated mo e now self s l)) ->
  real x = false.
Proof. exact branch_no_action. Qed.
Print Assumptions C173_simulated_partial.

Theorem C173_only_partial : forall mo h e now self g o c l x, 0 <= h ->
  In x (fst (abduce mo h e now self g o c l)) -> real x = true ->
  (g = None \/ exists s, g = Some s /\ mode s = MRoot /\ thz s <= allowance h) /\
  exists s', sim_of x = Some s' /\ mode s' = MRoot /\ thz s' = 0 /\ opp s' = o /\ root s' = self /\ up s' = g.
Proof. exact real_only. Qed.
Print Assumptions C173_only_partial.

Theorem C173_real_partial : forall mo h e now self g o c l,
  0 <= h -> (g = None \/ exists s, g = Some s /\ mode s = MRoot /\ thz s <= allowance h) ->
  (forall x, In x (fst (abduce mo h e now self g o c l)) -> real x = true) /\
  (allowed e = true -> c_s e <> NoReq -> c_s e <> WeakEnabled ->
     exists s', In (Need (imdl e) s') (fst (abduce mo h e now self g o c l))) /\
  (allowed e = true -> c_s e = NoReq \/ c_s e = WeakEnabled -> guards e = true -> ev e = Fail ->
     exists s' inj, In (Goal (flip o (lhs e)) s' (till (lhs e)) inj) (fst (abduce mo h e now self g o c l)) /\
                    (inj = true <-> pev e <> Pos)).
Proof. exact real_gives. Qed.
Print Assumptions C173_real_partial.

(* Through a composite state, a real goal leads to nothing real. *)
Theorem C173_refuted :
  exists mo now s members t s',
    mode s = MRoot /\ thz s = 0 /\ In (t, s') (fst (cst_abduce mo now s false members [])) /\
    forall h e now' self o' c l' x, 0 <= h -> In x (fst (abduce mo h e now' self (Some s') o' c l')) ->
      real x = false /\ simulated x = None.
Proof. exact composite_witness. Qed.
Print Assumptions C173_refuted.

Example C173_case : exists s',
  fst (abduce Nat.eqb 10 free 0 0 (Some (s_root 5)) true 1 []) = [Goal (Tg true 0 0 10) s' 10 true].
Proof. eexists. vm_compute. reflexivity. Qed.

(* C174.  What is known is not pursued, and decides. *)

Theorem C174_known_partial : forall mo h e now self g o c l x, 0 <= h ->
  In x (fst (abduce mo h e now self g o c l)) -> premise x = true ->
  ev e = Fail /\
  (pev e = Pos -> exists t s d, x = Goal t s d false) /\
  (forall t s d b, x = Goal t s d b -> (b = true <-> pev e <> Pos)).
Proof. exact known_not_pursued. Qed.
Print Assumptions C174_known_partial.

Theorem C174_refuted :
  exists mo h e now self s o c l,
    0 <= h /\ allowed e = true /\ guards e = true /\ c_s e = NoReq /\ ev e = Pos /\
    mode s = MOptional /\ allowance h < thz s /\
    fst (abduce mo h e now self (Some s) o c l) = [].
Proof. exact untold_witness. Qed.
Print Assumptions C174_refuted.

Example C174_case : exists s', fst (abduce Nat.eqb 10 (Env true NoReq NoReq true Fail Pos false t0 t0) 0 0 None false 1 [])
  = [Goal t0 s' 10 false].
Proof. eexists. vm_compute. reflexivity. Qed.

(* C175.  In a simulation every goal is pursued, and once. *)

Theorem C175_once_partial : forall mo h cs l,
  (forall c, In c cs -> root_sim (cgoal c) <> None) ->
  forall a x b y d t u, calls mo h cs l = a ++ x :: b ++ y :: d ->
  pursued x = Some t -> pursued y = Some u -> same mo u t = false.
Proof. exact calls_once. Qed.
Print Assumptions C175_once_partial.

Theorem C175_held_partial : forall mo h cs l,
  (forall c, In c cs -> root_sim (cgoal c) <> None) ->
  forall y u t, In y (calls mo h cs l) -> pursued y = Some u -> In t l -> same mo u t = false.
Proof. exact calls_not_held. Qed.
Print Assumptions C175_held_partial.

Theorem C175_dropped_partial : forall mo h e now self s o c l,
  allowed e = true -> allowance h < thz s -> (mode s = MMandatory -> o = false) ->
  c_s e = NoReq \/ c_s e = WeakEnabled -> guards e = true -> ev e = Fail -> pev e = Fail -> cmd e = false ->
  root_sim s <> None ->
  (exists s', In (SimGoal (flip o (lhs e)) s' (now + (thz s - allowance h))) (fst (abduce mo h e now self (Some s) o c l)))
  \/ (exists u, In u l /\ anti u = anti (flip o (lhs e)) /\ mo (obj (lhs e)) (obj u) = true).
Proof. exact dropped_why. Qed.
Print Assumptions C175_dropped_partial.

(* A call makes a command and a goal at most. *)
Theorem C175_few_partial : forall mo h e now self g o c l,
  (length (fst (abduce mo h e now self g o c l)) <= 2)%nat.
Proof. exact abduce_few. Qed.
Print Assumptions C175_few_partial.

(* The same object at another time is dropped. *)
Theorem C175_time_refuted :
  exists mo h e1 e2 now self s o c,
    0 <= h /\ allowance h < thz s /\ root_sim s <> None /\
    till (lhs e1) < from (lhs e2) /\
    let '(a, l) := abduce mo h e1 now self (Some s) o c [] in
    (exists s' d, a = [SimGoal (lhs e1) s' d]) /\
    fst (abduce mo h e2 now self (Some s) o c l) = [] /\
    (exists s' d, fst (abduce mo h e2 now self (Some s) o c []) = [SimGoal (lhs e2) s' d]).
Proof. exact time_witness. Qed.
Print Assumptions C175_time_refuted.

(* Requirements are pursued again and again. *)
Theorem C175_once_refuted :
  exists mo h cs t s1 s2 d1 d2,
    (forall c, In c cs -> root_sim (cgoal c) <> None) /\
    calls mo h cs [] = [SimNeed t s1 d1; SimNeed t s2 d2].
Proof. exact need_twice_witness. Qed.
Print Assumptions C175_once_refuted.

Example C175_case : exists s1 s2,
  calls Nat.eqb 10 [Call free 0 0 (s_root 100) false 1; Call free 0 0 (s_root 100) false 1;
                    Call free 0 0 (s_root 100) true 1] []
  = [SimGoal t0 s1 95; SimGoal (Tg true 0 0 10) s2 95].
Proof. eexists. eexists. vm_compute. reflexivity. Qed.

(* C176.  A command found twice is defeated exactly if it would be both times. *)

Theorem C176_first_partial : forall mo t ds l,
  (forall p, In p l -> mo t (fst p) = false) -> signal mo t ds l = (l ++ [(t, ds)], true).
Proof. exact signal_first. Qed.
Print Assumptions C176_first_partial.

Theorem C176_again_partial : forall mo t ds u vs r a w,
  (forall p, In p a -> mo t (fst p) = false) -> mo t u = true ->
  exists vs', signal mo t ds (a ++ (u, vs) :: r) = (a ++ (u, vs') :: r, false) /\
    (defeated w vs' -> defeated w vs /\ defeated w ds) /\
    ((exists d, In d vs /\ In d ds /\ In d w) -> defeated w vs').
Proof. exact signal_defeated. Qed.
Print Assumptions C176_again_partial.

Theorem C176_refuted :
  exists mo t ds u vs vs' w,
    signal mo t ds [(u, vs)] = ([(u, vs')], false) /\
    defeated w vs /\ defeated w ds /\ ~ defeated w vs'.
Proof. exact signal_witness. Qed.
Print Assumptions C176_refuted.

Example C176_case : signal Nat.eqb 1 [4; 5]%nat [(0, [9]); (1, [5; 6])]%nat = ([(0, [9]); (1, [5])]%nat, false).
Proof. reflexivity. Qed.

(* C177.  The outcome of a prediction is reported and counted once, and nothing
   is kept for it. *)

Theorem C177_outcome_partial : forall groups requirement m p success evidence full rate x,
  In x (fst (pred_outcome groups requirement m p success evidence full rate)) <->
  (full = true /\
    ((x = Rate success /\ (success = true \/ rate = true)) \/
     exists r, lookup p m = Some r /\ exists c,
       (weakly r c /\ x = Tell c success (weak_allowed r)) \/
       (strongly r c /\ x = Tell c (negb success) (strong_allowed r)))) \/
  (requirement = false /\
    exists g, In g groups /\ (x = Mark g success \/ (evidence = false /\ x = Absent g))).
Proof. exact pred_in. Qed.
Print Assumptions C177_outcome_partial.

(* One marker for each output group, at most one rating. *)
Theorem C177_counts_partial : forall groups m p success evidence full rate,
  let a := fst (pred_outcome groups false m p success evidence full rate) in
  length (filter is_mark a) = length groups /\
  length (filter is_absent a) = (if evidence then 0%nat else length groups) /\
  length (filter is_rate a) = (if full && (success || rate) then 1%nat else 0%nat).
Proof. exact outcome_counts. Qed.
Print Assumptions C177_counts_partial.

Theorem C177_forgets_partial : forall groups requirement m p success evidence rate,
  NoDup (map fst m) ->
  let m' := snd (pred_outcome groups requirement m p success evidence true rate) in
  lookup p m' = None /\ (forall q, q <> p -> lookup q m' = lookup q m).
Proof. exact outcome_forgets. Qed.
Print Assumptions C177_forgets_partial.

Theorem C177_once_partial : forall groups requirement m r rs,
  NoDup (map fst m) -> rfull r = true -> (forall x, In x rs -> rpred x = rpred r) ->
  exists b, fst (reports groups requirement m (r :: rs)) =
      fst (pred_outcome groups requirement m (rpred r) (rsuccess r) (revidence r) true (rrate r)) ++ b /\
    forall c s f, ~ In (Tell c s f) b.
Proof. exact told_once. Qed.
Print Assumptions C177_once_partial.

Theorem C177_refuted :
  exists groups m p success, NoDup (map fst m) /\ lookup p m <> None /\
    lookup p (snd (pred_outcome groups false m p success true false true)) <> None.
Proof. exact kept_witness. Qed.
Print Assumptions C177_refuted.

Example C177_case :
  pred_outcome [8]%nat false [(3, Reqs [(1, false); (2, true)] true [(4, false)] false)]%nat 3 false false true true
  = ([Rate false; Tell 1 false true; Tell 4 true false; Mark 8 false; Absent 8]%nat, []).
Proof. reflexivity. Qed.
