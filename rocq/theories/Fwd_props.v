(* C183 to C191: forward chaining. *)
From Coq Require Import ZArith QArith List Bool.
From Verif Require Import Req_model Fwd_model Fwd_spec Fwd_proofs Fwd2_proofs.
Import ListNotations.

(* C183.  A model predicts exactly what the requirements and the guards allow. *)

Theorem C183_only : forall mo now m i st rs sims req b guards r c sim gs d,
  In (Predict r c sim gs d) (snd (reduce mo now m i st rs sims req b guards)) ->
  is_req m = false /\ (exists x, offered st (src i) rs sims b x /\ guards (bm x) = Some r) /\
  sln_thr m < c /\ (sim = true <-> src i = Simulated) /\ (src i <> Simulated -> (now < until r)%Z).
Proof. exact made_only. Qed.
Print Assumptions C183_only.

(* Unless it is left out for one that matches it. *)
Theorem C183_all : forall mo now m i st rs sims req b guards x r,
  is_req m = false -> sln_thr m < icfd i * rate m -> (src i <> Simulated -> (now < until r)%Z) ->
  offered st (src i) rs sims b x -> guards (bm x) = Some r ->
  exists y c sim gs d, In (Predict y c sim gs d) (snd (reduce mo now m i st rs sims req b guards)) /\
    (y = r \/ mo (what r) (what y) = true).
Proof. exact reduce_made. Qed.
Print Assumptions C183_all.

Example C183_case :
  offered WeakEnabled Actual [Rs 3 (Some 7%nat)] None 0 (Rs 3 (Some 7%nat)) /\ sln_thr plain < 1 * rate plain /\
  snd (reduce Nat.eqb 0 plain (Inp Actual 1) WeakEnabled [Rs 3 (Some 7%nat)] None true 0 guard1) =
    [Track (Rh 1 100); Predict (Rh 1 100) (1 * (1 # 2)) false [] None; Instance; Mark (Some 7%nat); Watch (Rh 1 100) true;
     Second (1 * (1 # 2))].
Proof. split; [apply OWeak; [reflexivity|left; left; reflexivity]|]. split; reflexivity. Qed.
Example C183_none : snd (reduce Nat.eqb 0 plain (Inp Actual 1) WeakDisabled [] None true 0 guard1) = [Track (Rh 1 100); Watch (Rh 1 100) false].
Proof. reflexivity. Qed.

(* C184.  The same is not predicted twice for one input. *)

Theorem C184_once_partial : forall mo now m i st rs sims req b guards,
  src i <> Actual ->
  ForallOrdPairs (fun r1 r2 => mo (what r2) (what r1) = false)
    (predictions (snd (reduce mo now m i st rs sims req b guards))).
Proof. exact reduce_once. Qed.
Print Assumptions C184_once_partial.

(* From a fact, with two requirements, it is. *)
Theorem C184_refuted : exists mo now m i st rs sims req b guards r c gs d gs' d',
  (forall x, mo x x = true) /\ src i = Actual /\
  snd (reduce mo now m i st rs sims req b guards) =
    [Predict r c false gs d; Instance; Mark (Some 7%nat); Watch r true; Second c;
     Predict r c false gs' d'; Instance; Mark (Some 8%nat); Watch r true; Second c].
Proof. exact twice_witness. Qed.
Print Assumptions C184_refuted.

Example C184_case :
  predictions (snd (reduce Nat.eqb 0 plain (Inp Predicted 1) WeakEnabled [Rs 3 (Some 7%nat); Rs 4 (Some 8%nat)] None false 0 guard1)) = [Rh 1 100] /\
  predictions (snd (reduce Nat.eqb 0 plain (Inp Predicted 1) WeakEnabled [Rs 3 (Some 7%nat); Rs 4 (Some 8%nat)] None false 0
    (fun x => Some (Rh x 100)))) = [Rh 3 100; Rh 4 100].
Proof. split; reflexivity. Qed.

(* C185.  Confidence is lost by chaining, so that it ends. *)

Theorem C185_confidence_partial : forall mo now m i st rs sims req b guards r c sim gs d,
  In (Predict r c sim gs d) (snd (reduce mo now m i st rs sims req b guards)) ->
  c == icfd i * rate m /\ sln_thr m < c.
Proof. exact made_confidence. Qed.
Print Assumptions C185_confidence_partial.

Theorem C185_chain_partial : forall c0 ms c, Chain c0 ms c -> c == c0 * product ms.
Proof. exact chain_product. Qed.
Print Assumptions C185_chain_partial.

(* With rates up to some [q], a chain can only be so long. *)
Theorem C185_ends_partial : forall c0 ms m c q t,
  Chain c0 (ms ++ [m]) c -> 0 <= c0 -> 0 <= q ->
  (forall x, In x (ms ++ [m]) -> 0 <= rate x /\ rate x <= q) -> t <= sln_thr m ->
  t < c0 * power q (length (ms ++ [m])).
Proof. exact chain_end. Qed.
Print Assumptions C185_ends_partial.
Theorem C185_length_partial : forall c0 ms m c q t,
  Chain c0 (ms ++ [m]) c -> 0 <= c0 -> 0 <= q -> q <= 1 -> 0 <= t ->
  (forall x, In x (ms ++ [m]) -> 0 <= rate x /\ rate x <= q) -> t <= sln_thr m ->
  t * (inject_Z (Z.of_nat (length (ms ++ [m]))) * (1 - q)) < c0.
Proof. exact chain_length. Qed.
Print Assumptions C185_length_partial.

(* With models that never failed, there is no end. *)
Theorem C185_refuted : exists c0 : Q, forall n : nat, exists ms, length ms = n /\ Chain c0 ms c0.
Proof. exact forever_witness. Qed.
Print Assumptions C185_refuted.

Example C185_case : Chain 1 ([] ++ [plain]) (1 * (1 # 2)).
Proof.
  eapply (CStep 1 Nat.eqb 0 plain Actual WeakEnabled [] None false 0 guard1 (Rh 1 100) _ None false [] [] 1); [constructor|].
  left. reflexivity.
Qed.

(* C186.  Predictions from facts are watched, and failures count for those that were injected. *)

Theorem C186_watched : forall mo now m i st rs sims req b guards,
  src i = Actual -> is_req m = false ->
  (st = WeakEnabled \/ st = NoRequirement ->
     watched (snd (reduce mo now m i st rs sims req b guards)) =
     filter (fun r => (now <? until r)%Z) (passing guards (choice b rs))) /\
  (silent m st (src i) ->
     watched (snd (reduce mo now m i st rs sims req b guards)) = passing guards (choice b rs)).
Proof. exact reduce_watch. Qed.
Print Assumptions C186_watched.

Theorem C186_unwatched : forall mo now m i st rs sims req b guards,
  src i <> Actual \/ is_req m = true -> watched (snd (reduce mo now m i st rs sims req b guards)) = [].
Proof. exact reduce_unwatched. Qed.
Print Assumptions C186_unwatched.

Theorem C186_rated : forall mo now m i st rs sims req b guards r f,
  In (Watch r f) (snd (reduce mo now m i st rs sims req b guards)) ->
  (f = true <-> exists c sim gs d, In (Predict r c sim gs d) (snd (reduce mo now m i st rs sims req b guards))).
Proof. exact reduce_rated. Qed.
Print Assumptions C186_rated.

Example C186_case :
  silent plain WeakDisabled Actual /\
  snd (reduce Nat.eqb 0 (Md (1 # 2) 1 false false false false 1 0) (Inp Actual 1) NoRequirement [] None false 0 guard1) =
    [Watch (Rh 1 100) false; Second (1 * (1 # 2))].
Proof. split; [split; [discriminate|right; split; [reflexivity|left; reflexivity]]|reflexivity]. Qed.

(* C187.  The requirements of a prediction are kept only while its outcome is awaited. *)

Theorem C187_watched_partial : forall mo now m i st rs sims req b guards r,
  src i = Actual -> (forall x r, guards x = Some r -> (now < until r)%Z) ->
  In (Track r) (snd (reduce mo now m i st rs sims req b guards)) ->
  exists f, In (Watch r f) (snd (reduce mo now m i st rs sims req b guards)).
Proof. exact reduce_tracked. Qed.
Print Assumptions C187_watched_partial.

(* Those of a prediction that comes too late are kept, and nothing is awaited. *)
Theorem C187_refuted : exists mo now m i st rs sims b guards r,
  src i = Actual /\ snd (reduce mo now m i st rs sims true b guards) = [Track r].
Proof. exact late_witness. Qed.
Print Assumptions C187_refuted.

(* C188.  Simulations leave no trace outside. *)

Theorem C188_inside_partial : forall mo now m i st rs sims req b guards e,
  src i = Simulated -> In e (snd (reduce mo now m i st rs sims req b guards)) ->
  of_simulation e \/ (is_req m = true /\ exists g, e = Mark g).
Proof. exact simulation_effects. Qed.
Print Assumptions C188_inside_partial.

Theorem C188_outside_partial : forall mo now m i st rs sims req b guards e,
  src i <> Simulated -> In e (snd (reduce mo now m i st rs sims req b guards)) -> ~ of_simulation e.
Proof. exact real_effects. Qed.
Print Assumptions C188_outside_partial.

(* A reduction marker of a simulated requirement goes to the output groups. *)
Theorem C188_refuted : exists mo now m i st rs sims b guards g,
  src i = Simulated /\ In (Mark g) (snd (reduce mo now m i st rs sims false b guards)).
Proof. exact trace_witness. Qed.
Print Assumptions C188_refuted.

Example C188_case :
  snd (reduce Nat.eqb 0 (Md 1 0 false true false false 1 1) (Inp Simulated 1) WeakEnabled [Rs 3 (Some 7%nat)] None false 0 guard1) =
    [Predict (Rh 1 100) (1 * 1) true [] (Some 7%nat); PredInstance true].
Proof. reflexivity. Qed.

(* C189.  A requirement counts exactly if the model that made it was allowed to. *)

Theorem C189_primary_partial : forall mo now m i st rs sims req b guards r c s a,
  In (Need r c s a) (snd (reduce mo now m i st rs sims req b guards)) ->
  is_req m = true /\ (a = true <-> exists x, offered st (src i) rs sims b x) /\
  c == (if a then icfd i * rate m else 0) /\ (a = false -> src i = Actual).
Proof. exact need_allowed. Qed.
Print Assumptions C189_primary_partial.

(* Models in the secondary group only watch and tell of requirements. *)
Theorem C189_secondary_partial : forall m st rs req b guards e,
  In e (snd (reduce2 m st rs req b guards)) ->
  (exists r, e = Track r) \/ (exists r, e = Watch r false) \/ (exists r c a, e = Need r c false a).
Proof. exact second_silent. Qed.
Print Assumptions C189_secondary_partial.

(* They do so for requirements that were not allowed. *)
Theorem C189_refuted : exists m st rs b guards r c,
  (forall x, ~ offered st Actual rs None b x) /\ In (Need r c false true) (snd (reduce2 m st rs true b guards)).
Proof. exact second_witness. Qed.
Print Assumptions C189_refuted.

Example C189_case :
  snd (reduce Nat.eqb 0 needing (Inp Actual 1) WeakDisabled [] None false 0 guard1) = [Mark None; Need (Rh 1 100) 0 false false] /\
  snd (reduce Nat.eqb 0 needing (Inp Actual 1) NoRequirement [] None false 0 guard1) = [Mark None; Need (Rh 1 100) (1 * (1 # 2)) false true].
Proof. split; reflexivity. Qed.

(* C190.  Assumptions are made only of what is not explained otherwise, and not of themselves. *)

Theorem C190_use_partial : forall thz c a,
  let u := snd (arrive thz c a) in
  u <> nothing ->
  chained u = true /\ (for_preds u = true <-> fwd a = false) /\
  (for_goals u = true <-> fwd a = true \/ pm a = false) /\
  (assumed u = true <-> fwd a = false /\ pm a = false /\ gm a = false).
Proof. exact arrive_use. Qed.
Print Assumptions C190_use_partial.

Theorem C190_own_partial : forall thz c a,
  orphan c = false -> gone a = false ->
  (In (obj a, false) (assumptions c) <-> snd (arrive thz c a) = nothing).
Proof. exact own_used. Qed.
Print Assumptions C190_own_partial.

(* Whatever comes before it. *)
Theorem C190_first_partial : forall thz l1 c a l2,
  orphan c = false -> In (obj a, false) (assumptions c) -> gone a = false ->
  (forall x, In x l1 -> obj x <> obj a) ->
  nth_error (snd (arrive_all thz c (l1 ++ a :: l2))) (length l1) = Some nothing.
Proof. exact own_first. Qed.
Print Assumptions C190_first_partial.

(* The second time an assumption is used, to make another one. *)
Theorem C190_refuted : exists thz c a,
  orphan c = false /\ In (obj a, false) (assumptions c) /\
  exists u, snd (arrive_all thz c [a; a]) = [nothing; u] /\ chained u = true /\ assumed u = true.
Proof. exact own_witness. Qed.
Print Assumptions C190_refuted.

(* C191.  A model is switched off exactly if it has not matched for too long. *)

Theorem C191_idle : forall thz l c,
  orphan c = false -> (forall a, In a l -> ~ In (obj a, false) (assumptions c)) ->
  (act0 (fst (arrive_all thz c l)) = true <->
   act0 c = true \/
   exists l1 a l2, l = l1 ++ a :: l2 /\ gone a = false /\ fwd a = false /\ (thz < at_ a - last_match (last c) l1)%Z).
Proof. exact idle. Qed.
Print Assumptions C191_idle.

Example C191_case :
  act0 (fst (arrive_all 10 (Ct false [] 0 false) [Ar 1 false true false false 5; Ar 2 false false false false 15])) = false /\
  act0 (fst (arrive_all 10 (Ct false [] 0 false) [Ar 1 false true false false 5; Ar 2 false false false false 16])) = true.
Proof. split; reflexivity. Qed.
