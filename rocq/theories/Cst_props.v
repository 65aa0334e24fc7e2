(** Properties C81 to C92 (composite states). *)
From Coq Require Import SpecFloat.
From Verif Require Import Base Float32 Cst_model Cst_spec Cst_proofs Cst2_proofs Cst3_proofs Cst4_proofs Csg_model Csg_spec Csg_proofs.
From Coq Require Import Permutation.
Local Open Scope nat_scope.

(** ** C81 What an instance consists of *)

(** Any binding discipline [M], composite state [C], numbering of simulations and
    history [es]: the components of an instance are events of the history, in the
    order in which they fitted distinct components of the composite state, all of
    them used once; no fact twice; none dead when the instance was made. *)
Theorem C81_instance_is_complete_and_live : forall B (M : binder B) C root root_root es q,
  orderly es -> In q (productions M C root root_root es) ->
  exists s e ps,
    subseq (s ++ [e]) es /\ Permutation ps (patterns C) /\
    fitted M (initial C) (map arrived (s ++ [e])) ps (pbnd q) /\
    Permutation (components q) (map arrived (s ++ [e])) /\ NoDup (parts q) /\
    Forall (fun x => dead e (ptr (ifact x)) = false) (components q).
Proof. exact (fun B M C root root_root => instance_sound M C root root_root). Qed.
Print Assumptions C81_instance_is_complete_and_live.
Example C81_example : orderly w_two /\ map parts (productions W wcst wid wid w_two) = [[10; 11]].
Proof. split; [exact w_two_orderly|]. rewrite w_two_made. reflexivity. Qed.

(** ** C82 Forward guards *)

(** Full statement: an instance is made only if the forward guards of the
    composite state hold for its bindings. *)
Theorem C82_guards_refuted : exists (C : cst (Z * Z)) es q,
  orderly es /\ In q (productions W C wid wid es) /\ guards C (pbnd q) = None.
Proof. exact guards_unheeded. Qed.
Print Assumptions C82_guards_refuted.
(** What holds: the guards change nothing at all. *)
Theorem C82_guards_ignored : forall B (M : binder B) C C' root root_root,
  same_but_guards C C' -> forall es, productions M C root root_root es = productions M C' root root_root es.
Proof. exact (fun B M C C' root root_root => productions_guards M C C' root root_root). Qed.
Print Assumptions C82_guards_ignored.

(** ** C83 Every combination gives an instance *)

(** Full statement: whenever facts of the history, in their order, fit all the
    components of a composite state, an instance of these facts is made. *)
Theorem C83_every_combination_refuted : exists es ps b,
  orderly es /\ fitted W (initial wcst) (map arrived es) ps b /\ Permutation ps (patterns wcst) /\
  (forall e, In e es -> ~ simulated (arrived e)) /\ each_once es /\
  (forall e i, In e es -> dead e i = false) /\ open_at W wcst es 6 /\
  productions W wcst wid wid es = [].
Proof. exact combination_missed. Qed.
Print Assumptions C83_every_combination_refuted.
(** Proved for facts that fit one component only, outside of simulations. *)
Theorem C83_every_combination_partial : forall B (M : binder B) C root root_root es s e ps b,
  orderly es -> subseq (s ++ [e]) es ->
  (forall a, In a (s ++ [e]) -> ~ simulated (arrived a)) ->
  Forall2 (fun a p => only_fits M C (arrived a) p) (s ++ [e]) ps ->
  each_once (s ++ [e]) ->
  fitted M (initial C) (map arrived (s ++ [e])) ps b ->
  Permutation ps (patterns C) ->
  Forall (fun a => dead e (ptr (ifact (arrived a))) = false) (s ++ [e]) ->
  open_at M C s (now e) ->
  exists q, In q (productions M C root root_root es) /\ pbnd q = b /\ Permutation (components q) (map arrived (s ++ [e])).
Proof. exact (fun B M C root root_root => every_combination M C root root_root). Qed.
Print Assumptions C83_every_combination_partial.
Example C83_example : exists ps b,
  (forall a, In a w_two -> ~ simulated (arrived a)) /\ Forall2 (fun a p => only_fits W wcst (arrived a) p) w_two ps /\
  each_once w_two /\ fitted W (initial wcst) (map arrived w_two) ps b /\ Permutation ps (patterns wcst) /\
  open_at W wcst [at_time 5 (plain 10 0 100)] 6.
Proof. exact combination_example. Qed.

(** ** C84 Each combination once *)

(** Full statement: no two instances are made of the same facts. *)
Theorem C84_once_refuted : exists es, orderly es /\ ~ all_different (productions W wcst wid wid es).
Proof. exact combination_twice. Qed.
Print Assumptions C84_once_refuted.
(** Proved when each fact arrives once. *)
Theorem C84_once_partial : forall B (M : binder B) C root root_root es,
  orderly es -> each_once es -> all_different (productions M C root root_root es).
Proof. exact (fun B M C root root_root => productions_different M C root root_root). Qed.
Print Assumptions C84_once_partial.
Example C84_example : each_once w_two /\ length (productions W wcst wid wid w_two) = 1.
Proof. split; [repeat constructor; cbn; intuition lia|]. rewrite w_two_made. reflexivity. Qed.

(** ** C85 Confidence *)

(** Full statement: the confidence of an instance is the lowest among its
    components (cst_controller.h). *)
Theorem C85_confidence_refuted : exists es q, orderly es /\ In q (productions W wcst wid wid es) /\
  Forall (fun x => flt (confidence x) (fact_cfd q) = true) (components q).
Proof. exact confidence_is_one. Qed.
Print Assumptions C85_confidence_refuted.
(** The lowest confidence is what is compared with the thresholds. *)
Theorem C85_lowest_partial : forall B (M : binder B) C root root_root es q,
  orderly es -> (forall e, In e es -> proper (confidence (arrived e))) -> In q (productions M C root root_root es) ->
  Forall (fun x => fle (plow q) (confidence x) = true) (components q) /\
  (plow q = fone \/ exists x, In x (components q) /\ plow q = confidence x).
Proof. exact (fun B M C root root_root => instance_lowest M C root root_root). Qed.
Print Assumptions C85_lowest_partial.
(** Place 0 is the primary group, 1 the secondary one, 2 and on the output groups. *)
Theorem C85_injected_above_threshold_partial : forall B (M : binder B) C root root_root es q,
  orderly es -> In q (productions M C root root_root es) ->
  (mode q = Stated -> injections q =
     (if flt (thr1 C) (plow q) then (0, fone) :: map (fun i => (2 + i, fone)) (seq 0 (outs C)) else []) ++
     (if flt (thr2 C) (plow q) then [(1, fone)] else [])) /\
  (mode q <> Stated -> injections q = if flt (thr1 C) (plow q) then [(0, plow q)] else []).
Proof. exact (fun B M C root root_root => instance_injected M C root root_root). Qed.
Print Assumptions C85_injected_above_threshold_partial.
Example C85_example : (forall e, In e w_two -> proper (confidence (arrived e))) /\
  map plow (productions W wcst wid wid w_two) = [half].
Proof. split; [intros e [<-|[<-|[]]]; vm_compute; auto|]. rewrite w_two_made. reflexivity. Qed.

(** ** C86 Predicted instances *)
Theorem C86_mode : forall B (M : binder B) C root root_root es q,
  orderly es -> In q (productions M C root root_root es) ->
  match mode q with
  | Stated => Forall (fun x => ~ predicted x) (components q)
  | PredictedFrom g =>
      Forall (fun x => ~ simulated x) (components q) /\ Exists predicted (components q) /\
      (forall i, In i g <-> exists x, In x (components q) /\ predicted x /\ i = ptr (ifact x))
  | Simulated ss _ =>
      Exists simulated (components q) /\ ss <> [] /\ (forall k, In k ss -> exists x, In x (components q) /\ In k (sims_of x))
  end.
Proof. exact (fun B M C root root_root => instance_mode M C root root_root). Qed.
Print Assumptions C86_mode.
Example C86_example : map mode (productions W wcst wid wid w_two) = [Stated] /\
  map mode (productions W wcst wid wid [at_time 5 (foreseen 10 0 100 [] []); at_time 6 (plain 11 0 100)]) = [PredictedFrom [10]] /\
  map mode (productions W wcst wid wid w_dropped) = [Simulated [1] []].
Proof. vm_compute. auto. Qed.

(** ** C87 Simulations apart *)

(** Full statement: the simulated components of an instance belong to the same
    simulations. *)
Theorem C87_unmixed_refuted : exists es q x y k, orderly es /\ In q (productions W wcst wid wid es) /\
  In x (components q) /\ In y (components q) /\ In k (sims_of x) /\ simulated y /\ ~ In k (sims_of y).
Proof. exact simulations_mixed. Qed.
Print Assumptions C87_unmixed_refuted.
(** Proved for predictions that belong to one simulation each. *)
Theorem C87_unmixed_partial : forall B (M : binder B) C root root_root es q,
  orderly es -> (forall e, In e es -> length (sims_of (arrived e)) <= 1) -> In q (productions M C root root_root es) ->
  forall x y k, In x (components q) -> In y (components q) -> In k (sims_of x) -> simulated y -> In k (sims_of y).
Proof. exact (fun B M C root root_root => instance_unmixed M C root root_root). Qed.
Print Assumptions C87_unmixed_partial.
Definition same_simulation : list event := [at_time 5 (foreseen 10 0 100 [1] []); at_time 6 (foreseen 11 0 100 [1] [])].
Example C87_example : (forall e, In e same_simulation -> length (sims_of (arrived e)) <= 1) /\
  length (productions W wcst wid wid same_simulation) = 1.
Proof. split; [intros e [<-|[<-|[]]]; cbn; lia|vm_compute; reflexivity]. Qed.

(** ** C88 Validities *)

(** Full statement: a simulated instance depends on all that its components depend
    on. *)
Theorem C88_validities_refuted : exists es q ss vs x v, orderly es /\ In q (productions W wcst wid wid es) /\
  mode q = Simulated ss vs /\ In x (components q) /\ In v (validities_of x) /\ ~ In v vs.
Proof. exact validity_dropped. Qed.
Print Assumptions C88_validities_refuted.
(** Proved when all inputs are predictions. *)
Theorem C88_validities_partial : forall B (M : binder B) C root root_root es q ss vs,
  orderly es -> In q (productions M C root root_root es) -> mode q = Simulated ss vs ->
  (forall e, In e es -> predicted (arrived e)) ->
  forall v, In v vs <-> exists x, In x (components q) /\ In v (validities_of x).
Proof. exact (fun B M C root root_root => instance_validities M C root root_root). Qed.
Print Assumptions C88_validities_partial.
Definition both_predicted : list event := [at_time 5 (foreseen 10 0 100 [1] [7]); at_time 6 (foreseen 11 0 100 [1] [8])].
Example C88_example : (forall e, In e both_predicted -> predicted (arrived e)) /\
  map mode (productions W wcst wid wid both_predicted) = [Simulated [1] [7; 8]].
Proof. split; [intros e [<-|[<-|[]]]; cbn; discriminate|vm_compute; reflexivity]. Qed.

(** ** C89 In time *)

(** Full statement: an instance is made while the interval common to its
    components is open. *)
Theorem C89_in_time_refuted : exists s e q, orderly (s ++ [e]) /\ In q (productions W wcst wid wid (s ++ [e])) /\
  ~ In q (productions W wcst wid wid s) /\ (fwd_before W (pbnd q) < now e)%Z.
Proof. exact made_late. Qed.
Print Assumptions C89_in_time_refuted.
(** Proved: while the interval of the first component is open. *)
Theorem C89_in_time_partial : forall B (M : binder B) C root root_root es q,
  orderly es -> In q (productions M C root root_root es) -> exists e1 r p1 b1,
  subseq (e1 :: r) es /\ Permutation (components q) (map arrived (e1 :: r)) /\ fitted M (initial C) [arrived e1] [p1] b1 /\
  (fwd_before M b1 <> 0%Z -> Forall (fun e => (now e <= fwd_before M b1)%Z) r).
Proof. exact (fun B M C root root_root => instance_in_time M C root root_root). Qed.
Print Assumptions C89_in_time_partial.
Example C89_example : orderly w_two /\ map (fun q => fwd_before W (pbnd q)) (productions W wcst wid wid w_two) = [100%Z].
Proof. split; [exact w_two_orderly|]. rewrite w_two_made. reflexivity. Qed.

(** ** C90 Sub-goals *)

(** Each sub-goal is a component to be reached (or to be avoided, if the composite
    state is), which is no axiom, and for which there is neither evidence nor
    counter-evidence nor predicted evidence, and which is not pursued already. *)
Theorem C90_sub_goals_needed : forall evidence predicted same opposite l reg w,
  In w (snd (abduce evidence predicted same opposite l reg)) ->
  exists c, In c l /\ axiom c = false /\ w = wish_of opposite c /\ open_wish evidence predicted w /\
    ~ exists r, In r reg /\ alike same w r.
Proof. exact abduce_new. Qed.
Print Assumptions C90_sub_goals_needed.
(** Each such component is pursued afterwards: by a new sub-goal or an older one. *)
Theorem C90_all_pursued : forall evidence predicted same opposite l reg c,
  In c l -> axiom c = false -> open_wish evidence predicted (wish_of opposite c) ->
  (forall o, same o o = true) ->
  exists r, In r (reg ++ snd (abduce evidence predicted same opposite l reg)) /\ alike same (wish_of opposite c) r.
Proof. exact abduce_all. Qed.
Print Assumptions C90_all_pursued.
Theorem C90_registered : forall evidence predicted same opposite l reg,
  snd (fst (abduce evidence predicted same opposite l reg)) = reg ++ snd (abduce evidence predicted same opposite l reg).
Proof. exact abduce_reg. Qed.
Print Assumptions C90_registered.
(** No two sub-goals pursue the same. *)
Theorem C90_no_duplicates : forall evidence predicted same opposite l reg,
  (forall a b, same a b = same b a) ->
  ForallOrdPairs (fun w w' => ~ alike same w w') (snd (abduce evidence predicted same opposite l reg)).
Proof. exact abduce_once. Qed.
Print Assumptions C90_no_duplicates.
Example C90_example :
  snd (abduce (fun w => if wobj w =? 1 then Positive else Failure) (fun w => if wobj w =? 2 then Positive else Negative) Nat.eqb false
    [mkpart true 1 false false; mkpart true 2 false false; mkpart true 3 true false; mkpart true 3 true false; mkpart true 4 false true; mkpart true 5 false false]
    [mkwish 5 true]) = [mkwish 3 true; mkwish 5 false].
Proof. reflexivity. Qed.

(** ** C91 A goal leaves the composite state as it is *)

(** Full statement: making sub-goals does not change the composite state. *)
Theorem C91_unchanged_refuted : exists evidence predicted same opposite l reg,
  fst (fst (abduce evidence predicted same opposite l reg)) <> l.
Proof.
  exact (ex_intro _ w_none (ex_intro _ w_none (ex_intro _ Nat.eqb (ex_intro _ true (ex_intro _ [w_part] (ex_intro _ [] abduce_changes)))))).
Qed.
Print Assumptions C91_unchanged_refuted.
(** Proved when the state is not wished away, or all its components contain variables. *)
Theorem C91_unchanged_partial : forall evidence predicted same opposite l reg,
  opposite = false \/ Forall (fun c => copied c = true) l ->
  fst (fst (abduce evidence predicted same opposite l reg)) = l.
Proof. exact abduce_unchanged. Qed.
Print Assumptions C91_unchanged_partial.
Example C91_example : Forall (fun c => copied c = true) [mkpart true 1 false false] /\
  snd (abduce w_none w_none Nat.eqb true [mkpart true 1 false false] []) = [mkwish 1 true].
Proof. split; [repeat constructor|reflexivity]. Qed.

(** ** C92 Dropping composite states *)

(** Full statement: a composite state is dropped when an input that does not match
    comes longer than the horizon after the last match, when an input comes while
    the composite state or model that one of its components instantiates has been
    dropped, and in no other case. *)
Theorem C92_dropped_refuted : exists thz t0 comps c l,
  In (Some c) comps /\ seen_gone c l /\ killed (live_run thz (create t0 comps) l) = false.
Proof. exact second_unwatched. Qed.
Print Assumptions C92_dropped_refuted.
(** As it is: only the first component counts. *)
Theorem C92_dropped_partial : forall thz t0 comps l,
  killed (live_run thz (create t0 comps) l) = true <->
  starved thz t0 l \/ exists c r, comps = Some c :: r /\ seen_gone c l.
Proof. exact dropped_exact. Qed.
Print Assumptions C92_dropped_partial.
Example C92_example : starved 10 0 [Reduced 8 true; Reduced 15 false; GoalReduced; Reduced 19 false] /\
  killed (live_run 10 (create 0 [None]) [Reduced 8 true; Reduced 15 false; GoalReduced]) = false.
Proof. split; [exists [Reduced 8 true; Reduced 15 false; GoalReduced], 19%Z, []; cbn; split; [reflexivity|lia]|reflexivity]. Qed.
