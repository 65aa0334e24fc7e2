(** C58, C59, C60: decisions by requirements. *)
From Verif Require Import Base Req_model Req_spec Req_proofs CellList_model.
From Coq Require Import SpecFloat.

(** C58: forward chaining is decided by the requirements that apply at that time. *)
Theorem C58_none : forall B (strict lenient : Z -> option B) clash dead wr sr now k,
  exists o, retrieve_imdl_fwd strict lenient clash dead 0 wr sr now k = Some (k, o) /\ l_status o = NoRequirement /\ l_results o = [].
Proof. exact (@fwd_none). Qed.
Print Assumptions C58_none.

Theorem C58_weak_only : forall B (strict lenient : Z -> option B) clash dead r wr now k k' o, r <> 0 -> retrieve_imdl_fwd strict lenient clash dead r wr 0 now k = Some (k', o) ->
  let W := weak_at strict dead now (pos k) in let S := fun _ => False in
  (forall st, l_status o = st <-> verdict W S (wins clash) st) /\ right_results strict lenient W S (wins clash) (l_status o) (l_results o) /\
  retained dead now (pos k) (pos k') /\ neg k' = neg k /\
  (forall c, In c (q_ctrls (l_weak o)) <-> exists e, candidate dead now (in_range now) strict (pos k) e /\ ctrl e = c).
Proof. exact (fun B strict lenient clash dead => @fwd_weak_only B strict lenient clash dead dead dead). Qed.
Print Assumptions C58_weak_only.

Theorem C58_mixed : forall B (strict lenient : Z -> option B) clash dead r wr sr now k k' o, r <> 0 -> wr <> 0 -> sr <> 0 -> retrieve_imdl_fwd strict lenient clash dead r wr sr now k = Some (k', o) ->
  let W := weak_at strict dead now (pos k) in let S := strong_at lenient dead now (neg k) in
  (forall st, l_status o = st <-> verdict W S (wins clash) st) /\ right_results strict lenient W S (wins clash) (l_status o) (l_results o) /\
  retained dead now (pos k) (pos k') /\ retained dead now (neg k) (neg k') /\
  (l_wr o = true -> exists w s, W w /\ S s /\ clash (ev w) (ev s) = true /\ SFltb (cfd s) (cfd w) = true) /\
  (forall c, In c (q_ctrls (l_weak o)) <-> exists e, candidate dead now (in_range now) strict (pos k) e /\ ctrl e = c) /\
  (forall c, In c (q_ctrls (l_strong o)) <-> exists e, candidate dead now (in_range now) lenient (neg k) e /\ ctrl e = c).
Proof. exact (fun B strict lenient clash dead => @fwd_mixed B strict lenient clash dead dead dead). Qed.
Print Assumptions C58_mixed.

(** Strong requirements only: as long as no entry of the cache is too old; the model on
    lists and the code on cells agree then. *)
Theorem C58_strong_only_partial : forall B (strict lenient : Z -> option B) clash dead r wr sr now k, r <> 0 -> wr = 0 -> sr <> 0 -> (forall e, In e (neg k) -> usable dead now e) ->
  exists o, retrieve_imdl_fwd strict lenient clash dead r wr sr now k = Some (k, o) /\
  (l_status o = StrongNoWeak <-> exists s, strong_at lenient dead now (neg k) s) /\ (l_status o = NoRequirement <-> forall s, ~ strong_at lenient dead now (neg k) s) /\
  (forall c, In c (q_ctrls (l_strong o)) <-> exists e, candidate dead now (in_range now) lenient (neg k) e /\ ctrl e = c).
Proof. exact (fun B strict lenient clash dead => @fwd_strong_only B strict lenient clash dead dead dead). Qed.
Print Assumptions C58_strong_only_partial.

Theorem C58_cells : forall B (strict lenient : Z -> option B) clash dead r sr now k (p n : @cells_list entry), r <> 0 -> sr <> 0 -> holds n (neg k) -> (forall e, In e (neg k) -> usable dead now e) ->
  exists o, retrieve_imdl_fwd strict lenient clash dead r 0 sr now k = Some (k, o) /\ retrieve_strong_only lenient dead (length (cells n)) now p n = Done (p, n, l_status o, l_strong o).
Proof. exact (fun B strict lenient clash dead => @fwd_strong_cells_ok B strict lenient clash dead dead dead). Qed.
Print Assumptions C58_cells.

(** Otherwise the look-up erases in the wrong list: outside of its cells if it has none,
    or an entry that can still be used. *)
Theorem C58_undefined_refuted : exists now (n : @cells_list entry) (e : entry), holds n [e] /\ ~ usable never now e /\ forall fuel, (1 <= fuel)%nat -> retrieve_strong_only yes never fuel now empty n = Undefined.
Proof. exact strong_undefined_refuted. Qed.
Print Assumptions C58_undefined_refuted.

Theorem C58_loses_refuted : exists now (p n : @cells_list entry) (a e : entry) p', holds p [a] /\ holds n [e] /\ usable never now a /\ ~ usable never now e /\
  (exists st q, retrieve_strong_only yes never 5 now p n = Done (p', n, st, q)) /\ holds p' [].
Proof. exact strong_loses_refuted. Qed.
Print Assumptions C58_loses_refuted.

(** C59: the same in simulations, and backward. *)
Theorem C59_simulated_forward : forall B (strict lenient : Z -> option B) clash dead sim r wr sr now k k' o, r <> 0 -> (sr <> 0 -> wr <> 0) -> retrieve_simulated_imdl_fwd strict lenient clash dead sim r wr sr now k = (k', o) ->
  let W := weak_sim strict dead sim now (pos k) in let S := fun e => sr <> 0 /\ strong_sim lenient dead sim now (neg k) e in
  (forall st, l_status o = st <-> verdict W S (wins clash) st) /\ right_results strict lenient W S (wins clash) (l_status o) (l_results o) /\
  retained dead now (pos k) (pos k') /\ retained dead now (neg k) (neg k').
Proof. exact (fun B strict lenient clash dead sim => @sim_fwd_decides B strict lenient clash dead sim dead). Qed.
Print Assumptions C59_simulated_forward.

Theorem C59_simulated_forward_strong_only : forall B (strict lenient : Z -> option B) clash dead sim r sr now k k' o, r <> 0 -> sr <> 0 -> retrieve_simulated_imdl_fwd strict lenient clash dead sim r 0 sr now k = (k', o) ->
  let S := strong_sim lenient dead sim now (neg k) in
  (l_status o = StrongNoWeak /\ (exists s b, S s /\ lenient (ev s) = Some b /\ l_results o = [(b, None)]) \/ l_status o = NoRequirement /\ l_results o = [] /\ forall s, ~ S s) /\ pos k' = pos k /\ retained dead now (neg k) (neg k').
Proof. exact (fun B strict lenient clash dead sim => @sim_fwd_strong_only B strict lenient clash dead sim dead). Qed.
Print Assumptions C59_simulated_forward_strong_only.

(** With [is_sim] false: retrieve_imdl_bwd; with [is_sim] true: retrieve_simulated_imdl_bwd. *)
Theorem C59_backward : forall B (strict lenient : Z -> option B) clash dead sim defeasible is_sim r wr sr now k k' o, r <> 0 -> (sr <> 0 -> wr <> 0) -> retrieve_bwd strict lenient clash dead sim defeasible is_sim r wr sr now k = (k', o) ->
  let S := strong_s lenient dead sim is_sim sr now k in let W := weak_c strict clash dead sim is_sim now (pos k) S in let win := bwin clash is_sim in
  (forall st, b_status o = st <-> verdict W S win st) /\
  match b_status o with
  | WeakEnabled => exists w, youngest (fun w => usable dead now w /\ bok sim is_sim w /\ strict (ev w) <> None /\ forall s, S s -> win s w) (pos k) w /\ b_ground o = Some (ev w) /\ b_map o = strict (ev w)
  | StrongDisabledWeak => exists s w, S s /\ W w /\ b_ground o = Some (ev w) /\ b_map o = (if is_sim then lenient (ev s) else None)
  | StrongNoWeak => exists s, S s /\ b_ground o = None /\ b_map o = (if is_sim then lenient (ev s) else None)
  | _ => b_ground o = None /\ b_map o = None
  end /\
  (forall x, b_strong o = Some x <-> exists s, S s /\ ev s = x) /\
  (forall x, In x (b_defeated o) <-> is_sim = true /\ exists s w, S s /\ W w /\ ~ win s w /\ defeasible (ev w) = true /\ ev w = x) /\
  retained dead now (pos k) (pos k') /\ retained dead now (neg k) (neg k').
Proof. exact (@bwd_decides). Qed.
Print Assumptions C59_backward.

Theorem C59_backward_strong_only : forall B (strict lenient : Z -> option B) clash dead sim defeasible is_sim r sr now k k' o, r <> 0 -> sr <> 0 -> retrieve_bwd strict lenient clash dead sim defeasible is_sim r 0 sr now k = (k', o) ->
  let S := strong_b lenient dead sim is_sim now (neg k) in
  (b_status o = StrongNoWeak /\ (exists s, S s /\ b_strong o = Some (ev s) /\ b_map o = (if is_sim then lenient (ev s) else None)) \/
   b_status o = NoRequirement /\ b_strong o = None /\ b_map o = None /\ forall s, ~ S s) /\
  b_ground o = None /\ b_defeated o = [] /\ pos k' = pos k /\ retained dead now (neg k) (neg k').
Proof. exact (@bwd_strong_only). Qed.
Print Assumptions C59_backward_strong_only.

(** C60: the flag that accompanies the results: true only if a weak requirement is
    stronger than a strong one about the same. *)
Theorem C60_sound_partial : forall B (strict lenient : Z -> option B) clash dead r wr sr now k k' o, r <> 0 -> wr <> 0 -> sr <> 0 -> retrieve_imdl_fwd strict lenient clash dead r wr sr now k = Some (k', o) ->
  l_wr o = true -> exists w s, weak_at strict dead now (pos k) w /\ strong_at lenient dead now (neg k) s /\ clash (ev w) (ev s) = true /\ SFltb (cfd s) (cfd w) = true.
Proof. intros B strict lenient clash dead r wr sr now k k' o R W S H. exact (proj1 (proj2 (proj2 (proj2 (proj2 (@fwd_mixed B strict lenient clash dead dead dead r wr sr now k k' o R W S H)))))). Qed.
Print Assumptions C60_sound_partial.

(** But not whenever there is one: a weak requirement met later clears the flag. *)
Theorem C60_flag_refuted : exists now k k' o w s, retrieve_imdl_fwd yes yes only_7 never 2 1 1 now k = Some (k', o) /\ l_status o = WeakEnabled /\ weak_at yes never now (pos k) w /\ strong_at yes never now (neg k) s /\
  only_7 (ev w) (ev s) = true /\ SFltb (cfd s) (cfd w) = true /\ l_wr o = false.
Proof. exact flag_refuted. Qed.
Print Assumptions C60_flag_refuted.

(** Concrete cases: two weak requirements and a strong one that is in between. *)
Definition ex_caches : caches := mkcaches [e_at 7 0 50 most; mkentry 8 0 50 half 108 true; e_at 9 0 5 most; mkentry 10 0 50 most 110 false] [e_at 1 0 50 half; e_at 2 0 50 most].
Example C58_ex_mixed : option_map (fun x => (l_status (snd x), l_results (snd x), q_ctrls (l_weak (snd x)), q_ctrls (l_strong (snd x)), map ev (pos (fst x)))) (retrieve_imdl_fwd yes yes always never 3 2 1 10 ex_caches) =
  Some (WeakEnabled, [(7, Some 7)], [110; 108; 107], [102; 101], [7; 8; 10]).
Proof. vm_compute. reflexivity. Qed.
Example C58_ex_disabled : option_map (fun x => (l_status (snd x), l_results (snd x))) (retrieve_imdl_fwd yes yes always never 3 2 1 10 (mkcaches [e_at 8 0 50 half] [e_at 2 0 50 most])) = Some (StrongDisabledWeak, [(2, Some 8)]).
Proof. vm_compute. reflexivity. Qed.
Example C58_ex_strong : retrieve_strong_only yes never 1 10 (one_cell (e_at 3 0 50 half)) (one_cell (e_at 2 0 50 half)) = Done (one_cell (e_at 3 0 50 half), one_cell (e_at 2 0 50 half), StrongNoWeak, mkreqs [102] (Some 2) true).
Proof. reflexivity. Qed.
Example C59_ex_simulated : (let r := retrieve_bwd yes yes always never (fun x => x <? 8) (fun _ => true) true 3 2 1 10 (mkcaches [e_at 9 0 50 most; e_at 6 30 50 half; e_at 7 60 90 half] [e_at 2 20 40 most]) in
  (b_status (snd r), b_map (snd r), b_ground (snd r), b_strong (snd r), b_defeated (snd r))) = (WeakEnabled, Some 7, Some 7, Some 2, [6]).
Proof. vm_compute. reflexivity. Qed.
