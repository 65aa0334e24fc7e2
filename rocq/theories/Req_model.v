(** Model of the look-up of requirement instances, by which a model decides whether it
    may chain: MDLController::_store_requirement, retrieve_imdl_fwd, retrieve_imdl_bwd,
    retrieve_simulated_imdl_fwd, retrieve_simulated_imdl_bwd (r_exec/mdl_controller.cpp).

    Simplifications: matching of the instance of a requirement against the instance of
    the model ([strict], [lenient], [clash] below) is given; a binding map is a value of
    [B]; the reduction markers that accompany the results are left out; r_code::list is
    a list (as C09 proves) except in [fwd_strong_cells]; critical sections are not
    modelled; Now() is an argument. *)
From Verif Require Import Base CellList_model.
From Coq Require Import SpecFloat.

(** RequirementEntry, mdl_controller.h:190-204, with what it inherits
    (hlp_controller.h:112-138): evidence, times and confidence of the predicted
    instance, controller of the requirement, chaining_was_allowed. *)
Record entry := mkentry { ev : Z; after : Z; before : Z; cfd : spec_float; ctrl : Z; allowed : bool }.
(** ChainingStatus, hlp_controller.h:97-103. *)
Inductive status := WeakDisabled | StrongNoWeak | StrongDisabledWeak | WeakEnabled | NoRequirement.
(** Requirements, mdl_controller.h:151-156. *)
Record reqs := mkreqs { q_ctrls : list Z; q_imdl : option Z; q_allowed : bool }.
Definition no_reqs : reqs := mkreqs [] None false.
Definition note (q : reqs) (e : entry) : reqs := mkreqs (ctrl e :: q_ctrls q) (Some (ev e)) (allowed e).
Section Retrieve.
Context {B : Type}.
(** match_fwd_strict(_f_imdl, f_imdl) on a copy of the binding map: the copy after a
    match; match_fwd_lenient(...) == MATCH_SUCCESS_NEGATIVE; and the match of a weak
    requirement with a strong one (mdl_controller.cpp:562-564, 712-714, 919-921,
    1063-1065). *)
Context (strict lenient : Z -> option B) (clash : Z -> Z -> bool).
(** is_invalidated() of the evidence; has_simulation(sim) of its prediction;
    has_defeasible_consequence(). *)
Context (dead sim defeasible : Z -> bool).
(** hlp_controller.h:125-130 *)
Definition too_old (now : Z) (e : entry) : bool := dead (ev e) || (if after e =? before e then before e <? now else before e <=? now).
(** mdl_controller.h:202 *)
Definition out_of_range (now : Z) (e : entry) : bool := (before e <? now) || (now <? after e).
(** _store_requirement, mdl_controller.cpp:427-442. *)
Definition store_requirement (now : Z) (e : entry) (l : list entry) : list entry := e :: filter (fun x => negb (too_old now x)) l.

(** The entries a loop considers: in range (fwd, 787, 863, 909), of the simulation
    (465, 500, 532, 556, 615, 647, 680, 705), all (bwd). *)
Definition current (now : Z) (e : entry) : bool := negb (out_of_range now e).
Definition simulated (e : entry) : bool := sim (ev e).
Definition any (e : entry) : bool := true.

(** The loops that collect all the weak requirements when there are no strong ones:
    780-812 and 459-481.  [gate]: chaining_was_allowed_ (799), or nothing. *)
Fixpoint weak_all (visit gate : entry -> bool) (now : Z) (l : list entry) (r : status) (res : list (B * option Z)) (q : reqs) : list entry * status * list (B * option Z) * reqs :=
  match l with
  | [] => ([], r, res, q)
  | e :: l' =>
      if too_old now e then weak_all visit gate now l' r res q
      else let '(l2, r, res, q) :=
        (if visit e then
           match strict (ev e) with
           | None => weak_all visit gate now l' r res q
           | Some b => if gate e then weak_all visit gate now l' WeakEnabled (res ++ [(b, Some (ev e))]) (note q e) else weak_all visit gate now l' r res (note q e)
           end
         else weak_all visit gate now l' r res q) in
        (e :: l2, r, res, q)
  end.
(** The loops that stop at the first match: 494-513, 526-548, 609-630, 641-662,
    674-697, 973-991, 1004-1021, 1032-1050. *)
Fixpoint first_match (match_ : Z -> option B) (visit : entry -> bool) (now : Z) (l : list entry) : list entry * option (entry * B) :=
  match l with
  | [] => ([], None)
  | e :: l' =>
      if too_old now e then first_match match_ visit now l'
      else match (if visit e then match_ (ev e) else None) with
           | Some b => (l, Some (e, b))
           | None => let (l2, a) := first_match match_ visit now l' in (e :: l2, a)
           end
  end.
(** The loop over the strong requirements when there are weak ones: 859-886. *)
Fixpoint strong_all (now : Z) (l : list entry) (a : option (entry * B)) (q : reqs) : list entry * option (entry * B) * reqs :=
  match l with
  | [] => ([], a, q)
  | e :: l' =>
      if too_old now e then strong_all now l' a q
      else let '(l2, a, q) :=
        (if current now e then
           match lenient (ev e) with
           | None => strong_all now l' a q
           | Some b => strong_all now l' (match a with None => if allowed e then Some (e, b) else None | a => a end) (note q e)
           end
         else strong_all now l' a q) in
        (e :: l2, a, q)
  end.
(** 562-564 and 919-921; confidence against the strong requirement, 565 and 922. *)
Definition clashes (strong : option (entry * B)) (e : entry) : bool := match strong with None => false | Some (s, _) => clash (ev e) (ev s) end.
Definition stronger (strong : option (entry * B)) (e : entry) : bool := match strong with None => SFltb (S754_zero false) (cfd e) | Some (s, _) => SFltb (cfd s) (cfd e) end.
Definition is_enabled (r : status) : bool := match r with WeakEnabled => true | _ => false end.
(** The state of the loops over the weak requirements when there are strong ones. *)
Record scan := mkscan { c_r : status; c_res : list (B * option Z); c_ground : option Z; c_wr : bool; c_q : reqs }.
(** 905-946 and 551-582. *)
Fixpoint mixed_fwd (visit gate : entry -> bool) (strong : option (entry * B)) (now : Z) (l : list entry) (c : scan) : list entry * scan :=
  match l with
  | [] => ([], c)
  | e :: l' =>
      if too_old now e then mixed_fwd visit gate strong now l' c
      else let (l2, c) := mixed_fwd visit gate strong now l'
        (if visit e then
           match strict (ev e) with
           | None => c
           | Some b =>
               let q := note (c_q c) e in
               if gate e then
                 if negb (clashes strong e) || stronger strong e then mkscan WeakEnabled (c_res c ++ [(b, Some (ev e))]) (c_ground c) (clashes strong e) q
                 else if is_enabled (c_r c) then mkscan (c_r c) (c_res c) (c_ground c) (c_wr c) q
                 else mkscan StrongDisabledWeak (c_res c) (Some (ev e)) false q
               else mkscan (c_r c) (c_res c) (c_ground c) (c_wr c) q
           end
         else c) in
        (e :: l2, c)
  end.
(** What a look-up gives besides the status: results (fwd), weak and strong
    requirements met, wr_enabled. *)
Record looked := mklooked { l_status : status; l_results : list (B * option Z); l_weak : reqs; l_strong : reqs; l_wr : bool }.
Record caches := mkcaches { pos : list entry; neg : list entry }.
Definition strong_result (c : scan) (strong : option (entry * B)) : list (B * option Z) :=
  match c_r c, strong with
  | StrongNoWeak, Some (_, b) => c_res c ++ [(b, c_ground c)]
  | StrongDisabledWeak, Some (_, b) => c_res c ++ [(b, c_ground c)]
  | _, _ => c_res c
  end.
Definition start (strong : option (entry * B)) : scan := mkscan (match strong with Some _ => StrongNoWeak | None => WeakDisabled end) [] None false no_reqs.
(** retrieve_imdl_fwd, mdl_controller.cpp:755-955; [wr] and [sr]: numbers of weak and
    strong requirements; [r]: their sum.  None: strong requirements only, and an entry
    is too old: see [fwd_strong_cells]. *)
Definition retrieve_imdl_fwd (r wr sr now : Z) (k : caches) : option (caches * looked) :=
  if r =? 0 then Some (k, mklooked NoRequirement [] no_reqs no_reqs false)
  else if sr =? 0 then
    let '(l, st, res, q) := weak_all (current now) allowed now (pos k) WeakDisabled [] no_reqs in
    Some (mkcaches l (neg k), mklooked st res q no_reqs false)
  else if wr =? 0 then
    if existsb (too_old now) (neg k) then None
    else let '(l, a, q) := strong_all now (neg k) None no_reqs in
      Some (k, mklooked (match a with Some _ => StrongNoWeak | None => NoRequirement end) [] no_reqs q false)
  else
    let '(n, strong, q) := strong_all now (neg k) None no_reqs in
    let (p, c) := mixed_fwd (current now) allowed strong now (pos k) (start strong) in
    Some (mkcaches p n, mklooked (c_r c) (strong_result c strong) (c_q c) q (c_wr c)).
(** retrieve_simulated_imdl_fwd, mdl_controller.cpp:444-591.  (For the match of 472 the
    flag I_HLP_WEAK_REQUIREMENT_ENABLED is made equal: [strict] is then that match.) *)
Definition retrieve_simulated_imdl_fwd (r wr sr now : Z) (k : caches) : caches * looked :=
  if r =? 0 then (k, mklooked NoRequirement [] no_reqs no_reqs false)
  else if sr =? 0 then
    let '(l, st, res, q) := weak_all simulated any now (pos k) WeakDisabled [] no_reqs in
    (mkcaches l (neg k), mklooked st res no_reqs no_reqs false)
  else if wr =? 0 then
    let (n, a) := first_match lenient simulated now (neg k) in
    (mkcaches (pos k) n, match a with Some (_, b) => mklooked StrongNoWeak [(b, None)] no_reqs no_reqs false | None => mklooked NoRequirement [] no_reqs no_reqs false end)
  else
    let (n, strong) := first_match lenient simulated now (neg k) in
    let (p, c) := mixed_fwd simulated any strong now (pos k) (start strong) in
    (mkcaches p n, mklooked (c_r c) (strong_result c strong) no_reqs no_reqs false).

(** *** Backward *)
(** The result: status, new binding map (None: unchanged), ground, ground of the strong
    requirement, evidence whose defeasible consequence is invalidated. *)
Record bwd := mkbwd { b_status : status; b_map : option B; b_ground : option Z; b_strong : option Z; b_defeated : list Z }.
(** 1053-1083, and, with [is_sim], 700-741. *)
Fixpoint mixed_bwd (visit : entry -> bool) (is_sim : bool) (strong : option (entry * B)) (now : Z) (l : list entry) (r : status) (m : option B) (g : option Z) (d : list Z) : list entry * (status * option B * option Z * list Z) :=
  match l with
  | [] => ([], (r, m, g, d))
  | e :: l' =>
      if too_old now e then mixed_bwd visit is_sim strong now l' r m g d
      else let (l2, x) :=
        (if visit e then
           match strict (ev e) with
           | None => mixed_bwd visit is_sim strong now l' r m g d
           | Some b =>
               if negb (clashes strong e) || stronger strong e || (is_sim && match strong with Some (s, _) => before s <=? after e | None => false end) then
                 if is_enabled r then mixed_bwd visit is_sim strong now l' r m g d
                 else mixed_bwd visit is_sim strong now l' WeakEnabled (Some b) (Some (ev e)) d
               else if negb is_sim || match strong with Some (s, _) => after s <? before e | None => false end then
                 let d := if is_sim && defeasible (ev e) then d ++ [ev e] else d in
                 if is_enabled r then mixed_bwd visit is_sim strong now l' r m g d
                 else mixed_bwd visit is_sim strong now l' StrongDisabledWeak m (Some (ev e)) d
               else mixed_bwd visit is_sim strong now l' r m g d
           end
         else mixed_bwd visit is_sim strong now l' r m g d) in
        (e :: l2, x)
  end.
(** retrieve_imdl_bwd, 957-1092, and, with [is_sim], retrieve_simulated_imdl_bwd,
    593-752. *)
Definition retrieve_bwd (is_sim : bool) (r wr sr now : Z) (k : caches) : caches * bwd :=
  let visit := if is_sim then simulated else any in
  if r =? 0 then (k, mkbwd NoRequirement None None None [])
  else if sr =? 0 then
    let (p, a) := first_match strict visit now (pos k) in
    (mkcaches p (neg k), match a with Some (e, b) => mkbwd WeakEnabled (Some b) (Some (ev e)) None [] | None => mkbwd WeakDisabled None None None [] end)
  else if wr =? 0 then
    let (n, a) := first_match lenient visit now (neg k) in
    (mkcaches (pos k) n, match a with Some (e, b) => mkbwd StrongNoWeak (if is_sim then Some b else None) None (Some (ev e)) [] | None => mkbwd NoRequirement None None None [] end)
  else
    let (n, strong) := first_match lenient visit now (neg k) in
    let '(p, (st, m, g, d)) := mixed_bwd visit is_sim strong now (pos k) (match strong with Some _ => StrongNoWeak | None => WeakDisabled end) None None [] in
    let m' := match st, strong with
      | WeakEnabled, _ => m
      | StrongNoWeak, Some (_, b) => if is_sim then Some b else None
      | StrongDisabledWeak, Some (_, b) => if is_sim then Some b else None
      | _, _ => None
      end in
    (mkcaches p n, mkbwd st m' g (match strong with Some (e, _) => Some (ev e) | None => None end) d).

(** *** Strong requirements only, on the cells of the lists *)
Inductive outcome (A : Type) := Done (a : A) | Undefined | OutOfFuel.
Arguments Done {A}. Arguments Undefined {A}. Arguments OutOfFuel {A}.
(** The loop of 824-845: the iterator is in the list of the negative evidence ([in_neg])
    or in that of the positive evidence, at cell [c]; entries too old are erased from the
    list of the positive evidence (827), whose iterator is assigned.  Undefined: an
    access out of the bounds of the vector of cells. *)
Fixpoint fwd_strong_cells (fuel : nat) (now : Z) (p n : @cells_list entry) (in_neg : bool) (c : option nat) (r : status) (q : reqs) : outcome (@cells_list entry * @cells_list entry * status * reqs) :=
  match fuel, c with
  | _, None => Done (p, n, r, q)
  | O, Some _ => OutOfFuel
  | S f, Some i =>
      match nth_error (cells (if in_neg then n else p)) i with
      | None => Undefined
      | Some cc =>
          let e := data cc in
          if too_old now e then
            match erase p i with
            | None => Undefined
            | Some (p, i) => fwd_strong_cells f now p n false i r q
            end
          else if out_of_range now e then fwd_strong_cells f now p n in_neg (next cc) r q
          else match lenient (ev e) with
               | None => fwd_strong_cells f now p n in_neg (next cc) r q
               | Some _ =>
                   fwd_strong_cells f now p n in_neg (next cc)
                     (match r with NoRequirement => if allowed e then StrongNoWeak else r | _ => r end) (note q e)
               end
      end
  end.
Definition retrieve_strong_only (fuel : nat) (now : Z) (p n : @cells_list entry) := fwd_strong_cells fuel now p n true (head n) NoRequirement no_reqs.
End Retrieve.
Arguments Done {A}. Arguments Undefined {A}. Arguments OutOfFuel {A}.
