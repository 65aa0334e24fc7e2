(** Model of the auto-focus: r_exec/auto_focus.h, auto_focus.cpp, the inputs and the
    filter of the pattern extractors (pattern_extractor.h:100-141, pattern_extractor.cpp:
    110-190, 207-235, 311-360, 548-605, 791-805), time-limited buffers
    (r_code/time_buffer.h) and the controllers of atomic states (r_exec/ast_controller.h,
    ast_controller.cpp, ast_controller.tpl.cpp).

    Simplifications: objects are their addresses; r_code::list is a list (C09); what
    matching and binding say is given by parameters; tracing is left out. *)
From Verif Require Import Base Utils_model.
Local Open Scope nat_scope.

(** * Time-limited buffers, time_buffer.h *)
Section Buffer.
(** [old now x]: [IsInvalidated()(x, now, thz)]. *)
Context {A : Type} (old : Z -> A -> bool).

(** The end of a traversal, [++i] and what the caller does with [*i]: cells that are too
    old are erased on the way (118-133). *)
Fixpoint onward {R : Type} (visit : A -> R -> A * R) (now : Z) (l : list A) (r : R) : list A * R :=
  match l with
  | [] => ([], r)
  | x :: l =>
      if old now x then onward visit now l r
      else let (x, r) := visit x r in let (l, r) := onward visit now l r in (x :: l, r)
  end.
(** [for (i = begin(now); i != end(); ++i)]: [begin] gives the first cell, whatever its age
    (139-143). *)
Definition traverse {R : Type} (visit : A -> R -> A * R) (now : Z) (l : list A) (r : R) : list A * R :=
  match l with
  | [] => ([], r)
  | x :: l => let (x, r) := visit x r in let (l, r) := onward visit now l r in (x :: l, r)
  end.

(** [find(now, t)] (145-153): the cells passed, and the one found with those behind it. *)
Fixpoint find_onward (is : A -> bool) (now : Z) (l : list A) : list A * option (A * list A) :=
  match l with
  | [] => ([], None)
  | x :: l =>
      if old now x then find_onward is now l
      else if is x then ([], Some (x, l))
      else let (k, f) := find_onward is now l in (x :: k, f)
  end.
Definition find_first (is : A -> bool) (now : Z) (l : list A) : list A * option (A * list A) :=
  match l with
  | [] => ([], None)
  | x :: l => if is x then ([], Some (x, l)) else let (k, f) := find_onward is now l in (x :: k, f)
  end.

(** What is read in a traversal that changes nothing (auto_focus.cpp:435-442). *)
Definition read_all (now : Z) (l : list A) : list A * list A := traverse (fun x r => (x, r ++ [x])) now l [].

(** A history of a buffer. *)
Inductive use := Push (x : A) | Read (now : Z) | Find (now : Z) (is : A -> bool).
Definition used (l : list A) (u : use) : list A :=
  match u with
  | Push x => l ++ [x]
  | Read now => fst (read_all now l)
  | Find now is => let (k, f) := find_first is now l in match f with Some (x, r) => k ++ x :: r | None => k end
  end.
End Buffer.

(** pattern_extractor.h:114-121, 135-142: [time_reference - ijt > thz]. *)
Definition too_late (thz now ijt : Z) : bool := (thz <? now - ijt)%Z.

(** * The auto-focus controller *)
Section Focus.
(** Binding maps; [intersect]: BindingMap::intersect; [full]: is_fully_specified;
    [matches t m v]: the copy of the map of the target [t] after its times were reset and
    the input matched with the target (pattern_extractor.cpp:159-162), if it does. *)
Context {B : Type} (intersect : B -> B -> bool) (full : B -> bool).

(** An input: its address, when it was injected, the map of its abstraction. *)
Record view := mkview { v_id : nat; v_ijt : Z; v_map : B }.
(** CInput, pattern_extractor.h:123-131. *)
Record cached := mkcached { c_view : view; c_ijt : Z; c_done : bool }.

Context (matches : nat -> B -> view -> option B).
(** [achieved t p]: the success of the prediction [p] achieves the goal [t], an anti-fact,
    and the model could be built (pattern_extractor.cpp:582-613). *)
Context (achieved : nat -> nat -> bool).

(** TPX, _TPX, GTPX, PTPX. *)
Inductive kind := Idle | OnGoal | OnPrediction.
Record tpx := mktpx { t_kind : kind; t_map : B; t_hook : bool; t_maps : list B; t_inputs : list view }.

(** What the controller does: injects an input in the output groups; injects it in those
    from the third; gives an input to the extractor of a target; starts the extractor of a
    target; learns at once from the success of a prediction; gives an input to the
    controller of a composite state. *)
Inductive act := Inject (v : view) | InjectOthers (v : view) | Take (t : nat) (v : view) | Start (t : nat) (v : view)
  | Learn (t : nat) | Hook (t : nat) (v : view).

(** auto_focus.h:95-103, and the horizons of both buffers. *)
Record config := mkconfig { pass_through : bool; gtpx_on : bool; ptpx_on : bool; thz_cross : Z; thz_cache : Z }.
Context (cfg : config).

Definition old_view (now : Z) (v : view) : bool := too_late (thz_cross cfg) now (v_ijt v).
Definition old_cached (now : Z) (c : cached) : bool := too_late (thz_cache cfg) now (c_ijt c).

(** What a filter changes: the cache, the cross buffer, what is done. *)
Definition shared := (list cached * list view * list act)%type.

(** The loop of pattern_extractor.cpp:166-174 for one cell. *)
Definition visit_cached (m : B) (c : cached) (r : list view * list act) : cached * (list view * list act) :=
  if c_done c then (c, r)
  else if intersect m (v_map (c_view c))
       then (mkcached (c_view c) (c_ijt c) true, (fst r ++ [c_view c], snd r ++ [Inject (c_view c)]))
       else (c, r).

(** TPX::filter, pattern_extractor.cpp:147-190.  [icst]: the input is an instance of a
    composite state. *)
Definition filter (now : Z) (icst : bool) (id : nat) (t : tpx) (v : view) (sh : shared) : bool * tpx * shared :=
  let '(c, x, a) := sh in
  if icst then (false, t, sh)
  else if intersect (t_map t) (v_map v) then (true, t, sh)
  else if full (t_map t) then (false, t, sh)
  else if existsb (fun m => intersect m (v_map v)) (t_maps t) then (true, t, sh)
  else
    match matches id (t_map t) v with
    | Some m =>
        let t := mktpx (t_kind t) (t_map t) (t_hook t) (t_maps t ++ [m]) (t_inputs t) in
        let '(c, (x, a)) := traverse old_cached (visit_cached m) now c (x, a) in
        (true, t, (c, x, a))
    | None =>
        let a := if t_hook t then a ++ [Hook id v] else a in
        let ci := mkcached v (v_ijt v) false in
        let (k, f) := find_first old_cached (fun c => v_id (c_view c) =? v_id v) now c in
        match f with
        | Some (e, r) =>
            if (c_ijt e <? c_ijt ci)%Z then (false, t, (k ++ r ++ [ci], x, a)) else (false, t, (k ++ e :: r, x, a))
        | None => (false, t, (k ++ [ci], x, a))
        end
    end.

(** TPX::take_input, GTPX::take_input, pattern_extractor.cpp:136-139, 555-562. *)
Definition take_input (now : Z) (icst : bool) (id : nat) (t : tpx) (v : view) (sh : shared) : bool * tpx * shared :=
  let '(b, t, sh) := filter now icst id t v sh in
  match b, t_kind t with
  | true, OnGoal => (b, mktpx (t_kind t) (t_map t) (t_hook t) (t_maps t) (t_inputs t ++ [v]), sh)
  | _, _ => (b, t, sh)
  end.

Definition tmap := list (nat * tpx).

(** dispatch and dispatch_no_inject, auto_focus.cpp:276-297 ([icst]: the latter);
    auto_focus.cpp:143-147.  The order of an unordered map is any. *)
Fixpoint dispatch (now : Z) (icst : bool) (v : view) (m : tmap) (injected : bool) (sh : shared) : tmap * bool * shared :=
  match m with
  | [] => ([], injected, sh)
  | (id, t) :: m =>
      let '(c, x, a) := sh in
      let '(b, t, (c, x, a)) := take_input now icst id t v (c, x, a ++ [Take id v]) in
      let go := (b && negb icst && negb injected)%bool in
      let sh := if go then (c, x ++ [v], a ++ [Inject v]) else (c, x, a) in
      let '(m, injected, sh) := dispatch now icst v m (injected || go)%bool sh in
      ((id, t) :: m, injected, sh)
  end.

(** The state. *)
Record state := mkstate { goals : tmap; predictions : tmap; cache : list cached; cross : list view }.

(** What a reduction made, auto_focus.cpp:329-346. *)
Inductive production := Goal (id : nat) | Prediction (id : nat) | Nothing.
(** An input of the controller, auto_focus.cpp:309-415: a reduction of a model (or of a
    composite state), the outcome of a goal or a prediction, a performance report, an
    instance of a composite state, another fact.  [weak]: weak requirements enabled.
    [state_target]: the target is an instance of a composite state. *)
Inductive event :=
| Reduction (model : bool) (p : production) (m : B) (weak state_target : bool)
| Outcome (success : bool) (goal : bool) (t : nat) (v : view)
| Report (v : view)
| Instance (v : view)
| Other (v : view).

(** build_tpx, auto_focus.h:156-173, and the constructor, pattern_extractor.cpp:112-123.
    The maps of ratings are never filled: no function adds an entry, no rating is found. *)
Definition build_tpx (k : kind) (m : B) (weak state_target : bool) : tpx :=
  mktpx (if negb (gtpx_on cfg) && negb (ptpx_on cfg) then Idle else if weak then Idle else k)
    m (full m && state_target)%bool [] [].

(** [map::insert]: an entry that is there is kept. *)
Definition insert (id : nat) (t : tpx) (m : tmap) : tmap := if existsb (fun e => fst e =? id) m then m else m ++ [(id, t)].

(** TPX::signal, GTPX::signal, PTPX::signal: a job is made, pattern_extractor.cpp:141-142,
    564-578, 791-805. *)
Definition signal (id : nat) (t : tpx) (success : bool) (v : view) : list act :=
  match t_kind t with
  | Idle => []
  | OnGoal => if gtpx_on cfg && success then [Start id v] else []
  | OnPrediction => if ptpx_on cfg && negb success then [Start id v] else []
  end.

(** notify, auto_focus.cpp:259-267. *)
Definition notify (id : nat) (success : bool) (v : view) (m : tmap) : tmap * list act :=
  match find (fun e => fst e =? id) m with
  | Some (_, t) => (List.filter (fun e => negb (fst e =? id)) m, signal id t success v)
  | None => (m, [])
  end.

(** GTPX::ack_pred_success, pattern_extractor.cpp:580-626 (the list of predictions of the
    extractor is left out). *)
Definition ack (p : nat) (e : nat * tpx) : list act :=
  match t_kind (snd e) with
  | OnGoal => if achieved (fst e) p then [Learn (fst e)] else []
  | _ => []
  end.

(** reduce, auto_focus.cpp:309-415. *)
Definition reduce (now : Z) (e : event) (s : state) : state * list act :=
  match e with
  | Reduction model p m weak st =>
      if model then
        match p with
        | Goal id => (mkstate (insert id (build_tpx OnGoal m weak st) (goals s)) (predictions s) (cache s) (cross s), [])
        | Prediction id => (mkstate (goals s) (insert id (build_tpx OnPrediction m weak st) (predictions s)) (cache s) (cross s), [])
        | Nothing => (s, [])
        end
      else (s, [])
  | Outcome success goal t v =>
      if goal then
        let (g, a) := notify t success v (goals s) in (mkstate g (predictions s) (cache s) (cross s), a)
      else
        let (p, a) := notify t success v (predictions s) in
        (mkstate (goals s) p (cache s) (cross s), a ++ (if success then flat_map (ack t) (goals s) else []))
  | Report v => (s, [InjectOthers v])
  | Instance v =>
      if pass_through cfg then
        (mkstate (goals s) (predictions s) (cache s) (if ptpx_on cfg then cross s ++ [v] else cross s), [])
      else
        let '(g, _, sh) := dispatch now true v (goals s) false (cache s, cross s, []) in
        let '(p, _, (c, x, a)) := dispatch now true v (predictions s) false sh in
        (mkstate g p c (x ++ [v]), a)
  | Other v =>
      if pass_through cfg then
        (mkstate (goals s) (predictions s) (cache s) (if ptpx_on cfg then cross s ++ [v] else cross s), [Inject v])
      else
        let '(g, i, sh) := dispatch now false v (goals s) false (cache s, cross s, []) in
        let '(p, _, (c, x, a)) := dispatch now false v (predictions s) i sh in
        (mkstate g p c x, a)
  end.

Fixpoint run (es : list (Z * event)) (s : state) : state * list act :=
  match es with
  | [] => (s, [])
  | (now, e) :: es => let (s, a) := reduce now e s in let (s, b) := run es s in (s, a ++ b)
  end.
End Focus.

(** * Injection in the output groups, auto_focus.cpp:130-256 *)

(** A fact: what it is about, its polarity, its times, its confidence and threshold
    (the bits of floats; [unit_float] is 1). *)
Record fact := mkfact { payload : nat; positive : bool; after : Z; before : Z; cfd : Z; psln : Z }.
Definition unit_float : Z := 1065353216%Z.
(** What a view says of its fact: r_code/object.h:189-195 ([Granted]: SYNC_AXIOM, [GrantedOnce]: SYNC_ONCE_AXIOM). *)
Inductive sync := Once | Periodic | Hold | Granted | GrantedOnce.
Record iview := mkiview { i_fact : fact; i_sync : sync; i_res : Z; i_sln : Z; i_host : nat; i_origin : nat }.
(** A group: its address, its update period. *)
Record ogroup := mkogroup { g_id : nat; g_upr : Z }.

Section Inject.
(** [morph res origin_upr upr]: GetResilience (C07); base period, reference of time,
    tolerance of time. *)
Context (morph : Z -> Z -> Z -> Z) (base ref tol : Z).

(** A view and what is made with it: whether a controller of an atomic state watches it. *)
Definition injected := (iview * bool)%type.

(** One view per output group: 163-172, 179-195, 204-219, 227-239.  [w]: a controller is
    made for the first one. *)
Fixpoint per_group (f : fact) (s : sync) (fixed : option Z) (w : bool) (origin : ogroup) (v : iview) (gs : list ogroup) : list injected :=
  match gs with
  | [] => []
  | g :: gs =>
      (mkiview f s (match fixed with Some r => r | None => morph (i_res v) (g_upr origin) (g_upr g) end) (i_sln v) (g_id g) (i_host v), w)
      :: per_group f s fixed false origin v gs
  end.

(** inject_input of a view, 149-256.  [None]: no output group, or no case for the mode: what
    is returned is not initialized. *)
Definition inject_input (now : Z) (ctpx_on : bool) (origin : ogroup) (v : iview) (gs : list ogroup) : option (list injected) :=
  match gs with
  | [] => None
  | g0 :: _ =>
      let f := i_fact v in
      let copy a b := mkfact (payload f) (positive f) a b unit_float unit_float in
      let prev := get_prev_upr_time (g_upr g0) base ref now in
      let next := get_next_upr_time (g_upr g0) base ref now in
      match i_sync v with
      | Once => Some (per_group f Once None false origin v gs)
      | Periodic => Some (per_group (copy prev next) Periodic None (ctpx_on && positive f)%bool origin v gs)
      | Hold => Some (per_group (copy (now + 2 * tol)%Z (now + g_upr g0 * base)%Z) Once None ctpx_on origin v gs)
      | Granted => Some (per_group (copy prev next) GrantedOnce (Some 1%Z) false origin v gs)
      | GrantedOnce => None
      end
  end.

(** inject_input with a start, 130-141: reports, in the groups from [start]. *)
Definition inject_from (origin : ogroup) (v : iview) (gs : list ogroup) (start : nat) : list iview :=
  map (fun g => mkiview (i_fact v) (i_sync v) (morph (i_res v) (g_upr origin) (g_upr g)) (i_sln v) (g_id g) (i_origin v)) (skipn start gs).
End Inject.

(** * Controllers of atomic states, ast_controller.h, .cpp, .tpl.cpp *)

(** is_timeless_evidence: an input compared to the target. *)
Inductive verdict := Confirms | Contradicts | Neither.
(** An input: invalidated; the target itself; a prediction (of a fact, or of an anti-fact)
    and its verdict; another fact. *)
Inductive sort := Gone | Target | Predicted (is_fact : bool) (r : verdict) | Fresh (r : verdict).
Record ainput := mkainput { a_id : nat; a_sort : sort }.

(** Killed; inputs stored with the extractor, latest first; changes signalled, in order;
    the target was invalidated; the source was (SYNC_HOLD). *)
Record astate := mkastate { killed : bool; stored : list ainput; signalled : list ainput; dead : bool; source_dead : bool }.

(** ast_controller.tpl.cpp:128-157 and ast_controller.cpp:100-118, 130-145: what is done
    under the lock.  [hold]: a HASTController. *)
Definition react (hold : bool) (i : ainput) (s : astate) : astate :=
  let store := mkastate (killed s) (i :: stored s) (signalled s) (dead s) (source_dead s) in
  let kill := mkastate true (stored s) (signalled s) (dead s) (source_dead s) in
  match a_sort i with
  | Gone => s
  | Target => store
  | Predicted false _ => s
  | Predicted true Neither => s
  | Predicted true _ => kill
  | Fresh Confirms => mkastate true (stored s) (signalled s) (if hold then dead s else true) (source_dead s)
  | Fresh Contradicts =>
      mkastate true (stored s) (signalled s ++ [i]) (if hold then true else dead s) (if hold then true else source_dead s)
  | Fresh Neither => store
  end.

(** The jobs run in several threads.  [Check i]: a thread finds the controller valid
    (121-126); [Body i]: it has the lock, then. *)
Inductive step := Check (i : ainput) | Body (i : ainput).
Fixpoint removed (i : ainput) (l : list ainput) : list ainput :=
  match l with [] => [] | j :: l => if a_id j =? a_id i then l else j :: removed i l end.
(** The state and the jobs that wait for the lock. *)
Definition thread_step (hold : bool) (p : step) (st : astate * list ainput) : option (astate * list ainput) :=
  let (s, w) := st in
  match p with
  | Check i => if (killed s || match a_sort i with Gone => true | _ => false end)%bool then Some (s, w) else Some (s, i :: w)
  | Body i => if existsb (fun j => a_id j =? a_id i) w then Some (react hold i s, removed i w) else None
  end.
Fixpoint threads (hold : bool) (ps : list step) (st : astate * list ainput) : option (astate * list ainput) :=
  match ps with
  | [] => Some st
  | p :: ps => match thread_step hold p st with Some st => threads hold ps st | None => None end
  end.
(** One job after the other. *)
Definition job (hold : bool) (s : astate) (i : ainput) : astate := if killed s then s else react hold i s.
Definition jobs (hold : bool) (l : list ainput) (s : astate) : astate := fold_left (job hold) l s.
Definition watching : astate := mkastate false [] [] false false.

(** * Components of a new composite state, pattern_extractor.cpp:207-235, 311-360 *)

(** An input: its address; the components, if it is an instance of a composite state. *)
Record comp := mkcomp { o_id : nat; o_parts : option (list nat); discarded : bool }.

Definition discard (c : comp) : comp := mkcomp (o_id c) (o_parts c) true.
(** [components[k].discarded = true]; beyond the end: undefined. *)
Fixpoint discard_at (k : nat) (cs : list comp) : option (list comp) :=
  match cs, k with
  | [], _ => None
  | c :: cs, 0 => Some (discard c :: cs)
  | c :: cs, S k => match discard_at k cs with Some cs => Some (c :: cs) | None => None end
  end.
(** The indices found, 211-222: once for each component equal to the input. *)
Definition found_at (parts : list nat) (k : nat) (c : comp) : list nat :=
  if discarded c then [] else flat_map (fun p => if p =? o_id c then [k] else []) parts.
Definition found (parts : list nat) (cs : list comp) : list nat :=
  flat_map (fun kc => found_at parts (fst kc) (snd kc)) (combine (seq 0 (length cs)) cs).
(** filter_icst_components.  [None]: written beyond the array [found], of the size of the
    components of the instance, or beyond the end of the inputs. *)
Definition filter_icst_components (parts : list nat) (index : nat) (cs : list comp) : option (list comp) :=
  let f := found parts cs in
  if length parts <? length f then None
  else match f with
       | [] => discard_at index cs
       | _ => Some (map (fun kc => if existsb (Nat.eqb (fst kc)) f then discard (snd kc) else snd kc) (combine (seq 0 (length cs)) cs))
       end.
(** 335-340: [k] is the number of the instance among the instances: it is passed as its
    index among the inputs. *)
Fixpoint filter_all (k : nat) (instances : list nat) (cs : list comp) : option (list comp) :=
  match instances with
  | [] => Some cs
  | i :: rest =>
      match nth_error cs i with
      | Some c =>
          match filter_icst_components (match o_parts c with Some ps => ps | None => [] end) k cs with
          | Some cs => filter_all (S k) rest cs
          | None => None
          end
      | None => None
      end
  end.
(** The indices of the instances among the inputs, 318-331. *)
Definition instances_of (cs : list comp) : list nat :=
  flat_map (fun kc => match o_parts (snd kc) with Some _ => [fst kc] | None => [] end) (combine (seq 0 (length cs)) cs).
Definition assemble (cs : list comp) : option (list comp) := filter_all 0 (instances_of cs) cs.

(** * Ratings, auto_focus.h:110-132 *)
Record rating := mkrating { evidences : Z; positives : Z; rate : Z }.
(** The division is one of integers ([uint32]); the counters wrap.  [None]: division by
    zero.  The difference to the last rate is left out. *)
Definition add_evidence (success : bool) (r : rating) : option rating :=
  let e := u32 (evidences r + 1) in
  let p := if success then u32 (positives r + 1) else positives r in
  if (e =? 0)%Z then None else Some (mkrating e p (p / e)%Z).
Fixpoint rated (l : list bool) (r : rating) : option rating :=
  match l with
  | [] => Some r
  | b :: l => match add_evidence b r with Some r => rated l r | None => None end
  end.
Definition unrated : rating := mkrating 0 0 0.
