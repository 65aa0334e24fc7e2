(** Model of the reduction of programs and anti-programs by their controllers
    (r_exec/pgm_overlay.cpp, pgm_controller.cpp).

    Inputs are named by their position in the stream of inputs that the controller
    reduces.  Matching one input against one pattern, given the inputs that matched
    before, and the guards of the program are parameters (the code of the patterns and of
    the guards is evaluated in the overlay, whose state is determined by the inputs that
    matched: see C33).  Simplifications: one call of reduce at a time (the controller has
    a critical section); the time read during a reduction is the time at its start; the
    list of overlays is a list, P<> references are values. *)
From Verif Require Import Base.

(** The inputs matched so far: pattern and position of the input. *)
Definition history := list (nat * nat).
Section Program.
Variable pats : list nat.                        (* input_pattern_indices_ after init, pgm_overlay.cpp:572-581 *)
Variable pmatch : history -> nat -> nat -> bool. (* _match = SUCCESS: 730-771 *)
Variable guards : history -> bool.               (* check_guards() && inject_productions(): 677 *)

Record overlay := mkpo {
  hist : history;       (* input_views_, with the pattern each one matched *)
  waiting : list nat;   (* input_pattern_indices_ *)
  birth : Z;            (* birth_time_; 0: no match yet *)
  dead : bool           (* invalidated_ *)
}.
(** PGMOverlay::PGMOverlay, init: 538-542, 572-581 *)
Definition fresh : overlay := mkpo [] pats 0 false.
(** PGMOverlay::match, 706-728: the first waiting pattern that matches. *)
Definition match_ (o : overlay) (k : nat) : option nat := find (fun p => pmatch (hist o) p k) (waiting o).
(** input_pattern_indices_.erase(it): 717 *)
Fixpoint erase (p : nat) (l : list nat) : list nat :=
  match l with [] => [] | q :: r => if Nat.eqb q p then r else q :: erase p r end.
(** PGMOverlay::PGMOverlay(original, last_input_index, ...), 544-567: the last input
    omitted, its pattern put back at the end. *)
Definition offspring_of (o : overlay) (p : nat) : overlay := mkpo (hist o) (erase p (waiting o) ++ [p]) (birth o) false.
(** PGMOverlay::reduce, 670-704: the overlay, its offspring, and what fired. *)
Definition reduce_overlay (o : overlay) (k : nat) (now : Z) : overlay * option overlay * list history :=
  match match_ o k with
  | None => (o, None, [])
  | Some p =>
      let h := hist o ++ [(p, k)] in
      let w := erase p (waiting o) in
      match w with
      | [] => (mkpo h w (birth o) true, Some (offspring_of o p), if guards h then [h] else [])
      | _ => (mkpo h w (if birth o =? 0 then now else birth o) false, Some (offspring_of o p), [])
      end
  end.

(** The controller: time scope, run-once flag, volatility of the overlays. *)
Record config := mkcfg { tsc : Z; run_once : bool; volatile : bool }.
Variable cf : config.
(** PGMOverlay::is_invalidated, 583-595; [gone]: the inputs whose objects are invalidated. *)
Definition is_invalidated (gone : nat -> bool) (o : overlay) : bool :=
  dead o || (volatile cf && existsb (fun x => gone (snd x)) (hist o)).
(** pgm_controller.cpp:178-180 *)
Definition expired (now : Z) (o : overlay) : bool := (0 <? tsc cf) && ((0 <? birth o) && (tsc cf <? now - birth o)).
(** PGMController::reduce, 164-213: the overlays pushed in front, the overlays kept, what
    fired, and whether the controller is still alive (notify_reduction, 153-157). *)
Fixpoint sweep (k : nat) (now : Z) (gone : nat -> bool) (l : list overlay) (alive : bool) : list overlay * list overlay * list history * bool :=
  match l with
  | [] => ([], [], [], alive)
  | o :: r =>
      if is_invalidated gone o || expired now o then sweep k now gone r alive
      else
        let '(o', f, fired) := reduce_overlay o k now in
        let alive' := alive && negb (run_once cf && negb (match fired with [] => true | _ => false end)) in
        let front := match f with Some x => [x] | None => [] end in
        if negb alive' then (front, o' :: r, fired, alive')
        else let '(fr, ke, fi, al) := sweep k now gone r alive' in (fr ++ front, o' :: ke, fired ++ fi, al)
  end.
Record controller := mkctl { overlays : list overlay; is_alive : bool }.
(** PGMController::PGMController, 145-148 *)
Definition start : controller := mkctl [fresh] true.
(** ReductionJob::update, reduction_job.h:110-126: the controller reduces its input; it
    does not check that it is alive. *)
Definition reduce (c : controller) (k : nat) (now : Z) (gone : nat -> bool) : controller * list history :=
  let '(fr, ke, fi, al) := sweep k now gone (overlays c) (is_alive c) in (mkctl (fr ++ ke) al, fi).
(** A stream: for each input, the time at which it is reduced and what is invalidated
    then; [run c k s] reduces the inputs from position k on. *)
Definition moment := (Z * (nat -> bool))%type.
Fixpoint run (c : controller) (k : nat) (s : list moment) : controller * list history :=
  match s with
  | [] => (c, [])
  | (now, gone) :: r => let '(c1, f1) := reduce c k now gone in let '(c2, f2) := run c1 (S k) r in (c2, f1 ++ f2)
  end.
End Program.

(** Anti-programs. *)
Section AntiProgram.
Variable pats : list nat.
Variable pmatch : history -> nat -> nat -> bool.
Variable guards : history -> bool.               (* check_guards() *)
Inductive verdict := Nothing | Offspring (o : overlay) | Restarted.
(** AntiPGMOverlay::reduce, 818-846.  (The birth time is not used; an overlay that
    completes a match whose guards fail is rolled back: the code and the values, not the
    list of waiting patterns nor the inputs.) *)
Definition anti_reduce_overlay (o : overlay) (k : nat) : overlay * verdict :=
  match match_ pmatch o k with
  | None => (o, Nothing)
  | Some p =>
      let h := hist o ++ [(p, k)] in
      let w := erase p (waiting o) in
      match w with
      | [] => (mkpo h w (birth o) false, if guards h then Restarted else Nothing)
      | _ => (mkpo h w (birth o) false, Offspring (offspring_of o p))
      end
  end.
Record anti := mkanti {
  alist : list overlay;
  success : bool;        (* successful_match_ *)
  aalive : bool;
  sound : bool;          (* no overlay of the list has been freed *)
  jobs : list Z          (* the times of the signaling jobs that are pending *)
}.
Variable scope : Z.      (* IPGM_TSC *)
Variable ro : bool.      (* run_once_ *)
(** AntiPGMController::AntiPGMController, 217-220; a signaling job is pushed when the
    program is activated at time [t]: group.cpp:642 and 949, mem.cpp:481. *)
Definition anti_start (t : Z) : anti := mkanti [fresh pats] false true true [t + scope].
(** AntiPGMController::reduce, 230-256: the overlays pushed in front, those kept, and
    whether a match was completed (then the loop stops). *)
Fixpoint anti_sweep (k : nat) (l : list overlay) : list overlay * list overlay * bool :=
  match l with
  | [] => ([], [], false)
  | o :: r =>
      if dead o then anti_sweep k r
      else
        let '(o', v) := anti_reduce_overlay o k in
        match v with
        | Restarted => ([], [], true)
        | Offspring f => let '(fr, ke, b) := anti_sweep k r in (fr ++ [f], o' :: ke, b)
        | Nothing => let '(fr, ke, b) := anti_sweep k r in (fr, o' :: ke, b)
        end
  end.
(** On a completed match, restart (280-284) pushes a job if the program and its group are
    active (286-299, parameter [active]) and sets the flag, which 247 resets.  At 243-246
    the raw pointer to the overlay is pushed back in the list after clear() has dropped
    the reference that the list held, hence [sound] becomes false.  Volatile
    anti-programs are not modelled. *)
Definition anti_reduce (a : anti) (k : nat) (now : Z) (active : bool) : anti :=
  let '(fr, ke, b) := anti_sweep k (alist a) in
  if b then mkanti [fresh pats] false (aalive a) false (if active then jobs a ++ [now + scope] else jobs a)
  else mkanti (fr ++ ke) (success a) (aalive a) (sound a) (jobs a).
(** AntiPGMSignalingJob::update, time_job.cpp:151-160, and signal_anti_pgm, 258-278: the
    new state and whether the productions are injected. *)
Definition signal (a : anti) : anti * bool :=
  if negb (aalive a) then (a, false)
  else if success a then (mkanti (alist a) false (negb ro) (sound a) (jobs a), false)
  else if negb ro then (mkanti [fresh pats] false true false (jobs a), true)
  else (mkanti (match alist a with [] => [] | _ :: r => fresh pats :: r end) false false (sound a) (jobs a), true).
(** The jobs whose time has come run, in the order of their times. *)
Fixpoint run_jobs (a : anti) (n : nat) : anti * nat :=
  match n with
  | O => (a, O)
  | S m => let '(a1, f) := signal a in let '(a2, c) := run_jobs a1 m in (a2, ((if f then 1 else 0) + c)%nat)
  end.
Definition tick (a : anti) (now : Z) : anti * nat :=
  run_jobs (mkanti (alist a) (success a) (aalive a) (sound a) (filter (fun t => now <? t) (jobs a))) (length (filter (fun t => t <=? now) (jobs a))).
(** Events: an input is reduced; time passes. *)
Inductive event := Input (now : Z) (active : bool) | Tick (now : Z).
(** [arun a k es]: positions of the inputs from k on; the times of the firings. *)
Fixpoint arun (a : anti) (k : nat) (es : list event) : anti * list Z :=
  match es with
  | [] => (a, [])
  | Input now b :: r => arun (anti_reduce a k now b) (S k) r
  | Tick now :: r => let '(a1, n) := tick a now in let '(a2, fs) := arun a1 k r in (a2, repeat now n ++ fs)
  end.
End AntiProgram.

(** Input-less programs. *)
Section InputLess.
Variable scope : Z.      (* time_scope_ *)
Variable ro : bool.      (* run_once_ *)
Record inputless := mkil {
  killed : bool;         (* invalidated_ *)
  active : bool;         (* activated_ *)
  ijobs : list Z         (* the times of the signaling jobs that are pending *)
}.
(** Gain of activation at time [t]: group.cpp:745-766, 638-652; 956-960. *)
Definition activate (a : inputless) (t : Z) : inputless := if active a then a else mkil (killed a) true (ijobs a ++ [t + scope]).
(** Loss of activation: the pending jobs stay. *)
Definition deactivate (a : inputless) : inputless := mkil (killed a) false (ijobs a).
(** InputLessPGMSignalingJob::update, time_job.cpp:172-181, and signal_input_less_pgm,
    pgm_controller.cpp:110-141, at time [now]; [host]: the group is c-active and
    c-salient. *)
Definition isignal (a : inputless) (now : Z) (host : bool) : inputless * bool :=
  if negb (killed a) && active a then
    (mkil ro (active a) (if negb ro && host then ijobs a ++ [now + scope] else ijobs a), true)
  else (a, false).
Fixpoint irun_jobs (a : inputless) (now : Z) (host : bool) (n : nat) : inputless * nat :=
  match n with
  | O => (a, O)
  | S m => let '(a1, f) := isignal a now host in let '(a2, c) := irun_jobs a1 now host m in (a2, ((if f then 1 else 0) + c)%nat)
  end.
(** The jobs whose time has come run. *)
Definition itick (a : inputless) (now : Z) (host : bool) : inputless * nat :=
  irun_jobs (mkil (killed a) (active a) (filter (fun t => now <? t) (ijobs a))) now host (length (filter (fun t => t <=? now) (ijobs a))).
Inductive ievent := Activate (t : Z) | Deactivate | Passes (t : Z) (host : bool).
Fixpoint irun (a : inputless) (es : list ievent) : inputless * list Z :=
  match es with
  | [] => (a, [])
  | Activate t :: r => irun (activate a t) r
  | Deactivate :: r => irun (deactivate a) r
  | Passes t h :: r => let '(a1, n) := itick a t h in let '(a2, fs) := irun a1 r in (a2, repeat t n ++ fs)
  end.
Definition idle : inputless := mkil false false [].
End InputLess.
