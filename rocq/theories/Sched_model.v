(** Model of the schedulers: r_exec/mem.cpp DiagnosticTimeState (diagnostic time)
    and r_exec/time_core.cpp (real time).
    Times are counts of microseconds since the epoch, without bound (the code has
    64 bits).  Jobs are numbered.  What a job does when it runs is not modelled:
    each step receives a reply saying what its handler did, and the theorems hold
    for every sequence of replies.  The pipes of CoreLibrary (not in /repo) are
    first-in first-out queues. *)
From Verif Require Import Base.
Local Open Scope nat_scope.

(** ** Diagnostic time *)

(** time_job.h:96-118: a time job and its target time *)
Record tjob := mktjob { tid : nat; target : Z }.
(** What a handler may do to the scheduler: _Mem::push_reduction_job (mem.cpp:734-741),
    _Mem::push_time_job (mem.cpp:750-756), _Mem::stop (mem.cpp:694-724). *)
Inductive action := PushR (r : nat) | PushT (j : tjob) | Stop.
(** The behaviour of the handlers called by one step: what they push, and for a
    time job whether it is alive, whether update() returns true, and the value it
    gives to next_target. *)
Record reply := mkreply { does : list action; alive : bool; goes_on : bool; next : Z }.

(** mem.h:920-931, with the two queues and the state of _Mem, and
    _Mem::diagnostic_time_now_ (mem.cpp:688).  [local]: reduction_job_queue_. *)
Record state := mkstate {
  now : Z; stopped : bool; rq : list nat; tq : list tjob;
  local : list nat; idx : nat; n_red : nat; ordered : list tjob;
  tick : Z; ends : Z; pass : nat; need : bool }.

(** What is observed, in order: a reduction job runs, a time job runs, a time job
    is found dead, on_diagnostic_time_tick is called; each with the clock at that
    moment and what the handler did. *)
Inductive event :=
| RanR (r : nat) (t : Z) (a : list action)
| RanT (j : tjob) (t : Z) (again : option Z) (a : list action)
| Dead (j : tjob) (t : Z)
| Ticked (t : Z) (a : list action).

(** The pushes of a handler that take effect: all until it stops the memory. *)
Fixpoint effective (a : list action) : list action :=
  match a with [] => [] | Stop :: _ => [Stop] | x :: r => x :: effective r end.
Definition pushed_r (a : list action) : list nat :=
  flat_map (fun x => match x with PushR r => [r] | _ => [] end) (effective a).
Definition pushed_t (a : list action) : list tjob :=
  flat_map (fun x => match x with PushT j => [j] | _ => [] end) (effective a).
Definition stops (a : list action) : bool := existsb (fun x => match x with Stop => true | _ => false end) a.
(** The effect of a handler on the memory *)
Definition perform (a : list action) (s : state) : state :=
  mkstate (now s) (stopped s || stops a) (rq s ++ pushed_r a) (tq s ++ pushed_t a)
    (local s) (idx s) (n_red s) (ordered s) (tick s) (ends s) (pass s) (need s).

(** std::upper_bound then insert, mem.cpp:614-617 and 677-680.  The linear search
    gives the same place as the binary search on a sorted queue. *)
Fixpoint insert_upper (j : tjob) (l : list tjob) : list tjob :=
  match l with
  | [] => [j]
  | x :: r => if (target j <? target x)%Z then j :: l else x :: insert_upper j r
  end.

Section Diagnostic.
(** [limit]: max_reduction_jobs_per_cycle (mem.cpp:551, 80000).
    [passes]: 100 (mem.cpp:557).  [period]: get_sampling_period() (mem.h:242). *)
Context (limit passes : nat) (period : Z).

Definition set_red s l i n p q :=
  mkstate (now s) (stopped s) q (tq s) l i n (ordered s) (tick s) (ends s) p (need s).
(** mem.cpp:556-601.  [inl]: step returns true; [inr]: it continues. *)
Definition reductions (s : state) (h : reply) : (state * list event) + state :=
  if pass s <=? passes then
    let s := if idx s =? 0 then set_red s (local s ++ rq s) 0 (n_red s) (pass s) [] else s in
    let n := Nat.min (length (local s)) limit in
    if 0 <? n then
      if idx s <? n then
        inl (perform (does h) (set_red s (local s) (S (idx s)) (n_red s) (pass s) (rq s)),
             [RanR (nth (idx s) (local s) 0) (now s) (does h)])
      else
        let s := set_red s (skipn limit (local s)) 0 (n_red s + n) (pass s) (rq s) in
        if n_red s <? limit then inl (set_red s (local s) 0 (n_red s) (S (pass s)) (rq s), [])
        else inr s
    else inr s
  else inr s.

(** mem.cpp:603-618 *)
Definition transfer (s : state) : state :=
  mkstate (now s) (stopped s) (rq s) [] (local s) (idx s) (n_red s)
    (fold_left (fun q j => insert_upper j q) (tq s) (ordered s)) (tick s) (ends s) 1 (need s).
(** mem.cpp:625-636 *)
Definition next_period (s : state) : state :=
  if negb (need s) && match ordered s with [] => true | j :: _ => (tick s + period <=? target j)%Z end then
    mkstate (tick s + period) (stopped s) (rq s) (tq s) (local s) (idx s) 0 (ordered s) (tick s + period) (ends s) (pass s) true
  else s.
Definition set_now s n o :=
  mkstate n (stopped s) (rq s) (tq s) (local s) (idx s) (n_red s) o (tick s) (ends s) (pass s) (need s).
(** mem.cpp:638-685 *)
Definition time_jobs (s : state) (h : reply) : state * list event :=
  if need s && negb match ordered s with [] => false | j :: _ => (target j <=? tick s)%Z end then
    (perform (does h) (mkstate (now s) (stopped s) (rq s) (tq s) (local s) (idx s) (n_red s) (ordered s) (tick s) (ends s) (pass s) false),
     [Ticked (now s) (does h)])
  else
    match ordered s with
    | [] => (s, [])
    | j :: rest =>
        let n := if (now s <? target j)%Z then target j else now s in
        if negb (alive h) then (set_now s n rest, [Dead j n])
        else
          let again := if goes_on h && negb (next h =? 0)%Z then Some (next h) else None in
          let rest := match again with Some t => insert_upper (mktjob (tid j) t) rest | None => rest end in
          (perform (does h) (set_now s n rest), [RanT j n again (does h)])
    end.
(** mem.cpp:547-686; the boolean is the result of step() *)
Definition step (s : state) (h : reply) : state * list event * bool :=
  if stopped s then (s, [], false)
  else match reductions s h with
       | inl (s', e) => (s', e, true)
       | inr s' =>
           let s' := transfer s' in
           if (ends s' <=? now s')%Z then (s', [], false)
           else let (s'', e) := time_jobs (next_period s') h in (s'', e, true)
       end.
(** mem.cpp:535-545, the queues of the memory being [r] and [t] at time [start] *)
Definition init (start run_time : Z) (r : list nat) (t : list tjob) (h : reply) : state * list event :=
  (perform (does h) (mkstate start false r t [] 0 0 [] start (start + run_time) 1 false), [Ticked start (does h)]).
(** mem.cpp:532: steps, one reply each, until step() returns false *)
Fixpoint steps (s : state) (hs : list reply) : state * list event :=
  match hs with
  | [] => (s, [])
  | h :: r => let '(s', e, b) := step s h in
              if b then let (s'', e') := steps s' r in (s'', e ++ e') else (s', e)
  end.
(** mem.cpp:525-533 *)
Definition run_in_diagnostic_time start run_time r t h hs : state * list event :=
  let (s, e) := init start run_time r t h in let (s', e') := steps s hs in (s', e ++ e').
End Diagnostic.

(** ** Real time *)

(** The life of one time job: TimeCore::Run (time_core.cpp:93-146) takes it, and
    may hand it over to a DelegatedCore::Wait (time_core.cpp:158-200); it is in
    one place at a time. *)
Inductive place := CoreFirst | CoreLoop | DelegateWait | DelegateRedo | Finished.
(** [rt_target]: [target]/[next_target] in the core, [target_time] in the
    delegate; [rt_wait]: [time_to_wait] of the delegate. *)
Record rt_state := mkrt { rt_now : Z; rt_target : Z; rt_wait : Z; rt_place : place }.
(** What happens during one step: the time that passes before the clock is read
    (for the timer: until it fires), whether the job is alive and the memory
    running, what update() writes to its argument ([None]: nothing), and its result. *)
Record rt_input := mkin { passes_ : Z; is_alive : bool; running : bool; writes : option Z; result : bool }.
Inductive rt_event := Ran (t : Z) | Asked (t : Z).
(** [update], called with an argument holding [old] *)
Definition update (i : rt_input) (old : Z) : Z * list rt_event :=
  match writes i with
  | Some d => (d, if (d =? 0)%Z then [] else [Asked d])
  | None => (old, [])
  end.
Definition rt_step (s : rt_state) (i : rt_input) : rt_state * list rt_event :=
  let n := (rt_now s + passes_ i)%Z in
  let ended := (mkrt n 0 0 Finished, []) in
  match rt_place s with
  | CoreFirst => (* time_core.cpp:98-121 *)
      if negb (is_alive i) then ended
      else if negb (rt_target s =? 0)%Z && (n <? rt_target s)%Z
      then (mkrt n (rt_target s) (rt_target s - n) DelegateWait, [])
      else let (d, e) := update i 0 in (mkrt n d 0 (if result i then CoreLoop else Finished), Ran n :: e)
  | CoreLoop => (* time_core.cpp:123-141 *)
      if (rt_target s =? 0)%Z || negb (is_alive i) then ended
      else if (n <? rt_target s)%Z then (mkrt n 0 (rt_target s - n) DelegateWait, [])
      else let (d, e) := update i 0 in (mkrt n d 0 (if result i then CoreLoop else Finished), Ran n :: e)
  | DelegateWait => (* time_core.cpp:166-177 *)
      if negb (is_alive i) then ended
      else if negb (running i) then (mkrt n (rt_target s) 0 DelegateRedo, [])
      else let n' := if (n <? rt_target s)%Z then rt_target s else n in
           let (d, e) := update i 0 in (mkrt n' d 0 DelegateRedo, Ran n' :: e)
  | DelegateRedo => (* time_core.cpp:179-197 *)
      if (rt_target s =? 0)%Z || negb (is_alive i) || negb (running i) then ended
      else if (n <? rt_target s)%Z then (mkrt n (rt_target s) (rt_target s - n) DelegateWait, [])
      else let (d, e) := update i (rt_target s) in (mkrt n d 0 DelegateRedo, Ran n :: e)
  | Finished => (s, [])
  end.
Fixpoint rt_steps (s : rt_state) (is : list rt_input) : rt_state * list rt_event :=
  match is with
  | [] => (s, [])
  | i :: r => let (s', e) := rt_step s i in let (s'', e') := rt_steps s' r in (s'', e ++ e')
  end.
(** A job with target time [t] taken by the time core at time [n] *)
Definition rt_run (n t : Z) (is : list rt_input) : list rt_event :=
  (if (t =? 0)%Z then [] else [Asked t]) ++ snd (rt_steps (mkrt n t 0 CoreFirst) is).
