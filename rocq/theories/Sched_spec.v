(** Vocabulary for C27-C30, C48. *)
From Verif Require Import Base Sched_model.
Local Open Scope nat_scope.

(** [j] is the waiting job with the earliest target time, and among those the
    first that was queued; [rest] are the others, in the order they were queued. *)
Definition earliest (w : list tjob) (j : tjob) (rest : list tjob) : Prop :=
  exists a b, w = a ++ j :: b /\ rest = a ++ b /\
    (forall x, In x a -> (target j < target x)%Z) /\ (forall x, In x b -> (target j <= target x)%Z).
Definition requeued (j : tjob) (again : option Z) : list tjob :=
  match again with Some t => [mktjob (tid j) t] | None => [] end.
(** The time jobs waiting after an event, in the order they were queued.  A job
    that asks to run again is queued before the jobs it pushes. *)
Inductive waits (w : list tjob) : event -> list tjob -> Prop :=
| w_red r t a : waits w (RanR r t a) (w ++ pushed_t a)
| w_tick t a : waits w (Ticked t a) (w ++ pushed_t a)
| w_time j t again a rest : earliest w j rest -> waits w (RanT j t again a) (rest ++ requeued j again ++ pushed_t a)
| w_dead j t rest : earliest w j rest -> waits w (Dead j t) rest.
Definition clock (e : event) : Z :=
  match e with RanR _ t _ | RanT _ t _ _ | Dead _ t | Ticked t _ => t end.
Definition due (e : event) : Prop :=
  match e with RanT j t _ _ | Dead j t => (target j <= t)%Z | _ => True end.
(** The clock never decreases, no time job is taken early, always the earliest. *)
Inductive orderly : list tjob -> Z -> list event -> Prop :=
| orderly_nil w c : orderly w c []
| orderly_cons w c e w' es : waits w e w' -> (c <= clock e)%Z -> due e -> orderly w' (clock e) es -> orderly w c (e :: es).

Definition is_tick (e : event) : bool := match e with Ticked _ _ => true | _ => false end.
(** [k] ticks have been made: the clock does not pass the time of the next one
    before it is made, and it is made when no waiting job is due any more. *)
Inductive sampled (start period : Z) : nat -> list tjob -> list event -> Prop :=
| sampled_nil k w : sampled start period k w []
| sampled_other k w e w' es : is_tick e = false -> waits w e w' -> (clock e <= start + Z.of_nat k * period)%Z ->
    sampled start period k w' es -> sampled start period k w (e :: es)
| sampled_tick k w t a es : t = (start + Z.of_nat k * period)%Z -> (forall j, In j w -> (t < target j)%Z) ->
    sampled start period (S k) (w ++ pushed_t a) es -> sampled start period k w (Ticked t a :: es).
Definition tick_times (es : list event) : list Z :=
  flat_map (fun e => match e with Ticked t _ => [t] | _ => [] end) es.

(** Reduction jobs run and pushed, in order. *)
Definition reductions_run (es : list event) : list nat :=
  flat_map (fun e => match e with RanR r _ _ => [r] | _ => [] end) es.
Definition reductions_pushed (es : list event) : list nat :=
  flat_map (fun e => match e with RanR _ _ a | RanT _ _ _ a | Ticked _ a => pushed_r a | Dead _ _ => [] end) es.
Definition is_reduction (e : event) : bool := match e with RanR _ _ _ => true | _ => false end.

(** Real time: a run that was asked for at [d] does not happen before [d]. *)
Definition never_early (es : list rt_event) : Prop :=
  forall i d t, nth_error es i = Some (Asked d) -> nth_error es (S i) = Some (Ran t) -> (d <= t)%Z.
(** Each run has been asked for. *)
Definition only_asked (es : list rt_event) : Prop :=
  forall i t, nth_error es i = Some (Ran t) -> exists k d, i = S k /\ nth_error es k = Some (Asked d).
(** The timer waits at least as long as told. *)
Fixpoint exact_timer (s : rt_state) (is : list rt_input) : Prop :=
  match is with
  | [] => True
  | i :: r => (rt_place s = DelegateWait -> (rt_wait s <= passes_ i)%Z) /\ exact_timer (fst (rt_step s i)) r
  end.
