(** Theorems about the abstraction of objects into patterns. *)
From Verif Require Import Base Float32 Atom_model Utils_model Bp_model Bp_spec Abs_model Abs_spec Abs4_proofs Abs5_proofs Abs6_proofs.
Local Open Scope nat_scope.

(** ** C131 Abstracting, then binding *)

(** Full statement: when an object is abstracted and the pattern is bound with the same
    map, the result is the object, confidences and thresholds forgotten, times and numbers
    within their tolerances.  Refuted: durations are compared as if they were pairs of
    numbers; one of a second and one of two seconds share a variable. *)
Theorem C131_trip_refuted : exists o o' st' r, x_abstract o false 0 x_empty = Some (o', st') /\ whole o /\ fits o' /\
  says starts o (x_cmd_term 1000000 2000000 1065353216) /\ plain x_classes x_user x_user (x_cmd_term 1000000 2000000 1065353216) /\
  x_bind st' o' = Some r /\ says free r (x_cmd_term 1000000 1000000 (Wildcard 0)).
Proof. exact trip_refuted. Qed.
Print Assumptions C131_trip_refuted.
(** Proved when "within the tolerances" is said of the words of durations and strings too.
    [first] is any place where the search for the variables of times starts. *)
Theorem C131_trip_partial : forall ftol ttol fuel C user kept same,
  (forall a b, same a b = true -> a = b) -> 0 < fuel -> distinct C ->
  forall d o first st o' st' t sigma r,
  abstract_object ftol ttol fuel C user same d o false first st = Some (o', st') ->
  says starts o t -> whole o -> plain C user kept t -> holds st sigma -> fits o' -> length (entries st') <= limit ->
  bind_pattern fuel kept (values st') o' = Some r -> fits r ->
  exists t', says free r t' /\ near ftol ttol t' (blur C user t).
Proof. exact round_trip. Qed.
Print Assumptions C131_trip_partial.
Example C131_example : says starts (x_fact 1000000 2000000) (x_fact_says 1000000 2000000) /\ whole (x_fact 1000000 2000000) /\
  plain x_classes x_user x_user (x_fact_says 1000000 2000000) /\ holds x_empty TVar /\ distinct x_classes.
Proof. exact (conj (proj1 x_fact_reads) (conj (proj2 x_fact_reads) (conj x_fact_plain (conj x_holds x_distinct)))). Qed.
Example C131_trip : match x_abstract (x_fact 1000000 2000000) false 0 x_empty with
  | Some (o', st') =>
      read starts_b 5 o' = Some (x_fact_term (x_val_term (TVar 0) (TVar 1) x_any) (TVar 2) (TVar 3) x_any x_any) /\
      length (entries st') = 4 /\ fits_b 5 o' = true /\ fwd st' = Some (2, 3) /\ first_index st' = 0 /\
      match x_bind st' o' with
      | Some r => fits_b 5 r = true /\
          read (fun _ _ => true) 5 r = Some (x_fact_term (x_val_term x_ent_term (TAtom 1073741824) x_any) (x_time 1000000) (x_time 2000000) x_any x_any)
      | None => False
      end
  | None => False
  end.
Proof. exact x_trip. Qed.

(** ** C132 The pattern *)

(** Every value of the object, at any depth, has become a variable of the map, and the map
    still holds what it held; confidences and thresholds have become wildcards; classes,
    attributes and the functions of commands are kept. *)
Theorem C132_pattern : forall ftol ttol fuel C user kept same,
  (forall a b, same a b = true -> a = b) -> 0 < fuel -> distinct C ->
  forall d o first st o' st' t sigma,
  abstract_object ftol ttol fuel C user same d o false first st = Some (o', st') ->
  says starts o t -> whole o -> plain C user kept t -> holds st sigma -> fits o' -> length (entries st') <= limit ->
  exists sigma' p, (forall x, x < length (entries st) -> sigma x = sigma' x) /\ holds st' sigma' /\ says starts o' p /\ whole o' /\
    near ftol ttol (subst kept sigma' p) (blur C user t) /\
    ((forall h ts, t = TObj h ts -> asOpcode h <> c_ent C) -> pattern C user t p).
Proof. exact abstract_spec. Qed.
Print Assumptions C132_pattern.

(** ** C133 Times in step *)

(** Full statement: the variables of the times of the first fact are remembered, and given
    to the facts abstracted in step with it.  Refuted: when there is a fact within the first
    one, the times of that fact are remembered. *)
Theorem C133_times_refuted : exists o o' st' v a b a' b', x_abstract o false 0 x_empty = Some (o', st') /\ whole o /\ fits o' /\
  says starts o (x_fact_term v (x_time 3000000) (x_time 4000000) x_one x_one) /\
  (exists p, says starts o' (x_fact_term p (TVar a) (TVar b) x_any x_any)) /\
  fwd st' = Some (a', b') /\ a' <> a /\ b' <> b.
Proof. exact times_refuted. Qed.
Print Assumptions C133_times_refuted.
(** Proved without such a fact: the times of the first fact are remembered... *)
Theorem C133_first_partial : forall ftol ttol fuel C user kept same,
  (forall a b, same a b = true -> a = b) -> 0 < fuel -> distinct C ->
  forall d o first st o' st' h t1 h2 w2 h3 w3 t4 t5 sigma,
  abstract_object ftol ttol fuel C user same d o false first st = Some (o', st') ->
  says starts o (TObj h [t1; TRaw h2 w2; TRaw h3 w3; t4; t5]) -> whole o ->
  plain C user kept (TObj h [t1; TRaw h2 w2; TRaw h3 w3; t4; t5]) -> asOpcode h = c_fact C \/ asOpcode h = c_antifact C ->
  holds st sigma -> fwd st = None -> no_fact C t1 -> fits o' -> length (entries st') <= limit ->
  exists p a b, says starts o' (TObj h [p; TVar a; TVar b; TAtom (Wildcard 0); TAtom (Wildcard 0)]) /\ pattern C user t1 p /\
    fwd st' = Some (a, b) /\ first_index st' = length (entries st).
Proof. exact first_spec. Qed.
Print Assumptions C133_first_partial.
(** ... and given to every fact in step with it, whatever its own times. *)
Theorem C133_step_partial : forall ftol ttol fuel C user kept same,
  (forall a b, same a b = true -> a = b) -> 0 < fuel -> distinct C ->
  forall d o first st o' st' h t1 t2 t3 t4 t5 sigma a b,
  abstract_object ftol ttol fuel C user same d o true first st = Some (o', st') ->
  says starts o (TObj h [t1; t2; t3; t4; t5]) -> whole o -> plain C user kept (TObj h [t1; t2; t3; t4; t5]) ->
  asOpcode h = c_fact C \/ asOpcode h = c_antifact C ->
  holds st sigma -> fwd st = Some (a, b) -> a < length (entries st) -> b < length (entries st) ->
  fits o' -> length (entries st') <= limit ->
  exists sigma' p, (forall x, x < length (entries st) -> sigma x = sigma' x) /\ holds st' sigma' /\ fwd st' = Some (a, b) /\ whole o' /\
    says starts o' (TObj h [p; TVar a; TVar b; TAtom (Wildcard 0); TAtom (Wildcard 0)]) /\ pattern C user t1 p /\
    near ftol ttol (subst kept sigma' (TObj h [p; TVar a; TVar b; TAtom (Wildcard 0); TAtom (Wildcard 0)]))
         (TObj h [blur C user t1; sigma a; sigma b; TAtom (Wildcard 0); TAtom (Wildcard 0)]).
Proof. exact sync_spec. Qed.
Print Assumptions C133_step_partial.
Example C133_example : match x_abstract (x_fact 1000000 2000000) false 0 x_empty with
  | Some (_, st) =>
      match x_abstract (x_fact 1200000 2200000) true 0 st with
      | Some (o', st') => read starts_b 5 o' = Some (x_fact_term (x_val_term (TVar 4) (TVar 1) x_any) (TVar 2) (TVar 3) x_any x_any) /\ fwd st = Some (2, 3)
      | None => False
      end
  | None => False
  end.
Proof. exact x_sync. Qed.

(** ** C134 The same value, the same variable *)

(** Full statement: a value met again gets the variable it got before.  Refuted for the
    times of facts, when the search for their variables does not start at the first one: a
    time found in the tolerance of another one, then in that of a third. *)
Theorem C134_share_refuted : exists o1 o2 o3 st1 st2 st3 r0 r1 r2 r3 st4 v a b c, 
  x_abstract o1 false 0 x_empty = Some (r0, st1) /\
  x_abstract o2 false 3 st1 = Some (r1, st2) /\ x_abstract o3 false 3 st2 = Some (r2, st3) /\ x_abstract o2 false 3 st3 = Some (r3, st4) /\
  says starts o2 (x_fact_term v (x_time 8000) (x_time 100000) x_one x_one) /\
  (exists p, says starts r1 (x_fact_term p (TVar a) (TVar b) x_any x_any)) /\
  (exists p, says starts r3 (x_fact_term p (TVar c) (TVar b) x_any x_any)) /\ a <> c.
Proof. exact share_refuted. Qed.
Print Assumptions C134_share_refuted.
(** Proved for a search that starts at the first variable, whatever was added in between;
    nothing is added for a value met again. *)
Theorem C134_share_partial : forall ftol ttol fuel C user kept same, 0 < fuel -> (0 < ttol)%Z ->
  forall d o i x w st x1 st1 d' o' i' x2 w' st2 x3 st3 t sigma s2 es,
  word_says o i t -> word_says o' i' t -> plain C user kept t -> is_value user t -> holds st sigma ->
  abstract_member ftol ttol fuel C user same d o i x w 0 st = Some (x1, st1) ->
  entries st2 = entries st1 ++ es -> holds st2 s2 ->
  abstract_member ftol ttol fuel C user same d' o' i' x2 w' 0 st2 = Some (x3, st3) ->
  written x3 w' = written x1 w /\ entries st3 = entries st2.
Proof. exact share_value. Qed.
Print Assumptions C134_share_partial.
(** Entities are shared wherever the search starts. *)
Theorem C134_entity_partial : forall ftol ttol fuel C user same, distinct C -> (forall o, same o o = true) ->
  forall d o i x w first st x1 st1 d' o' i' x2 w' first' st2 x3 st3 r es,
  getDescriptor (word o i) = R_PTR -> nth_error (refs o) (place (word o i)) = Some r -> asOpcode (word r 0) = c_ent C ->
  getDescriptor (word o' i') = R_PTR -> nth_error (refs o') (place (word o' i')) = Some r ->
  abstract_member ftol ttol fuel C user same d o i x w first st = Some (x1, st1) -> entries st2 = entries st1 ++ es ->
  abstract_member ftol ttol fuel C user same d' o' i' x2 w' first' st2 = Some (x3, st3) ->
  written x3 w' = written x1 w /\ entries st3 = entries st2.
Proof. exact share_entity. Qed.
Print Assumptions C134_entity_partial.
Example C134_example : word_says x_val 3 (TAtom 1073741824) /\ is_value x_user (TAtom 1073741824) /\
  match x_abstract (x_fact 1000000 2000000) false 0 x_empty with
  | Some (_, st) =>
      match x_abstract (x_fact 1000000 3000000) false 0 st with
      | Some (o', st') => read starts_b 5 o' = Some (x_fact_term (x_val_term (TVar 4) (TVar 1) x_any) (TVar 2) (TVar 5) x_any x_any)
      | None => False
      end
  | None => False
  end.
Proof. exact x_share. Qed.
