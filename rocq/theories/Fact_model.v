(** Model of r_exec/factory.cpp: facts, matching of objects, evidence.
    Objects, heap and fuel are as in Match_model. *)
From Verif Require Import Base Float32 Atom_model Utils_model Match_model.
Local Open Scope nat_scope.

(** Numbers assigned when the classes are loaded (r_exec/opcodes.h). *)
Record fact_ops := mkfops { op_fact : Z; op_antifact : Z; op_imdl : Z; op_icst : Z; op_mkval : Z }.

Section Model.
Context (E : env) (F : fact_ops).
(** [ICST::components_] (factory.h:679) of each object; the components are facts. *)
Context (components : nat -> list nat).

Definition open_atom (a : Z) : bool :=
  ((getDescriptor a =? T_WILDCARD) || (getDescriptor a =? WILDCARD) || (getDescriptor a =? VL_PTR))%Z.
Definition is_wild (a : Z) : bool := ((getDescriptor a =? T_WILDCARD) || (getDescriptor a =? WILDCARD))%Z.
(** factory.cpp:272-284 *)
Definition state_ok (same : bool) (l r : Z) : bool :=
  if same then is_wild l || is_wild r || Bool.eqb (getDescriptor l =? VL_PTR)%Z (getDescriptor r =? VL_PTR)%Z else true.
(** factory.cpp:338-347 *)
Definition MatchAtom (l r : Z) : bool :=
  if (l =? r)%Z then true
  else if isFloat l && isFloat r then Equal (ftol E) (f32_of_bits (asFloat l)) (f32_of_bits (asFloat r)) else false.

(** The recursive call to [Match] is [rec]. *)
Section Body.
Context (rec : cobj -> nat -> nat -> cobj -> nat -> nat -> outcome bool).
(** factory.cpp:349-362 *)
Definition MatchStructure (l : cobj) (lb li : nat) (r : cobj) (ri : nat) : outcome bool :=
  do a <- word l (lb + li); do b <- word r ri;
  if negb (a =? b)%Z then Ok false
  else if (arity a =? 0)%nat then Ok true
  else if (getDescriptor a =? TIMESTAMP)%Z then
    do t <- from_opt (GetInt64 (code_of l) (lb + li + 1));
    do t' <- from_opt (GetInt64 (code_of r) (ri + 1));
    Ok (Synchronous (ttol E) t t')
  else rec l lb (li + 1) r (ri + 1) (arity a).
(** factory.cpp:364-375 *)
Definition MatchObject (l r : nat) : outcome bool :=
  do lo <- deref E l; do ro <- deref E r; do a <- word lo 0; do b <- word ro 0;
  if negb (a =? b)%Z then Ok false
  else if by_identity E (asOpcode a) then Ok (l =? r)%nat
  else rec lo 0 1 ro 1 (arity a).
(** factory.cpp:266-331: one member *)
Definition MatchMember (same : bool) (l : cobj) (li : nat) (r : cobj) (ri : nat) : outcome bool :=
  do a <- word l li; do b <- word r ri;
  if negb (state_ok same a b) then Ok false
  else if open_atom a then Ok true
  else if (getDescriptor a =? I_PTR)%Z then
    if (getDescriptor b =? I_PTR)%Z then MatchStructure l (index a) 0 r (index b) else Ok (open_atom b)
  else if (getDescriptor a =? R_PTR)%Z then
    if (getDescriptor b =? R_PTR)%Z then do x <- ref l (index a); do y <- ref r (index b); MatchObject x y else Ok (open_atom b)
  else if open_atom b then Ok true else Ok (MatchAtom a b).
End Body.
(** factory.cpp:264-336 *)
Fixpoint Match (fuel : nat) (same : bool) (l : cobj) (lb li : nat) (r : cobj) (ri ar : nat) : outcome bool :=
  match fuel with
  | O => NoFuel
  | S f =>
      do x <- MatchMember (Match f same) same l (lb + li) r ri;
      if x then if (li =? ar)%nat then Ok true else Match f same l lb (li + 1) r (ri + 1) ar
      else Ok false
  end.

Definition MK_VAL_OBJ := 1.
Definition MK_VAL_ATTR := 2.
Definition MK_VAL_VALUE := 3.
(** factory.cpp:391-423: the values of two (mk.val ...) on the same attribute *)
Definition counter_value (fuel : nat) (lo ro : cobj) : outcome bool :=
  do a <- word lo MK_VAL_VALUE; do b <- word ro MK_VAL_VALUE;
  let da := getDescriptor a in let db := getDescriptor b in
  if isFloat a then Ok (if isFloat b then negb (MatchAtom a b) else false)
  else if isFloat b then Ok false
  else if ((da =? NIL) && (db =? R_PTR) || (da =? R_PTR) && (db =? NIL))%Z then Ok true
  else if negb (da =? db)%Z then Ok false
  else if is_wild a then Ok false
  else if (da =? R_PTR)%Z then
    do x <- ref lo (index a); do y <- ref ro (index b);
    do m <- MatchObject (Match fuel false) x y; Ok (negb m)
  else if (da =? I_PTR)%Z then
    do m <- MatchStructure (Match fuel false) lo (index a) 0 ro (index b); Ok (negb m)
  else Ok (negb (MatchAtom a b)).
Definition same_attribute (lo ro : cobj) : outcome bool :=
  do a <- word lo MK_VAL_OBJ; do b <- word ro MK_VAL_OBJ;
  do x <- ref lo (index a); do y <- ref ro (index b);
  if (x =? y)%nat then
    do a' <- word lo MK_VAL_ATTR; do b' <- word ro MK_VAL_ATTR;
    do x' <- ref lo (index a'); do y' <- ref ro (index b'); Ok (x' =? y')%nat
  else Ok false.
(** factory.cpp:430-435: the components, two by two *)
Fixpoint any_counter (rec : nat -> nat -> outcome bool) (ls rs : list nat) : outcome bool :=
  match ls with
  | [] => Ok false
  | l :: ls' => match rs with
                | [] => UB
                | r :: rs' => do b <- rec l r; if b then Ok true else any_counter rec ls' rs'
                end
  end.
(** factory.cpp:377-439 *)
Fixpoint CounterEvidence (fuel : nat) (l r : nat) : outcome bool :=
  match fuel with
  | O => NoFuel
  | S f =>
      do lo <- deref E l; do ro <- deref E r; do a <- word lo 0; do b <- word ro 0;
      let opcode := asOpcode a in
      if ((opcode =? op_ent (ops E)) || (opcode =? op_ont (ops E)) || (opcode =? op_imdl F))%Z then Ok false
      else if negb (a =? b)%Z then Ok false
      else if (opcode =? op_mkval F)%Z then
        do s <- same_attribute lo ro; if s then counter_value f lo ro else Ok false
      else if (opcode =? op_icst F)%Z then
        do x <- ref lo 0; do y <- ref ro 0;
        if negb (x =? y)%nat then Ok false
        else any_counter (CounterEvidence f) (components l) (components r)
      else Ok false
  end.

(** factory.cpp:485-493 *)
Definition get_after (f : cobj) : outcome Z := from_opt (GetTimestamp (code_of f) FACT_AFTER).
Definition get_before (f : cobj) : outcome Z := from_opt (GetTimestamp (code_of f) FACT_BEFORE).
(** factory.cpp:235-262, on the bounds of [this] and of the evidence *)
Definition timings_sync (after e_after e_before : Z) : bool :=
  negb ((after + ttol E <? e_after) || (e_before <=? after))%Z.
Definition timings_overlap (after before e_after e_before : Z) : bool :=
  negb ((before <=? e_after) || (e_before <=? after))%Z.
Definition timings_inclusive (after before e_after e_before : Z) : bool :=
  ((e_after <=? after) && (before <=? e_before))%Z.
Definition with_times {A} (this evidence : cobj) (k : Z -> Z -> Z -> Z -> A) : outcome A :=
  do a <- get_after this; do b <- get_before this; do a' <- get_after evidence; do b' <- get_before evidence;
  Ok (k a b a' b').
Definition match_timings_sync (this evidence : cobj) : outcome bool :=
  with_times this evidence (fun a b a' b' => timings_sync a a' b').
Definition match_timings_overlap (this evidence : cobj) : outcome bool := with_times this evidence timings_overlap.
Definition match_timings_inclusive (this evidence : cobj) : outcome bool := with_times this evidence timings_inclusive.

(** factory.h:176-177 *)
Definition is_fact (f : cobj) : outcome bool := do a <- word f 0; Ok (asOpcode a =? op_fact F)%Z.
Definition is_anti_fact (f : cobj) : outcome bool := do a <- word f 0; Ok (asOpcode a =? op_antifact F)%Z.
Definition polarity (this target : cobj) : outcome result :=
  do a <- word target 0; do b <- word this 0; Ok (if (a =? b)%Z then Positive else Negative).
(** factory.cpp:441-463 *)
Definition is_evidence (fuel : nat) (this target : nat) : outcome result :=
  do f <- deref E this; do t <- deref E target; do x <- ref f 0; do y <- ref t 0;
  do m <- MatchObject (Match fuel false) x y;
  if m then
    do r <- polarity f t; do o <- match_timings_overlap t f; Ok (if o then r else Failure)
  else
    do i <- is_fact f;
    if i then
      do c <- match_timings_inclusive t f;
      if c then
        do ce <- CounterEvidence fuel x y;
        if ce then do n <- is_anti_fact t; Ok (if n then Positive else Negative) else Ok Failure
      else Ok Failure
    else Ok Failure.
(** factory.cpp:465-483 *)
Definition is_timeless_evidence (fuel : nat) (this target : nat) : outcome result :=
  do f <- deref E this; do t <- deref E target; do x <- ref f 0; do y <- ref t 0;
  do m <- MatchObject (Match fuel false) x y;
  if m then polarity f t
  else
    do a <- word t 0; do b <- word f 0;
    if (a =? b)%Z then
      do ce <- CounterEvidence fuel x y;
      if ce then do n <- is_anti_fact t; Ok (if n then Positive else Negative) else Ok Failure
    else Ok Failure.

(** ** Construction *)
Definition FACT_ARITY := 5.
Definition fact_head (opcode : Z) : Z := AObject opcode 5.
(** factory.cpp:199-210, [cfd] and [psln_thr] already made atoms; [None]: undefined behaviour *)
Definition new_fact (opcode : Z) (object : nat) (after before : Z) (cfd psln_thr : Z) : outcome cobj :=
  let c := put (put (put (put (put (put [] 0 (fact_head opcode)) 1 (RPointer 0)) FACT_AFTER (IPointer 6))
             FACT_BEFORE (IPointer 9)) 4 cfd) FACT_ARITY psln_thr in
  do c1 <- from_opt (SetTimestamp c FACT_AFTER after);
  do c2 <- from_opt (SetTimestamp c1 FACT_BEFORE before);
  Ok (mkcobj c2 [object]).
(** factory.h:178-183 *)
Definition set_opposite (f : cobj) : outcome cobj :=
  do i <- is_fact f;
  Ok (mkcobj (put (code_of f) 0 (fact_head (if i then op_antifact F else op_fact F))) (refs_of f)).
(** factory.cpp:212-221; [one] is [Atom::Float(1)] *)
Definition get_absentee (one : Z) (f : cobj) : outcome cobj :=
  do i <- is_fact f; do x <- ref f 0; do a <- get_after f; do b <- get_before f;
  new_fact (if i then op_antifact F else op_fact F) x a b one one.
End Model.
