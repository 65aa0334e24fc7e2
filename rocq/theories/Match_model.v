(** Model of r_exec/binding_map.{h,cpp}: values, binding maps, matching of
    objects against patterns, abstraction of values into variables.

    Objects are immutable while matching; a pointer to an object is a [nat] and
    the heap gives its code and references.  Indices are [nat]: every base comes
    from [asIndex] (at most 4095) and every offset is at most 255, so the uint16
    sums of the source do not wrap. *)
From Verif Require Import Base Float32 Atom_model Utils_model.
Local Open Scope nat_scope.

(** Result of a computation: a value, undefined behaviour (out-of-bounds access
    or null dereference), or not enough fuel for the recursion. *)
Inductive outcome (A : Type) := Ok (a : A) | UB | NoFuel.
Arguments Ok {A} a.
Arguments UB {A}.
Arguments NoFuel {A}.
Definition obind {A B} (x : outcome A) (f : A -> outcome B) : outcome B :=
  match x with Ok a => f a | UB => UB | NoFuel => NoFuel end.
Definition from_opt {A} (x : option A) : outcome A := match x with Some a => Ok a | None => UB end.
Notation "'do' x <- e ; f" := (obind e (fun x => f)) (at level 200, x pattern, e at level 100, f at level 200).

(** r_code/object.h:379-420: the parts of [Code] that matching reads. *)
Record cobj := mkcobj { code_of : list Z; refs_of : list nat }.
(** r_exec/opcodes.h: numbers assigned when the classes are loaded. *)
Record opcodes := mkops { op_ent : Z; op_ont : Z; op_mdl : Z; op_cst : Z; op_ti : Z }.
(** The heap, the opcodes, and the tolerances of [Utils] (code_utils.cpp:96-98). *)
Record env := mkenv { heap : nat -> option cobj; ops : opcodes; ftol : spec_float; ttol : Z }.

Section Model.
Context (E : env).

(** [object->code(i)], [object->get_reference(i)], and dereferencing a pointer. *)
Definition word (o : cobj) (i : nat) : outcome Z := from_opt (nth_error (code_of o) i).
Definition ref (o : cobj) (i : nat) : outcome nat := from_opt (nth_error (refs_of o) i).
Definition deref (id : nat) : outcome cobj := from_opt (heap E id).
Definition index (a : Z) : nat := Z.to_nat (asIndex a).
Definition arity (a : Z) : nat := Z.to_nat (getAtomCount a).

(** binding_map.h:134-236 *)
Inductive value := Unbound (id : nat) | AtomV (a : Z) | StructV (s : list Z) | ObjV (o : nat).
(** binding_map.h:251-253; [None] in [vals] is a null pointer (see
    [add_unbound_value]).  Each value object belongs to one map, so its
    destructor runs when its slot is overwritten. *)
Record bmap := mkmap { vals : list (option value); unbound : Z }.

Definition get_value (m : bmap) (k : nat) : outcome value :=
  match nth_error (vals m) k with Some (Some v) => Ok v | _ => UB end.
Definition is_unbound (v : option value) : Z := match v with Some (Unbound _) => 1%Z | _ => 0%Z end.
(** [map_[k] = v] with v a newly constructed value: the constructor and the
    destructor of an [UnboundValue] count (binding_map.cpp:104-112). *)
Definition set_value (m : bmap) (k : nat) (v : value) : outcome bmap :=
  match nth_error (vals m) k, upd (vals m) k (Some v) with
  | Some old, Some l => Ok (mkmap l (u32 (unbound m + is_unbound (Some v) - is_unbound old)))
  | _, _ => UB
  end.

(** [get_code()]: binding_map.cpp:144-147, 179-182, 268-271, 337-340; [None] is NULL. *)
Definition get_code (v : value) : outcome (option (list Z)) :=
  match v with
  | Unbound _ => Ok None
  | AtomV a => Ok (Some [a])
  | StructV s => Ok (Some s)
  | ObjV o => do c <- deref o; Ok (Some (code_of c))
  end.

(** binding_map.cpp:242-259, the loop over the members [i..n] of the structure,
    with the recursive call [rec]. *)
Fixpoint copy_loop (rec : list Z -> nat -> nat -> outcome (list Z * nat))
  (dest : list Z) (ext start : nat) (src : list Z) (si i n : nat) : outcome (list Z * nat) :=
  match n with
  | O => Ok (dest, ext)
  | S n' =>
      do a <- from_opt (nth_error src (si + i));
      if (getDescriptor a =? I_PTR)%Z then
        do r <- rec (put dest (start + i) (IPointer (Z.of_nat ext))) ext (index a);
        copy_loop rec (fst r) (snd r) start src si (S i) n'
      else copy_loop rec (put dest (start + i) a) ext start src si (S i) n'
  end.
Fixpoint copy_structure (fuel : nat) (src : list Z) (dest : list Z) (ext si : nat) : outcome (list Z * nat) :=
  match fuel with
  | O => NoFuel
  | S f =>
      do h <- from_opt (nth_error src si);
      copy_loop (fun d e s => copy_structure f src d e s) dest (ext + (1 + arity h)) ext src si 0 (S (arity h))
  end.
(** binding_map.cpp:217-222: the code of a new [StructureValue]. *)
Definition structure_value (fuel : nat) (src : list Z) (si : nat) : outcome (list Z) :=
  do r <- copy_structure fuel src [] 0 si; Ok (fst r).

(** binding_map.cpp:721-730 *)
Definition match_atom (o_atom p_atom : Z) : bool :=
  if (p_atom =? o_atom)%Z then true
  else if isFloat p_atom && isFloat o_atom
       then Equal (ftol E) (f32_of_bits (asFloat o_atom)) (f32_of_bits (asFloat p_atom))
       else false.

(** code_utils.cpp:133-137 through the pointer [get_code()] of a structure. *)
Definition set_time (m : bmap) (k : nat) (t : Z) : outcome bmap :=
  do v <- get_value m k;
  match v with
  | StructV (_ :: s) => do s' <- from_opt (SetInt64 (ATimestamp :: s) 1 t); set_value m k (StructV s')
  | _ => UB (* unreachable below; an object whose first atom is a timestamp is not modelled *)
  end.
(** The timestamp behind [get_code()], when its descriptor is TIMESTAMP. *)
Definition time_at (c : option (list Z)) : outcome (option Z) :=
  match c with
  | Some ((h :: _) as s) =>
      if (getDescriptor h =? TIMESTAMP)%Z then do t <- from_opt (GetInt64 s 1); Ok (Some t) else Ok None
  | _ => UB
  end.
(** binding_map.cpp:771-808 *)
Definition match_timings (m : bmap) (after before : Z) (ai bi : nat) : outcome (bool * bmap) :=
  do va <- get_value m ai; do vb <- get_value m bi;
  do ca <- get_code va; do cb <- get_code vb;
  do ta <- time_at ca;
  match ta with
  | None => Ok (false, m)
  | Some sa =>
      do tb <- time_at cb;
      match tb with
      | None => Ok (false, m)
      | Some sb =>
          if (sa <=? after)%Z then
            if (before <=? sb)%Z then
              do m1 <- set_time m ai after; do m2 <- set_time m1 bi before; Ok (true, m2)
            else if (after <? sb)%Z then do m1 <- set_time m ai after; Ok (true, m1)
            else Ok (false, m)
          else if (sb <=? before)%Z then Ok (true, m)
          else if (sa <? before)%Z then do m1 <- set_time m bi before; Ok (true, m1)
          else Ok (false, m)
      end
  end.

(** The recursive functions below take the recursive call to [match] as [rec];
    [fuel] is for [copy_structure]. *)
Section Body.
Context (fuel : nat) (rec : bmap -> cobj -> nat -> nat -> cobj -> nat -> nat -> outcome (bool * bmap)).

(** [Atom::Object(Opcodes::TI, 2)] *)
Definition ti_atom : Z := AObject (op_ti (ops E)) 2.
(** binding_map.cpp:744-759: [Some] when the special treatment of (ti : :) applies. *)
Definition ti_case (m : bmap) (o : cobj) (of : nat) (p : cobj) (pi : nat) : outcome (option (bool * bmap)) :=
  do aa <- word p (pi + 1); do ba <- word p (pi + 2);
  if (getDescriptor aa =? VL_PTR)%Z && (getDescriptor ba =? VL_PTR)%Z then
    do va <- get_value m (index aa); do ca <- get_code va;
    match ca with
    | None => Ok None
    | Some _ =>
        do vb <- get_value m (index ba); do cb <- get_code vb;
        match cb with
        | None => Ok None
        | Some _ =>
            if HasTimestamp (code_of o) (of + 1) && HasTimestamp (code_of o) (of + 2) then
              do a <- from_opt (GetTimestamp (code_of o) (of + 1));
              do b <- from_opt (GetTimestamp (code_of o) (of + 2));
              do r <- match_timings m a b (index aa) (index ba); Ok (Some r)
            else Ok None
        end
    end
  else Ok None.
(** binding_map.cpp:732-761 *)
Definition match_structure (m : bmap) (o : cobj) (ob oi : nat) (p : cobj) (pi : nat) : outcome (bool * bmap) :=
  do oa <- word o (ob + oi); do pa <- word p pi;
  if negb (oa =? pa)%Z then Ok (false, m) else
  if (arity oa =? 0)%nat then Ok (true, m) else
  if (getDescriptor oa =? TIMESTAMP)%Z then
    do t <- from_opt (GetInt64 (code_of o) (ob + oi + 1));
    do t' <- from_opt (GetInt64 (code_of p) (pi + 1));
    Ok (Synchronous (ttol E) t t', m)
  else if (pa =? ti_atom)%Z then
    do r <- ti_case m o (ob + oi) p pi;
    match r with
    | Some x => Ok x
    | None => rec m o ob (oi + 1) p (pi + 1) (arity oa)
    end
  else rec m o ob (oi + 1) p (pi + 1) (arity oa).
(** binding_map.cpp:854-865 *)
Definition by_identity (opcode : Z) : bool :=
  ((opcode =? op_ent (ops E)) || (opcode =? op_ont (ops E)) || (opcode =? op_mdl (ops E)) || (opcode =? op_cst (ops E)))%Z.
Definition match_object (m : bmap) (object pattern : nat) : outcome (bool * bmap) :=
  do o <- deref object; do p <- deref pattern;
  do oa <- word o 0; do pa <- word p 0;
  if negb (oa =? pa)%Z then Ok (false, m) else
  if by_identity (asOpcode pa) then Ok ((object =? pattern)%nat, m)
  else rec m o 0 1 p 1 (arity oa).
(** [Value::match]: binding_map.cpp:124-142, 174-177, 261-266, 332-335 *)
Definition value_match (m : bmap) (v : value) (o : cobj) (i : nat) : outcome (bool * bmap) :=
  match v with
  | Unbound id =>
      do a <- word o i;
      if (getDescriptor a =? I_PTR)%Z then
        do s <- structure_value fuel (code_of o) (index a);
        do m1 <- set_value m id (StructV s); Ok (true, m1)
      else if (getDescriptor a =? R_PTR)%Z then
        do r <- ref o (index a); do m1 <- set_value m id (ObjV r); Ok (true, m1)
      else if (getDescriptor a =? WILDCARD)%Z then Ok (true, m)
      else do m1 <- set_value m id (AtomV a); Ok (true, m1)
  | AtomV b => do a <- word o i; Ok (match_atom a b, m)
  | StructV s =>
      do a <- word o i;
      if negb (getDescriptor a =? I_PTR)%Z then Ok (false, m)
      else match_structure m o (index a) 0 (mkcobj s []) 0
  | ObjV id => do a <- word o i; do r <- ref o (index a); match_object m r id
  end.
(** One member: binding_map.cpp:655-714 *)
Definition match_member (m : bmap) (o : cobj) (of : nat) (p : cobj) (pi : nat) : outcome (bool * bmap) :=
  do oa <- word o of; do pa <- word p pi;
  let od := getDescriptor oa in let pd := getDescriptor pa in
  if ((od =? T_WILDCARD) || (od =? WILDCARD) || (od =? VL_PTR))%Z then Ok (true, m)
  else if (od =? I_PTR)%Z then
    if (pd =? VL_PTR)%Z then do v <- get_value m (index pa); value_match m v o of
    else if (pd =? I_PTR)%Z then match_structure m o (index oa) 0 p (index pa)
    else Ok (((pd =? T_WILDCARD) || (pd =? WILDCARD))%Z, m)
  else if (od =? R_PTR)%Z then
    if (pd =? VL_PTR)%Z then do v <- get_value m (index pa); value_match m v o of
    else if (pd =? R_PTR)%Z then
      do ro <- ref o (index oa); do rp <- ref p (index pa); match_object m ro rp
    else Ok (((pd =? T_WILDCARD) || (pd =? WILDCARD))%Z, m)
  else
    if (pd =? VL_PTR)%Z then do v <- get_value m (index pa); value_match m v o of
    else if ((pd =? T_WILDCARD) || (pd =? WILDCARD))%Z then Ok (true, m)
    else Ok (match_atom oa pa, m).
End Body.

(** binding_map.cpp:655-719 *)
Fixpoint match_ (fuel : nat) (m : bmap) (o : cobj) (ob oi : nat) (p : cobj) (pi ar : nat) : outcome (bool * bmap) :=
  match fuel with
  | O => NoFuel
  | S f =>
      do r <- match_member f (match_ f) m o (ob + oi) p pi;
      if fst r then
        if (oi =? ar)%nat then Ok (true, snd r) else match_ f (snd r) o ob (oi + 1) p (pi + 1) ar
      else Ok (false, snd r)
  end.

(** Facts: code index of the members (r_code/replicode_defs.h:237-238). *)
Definition FACT_AFTER := 2.
Definition FACT_BEFORE := 3.
(** binding_map.cpp:815-842, 1276-1303 (the same with the bwd indices):
    positive, negative, failure *)
Inductive result := Positive | Negative | Failure.
Definition match_fact (fuel : nat) (lenient : bool) (m : bmap) (fo fp : nat) (ai bi : nat) : outcome (result * bmap) :=
  do o <- deref fo; do p <- deref fp; do ro <- ref o 0; do rp <- ref p 0;
  do r <- match_object (match_ fuel) m ro rp;
  if fst r then
    do ho <- word o 0; do hp <- word p 0;
    if negb lenient && negb (ho =? hp)%Z then Ok (Failure, snd r) else
    do a <- from_opt (GetTimestamp (code_of o) FACT_AFTER);
    do b <- from_opt (GetTimestamp (code_of o) FACT_BEFORE);
    do t <- match_timings (snd r) a b ai bi;
    Ok (if fst t then (if (ho =? hp)%Z then Positive else Negative) else Failure, snd t)
  else Ok (Failure, snd r).

(** ** Maps *)
(** binding_map.cpp:648-653; [id] is uint8. *)
Definition add_unbound_value (m : bmap) (id : nat) : outcome bmap :=
  let l := vals m ++ repeat None (S id - length (vals m)) in
  set_value (mkmap l (unbound m)) id (Unbound id).
(** binding_map.cpp:625-641 (and 964-976): copies every value; the uint8 counter makes
    the loop endless for 256 values or more.  [None]: it does not return. *)
Definition assign (source : bmap) : option bmap :=
  if (255 <? Z.of_nat (length (vals source)))%Z then None else Some (mkmap (vals source) (unbound source)).
(** binding_map.cpp:935-938 *)
Definition is_fully_specified (m : bmap) : bool := (unbound m =? 0)%Z.
(** binding_map.cpp:898-903 *)
Definition scan_variable (first_index : nat) (m : bmap) (id : nat) : outcome bool :=
  if (id <? first_index)%nat then Ok true else
  do v <- get_value m id; do c <- get_code v; Ok (match c with Some _ => true | None => false end).

(** ** Abstraction *)
(** binding_map.cpp:204-213 *)
Definition contains_atom (v : value) (a : Z) : bool := match v with AtomV b => match_atom b a | _ => false end.
(** binding_map.cpp:293-314; [src] is the memory from [&object->code(index)] on. *)
Fixpoint same_words (s src : list Z) : outcome bool :=
  match s with
  | [] => Ok true
  | a :: s' => match src with
               | [] => UB
               | b :: src' => if match_atom a b then same_words s' src' else Ok false
               end
  end.
Definition contains_structure (v : value) (src : list Z) : outcome bool :=
  match v with
  | StructV (h :: s) =>
      match src with
      | [] => UB
      | b :: src' =>
          if negb (h =? b)%Z then Ok false
          else if (getDescriptor h =? TIMESTAMP)%Z then
            do t <- from_opt (GetInt64 (h :: s) 1); do t' <- from_opt (GetInt64 src 1);
            Ok (Synchronous (ttol E) t t')
          else same_words s src'
      end
  | StructV [] => UB
  | _ => Ok false
  end.
(** binding_map.cpp:362-365 *)
Definition contains_object (v : value) (o : nat) : bool := match v with ObjV p => (p =? o)%nat | _ => false end.

(** The search loops: index of the first value that contains the argument. *)
Fixpoint find_value (test : value -> outcome bool) (l : list (option value)) (i : nat) : outcome (option nat) :=
  match l with
  | [] => Ok None
  | None :: _ => UB
  | Some v :: l' => do b <- test v; if b then Ok (Some i) else find_value test l' (S i)
  end.
Definition push (m : bmap) (v : value) : bmap := mkmap (vals m ++ [Some v]) (unbound m).

(** binding_map.cpp:557-568 *)
Definition get_atom_variable (m : bmap) (a : Z) : outcome (Z * bmap) :=
  do r <- find_value (fun v => Ok (contains_atom v a)) (vals m) 0;
  match r with
  | Some i => Ok (VLPointer (Z.of_nat i), m)
  | None => Ok (VLPointer (Z.of_nat (length (vals m))), push m (AtomV a))
  end.
(** binding_map.cpp:596-607 *)
Definition get_object_variable (m : bmap) (o : nat) : outcome (Z * bmap) :=
  do r <- find_value (fun v => Ok (contains_object v o)) (vals m) 0;
  match r with
  | Some i => Ok (VLPointer (Z.of_nat i), m)
  | None => Ok (VLPointer (Z.of_nat (length (vals m))), push m (ObjV o))
  end.
(** binding_map.cpp:576-588: from [i], wrapping around, back to [start]; [n]
    bounds the number of steps. *)
Fixpoint find_from (test : value -> outcome bool) (m : bmap) (start i n : nat) : outcome (option nat) :=
  match n with
  | O => NoFuel
  | S n' =>
      do v <- get_value m i; do b <- test v;
      if b then Ok (Some i) else
      let i' := if (length (vals m) <=? S i)%nat then 0 else S i in
      if (i' =? start)%nat then Ok None else find_from test m start i' n'
  end.
(** binding_map.cpp:570-594; [first : Z] is [first_search_index]. *)
Definition get_structure_variable (fuel : nat) (m : bmap) (src : list Z) (si : nat) (first : Z) : outcome (Z * bmap) :=
  do r <- (if (0 <=? first)%Z && (0 <? length (vals m))%nat then
             let first := if (Z.of_nat (length (vals m)) <? first)%Z then Z.of_nat (length (vals m)) - 1 else first in
             find_from (fun v => contains_structure v (skipn si src)) m (Z.to_nat first) (Z.to_nat first) (S (length (vals m)))
           else Ok None)%Z;
  match r with
  | Some i => Ok (VLPointer (Z.of_nat i), m)
  | None => do s <- structure_value fuel src si;
            Ok (VLPointer (Z.of_nat (length (vals m))), push m (StructV s))
  end.
End Model.
