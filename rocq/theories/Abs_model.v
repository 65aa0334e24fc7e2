(** Model of the abstraction of objects into patterns, on the words of the code:
    r_exec/binding_map.cpp:204-213, 293-314, 362-365, 414-607, r_exec/binding_map.h:257-277. *)
From Verif Require Import Base Float32 Atom_model Utils_model Bp_model.
Local Open Scope nat_scope.

(** Values of the map, binding_map.h:141-236: those of [Bp_model]; a structure comes
    with the number of its words ([code_size()]), which [contains] reads. *)
Inductive entry := EUnbound | EAtom (a : Z) | EStruct (m : mem) (n : nat) | EObj (o : obj).
Definition value_of (e : entry) : value :=
  match e with EUnbound => Unbound | EAtom a => AtomV a | EStruct m _ => StructureV m | EObj o => ObjectV o end.

(** binding_map.h:251-259.  The two forward indices are set together
    (binding_map.cpp:433-438); [None] is -1.  [unbound_values_] plays no role here. *)
Record state := mkst { entries : list entry; first_index : nat; fwd : option (nat * nat) }.

(** The map as [Bp_model] reads it. *)
Definition values (st : state) (x : nat) : value :=
  match nth_error (entries st) x with Some e => value_of e | None => Unbound end.

(** Opcodes, r_exec/opcodes.h, numbers given when the classes are loaded. *)
Record classes := mkclasses { c_ont : Z; c_ent : Z; c_fact : Z; c_antifact : Z; c_cmd : Z; c_mkval : Z; c_imdl : Z; c_icst : Z }.

Section Abs.
(** Tolerances of [Utils] (code_utils.cpp:96-98), recursion allowed to
    [copy_structure], classes, [hasUserDefinedOperators] (init.cpp:662-665), and
    equality of pointers to objects. *)
Context (ftol : spec_float) (ttol : Z) (fuel : nat) (C : classes) (user : Z -> bool) (same : obj -> obj -> bool).

(** binding_map.cpp:204-213, and 301-310 within structures. *)
Definition near_word (a b : Z) : bool :=
  if (a =? b)%Z then true
  else if isFloat a && isFloat b then Equal ftol (f32_of_bits (asFloat a)) (f32_of_bits (asFloat b)) else false.

(** utils.h:141-147 behind [Utils::GetTimestamp(const Atom * )]: the value in the two words
    after the head. *)
Definition time_in (m : mem) (i : nat) : Z := i64 (Z.lor (Z.shiftl (m (i + 1)) 32) (m (i + 2))).

(** binding_map.cpp:293-314.  Simplified: words beyond the end of the code can be read. *)
Definition contains_structure (e : entry) (src : mem) (si : nat) : bool :=
  match e with
  | EStruct m n =>
      if negb (m 0%nat =? src si)%Z then false
      else if (getDescriptor (m 0%nat) =? TIMESTAMP)%Z then Synchronous ttol (time_in m 0) (time_in src si)
      else forallb (fun i => near_word (m i) (src (si + i))) (seq 1 (n - 1))
  | _ => false
  end.
(** binding_map.cpp:204-213, 362-365; [Value::contains] is false for the other kinds
    (binding_map.h:118-120). *)
Definition contains_atom (e : entry) (a : Z) : bool := match e with EAtom b => near_word b a | _ => false end.
Definition contains_object (e : entry) (o : obj) : bool := match e with EObj p => same p o | _ => false end.

(** The first of the indices [is] whose entry passes the test. *)
Fixpoint search (test : entry -> bool) (es : list entry) (is : list nat) : option nat :=
  match is with
  | [] => None
  | i :: is =>
      match nth_error es i with
      | Some e => if test e then Some i else search test es is
      | None => search test es is
      end
  end.
(** binding_map.cpp:565-567, 591-593, 604-606. *)
Definition found (r : option nat) (es : list entry) (e : entry) : Z * list entry :=
  match r with
  | Some i => (VLPointer (Z.of_nat i), es)
  | None => (VLPointer (Z.of_nat (length es)), es ++ [e])
  end.

(** binding_map.cpp:557-568 *)
Definition get_atom_variable (es : list entry) (a : Z) : Z * list entry :=
  found (search (fun e => contains_atom e a) es (seq 0 (length es))) es (EAtom a).
(** binding_map.cpp:596-607 *)
Definition get_object_variable (es : list entry) (o : obj) : Z * list entry :=
  found (search (fun e => contains_object e o) es (seq 0 (length es))) es (EObj o).
(** binding_map.cpp:570-594.  [None]: the copy of the structure is deeper than [fuel],
    or the search starts just behind the end of the map, which is undefined behaviour. *)
Definition get_structure_variable (es : list entry) (src : mem) (si : nat) (first : Z) : option (Z * list entry) :=
  let len := length es in
  let new :=
    match copy_structure fuel src (fun _ => UndefinedAtom) 0 si with
    | Some (m, n) => Some (found None es (EStruct m n))
    | None => None
    end in
  if ((0 <=? first)%Z && (0 <? len))%bool then
    let start := if (Z.of_nat len <? first)%Z then len - 1 else Z.to_nat first in
    if start =? len then None
    else
      match search (fun e => contains_structure e src si) es (seq start (len - start) ++ seq 0 start) with
      | Some i => Some (VLPointer (Z.of_nat i), es)
      | None => new
      end
  else new.

(** The object being written: words, end of the words ([extent_index]), references. *)
Definition dest : Type := mem * nat * list obj.
Definition put_word (x : dest) (i : nat) (w : Z) : dest := let '(d, e, l) := x in (write d i w, e, l).
Definition put_ref (x : dest) (i : nat) (o : obj) : dest :=
  let '(d, e, l) := x in (write d i (RPointer (Z.of_nat (length l))), e, l ++ [o]).

(** Steps one after the other. *)
Fixpoint chain (l : list (dest -> state -> option (dest * state))) (x : dest) (st : state) : option (dest * state) :=
  match l with
  | [] => Some (x, st)
  | f :: l => match f x st with Some (x, st) => chain l x st | None => None end
  end.

Definition with_entries (st : state) (es : list entry) : state := mkst es (first_index st) (fwd st).
(** Write the variable of a value. *)
Definition put_var (x : dest) (w : nat) (st : state) (r : Z * list entry) : dest * state :=
  (put_word x w (fst r), with_entries st (snd r)).

(** A new object of head [h] and [n] members (binding_map.cpp:419, 454-455, 461-462, 469-470). *)
Definition fresh (h : Z) (n : nat) : dest := (write (fun _ => UndefinedAtom) 0 h, n + 1, []).
Definition finish (r : option (dest * state)) : option (obj * state) :=
  match r with Some ((d, e, l), st) => Some (Obj d e l, st) | None => None end.
Definition wild (i : nat) (x : dest) (st : state) : option (dest * state) := Some (put_word x i (Wildcard 0), st).
Definition keep (o : obj) (i : nat) (x : dest) (st : state) : option (dest * state) := Some (put_word x i (word o i), st).

(** The timings of a fact, binding_map.cpp:421-429 ([member] is the call to
    [abstract_member]). *)
Definition timings (member : nat -> dest -> state -> option (dest * state)) (sync : bool) (x : dest) (st : state)
    : option (dest * state) :=
  match fwd st, sync with
  | Some (a, b), true => Some (put_word (put_word x 2 (VLPointer (Z.of_nat a))) 3 (VLPointer (Z.of_nat b)), st)
  | _, _ => chain [member 2; member 3] x st
  end.
(** binding_map.cpp:416-417 *)
Definition open_fact (st : state) : state :=
  match fwd st with None => mkst (entries st) (length (entries st)) None | Some _ => st end.
(** binding_map.cpp:433-438 *)
Definition close_fact (x : dest) (st : state) : option (dest * state) :=
  match fwd st with
  | None => let '(d, _, _) := x in Some (x, mkst (entries st) (first_index st) (Some (place (d 2), place (d 3))))
  | Some _ => Some (x, st)
  end.

(** binding_map.cpp:414-441 (facts), 443-481 and 493-533.  The recursion, through the
    references and through the sets, goes no deeper than [d]; [None]: it would, or a
    reference is missing, or see [get_structure_variable].  Simplified: [extent_index] is a
    [uint16]; here it does not wrap. *)
Fixpoint abstract_object (d : nat) (o : obj) (sync : bool) (first : Z) (st : state) {struct d} : option (obj * state) :=
  match d with
  | 0 => None
  | S d =>
      let h := word o 0%nat in
      let op := asOpcode h in
      let member first i x st := abstract_member d o i x i first st in
      let fact c :=
        finish (chain [member first 1; timings (member first) sync; wild 4; wild 5; close_fact] (fresh (AObject c 5) 5) (open_fact st)) in
      if (op =? c_fact C)%Z then fact (c_fact C)
      else if (op =? c_antifact C)%Z then fact (c_antifact C)
      else if (op =? c_cmd C)%Z then finish (chain [keep o 1; member 0%Z 2; wild 3] (fresh h 3) st)
      else if (op =? c_mkval C)%Z then finish (chain [member 0%Z 1; member 0%Z 2; member 0%Z 3; wild 4] (fresh h 4) st)
      else if ((op =? c_imdl C) || (op =? c_icst C))%Z then
        finish (chain [member 0%Z 1; member 0%Z 2; member (-1)%Z 3; wild 4; wild 5] (fresh h 5) st)
      else Some (o, st)
  end
with abstract_member (d : nat) (o : obj) (i : nat) (x : dest) (w : nat) (first : Z) (st : state) {struct d} : option (dest * state) :=
  match d with
  | 0 => None
  | S d =>
      let a := word o i in
      let si := place a in
      if (getDescriptor a =? R_PTR)%Z then
        match nth_error (refs o) si with
        | None => None
        | Some r =>
            let op := asOpcode (word r 0) in
            if (op =? c_ont C)%Z then Some (put_ref x w r, st)
            else if (op =? c_ent C)%Z then Some (put_var x w st (get_object_variable (entries st) r))
            else
              match abstract_object d r false first st with
              | Some (r', st) => Some (put_ref x w r', st)
              | None => None
              end
        end
      else if (getDescriptor a =? I_PTR)%Z then
        let h := word o si in
        if user (asOpcode h) then option_map (put_var x w st) (get_structure_variable (entries st) (word o) si 0)
        else if ((getDescriptor h =? SET) || (getDescriptor h =? OBJECT))%Z then
          let '(m, e, l) := x in
          chain (map (fun j x st => abstract_member d o (si + j) x (e + j) first st) (seq 1 (count h)))
            (write (write m w (ptr e)) e h, e + count h + 1, l) st
        else option_map (put_var x w st) (get_structure_variable (entries st) (word o) si first)
      else Some (put_var x w st (get_atom_variable (entries st) a))
  end.
End Abs.
