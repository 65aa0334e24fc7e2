(** Model of the instances of composite states and models, and of the maps made from
    them: r_exec/binding_map.cpp:369-412, 648-653, 983-1185, r_exec/binding_map.h:406-414. *)
From Verif Require Import Base Atom_model Bp_model.
Local Open Scope nat_scope.

(** binding_map.h:251-259: the values ([None]: a null pointer left by [resize]), the
    index of the first variable of the first fact, and those of the times of that fact
    (-1: none).  Simplified: the two backward indices are left out. *)
Record hmap := mkh { vals : list (option value); first : nat; fwd_after : Z; fwd_before : Z }.

(** Words, end, references: an object being written. *)
Definition out := (mem * nat * list obj)%type.
Definition put (x : out) (i : nat) (w : Z) : out := let '(m, e, l) := x in (write m i w, e, l).

(** replicode_defs.h:222-223, 229-240. *)
Definition HLP_TPL_ARGS := 1.
Definition HLP_OBJS := 2.
Definition I_HLP_OBJ := 1.
Definition I_HLP_TPL_ARGS := 2.
Definition I_HLP_EXPOSED_ARGS := 3.
Definition I_HLP_WR := 4.
Definition I_HLP_ARITY := 5.
Definition FACT_AFTER := 2.
Definition FACT_BEFORE := 3.
Definition FACT_ARITY := 5.

(** The value 1 of a float, in an atom (binding_map.cpp:1157, factory.cpp:205-206). *)
Definition one : Z := Float 0x3F800000.

Section Inst.
(** Recursion allowed; opcode of [ti]; opcode of [fact]. *)
Context (fuel : nat) (ti fact : Z).

(** The entry of index [x].  [None]: beyond the end, or a null pointer: undefined. *)
Definition value_at (vs : list (option value)) (x : nat) : option value :=
  match nth_error vs x with Some v => v | None => None end.

(** [map_[x]->valuate(...)], binding_map.cpp:119-122, 169-172, 326-330,
    binding_map.h:191-194. *)
Definition valuate_at (vs : list (option value)) (x i : nat) (o : out) : option out :=
  match value_at vs x with
  | Some v => let '(m, e, l) := o in valuate fuel (fun _ => v) x m i e l
  | None => None
  end.

(** The loop of [build_ihlp_structure], binding_map.cpp:1110-1125, from the word [r] of
    the pattern, written at [w], [n] words left.  [build] is the recursive call. *)
Fixpoint build_words (vs : list (option value)) (build : nat -> out -> option out) (src : mem) (is_ti : bool)
    (r w n : nat) (o : out) : option out :=
  match n with
  | 0 => Some o
  | S n =>
      let a := src r in
      match (if ((getDescriptor a =? VL_PTR)%Z && negb is_ti)%bool then valuate_at vs (place a) w o
             else if (getDescriptor a =? I_PTR)%Z then let '(m, e, l) := o in build (place a) (write m w (ptr e), e, l)
             else Some (put o w a)) with
      | Some o => build_words vs build src is_ti (r + 1) (w + 1) n o
      | None => None
      end
  end.

(** binding_map.cpp:1100-1126.  Simplified: [extent_index] is a [uint16]; here it does
    not wrap. *)
Fixpoint build_structure (vs : list (option value)) (d : nat) (src : mem) (si : nat) (o : out) : option out :=
  match d with
  | 0 => None
  | S d =>
      let '(m, e, l) := o in
      let n := count (src si) in
      build_words vs (build_structure vs d src) src (src si =? AObject ti 2)%Z (si + 1) (e + 1) n
        (write m e (src si), e + 1 + n, l)
  end.

(** Variables that appear in the arguments of an instance, in this order: all from the
    first one, save the two times (binding_map.cpp:1068-1072, 1146-1151, 1175-1177). *)
Definition skipped (h : hmap) (j : nat) : bool := ((Z.of_nat j =? fwd_after h) || (Z.of_nat j =? fwd_before h))%Z.

(** binding_map.cpp:1146-1154: the variables from [j], [n] of them. *)
Fixpoint build_exposed (h : hmap) (j n w : nat) (o : out) : option out :=
  match n with
  | 0 => Some o
  | S n =>
      if skipped h j then build_exposed h (j + 1) n w o
      else match valuate_at (vals h) j w o with
           | Some o => build_exposed h (j + 1) n (w + 1) o
           | None => None
           end
  end.

(** [map_[i]] for a signed index: -1 is before the array. *)
Definition valuate_z (vs : list (option value)) (x : Z) (i : nat) (o : out) : option out :=
  if (x <? 0)%Z then None else valuate_at vs (Z.to_nat x) i o.

Definition size_of (h : hmap) : nat := length (vals h).

(** binding_map.cpp:1141: a [uint16]. *)
Definition exposed_count (h : hmap) : Z := u16 (Z.of_nat (size_of h) - Z.of_nat (first h) - 2).

(** The instance, binding_map.cpp:1130-1157. *)
Definition build_ihlp (h : hmap) (hlp : obj) (opcode : Z) (wr : bool) : option obj :=
  let m0 := write (write (write (fun _ => UndefinedAtom) 0 (AObject opcode 5)) I_HLP_OBJ (RPointer 0)) I_HLP_TPL_ARGS (ptr (I_HLP_ARITY + 1)) in
  match build_structure (vals h) fuel (word hlp) (place (word hlp HLP_TPL_ARGS)) (m0, I_HLP_ARITY + 1, [hlp]) with
  | Some (m, e, l) =>
      let n := exposed_count h in
      let m := write (write m I_HLP_EXPOSED_ARGS (ptr e)) e (ASet n) in
      match build_exposed h (first h) (size_of h - first h) (e + 1) (m, e + 1 + Z.to_nat n, l) with
      | Some (m, e, l) => Some (Obj (write (write m I_HLP_WR (Boolean wr)) I_HLP_ARITY one) e l)
      | None => None
      end
  | None => None
  end.

(** The words of [Fact(object, 0, 0, 1, 1)]: factory.cpp:199-210, utils.h SetTimestamp. *)
Definition fact_words : mem := fun i =>
  nth i [AObject fact 5; RPointer 0; ptr 6; ptr 9; one; one; ATimestamp; 0%Z; 0%Z; ATimestamp; 0%Z; 0%Z] UndefinedAtom.

(** binding_map.cpp:1128-1164.  The code of the fact never gets shorter than its first
    12 words. *)
Definition build_f_ihlp (h : hmap) (hlp : obj) (opcode : Z) (wr : bool) : option obj :=
  match build_ihlp h hlp opcode wr with
  | Some ihlp =>
      match valuate_z (vals h) (fwd_after h) FACT_AFTER (fact_words, FACT_ARITY + 1, [ihlp]) with
      | Some o =>
          match valuate_z (vals h) (fwd_before h) FACT_BEFORE o with
          | Some (m, e, l) => Some (Obj m (Nat.max 12 e) l)
          | None => None
          end
      | None => None
      end
  | None => None
  end.

(** The loop of [get_ihlp_exposed_args_position], binding_map.cpp:1174-1184. *)
Fixpoint position_from (h : hmap) (index : Z) (j n : nat) (p : Z) : Z :=
  match n with
  | 0 => (-1)%Z
  | S n =>
      if skipped h j then position_from h index (j + 1) n p
      else if (Z.of_nat j =? index)%Z then p
      else position_from h index (j + 1) n (p + 1)%Z
  end.

(** binding_map.cpp:1166-1185.  [index >= map_.size()] compares unsigned numbers: a
    negative index is too high; it is below the first index anyway. *)
Definition position (h : hmap) (index : Z) : Z :=
  if ((index =? fwd_after h) || (index =? fwd_before h) || (index <? Z.of_nat (first h))
      || (Z.of_nat (size_of h) <=? index))%Z%bool
  then (-1)%Z
  else position_from h index (first h) (size_of h - first h) 0%Z.

(** [map_[x] = ...]; beyond the end: undefined. *)
Definition set_at (vs : list (option value)) (x : nat) (v : value) : option (list (option value)) :=
  if x <? length vs then Some (firstn x vs ++ Some v :: skipn (S x) vs) else None.

(** [new StructureValue(this, code, i)], binding_map.cpp:217-222, binding_map.h:168. *)
Definition structure (m : mem) (i : nat) : option value :=
  match copy_structure fuel m (fun _ => UndefinedAtom) 0 i with
  | Some (m, _) => Some (StructureV m)
  | None => None
  end.

(** The value made of the word [a] of the instance: binding_map.cpp:1045-1055 and
    1075-1089.  [None]: undefined. *)
Definition value_from (ihlp : obj) (a : Z) : option value :=
  if (getDescriptor a =? R_PTR)%Z then
    match nth_error (refs ihlp) (place a) with Some o => Some (ObjectV o) | None => None end
  else if (getDescriptor a =? I_PTR)%Z then structure (word ihlp) (place a)
  else Some (AtomV a).

(** The loop of [init_from_ihlp_args], binding_map.cpp:1028-1056: word [r] of the
    pattern, word [w] of the instance, [n] left. *)
Fixpoint init_words (init : nat -> nat -> list (option value) -> option (list (option value)))
    (hlp : mem) (ihlp : obj) (r w n : nat) (vs : list (option value)) : option (list (option value)) :=
  match n with
  | 0 => Some vs
  | S n =>
      let a := hlp r in
      let b := word ihlp w in
      match (if (getDescriptor a =? I_PTR)%Z then
               if (getDescriptor b =? I_PTR)%Z then init (place a) (place b) vs else Some vs
             else if (getDescriptor a =? VL_PTR)%Z then
               match value_from ihlp b with Some v => set_at vs (place a) v | None => None end
             else Some vs) with
      | Some vs => init_words init hlp ihlp (r + 1) (w + 1) n vs
      | None => None
      end
  end.

(** binding_map.cpp:1020-1057. *)
Fixpoint init_args (d : nat) (hlp : mem) (ihlp : obj) (hi ii : nat) (vs : list (option value)) : option (list (option value)) :=
  match d with
  | 0 => None
  | S d =>
      if negb (hlp hi =? word ihlp ii)%Z then Some vs
      else init_words (init_args d hlp ihlp) hlp ihlp (hi + 1) (ii + 1) (count (word ihlp ii)) vs
  end.

(** WILDCARD, T_WILDCARD, VL_PTR: binding_map.cpp:1082-1085. *)
Definition no_value (a : Z) : bool :=
  let d := getDescriptor a in ((d =? WILDCARD) || (d =? T_WILDCARD) || (d =? VL_PTR))%Z.

(** binding_map.cpp:1068-1093: variables from [j], [n] of them, word [w]. *)
Fixpoint init_exposed (h : hmap) (ihlp : obj) (j n w : nat) (vs : list (option value)) : option (list (option value)) :=
  match n with
  | 0 => Some vs
  | S n =>
      if skipped h j then init_exposed h ihlp (j + 1) n w vs
      else
        match (if no_value (word ihlp w) then Some vs
               else match value_from ihlp (word ihlp w) with Some v => set_at vs j v | None => None end) with
        | Some vs => init_exposed h ihlp (j + 1) n (w + 1) vs
        | None => None
        end
  end.

(** [map_[x] = new StructureValue(this, f_ihlp, f_ihlp->code(i).asIndex())] for a signed
    index, binding_map.cpp:1096-1097. *)
Definition init_time (f : obj) (x : Z) (i : nat) (vs : list (option value)) : option (list (option value)) :=
  if (x <? 0)%Z then None
  else match structure (word f) (place (word f i)) with Some v => set_at vs (Z.to_nat x) v | None => None end.

(** binding_map.cpp:1059-1098. *)
Definition init_from_f_ihlp (h : hmap) (f : obj) : option hmap :=
  match nth_error (refs f) 0 with
  | None => None
  | Some ihlp =>
      match nth_error (refs ihlp) 0 with
      | None => None
      | Some hlp =>
          match init_args fuel (word hlp) ihlp (place (word hlp HLP_TPL_ARGS)) (place (word ihlp I_HLP_TPL_ARGS)) (vals h) with
          | None => None
          | Some vs =>
              match init_exposed h ihlp (first h) (size_of h - first h) (place (word ihlp I_HLP_EXPOSED_ARGS) + 1) vs with
              | None => None
              | Some vs =>
                  match init_time f (fwd_after h) FACT_AFTER vs with
                  | None => None
                  | Some vs =>
                      match init_time f (fwd_before h) FACT_BEFORE vs with
                      | None => None
                      | Some vs => Some (mkh vs (first h) (fwd_after h) (fwd_before h))
                      end
                  end
              end
          end
      end
  end.

(** [for (i = 1; i <= n; ++i) code(from + i) = VLPointer(x++)], binding_map.cpp:394-395,
    402-403. *)
Fixpoint number (m : mem) (from x n : nat) : mem :=
  match n with
  | 0 => m
  | S n => number (write m from (VLPointer (Z.of_nat x))) (from + 1) (x + 1) n
  end.

(** binding_map.cpp:369-412.  [icst], [imdl]: opcodes.  The fact is new: its words are
    copied, its head included; its only reference is the new instance.  [None]: a
    reference is missing. *)
Definition abstract_f_ihlp (icst imdl : Z) (f : obj) : option obj :=
  match nth_error (refs f) 0 with
  | None => None
  | Some ihlp =>
      match nth_error (refs ihlp) (place (word ihlp I_HLP_OBJ)) with
      | None => None
      | Some hlp =>
          let opcode := if (asOpcode (word ihlp 0%nat) =? icst)%Z then icst else imdl in
          let m := write (write (fun _ => UndefinedAtom) 0 (AObject opcode 5)) I_HLP_OBJ (RPointer 0) in
          let n := count (word ihlp (place (word ihlp I_HLP_TPL_ARGS))) in
          let e := I_HLP_ARITY + 1 in
          let m := write (write m I_HLP_TPL_ARGS (ptr e)) e (ASet (Z.of_nat n)) in
          let m := number m (e + 1) 0 n in
          let e' := e + 1 + n in
          let k := count (word ihlp (place (word ihlp I_HLP_EXPOSED_ARGS))) in
          let m := write (write m I_HLP_EXPOSED_ARGS (ptr e')) e' (ASet (Z.of_nat k)) in
          let m := number m (e' + 1) n k in
          let m := write (write m I_HLP_WR (word ihlp I_HLP_WR)) I_HLP_ARITY (word ihlp I_HLP_ARITY) in
          Some (Obj (word f) (size f) [Obj m (e' + 1 + k) [hlp]])
      end
  end.
End Inst.

(** binding_map.cpp:648-653: [id] is a [uint8]. *)
Definition add_unbound (vs : list (option value)) (x : nat) : list (option value) :=
  let x := Z.to_nat (u8 (Z.of_nat x)) in
  let vs := if x <? length vs then vs else vs ++ repeat None (x + 1 - length vs) in
  firstn x vs ++ Some Unbound :: skipn (S x) vs.

(** The loop of [add_unbound_values], binding_map.cpp:985-993. *)
Fixpoint add_words (add : nat -> list (option value) -> option (list (option value))) (m : mem) (i n : nat)
    (vs : list (option value)) : option (list (option value)) :=
  match n with
  | 0 => Some vs
  | S n =>
      let a := m i in
      match (if (getDescriptor a =? VL_PTR)%Z then Some (add_unbound vs (place a))
             else if (getDescriptor a =? I_PTR)%Z then add (place a) vs
             else Some vs) with
      | Some vs => add_words add m (i + 1) n vs
      | None => None
      end
  end.
(** binding_map.cpp:983-994. *)
Fixpoint add_structure (d : nat) (m : mem) (si : nat) (vs : list (option value)) : option (list (option value)) :=
  match d with
  | 0 => None
  | S d => add_words (add_structure d m) m (si + 1) (count (m si)) vs
  end.

(** binding_map.cpp:1013-1017: the words of the packed code from [i], [n] left. *)
Fixpoint add_packed (m : mem) (i n : nat) (vs : list (option value)) : list (option value) :=
  match n with
  | 0 => vs
  | S n => add_packed m (i + 1) n (if (getDescriptor (m i) =? VL_PTR)%Z then add_unbound vs (place (m i)) else vs)
  end.

(** binding_map.h:406-414. *)
Definition timing_indexes (source : obj) (t : Z * Z) : Z * Z :=
  if size source <=? FACT_BEFORE then t
  else
    (if (getDescriptor (word source FACT_AFTER) =? VL_PTR)%Z then asIndex (word source FACT_AFTER) else fst t,
     if (getDescriptor (word source FACT_BEFORE) =? VL_PTR)%Z then asIndex (word source FACT_BEFORE) else snd t).

(** binding_map.cpp:996-1018, on a new map (609, 942).  [hlp] is unpacked, [packed] is
    not.  Simplified: the backward indices are left out. *)
Definition init_from_hlp (fuel : nat) (hlp packed : obj) : option hmap :=
  match add_structure fuel (word hlp) (place (word hlp HLP_TPL_ARGS)) [] with
  | None => None
  | Some vs =>
      let si := place (word hlp HLP_OBJS) in
      let times :=
        if 1 <=? count (word hlp si) then
          match nth_error (refs hlp) (place (word hlp (si + 1))) with
          | Some source => Some (timing_indexes source ((-1)%Z, (-1)%Z))
          | None => None
          end
        else Some ((-1)%Z, (-1)%Z) in
      match times with
      | None => None
      | Some (a, b) => Some (mkh (add_packed (word packed) 1 (size packed - 1) vs) (length vs) a b)
      end
  end.
