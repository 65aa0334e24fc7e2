(** Model of the guard builders (r_exec/guard_builder.cpp), of the tail of a model
    (r_exec/pattern_extractor.cpp:488-501) and of the choice of a builder
    (pattern_extractor.cpp:1162-1336): the words written in the code of a learned model.

    Simplified: the indexes are naturals (uint16 in the code, and 12 bits in a
    pointer: the theorems bound them); the patterns of the lhs and of the rhs are the
    three numbers of variables read from them. *)
From Verif Require Import Base Float32 Atom_model Utils_model Op_model.

(** The values of [Opcodes::Add], ... (opcodes.cpp), set by the class image. *)
Record opcodes := { o_add : Z; o_sub : Z; o_mul : Z; o_div : Z; o_id : Z }.

(** The variables of a fact of the model: [code(FACT_AFTER).asIndex()],
    [code(FACT_BEFORE).asIndex()] and
    [get_reference(0)->code(MK_VAL_VALUE or cmd_arg_index_).asIndex()]. *)
Record pattern := { after : Z; before : Z; member : Z }.

(** What a builder reads in [mdl]: [get_reference(0)], [get_reference(1)], and whether
    the set of the template arguments has elements (guard_builder.cpp:156-157). *)
Record mdl := { lhs : pattern; rhs : pattern; has_tpl : bool }.

(** The two pairs of opcodes, guard_builder.cpp:408, 421, 509, 522. *)
Inductive arith := Sum | Product.
Definition fwd_opcode (o : opcodes) (a : arith) : Z := match a with Sum => o_add o | Product => o_mul o end.
Definition bwd_opcode (o : opcodes) (a : arith) : Z := match a with Sum => o_sub o | Product => o_div o end.

(** The argument of the command in the cause, guard_builder.cpp:568-580.  Simplified:
    an object without structures inside. *)
Inductive arg_value := AFloat (a : Z) | AObj (h : Z) (args : list Z) | AOther.

(** The classes of guard_builder.h, with their members. *)
Inductive builder :=
  | Plain                                              (* GuardBuilder *)
  | Timing (period : Z)                                (* TimingGuardBuilder *)
  | Speed (period offset : Z)                          (* SGuardBuilder *)
  | NoArg (period offset cmd_duration : Z)             (* NoArgCmdGuardBuilder *)
  | Arg (a : arith) (period offset : Z)                (* ACGuardBuilder, MCGuardBuilder *)
  | Cst (a : arith) (period constant offset : Z)       (* AGuardBuilder, MGuardBuilder; [constant] is the atom *)
  | CstArg (period offset : Z) (v : arg_value).        (* ConstBwdArgCmdGuardBuilder *)

(** The code, [write_index] and [extent_index]. *)
Definition st := (code * nat * nat)%type.
Definition step := st -> option st.
Fixpoint run (l : list step) (s : st) : option st :=
  match l with [] => Some s | f :: l => match f s with Some s => run l s | None => None end end.

Definition ptr (i : nat) : Z := IPointer (Z.of_nat i).
(** [mdl->code(slot) = Atom::IPointer(++write_index); mdl->code(write_index) =
    Atom::Set(n); extent_index = write_index + n]: guard_builder.cpp:132-135, 141-144, ... *)
Definition open_set (slot n : nat) : step := fun '(c, w, _) =>
  Some (put (put c slot (ptr (S w))) (S w) (ASet (Z.of_nat n)), S w, (S w + n)%nat).
(** [write_index = extent_index], guard_builder.cpp:140, 149, ... *)
Definition close_set : step := fun '(c, w, e) => Some (c, e, e).

(** [mdl->code(++write_index) = Atom::AssignmentPointer(l, ++extent_index);
     mdl->code(extent_index) = ...] *)
Definition assign (l : Z) (a : Z) : step := fun '(c, w, e) =>
  Some (put (put c (S w) (AssignmentPointer l (Z.of_nat (S e)))) (S e) a, S w, S e).
(** [mdl->code(++extent_index) = a] *)
Definition emit (a : Z) : step := fun '(c, w, e) => Some (put c (S e) a, w, S e).
(** [uint16 index = extent_index + k; mdl->code(++extent_index) = Atom::IPointer(index)] *)
Definition emit_ptr (k : nat) : step := fun '(c, w, e) => Some (put c (S e) (ptr (e + k)), w, S e).
(** [Utils::SetDurationStruct(mdl, ++extent_index, d); extent_index += 2] *)
Definition emit_duration (d : Z) : step := fun '(c, w, e) =>
  match SetDurationStruct c (S e) d with Some c' => Some (c', w, S e + 2)%nat | None => None end.
(** [extent_index += 1] *)
Definition skip : step := fun '(c, w, e) => Some (c, w, S e).

(** guard_builder.cpp:115-124 *)
Definition write_guard (l r opcode d : Z) : list step :=
  [assign l (Operator opcode 2); emit (VLPointer r); emit_ptr 2; emit_duration d].

(** guard_builder.cpp:199-209 *)
Definition speed_fwd (o : opcodes) (q1 q0 s period : Z) : list step :=
  [assign q1 (Operator (o_add o) 2); emit (VLPointer q0); emit_ptr 2; emit (Operator (o_mul o) 2);
   emit (VLPointer s); emit_ptr 2; emit_duration period].
(** guard_builder.cpp:223-233 *)
Definition speed_bwd (o : opcodes) (s q1 q0 period : Z) : list step :=
  [assign s (Operator (o_div o) 2); emit_ptr 3; emit_ptr 5; emit (Operator (o_sub o) 2);
   emit (VLPointer q1); emit (VLPointer q0); emit_duration period].
(** guard_builder.cpp:350-354, 368-372, 451-455, 469-473 *)
Definition binary_guard (l opcode x y : Z) : list step :=
  [assign l (Operator opcode 2); emit x; emit y; skip].

(** guard_builder.cpp:567-580; [copy_structure] of an object without structures inside,
    binding_map.cpp:242-259. *)
Definition const_guard (o : opcodes) (cmd_arg : Z) (v : arg_value) : list step :=
  match v with
  | AFloat a => [assign cmd_arg (Operator (o_id o) 1); emit a; skip]
  | AObj h args =>
      [fun '(c, w, e) =>
         Some (put_words (put c (S w) (AssignmentPointer cmd_arg (Z.of_nat (S e)))) (S e) (h :: args),
               S w, (S e + (1 + length args))%nat)]
  | AOther =>
      [fun '(c, w, e) => Some (put c (S w) (AssignmentPointer cmd_arg (Z.of_nat (S e))), S w, S e)]
  end.

(** The variables of the premise: those of the lhs (guard_builder.cpp:157-161), or the
    template arguments (162-166, 249-254). *)
Definition timing_premise (m : mdl) : Z * Z :=
  if has_tpl m then (1, 2) else (after (lhs m), before (lhs m)).
(** guard_builder.cpp:243-254, 306-317, 382-393, 483-494: without template arguments,
    the premise is read through [premise_pattern], which is NULL in every call
    (pattern_extractor.cpp:732, 742, 762, 957, 977, 1354, 1370). *)
Definition premise (m : mdl) : option (Z * Z * Z) := if has_tpl m then Some (0, 1, 2) else None.

(** The steps of [build] (guard_builder.cpp:98-583). *)
Definition steps (o : opcodes) (b : builder) (m : mdl) : option (list step) :=
  let t2 := after (rhs m) in let t3 := before (rhs m) in let q1 := member (rhs m) in
  let c0 := after (lhs m) in let c1 := before (lhs m) in let arg := member (lhs m) in
  match b with
  | Plain => Some [open_set 3 0; open_set 4 0; close_set]
  | Timing p =>
      let (t0, t1) := timing_premise m in
      Some ([open_set 3 2] ++ write_guard t2 t0 (o_add o) p ++ write_guard t3 t1 (o_add o) p ++ [close_set] ++
            [open_set 4 2] ++ write_guard t0 t2 (o_sub o) p ++ write_guard t1 t3 (o_sub o) p ++ [close_set])
  | Speed p off =>
      match premise m with
      | None => None
      | Some (q0, t0, t1) =>
          Some ([open_set 3 3] ++ write_guard t2 t0 (o_add o) p ++ write_guard t3 t1 (o_add o) p ++
                speed_fwd o q1 q0 arg p ++ [close_set] ++
                [open_set 4 5] ++ write_guard t0 t2 (o_sub o) p ++ write_guard t1 t3 (o_sub o) p ++
                write_guard c0 t2 (o_sub o) off ++ write_guard c1 t3 (o_sub o) p ++
                speed_bwd o arg q1 q0 p ++ [close_set])
      end
  | NoArg p off _ =>
      match premise m with
      | None => None
      | Some (_, t0, t1) =>
          Some ([open_set 3 2] ++ write_guard t2 t0 (o_add o) p ++ write_guard t3 t1 (o_add o) p ++ [close_set] ++
                [open_set 4 4] ++ write_guard t0 t2 (o_sub o) p ++ write_guard t1 t3 (o_sub o) p ++
                write_guard c0 t2 (o_sub o) off ++ write_guard c1 t3 (o_sub o) p ++ [close_set])
      end
  | Arg a p off =>
      match premise m with
      | None => None
      | Some (q0, t0, t1) =>
          Some ([open_set 3 3] ++ write_guard t2 t0 (o_add o) p ++ write_guard t3 t1 (o_add o) p ++
                binary_guard q1 (fwd_opcode o a) (VLPointer q0) (VLPointer arg) ++ [close_set] ++
                [open_set 4 5] ++ write_guard t0 t2 (o_sub o) p ++ write_guard t1 t3 (o_sub o) p ++
                write_guard c0 t2 (o_sub o) off ++ write_guard c1 t3 (o_sub o) p ++
                binary_guard arg (bwd_opcode o a) (VLPointer q1) (VLPointer q0) ++ [close_set])
      end
  | Cst a p k off =>
      (* guard_builder.cpp:439: the lhs is read from get_reference(1), the rhs *)
      let t4 := after (rhs m) in let t5 := before (rhs m) in
      match premise m with
      | None => None
      | Some (q0, t0, t1) =>
          Some ([open_set 3 3] ++ write_guard t2 t0 (o_add o) p ++ write_guard t3 t1 (o_add o) p ++
                binary_guard q1 (fwd_opcode o a) (VLPointer q0) k ++ [close_set] ++
                [open_set 4 5] ++ write_guard t0 t2 (o_sub o) p ++ write_guard t1 t3 (o_sub o) p ++
                write_guard t4 t2 (o_sub o) off ++ write_guard t5 t3 (o_sub o) p ++
                binary_guard q0 (bwd_opcode o a) (VLPointer q1) k ++ [close_set])
      end
  | CstArg p off v =>
      Some ([open_set 3 2] ++ write_guard t2 1 (o_add o) p ++ write_guard t3 2 (o_add o) p ++ [close_set] ++
            [open_set 4 5] ++ write_guard 1 t2 (o_sub o) p ++ write_guard 2 t3 (o_sub o) p ++
            write_guard c0 t2 (o_sub o) off ++ write_guard c1 t3 (o_sub o) p ++
            const_guard o arg v ++ [close_set])
  end.

(** [guard_builder->build(mdl, NULL, cause, write_index)]; [None]: undefined behaviour. *)
Definition build (o : opcodes) (b : builder) (m : mdl) (c : code) (w : nat) : option (code * nat) :=
  match steps o b m with
  | None => None
  | Some l => match run l (c, w, w) with Some (c, w, _) => Some (c, w) | None => None end
  end.

(** [build_mdl_tail], pattern_extractor.cpp:488-498; [one] and [zero] are the atoms of
    [Atom::Float(1)] and [Atom::Float(0)]. *)
Definition zero : Z := Float 0.
Definition one : Z := Float 0x3F800000.
Definition tail (c : code) (w : nat) : code :=
  let c := put c 5 (ptr (S w)) in
  let c := put c (S w) (ASet 1) in
  let c := put c (S (S w)) (RPointer 2) in
  put (put (put (put (put c 6 zero) 7 one) 8 one) 9 one) 10 one.
(** The end of [build_mdl], pattern_extractor.cpp:1354-1355, 1370-1371. *)
Definition finish (o : opcodes) (b : builder) (m : mdl) (c : code) (w : nat) : option code :=
  match build o b m c w with Some (c, w) => Some (tail c w) | None => None end.

(** ** The choice of a builder *)

(** The interval of a fact. *)
Record times := { t_after : Z; t_before : Z }.
(** pattern_extractor.cpp:1117 *)
Definition period_of (target consequent : times) : Z := t_after consequent - t_after target.
(** [get_default_guard_builder], pattern_extractor.cpp:1162-1174; [is_action]: the cause
    is a command or the instance of a model. *)
Definition default_builder (is_action : bool) (target cause consequent : times) : builder :=
  let period := period_of target consequent in
  if is_action then NoArg period (t_after consequent - t_after cause) (t_before cause - t_after cause)
  else Timing period.

(** The two loops over the exposed arguments, pattern_extractor.cpp:1274-1285 and
    1290-1302: the index of the first float that is equal to [x], up to the tolerance.
    [i] counts from [i] to [n]; [word i] is the atom read. *)
Fixpoint search (tol x : spec_float) (word : nat -> option Z) (i n : nat) : option nat :=
  match n with
  | O => None
  | S n =>
      match word i with
      | Some a => if isFloat a && Equal tol (num a) x then Some i else search tol x word (S i) n
      | None => None
      end
  end.

(** [find_guard_builder] for the instance of a model, pattern_extractor.cpp:1263-1304:
    the builder and the rank of the argument used.  [imdl] is the code of the instance,
    [k] the index of its exposed arguments, [q0] and [q1] the atoms of the two values.
    [None]: no builder.  A read out of the code also ends the search here. *)
Definition find_imdl (tol : spec_float) (imdl : code) (k : nat) (q0 q1 : Z) (target cause consequent : times)
  : option (builder * nat) :=
  let period := period_of target consequent in
  let offset := t_after cause - t_after target in
  match get imdl k with
  | None => None
  | Some h =>
      let count := Z.to_nat (getAtomCount h) in
      match search tol (fsub (num q1) (num q0)) (fun i => get imdl (k + i)) 1 count with
      | Some i => Some (Arg Sum period (period - offset), i)
      | None =>
          if feqb (num q0) fzero then None
          else
            (* i from k + 1 to count *)
            match search tol (fdiv (num q1) (num q0)) (fun i => get imdl i) (k + 1) (count - k) with
            | Some i => Some (Arg Product period (period - offset), i - k)%nat
            | None => None
            end
      end
  end.

(** [find_guard_builder] for a value, pattern_extractor.cpp:1306-1333; [s] is the atom of
    the value of the cause. *)
Definition find_mk_val (tol : spec_float) (s q0 q1 : Z) (target cause consequent : times) : option builder :=
  let period := period_of target consequent in
  let offset := t_after cause - t_after target in
  if isFloat s then
    if Equal tol (num s) (fdiv (fsub (num q1) (num q0)) (f32_of_Z period)) then Some (Speed period (period - offset))
    else if negb (feqb (num q0) fzero) then Some (Cst Product period (Float (bits_of_f32 (fdiv (num q1) (num q0)))) offset)
    else Some (Cst Sum period (Float (bits_of_f32 (fsub (num q1) (num q0)))) offset)
  else None.
