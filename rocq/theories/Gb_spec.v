(** Vocabulary of the statements about the guard builders: the guards that the code of a
    model holds, and what they do. *)
From Verif Require Import Base Float32 Atom_model Utils_model Op_model Gd_model Gb_model.

(** ** Reading guards *)
(** The expression that a word stands for: a float, a variable, or what is at the place
    a pointer gives: a duration, an operator with its arguments, an object. *)
Fixpoint expr_at (fuel : nat) (c : code) (a : Z) : option expr :=
  match fuel with
  | O => None
  | S fuel =>
      if isFloat a then Some (Lit (VFloat a))
      else if getDescriptor a =? VL_PTR then Some (Var (Z.to_nat (asIndex a)))
      else if getDescriptor a =? I_PTR then place fuel c (Z.to_nat (asIndex a))
      else None
  end
with place (fuel : nat) (c : code) (i : nat) : option expr :=
  match fuel with
  | O => None
  | S fuel =>
      match nth_error c i with
      | None => None
      | Some h =>
          if getDescriptor h =? DURATION then
            match GetInt64 c (S i) with Some d => Some (Lit (VDuration d)) | None => None end
          else
            let n := Z.to_nat (getAtomCount h) in
            let args := all_some (map (fun j => match nth_error c (i + j) with Some a => expr_at fuel c a | None => None end) (seq 1 n)) in
            if getDescriptor h =? OPERATOR then option_map (Op (Z.to_nat (asOpcode h))) args
            else if getDescriptor h =? OBJECT then option_map (Str KObject) args
            else None
      end
  end.
(** Deep enough for what the builders write. *)
Definition depth : nat := 6.
(** The guard at a word of a set. *)
Definition guard_at (c : code) (k : nat) : option guard :=
  match nth_error c k with
  | Some a => if getDescriptor a =? ASSIGN_PTR then
                option_map (Assign (Z.to_nat (asAssignmentIndex a))) (place depth c (Z.to_nat (asIndex a)))
              else None
  | None => None
  end.
(** The set of guards at an index. *)
Definition set_at (c : code) (i : nat) : option (list guard) :=
  match nth_error c i with
  | Some h => if getDescriptor h =? SET then all_some (map (guard_at c) (seq (S i) (Z.to_nat (getAtomCount h)))) else None
  | None => None
  end.
(** The set of guards that a word of the model points to: its forward guards are at
    word 3, its backward guards at word 4. *)
Definition guards (c : code) (slot : nat) : option (list guard) :=
  match nth_error c slot with
  | Some a => if getDescriptor a =? I_PTR then set_at c (Z.to_nat (asIndex a)) else None
  | None => None
  end.

(** ** The guards, as one writes them *)
Section Guards.
Variable o : opcodes.
Definition v (x : Z) : expr := Var (Z.to_nat x).
Definition dur (d : Z) : expr := Lit (VDuration d).
Definition op2 (f : Z) (x y : expr) : expr := Op (Z.to_nat f) [x; y].
Definition plus := op2 (o_add o).
Definition minus := op2 (o_sub o).
Definition fwd_op (a : arith) := op2 match a with Sum => o_add o | Product => o_mul o end.
Definition bwd_op (a : arith) := op2 match a with Sum => o_sub o | Product => o_div o end.
Definition gets (x : Z) (e : expr) : guard := Assign (Z.to_nat x) e.

(** The variables of the premise. *)
Definition q0 : Z := 0.
Definition t0 (m : mdl) : Z := if has_tpl m then 1 else after (lhs m).
Definition t1 (m : mdl) : Z := if has_tpl m then 2 else before (lhs m).

(** The forward and backward guards of each builder. *)
Definition fwd_times (m : mdl) (p : Z) : list guard :=
  [gets (after (rhs m)) (plus (v (t0 m)) (dur p)); gets (before (rhs m)) (plus (v (t1 m)) (dur p))].
Definition bwd_times (m : mdl) (p : Z) : list guard :=
  [gets (t0 m) (minus (v (after (rhs m))) (dur p)); gets (t1 m) (minus (v (before (rhs m))) (dur p))].
Definition cause_times (m : mdl) (a b : Z) : list guard :=
  [gets (after (lhs m)) (minus (v (after (rhs m))) (dur a)); gets (before (lhs m)) (minus (v (before (rhs m))) (dur b))].
Definition written (b : builder) (m : mdl) : option (list guard * list guard) :=
  let q1 := member (rhs m) in let arg := member (lhs m) in
  match b with
  | Plain => Some ([], [])
  | Timing p => Some (fwd_times m p, bwd_times m p)
  | Speed p off => Some (fwd_times m p ++ [gets q1 (plus (v q0) (op2 (o_mul o) (v arg) (dur p)))],
                         bwd_times m p ++ cause_times m off p ++ [gets arg (op2 (o_div o) (minus (v q1) (v q0)) (dur p))])
  | NoArg p off _ => Some (fwd_times m p, bwd_times m p ++ cause_times m off p)
  | Arg a p off => Some (fwd_times m p ++ [gets q1 (fwd_op a (v q0) (v arg))],
                         bwd_times m p ++ cause_times m off p ++ [gets arg (bwd_op a (v q1) (v q0))])
  | Cst a p k off => Some (fwd_times m p ++ [gets q1 (fwd_op a (v q0) (Lit (VFloat k)))],
                           bwd_times m p ++
                           [gets (after (rhs m)) (minus (v (after (rhs m))) (dur off)); gets (before (rhs m)) (minus (v (before (rhs m))) (dur p))] ++
                           [gets q0 (bwd_op a (v q1) (Lit (VFloat k)))])
  | CstArg p off (AFloat x) => Some (fwd_times m p, bwd_times m p ++ cause_times m off p ++ [gets arg (Op (Z.to_nat (o_id o)) [Lit (VFloat x)])])
  | CstArg p off (AObj h args) => Some (fwd_times m p, bwd_times m p ++ cause_times m off p ++ [gets arg (Str KObject (map (fun x => Lit (VFloat x)) args))])
  | CstArg p off AOther => None
  end.
(** The guards that the comments of guard_builder.h give (lines 102-103, 118-119, 133,
    153, 168-169, 179-180, 192, 207-208, 218-219, 229-232). *)
Definition documented (b : builder) (m : mdl) : option (list guard * list guard) :=
  let q1 := member (rhs m) in let arg := member (lhs m) in
  match b with
  | Plain | Timing _ | CstArg _ _ (AFloat _) | CstArg _ _ (AObj _ _) => written b m
  | Speed p off => Some (fwd_times m p ++ [gets q1 (plus (v q0) (op2 (o_mul o) (v arg) (dur p)))],
                         bwd_times m p ++ cause_times m off off ++ [gets arg (op2 (o_div o) (minus (v q1) (v q0)) (dur p))])
  | NoArg p off cd => Some (fwd_times m p, bwd_times m p ++
                            [gets (after (lhs m)) (minus (v (after (rhs m))) (dur off)); gets (before (lhs m)) (plus (v (after (lhs m))) (dur cd))])
  | Arg a p off => Some (fwd_times m p ++ [gets q1 (fwd_op a (v q0) (v arg))],
                         bwd_times m p ++ cause_times m p p ++ [gets arg (bwd_op a (v q1) (v q0))])
  | Cst a p k off => Some (fwd_times m p ++ [gets q1 (fwd_op a (v q0) (Lit (VFloat k)))],
                           bwd_times m p ++ cause_times m off off ++ [gets q0 (bwd_op a (v q1) (Lit (VFloat k)))])
  | CstArg p off AOther => Some (fwd_times m p, bwd_times m p ++ cause_times m off p)
  end.
End Guards.

(** ** What is given to a builder *)
Definition var_ok (x : Z) : Prop := 0 <= x < 256.
Definition pattern_ok (p : pattern) : Prop := var_ok (after p) /\ var_ok (before p) /\ var_ok (member p).
Definition op_ok (x : Z) : Prop := 0 <= x < 4096.
Definition opcodes_ok (o : opcodes) : Prop :=
  op_ok (o_add o) /\ op_ok (o_sub o) /\ op_ok (o_mul o) /\ op_ok (o_div o) /\ op_ok (o_id o) /\
  NoDup [o_add o; o_sub o; o_mul o; o_div o; o_id o].
Definition float_word (a : Z) : Prop := 0 <= a < 0x80000000.
Definition builder_ok (b : builder) (m : mdl) : Prop :=
  match b with
  | Plain => True
  | Timing p => is_i64 p
  | Speed p off | NoArg p off _ | Arg _ p off => is_i64 p /\ is_i64 off /\ has_tpl m = true
  | Cst _ p k off => is_i64 p /\ is_i64 off /\ float_word k /\ has_tpl m = true
  | CstArg p off val =>
      is_i64 p /\ is_i64 off /\ has_tpl m = true /\
      match val with
      | AFloat a => float_word a
      | AObj h args => getDescriptor h = OBJECT /\ getAtomCount h = Z.of_nat (length args) /\ Forall float_word args
      | AOther => True
      end
  end.
(** The code of the head ends at [w], after the eleven words of a model, and the guards fit
    under the limit of the pointers. *)
Definition head_ok (c : code) (w : nat) : Prop := length c = S w /\ (10 <= w)%nat /\ Z.of_nat w < 3000.
Definition mdl_ok (m : mdl) : Prop := pattern_ok (lhs m) /\ pattern_ok (rhs m).

(** ** What guards do *)
(** The operators on values: those of Op_model on the words of the values. *)
Definition words (x : val) : option code :=
  match x with
  | VFloat a => Some [a]
  | VTime t => Some (store (TimeRes t))
  | VDuration d => Some (store (DurRes d))
  | _ => None
  end.
Definition result (r : Op_model.res) : val :=
  match r with
  | Atomic a => if isFloat a then VFloat a else VAtom a
  | TimeRes t => VTime t
  | DurRes d => VDuration d
  end.
Definition operator (o : opcodes) (f : nat) : option binary :=
  if (f =? Z.to_nat (o_add o))%nat then Some Add
  else if (f =? Z.to_nat (o_sub o))%nat then Some Sub
  else if (f =? Z.to_nat (o_mul o))%nat then Some Mul
  else if (f =? Z.to_nat (o_div o))%nat then Some Div
  else None.
Definition ops (o : opcodes) (f : nat) (vs : list val) : option val :=
  match vs with
  | [x] => if (f =? Z.to_nat (o_id o))%nat then Some x else None
  | [x; y] =>
      match operator o f, words x, words y with
      | Some b, Some l, Some r =>
          match Op_model.eval b l r with Some (true, z) => Some (result z) | _ => None end
      | _, _, _ => None
      end
  | _ => None
  end.
(** Running the guards of a finished model: [slot] 3 forwards, 4 backwards.  [None]:
    the guards cannot be read, or fail. *)
Definition runs (o : opcodes) (first slot : nat) (c : code) (s : env) : option env :=
  match guards c slot with Some gs => eval_guards (ops o) first s gs | None => None end.
Definition forward o first := runs o first 3.
Definition backward o first := runs o first 4.

(** The value of a variable. *)
Definition is (s : env) (x : Z) (a : val) : Prop := s (Z.to_nat x) = Some a.
Definition same (s s' : env) (x : Z) : Prop := s' (Z.to_nat x) = s (Z.to_nat x).

(** The variables of a model are distinct; the template arguments are 0, 1, 2. *)
Definition variables (m : mdl) : list Z :=
  (if has_tpl m then [0; 1; 2] else []) ++
  [after (lhs m); before (lhs m); member (lhs m); after (rhs m); before (rhs m); member (rhs m)].
Definition distinct (m : mdl) : Prop := NoDup (variables m).

(** The time from the premise to the prediction. *)
Definition period (b : builder) : option Z :=
  match b with
  | Plain => None
  | Timing p | Speed p _ | NoArg p _ _ | Arg _ p _ | Cst _ p _ _ | CstArg p _ _ => Some p
  end.
(** The time from the cause to the prediction, where the model gives the time of the cause. *)
Definition delay (b : builder) : option Z :=
  match b with Speed _ d | NoArg _ d _ | Arg _ _ d | CstArg _ d _ => Some d | _ => None end.
(** The argument of the cause is a float or an object. *)
Definition complete (b : builder) : Prop := match b with CstArg _ _ AOther => False | _ => True end.
(** The value is that of the premise, changed by a constant. *)
Definition constant (b : builder) : bool := match b with Cst _ _ _ _ => true | _ => false end.

(** An operator applied to two values, if there are. *)
Definition two (o : opcodes) (f : Z) (x y : option val) : option val :=
  match x, y with Some x, Some y => ops o (Z.to_nat f) [x; y] | _, _ => None end.
Definition at_ (s : env) (x : Z) : option val := s (Z.to_nat x).
(** The value predicted: q0 + speed * period, q0 + argument, q0 * argument, q0 + constant,
    q0 * constant. *)
Definition valued (b : builder) : bool := match b with Speed _ _ | Arg _ _ _ | Cst _ _ _ _ => true | _ => false end.
Definition prediction (o : opcodes) (b : builder) (m : mdl) (s : env) : option val :=
  let arg := at_ s (member (lhs m)) in
  match b with
  | Speed p _ => two o (o_add o) (at_ s q0) (two o (o_mul o) arg (Some (VDuration p)))
  | Arg Sum _ _ => two o (o_add o) (at_ s q0) arg
  | Arg Product _ _ => two o (o_mul o) (at_ s q0) arg
  | Cst Sum _ k _ => two o (o_add o) (at_ s q0) (Some (VFloat k))
  | Cst Product _ k _ => two o (o_mul o) (at_ s q0) (Some (VFloat k))
  | _ => None
  end.
(** The argument of the cause, inferred from the values: (q1 - q0) / period, q1 - q0, q1 / q0,
    or always the same. *)
Definition infers (b : builder) : bool := match b with Speed _ _ | Arg _ _ _ | CstArg _ _ _ => true | _ => false end.
Definition inference (o : opcodes) (b : builder) (m : mdl) (s : env) : option val :=
  let q1 := at_ s (member (rhs m)) in
  match b with
  | Speed p _ => two o (o_div o) (two o (o_sub o) q1 (at_ s q0)) (Some (VDuration p))
  | Arg Sum _ _ => two o (o_sub o) q1 (at_ s q0)
  | Arg Product _ _ => two o (o_div o) q1 (at_ s q0)
  | CstArg _ _ (AFloat x) => Some (VFloat x)
  | CstArg _ _ (AObj _ l) => Some (VStr KObject (map VFloat l))
  | _ => None
  end.
(** Values that a variable can take. *)
Definition bindable (x : val) : Prop :=
  match x with VFloat _ | VTime _ | VDuration _ | VStr _ _ => True | _ => False end.

(** All that is given to a builder is as it should. *)
Definition setting (o : opcodes) (b : builder) (m : mdl) (c : code) (w : nat) : Prop :=
  opcodes_ok o /\ mdl_ok m /\ builder_ok b m /\ head_ok c w /\ distinct m /\ complete b.

(** The builder chosen for an observation: a target, a cause and a consequent; [action]: the
    cause is a command or the instance of a model. *)
Inductive chosen (target cause consequent : times) : builder -> Prop :=
| by_default action : chosen target cause consequent (default_builder action target cause consequent)
| by_argument tol imdl k q0 q1 b i : find_imdl tol imdl k q0 q1 target cause consequent = Some (b, i) -> chosen target cause consequent b
| by_value tol s q0 q1 b : find_mk_val tol s q0 q1 target cause consequent = Some b -> chosen target cause consequent b.
Definition within (t : times) : Prop := is_i64 (t_after t) /\ is_i64 (t_before t).

(** The instance [imdl] of a model has [n] exposed arguments after index [k], which are in its code. *)
Definition exposes (imdl : code) (k n : nat) : Prop :=
  exists h, nth_error imdl k = Some h /\ Z.to_nat (getAtomCount h) = n /\ forall i, (1 <= i <= n)%nat -> nth_error imdl (k + i) <> None.
(** The argument of rank [i] is a float, and is [x] up to the tolerance. *)
Definition shows (tol : spec_float) (imdl : code) (k i : nat) (x : spec_float) : Prop :=
  exists a, nth_error imdl (k + i) = Some a /\ isFloat a = true /\ Equal tol (num a) x = true.
