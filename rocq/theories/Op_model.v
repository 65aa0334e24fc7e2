(** Model of the operators of programs and models (r_exec/operator.cpp) on their operands,
    and of the comparison of evaluation contexts (r_exec/context.cpp).

    Simplifications: an operand is the list of the atoms from where the dereferenced
    context points; the result of an operator is returned instead of being written in
    the overlay ([store] gives the atoms written); float32 and float64 arithmetic is
    IEEE-754 rounding to nearest even, with one NaN pattern; Timestamp is a count of
    microseconds.  Not modelled: now, rnd, ln, exp, log, e10, ins, red, fvw, is_sim. *)
From Verif Require Import Base Float32 Atom_model Utils_model.

(** ** Results *)
(** setAtomicResult, setTimestampResult, setDurationResult: _context.cpp:92-110. *)
Inductive res := Atomic (a : Z) | TimeRes (t : Z) | DurRes (d : Z).
(** The atoms written: the atom patched, or the three atoms added to the value array
    (Utils::SetTimestamp, code_utils.cpp:134-138; SetDuration, utils.h:251-254). *)
Definition store (r : res) : list Z :=
  match r with
  | Atomic a => [a]
  | TimeRes t => [ATimestamp; Z.shiftr (u64 t) 32; Z.land t 0xFFFFFFFF]
  | DurRes d => [ADuration; Z.shiftr (u64 d) 32; Z.land d 0xFFFFFFFF]
  end.
(** The value returned by an operator and its result; None: undefined behaviour (a read
    out of the operand, an overflow of int64, a conversion out of the range of int64). *)
Definition out := option (bool * res).
Definition ok (r : res) : out := Some (true, r).
Definition nil_ : out := Some (false, Atomic Nil).
Definition undef : out := Some (false, Atomic UndefinedBoolean).

(** ** Numbers *)
Definition num (a : Z) : spec_float := f32_of_bits (asFloat a).
Definition flt_atom (f : spec_float) : res := Atomic (Float (bits_of_f32 f)).
(** Arithmetic on int64 counts of microseconds; None: overflow. *)
Definition in_i64 (x : Z) : option Z := if (-9223372036854775808 <=? x) && (x <? 9223372036854775808) then Some x else None.
(** (int64)f for a float32 or a float64; None: NaN, infinite, or out of range. *)
Definition trunc64 (f : spec_float) : option Z :=
  match f with
  | S754_zero _ => Some 0
  | S754_finite s m e => in_i64 (let a := if 0 <=? e then Zpos m * 2 ^ e else Zpos m / 2 ^ (- e) in if s then - a else a)
  | _ => None
  end.
(** float64. *)
Definition f64_of_Z (z : Z) : spec_float := binary_normalize 53 1024 z 0 false.
Definition f64_of_f32 (f : spec_float) : spec_float := match f with S754_finite s m e => binary_normalize 53 1024 (cond_Zopp s (Zpos m)) e s | f => f end.
Definition mul64 := SFmul 53 1024.
Definition div64 := SFdiv 53 1024.

(** ** Operators *)
Definition is_time (a : Z) : bool := getDescriptor a =? TIMESTAMP.
Definition is_dur (a : Z) : bool := getDescriptor a =? DURATION.
(** GetTimestamp(&lhs[0]), GetDuration(&lhs[0]): code_utils.cpp:129-132, utils.h:242-244. *)
Definition count (l : code) : option Z := GetInt64 l 1.
Definition with1 (x : option Z) (f : Z -> out) : out := match x with Some v => f v | None => None end.
Definition with2 (x y : option Z) (f : Z -> Z -> out) : out := with1 x (fun a => with1 y (f a)).
Definition heads (l r : code) (f : Z -> Z -> out) : out := match l, r with a :: _, b :: _ => f a b | _, _ => None end.
Definition bool_res (b : bool) : out := ok (Atomic (Boolean b)).
Definition time_in (x : Z) : out := with1 (in_i64 x) (fun v => ok (TimeRes v)).
Definition dur_in (x : Z) : out := with1 (in_i64 x) (fun v => ok (DurRes v)).

(** gtr, lsr, gte, lse: operator.cpp:248-388. *)
Definition compare_with (cf : spec_float -> spec_float -> bool) (cz : Z -> Z -> bool) (l r : code) : out :=
  heads l r (fun a b =>
    if isFloat a then if isFloat b then bool_res (cf (num a) (num b)) else undef
    else if is_time a then if is_time b then with2 (count l) (count r) (fun s t => bool_res (cz s t)) else undef
    else if is_dur a then if is_dur b then with2 (count l) (count r) (fun s t => bool_res (cz s t)) else undef
    else undef).
Definition gtr := compare_with (fun x y => flt y x) Z.gtb.
Definition lsr := compare_with flt Z.ltb.
Definition gte := compare_with (fun x y => fle y x) Z.geb.
Definition lse := compare_with fle Z.leb.
(** operator.cpp:392-463 *)
Definition add (l r : code) : out :=
  heads l r (fun a b =>
    if isFloat a then
      if isFloat b then
        if a =? PlusInfinity then ok (Atomic PlusInfinity)
        else if b =? PlusInfinity then ok (Atomic PlusInfinity)
        else ok (flt_atom (fadd (num a) (num b)))
      else if is_time b then
        if negb (a =? PlusInfinity) then with2 (count r) (trunc64 (num a)) (fun t n => time_in (t + n)) else nil_
      else if is_dur b then
        if negb (a =? PlusInfinity) then with2 (count r) (trunc64 (num a)) (fun t n => dur_in (t + n)) else nil_
      else nil_
    else if is_time a then
      if isFloat b then
        if negb (b =? PlusInfinity) then with2 (count l) (trunc64 (num b)) (fun t n => time_in (t + n)) else nil_
      else if is_dur b then with2 (count l) (count r) (fun t d => time_in (t + d))
      else nil_
    else if is_dur a then
      if is_dur b then with2 (count l) (count r) (fun t d => dur_in (t + d))
      else if is_time b then with2 (count l) (count r) (fun d t => time_in (d + t))
      else if isFloat b then
        if negb (b =? PlusInfinity) then with2 (count l) (trunc64 (num b)) (fun d n => dur_in (d + n)) else nil_
      else nil_
    else nil_).
(** operator.cpp:467-525 *)
Definition sub (l r : code) : out :=
  heads l r (fun a b =>
    if isFloat a then
      if isFloat b then
        if a =? PlusInfinity then ok (Atomic PlusInfinity)
        else if b =? PlusInfinity then ok (flt_atom fzero)
        else ok (flt_atom (fsub (num a) (num b)))
      else nil_
    else if is_time a then
      if is_time b then with2 (count l) (count r) (fun s t => dur_in (s - t))
      else if isFloat b then
        if negb (b =? PlusInfinity) then with2 (count l) (trunc64 (num b)) (fun t n => time_in (t - n)) else nil_
      else if is_dur b then with2 (count l) (count r) (fun t d => time_in (t - d))
      else nil_
    else if is_dur a then
      if is_dur b then with2 (count l) (count r) (fun s t => dur_in (s - t))
      else if isFloat b then
        if negb (b =? PlusInfinity) then with2 (count l) (trunc64 (num b)) (fun t n => dur_in (t - n)) else nil_
      else nil_
    else nil_).
(** operator.cpp:529-601 *)
Definition mul (l r : code) : out :=
  heads l r (fun a b =>
    if isFloat a then
      if isFloat b then
        let product := ok (flt_atom (fmul (num a) (num b))) in
        let second :=
          if b =? PlusInfinity then
            if flt fzero (num a) then ok (Atomic PlusInfinity) else if fle (num a) fzero then ok (flt_atom fzero) else product
          else product in
        if a =? PlusInfinity then
          if b =? PlusInfinity then ok (Atomic PlusInfinity)
          else if flt fzero (num b) then ok (Atomic PlusInfinity)
          else if fle (num b) fzero then ok (flt_atom fzero)
          else second
        else second
      else if is_dur b then
        if negb (a =? PlusInfinity) then with1 (count r) (fun d => ok (flt_atom (fmul (num a) (f32_of_Z d)))) else nil_
      else nil_
    else if is_dur a then
      if isFloat b then
        if negb (b =? PlusInfinity) then
          with1 (count l) (fun d => with1 (trunc64 (mul64 (f64_of_Z d) (f64_of_f32 (num b)))) (fun n => ok (DurRes n)))
        else nil_
      else if is_dur b then with2 (count l) (count r) (fun s t => ok (flt_atom (fmul (f32_of_Z s) (f32_of_Z t))))
      else nil_
    else nil_).
(** operator.cpp:605-680 *)
Definition div (l r : code) : out :=
  heads l r (fun a b =>
    if isFloat a then
      if isFloat b then
        if negb (feqb (num b) fzero) then
          let quotient := ok (flt_atom (fdiv (num a) (num b))) in
          let second :=
            if b =? PlusInfinity then
              if flt fzero (num a) then ok (Atomic PlusInfinity) else if fle (num a) fzero then ok (flt_atom fzero) else quotient
            else quotient in
          if a =? PlusInfinity then
            if b =? PlusInfinity then ok (Atomic PlusInfinity)
            else if flt fzero (num b) then ok (Atomic PlusInfinity)
            else if fle (num b) fzero then ok (flt_atom fzero)
            else second
          else second
        else nil_
      else if is_dur b then
        if negb (a =? PlusInfinity) then with1 (count r) (fun d => ok (flt_atom (fdiv (num a) (f32_of_Z d)))) else nil_
      else nil_
    else if is_dur a then
      if isFloat b then
        if negb (b =? PlusInfinity) then
          with1 (count l) (fun d => with1 (trunc64 (div64 (f64_of_Z d) (f64_of_f32 (num b)))) (fun n => ok (DurRes n)))
        else nil_
      else if is_dur b then with2 (count l) (count r) (fun s t => ok (flt_atom (fdiv (f32_of_Z s) (f32_of_Z t))))
      else nil_
    else nil_).
(** operator.cpp:684-713 *)
Definition dis (l r : code) : out :=
  heads l r (fun a b =>
    if isFloat a then if isFloat b then ok (flt_atom (SFabs (fsub (num a) (num b)))) else nil_
    else if is_time a then if is_time b then with2 (count l) (count r) (fun s t => with1 (in_i64 (s - t)) (fun x => dur_in (Z.abs x))) else nil_
    else if is_dur a then if is_dur b then with2 (count l) (count r) (fun s t => with1 (in_i64 (s - t)) (fun x => dur_in (Z.abs x))) else nil_
    else nil_).
(** std::min and std::max on float32. *)
Definition fmin (x y : spec_float) : spec_float := if flt y x then y else x.
Definition fmax (x y : spec_float) : spec_float := if flt x y then y else x.
(** operator.cpp:831-864 *)
Definition minimum (l r : code) : out :=
  heads l r (fun a b =>
    if isFloat a && isFloat b then
      if (a =? MinusInfinity) || (b =? MinusInfinity) then ok (Atomic MinusInfinity)
      else if a =? PlusInfinity then ok (flt_atom (num b))
      else if b =? PlusInfinity then ok (flt_atom (num a))
      else ok (flt_atom (fmin (num a) (num b)))
    else if is_time a && is_time b then with2 (count l) (count r) (fun s t => ok (TimeRes (if t <? s then t else s)))
    else if is_dur a && is_dur b then with2 (count l) (count r) (fun s t => ok (DurRes (if t <? s then t else s)))
    else nil_).
(** operator.cpp:866-899 *)
Definition maximum (l r : code) : out :=
  heads l r (fun a b =>
    if isFloat a && isFloat b then
      if (a =? PlusInfinity) || (b =? PlusInfinity) then ok (Atomic PlusInfinity)
      else if a =? MinusInfinity then ok (flt_atom (num b))
      else if b =? MinusInfinity then ok (flt_atom (num a))
      else ok (flt_atom (fmax (num a) (num b)))
    else if is_time a && is_time b then with2 (count l) (count r) (fun s t => ok (TimeRes (if s <? t then t else s)))
    else if is_dur a && is_dur b then with2 (count l) (count r) (fun s t => ok (DurRes (if s <? t then t else s)))
    else nil_).

Inductive binary := Gtr | Lsr | Gte | Lse | Add | Sub | Mul | Div | Dis | Min | Max.
Definition eval (o : binary) : code -> code -> out :=
  match o with
  | Gtr => gtr | Lsr => lsr | Gte => gte | Lse => lse | Add => add | Sub => sub | Mul => mul | Div => div | Dis => dis | Min => minimum | Max => maximum
  end.

(** OpContext::build_and_evaluate_expression (operator.cpp:114-142) on two float atoms
    [q0] and [q1]: the atoms of the result; the expression evaluated otherwise is
    (op q1 q0).  [None]: undefined behaviour. *)
Definition build_and_evaluate (o : binary) (q0 q1 : Z) : option (list Z) :=
  let x0 := num q0 in let x1 := num q1 in
  match o with
  | Gtr => Some [Boolean (flt x0 x1)]
  | Lsr => Some [Boolean (flt x1 x0)]
  | Gte => Some [Boolean (fle x0 x1)]
  | Lse => Some [Boolean (fle x1 x0)]
  | Add => Some (store (flt_atom (fadd x1 x0)))
  | Sub => Some (store (flt_atom (fsub x1 x0)))
  | Mul => Some (store (flt_atom (fmul x1 x0)))
  | Div => if feqb x0 fzero then Some [] else Some (store (flt_atom (fdiv x1 x0)))
  | o => match eval o [q1] [q0] with Some (_, r) => Some (store r) | None => None end
  end.

(** ** Contexts and their comparison *)
(** Where a context points: in the code being evaluated, in a referenced object (code
    number [k] of the memory), or in the value array; and the index. *)
Inductive place := Stem | Ref (k : nat) | Val.
Record ctx := mkctx { at_ : place; idx : nat }.
(** The code, the value array, the codes of the objects, the object numbers of the
    references of the code and of the objects, and of the inputs. *)
Record mem := mkmem { stem : code; values : code; objects : list code; stem_refs : list nat; object_refs : nat -> list nat; inputs : list nat }.
Definition array (m : mem) (p : place) : option code := match p with Stem => Some (stem m) | Val => Some (values m) | Ref k => nth_error (objects m) k end.
Definition atom_at (m : mem) (c : ctx) : option Z := match array m (at_ c) with Some a => nth_error a (idx c) | None => None end.
(** context.cpp:176-251; None: an access out of bounds, a value or input pointer in an
    object (which has no overlay: a null dereference), a pointer chain longer than
    [fuel], or a kind of pointer that is not modelled (code variable, chain pointer, this,
    view, markers, views, program, indirect input and production pointers). *)
Fixpoint dereference (fuel : nat) (m : mem) (c : ctx) : option ctx :=
  match fuel, atom_at m c with
  | O, _ => None
  | _, None => None
  | S f, Some a =>
      let d := getDescriptor a in
      if d =? I_PTR then dereference f m (mkctx (at_ c) (Z.to_nat (asIndex a)))
      else if d =? R_PTR then
        match nth_error (match at_ c with Ref k => object_refs m k | _ => stem_refs m end) (Z.to_nat (asIndex a)) with Some k => Some (mkctx (Ref k) 0) | None => None end
      else if d =? VALUE_PTR then match at_ c with Ref _ => None | _ => Some (mkctx Val (Z.to_nat (asIndex a))) end
      else if d =? IN_OBJ_PTR then
        match at_ c, nth_error (inputs m) (Z.to_nat (asInputIndex a)) with
        | Ref _, _ | _, None => None
        | _, Some k => dereference f m (mkctx (Ref k) (Z.to_nat (asIndex a)))
        end
      else if (d =? CODE_VL_PTR) || (d =? C_PTR) || (d =? THIS) || (d =? VIEW) || (d =? MKS) || (d =? VWS) || (d =? IPGM_PTR) || (d =? D_IN_OBJ_PTR) || (d =? PROD_PTR) then None
      else Some c
  end.
(** get_child, context.h:398-404. *)
Definition child (c : ctx) (i : nat) : ctx := mkctx (at_ c) (idx c + i).
(** operator ==, context.cpp:97-118. *)
Fixpoint equal (fuel : nat) (m : mem) (c d : ctx) : option bool :=
  match fuel with
  | O => None
  | S f =>
      match dereference fuel m c, dereference fuel m d with
      | Some l, Some r =>
          match at_ l, idx l, at_ r, idx r with
          | Ref i, O, Ref j, O => Some (Nat.eqb i j)
          | _, _, _, _ =>
              match atom_at m l, atom_at m r with
              | Some a, Some b =>
                  if negb (a =? b) then Some false
                  else if isStructural a then
                    (fix loop (i n : nat) : option bool :=
                       match n with
                       | O => Some true
                       | S n' =>
                           match dereference f m (child l i), dereference f m (child r i) with
                           | Some x, Some y => match equal f m x y with Some true => loop (S i) n' | z => z end
                           | _, _ => None
                           end
                       end) 1%nat (Z.to_nat (getAtomCount a))
                  else Some true
              | _, _ => None
              end
          end
      | _, _ => None
      end
  end.
(** equ and neq, operator.cpp:227-244, on the children of a context. *)
Definition equ (fuel : nat) (m : mem) (c : ctx) : option (bool * res) :=
  match dereference fuel m (child c 1), dereference fuel m (child c 2) with
  | Some l, Some r => match equal fuel m l r with Some b => ok (Atomic (Boolean b)) | None => None end
  | _, _ => None
  end.
Definition neq (fuel : nat) (m : mem) (c : ctx) : option (bool * res) :=
  match dereference fuel m (child c 1), dereference fuel m (child c 2) with
  | Some l, Some r => match equal fuel m l r with Some b => ok (Atomic (Boolean (negb b))) | None => None end
  | _, _ => None
  end.
