(** Model of the operators on vectors (usr_operators/Operators/operators.cpp), of the choice
    between an operator and its overload (r_exec/operator.h:200-206), of how results are
    written (r_exec/_context.cpp:92-123, operator.h:136-170) and of the expressions that are
    evaluated when models are learned (operator.cpp:114-193).

    Simplifications: contexts are those of models (hlp_context.cpp); the operands were
    evaluated (hlp_context.cpp:157-170); arithmetic on float32 is IEEE-754 rounding to
    nearest even; the square root and the functions on quaternions are parameters. *)
From Verif Require Import Base Float32 Atom_model Op_model Bp_model.
Local Open Scope nat_scope.

(** * Memory *)

(** Where a context points: the code of the model or of the expression; the array of values
    of the overlay, at one of its addresses; the code of the value of a variable
    (hlp_context.cpp:122-138). *)
Inductive room := Code | Values (address : nat) | Bound (variable : nat).
Record context := mkc { inside : room; at_ : nat }.

(** The code; the array of values, its capacity and its address: std::vector::push_back on a
    full vector moves it. *)
Record memory := mkm { code_ : nat -> option Z; cells : list Z; capacity : nat; address_ : nat }.

Section Operators.
(** The capacity after a move; the code of the values of variables. *)
Context (grown : nat -> nat) (bound : nat -> nat -> option Z).

(** [Atom &operator [](uint16 i)].  [None]: no such word, or memory that was freed. *)
Definition fetch (m : memory) (c : context) : option Z :=
  match inside c with
  | Code => code_ m (at_ c)
  | Values a => if a =? address_ m then nth_error (cells m) (at_ c) else None
  | Bound x => bound x (at_ c)
  end.

(** HLPContext::dereference, hlp_context.cpp:122-138.  [None]: more pointers than [fuel]. *)
Fixpoint dereference (fuel : nat) (m : memory) (c : context) : option context :=
  match fuel with
  | 0 => None
  | S fuel =>
      match fetch m c with
      | None => None
      | Some w =>
          if (getDescriptor w =? I_PTR)%Z then dereference fuel m (mkc (inside c) (place w))
          else if (getDescriptor w =? VL_PTR)%Z then dereference fuel m (mkc (Bound (place w)) 0)
          else if (getDescriptor w =? VALUE_PTR)%Z then dereference fuel m (mkc (Values (address_ m)) (place w))
          else Some c
      end
  end.
(** operator.h:106-107 *)
Definition child (c : context) (i : nat) : context := mkc (inside c) (at_ c + i).

(** * Results *)

(** The memory, and the results kept by an [OpContext]. *)
Record state := mks { mem : memory; results : list Z }.
(** [expr]: the code of the expression is not that of the overlay, and the results are kept
    (operator.cpp:176-193).  [here]: the index of the expression. *)
Context (expr : bool) (here : nat).

(** Overlay::patch_code. *)
Definition patch (a : Z) (m : memory) : memory :=
  if expr then m else mkm (fun i => if i =? here then Some a else code_ m i) (cells m) (capacity m) (address_ m).
Definition push (a : Z) (m : memory) : memory :=
  if length (cells m) <? capacity m then mkm (code_ m) (cells m ++ [a]) (capacity m) (address_ m)
  else mkm (code_ m) (cells m ++ [a]) (grown (capacity m)) (S (address_ m)).
Definition keep (a : Z) (l : list Z) : list Z := if expr then l ++ [a] else l.
(** _context.cpp:92-95, operator.h:148-151. *)
Definition set_atomic (a : Z) (s : state) : state := mks (patch a (mem s)) (keep a (results s)).
(** _context.cpp:120-123, operator.h:169-172. *)
Definition add_part (a : Z) (s : state) : state := mks (push a (mem s)) (keep a (results s)).
(** _context.cpp:112-118, operator.h:164-168: when results are kept, the head is added to the
    array twice. *)
Definition set_head (a : Z) (s : state) : state * nat :=
  let v := length (cells (mem s)) in
  let m := push a (patch (ValuePointer (Z.of_nat v)) (mem s)) in
  (if expr then add_part a (mks m (results s)) else mks m (results s), v).
Fixpoint add_parts (l : list Z) (s : state) : state := match l with [] => s | a :: l => add_parts l (add_part a s) end.
(** _context.cpp:97-110, operator.h:152-163. *)
Definition set_result (r : res) (s : state) : state :=
  match r with
  | Atomic a => set_atomic a s
  | _ => let m := patch (ValuePointer (Z.of_nat (length (cells (mem s))))) (mem s) in
         add_parts (store r) (mks m (results s))
  end.

(** * Operators *)
Context (vec3 vec2 vec quat : Z) (fuel : nat).
(** The results of the functions on floats, as bits. *)
Definition on_bits (f : spec_float -> spec_float -> spec_float) (a b : Z) : Z := bits_of_f32 (f (f32_of_bits a) (f32_of_bits b)).
Context (root : Z -> Z) (product quotient : list Z -> list Z -> list Z) (angle : list Z -> list Z -> Z).

(** [( *c.get_child(i))[0]] *)
Definition word_of (m : memory) (c : context) (i : nat) : option Z :=
  match dereference fuel m (child c i) with Some d => fetch m d | None => None end.
Definition number (m : memory) (c : context) (i : nat) : option Z :=
  match word_of m c i with Some w => Some (asFloat w) | None => None end.

(** addCompoundResultPart for the components from [i], [n] of them. *)
Fixpoint parts (f : state -> nat -> option Z) (i n : nat) (s : state) : option state :=
  match n with
  | 0 => Some s
  | S n => match f s i with Some x => parts f (S i) n (add_part (Float x) s) | None => None end
  end.
Definition pairwise (f : Z -> Z -> Z) (l r : context) (s : state) (i : nat) : option Z :=
  match number (mem s) l i, number (mem s) r i with Some x, Some y => Some (f x y) | _, _ => None end.
Definition scaled (f : Z -> Z) (c : context) (s : state) (i : nat) : option Z :=
  match number (mem s) c i with Some x => Some (f x) | None => None end.

(** A vector with [n] components of its own. *)
Definition flat (op : Z) (n : nat) (f : state -> nat -> option Z) (s : state) : option state :=
  parts f 1 n (fst (set_head (AObject op (Z.of_nat n)) s)).
(** A vector of any dimension, operators.cpp:125-141. *)
Definition long (n : nat) (f : state -> nat -> option Z) (s : state) : option state :=
  let (s, v) := set_head (AObject vec 1) s in
  parts f 1 n (add_part (ASet (Z.of_nat n)) (add_part (IPointer (Z.of_nat (2 + v))) s)).
Definition nil_result (s : state) : option (bool * state) := Some (false, set_atomic Nil s).
Definition done (o : option state) : option (bool * state) := match o with Some s => Some (true, s) | None => None end.

(** get_children_count of the dereferenced first child. *)
Definition values_of (m : memory) (c : context) : option (context * nat) :=
  match dereference fuel m (child c 1) with
  | Some d => match fetch m d with Some w => Some (d, count w) | None => None end
  | None => None
  end.
(** The four components of a quaternion. *)
Definition four (m : memory) (c : context) : option (list Z) :=
  match number m c 1, number m c 2, number m c 3, number m c 4 with
  | Some a, Some b, Some c, Some d => Some [a; b; c; d] | _, _, _, _ => None end.

Definition is (op w : Z) : bool := (asOpcode w =? op)%Z.

(** add and sub, operators.cpp:102-154, 158-209. *)
Definition sum (f : Z -> Z -> Z) (c : context) (s : state) : option (bool * state) :=
  match dereference fuel (mem s) (child c 1), dereference fuel (mem s) (child c 2) with
  | Some l, Some r =>
      match fetch (mem s) l, fetch (mem s) r with
      | Some a, Some b =>
          let quaternions :=
            if (is quat a && is quat b)%bool then
              match flat quat 4 (pairwise f l r) s with Some s => nil_result s | None => None end
            else nil_result s in
          if (is vec3 a && is vec3 b)%bool then done (flat vec3 3 (pairwise f l r) s)
          else if (is vec2 a && is vec2 b)%bool then done (flat vec2 2 (pairwise f l r) s)
          else if (is vec a && is vec b)%bool then
            match values_of (mem s) l, values_of (mem s) r with
            | Some (lv, n), Some (rv, k) =>
                if n =? k then done (long k (pairwise f lv rv) s) else quaternions
            | _, _ => None
            end
          else quaternions
      | _, _ => None
      end
  | _, _ => None
  end.

(** The vector [c] with head [a] and [f] of each component. *)
Definition each (f : Z -> Z) (a : Z) (c : context) (s : state) (otherwise : option (bool * state)) : option (bool * state) :=
  if is vec3 a then done (flat vec3 3 (scaled f c) s)
  else if is vec2 a then done (flat vec2 2 (scaled f c) s)
  else if is vec a then
    match values_of (mem s) c with Some (v, n) => done (long n (scaled f v) s) | None => None end
  else otherwise.
Definition quaternion (f : list Z -> list Z -> list Z) (l r : context) (s : state) : option (bool * state) :=
  match four (mem s) l, four (mem s) r with
  | Some p, Some q => let (s, _) := set_head (AObject quat 4) s in Some (true, add_parts (map Float (f p q)) s)
  | _, _ => None
  end.

(** mul, operators.cpp:213-315. *)
Definition user_mul (c : context) (s : state) : option (bool * state) :=
  match dereference fuel (mem s) (child c 1), dereference fuel (mem s) (child c 2) with
  | Some l, Some r =>
      match fetch (mem s) l, fetch (mem s) r with
      | Some a, Some b =>
          if isFloat a then each (fun x => on_bits fmul (asFloat a) x) b r s (nil_result s)
          else if (is vec3 a || is vec2 a || is vec a)%bool then
            if isFloat b then each (fun x => on_bits fmul x (asFloat b)) a l s (nil_result s) else nil_result s
          else if (is quat a && is quat b)%bool then quaternion product l r s
          else nil_result s
      | _, _ => None
      end
  | _, _ => None
  end.

(** div, operators.cpp:319-393. *)
Definition user_div (c : context) (s : state) : option (bool * state) :=
  match dereference fuel (mem s) (child c 1), dereference fuel (mem s) (child c 2) with
  | Some l, Some r =>
      match fetch (mem s) l, fetch (mem s) r with
      | Some a, Some b =>
          if (is vec3 a || is vec2 a || is vec a)%bool then
            if (isFloat b && negb (feqb (num b) fzero))%bool
            then each (fun x => on_bits fdiv x (asFloat b)) a l s (nil_result s) else nil_result s
          else if (is quat a && is quat b)%bool then quaternion quotient l r s
          else nil_result s
      | _, _ => None
      end
  | _, _ => None
  end.

(** The sum of the squares of the differences of [n] components from [i]. *)
Fixpoint squares (m : memory) (l r : context) (i n : nat) (acc : Z) : option Z :=
  match n with
  | 0 => Some acc
  | S n =>
      match number m l i, number m r i with
      | Some x, Some y => let d := on_bits fsub x y in squares m l r (S i) n (on_bits fadd acc (on_bits fmul d d))
      | _, _ => None
      end
  end.
(** [d1 * d1 + d2 * d2 + ...]: from the first square on. *)
Definition norm2 (m : memory) (l r : context) (n : nat) : option Z :=
  match number m l 1, number m r 1 with
  | Some x, Some y => let d := on_bits fsub x y in squares m l r 2 (n - 1) (on_bits fmul d d)
  | _, _ => None
  end.
Definition distance (o : option Z) (s : state) : option (bool * state) :=
  match o with Some x => Some (true, set_atomic (Float (root x)) s) | None => None end.

(** dis, operators.cpp:397-462. *)
Definition user_dis (c : context) (s : state) : option (bool * state) :=
  match dereference fuel (mem s) (child c 1), dereference fuel (mem s) (child c 2) with
  | Some l, Some r =>
      match fetch (mem s) l, fetch (mem s) r with
      | Some a, Some b =>
          let quaternions :=
            if (is quat a && is quat b)%bool then
              match four (mem s) l, four (mem s) r with
              | Some p, Some q => nil_result (set_atomic (Float (angle p q)) s) | _, _ => None end
            else nil_result s in
          if (is vec3 a && is vec3 b)%bool then distance (norm2 (mem s) l r 3) s
          else if (is vec2 a && is vec2 b)%bool then distance (norm2 (mem s) l r 2) s
          else if (is vec a && is vec b)%bool then
            match values_of (mem s) l, values_of (mem s) r with
            | Some (lv, n), Some (rv, k) =>
                if n =? k then distance (squares (mem s) lv rv 1 n 0) s else quaternions
            | _, _ => None
            end
          else quaternions
      | _, _ => None
      end
  | _, _ => None
  end.

(** The operators of the executive on these contexts: the words of an operand from where it
    is (C20). *)
Definition words_at (m : memory) (c : context) : list Z :=
  match fetch m c, fetch m (child c 1), fetch m (child c 2) with
  | Some a, Some b, Some c => [a; b; c] | Some a, _, _ => [a] | None, _, _ => [] end.
Definition standard (f : list Z -> list Z -> out) (c : context) (s : state) : option (bool * state) :=
  match dereference fuel (mem s) (child c 1), dereference fuel (mem s) (child c 2) with
  | Some l, Some r =>
      match f (words_at (mem s) l) (words_at (mem s) r) with
      | Some (b, x) => Some (b, set_result x s)
      | None => None
      end
  | _, _ => None
  end.

(** Operator::operator (), operator.h:200-206. *)
Definition operate (f : list Z -> list Z -> out) (overload : context -> state -> option (bool * state)) (c : context) (s : state) : option (bool * state) :=
  match standard f c s with
  | Some (true, s) => Some (true, s)
  | Some (false, s) => overload c s
  | None => None
  end.
Inductive oper := Plus | Minus | Times | Over | Distance.
Definition std_of (o : oper) : list Z -> list Z -> out :=
  match o with Plus => Op_model.add | Minus => Op_model.sub | Times => Op_model.mul | Over => Op_model.div | Distance => Op_model.dis end.
Definition user_of (o : oper) : context -> state -> option (bool * state) :=
  match o with
  | Plus => sum (on_bits fadd) | Minus => sum (on_bits fsub) | Times => user_mul | Over => user_div | Distance => user_dis
  end.
Definition apply_op (o : oper) : context -> state -> option (bool * state) := operate (std_of o) (user_of o).
End Operators.

(** * Expressions on two facts *)

(** build_expression_object, operator.cpp:144-174.  [q0], [q1]: the codes of the two markers,
    [v0], [v1] their values; the words not written are undefined atoms. *)
Definition build_expression (fuel : nat) (op : Z) (q0 q1 : Bp_model.mem) (v0 v1 : Z) : option Bp_model.mem :=
  let e := write (fun _ => UndefinedAtom) 0 op in
  let one (src : Bp_model.mem) (v : Z) : Bp_model.mem * nat := if (getDescriptor v =? I_PTR)%Z then (src, place v) else (fun i => if i =? 0 then v else UndefinedAtom, 0) in
  let (e, ext) := if (getDescriptor v1 =? I_PTR)%Z then (write e 1 (ptr 3), 3) else (e, 1) in
  let (src, si) := one q1 v1 in
  match copy_structure fuel src e ext si with
  | None => None
  | Some (e, ext) =>
      let e := if (getDescriptor v0 =? I_PTR)%Z then write e 2 (ptr ext) else e in
      let (src, si) := one q0 v0 in
      match copy_structure fuel src e ext si with Some (e, _) => Some e | None => None end
  end.
(** evaluate_expression, operator.cpp:176-193: the results kept. *)
Definition evaluate_expression (grown : nat -> nat) (vec3 vec2 vec quat : Z) (fuel : nat) root product quotient angle (o : oper) (e : Bp_model.mem) : option (list Z) :=
  let s := mks (mkm (fun i => Some (e i)) [] 0 0) [] in
  match apply_op grown (fun _ _ => None) true 0 vec3 vec2 vec quat fuel root product quotient angle o (mkc Code 0) s with
  | Some (_, s) => Some (results s)
  | None => None
  end.
(** build_and_evaluate_expression, operator.cpp:114-142; the comparisons are left out.
    [op]: the operator atom. *)
Definition build_and_evaluate (grown : nat -> nat) (vec3 vec2 vec quat : Z) (fuel : nat) root product quotient angle (o : oper) (op : Z) (q0 q1 : Bp_model.mem) (v0 v1 : Z) : option (list Z) :=
  let general :=
    match build_expression fuel op q0 q1 v0 v1 with
    | Some e => evaluate_expression grown vec3 vec2 vec quat fuel root product quotient angle o e
    | None => None
    end in
  if (isFloat v0 && isFloat v1)%bool then
    let number f := Some [Float (on_bits f (asFloat v1) (asFloat v0))] in
    match o with
    | Plus => number fadd | Minus => number fsub | Times => number fmul
    | Over => if feqb (num v0) fzero then Some [] else number fdiv
    | Distance => general
    end
  else general.
(** pattern_extractor.cpp:1196-1210: the first result that is not nil, and what follows. *)
Fixpoint found_result (l : list Z) : list Z := match l with [] => [] | a :: r => if (a =? Nil)%Z then found_result r else l end.
