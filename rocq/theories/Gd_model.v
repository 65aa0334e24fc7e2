(* Guards of models and composite states: evaluation and scanning.
   Sources: r_exec/hlp_overlay.cpp, r_exec/hlp_context.cpp,
   r_exec/binding_map.cpp, r_exec/_context.cpp. *)

From Coq Require Import List ZArith Bool Arith.
Import ListNotations.

(* The structures a guard may hold literally: an object such as
   (vec3 1 2 3), or any other structural atom, a set for instance
   (r_exec/hlp_context.cpp:176-186). *)
Inductive kind := KObject | KSet.

(* Values.  VFloat: a float atom; VBool: a boolean atom; VAtom: any other
   one-word atom (r_code/atom.h).  VTime, VDuration: a TIMESTAMP or DURATION
   structure; VStr: another structure.  VHole: a variable pointer found inside
   a structure.  VLost: a pointer into the array of results of the overlay,
   found inside a structure that outlives the overlay. *)
Inductive val :=
  | VFloat (z : Z)
  | VBool (b : bool)
  | VAtom (a : Z)
  | VTime (t : Z)
  | VDuration (d : Z)
  | VStr (k : kind) (args : list val)
  | VHole (x : nat)
  | VLost.

(* Expressions of a guard.  In the code each operator and each literal has its
   own place in code_, reached by an I_PTR; here, trees.  Simplified: the
   operators write their result over their own place (r_exec/_context.cpp:92-123),
   and are not evaluated twice; here they are evaluated afresh each time. *)
Inductive expr :=
  | Var (x : nat)
  | Lit (v : val)
  | Op (f : nat) (args : list expr)
  | Str (k : kind) (args : list expr).

(* A guard: an expression (I_PTR) or an assignment (ASSIGN_PTR).  The compiler
   writes no other form: r_comp/compiler.cpp:1692-1702. *)
Inductive guard :=
  | Test (e : expr)
  | Assign (x : nat) (e : expr).

(* The bindings of an HLPBindingMap: value per variable, None when
   map_[id]->get_code() is NULL (r_exec/binding_map.cpp:888-891). *)
Definition env := nat -> option val.

Definition set (s : env) (x : nat) (v : val) : env :=
  fun y => if Nat.eqb y x then Some v else s y.

(* All the elements, or nothing. *)
Fixpoint all_some {A} (l : list (option A)) : option (list A) :=
  match l with
  | [] => Some []
  | None :: _ => None
  | Some a :: l => match all_some l with Some r => Some (a :: r) | None => None end
  end.

Section Ops.
(* The operators: result for the operator and its arguments, None when the
   operator returns false (r_exec/hlp_context.cpp:172-175). *)
Variable ops : nat -> list val -> option val.
(* The number of template arguments: first_index_ of the map
   (r_exec/binding_map.cpp:1000). *)
Variable first : nat.

(* r_exec/hlp_context.cpp:122-198, for what is not an assignment: a variable
   evaluates if bound (127-132, 143-147), an operator if its arguments and the
   operator itself do (163-175), a structure if its parts do (176-194), and any
   other atom always does. *)
Fixpoint eval (s : env) (e : expr) : option val :=
  match e with
  | Var x => s x
  | Lit v => Some v
  | Op f args =>
      match all_some (map (eval s) args) with
      | Some vs => ops f vs
      | None => None
      end
  | Str k args =>
      match all_some (map (eval s) args) with
      | Some vs => Some (VStr k vs)
      | None => None
      end
  end.

(* r_exec/binding_map.cpp:242-259: copying a structure of the code follows
   I_PTRs only.  A variable is copied as a pointer; an operator has been
   replaced by its result, which is an atom or a VALUE_PTR. *)
Fixpoint copied (s : env) (e : expr) : val :=
  match e with
  | Var x => VHole x
  | Lit v => v
  | Op _ _ =>
      match eval s e with
      | Some (VFloat z) => VFloat z
      | Some (VBool b) => VBool b
      | Some (VAtom a) => VAtom a
      | _ => VLost
      end
  | Str k args => VStr k (map (copied s) args)
  end.

(* The value given to the variable of an assignment, None when it is left as it
   was: r_exec/binding_map.cpp:872-886.  An operator has been replaced by its
   result: a float is bound; a structure is found through a VALUE_PTR and is
   bound; no other atom is.  A literal object is copied; another literal is not
   bound. *)
Definition assigned (s : env) (e : expr) : option val :=
  match e with
  | Var _ => None
  | Lit (VFloat z) => Some (VFloat z)
  | Lit _ => None
  | Op _ _ =>
      match eval s e with
      | Some (VFloat z) => Some (VFloat z)
      | Some (VTime t) => Some (VTime t)
      | Some (VDuration d) => Some (VDuration d)
      | Some (VStr k l) => Some (VStr k l)
      | _ => None
      end
  | Str KObject _ => Some (copied s e)
  | Str KSet _ => None
  end.

(* Does the expression of an assignment evaluate?  r_exec/hlp_context.cpp:153-154:
   without dereferencing, so a variable alone always does. *)
Definition evaluates (s : env) (e : expr) : bool :=
  match e with
  | Var _ => true
  | _ => match eval s e with Some _ => true | None => false end
  end.

(* BindingMap::scan_variable, r_exec/binding_map.cpp:898-903. *)
Definition counted_bound (s : env) (x : nat) : bool :=
  Nat.ltb x first || match s x with Some _ => true | None => false end.

(* One guard.  Test: r_exec/hlp_overlay.cpp:141-145.  Assignment:
   r_exec/hlp_context.cpp:151-162. *)
Definition eval_guard (s : env) (g : guard) : option env :=
  match g with
  | Test e =>
      match eval s e with
      | Some (VBool false) => None
      | Some _ => Some s
      | None => None
      end
  | Assign x e =>
      if evaluates s e then
        match assigned s e with
        | Some v => Some (set s x v)
        | None => Some s
        end
      else if counted_bound s x then Some s
      else None
  end.

(* HLPOverlay::evaluate_guards, r_exec/hlp_overlay.cpp:133-148.  The bindings
   reached when it returns true, None when it returns false. *)
Fixpoint eval_guards (s : env) (gs : list guard) : option env :=
  match gs with
  | [] => Some s
  | g :: gs => match eval_guard s g with Some s => eval_guards s gs | None => None end
  end.

(* The place and expression of the first guard that assigns x:
   r_exec/hlp_overlay.cpp:280-286.  i is the place of the first guard of gs. *)
Fixpoint first_assign (gs : list guard) (x i : nat) : option (nat * expr) :=
  match gs with
  | [] => None
  | Assign y e :: gs => if Nat.eqb y x then Some (i, e) else first_assign gs x (S i)
  | Test _ :: gs => first_assign gs x (S i)
  end.

(* HLPOverlay::scan_location, r_exec/hlp_overlay.cpp:249-274; [var] answers for
   a variable.  The children of an operator are scanned until one fails;
   structures are not looked into (271-272).  None: does not return. *)
Fixpoint scan_location (var : nat -> option bool) (e : expr) : option bool :=
  match e with
  | Var x => var x
  | Op _ args =>
      fold_right (fun e r => match scan_location var e with
                             | Some true => r
                             | a => a
                             end) (Some true) args
  | _ => Some true
  end.

(* HLPOverlay::scan_variable, r_exec/hlp_overlay.cpp:276-297, and the case of a
   variable in scan_location (257-261).  n bounds the number of nested calls;
   None: not finished within n. *)
Fixpoint scan_variable (s : env) (gs : list guard) (n parent x : nat) : option bool :=
  if counted_bound s x then Some true else
  match first_assign gs x 1 with
  | None => Some false
  | Some (j, e) =>
      if Nat.eqb j parent then Some false
      else match n with
           | O => None
           | S n => scan_location (scan_variable s gs n j) e
           end
  end.

(* HLPOverlay::scan_bwd_guards, r_exec/hlp_overlay.cpp:226-247; all: every guard
   of the set; gs: the guards left, the first one at place i. *)
Fixpoint scan_from (s : env) (all : list guard) (n : nat) (gs : list guard) (i : nat)
  : option bool :=
  match gs with
  | [] => Some true
  | Test e :: gs =>
      match scan_location (scan_variable s all n i) e with
      | Some true => scan_from s all n gs (S i)
      | a => a
      end
  | Assign x e :: gs =>
      match scan_location (scan_variable s all n i) e with
      | Some true => scan_from s all n gs (S i)
      | Some false => if counted_bound s x then scan_from s all n gs (S i) else Some false
      | None => None
      end
  end.

Definition scan_guards (s : env) (n : nat) (gs : list guard) : option bool :=
  scan_from s gs n gs 1.

(* The last guard that assigns x: r_exec/hlp_overlay.cpp:176-188. *)
Fixpoint last_assign (gs : list guard) (x : nat) : option expr :=
  match gs with
  | [] => None
  | Assign y e :: gs =>
      match last_assign gs x with
      | Some e => Some e
      | None => if Nat.eqb y x then Some e else None
      end
  | Test _ :: gs => last_assign gs x
  end.

(* has_fwd_after, has_fwd_before: r_exec/binding_map.h:327-332. *)
Definition has_time (s : env) (x : nat) : bool :=
  match s x with Some (VTime _) => true | _ => false end.

(* HLPOverlay::evaluate on the guard found: r_exec/hlp_overlay.cpp:160-164. *)
Definition eval_found (s : env) (gs : list guard) (x : nat) : option env :=
  match last_assign gs x with
  | Some e => eval_guard s (Assign x e)
  | None => None
  end.

(* The second half of evaluate_fwd_timings: r_exec/hlp_overlay.cpp:214-223. *)
Definition fwd_after_part (s : env) (gs : list guard) (after : nat) : option env :=
  if has_time s after then Some s else eval_found s gs after.

(* HLPOverlay::evaluate_fwd_timings, r_exec/hlp_overlay.cpp:166-224; [after] and
   [before] are the variables of the forward timings. *)
Definition fwd_timings (s : env) (gs : list guard) (after before : nat) : option env :=
  if has_time s before then fwd_after_part s gs after
  else
    match last_assign gs before with
    | None => None
    | Some _ =>
        match eval_found s gs before with
        | Some s1 => fwd_after_part s1 gs after
        | None =>
            match eval_found s gs after with
            | None => None
            | Some s1 =>
                match eval_found s1 gs before with
                | None => None
                | Some s2 => fwd_after_part s2 gs after
                end
            end
        end
    end.
End Ops.
