(** Model of how the patterns of a program meet an input, and of what their variables denote
    after that: r_exec/context.cpp:125-163 (match), 176-251 (dereference), r_exec/
    pgm_overlay.cpp:169-203 (patch_tpl_args, patch_tpl_code), 597-668 (dereference_in_ptr,
    patch_input_code), r_code/atom.inline.cpp:135-163, 383-440, 470-492.

    Simplifications: chains of pointers, views, the lists of markers and views of an object,
    values that were computed and productions are left out; in a skeleton nothing is computed,
    so that what a pointer to a value leads to is there already (185-192). *)
From Verif Require Import Base.
Local Open Scope nat_scope.

(** Words of code.  [Leaf]: a number, a symbol.  [Wild], [Tail]: a variable or [:], and [::].
    [Ip], [Rp]: pointer within the object, reference.  [Vl]: the value at an index of the same
    code (CODE_VL_PTR), written where a variable is used again.  [Gp]: a word of the
    instantiated program (IPGM_PTR).  [Inp n i]: the word [i] of the input [n] (IN_OBJ_PTR).
    [Dinp p i]: the word [i] of the object that the word [p] of the program leads to
    (D_IN_OBJ_PTR).  [Head k n]: a structure of kind [k] with [n] members (the three low bits,
    that a match leaves out, 137, are not kept). *)
Inductive word :=
| Leaf (z : Z) | Wild | Tail
| Ip (i : nat) | Rp (r : nat) | Vl (i : nat) | Gp (i : nat)
| Inp (n i : nat) | Dinp (p i : nat)
| Head (k : Z) (n : nat).

(** The word that 32 bits read as: atom.h:124-160, atom.inline.cpp:383-391, 425-438, 470-492.
    Of the structures, those with eight bits for the number of members and times. *)
Definition decode (z : Z) : word :=
  let d := (z / 2 ^ 24)%Z in
  let i := Z.to_nat (z mod 4096) in
  let n := Z.to_nat ((z / 4096) mod 256) in
  if (d =? 130)%Z then Wild
  else if (d =? 131)%Z then Tail
  else if (d =? 132)%Z then Ip i
  else if (d =? 133)%Z then Rp i
  else if (d =? 135)%Z then Gp i
  else if (d =? 136)%Z then Inp n i
  else if (d =? 140)%Z then Dinp n i
  else if (d =? 142)%Z then Vl i
  else if ((d =? 199) || (d =? 208))%Z%bool then Head (z / 8) 2
  else if (192 <=? d)%Z then Head (z / 8) (Z.to_nat (z mod 256))
  else Leaf z.

(** asIndex, atom.inline.cpp:425-428: the twelve low bits.  (Of a structure: not modelled.) *)
Definition as_index (w : word) : option nat :=
  match w with
  | Ip i | Rp i | Vl i | Gp i | Inp _ i | Dinp _ i => Some i
  | Leaf z => Some (Z.to_nat (z mod 4096))
  | Wild | Tail => Some 0
  | Head _ _ => None
  end.
(** getAtomCount, 470-492. *)
Definition count (w : word) : nat := match w with Head _ n => n | _ => 0 end.

Definition word_eqb (a b : word) : bool :=
  match a, b with
  | Leaf x, Leaf y => (x =? y)%Z
  | Wild, Wild | Tail, Tail => true
  | Ip x, Ip y | Rp x, Rp y | Vl x, Vl y | Gp x, Gp y => x =? y
  | Inp x i, Inp y j | Dinp x i, Dinp y j => (x =? y) && (i =? j)
  | Head k n, Head k' n' => (k =? k')%Z && (n =? n')
  | _, _ => false
  end.

(** Objects: code and references. *)
Record object := mko { code : list word; references : list nat }.
(** What a program sees: the objects, the one that holds its code, the one that instantiates
    it, its inputs so far. *)
Record world := mkw { heap : nat -> option object; program : nat; instance : nat; inputs : list nat }.

Definition word_of (w : world) (o i : nat) : option word :=
  match heap w o with Some b => nth_error (code b) i | None => None end.
Definition reference_of (w : world) (o r : nat) : option nat :=
  match heap w o with Some b => nth_error (references b) r | None => None end.

(** A context: in the code of the program (data is STEM), or in an object (REFERENCE). *)
Inductive cursor := Stem (i : nat) | Ref (o i : nat).
Definition move (c : cursor) (i : nat) : cursor := match c with Stem _ => Stem i | Ref o _ => Ref o i end.
(** get_child, context.h:398-403. *)
Definition child (c : cursor) (j : nat) : cursor := match c with Stem i => Stem (i + j) | Ref o i => Ref o (i + j) end.

Section Program.
Context (w : world).

(** The word at the context, context.h:451.  [p]: the code of the program as it is now. *)
Definition fetch (p : list word) (c : cursor) : option word :=
  match c with Stem i => nth_error p i | Ref o i => word_of w o i end.
(** The object of a context. *)
Definition object_of (c : cursor) : nat := match c with Stem _ => program w | Ref o _ => o end.

(** dereference, 176-251.  [None]: undefined, or no end.  A pointer to a value that is a
    structure and not a pointer to one: the index is not initialised (183-187).  The words of
    an instance or of an input in the code of an object: there is no program (235-246). *)
Fixpoint dereference (fuel : nat) (p : list word) (c : cursor) : option cursor :=
  match fuel with
  | 0 => None
  | S fuel =>
      match fetch p c with
      | None => None
      | Some (Vl i) =>
          match fetch p (move c i) with
          | Some (Ip j) =>
              match fetch p (move c j) with
              | Some (Head _ _) => Some (move c j)
              | Some _ => dereference fuel p (move c i)
              | None => None
              end
          | Some (Head _ _) => None
          | Some _ => dereference fuel p (move c i)
          | None => None
          end
      | Some (Ip i) => dereference fuel p (move c i)
      | Some (Rp r) =>
          match reference_of w (object_of c) r with Some o => Some (Ref o 0) | None => None end
      | Some (Gp i) => match c with Stem _ => dereference fuel p (Ref (instance w) i) | Ref _ _ => None end
      | Some (Inp n i) =>
          match c with
          | Stem _ => match nth_error (inputs w) n with Some o => dereference fuel p (Ref o i) | None => None end
          | Ref _ _ => None
          end
      | Some (Dinp q i) =>
          match c with
          | Stem _ =>
              match dereference fuel p (Stem q) with
              | Some d => dereference fuel p (Ref (object_of d) i)
              | None => None
              end
          | Ref _ _ => None
          end
      | Some _ => Some c
      end
  end.

(** match, 125-163, the pattern first.  140-147: the members, one after the other. *)
Definition both (a b : option cursor) (f : cursor -> cursor -> option bool) : option bool :=
  match a, b with Some x, Some y => f x y | _, _ => None end.
Fixpoint members (f : nat -> option bool) (j n : nat) : option bool :=
  match n with
  | 0 => Some true
  | S n => match f j with Some true => members f (S j) n | r => r end
  end.
Fixpoint matches (fuel : nat) (p : list word) (c i : cursor) : option bool :=
  match fuel with
  | 0 => None
  | S fuel =>
      match c, i with
      | Ref o 0, Ref o' 0 => Some (o =? o')
      | _, _ =>
          match fetch p c, fetch p i with
          | Some (Head k n), Some v =>
              if negb (count v =? n) then Some false
              else match v with
                   | Head k' _ =>
                       if (k =? k')%Z
                       then members (fun j => both (dereference fuel p (child c j)) (dereference fuel p (child i j)) (matches fuel p)) 1 n
                       else Some false
                   | _ => Some false
                   end
          | Some Wild, Some _ | Some Tail, Some _ => Some true
          | Some (Gp _), Some _ => match dereference fuel p c with Some d => matches fuel p d i | None => None end
          | Some u, Some v => Some (word_eqb u v)
          | _, _ => None
          end
      end
  end.

(** A skeleton at [k] against an input: pgm_overlay.cpp:741-742, 754-755. *)
Definition fits (fuel : nat) (p : list word) (k o : nat) : option bool := matches fuel p (Stem k) (Ref o 0).

(** Atom::InObjPointer, DInObjPointer, atom.inline.cpp:155-163: the input or the word of the
    program in eight bits, the index in twelve. *)
Definition pointer (n : nat) (parent : option nat) (i : nat) : word :=
  match parent with None => Inp (n mod 256) (i mod 4096) | Some q => Dinp (q mod 256) (i mod 4096) end.

(** dereference_in_ptr, pgm_overlay.cpp:597-609. *)
Fixpoint in_object (fuel : nat) (p : list word) (a : word) : option nat :=
  match fuel with
  | 0 => None
  | S fuel =>
      match a with
      | Inp n _ => nth_error (inputs w) n
      | Dinp q _ =>
          match nth_error p q with
          | Some u =>
              match in_object fuel p u, as_index u with
              | Some o, Some i =>
                  match word_of w o i with
                  | Some v => match as_index v with Some r => reference_of w o r | None => None end
                  | None => None
                  end
              | _, _ => None
              end
          | None => None
          end
      | _ => None
      end
  end.

Fixpoint write (p : list word) (k : nat) (v : word) : list word :=
  match p, k with
  | [], _ => []
  | _ :: p, 0 => v :: p
  | u :: p, S k => u :: write p k v
  end.

(** patch_input_code, 612-668.  [n]: the input.  [k]: the structure of the pattern.  [i]: that of
    the input.  The members from [j] on, [m] of them; [head]: what the head was replaced by. *)
Fixpoint patch (fuel : nat) (n : nat) (p : list word) (k i : nat) (parent : option nat) {struct fuel} : option (list word) :=
  match fuel with
  | 0 => None
  | S fuel =>
      match nth_error p k with
      | None => None
      | Some h => patch_members fuel n (write p k (pointer n parent i)) k i parent 1 (count h)
      end
  end
with patch_members (fuel : nat) (n : nat) (p : list word) (k i : nat) (parent : option nat) (j m : nat) {struct fuel} : option (list word) :=
  match fuel with
  | 0 => None
  | S fuel =>
      match m with
      | 0 => Some p
      | S m =>
          match nth_error p (k + j) with
          | None => None
          | Some Tail => Some p
          | Some Wild => patch_members fuel n (write p (k + j) (pointer n parent (i + j))) k i parent (S j) m
          | Some (Ip s) =>
              let p := write p (k + j) (pointer n parent (i + j)) in
              match in_object fuel p (pointer n parent i) with
              | None => None
              | Some o =>
                  match word_of w o (i + j) with
                  | None => None
                  | Some (Ip t) =>
                      match patch fuel n p s t parent with Some p => patch_members fuel n p k i parent (S j) m | None => None end
                  | Some (Rp _) =>
                      match patch fuel n p s 0 (Some (k + j)) with Some p => patch_members fuel n p k i parent (S j) m | None => None end
                  | Some _ => patch_members fuel n p k i parent (S j) m
                  end
              end
          | Some _ => patch_members fuel n p k i parent (S j) m
          end
      end
  end.

(** __match, 767: the input is the last one. *)
Definition bind (fuel : nat) (p : list word) (k : nat) : option (list word) := patch fuel (length (inputs w) - 1) p k 0 None.

(** patch_tpl_code, 184-203: [k] in the program, [i] in the instance; members from [j] on. *)
Fixpoint patch_tpl (fuel : nat) (p : list word) (k i : nat) (j m : nat) : option (list word) :=
  match fuel with
  | 0 => None
  | S fuel =>
      match m with
      | 0 => Some p
      | S m =>
          match nth_error p (k + j) with
          | None => None
          | Some Tail => Some p
          | Some Wild => patch_tpl fuel (write p (k + j) (Gp ((i + j) mod 4096))) k i (S j) m
          | Some (Ip s) =>
              match nth_error p s, word_of w (instance w) (i + j) with
              | Some h, Some v =>
                  match as_index v with
                  | Some t => match patch_tpl fuel p s t 1 (count h) with
                              | Some p => patch_tpl fuel p k i (S j) m
                              | None => None
                              end
                  | None => None
                  end
              | _, _ => None
              end
          | Some _ => patch_tpl fuel p k i (S j) m
          end
      end
  end.
(** patch_tpl_args, 169-182: PGM_TPL_ARGS is 1, IPGM_ARGS is 2.  [t], [a]: the sets of the
    parameters and of the arguments. *)
Fixpoint patch_params (fuel : nat) (p : list word) (t a j m : nat) : option (list word) :=
  match m with
  | 0 => Some p
  | S m =>
      match nth_error p (t + j), word_of w (instance w) (a + j) with
      | Some u, Some v =>
          match as_index u, as_index v with
          | Some k, Some i =>
              match nth_error p k with
              | Some h =>
                  match patch_tpl fuel p k i 1 (count h) with
                  | Some p => patch_params fuel (write p (k + 1) (Gp ((a + j) mod 4096))) t a (S j) m
                  | None => None
                  end
              | None => None
              end
          | _, _ => None
          end
      | _, _ => None
      end
  end.
Definition patch_tpl_args (fuel : nat) (p : list word) : option (list word) :=
  match nth_error p 1, word_of w (instance w) 2 with
  | Some u, Some v =>
      match as_index u, as_index v with
      | Some t, Some a => match nth_error p t with Some h => patch_params fuel p t a 1 (count h) | None => None end
      | _, _ => None
      end
  | _, _ => None
  end.
End Program.
