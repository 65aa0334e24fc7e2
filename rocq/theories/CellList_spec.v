(** The abstract sequence that an [r_code::list] should implement. *)
From Verif Require Import Base CellList_model.

Section Spec.
Context {A : Type} (eqb : A -> A -> bool).

(** A user's operation.  [Erase h]: erase the element that lives at location [h]. *)
Inductive op := PushBack (t : A) | PushFront (t : A) | Erase (h : nat) | Remove (t : A)
              | Cull (drop : A -> bool) | Clear.

(** The program's effect. *)
Definition run_op (s : cells_list A) (o : op) : option (cells_list A) :=
  match o with
  | PushBack t => option_map fst (push_back s t)
  | PushFront t => option_map fst (push_front s t)
  | Erase h => option_map fst (erase s h)
  | Remove t => remove eqb s t
  | Cull drop => cull drop s
  | Clear => Some (clear s)
  end.

Fixpoint run (s : cells_list A) (ops : list op) : option (cells_list A) :=
  match ops with
  | [] => Some s
  | o :: ops' => match run_op s o with Some s' => run s' ops' | None => None end
  end.

(** The ordinary sequence: elements paired with the location they live at.  A
    new element gets some location that no live element has. *)
Fixpoint remove_first (p : A -> bool) (l : list (nat * A)) : list (nat * A) :=
  match l with
  | [] => []
  | (h, a) :: l' => if p a then l' else (h, a) :: remove_first p l'
  end.

Inductive seq_op : list (nat * A) -> op -> list (nat * A) -> Prop :=
| seq_push_back l t h : ~ In h (map fst l) -> seq_op l (PushBack t) (l ++ [(h, t)])
| seq_push_front l t h : ~ In h (map fst l) -> seq_op l (PushFront t) ((h, t) :: l)
| seq_erase l1 h a l2 : seq_op (l1 ++ (h, a) :: l2) (Erase h) (l1 ++ l2)
| seq_remove l t : seq_op l (Remove t) (remove_first (fun a => eqb a t) l)
| seq_cull l drop : seq_op l (Cull drop) (filter (fun p => negb (drop (snd p))) l)
| seq_clear l : seq_op l Clear [].

(** What an observer sees of a list: iterating it gives exactly [l] (locations
    and elements, in order), its size is the length, its front and back are the
    ends, and every live location holds its element. *)
Definition shows (s : cells_list A) (l : list (nat * A)) : Prop :=
  iterate s = Some l /\ size s = length l /\
  front s = option_map snd (hd_error l) /\ back s = option_map snd (hd_error (rev l)) /\
  NoDup (map fst l) /\
  (forall h a, In (h, a) l -> option_map data (nth_error (cells s) h) = Some a).

(** An operation is allowed in an abstract state when it does not erase through
    a location where nothing lives. *)
Definition allowed (l : list (nat * A)) (o : op) : Prop :=
  match o with Erase h => In h (map fst l) | _ => True end.

(** Every history of allowed operations from the empty list: [l] is what
    iterating [s] gives and [m] the largest size reached since the list was last
    empty of cells (created or cleared). *)
Inductive reached : cells_list A -> list (nat * A) -> nat -> Prop :=
| reached_empty : reached empty [] 0
| reached_step s l m o s' l' :
    reached s l m -> allowed l o -> run_op s o = Some s' -> iterate s' = Some l' ->
    reached s' l' (match o with Clear => 0 | _ => Nat.max m (length l') end).

(** [o] does not take out the element [a] that lives at [h]. *)
Definition spares (h : nat) (a : A) (o : op) : Prop :=
  match o with
  | PushBack _ | PushFront _ => True
  | Erase h' => h' <> h
  | Remove t => eqb a t = false
  | Cull drop => drop a = false
  | Clear => False
  end.

(** A later history whose operations all spare the element [a] at [h]. *)
Inductive later (h : nat) (a : A) : cells_list A -> list (nat * A) -> cells_list A -> list (nat * A) -> Prop :=
| later_refl s l : later h a s l s l
| later_step s l s1 l1 o s2 l2 :
    later h a s l s1 l1 -> allowed l1 o -> spares h a o ->
    run_op s1 o = Some s2 -> iterate s2 = Some l2 -> later h a s l s2 l2.

End Spec.
Arguments op : clear implicits.
