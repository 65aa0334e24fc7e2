(** Vocabulary of the statements about control values of views. *)
From Verif Require Import Base Float32 Atom_model Obj_model View_model.

(** The four control values and the members that hold them. *)
Inductive ctrl := Sln | Act | Vis | Res.
Definition ctrl_eqb (a b : ctrl) : bool :=
  match a, b with Sln, Sln | Act, Act | Vis, Vis | Res, Res => true | _, _ => false end.
Definition member (k : ctrl) : nat := match k with Sln => 3 | Res => 4 | Act => 7 | Vis => 8 end%nat.
Definition ctrl_of (i : nat) : option ctrl :=
  match i with 3 => Some Sln | 4 => Some Res | 7 => Some Act | 8 => Some Vis | _ => None end%nat.

(** What can be asked of a view: to add to a member, to assign to a member, or
    (by its group) to update one of its values; [low] and [high] are the group's
    notification thresholds. *)
Inductive vop :=
  | AskAdd (i : nat) (x : spec_float)
  | AskSet (i : nat) (x : spec_float)
  | Update (k : ctrl) (low high : spec_float).

(** What the code does. *)
Definition run_vop (v : view) (o : vop) : view :=
  match o with
  | AskAdd i x => view_mod v i x
  | AskSet i x => view_set v i x
  | Update Sln low high => fst (update_sln v low high)
  | Update Act low high => fst (update_act v low high)
  | Update Vis _ _ => fst (update_vis v)
  | Update Res _ _ => fst (update_res v)
  end.
Definition run_vops (v : view) (os : list vop) : view := fold_left run_vop os v.
Definition value (v : view) (k : ctrl) : spec_float :=
  match k with Sln => get_sln v | Act => get_act v | Vis => get_vis v | Res => get_res v end.

(** What it should do: each value carries the list of the changes asked for. *)
Record abstract := mkabs { a_value : ctrl -> spec_float; a_asked : ctrl -> list spec_float }.

(** A number, once kept in an atom (which loses the lowest bit of a float). *)
Definition kept (x : spec_float) : spec_float := num (of_num x).
Definition total (cs : list spec_float) : spec_float := fold_left fadd cs fzero.
Definition mean (cs : list spec_float) : spec_float := fdiv (total cs) (f32_of_Z (Z.of_nat (length cs))).
Definition infinite : spec_float := S754_infinity false.

(** The value after an update. *)
Definition updated (k : ctrl) (old : spec_float) (cs : list spec_float) : spec_float :=
  let moved := if feqb (total cs) fzero then old else fadd old (mean cs) in
  match k with
  | Res =>
      if feqb old infinite then old
      else let x := fsub moved fone in kept (if flt x fzero then fzero else x)
  | _ =>
      if feqb (total cs) fzero then old
      else kept (if flt moved fzero then fzero else if flt fone moved then fone else moved)
  end.

Definition on {A} (f : ctrl -> A) (k : ctrl) (x : A) : ctrl -> A := fun j => if ctrl_eqb j k then x else f j.
Definition ask (s : abstract) (k : ctrl) (x : spec_float) : abstract :=
  match k with
  | Res => if feqb (a_value s Res) infinite then s else mkabs (a_value s) (on (a_asked s) k (a_asked s k ++ [x]))
  | _ => mkabs (a_value s) (on (a_asked s) k (a_asked s k ++ [x]))
  end.
Definition abs_op (s : abstract) (o : vop) : abstract :=
  match o with
  | AskAdd i x => match ctrl_of i with Some k => ask s k x | None => s end
  | AskSet i x => match ctrl_of i with Some k => ask s k (fsub x (a_value s k)) | None => s end
  | Update k _ _ => mkabs (on (a_value s) k (updated k (a_value s k) (a_asked s k))) (on (a_asked s) k [])
  end.
Definition abs_ops (s : abstract) (os : list vop) : abstract := fold_left abs_op os s.
Definition start (v : view) : abstract := mkabs (value v) (fun _ => []).

(** Arguments that are float32 numbers at all (any of them, NaN included). *)
Definition valid_vop (o : vop) : Prop := match o with AskAdd _ x | AskSet _ x => f32_valid x = true | Update _ _ _ => True end.
(** Changes that only raise, or only lower. *)
Definition nonneg (f : spec_float) : Prop := f32_valid f = true /\ fle fzero f = true.
Definition nonpos (f : spec_float) : Prop := f32_valid f = true /\ fle f fzero = true.

(** Never 2^32 requests pending on one value. *)
Fixpoint few (s : abstract) (os : list vop) : Prop :=
  match os with
  | [] => True
  | o :: os' => (forall k, Z.of_nat (length (a_asked (abs_op s o) k)) < 4294967296) /\ few (abs_op s o) os'
  end.

(** A view as the constructors leave it: 13 words, of which the control values
    are floats (top bit clear), nothing pending. *)
Definition fresh (v : view) : Prop :=
  length (vcode v) = 13%nat /\ (forall k, 0 <= word v (member k) < 2147483648) /\
  t_sln v = no_tally /\ t_act v = no_tally /\ t_vis v = no_tally /\ t_res v = no_tally.

(** In range: between 0 and 1, or for resilience not negative. *)
Definition in_range (k : ctrl) (f : spec_float) : Prop :=
  fle fzero f = true /\ match k with Res => True | _ => fle f fone = true end.
(** A request that can be expected to keep a value in range: adding a finite
    number or assigning a finite number that is not negative. *)
Definition sensible_vop (o : vop) : Prop :=
  match o with
  | AskAdd _ x => f32_valid x = true /\ is_finite x = true
  | AskSet _ x => f32_valid x = true /\ is_finite x = true /\ fle fzero x = true
  | Update _ _ _ => True
  end.

(** ** Resilience *)
Fixpoint res_updates (n : nat) (v : view) : view := match n with O => v | S n' => res_updates n' (fst (update_res v)) end.

(** ** Notification periods *)

(** Length of the longest run of elements satisfying [p] at the end of a
    list. *)
Fixpoint trailing {A} (p : A -> bool) (l : list A) : Z :=
  match l with
  | [] => 0
  | x :: l' => if forallb p l then Z.of_nat (length l) else trailing p l'
  end.
(** The saliencies seen by successive saliency updates with the same notification
    thresholds; [ops] before each of them. *)
Fixpoint sln_history (v : view) (low high : spec_float) (steps : list (list vop)) : view * list spec_float :=
  match steps with
  | [] => (v, [])
  | ops :: steps' =>
      let v1 := run_vops v ops in
      let v2 := fst (update_sln v1 low high) in
      let (v3, l) := sln_history v2 low high steps' in (v3, get_sln v2 :: l)
  end.
Definition no_update (o : vop) : Prop := match o with Update _ _ _ => False | _ => True end.
