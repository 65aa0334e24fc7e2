(** Model of [r_code::list] (r_code/list.h:99-340), the doubly linked list kept
    in a vector of cells.

    Simplification: cell indices (int32, -1 for none) are [option nat] and the
    two counters (uint32) are [nat]; lists of 2^31 cells or more are not
    considered.  [None] as the result of an operation is an out-of-bounds
    access to [cells_]. *)
From Verif Require Import Base.

Section CellList.
Context {A : Type}.

(** list.h:103-109 *)
Record cell := mkcell { next : option nat; prev : option nat; data : A }.

(** list.h:111-117 *)
Record cells_list := mklist {
  cells : list cell;
  head : option nat;
  tail : option nat;
  free : option nat;
  used_count : nat;
  free_count : nat }.

Definition set_cells (s : cells_list) (cs : list cell) : cells_list :=
  mklist cs (head s) (tail s) (free s) (used_count s) (free_count s).

(** [cells_[i].next_ = v] and [cells_[i].prev_ = v] *)
Definition set_next (cs : list cell) (i : nat) (v : option nat) : option (list cell) :=
  match nth_error cs i with Some c => upd cs i (mkcell v (prev c) (data c)) | None => None end.
Definition set_prev (cs : list cell) (i : nat) (v : option nat) : option (list cell) :=
  match nth_error cs i with Some c => upd cs i (mkcell (next c) v (data c)) | None => None end.

(** list.h:119-128 *)
Definition push_back_free_cell (s : cells_list) (t : A) : option cells_list :=
  match free s with
  | None => None
  | Some f =>
      match nth_error (cells s) f with
      | None => None
      | Some c =>
          match upd (cells s) f (mkcell None (tail s) t) with
          | None => None
          | Some cs => Some (mklist cs (head s) (Some f) (next c) (used_count s) (free_count s - 1))
          end
      end
  end.

(** list.h:130-138 *)
Definition push_back_new_cell (s : cells_list) (t : A) : cells_list :=
  mklist (cells s ++ [mkcell None (tail s) t]) (head s) (Some (length (cells s)))
         (free s) (used_count s) (free_count s).

(** list.h:140-147 *)
Definition update_used_cells_tail_state (s : cells_list) : option cells_list :=
  match tail s with
  | None => None
  | Some tl =>
      match nth_error (cells s) tl with
      | None => None
      | Some c =>
          match (match prev c with
                 | Some p => set_next (cells s) p (Some tl)
                 | None => Some (cells s)
                 end) with
          | None => None
          | Some cs =>
              let h := match head s with None => Some tl | h => h end in
              Some (mklist cs h (Some tl) (free s) (S (used_count s)) (free_count s))
          end
      end
  end.

(** list.h:149-158 *)
Definition push_front_free_cell (s : cells_list) (t : A) : option cells_list :=
  match free s with
  | None => None
  | Some f =>
      match nth_error (cells s) f with
      | None => None
      | Some c =>
          match upd (cells s) f (mkcell (head s) None t) with
          | None => None
          | Some cs => Some (mklist cs (Some f) (tail s) (next c) (used_count s) (free_count s - 1))
          end
      end
  end.

(** list.h:160-168 *)
Definition push_front_new_cell (s : cells_list) (t : A) : cells_list :=
  mklist (cells s ++ [mkcell (head s) None t]) (Some (length (cells s))) (tail s)
         (free s) (used_count s) (free_count s).

(** list.h:170-177 *)
Definition update_used_cells_head_state (s : cells_list) : option cells_list :=
  match head s with
  | None => None
  | Some hd =>
      match nth_error (cells s) hd with
      | None => None
      | Some c =>
          match (match next c with
                 | Some n => set_prev (cells s) n (Some hd)
                 | None => Some (cells s)
                 end) with
          | None => None
          | Some cs =>
              let tl := match tail s with None => Some hd | t => t end in
              Some (mklist cs (Some hd) tl (free s) (S (used_count s)) (free_count s))
          end
      end
  end.

(** list.h:179-193 *)
Definition erase0 (s : cells_list) (c : nat) : option cells_list :=
  match nth_error (cells s) c with
  | None => None
  | Some cc =>
      match (match prev cc with
             | Some p => match set_next (cells s) p (next cc) with
                         | Some cs => Some (cs, head s) | None => None end
             | None => Some (cells s, next cc)
             end) with
      | None => None
      | Some (cs1, hd) =>
          match nth_error cs1 c with
          | None => None
          | Some cc1 =>
              match (match next cc1 with
                     | Some n => match set_prev cs1 n (prev cc1) with
                                 | Some cs => Some (cs, tail s) | None => None end
                     | None => Some (cs1, prev cc1)
                     end) with
              | None => None
              | Some (cs2, tl) =>
                  match set_next cs2 c (free s) with
                  | None => None
                  | Some cs3 => Some (mklist cs3 hd tl (Some c) (used_count s - 1) (S (free_count s)))
                  end
              end
          end
      end
  end.

(** list.h:194-199, 323-324: erasing through an iterator returns the next one. *)
Definition erase (s : cells_list) (c : nat) : option (cells_list * option nat) :=
  match nth_error (cells s) c with
  | None => None
  | Some cc => match erase0 s c with Some s' => Some (s', next cc) | None => None end
  end.

(** list.h:201, 205-210 *)
Definition empty : cells_list := mklist [] None None None 0 0.
Definition clear (s : cells_list) : cells_list := mklist [] None None None 0 0.
(** list.h:203 *)
Definition size (s : cells_list) : nat := used_count s.

(** list.h:211-231; the second component is the [location] output. *)
Definition push_back (s : cells_list) (t : A) : option (cells_list * option nat) :=
  if (free_count s =? 0)%nat then
    let s1 := push_back_new_cell s t in
    match update_used_cells_tail_state s1 with Some s2 => Some (s2, tail s1) | None => None end
  else
    match push_back_free_cell s t with
    | None => None
    | Some s1 =>
        match update_used_cells_tail_state s1 with Some s2 => Some (s2, free s) | None => None end
    end.

(** list.h:232-252; note [location = used_cells_tail_] at line 249. *)
Definition push_front (s : cells_list) (t : A) : option (cells_list * option nat) :=
  if (free_count s =? 0)%nat then
    let s1 := push_front_new_cell s t in
    match update_used_cells_head_state s1 with Some s2 => Some (s2, tail s1) | None => None end
  else
    match push_front_free_cell s t with
    | None => None
    | Some s1 =>
        match update_used_cells_head_state s1 with Some s2 => Some (s2, free s) | None => None end
    end.

(** Iteration, list.h:254-322: from cell [c] along [next_] until null, listing
    the cells visited and their elements.  [None]: out of fuel or out of
    bounds. *)
Fixpoint walk (fuel : nat) (s : cells_list) (c : option nat) : option (list (nat * A)) :=
  match fuel, c with
  | _, None => Some []
  | O, Some _ => None
  | S n, Some i =>
      match nth_error (cells s) i with
      | None => None
      | Some cc => match walk n s (next cc) with Some l => Some ((i, data cc) :: l) | None => None end
      end
  end.
Definition iterate (s : cells_list) : option (list (nat * A)) := walk (length (cells s)) s (head s).

(** list.h:338-339 *)
Definition front (s : cells_list) : option A :=
  match head s with Some i => option_map data (nth_error (cells s) i) | None => None end.
Definition back (s : cells_list) : option A :=
  match tail s with Some i => option_map data (nth_error (cells s) i) | None => None end.

(** list.h:326-337 *)
Fixpoint remove_from (eqb : A -> A -> bool) (fuel : nat) (s : cells_list) (c : option nat) (t : A)
  : option cells_list :=
  match fuel, c with
  | _, None => Some s
  | O, Some _ => None
  | S n, Some i =>
      match nth_error (cells s) i with
      | None => None
      | Some cc => if eqb (data cc) t then erase0 s i else remove_from eqb n s (next cc) t
      end
  end.
Definition remove (eqb : A -> A -> bool) (s : cells_list) (t : A) : option cells_list :=
  remove_from eqb (length (cells s)) s (head s) t.

(** The loop [for (i = begin(); i != end();) if (drop( *i)) i = erase(i); else ++i;]
    used on every cache of the executive, e.g. r_exec/hlp_controller.h:148-160,
    hlp_controller.cpp:210-223, mdl_controller.cpp:377-388. *)
Fixpoint cull_from (drop : A -> bool) (fuel : nat) (s : cells_list) (c : option nat) : option cells_list :=
  match fuel, c with
  | _, None => Some s
  | O, Some _ => None
  | S n, Some i =>
      match nth_error (cells s) i with
      | None => None
      | Some cc =>
          if drop (data cc) then
            match erase s i with Some (s', j) => cull_from drop n s' j | None => None end
          else cull_from drop n s (next cc)
      end
  end.
Definition cull (drop : A -> bool) (s : cells_list) : option cells_list :=
  cull_from drop (length (cells s)) s (head s).

End CellList.
Arguments cell : clear implicits.
Arguments cells_list : clear implicits.
