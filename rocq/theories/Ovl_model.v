(** Model of overlays: the copy of the code of a program or of a model in which matching
    and evaluation write (r_exec/overlay.cpp, _context.cpp, pgm_overlay.cpp).

    Simplifications: an overlay is the value of its members; the code of the program is
    part of it ([source]); template arguments are given as a list of writes. *)
From Verif Require Import Base Atom_model.

Record overlay := mkovl {
  source : list Z;     (* the code of the program: get_core_object()->code *)
  code_ : list Z;
  values_ : list Z;
  patches : list nat;  (* patch_indices_ *)
  committed : Z        (* value_commit_index_, uint16 *)
}.
(** The atom of an unset element of the value array: Atom(), atom.inline.cpp. *)
Definition unset : Z := 0xFFFFFFFF.
(** MAX_VALUE_SIZE: overlay.cpp:92 and 110. *)
Definition max_value_size : nat := 128.

(** Overlay::Overlay(Controller *, true), load_code: overlay.cpp:108-113, 129-139. *)
Definition load (src : list Z) : overlay := mkovl src src (repeat unset max_value_size) [] 0.
(** Writes out of the record of patches: patch_tpl_args, pgm_overlay.cpp:170-202. *)
Fixpoint write_all (c : list Z) (w : list (nat * Z)) : option (list Z) :=
  match w with [] => Some c | (i, v) :: w' => match upd c i v with Some c' => write_all c' w' | None => None end end.
Definition create (src : list Z) (tpl : list (nat * Z)) : option overlay :=
  match write_all src tpl with Some c => Some (mkovl src c (repeat unset max_value_size) [] 0) | None => None end.

(** overlay.cpp:170-174; None: a write out of the code. *)
Definition patch_code (o : overlay) (i : nat) (v : Z) : option overlay :=
  match upd (code_ o) i v with Some c => Some (mkovl (source o) c (values_ o) (patches o ++ [i]) (committed o)) | None => None end.
(** The copy of the source at the recorded indices: the loops of overlay.cpp:150-151 and
    185-186 and pgm_overlay.cpp:558-559.  None: out of bounds, or no termination, since
    the loop counter is a uint16. *)
Fixpoint copy_back (src c : list Z) (ix : list nat) : option (list Z) :=
  match ix with
  | [] => Some c
  | i :: r => match nth_error src i with
              | Some v => match upd c i v with Some c' => copy_back src c' r | None => None end
              | None => None
              end
  end.
Definition restore (src c : list Z) (all : list nat) (from : nat) : option (list Z) :=
  if 65536 <=? Z.of_nat (length all) then None else copy_back src c (skipn from all).
(** The size of the value array, shrunk or grown (std::vector::resize). *)
Definition resize_values (v : list Z) (n : nat) : list Z := firstn n v ++ repeat unset (n - length v).
(** overlay.cpp:146-162 *)
Definition rollback (o : overlay) : option overlay :=
  match restore (source o) (code_ o) (patches o) 0 with
  | None => None
  | Some c =>
      if negb (committed o =? Z.of_nat (length (values_ o))) then
        let v := if 0 <? committed o then resize_values (values_ o) (Z.to_nat (committed o)) else [] in
        Some (mkovl (source o) c v [] (u16 (Z.of_nat (length v))))
      else Some (mkovl (source o) c (values_ o) [] (committed o))
  end.
(** overlay.cpp:164-168 *)
Definition commit (o : overlay) : overlay := mkovl (source o) (code_ o) (values_ o) [] (u16 (Z.of_nat (length (values_ o)))).
(** overlay.cpp:176-179 *)
Definition get_last_patch_index (o : overlay) : Z := u16 (Z.of_nat (length (patches o))).
(** overlay.cpp:181-188; patch_indices_.resize(patch_index) *)
Definition unpatch_code (o : overlay) (p : Z) : option overlay :=
  match restore (source o) (code_ o) (patches o) (Z.to_nat p) with
  | None => None
  | Some c => Some (mkovl (source o) c (values_ o) (firstn (Z.to_nat p) (patches o) ++ repeat O (Z.to_nat p - length (patches o))) (committed o))
  end.
(** Results of evaluations (_context.cpp:92-123): an atom in the code, or a value pointer
    in the code and atoms at the end of the value array.  [set_value] is
    setTimestampResult, setDurationResult, or setCompoundResultHead followed by
    addCompoundResultPart. *)
Definition set_atomic (o : overlay) (i : nat) (a : Z) : option overlay := patch_code o i a.
Definition set_value (o : overlay) (i : nat) (atoms : list Z) : option overlay :=
  match patch_code o i (ValuePointer (Z.of_nat (length (values_ o)))) with
  | Some o' => Some (mkovl (source o') (code_ o') (values_ o' ++ atoms) (patches o') (committed o'))
  | None => None
  end.
(** InputLessPGMOverlay::reset, pgm_overlay.cpp:152-162, Overlay::reset, overlay.cpp:141-144. *)
Definition reset_ (o : overlay) (tpl : list (nat * Z)) : option overlay :=
  match write_all (source o) tpl with Some c => Some (mkovl (source o) c [] [] 0) | None => None end.
(** The overlay that is left waiting for other inputs: PGMOverlay::PGMOverlay(original,
    last_input_index, value_commit_index) for the code and the values,
    pgm_overlay.cpp:544-567, Overlay::Overlay(), overlay.cpp:96-106. *)
Definition offspring (o : overlay) : option overlay :=
  match restore (source o) (code_ o) (patches o) 0 with
  | None => None
  | Some c =>
      Some (mkovl (source o) c (repeat unset max_value_size ++ map (fun i => nth i (values_ o) unset) (seq 0 (Z.to_nat (committed o)))) [] (committed o))
  end.

(** Operations on an overlay. *)
Inductive op := Patch (i : nat) (v : Z) | Value (i : nat) (atoms : list Z) | Unpatch (p : Z) | Commit | Rollback.
Definition step (o : overlay) (x : op) : option overlay :=
  match x with
  | Patch i v => patch_code o i v
  | Value i a => set_value o i a
  | Unpatch p => unpatch_code o p
  | Commit => Some (commit o)
  | Rollback => rollback o
  end.
Fixpoint run (o : overlay) (l : list op) : option overlay :=
  match l with [] => Some o | x :: r => match step o x with Some o' => run o' r | None => None end end.
(** What a value pointer designates: the [n] atoms at the index it holds. *)
Definition designated (o : overlay) (a : Z) (n : nat) : list Z := firstn n (skipn (Z.to_nat (asIndex a)) (values_ o)).
