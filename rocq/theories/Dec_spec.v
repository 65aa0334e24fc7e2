(** Vocabulary for the statements on names in decompiled code. *)
From Verif Require Import Base Dec_model.

(** The name of the object of index [i]. *)
Definition name (st : names) (i : nat) : option text := find_z (by_index st) (Z.of_nat i).
(** A decompiler that was used for some images. *)
Definition use (st : names) (x : list (Z * text) * image) : names :=
  match decompile_references st (fst x) (snd x) with Named s | Refused s => s | Endless => st end.
Definition used (l : list (list (Z * text) * image)) : names := fold_left use l no_names.
(** The object of index [i] has a user-defined name in the image. *)
Definition user_name (img : image) (i : nat) (s : text) : Prop := exists o, nth_error (objs img) i = Some o /\ symbol img (o_oid o) = Some s.
(** The name of the object of index [i] is made up, when nothing is passed and the
    decompiler is new. *)
Definition made_up (img : image) (i : nat) : Prop := exists o, nth_error (objs img) i = Some o /\ symbol img (o_oid o) = None.

(** Requests for names of variables: the names given, in order. *)
Fixpoint requests (s : vars) (l : list Z) : list text :=
  match l with [] => [] | i :: r => let (s, x) := get_variable_name s i in fst x :: requests s r end.
(** The labels that are inserted in the stream. *)
Fixpoint insertions (s : vars) (l : list Z) : list Z :=
  match l with [] => [] | i :: r => let (s, x) := get_variable_name s i in (if snd x then [i] else []) ++ insertions s r end.

(** A text with marks: what was written since the n-th push. *)
Inductive item := Mark (n : nat) | Chunk (t : text).
Definition render (d : list item) : text := flat_map (fun x => match x with Mark _ => [] | Chunk t => t end) d.
(** The document: its items, the number of pushes, and the last push for each code
    index. A label is put right after the mark of what it labels, that is right before
    what was written there. *)
Fixpoint put (n : nat) (t : text) (d : list item) : list item :=
  match d with
  | [] => []
  | Mark m :: r => if Nat.eqb m n then Mark m :: Chunk t :: r else Mark m :: put n t r
  | x :: r => x :: put n t r
  end.
Record doc := mkdoc { items : list item; pushes : nat; last_push : list (Z * nat) }.
Definition dstep (d : doc) (o : oop) : doc :=
  match o with
  | Write t => mkdoc (items d ++ [Chunk t]) (pushes d) (last_push d)
  | Push t i => mkdoc (items d ++ [Mark (pushes d); Chunk t]) (S (pushes d)) ((i, pushes d) :: last_push d)
  | Skip => mkdoc (items d) (S (pushes d)) (last_push d)
  | Insert i t => match find_z (last_push d) i with None => d | Some n => mkdoc (put n t (items d)) (pushes d) (last_push d) end
  end.
Definition document (ops : list oop) : doc := fold_left dstep ops (mkdoc [] 0 []).
(** Every label is for something that was pushed before. *)
Definition labels_pushed (ops : list oop) : Prop := forall p i t q, ops = p ++ Insert i t :: q -> exists x, In (Push x i) p.
Definition is_push (o : oop) : bool := match o with Push _ _ | Skip => true | _ => false end.
Definition push_count (ops : list oop) : Z := Z.of_nat (length (filter is_push ops)).
