(** Vocabulary for C11, C12. *)
From Verif Require Import Base Image_model.
Local Open Scope nat_scope.

(** Two memories agree outside / inside the [n] words from [b]. *)
Definition same_outside (m m' : mem) (b n : nat) : Prop :=
  length m' = length m /\ forall j, j < b \/ b + n <= j -> nth_error m' j = nth_error m j.
Definition same_inside (m m' : mem) (b n : nat) : Prop :=
  forall j, b <= j < b + n -> nth_error m' j = nth_error m j.

(** Writing [x] anywhere there is room succeeds, touches only [size x] words, and
    reading gives [x] back whatever the other words have become since. *)
Definition round_trips {X} (size : X -> nat) (wr : mem -> nat -> X -> option mem)
  (rd : mem -> nat -> option X) (x : X) : Prop :=
  forall b m, b + size x <= length m -> exists m', wr m b x = Some m' /\ same_outside m m' b (size x) /\
    forall m'', same_inside m' m'' b (size x) -> rd m'' b = Some x.

(** The words of a view and of an object, in order. *)
Definition view_words (v : sys_view) : list Z :=
  [count (v_code v); count (v_refs v)] ++ v_code v ++ v_refs v.
Definition object_words (o : sys_object) : list Z :=
  [o_oid o; count (o_code o); count (o_refs o); count (o_markers o); count (o_views o)] ++
  o_code o ++ o_refs o ++ o_markers o ++ concat (map view_words (o_views o)).

(** Sizes fit in their words; references, held in uint16, fit too. *)
Definition small {X} (l : list X) : Prop := (Z.of_nat (length l) < 4294967296)%Z.
Definition view_small (v : sys_view) : Prop :=
  small (v_code v) /\ small (v_refs v) /\ Forall is_u16 (v_refs v).
Definition object_small (o : sys_object) : Prop :=
  small (o_code o) /\ small (o_refs o) /\ small (o_markers o) /\ small (o_views o) /\
  Forall is_u16 (o_refs o) /\ Forall view_small (o_views o).

(** The bytes of a C string: none is NUL. *)
Definition text (s : list Z) : Prop := Forall (fun ch => 1 <= ch < 256)%Z s.
(** The read function is one of the twelve of the table. *)
Definition member_ok (x : member) : Prop :=
  text (mb_class x) /\ text (mb_name x) /\ (0 <= mb_read x <= 11)%Z.
Definition class_ok (c : class) : Prop :=
  text (k_opcode c) /\ small (k_members c) /\ Forall member_ok (k_members c).
Definition name_ok (n : Z * list Z) : Prop := text (snd n).

(** One object map entry per object, as [Image::add_sys_object] maintains (segments.cpp:484-489). *)
Record image_ok (im : image) : Prop := {
  ok_map : length (im_map im) = length (im_code im);
  ok_objects : Forall object_small (im_code im);
  ok_names : Forall name_ok (im_names im);
  ok_names_small : small (im_names im) }.
