(** What the statements on the literals say. *)
From Coq Require Import String.
From Verif Require Import Base Atom_model Utils_model Ppr_model Mac_model Lit_model.
Local Open Scope Z_scope.

(** The number that decimal digits write. *)
Definition number (digits : text) : Z := fold_left (fun n c => 10 * n + (c - 48)) digits 0.
Definition all_digits (t : text) : Prop := t <> [] /\ Forall (fun c => 48 <= c <= 57) t.
Definition blank (t : text) : Prop := Forall (fun c => c = 32 \/ 9 <= c <= 13) t.

(** A sign, and what it does. *)
Inductive signed : text -> Z -> Prop :=
| no_sign : signed [] 1
| plus : signed (txt "+") 1
| minus : signed (txt "-") (-1).
(** A unit, in microseconds. *)
Inductive scale : text -> Z -> Prop :=
| microseconds : scale (txt "us") 1
| milliseconds : scale (txt "ms") 1000
| seconds : scale (txt "s") 1000000.

(** [t] is a number with a unit, then [rest]; the number is [n] and the unit is of [k] microseconds. *)
Definition shows_duration (t : text) (n k : Z) (rest : text) : Prop :=
  exists spaces sg sigma digits unit,
    t = spaces ++ sg ++ digits ++ unit ++ rest /\ blank spaces /\ signed sg sigma /\ all_digits digits /\ scale unit k /\
    n = sigma * number digits /\ (unit = txt "s" -> forall r, rest <> 58 :: r).

(** [t] is the usual notation of a time, with digits only between the units. *)
Definition shows_time (t : text) (v : Z) (rest : text) : Prop :=
  exists sg s ms us sigma,
    t = sg ++ s ++ txt "s:" ++ ms ++ txt "ms:" ++ us ++ txt "us" ++ rest /\
    (sg = [] /\ sigma = 1 \/ sg = txt "-" /\ sigma = -1) /\ all_digits s /\ all_digits ms /\ all_digits us /\
    v = sigma * (number s * 1000000 + number ms * 1000 + number us).

(** The text does not go on with a colon, which would make a time of a duration. *)
Definition no_colon (rest : text) : Prop := forall r, rest <> 58 :: r.

(** A string that a literal may hold. *)
Definition plain (s : text) : Prop :=
  (List.length s <= 254)%nat /\ Forall (fun ch => 1 <= ch <= 127 /\ ch <> 34) s.

(** All the words but that at [write] and those from [extent] on are as they were. *)
Definition others_kept (write extent : nat) (c c' : code) : Prop :=
  forall j, j <> write -> (j < extent)%nat -> (j < List.length c)%nat -> nth_error c' j = nth_error c j.
(** The indexes with which the compiler writes: the extent is after the word, and within what
    a pointer can hold. *)
Definition room (write extent : nat) : Prop := (write < extent)%nat /\ Z.of_nat extent < 4096.

(** The text goes on, and not with a hexadecimal digit. *)
Definition no_hex (t : text) : Prop :=
  exists c r, t = c :: r /\ ~ (48 <= c <= 57 \/ 97 <= c <= 102 \/ 65 <= c <= 70).

(** The constants that keep their meaning. *)
Definition kept : list text :=
  [txt "nil"; txt "forever"; txt "|did"; txt "|fid"; txt "|bl"; txt "true"; txt "false"]%string.

(** What comes after a constant: an indentation, a space, or a closing bracket. *)
Definition apart (indentation : text -> bool) (rest : text) : Prop :=
  indentation rest = true \/ exists c r, rest = c :: r /\ (c = 32 \/ c = 41 \/ c = 93).
