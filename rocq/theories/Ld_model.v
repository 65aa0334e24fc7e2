(** What is looked at and changed in the objects when they are loaded and when the memory starts:
    r_code/code_utils.cpp:253-280 (Utils::has_reference), r_exec/mem.cpp:334-356 (_Mem::load, models
    and composite states), 398-433 (update_timestamps, _Mem::init_timestamps).

    Simplification: indices, uint16 in the code, are not wrapped (codes have less than 65536 words). *)
From Verif Require Import Base Atom_model Utils_model.
Local Open Scope nat_scope.

(** [NoFuel]: the recursion has not ended yet.  [Bad]: a word beyond the code is read. *)
Inductive res (A : Type) := NoFuel | Bad | Ok (a : A).
Arguments NoFuel {A}. Arguments Bad {A}. Arguments Ok {A} a.

(** The structures of which both functions read the members. *)
Definition open_kind (d : Z) : bool :=
  ((d =? C_PTR) || (d =? SET) || (d =? OBJECT) || (d =? S_SET) || (d =? MARKER) || (d =? OPERATOR) || (d =? GROUP))%Z.

(** Utils::has_reference, code_utils.cpp:253-280; the loop over [n] members from the index [i] on. *)
Fixpoint has_reference (fuel : nat) (c : code) (i : nat) {struct fuel} : res bool :=
  match fuel with
  | 0 => NoFuel
  | S fuel =>
      match nth_error c i with
      | None => Bad
      | Some a =>
          let d := getDescriptor a in
          if (d =? R_PTR)%Z then Ok true
          else if (d =? I_PTR)%Z then has_reference fuel c (Z.to_nat (asIndex a))
          else if open_kind d || (d =? TIMESTAMP)%Z || (d =? DURATION)%Z then have_reference fuel c (S i) (Z.to_nat (getAtomCount a))
          else Ok false
      end
  end
with have_reference (fuel : nat) (c : code) (i n : nat) {struct fuel} : res bool :=
  match fuel with
  | 0 => NoFuel
  | S fuel =>
      match n with
      | 0 => Ok false
      | S n => match has_reference fuel c i with Ok false => have_reference fuel c (S i) n | r => r end
      end
  end.

(** replicode_defs.h:224-225 *)
Definition HLP_FWD_GUARDS : nat := 3.
Definition HLP_BWD_GUARDS : nat := 4.
(** _Mem::load, mem.cpp:335-343 and 348-355: [Ok true] if the model or the composite state is
    accepted. *)
Definition guards_accepted (fuel : nat) (c : code) : res bool :=
  match has_reference fuel c HLP_FWD_GUARDS with
  | Ok true => Ok false
  | Ok false => match has_reference fuel c HLP_BWD_GUARDS with Ok b => Ok (negb b) | r => r end
  | r => r
  end.

(** utils.h:357: Utils_MaxTime. *)
Definition max_time : Z := 9223372036854775807.
(** code_utils.cpp:129-138, mem.cpp:402-409: [reference] in microseconds. *)
Definition shift (reference : Z) (c : code) (i : nat) : res code :=
  match GetInt64 c (S i) with
  | None => Bad
  | Some t =>
      match upd c i ATimestamp with
      | None => Bad
      | Some c => match SetInt64 c (S i) (if (max_time - reference <=? t)%Z then max_time else t + reference) with Some c => Ok c | None => Bad end
      end
  end.
(** update_timestamps, mem.cpp:398-428. *)
Fixpoint update_timestamps (fuel : nat) (reference : Z) (c : code) (i : nat) {struct fuel} : res code :=
  match fuel with
  | 0 => NoFuel
  | S fuel =>
      match nth_error c i with
      | None => Bad
      | Some a =>
          let d := getDescriptor a in
          if (d =? TIMESTAMP)%Z then shift reference c i
          else if (d =? I_PTR)%Z then update_timestamps fuel reference c (Z.to_nat (asIndex a))
          else if open_kind d then update_members fuel reference c (S i) (Z.to_nat (getAtomCount a))
          else Ok c
      end
  end
with update_members (fuel : nat) (reference : Z) (c : code) (i n : nat) {struct fuel} : res code :=
  match fuel with
  | 0 => NoFuel
  | S fuel =>
      match n with
      | 0 => Ok c
      | S n => match update_timestamps fuel reference c i with Ok c => update_members fuel reference c (S i) n | r => r end
      end
  end.
(** _Mem::init_timestamps, mem.cpp:430-433, on one object. *)
Definition init_timestamps (fuel : nat) (reference : Z) (c : code) : res code := update_timestamps fuel reference c 0.
