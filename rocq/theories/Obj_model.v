(** Objects: equality, hashing, propagation threshold, identifiers and storage.
    Sources: r_exec/object.h, r_exec/object.tpl.cpp, r_exec/mem.cpp,
    r_exec/mem.tpl.cpp, r_code/object.h. *)
From Verif Require Import Base Float32 Atom_model CellList_model.

(** ** The content of an object *)

(** r_code/object.h:373-417 (LocalObject) and r_exec/object.h:120-129 (Object).
    [ident] stands for the address of the object; references are addresses.
    [hash_value] is the cached hash, 0 when not computed yet. *)
Record obj := mkobj { ident : nat; code : list Z; refs : list nat; hash_value : Z }.

(** The opcode of the class [ent], registered at run time (r_exec/opcodes.h). *)
Section Opcodes.
Variable ent_opcode : Z.

(** The two loops of Object::Equal, r_exec/object.h:177-184: only the sizes of
    [lhs] bound the loops; [None] is a read past the end of [rhs]. *)
Fixpoint equal_prefix {A} (eqb : A -> A -> bool) (l r : list A) : option bool :=
  match l, r with
  | [], _ => Some true
  | x :: l', y :: r' => if eqb x y then equal_prefix eqb l' r' else Some false
  | _ :: _, [] => None
  end.

(** Object::Equal::operator(), r_exec/object.h:171-186. *)
Definition obj_equal (lhs rhs : obj) : option bool :=
  match code lhs, code rhs with
  | a :: _, b :: _ =>
      if (asOpcode a =? ent_opcode) || (asOpcode b =? ent_opcode) then Some (Nat.eqb (ident lhs) (ident rhs))
      else match equal_prefix Nat.eqb (refs lhs) (refs rhs) with
           | Some true => equal_prefix Z.eqb (code lhs) (code rhs)
           | r => r
           end
  | _, _ => None
  end.
End Opcodes.

(** Object::compute_hash_value, r_exec/object.tpl.cpp:127-132.  The shift is done
    on [int]; its value is taken modulo 2^32, as two's complement, and converted
    to [size_t] with sign extension. *)
Definition compute_hash (o : obj) : option Z :=
  match code o with
  | [] => None
  | a :: _ =>
      let op := u32 (Z.shiftl (asOpcode a) 20) in
      let op := if op <? 2147483648 then op else op - 4294967296 in
      Some (Z.lor (Z.lor (u64 op) (Z.shiftl (Z.land (u16 (Z.of_nat (length (code o)))) 0xFFF) 8))
                  (Z.land (u16 (Z.of_nat (length (refs o)))) 0xFF))
  end.

(** Object::Hash::operator(), r_exec/object.h:161-166: the hash and the object
    with its cache filled. *)
Definition hash (o : obj) : option (Z * obj) :=
  if hash_value o =? 0 then
    match compute_hash o with Some h => Some (h, mkobj (ident o) (code o) (refs o) h) | None => None end
  else Some (hash_value o, o).

(** MemExec::check_existence, r_exec/mem.tpl.cpp:200-212, for the class LObject
    (RequiresPacking is false, r_exec/object.h:197): nothing is looked up in the
    objects of the memory ([known]). *)
Definition check_existence (known : list obj) (o : obj) : obj := o.

(** ** The propagation threshold *)

(** [asFloat] and [Atom::Float] on numbers. *)
Definition num (a : Z) : spec_float := f32_of_bits (asFloat a).
Definition of_num (f : spec_float) : Z := Float (bits_of_f32 f).

(** Object::get_psln_thr, r_exec/object.tpl.cpp:134-140; the critical section is
    not modelled here. *)
Definition get_psln_thr (c : list Z) : option spec_float :=
  match c with
  | [] => None
  | a :: _ => option_map num (nth_error c (Z.to_nat (getAtomCount a)))
  end.

(** Object::mod, r_exec/object.tpl.cpp:142-155. *)
Definition obj_mod (c : list Z) (member : nat) (v : spec_float) : option (list Z) :=
  if Nat.eqb (S member) (length c) then
    match nth_error c member with
    | None => None
    | Some a =>
        let x := fadd (num a) v in
        let x := if flt x fzero then fzero else if flt fone x then fone else x in
        upd c member (of_num x)
    end
  else Some c.

(** Object::set, r_exec/object.tpl.cpp:157-165. *)
Definition obj_set (c : list Z) (member : nat) (v : spec_float) : option (list Z) :=
  if Nat.eqb (S member) (length c) then upd c member (of_num v) else Some c.

(** ** Identifiers and storage *)

(** UNDEFINED_OID, r_code/replicode_defs.h:285. *)
Definition UNDEFINED_OID := 0xFFFFFFFF.

(** What matters of an object here: its identifier (oid_), its storage index
    ([None]: null_storage_index, r_code/object.h:226), whether its first atom is a
    NULL_PROGRAM, whether it was invalidated. *)
Record entry := mkentry { oid : Z; storage : option nat; null_pgm : bool; invalidated : bool }.

(** The part of a MemStatic (r_exec/mem.h:932-950) that deals with identifiers.
    [ents]: every object of the process, by address.  deleted_ is false: the
    memory is in use.  [keep]: keep_invalidated_objects_. *)
Record memory := mkmem { last_oid : Z; ents : nat -> entry; objects : cells_list nat; keep : bool }.

Definition set_ent (f : nat -> entry) (o : nat) (e : entry) : nat -> entry :=
  fun x => if Nat.eqb x o then e else f x.

(** _Mem::store, r_exec/mem.cpp:291-296. *)
Definition store (m : memory) (o : nat) : option memory :=
  match push_back (objects m) o with
  | Some (l, Some loc) =>
      let e := ents m o in
      Some (mkmem (last_oid m) (set_ent (ents m) o (mkentry (oid e) (Some loc) (null_pgm e) (invalidated e))) l (keep m))
  | _ => None
  end.

Fixpoint store_all (m : memory) (os : list nat) : option memory :=
  match os with
  | [] => Some m
  | o :: os' => match store m o with Some m' => store_all m' os' | None => None end
  end.

(** The highest identifier, r_exec/mem.cpp:315-318. *)
Definition highest_oid (m : memory) (os : list nat) : Z :=
  fold_left (fun h o => Z.max h (oid (ents m o))) os 0.

(** _Mem::load, r_exec/mem.cpp:298-340, as far as identifiers and storage go.
    [None] for an empty vector: element 0 is read. *)
Definition load (m : memory) (os : list nat) : option memory :=
  match os with
  | [] => None
  | root :: others =>
      match store m root with
      | None => None
      | Some m1 =>
          let last := u32 (Z.max (highest_oid m1 os) (Z.of_nat (length os) - 1)) in
          store_all (mkmem last (ents m1) (objects m1) (keep m1)) others
      end
  end.

(** MemStatic::bind, r_exec/mem.cpp:1448-1463 (the view sets are not modelled
    here); MemVolatile::bind, 1513-1518, differs in storing nothing. *)
Definition bind (m : memory) (o : nat) : option memory :=
  let id := u32 (last_oid m + 1) in
  let e := ents m o in
  let m1 := mkmem id (set_ent (ents m) o (mkentry id (storage e) (null_pgm e) (invalidated e))) (objects m) (keep m) in
  if null_pgm e then Some m1 else store m1 o.

(** Object::invalidate, r_exec/object.tpl.cpp:105-125, and
    MemStatic::delete_object, r_exec/mem.cpp:1469-1481.  The views of the object
    and the marker sets of its references are not modelled here. *)
Definition invalidate (m : memory) (o : nat) : option memory :=
  let e := ents m o in
  if invalidated e then Some m
  else
    let f := set_ent (ents m) o (mkentry (oid e) (storage e) (null_pgm e) true) in
    match storage e with
    | None => Some (mkmem (last_oid m) f (objects m) (keep m))
    | Some h =>
        if keep m then Some (mkmem (last_oid m) f (objects m) (keep m))
        else match erase (objects m) h with
             | Some (l, _) => Some (mkmem (last_oid m) f l (keep m))
             | None => None
             end
    end.
