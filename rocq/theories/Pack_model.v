(** Model of packing and unpacking of high-level patterns (models and composite
    states): _Mem::pack_hlp, unpack_hlp and what they call (r_exec/mem.cpp).

    Positions in a code are natural numbers (uint16 in the code: codes are assumed
    shorter than 65536 atoms, as in r_code/object.h:400-403); the arithmetic on the
    indices that are held in atoms is modulo 2^16.  None: a reference index out of
    range, or recursion deeper than [fuel] (which only unpacking may need to any
    depth). *)
From Verif Require Import Base Atom_model.

(** An object referred to by a pattern: code and references (addresses). *)
Record payload := mkpayload { o_code : list Z; o_refs : list Z }.
(** A reference of a fact: an object built by unpacking or to be packed, or an object
    known by address. *)
Inductive fref := New (o : payload) | Old (address : Z).
Record fact := mkfact { f_code : list Z; f_refs : list fref }.
(** A reference of an unpacked pattern: a fact, or a group known by address. *)
Inductive href := F (f : fact) | G (address : Z).
Record hlp := mkhlp { h_code : list Z; h_refs : list href }.
(** A packed pattern: its references, and the hidden one. *)
Record packed := mkpacked { p_code : list Z; p_refs : list Z; p_hidden : hlp }.

(** resized_vector::operator[], r_code/resized_vector.h: assigning beyond the end
    lengthens the vector with default atoms (Atom(), 0xFFFFFFFF); reading beyond the
    end gives such an atom (it also lengthens the vector read, which is not
    modelled). *)
Definition blank : Z := 0xFFFFFFFF.
Definition get (c : list Z) (i : nat) : Z := nth i c blank.
Fixpoint write (c : list Z) (i : nat) (v : Z) : list Z :=
  match c, i with
  | [], O => [v]
  | _ :: c', O => v :: c'
  | [], S i' => blank :: write [] i' v
  | x :: c', S i' => x :: write c' i' v
  end.
(** HLP_OBJS, HLP_FWD_GUARDS, HLP_BWD_GUARDS, HLP_OUT_GRPS,
    r_code/replicode_defs.h:223-226. *)
Definition HLP_OBJS : nat := 2.
Definition HLP_FWD_GUARDS : nat := 3.
Definition HLP_BWD_GUARDS : nat := 4.
Definition HLP_OUT_GRPS : nat := 5.
Definition index_at (c : list Z) (i : nat) : nat := Z.to_nat (asIndex (get c i)).
Definition count_at (c : list Z) (i : nat) : nat := Z.to_nat (getAtomCount (get c i)).
(** The adjustment of the pointers of an atom, mem.cpp:1184-1194 and 1296-1306. *)
Definition shift (d : Z) (a : Z) : Z :=
  if getDescriptor a =? I_PTR then IPointer (u16 (asIndex a + d))
  else if getDescriptor a =? ASSIGN_PTR then AssignmentPointer (asAssignmentIndex a) (u16 (asIndex a + d))
  else a.

(** ** Packing *)
Fixpoint find_ref (l : list Z) (r : Z) : option nat :=
  match l with [] => None | x :: l' => if x =? r then Some O else match find_ref l' r with Some i => Some (S i) | None => None end end.
(** The loop of pack_fact_object, mem.cpp:1351-1383. *)
Fixpoint pack_atoms (offset : nat) (orefs : list Z) (l : list Z) (c refs : list Z) (w : nat) : option (list Z * list Z * nat) :=
  match l with
  | [] => Some (c, refs, w)
  | a :: l' =>
      if getDescriptor a =? R_PTR then
        match nth_error orefs (Z.to_nat (asIndex a)) with
        | None => None
        | Some r =>
            match find_ref refs r with
            | Some i => pack_atoms offset orefs l' (write c w (RPointer (Z.of_nat i))) refs (S w)
            | None => pack_atoms offset orefs l' (write c w (RPointer (u16 (Z.of_nat (length refs))))) (refs ++ [r]) (S w)
            end
        end
      else if getDescriptor a =? I_PTR then pack_atoms offset orefs l' (write c w (IPointer (u16 (Z.of_nat offset + asIndex a)))) refs (S w)
      else pack_atoms offset orefs l' (write c w a) refs (S w)
  end.
(** pack_fact_object, mem.cpp:1347-1384. *)
Definition pack_fact_object (o : payload) (c refs : list Z) (w : nat) : option (list Z * list Z * nat) := pack_atoms w (o_refs o) (o_code o) c refs w.
(** pack_fact, mem.cpp:1326-1345. *)
Fixpoint pack_fact_atoms (frefs : list fref) (l : list Z) (c refs : list Z) (w extent : nat) : option (list Z * list Z * nat) :=
  match l with
  | [] => Some (c, refs, extent)
  | a :: l' =>
      if getDescriptor a =? R_PTR then
        match nth_error frefs (Z.to_nat (asIndex a)) with
        | Some (New o) =>
            match pack_fact_object o (write c w (IPointer (u16 (Z.of_nat extent)))) refs extent with
            | Some (c, refs, extent) => pack_fact_atoms frefs l' c refs (S w) extent
            | None => None
            end
        | _ => None
        end
      else pack_fact_atoms frefs l' (write c w a) refs (S w) extent
  end.
Definition pack_fact (f : fact) (c refs : list Z) (w : nat) : option (list Z * list Z * nat) :=
  pack_fact_atoms (f_refs f) (f_code f) c refs w (w + length (f_code f)).
(** The loop over the patterns, mem.cpp:1284-1289; [n] patterns from number [i]. *)
Fixpoint pack_patterns (hrefs : list href) (set i n : nat) (c refs : list Z) (extent : nat) : option (list Z * list Z * nat) :=
  match n with
  | O => Some (c, refs, extent)
  | S n' =>
      match nth_error hrefs i with
      | Some (F f) =>
          match pack_fact f (write c (set + i + 1) (IPointer (u16 (Z.of_nat extent)))) refs extent with
          | Some (c, refs, extent) => pack_patterns hrefs set (S i) n' c refs extent
          | None => None
          end
      | _ => None
      end
  end.
(** The loop over the trailing code, mem.cpp:1293-1307. *)
Fixpoint write_all (c : list Z) (i : nat) (l : list Z) : list Z :=
  match l with [] => c | a :: l' => write_all (write c i a) (S i) l' end.
(** The loop over the output groups, mem.cpp:1315-1319; [n] groups from number [i]. *)
Fixpoint pack_groups (hrefs : list href) (set i n : nat) (c refs : list Z) : option (list Z * list Z) :=
  match n with
  | O => Some (c, refs)
  | S n' =>
      match nth_error hrefs (index_at c (set + i)) with
      | Some (G g) => pack_groups hrefs set (S i) n' (write c (set + i) (RPointer (u16 (Z.of_nat (length refs))))) (refs ++ [g])
      | _ => None
      end
  end.
(** The three pointers to sets that follow the patterns, mem.cpp:1309-1312 and
    1197-1200: computed from the code [c0], written in [c]. *)
Definition move_sets (d : Z) (c0 c : list Z) : list Z :=
  let at_ i := IPointer (u16 (asIndex (get c0 i) + d)) in
  write (write (write c HLP_FWD_GUARDS (at_ HLP_FWD_GUARDS)) HLP_BWD_GUARDS (at_ HLP_BWD_GUARDS)) HLP_OUT_GRPS (at_ HLP_OUT_GRPS).
(** pack_hlp, mem.cpp:1266-1324 (the clone, 1402-1414, has the same code and
    references). *)
Definition pack_hlp (h : hlp) : option packed :=
  let c := h_code h in
  let trailing := skipn (index_at c HLP_FWD_GUARDS) c in
  let groups := index_at c HLP_OUT_GRPS in
  let group_count := count_at c groups in
  let set := index_at c HLP_OBJS in
  let n := count_at c set in
  let point := (set + n + 1)%nat in
  match pack_patterns (h_refs h) set 0 n c [] point with
  | None => None
  | Some (c, refs, extent) =>
      let len := (extent - point)%nat in
      let c := write_all c extent (map (shift (Z.of_nat len)) trailing) in
      let c := move_sets (Z.of_nat len) c c in
      match pack_groups (h_refs h) (groups + len) 1 group_count c refs with
      | None => None
      | Some (c, refs) => Some (mkpacked c refs h)
      end
  end.

(** ** Unpacking *)
(** The loop of _unpack_code, mem.cpp:1246-1263: [k] atoms to go from [read]; the
    recursion is [rec]. *)
Fixpoint unpack_atoms (rec : nat -> payload -> option payload) (c refs : list Z) (base read k : nat) (o : payload) : option payload :=
  match k with
  | O => Some o
  | S k' =>
      let a := get c read in
      let put a := write (o_code o) (read - base) a in
      if getDescriptor a =? R_PTR then
        match nth_error refs (Z.to_nat (asIndex a)) with
        | None => None
        | Some r => unpack_atoms rec c refs base (S read) k' (mkpayload (put (RPointer (u16 (Z.of_nat (length (o_refs o)))))) (o_refs o ++ [r]))
        end
      else if getDescriptor a =? I_PTR then
        match rec (Z.to_nat (asIndex a)) (mkpayload (put (IPointer (u16 (asIndex a - Z.of_nat base)))) (o_refs o)) with
        | None => None
        | Some o => unpack_atoms rec c refs base (S read) k' o
        end
      else unpack_atoms rec c refs base (S read) k' (mkpayload (put a) (o_refs o))
  end.
(** _unpack_code, mem.cpp:1241-1264.  A read index lower than the base would give a
    negative write index (a huge one, modulo 2^16): None. *)
Fixpoint unpack_code (fuel : nat) (c refs : list Z) (base read : nat) (o : payload) : option payload :=
  match fuel with
  | O => None
  | S f => if (read <? base)%nat then None else unpack_atoms (unpack_code f c refs base) c refs base read (count_at c read + 1) o
  end.
(** unpack_fact_object, mem.cpp:1234-1239. *)
Definition unpack_fact_object (fuel : nat) (c refs : list Z) (i : nat) : option payload := unpack_code fuel c refs i i (mkpayload [] []).
(** unpack_fact, mem.cpp:1207-1232. *)
Fixpoint unpack_fact_atoms (fuel : nat) (c refs : list Z) (read k : nat) (f : fact) : option fact :=
  match k with
  | O => Some f
  | S k' =>
      let a := get c read in
      let ptr := RPointer (u16 (Z.of_nat (length (f_refs f)))) in
      if getDescriptor a =? I_PTR then
        match unpack_fact_object fuel c refs (Z.to_nat (asIndex a)) with
        | None => None
        | Some o => unpack_fact_atoms fuel c refs (S read) k' (mkfact (f_code f ++ [ptr]) (f_refs f ++ [New o]))
        end
      else if getDescriptor a =? R_PTR then
        match nth_error refs (Z.to_nat (asIndex a)) with
        | None => None
        | Some r => unpack_fact_atoms fuel c refs (S read) k' (mkfact (f_code f ++ [ptr]) (f_refs f ++ [Old r]))
        end
      else unpack_fact_atoms fuel c refs (S read) k' (mkfact (f_code f ++ [a]) (f_refs f))
  end.
Definition unpack_fact (fuel : nat) (c refs : list Z) (i : nat) : option fact := unpack_fact_atoms fuel c refs i (count_at c i + 1) (mkfact [] []).
(** The loop over the patterns, mem.cpp:1163-1168: [n] patterns from number [i]. *)
Fixpoint unpack_patterns (fuel : nat) (c refs : list Z) (set i n : nat) (h : hlp) : option hlp :=
  match n with
  | O => Some h
  | S n' =>
      match unpack_fact fuel c refs (index_at c (set + i)) with
      | None => None
      | Some f => unpack_patterns fuel c refs set (S i) n' (mkhlp (write (h_code h) (set + i) (RPointer (u16 (Z.of_nat (length (h_refs h)))))) (h_refs h ++ [F f]))
      end
  end.
(** The loop over the output groups, mem.cpp:1172-1176. *)
Fixpoint unpack_groups (c refs : list Z) (set i n : nat) (h : hlp) : option hlp :=
  match n with
  | O => Some h
  | S n' =>
      match nth_error refs (index_at c (set + i)) with
      | None => None
      | Some g => unpack_groups c refs set (S i) n' (mkhlp (write (h_code h) (set + i) (RPointer (u16 (Z.of_nat (length (h_refs h)))))) (h_refs h ++ [G g]))
      end
  end.
(** The loop that shifts the code upward, mem.cpp:1181-1195: [k] atoms from [i]. *)
Fixpoint shift_up (len i k : nat) (c : list Z) : list Z :=
  match k with O => c | S k' => shift_up len (S i) k' (write c (i - len) (shift (- Z.of_nat len) (get c i))) end.
(** unpack_hlp, mem.cpp:1154-1205: the object added as a hidden reference.  (When the
    code after the patterns starts before the end of the set of patterns, the
    difference of 1180 is negative: the result is then not meaningful.) *)
Definition unpack_hlp (fuel : nat) (c refs : list Z) : option hlp :=
  let set := index_at c HLP_OBJS in
  let n := count_at c set in
  match unpack_patterns fuel c refs set 1 n (mkhlp c []) with
  | None => None
  | Some h =>
      let groups := index_at c HLP_OUT_GRPS in
      match unpack_groups c refs (groups + 1) 0 (count_at c groups) h with
      | None => None
      | Some h =>
          let invalid := (set + n + 1)%nat in
          let valid := index_at c HLP_FWD_GUARDS in
          let len := (valid - invalid)%nat in
          let u := shift_up len valid (length c - valid) (h_code h) in
          let u := move_sets (- Z.of_nat len) c u in
          Some (mkhlp (firstn (length c - len) u) (h_refs h))
      end
  end.
