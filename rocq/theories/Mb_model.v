(** Model of the model base: comparison and hashing of models, and the white and
    black lists (r_exec/model_base.h and model_base.cpp).

    What a model refers to is represented by a tree: a snapshot of the objects
    reachable from it, each with its address.  Simplifications: the references are
    acyclic (on a cycle MEntry::Match would not return); later changes of the objects
    referred to are not reflected in the snapshots, except for the redirection done
    by check_existence and the packing of the first model of a pair. *)
From Verif Require Import Base Atom_model.

(** An object other than a fact of a model: entities and ontology members are
    compared by address only, model_base.cpp:152-155; [Known] stands for both. *)
Inductive tree := Known (address : Z) | Node (address : Z) (code : list Z) (refs : list tree).
Definition address (t : tree) : Z := match t with Known a | Node a _ _ => a end.
(** A fact of a model: its first atom and its payload (which is never an entity nor
    an ontology member). *)
Record fact := mkfact { f_head : Z; p_addr : Z; p_code : list Z; p_refs : list tree }.
(** A model: its address, its unpacked code, and its two facts. *)
Record mdl := mkmdl { addr : Z; mcode : list Z; lhs : fact; rhs : fact }.
(** The opcodes used, r_exec/opcodes.h. *)
Record ops := mkops { op_fact : Z; op_cmd : Z; op_imdl : Z; op_icst : Z }.

(** ** Comparison *)
Definition same_code (c d : list Z) : bool := if list_eq_dec Z.eq_dec c d then true else false.
(** MEntry::Match, model_base.cpp:150-171. *)
Fixpoint Match (l r : tree) : bool :=
  match l, r with
  | Known a, Known b => a =? b
  | Node _ c ls, Node _ d rs => same_code c d &&
      (fix go (ls rs : list tree) : bool :=
         match ls, rs with
         | [], [] => true
         | x :: ls', y :: rs' => Match x y && go ls' rs'
         | _, _ => false
         end) ls rs
  | _, _ => false
  end.
Fixpoint Match_all (ls rs : list tree) : bool :=
  match ls, rs with
  | [], [] => true
  | x :: ls', y :: rs' => Match x y && Match_all ls' rs'
  | _, _ => false
  end.
(** Members 6 to 10 are house keeping data (MDL_STRENGTH, MDL_CNT, MDL_SR, MDL_DSR,
    MDL_ARITY), model_base.cpp:192. *)
Definition house_keeping (i : nat) : bool := (6 <=? i)%nat && (i <=? 10)%nat.
Fixpoint same_but (i : nat) (c d : list Z) : bool :=
  match c, d with
  | [], [] => true
  | x :: c', y :: d' => (house_keeping i || (x =? y)) && same_but (S i) c' d'
  | _, _ => false
  end.
(** MEntry::match, model_base.cpp:179-222.  The shortcut for identical pointers
    (181-182) is left out: [match_entry] is reflexive.  The tests of 201-204 are left
    out: facts have a payload. *)
Definition match_fact (f g : fact) : bool := (f_head f =? f_head g) && (same_code (p_code f) (p_code g) && Match_all (p_refs f) (p_refs g)).
Definition match_entry (a b : mdl) : bool := same_but 0 (mcode a) (mcode b) && match_fact (lhs a) (lhs b) && match_fact (rhs a) (rhs b).

(** ** Hashing *)
Definition first_ref (f : fact) : Z := match p_refs f with t :: _ => address t | [] => 0 end.
(** MEntry::_ComputeHashCode, model_base.cpp:94-128. *)
Definition hash_fact (o : ops) (f : fact) : Z :=
  let h := if asOpcode (f_head f) =? op_fact o then 0 else 0x2000 in
  let head := hd 0 (p_code f) in
  let opcode := asOpcode head in
  if getDescriptor head =? OBJECT then
    if opcode =? op_cmd o then Z.lor (Z.lor h 0x800) (Z.land (asOpcode (nth 1 (p_code f) 0)) 0x3FF)
    else if opcode =? op_imdl o then Z.lor (Z.lor h 0xC00) (Z.land (first_ref f) 0x3FF)
    else if opcode =? op_icst o then Z.lor (Z.lor h 0x1000) (Z.land (first_ref f) 0x3FF)
    else Z.lor h (Z.land opcode 0x3FF)
  else if getDescriptor head =? MARKER then Z.lor (Z.lor h 0x400) (Z.land opcode 0x3FF)
  else h.
(** MEntry::ComputeHashCode, model_base.cpp:130-148 (HLP_TPL_ARGS is member 1). *)
Definition hash (o : ops) (m : mdl) : Z :=
  let tpl := getAtomCount (nth (Z.to_nat (asIndex (nth 1 (mcode m) 0))) (mcode m) 0) in
  Z.lor (Z.lor (u32 (Z.shiftl tpl 28)) (Z.shiftl (hash_fact o (lhs m)) 14)) (hash_fact o (rhs m)).

(** ** The base *)
(** MEntry: model and touch_time_ (the hash code is computed from the model). *)
Record entry := mkentry { e_mdl : mdl; touch : Z }.
(** white_list_ and black_list_: unordered sets of entries, MEntry::Equal being
    [match_entry] and MEntry::Hash [hash].  An element is found when both agree.
    (The library may also find a matching element with another hash code that falls
    in the same bucket; this is not modelled.)  The order of the lists is that of
    insertion. *)
Record base := mkbase { white : list entry; black : list entry }.
Section Base.
Context (o : ops) (thz : Z) (pack : tree -> tree).
(** Equality of the sets. *)
Definition equal (a b : mdl) : bool := (hash o a =? hash o b) && match_entry a b.
Definition find (l : list entry) (m : mdl) : option entry := List.find (fun e => equal m (e_mdl e)) l.
Definition erase (l : list entry) (m : mdl) : list entry := filter (fun e => negb (equal m (e_mdl e))) l.
Definition insert (l : list entry) (e : entry) : list entry := match find l (e_mdl e) with Some _ => l | None => l ++ [e] end.
(** The removal and insertion with a new time, model_base.cpp:284-287, 296-299. *)
Definition touched (l : list entry) (e : entry) (now : Z) : list entry := insert (erase l (e_mdl e)) (mkentry (e_mdl e) now).
(** trim_objects, model_base.cpp:238-251. *)
Definition trim (b : base) (now : Z) : base := mkbase (white b) (filter (fun e => negb (thz <=? now - touch e)) (black b)).
(** load, model_base.cpp:253-260; [viewed] tells that the model has views. *)
Definition load (b : base) (m : mdl) (viewed : bool) (now : Z) : base :=
  if viewed then mkbase (insert (white b) (mkentry m now)) (black b) else mkbase (white b) (insert (black b) (mkentry m now)).
(** check_existence(mdl), model_base.cpp:273-310.  The answer is a model or nothing.
    Packing leaves the comparison and the hash of the entry unchanged: both look at
    the unpacked copy (185-186, 135-139). *)
Definition check (b : base) (m : mdl) (now : Z) : base * option mdl :=
  match find (black b) m with
  | Some e => (mkbase (white b) (touched (black b) e now), None)
  | None =>
      match find (white b) m with
      | Some e => (mkbase (touched (white b) e now) (black b), Some (e_mdl e))
      | None => (mkbase (insert (white b) (mkentry m now)) (black b), Some m)
      end
  end.
(** The model as an object that others refer to (unpacked, or packed).  The out-groups
    it refers to are left out: they are part of [pack]. *)
Definition as_tree (m : mdl) : tree :=
  Node (addr m) (mcode m) [Node 0 [f_head (lhs m)] [Node (p_addr (lhs m)) (p_code (lhs m)) (p_refs (lhs m))];
                           Node 0 [f_head (rhs m)] [Node (p_addr (rhs m)) (p_code (rhs m)) (p_refs (rhs m))]].
(** The right-hand fact of the second model of a pair is about an instance of the
    first: its payload refers to the first model.  set_reference(0, _m0), 340-342. *)
Definition redirect (m : mdl) (t : tree) : mdl :=
  mkmdl (addr m) (mcode m) (lhs m) (mkfact (f_head (rhs m)) (p_addr (rhs m)) (p_code (rhs m)) (t :: tl (p_refs (rhs m)))).
(** check_existence(m0, m1, _m0, _m1), model_base.cpp:312-381.  [m1] refers to [m0]:
    it is given with any first reference, which is set here.  As long as [m0] is not
    packed the reference leads to its unpacked code; once it is in the white list it
    is packed ([pack]: the effect of pack_hlp, any function here). *)
Definition check_pair (b : base) (m0 m1 : mdl) (now : Z) : base * option mdl * option mdl :=
  match find (black b) m0 with
  | Some e => (mkbase (white b) (touched (black b) e now), None, None)
  | None =>
      let known := find (white b) m0 in
      let '(b, a0, m1') :=
        match known with
        | Some e => (mkbase (touched (white b) e now) (black b), e_mdl e, redirect m1 (pack (as_tree (e_mdl e))))
        | None => (b, m0, redirect m1 (as_tree m0))
        end in
      match find (black b) m1' with
      | Some e => (mkbase (white b) (touched (black b) e now), Some a0, None)
      | None =>
          match find (white b) m1' with
          | Some e => (mkbase (touched (white b) e now) (black b), Some a0, Some (e_mdl e))
          | None =>
              let b := match known with Some _ => b | None => mkbase (insert (white b) (mkentry m0 now)) (black b) end in
              let m1' := redirect m1 (pack (as_tree a0)) in
              (mkbase (insert (white b) (mkentry m1' now)) (black b), Some a0, Some m1')
          end
      end
  end.
(** register_mdl_failure, model_base.cpp:383-390. *)
Definition failure (b : base) (m : mdl) (now : Z) : base := mkbase (erase (white b) m) (insert (black b) (mkentry m now)).
(** register_mdl_timeout, model_base.cpp:392-398. *)
Definition timeout (b : base) (m : mdl) : base := mkbase (erase (white b) m) (black b).
(** get_models, model_base.cpp:262-271. *)
Definition get_models (b : base) : list mdl := map e_mdl (white b) ++ map e_mdl (black b).

Inductive op := Submit (m : mdl) (now : Z) | SubmitPair (m0 m1 : mdl) (now : Z) | Failure (m : mdl) (now : Z) | Timeout (m : mdl) | Trim (now : Z)
  | LoadMdl (m : mdl) (viewed : bool) (now : Z).
Definition step (b : base) (x : op) : base :=
  match x with
  | Submit m now => fst (check b m now)
  | SubmitPair m0 m1 now => fst (fst (check_pair b m0 m1 now))
  | Failure m now => failure b m now
  | Timeout m => timeout b m
  | Trim now => trim b now
  | LoadMdl m v now => load b m v now
  end.
Definition run (b : base) (xs : list op) : base := fold_left step xs b.
Definition empty : base := mkbase [] [].
End Base.
