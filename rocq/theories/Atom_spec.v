(** Vocabulary for the atom properties: what a caller puts into an atom, and
    what a caller can read from an atom with the documented accessors. *)
From Verif Require Import Base Float32 Atom_model.

(** Kinds of single-index pointers. *)
Inductive ptr := PI | PR | PVL | PIPGM | PVALUE | PPROD | POUT.
(** Kinds of structure heads carrying an opcode and an element count. *)
Inductive head := HSSet | HObject | HMarker | HOperator | HPgm | HGroup | HCpp | HAnti
                | HInputLess | HCst | HMdl.

(** What the caller supplies. *)
Inductive atom_val :=
| VFloat (bits : Z)                      (* float32 pattern *)
| VNil | VBool (b : bool)
| VWildcard (opcode : Z) | VTailWildcard
| VPtr (k : ptr) (index : Z)
| VInObj (input_index index : Z)
| VDInObj (relative_index index : Z)
| VAssign (variable_index index : Z)
| VCodeVL (index cast_opcode : Z)
| VThis | VView | VMks | VVws
| VHead (h : head) (opcode count : Z)
| VSet (count : Z) | VCPtr (count : Z)
| VNode (id : Z)
| VDevice (node cls dev : Z)
| VDeviceFunction (opcode : Z)
| VString (chars : Z)
| VTimestamp | VDuration
| VNullProgram (past : bool).

(** The documented widths (r_code/atom.h:100-102 and the parameter types).  A
    float is listed with its lowest mantissa bit clear, because the encoding
    drops that bit (r_code/atom.h:168). *)
Definition fits (v : atom_val) : Prop :=
  match v with
  | VFloat b => is_u32 b /\ b mod 2 = 0
  | VWildcard o | VDeviceFunction o => 0 <= o < 4096
  | VPtr _ i => 0 <= i < 4096
  | VInObj j i | VDInObj j i | VAssign j i => is_u8 j /\ 0 <= i < 4096
  | VCodeVL i c => 0 <= i < 4096 /\ 0 <= c < 4096
  | VHead _ o n => 0 <= o < 4096 /\ is_u8 n
  | VSet n | VCPtr n | VNode n | VString n => is_u8 n
  | VDevice n c d => is_u8 n /\ is_u8 c /\ is_u8 d
  | _ => True
  end.

(** Calling the public constructors. *)
Definition build (v : atom_val) : Z :=
  match v with
  | VFloat b => Float b
  | VNil => Nil
  | VBool b => Boolean b
  | VWildcard o => Wildcard o
  | VTailWildcard => TailWildcard
  | VPtr PI i => IPointer i
  | VPtr PR i => RPointer i
  | VPtr PVL i => VLPointer i
  | VPtr PIPGM i => IPGMPointer i
  | VPtr PVALUE i => ValuePointer i
  | VPtr PPROD i => ProductionPointer i
  | VPtr POUT i => OutObjPointer i
  | VInObj j i => InObjPointer j i
  | VDInObj j i => DInObjPointer j i
  | VAssign j i => AssignmentPointer j i
  | VCodeVL i c => CodeVLPointer i c
  | VThis => This | VView => AView | VMks => Mks | VVws => Vws
  | VHead HSSet o n => SSet o n
  | VHead HObject o n => AObject o n
  | VHead HMarker o n => Marker o n
  | VHead HOperator o n => Operator o n
  | VHead HPgm o n => InstantiatedProgram o n
  | VHead HGroup o n => AGroup o n
  | VHead HCpp o n => InstantiatedCPPProgram o n
  | VHead HAnti o n => InstantiatedAntiProgram o n
  | VHead HInputLess o n => InstantiatedInputLessProgram o n
  | VHead HCst o n => CompositeState o n
  | VHead HMdl o n => AModel o n
  | VSet n => ASet n
  | VCPtr n => CPointer n
  | VNode n => Node n
  | VDevice n c d => Device n c d
  | VDeviceFunction o => DeviceFunction o
  | VString n => AString n
  | VTimestamp => ATimestamp
  | VDuration => ADuration
  | VNullProgram b => NullProgram b
  end.

(** Reading an atom with the accessors documented for its kind
    (r_code/atom.h:231-258).  The number of characters of a string is read as
    [atom_ & 0xFF], as the code does (r_code/utils.h, Utils::GetString). *)
Definition read_back (a : Z) : option atom_val :=
  let d := getDescriptor a in
  if isFloat a then Some (VFloat (asFloat a))
  else if d =? NIL then Some VNil
  else if d =? BOOLEAN_ then Some (VBool (asBoolean a))
  else if d =? WILDCARD then Some (VWildcard (asOpcode a))
  else if d =? T_WILDCARD then Some VTailWildcard
  else if d =? I_PTR then Some (VPtr PI (asIndex a))
  else if d =? R_PTR then Some (VPtr PR (asIndex a))
  else if d =? VL_PTR then Some (VPtr PVL (asIndex a))
  else if d =? IPGM_PTR then Some (VPtr PIPGM (asIndex a))
  else if d =? VALUE_PTR then Some (VPtr PVALUE (asIndex a))
  else if d =? PROD_PTR then Some (VPtr PPROD (asIndex a))
  else if d =? OUT_OBJ_PTR then Some (VPtr POUT (asIndex a))
  else if d =? IN_OBJ_PTR then Some (VInObj (asInputIndex a) (asIndex a))
  else if d =? D_IN_OBJ_PTR then Some (VDInObj (asRelativeIndex a) (asIndex a))
  else if d =? ASSIGN_PTR then Some (VAssign (asAssignmentIndex a) (asIndex a))
  else if d =? CODE_VL_PTR then Some (VCodeVL (asIndex a) (asCastOpcode a))
  else if d =? THIS then Some VThis
  else if d =? VIEW then Some VView
  else if d =? MKS then Some VMks
  else if d =? VWS then Some VVws
  else if d =? S_SET then Some (VHead HSSet (asOpcode a) (getAtomCount a))
  else if d =? OBJECT then Some (VHead HObject (asOpcode a) (getAtomCount a))
  else if d =? MARKER then Some (VHead HMarker (asOpcode a) (getAtomCount a))
  else if d =? OPERATOR then Some (VHead HOperator (asOpcode a) (getAtomCount a))
  else if d =? INSTANTIATED_PROGRAM then Some (VHead HPgm (asOpcode a) (getAtomCount a))
  else if d =? GROUP then Some (VHead HGroup (asOpcode a) (getAtomCount a))
  else if d =? INSTANTIATED_CPP_PROGRAM then Some (VHead HCpp (asOpcode a) (getAtomCount a))
  else if d =? INSTANTIATED_ANTI_PROGRAM then Some (VHead HAnti (asOpcode a) (getAtomCount a))
  else if d =? INSTANTIATED_INPUT_LESS_PROGRAM then Some (VHead HInputLess (asOpcode a) (getAtomCount a))
  else if d =? COMPOSITE_STATE then Some (VHead HCst (asOpcode a) (getAtomCount a))
  else if d =? MODEL then Some (VHead HMdl (asOpcode a) (getAtomCount a))
  else if d =? SET then Some (VSet (getAtomCount a))
  else if d =? C_PTR then Some (VCPtr (getAtomCount a))
  else if d =? NODE then Some (VNode (getNodeID a))
  else if d =? DEVICE then Some (VDevice (getNodeID a) (getClassID a) (getDeviceID a))
  else if d =? DEVICE_FUNCTION then Some (VDeviceFunction (asOpcode a))
  else if d =? STRING then Some (VString (Z.land a 0xFF))
  else if d =? TIMESTAMP then Some VTimestamp
  else if d =? DURATION then Some VDuration
  else if d =? NULL_PROGRAM then Some (VNullProgram (takesPastInputs a))
  else None.

(** The number of atoms that follow a head: element counts for sets and
    objects, 4-character blocks for strings, two words for times. *)
Definition following_atoms (v : atom_val) : option Z :=
  match v with
  | VHead _ _ n | VSet n | VCPtr n => Some n
  | VString n => Some ((n + 3) / 4)
  | VTimestamp | VDuration => Some 2
  | VFloat _ => None     (* a float has no descriptor byte *)
  | _ => Some 0
  end.

(** A number with the lowest bit of its significand cleared. *)
Definition clear_low (f : spec_float) : spec_float :=
  match f with
  | S754_finite s m e =>
      match Zpos m - Zpos m mod 2 with Zpos p => S754_finite s p e | _ => S754_zero s end
  | _ => f
  end.

(** Storing a float32 pattern in an atom and reading it back. *)
Definition store_load (bits : Z) : Z := asFloat (Float bits).
