(** Model of [r_code::Atom]: 32-bit words of r-code.  An atom is its word
    [atom_] (r_code/atom.h:229), a [Z] in [0, 2^32).  Arguments of C++ type
    uint8/uint16 are [Z]; the theorems assume them in range.  Every constructor
    converts its sum to uint32 as [Atom(uint32 a)] does (atom.inline.cpp:346). *)
From Verif Require Import Base.

(** r_code/atom.h:125-165, the descriptors. *)
Definition NIL := 0x80.
Definition BOOLEAN_ := 0x81.
Definition WILDCARD := 0x82.
Definition T_WILDCARD := 0x83.
Definition I_PTR := 0x84.
Definition R_PTR := 0x85.
Definition VL_PTR := 0x86.
Definition IPGM_PTR := 0x87.
Definition IN_OBJ_PTR := 0x88.
Definition VALUE_PTR := 0x89.
Definition PROD_PTR := 0x8A.
Definition OUT_OBJ_PTR := 0x8B.
Definition D_IN_OBJ_PTR := 0x8C.
Definition ASSIGN_PTR := 0x8D.
Definition CODE_VL_PTR := 0x8E.
Definition THIS := 0x90.
Definition VIEW := 0x91.
Definition MKS := 0x92.
Definition VWS := 0x93.
Definition NODE := 0xA0.
Definition DEVICE := 0xA1.
Definition DEVICE_FUNCTION := 0xA2.
Definition C_PTR := 0xC0.
Definition SET := 0xC1.
Definition S_SET := 0xC2.
Definition OBJECT := 0xC3.
Definition MARKER := 0xC4.
Definition OPERATOR := 0xC5.
Definition STRING := 0xC6.
Definition TIMESTAMP := 0xC7.
Definition GROUP := 0xC8.
Definition INSTANTIATED_PROGRAM := 0xC9.
Definition INSTANTIATED_CPP_PROGRAM := 0xCA.
Definition INSTANTIATED_INPUT_LESS_PROGRAM := 0xCB.
Definition INSTANTIATED_ANTI_PROGRAM := 0xCC.
Definition COMPOSITE_STATE := 0xCD.
Definition MODEL := 0xCE.
Definition NULL_PROGRAM := 0xCF.
Definition DURATION := 0xD0.

(** [d << 24]: the descriptor byte in place. *)
Definition desc (d : Z) : Z := Z.shiftl d 24.

(** atom.inline.cpp:88-93.  The argument is the 32-bit pattern of the float32. *)
Definition Float (bits : Z) : Z := u32 (Z.shiftr bits 1).
(** atom.inline.cpp:95-98 *)
Definition PlusInfinity : Z := 0x3FC00000.
(** atom.inline.cpp:100-103 *)
Definition MinusInfinity : Z := 0x7FC00000.
(** atom.inline.cpp:105-108 (the source has seven F's) *)
Definition UndefinedFloat : Z := 0xFFFFFFF.
(** atom.inline.cpp:110-113 *)
Definition Nil : Z := u32 (desc NIL).
(** atom.inline.cpp:115-118 *)
Definition Boolean (b : bool) : Z := u32 (desc BOOLEAN_ + (if b then 1 else 0)).
(** atom.inline.cpp:120-123 *)
Definition UndefinedBoolean : Z := 0x81FFFFFF.
(** atom.inline.cpp:125-128 *)
Definition Wildcard (opcode : Z) : Z := u32 (desc WILDCARD + Z.shiftl (Z.land opcode 0x0FFF) 8).
(** atom.inline.cpp:130-133 *)
Definition TailWildcard : Z := u32 (desc T_WILDCARD).
(** atom.inline.cpp:135-138 *)
Definition IPointer (index : Z) : Z := u32 (desc I_PTR + Z.land index 0x0FFF).
(** atom.inline.cpp:140-143 *)
Definition VLPointer (index : Z) : Z := u32 (desc VL_PTR + Z.land index 0x0FFF).
(** atom.inline.cpp:145-148 *)
Definition RPointer (index : Z) : Z := u32 (desc R_PTR + Z.land index 0x0FFF).
(** atom.inline.cpp:150-153 *)
Definition IPGMPointer (index : Z) : Z := u32 (desc IPGM_PTR + Z.land index 0x0FFF).
(** atom.inline.cpp:155-158 *)
Definition InObjPointer (input_index index : Z) : Z :=
  u32 (desc IN_OBJ_PTR + Z.shiftl input_index 12 + Z.land index 0x0FFF).
(** atom.inline.cpp:160-163 *)
Definition DInObjPointer (relative_index index : Z) : Z :=
  u32 (desc D_IN_OBJ_PTR + Z.shiftl relative_index 12 + Z.land index 0x0FFF).
(** atom.inline.cpp:165-168 *)
Definition OutObjPointer (index : Z) : Z := u32 (desc OUT_OBJ_PTR + Z.land index 0x0FFF).
(** atom.inline.cpp:170-173 *)
Definition ValuePointer (index : Z) : Z := u32 (desc VALUE_PTR + Z.land index 0x0FFF).
(** atom.inline.cpp:175-178 *)
Definition ProductionPointer (index : Z) : Z := u32 (desc PROD_PTR + Z.land index 0x0FFF).
(** atom.inline.cpp:180-183 *)
Definition AssignmentPointer (variable_index index : Z) : Z :=
  u32 (desc ASSIGN_PTR + Z.shiftl variable_index 16 + Z.land index 0x0FFF).
(** atom.inline.cpp:185-188 *)
Definition CodeVLPointer (index cast_opcode : Z) : Z :=
  u32 (desc CODE_VL_PTR + Z.shiftl (Z.land cast_opcode 0x0FFF) 12 + Z.land index 0x0FFF).
(** atom.inline.cpp:190-208 *)
Definition This : Z := u32 (desc THIS).
Definition AView : Z := u32 (desc VIEW).
Definition Mks : Z := u32 (desc MKS).
Definition Vws : Z := u32 (desc VWS).
(** atom.inline.cpp:210-213 *)
Definition SSet (opcode element_count : Z) : Z :=
  u32 (desc S_SET + Z.shiftl (Z.land opcode 0x0FFF) 8 + element_count).
(** atom.inline.cpp:215-218 *)
Definition ASet (element_count : Z) : Z := u32 (desc SET + element_count).
(** atom.inline.cpp:220-223 *)
Definition CPointer (element_count : Z) : Z := u32 (desc C_PTR + element_count).
(** atom.inline.cpp:225-228 *)
Definition AObject (opcode arity : Z) : Z :=
  u32 (desc OBJECT + Z.shiftl (Z.land opcode 0x0FFF) 8 + arity).
(** atom.inline.cpp:230-233 *)
Definition Marker (opcode arity : Z) : Z :=
  u32 (desc MARKER + Z.shiftl (Z.land opcode 0x0FFF) 8 + arity).
(** atom.inline.cpp:235-238 *)
Definition Operator (opcode arity : Z) : Z :=
  u32 (desc OPERATOR + Z.shiftl (Z.land opcode 0x0FFF) 8 + arity).
(** atom.inline.cpp:240-243 *)
Definition Node (node_id : Z) : Z := u32 (desc NODE + Z.shiftl node_id 8).
(** atom.inline.cpp:245-248 *)
Definition UndefinedNode : Z := 0xA0FFFFFF.
(** atom.inline.cpp:250-253 *)
Definition Device (node_id class_id dev_id : Z) : Z :=
  u32 (desc DEVICE + Z.shiftl node_id 16 + Z.shiftl class_id 8 + dev_id).
(** atom.inline.cpp:255-258 *)
Definition UndefinedDevice : Z := 0xA1FFFFFF.
(** atom.inline.cpp:260-263; the opcode is not masked here. *)
Definition DeviceFunction (opcode : Z) : Z := u32 (desc DEVICE_FUNCTION + Z.shiftl opcode 8).
(** atom.inline.cpp:265-268 *)
Definition UndefinedDeviceFunction : Z := 0xA2FFFFFF.
(** atom.inline.cpp:270-276 *)
Definition AString (character_count : Z) : Z :=
  let blocks := u8 (character_count / 4) in
  let blocks := if character_count mod 4 =? 0 then blocks else u8 (blocks + 1) in
  u32 (desc STRING + Z.shiftl blocks 8 + character_count).
(** atom.inline.cpp:278-281 *)
Definition UndefinedString : Z := 0xC6FFFFFF.
(** atom.inline.cpp:283-286 *)
Definition ATimestamp : Z := u32 (desc TIMESTAMP).
(** atom.inline.cpp:288-291 *)
Definition UndefinedTimestamp : Z := 0xC7FFFFFF.
(** atom.inline.cpp:293-295 *)
Definition ADuration : Z := u32 (desc DURATION).
(** atom.inline.cpp:297-330 *)
Definition InstantiatedProgram (opcode arity : Z) : Z :=
  u32 (desc INSTANTIATED_PROGRAM + Z.shiftl (Z.land opcode 0x0FFF) 8 + arity).
Definition AGroup (opcode arity : Z) : Z :=
  u32 (desc GROUP + Z.shiftl (Z.land opcode 0x0FFF) 8 + arity).
Definition InstantiatedCPPProgram (opcode arity : Z) : Z :=
  u32 (desc INSTANTIATED_CPP_PROGRAM + Z.shiftl (Z.land opcode 0x0FFF) 8 + arity).
Definition InstantiatedAntiProgram (opcode arity : Z) : Z :=
  u32 (desc INSTANTIATED_ANTI_PROGRAM + Z.shiftl (Z.land opcode 0x0FFF) 8 + arity).
Definition InstantiatedInputLessProgram (opcode arity : Z) : Z :=
  u32 (desc INSTANTIATED_INPUT_LESS_PROGRAM + Z.shiftl (Z.land opcode 0x0FFF) 8 + arity).
Definition CompositeState (opcode arity : Z) : Z :=
  u32 (desc COMPOSITE_STATE + Z.shiftl (Z.land opcode 0x0FFF) 8 + arity).
Definition AModel (opcode arity : Z) : Z :=
  u32 (desc MODEL + Z.shiftl (Z.land opcode 0x0FFF) 8 + arity).
(** atom.inline.cpp:332-335 *)
Definition NullProgram (take_past_inputs : bool) : Z :=
  u32 (desc NULL_PROGRAM + (if take_past_inputs then 1 else 0)).

(** atom.h:220: the default argument of the constructor. *)
Definition UndefinedAtom : Z := 0xFFFFFFFF.

(** atom.inline.cpp:378-381 *)
Definition isUndefined (a : Z) : bool := a =? 0xFFFFFFFF.
(** atom.inline.cpp:383-386 *)
Definition getDescriptor (a : Z) : Z := u8 (Z.shiftr a 24).
(** atom.inline.cpp:388-391 *)
Definition isStructural (a : Z) : bool :=
  (Z.land a 0xC0000000 =? 0xC0000000) || (Z.land a 0xD0000000 =? 0xD0000000).
(** atom.inline.cpp:393-396 *)
Definition isFloat (a : Z) : bool := Z.shiftr a 31 =? 0.
(** atom.inline.cpp:398-408 *)
Definition readsAsNil (a : Z) : bool :=
  (a =? 0x80000000) || (a =? 0x3FFFFFFF) || (a =? 0x81FFFFFF) || (a =? 0xC1000000) ||
  (a =? 0xA0FFFFFF) || (a =? 0xA1FFFFFF) || (a =? 0xA2FFFFFF) || (a =? 0xC6FFFFFF).
(** atom.inline.cpp:410-414: the 32-bit pattern of the returned float32. *)
Definition asFloat (a : Z) : Z := u32 (Z.shiftl a 1).
(** atom.inline.cpp:416-419 *)
Definition asBoolean (a : Z) : bool := negb (Z.land a 0xFF =? 0).
(** atom.inline.cpp:421, 423 *)
Definition isBooleanTrue (a : Z) : bool := (getDescriptor a =? BOOLEAN_) && asBoolean a.
Definition isBooleanFalse (a : Z) : bool := (getDescriptor a =? BOOLEAN_) && negb (asBoolean a).
(** atom.inline.cpp:425-428 *)
Definition asIndex (a : Z) : Z := Z.land a 0xFFF.
(** atom.inline.cpp:430-438 *)
Definition asInputIndex (a : Z) : Z := u8 (Z.shiftr (Z.land a 0x000FF000) 12).
Definition asRelativeIndex (a : Z) : Z := u8 (Z.shiftr (Z.land a 0x000FF000) 12).
(** atom.inline.cpp:440-443 *)
Definition asOpcode (a : Z) : Z := Z.land (Z.shiftr a 8) 0xFFF.
(** atom.inline.cpp:445-448 *)
Definition asCastOpcode (a : Z) : Z := u16 (Z.shiftr (Z.land a 0x00FFF000) 12).
(** atom.inline.cpp:450-468 *)
Definition getNodeID (a : Z) : Z := u8 (Z.shiftr (Z.land a 0x00FF0000) 16).
Definition getClassID (a : Z) : Z := u8 (Z.shiftr (Z.land a 0x0000FF00) 8).
Definition getDeviceID (a : Z) : Z := u8 (Z.land a 0x000000FF).
Definition asAssignmentIndex (a : Z) : Z := u8 (Z.shiftr (Z.land a 0x00FF0000) 16).
(** atom.inline.cpp:470-492 *)
Definition getAtomCount (a : Z) : Z :=
  let d := getDescriptor a in
  if (d =? SET) || (d =? OBJECT) || (d =? MARKER) || (d =? C_PTR) || (d =? OPERATOR) ||
     (d =? INSTANTIATED_PROGRAM) || (d =? INSTANTIATED_CPP_PROGRAM) ||
     (d =? INSTANTIATED_INPUT_LESS_PROGRAM) || (d =? INSTANTIATED_ANTI_PROGRAM) ||
     (d =? COMPOSITE_STATE) || (d =? MODEL) || (d =? GROUP) || (d =? S_SET)
  then Z.land a 0xFF
  else if d =? STRING then Z.shiftr (Z.land a 0xFF00) 8
  else if d =? TIMESTAMP then 2
  else if d =? DURATION then 2
  else 0.
(** atom.inline.cpp:494-497 *)
Definition takesPastInputs (a : Z) : bool := negb (Z.land a 1 =? 0).
