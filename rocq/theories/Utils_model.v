(** Model of [r_code::Utils] (r_code/utils.h, r_code/code_utils.cpp): 64-bit
    values, strings, tolerances and resilience.

    A [Timestamp] and a [std::chrono::microseconds] are their count of
    microseconds, a [Z]; the theorems restrict them to the int64 range where the
    width matters. *)
From Verif Require Import Base Float32 Atom_model.

(** The code of an object: [resized_vector<Atom> code_] (r_code/object.h:398-404). *)
Definition code := list Z.

(** Reading through a const object, r_code/resized_vector.h:148-151 with
    object.h:399: no bounds check; [None] is an out-of-bounds access. *)
Definition get (c : code) (i : nat) : option Z := nth_error c i.

(** r_code/resized_vector.h:142-147: the non-const accessor grows the vector
    with default atoms (atom.h:220). *)
Definition grow (c : code) (i : nat) : code := c ++ repeat UndefinedAtom (S i - length c).
(** Assignment through [Atom &code(uint16 i)], object.h:398.  The [None] branch
    is unreachable, because [grow] made room. *)
Definition put (c : code) (i : nat) (a : Z) : code :=
  match upd (grow c i) i a with Some c' => c' | None => c end.
(** object.h:404 [resize_code]: grows with default atoms or truncates. *)
Definition resize (c : code) (n : nat) : code := firstn n (c ++ repeat UndefinedAtom (n - length c)).

(** utils.h:138-141 *)
Definition GetInt64 (c : code) (i : nat) : option Z :=
  match get c i, get c (S i) with
  | Some hi, Some lo => Some (i64 (Z.lor (Z.shiftl hi 32) lo))
  | _, _ => None
  end.
(** utils.h:149-152; writes through a raw pointer, so out of bounds is [None]. *)
Definition SetInt64 (c : code) (i : nat) (v : Z) : option code :=
  match upd c i (Z.shiftr (u64 v) 32) with
  | Some c1 => upd c1 (S i) (Z.land v 0xFFFFFFFF)
  | None => None
  end.

(** code_utils.cpp:140-146 *)
Definition SetTimestampStruct (c : code) (i : nat) (t : Z) : option code :=
  SetInt64 (put (put c i ATimestamp) (i + 2) 0) (S i) t.
(** code_utils.cpp:168-172 *)
Definition SetDurationStruct (c : code) (i : nat) (d : Z) : option code :=
  SetInt64 (put (resize c (i + 3)) i ADuration) (S i) d.
(** utils.h:217-224; [index] is the index of the I_PTR to the structure. *)
Definition SetTimestamp (c : code) (index : nat) (t : Z) : option code :=
  match get c index with
  | Some p => let t_index := Z.to_nat (asIndex p) in
              SetInt64 (put (put c t_index ATimestamp) (t_index + 2) 0) (S t_index) t
  | None => None
  end.
(** utils.h:287-294 *)
Definition SetDuration (c : code) (index : nat) (d : Z) : option code :=
  match get c index with
  | Some p => let t_index := Z.to_nat (asIndex p) in
              SetInt64 (put (put c t_index ADuration) (t_index + 2) 0) (S t_index) d
  | None => None
  end.
(** utils.h:204-208, 274-278 *)
Definition GetTimestamp (c : code) (index : nat) : option Z :=
  match get c index with
  | Some p => GetInt64 c (S (Z.to_nat (asIndex p)))
  | None => None
  end.
Definition GetDuration (c : code) (index : nat) : option Z := GetTimestamp c index.
(** utils.h:185-195 *)
Definition HasTimestamp (c : code) (index : nat) : bool :=
  if (length c <=? index)%nat then false else
  match get c index with
  | None => false
  | Some a =>
    if negb (getDescriptor a =? I_PTR) then false else
    let t_index := Z.to_nat (asIndex a) in
    if (length c <=? t_index + 2)%nat then false else
    match get c t_index with Some h => getDescriptor h =? TIMESTAMP | None => false end
  end.

(** ** Strings.  A [std::string] is the list of its bytes (0..255). *)

(** The value of a [char] (signed on the supported platforms) after integral
    promotion, code_utils.cpp:211. *)
Definition sext8 (ch : Z) : Z := if ch <? 128 then ch else ch - 256.

(** utils.h:325-339 (same loop at code_utils.cpp:207-221): the words written
    after the header, [st] and [shift] being the loop state. *)
Fixpoint string_words (s : list Z) (st shift : Z) : list Z :=
  match s with
  | [] => if shift =? 0 then [] else [st]
  | ch :: s' =>
      let st' := u32 (Z.lor st (Z.shiftl (sext8 ch) shift)) in
      if shift + 8 =? 32 then st' :: string_words s' 0 0
      else string_words s' st' (shift + 8)
  end.

(** Writing consecutive words through the growing accessor. *)
Fixpoint put_words (c : code) (i : nat) (ws : list Z) : code :=
  match ws with [] => c | w :: ws' => put_words (put c i w) (S i) ws' end.

(** utils.h:320-340.  The loop bound is the uint8 length, so only the first
    [length mod 256] characters are written. *)
Definition SetString (c : code) (index : nat) (s : list Z) : option code :=
  match get c index with
  | None => None
  | Some p =>
      let s_index := Z.to_nat (asIndex p) in
      let l := u8 (Z.of_nat (length s)) in
      Some (put_words (put c s_index (AString l)) (S s_index)
                      (string_words (firstn (Z.to_nat l) s) 0 0))
  end.

(** The bytes in memory of a word (little endian), as [memcpy] sees them. *)
Definition word_bytes (w : Z) : list Z :=
  [w mod 256; (w / 256) mod 256; (w / 65536) mod 256; (w / 16777216) mod 256].
(** The C string in a buffer: bytes up to the first NUL. *)
Fixpoint c_string (l : list Z) : list Z :=
  match l with [] => [] | ch :: l' => if ch =? 0 then [] else ch :: c_string l' end.

(** utils.h:308-318.  [None]: out of bounds access, either in the code or in
    [buffer[char_count]] (char buffer[255], so char_count = 255 is out of bounds). *)
Definition GetString (c : code) (index : nat) : option (list Z) :=
  match get c index with
  | None => None
  | Some p =>
      let s_index := Z.to_nat (asIndex p) in
      match get c s_index with
      | None => None
      | Some h =>
          let char_count := Z.land h 0xFF in
          let blocks := Z.to_nat ((char_count + 3) / 4) in
          if 255 <=? char_count then None
          else if (length c <? S s_index + blocks)%nat then None
          else Some (c_string (firstn (Z.to_nat char_count)
                     (concat (map word_bytes (firstn blocks (skipn (S s_index) c))))))
      end
  end.

(** ** Tolerances *)

(** code_utils.cpp:117-122.  [fabs] is computed in double on the float
    difference and compared with the float tolerance; both conversions are
    exact, so this is the float32 comparison. *)
Definition Equal (tolerance l r : spec_float) : bool :=
  if feqb l r then true else flt (SFabs (fsub l r)) tolerance.
(** code_utils.cpp:124-127 *)
Definition Synchronous (tolerance l r : Z) : bool := Z.abs (l - r) <? tolerance.

(** ** Resilience *)

(** Conversion of an uint64 to int32, code_utils.cpp:233. *)
Definition i32 (x : Z) : Z := (x + 2147483648) mod 4294967296 - 2147483648.

(** code_utils.cpp:224-234; [ref] is [TimeReference].  The signed counts are
    converted to uint64 by the division with the uint64 [upr]. *)
Definition GetResilience (ref now time_to_live upr : Z) : Z :=
  if (time_to_live =? 0) || (upr =? 0) then 1 else
  let deadline := now + time_to_live in
  let last_upr := u64 (now - ref) / upr in
  let next_upr := u64 (deadline - ref) / upr in
  let next_upr := if 0 <? u64 (deadline - ref) mod upr then next_upr + 1 else next_upr in
  i32 (u64 (next_upr - last_upr)).

(** Conversion float32 -> int32 (truncation); [None] for NaN or out of range
    (undefined behaviour in C++). *)
Definition f32_to_i32 (f : spec_float) : option Z :=
  let z := match f with
           | S754_finite s m e =>
               let a := if 0 <=? e then Zpos m * 2 ^ e else Zpos m / 2 ^ (- e) in
               Some (if s then - a else a)
           | S754_zero _ => Some 0
           | _ => None
           end in
  match z with
  | Some v => if (-2147483648 <=? v) && (v <=? 2147483647) then Some v else None
  | None => None
  end.

(** code_utils.cpp:236-247 *)
Definition GetResilience_conv (resilience origin_upr destination_upr : spec_float) : option Z :=
  if feqb origin_upr fzero then Some 1
  else if fle destination_upr origin_upr then Some 1
  else let r := fdiv origin_upr destination_upr in
       let res := fmul resilience r in
       if flt res fone then Some 1 else f32_to_i32 res.

(** ** Update times *)

Definition Utils_MaxTime : Z := 9223372036854775807. (* utils.h:357 *)
(** r_exec/group.cpp:1316-1324; [upr] is [get_upr()], [base] the base period,
    [ref] the time reference.  [%] on signed durations truncates. *)
Definition get_next_upr_time (upr base ref now : Z) : Z :=
  if upr =? 0 then Utils_MaxTime
  else let p := upr * base in now - Z.rem (now - ref) p + p.
(** r_exec/group.cpp:1326-1334 *)
Definition get_prev_upr_time (upr base ref now : Z) : Z :=
  if upr =? 0 then Utils_MaxTime
  else let p := upr * base in now - Z.rem (now - ref) p.

(** r_exec/mem.h:260-267 with [debug_] false.  [host_upr] is [host->get_upr()],
    a number of base periods (r_exec/group.inline.cpp:139-142), passed as is.
    The int32 result is converted to uint32. *)
Definition get_goal_pred_success_res (ref now time_to_live host_upr : Z) : Z :=
  if time_to_live =? 0 then 1 else u32 (GetResilience ref now time_to_live host_upr).
