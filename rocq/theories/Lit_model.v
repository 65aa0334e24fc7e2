(** Model of the literals of the source code: durations, times and strings, as the compiler
    reads them and puts them in the code (r_comp/compiler.cpp:631-646, 1276-1396, 2094-2104,
    2131-2142, 2170-2194), with the constants (783-871, 1258-1274, 2401-2523) and the
    identifiers of nodes and devices (1239-1256, 2221-2229, 2255-2263), and as the decompiler writes them (r_code/code_utils.cpp:148-166,
    174-200, r_comp/decompiler.cpp:806-822, 878-895, 978-1047). *)
From Coq Require Import String Hexadecimal HexadecimalString.
From Verif Require Import Base Atom_model Utils_model Ppr_model Mac_model.
Local Open Scope Z_scope.

(** What is left of the stream when the text at its front is [symbol]: compiler.cpp:631-646.
    Elsewhere it is put back where it was, with no flag set, so that a stream is here what is
    left to read. *)
Fixpoint strip (symbol t : text) : option text :=
  match symbol, t with
  | [], _ => Some t
  | a :: symbol, b :: t => if a =? b then strip symbol t else None
  | _, _ => None
  end.
Definition starts (symbol t : text) : bool := match strip symbol t with Some _ => true | None => false end.

(** [stream >> std::dec >> n] (C++11, 28.4.2.1): spaces are skipped, then a sign and digits;
    the end of the file right after the digits is the failure of 1286, 1323, 1336, 1349. *)
Definition space (c : Z) : bool := (c =? 32) || ((9 <=? c) && (c <=? 13)).
Fixpoint skip_spaces (t : text) : text :=
  match t with c :: t' => if space c then skip_spaces t' else t | [] => [] end.
Definition digit (c : Z) : bool := (48 <=? c) && (c <=? 57).
Fixpoint take_digits (t : text) (n : Z) : Z * text :=
  match t with
  | c :: t' => if digit c then take_digits t' (10 * n + (c - 48)) else (n, t)
  | [] => (n, [])
  end.
Definition sign (t : text) : bool * text :=
  match t with
  | c :: t' => if c =? 45 then (true, t') else if c =? 43 then (false, t') else (false, t)
  | [] => (false, [])
  end.
Definition unsigned_part (t : text) : option (Z * text) :=
  match t with
  | c :: _ => if digit c then match take_digits t 0 with (_, []) => None | r => Some r end else None
  | [] => None
  end.
(** To an [int64]: out of range is a failure. *)
Definition read_int64 (t : text) : option (Z * text) :=
  let '(neg, t) := sign (skip_spaces t) in
  match unsigned_part t with
  | Some (n, t) => let v := if neg : bool then - n else n in
                   if (- 2^63 <=? v) && (v <? 2^63) then Some (v, t) else None
  | None => None
  end.
(** To a [uint64]: a negative number is taken modulo 2^64. *)
Definition read_uint64 (t : text) : option (Z * text) :=
  let '(neg, t) := sign (skip_spaces t) in
  match unsigned_part t with
  | Some (n, t) => if n <? 2^64 then Some (if neg : bool then u64 (- n) else n, t) else None
  | None => None
  end.

(** A literal that is read, with the rest; none; or an overflow of an [int64], which is
    undefined. *)
Inductive literal := Literal (v : Z) (rest : text) | No | Overflow.
Definition in_int64 (v : Z) : bool := (- 2^63 <=? v) && (v <? 2^63).
Definition checked (v : Z) (rest : text) : literal := if in_int64 v then Literal v rest else Overflow.

(** compiler.cpp:1276-1309. *)
Definition duration (t : text) : literal :=
  if starts (txt "0x") t then No
  else match read_int64 t with
       | None => No
       | Some (n, t) =>
           match strip (txt "us") t with
           | Some t => Literal n t
           | None =>
               match strip (txt "ms") t with
               | Some t => checked (n * 1000) t
               | None =>
                   match strip (txt "s") t with
                   | Some t => if starts (txt ":") t then No else checked (n * 1000000) t
                   | None => No
                   end
               end
           end
       end.

(** compiler.cpp:1311-1364. *)
Definition timestamp (t : text) : literal :=
  if starts (txt "0x") t then No
  else
    let '(negative, t) := match strip (txt "-") t with Some t => (true, t) | None => (false, t) end in
    match read_uint64 t with
    | None => No
    | Some (s, t) =>
        match strip (txt "s:") t with
        | None => No
        | Some t =>
            match read_uint64 t with
            | None => No
            | Some (ms, t) =>
                match strip (txt "ms:") t with
                | None => No
                | Some t =>
                    match read_uint64 t with
                    | None => No
                    | Some (us, t) =>
                        match strip (txt "us") t with
                        | None => No
                        | Some t =>
                            let ts := i64 (u64 (s * 1000000 + ms * 1000 + us)) in
                            if negative : bool then checked (- ts) t else Literal ts t
                        end
                    end
                end
            end
        end
    end.

(** compiler.cpp:1366-1396. *)
Fixpoint until_quote (t s : text) : option (text * text) :=
  match t with
  | [] => None
  | c :: t => if c =? 34 then Some (s, t) else until_quote t (s ++ [c])
  end.
Definition str (t : text) : option (text * text) :=
  match t with c :: t => if c =? 34 then until_quote t [] else None | [] => None end.

(** code_utils.cpp:174-189.  [None]: the absolute value is not an [int64]. *)
Definition ToString_us (d : Z) : option text :=
  if d =? - 2^63 then None
  else
    let us := Z.abs d in
    let sign := if d <? 0 then txt "-" else [] in
    Some (if negb (us mod 1000 =? 0) then sign ++ to_text us ++ txt "us"
          else let ms := us / 1000 in
               if negb (ms mod 1000 =? 0) then sign ++ to_text ms ++ txt "ms"
               else sign ++ to_text (ms / 1000) ++ txt "s").

(** code_utils.cpp:148-166.  [None]: the difference, or its absolute value, is not an [int64]. *)
Definition ToString_s_ms_us (timestamp time_reference : Z) : option text :=
  let d := timestamp - time_reference in
  if negb (in_int64 d) || (d =? - 2^63) then None
  else
    let t := Z.abs d in
    Some ((if d <? 0 then txt "-" else []) ++ to_text (t / 1000 / 1000) ++ txt "s:" ++ to_text (t / 1000 mod 1000) ++ txt "ms:" ++ to_text (t mod 1000) ++ txt "us").

(** ** In the code.  [c] is the code of the object, [write] and [extent] the indexes; the
    result is the code after and the index after. *)

(** compiler.cpp:2098-2102 and 2136-2140; [head] is [Atom::Timestamp()] or [Atom::Duration()]. *)
Definition write_time (head : Z) (c : code) (write extent : nat) (v : Z) : option (code * nat) :=
  let c := Utils_model.put (Utils_model.put c write (IPointer (Z.of_nat extent))) extent head in
  match SetInt64 (Utils_model.put c (extent + 2) 0) (extent + 1) v with
  | Some c => Some (c, (extent + 3)%nat)
  | None => None
  end.

(** A [char] as a byte. *)
Definition byte (c : Z) : Z := c mod 256.
(** compiler.cpp:2175-2192: the words are those of [Utils::SetString], for up to 65535
    characters, the count being a [uint8] still. *)
Definition write_string (c : code) (write extent : nat) (s : text) : code * nat :=
  let l := u16 (Z.of_nat (List.length s)) in
  let ws := string_words (firstn (Z.to_nat l) (map byte s)) 0 0 in
  (put_words (Utils_model.put (Utils_model.put c write (IPointer (Z.of_nat extent))) extent (AString (u8 l))) (S extent) ws, (S extent + List.length ws)%nat).

(** What the decompiler writes for them, decompiler.cpp:883-894, [iptr] having been followed. *)
Definition chars (l : list Z) : text := map sext8 l.
Definition string_text (c : code) (index : nat) : option text :=
  match GetString c index with Some s => Some ([34] ++ chars s ++ [34]) | None => None end.

(** ** Constants. *)

(** What may follow a symbol: compiler.cpp:618-629.  [indentation] tells whether the text
    goes on with an indentation, the tests of 622 other than that of a space, which depend on
    the state of the compiler and are not modelled. *)
Definition separated (indentation : text -> bool) (rest : text) : bool :=
  indentation rest || match rest with c :: _ => (c =? 32) || (c =? 41) || (c =? 93) | [] => false end.
Definition match_separated (indentation : text -> bool) (symbol t : text) : option text :=
  match strip symbol t with Some rest => if separated indentation rest then Some rest else None | None => None end.

(** The symbols and the word that each becomes: compiler.cpp:783-871 and 2401-2523; 1258-1274
    with 2063-2066 for the Booleans. *)
Definition constants : list (text * Z) :=
  [(txt "nil", Nil); (txt "|nb", UndefinedFloat); (txt "forever", PlusInfinity); (txt "|nid", UndefinedNode); (txt "|did", UndefinedDevice);
   (txt "|fid", UndefinedDeviceFunction); (txt "|bl", UndefinedBoolean); (txt "|st", UndefinedString); (txt "true", Boolean true); (txt "false", Boolean false)].
(** [read_nil], [read_nil_nb] and so on, and [read_boolean], for one of these symbols. *)
Definition read_constant (indentation : text -> bool) (constant : text * Z) (t : text) : option (Z * text) :=
  match match_separated indentation (fst constant) t with Some rest => Some (snd constant, rest) | None => None end.
(** compiler.cpp:2441-2455; the index is that of the pointer. *)
Definition write_nil_ts (c : code) (write extent : nat) : code * nat :=
  (put_words (Utils_model.put c write (IPointer (Z.of_nat extent))) extent [UndefinedTimestamp; 0xFFFFFFFF; 0xFFFFFFFF], (extent + 3)%nat).

(** [std::hex]: digits in lower case, no leading zero. *)
Definition hex_text (n : Z) : text := txt (HexadecimalString.NilEmpty.string_of_int (Z.to_hex_int n)).
(** What is written for a word: a text, or a number, the printing of which is not modelled. *)
Inductive written := Words (t : text) | Number (bits : Z).
(** decompiler.cpp:806-822, 978-1047, for the words that are not pointers, [after_tail_wildcard]
    being false; [functions] is [metadata_->function_names_]. *)
Definition write_word (functions : Z -> text) (a : Z) : written :=
  if isFloat a then
    if a =? 0x3FFFFFFF then Words (txt "|nb")
    else if a =? PlusInfinity then Words (txt "forever")
    else Number (asFloat a)
  else
    let d := getDescriptor a in
    if d =? THIS then Words (txt "this")
    else if d =? NIL then Words (txt "nil")
    else if d =? BOOLEAN_ then Words (if readsAsNil a then txt "|bl" else if asBoolean a then txt "true" else txt "false")
    else if d =? WILDCARD then Words (txt ":")
    else if d =? T_WILDCARD then Words (txt "::")
    else if d =? NODE then Words (if readsAsNil a then txt "|sid" else txt "0x" ++ hex_text a)
    else if d =? DEVICE then Words (if readsAsNil a then txt "|did" else txt "0x" ++ hex_text a)
    else if d =? DEVICE_FUNCTION then Words (if readsAsNil a then txt "|fid" else functions (asOpcode a))
    else Words (txt "0x" ++ hex_text a).
(** decompiler.cpp:887-892, the pointer having been followed. *)
Definition write_timestamp (c : code) (index : nat) (time_reference : Z) : option text :=
  match Utils_model.get c index with
  | None => None
  | Some p =>
      match Utils_model.get c (Z.to_nat (asIndex p)) with
      | None => None
      | Some h => if readsAsNil h then Some (txt "|ts")
                  else match GetTimestamp c index with Some ts => ToString_s_ms_us ts time_reference | None => None end
      end
  end.

(** ** Identifiers of nodes and devices. *)

(** [stream >> std::hex >> h] to a [uint32], of which the optional sign and the optional second
    prefix are left out: they make no difference to what starts with a digit and goes on with
    digits that are not [x]. *)
Definition hex_digit (c : Z) : option Z :=
  if digit c then Some (c - 48)
  else if (97 <=? c) && (c <=? 102) then Some (c - 87)
  else if (65 <=? c) && (c <=? 70) then Some (c - 55)
  else None.
Fixpoint take_hex (t : text) (n : Z) : Z * text :=
  match t with
  | c :: t' => match hex_digit c with Some d => take_hex t' (16 * n + d) | None => (n, t) end
  | [] => (n, [])
  end.
(** compiler.cpp:1239-1256. *)
Definition hex (t : text) : option (Z * text) :=
  match strip (txt "0x") t with
  | None => None
  | Some t =>
      match skip_spaces t with
      | [] => None
      | (c :: _) as t =>
          match hex_digit c with
          | None => None
          | Some _ => match take_hex t 0 with
                      | (_, []) => None
                      | (h, rest) => if h <? 2^32 then Some (h, rest) else None
                      end
          end
      end
  end.
(** compiler.cpp:2221-2229 with [NODE], 2255-2263 with [DEVICE]. *)
Definition read_identifier (descriptor : Z) (t : text) : option (Z * text) :=
  match hex t with Some (h, rest) => if getDescriptor h =? descriptor then Some (h, rest) else None | None => None end.
