(** C117 to C124: the literals. *)
From Coq Require Import String.
From Verif Require Import Base Atom_model Utils_model Ppr_model Mac_model Lit_model Lit_spec Lit_proofs Lit2_proofs.
Local Open Scope Z_scope.

(** ** C117 Durations. *)
Theorem C117_source : forall d rest, is_i64 d -> d <> - 2^63 -> no_colon rest ->
  exists t, ToString_us d = Some t /\ duration (t ++ rest) = Literal d rest.
Proof. exact duration_round. Qed.
Print Assumptions C117_source.
Theorem C117_code : forall c write extent d, is_i64 d -> room write extent ->
  exists c', write_time ADuration c write extent d = Some (c', (extent + 3)%nat) /\ GetDuration c' write = Some d /\
    nth_error c' extent = Some ADuration /\ others_kept write extent c c' /\ List.length c' = Nat.max (List.length c) (extent + 3).
Proof. exact (written_time ADuration). Qed.
Print Assumptions C117_code.
(** The one that is left out. *)
Theorem C117_smallest : ToString_us (- 2^63) = None.
Proof. exact smallest. Qed.
Print Assumptions C117_smallest.
Example C117_case : ToString_us (-1500000) = Some (txt "-1500ms") /\ duration (txt "-1500ms)") = Literal (-1500000) (txt ")") /\ no_colon (txt ")").
Proof. repeat split; try (vm_compute; reflexivity). intros r E. discriminate E. Qed.
Example C117_case_code : room 2 5 /\ write_time ADuration [1; 2; 3; 4; 5] 2 5 (-7) = Some ([1; 2; IPointer 5; 4; 5; ADuration; 0xFFFFFFFF; 0xFFFFFFF9], 8%nat).
Proof. split; [split; [lia|reflexivity]|reflexivity]. Qed.

(** ** C118 Times. *)
Theorem C118_source : forall ts ref rest, - 2^63 < ts - ref < 2^63 ->
  exists t, ToString_s_ms_us ts ref = Some t /\ timestamp (t ++ rest) = Literal (ts - ref) rest.
Proof. exact time_round. Qed.
Print Assumptions C118_source.
Theorem C118_code : forall c write extent ts, is_i64 ts -> room write extent ->
  exists c', write_time ATimestamp c write extent ts = Some (c', (extent + 3)%nat) /\ GetTimestamp c' write = Some ts /\
    nth_error c' extent = Some ATimestamp /\ others_kept write extent c c' /\ List.length c' = Nat.max (List.length c) (extent + 3).
Proof. exact (written_time ATimestamp). Qed.
Print Assumptions C118_code.
Example C118_case : ToString_s_ms_us 1000 3002003 = Some (txt "-3s:1ms:3us") /\ timestamp (txt "-3s:1ms:3us]") = Literal (-3001003) (txt "]").
Proof. split; vm_compute; reflexivity. Qed.

(** ** C119 Durations are read as they show. *)
Theorem C119_read : forall t d rest,
  duration t = Literal d rest <-> exists n k, shows_duration t n k rest /\ is_i64 n /\ d = n * k /\ is_i64 d.
Proof. exact duration_iff. Qed.
Print Assumptions C119_read.
Theorem C119_undefined : forall t,
  duration t = Overflow <-> exists n k rest, shows_duration t n k rest /\ is_i64 n /\ ~ is_i64 (n * k).
Proof. exact duration_overflow. Qed.
Print Assumptions C119_undefined.
Example C119_case : duration (txt " +20ms x") = Literal 20000 (txt " x") /\ duration (txt "20s:1ms:0us") = No /\ duration (txt "0x20us") = No /\
  duration (txt "9223372036854775807s") = Overflow.
Proof. repeat split; vm_compute; reflexivity. Qed.

(** ** C120 Times are read as they show. *)

(** Missing: the notations whose value is out of range, and those that are read though they are
    not of the usual form; for both the claim is false. *)
Theorem C120_read_partial : forall t v rest, shows_time t v rest -> - 2^63 < v < 2^63 -> timestamp t = Literal v rest.
Proof. exact time_shown. Qed.
Print Assumptions C120_read_partial.
Theorem C120_range_refuted : exists t v v', shows_time t v [] /\ timestamp t = Literal v' [] /\ v' <> v.
Proof. exact wrong_time. Qed.
Print Assumptions C120_range_refuted.
Theorem C120_form_refuted : timestamp (txt "1s:-1ms: 0us") = Literal 999000 [] /\ timestamp (txt "-9223372036854s:775ms:808us") = Overflow.
Proof. exact odd_times. Qed.
Print Assumptions C120_form_refuted.
Example C120_case : shows_time (txt "-0s:1500ms:7us)") (-1500007) (txt ")") /\ timestamp (txt "-0s:1500ms:7us)") = Literal (-1500007) (txt ")").
Proof.
  split; [|vm_compute; reflexivity]. exists (txt "-"), (txt "0"), (txt "1500"), (txt "7"), (-1).
  repeat split; try discriminate; try (right; split; reflexivity); repeat constructor; vm_compute; discriminate.
Qed.

(** ** C121 No text is both a duration and a time. *)
Theorem C121_one_kind : forall t, duration t <> No -> timestamp t = No.
Proof. exact duration_not_time. Qed.
Print Assumptions C121_one_kind.
Example C121_case : duration (txt "-5s )") = Literal (-5000000) (txt " )") /\ timestamp (txt "-5s )") = No /\
  duration (txt "-5s:0ms:0us") = No /\ timestamp (txt "-5s:0ms:0us") = Literal (-5000000) [].
Proof. repeat split; vm_compute; reflexivity. Qed.

(** ** C122 Strings. *)

(** Missing: characters outside 1..127, more than 254 characters, and quotes; for all of them
    the claim is false. *)
Theorem C122_code_partial : forall c write extent s, room write extent -> plain s ->
  exists c' extent', write_string c write extent s = (c', extent') /\ string_text c' write = Some ([34] ++ s ++ [34]) /\
    others_kept write extent c c' /\ extent' = (extent + 1 + (List.length s + 3) / 4)%nat.
Proof. exact written_string. Qed.
Print Assumptions C122_code_partial.
Theorem C122_source_partial : forall s rest, plain s -> str ([34] ++ s ++ [34] ++ rest) = Some (s, rest).
Proof. exact string_read. Qed.
Print Assumptions C122_source_partial.
Theorem C122_ascii_refuted : exists c write extent s c' extent' t,
  room write extent /\ str ([34] ++ s ++ [34]) = Some (s, []) /\ write_string c write extent s = (c', extent') /\
  string_text c' write = Some t /\ t <> [34] ++ s ++ [34].
Proof. exact not_ascii. Qed.
Print Assumptions C122_ascii_refuted.
Theorem C122_length_255_refuted : exists c write extent s c' extent',
  room write extent /\ List.length s = 255%nat /\ write_string c write extent s = (c', extent') /\ string_text c' write = None.
Proof. exact too_long. Qed.
Print Assumptions C122_length_255_refuted.
Theorem C122_length_260_refuted : exists c write extent s c' extent' t,
  room write extent /\ List.length s = 260%nat /\ write_string c write extent s = (c', extent') /\
  string_text c' write = Some t /\ t = txt """aaaa""".
Proof. exact truncated. Qed.
Print Assumptions C122_length_260_refuted.
Theorem C122_quote_refuted : exists c index s c' t s' rest,
  SetString c index s = Some c' /\ GetString c' index = Some s /\ string_text c' index = Some t /\ str t = Some (s', rest) /\ s' <> s.
Proof. exact quote_inside. Qed.
Print Assumptions C122_quote_refuted.
Example C122_case : plain (txt "a b;(c)") /\ write_string [1; 2; 3] 1 3 (txt "a b;(c)") = ([1; IPointer 3; 3; 0xC6000207; 0x3B622061; 0x00296328], 6%nat).
Proof.
  split; [split; [cbn; lia|]|vm_compute; reflexivity]. repeat constructor; vm_compute; discriminate.
Qed.

(** ** C123 Constants. *)

(** Missing: the constants [|nb], [|nid], [|st] and [|ts], for which the claim is false. *)
Theorem C123_kept_partial : forall indentation functions name rest, In name kept -> apart indentation rest ->
  exists a, In (name, a) constants /\ read_constant indentation (name, a) (name ++ rest) = Some (a, rest) /\ write_word functions a = Words name.
Proof. exact constant_apart. Qed.
Print Assumptions C123_kept_partial.
(** A name that only starts like a constant is not one. *)
Theorem C123_apart_partial : forall indentation name a rest, ~ apart indentation rest -> read_constant indentation (name, a) (name ++ rest) = None.
Proof. exact constant_not_apart. Qed.
Print Assumptions C123_apart_partial.
Theorem C123_words_refuted : forall functions,
  (exists bits, In (txt "|nb", UndefinedFloat) constants /\ write_word functions UndefinedFloat = Number bits) /\
  (In (txt "|nid", UndefinedNode) constants /\ write_word functions UndefinedNode = Words (txt "|sid") /\ (forall a, ~ In (txt "|sid", a) constants)) /\
  (In (txt "|st", UndefinedString) constants /\ write_word functions UndefinedString = Words (txt "0xc6ffffff")).
Proof. exact constants_lost. Qed.
Print Assumptions C123_words_refuted.
Theorem C123_time_refuted : exists c write extent c' extent' t,
  room write extent /\ write_nil_ts c write extent = (c', extent') /\ write_timestamp c' write 0 = Some t /\ t = txt "-0s:0ms:1us" /\ timestamp t = Literal (-1) [].
Proof. exact nil_time_lost. Qed.
Print Assumptions C123_time_refuted.
Example C123_case : In (txt "forever") kept /\ apart (fun _ => false) (txt ")") /\
  read_constant (fun _ => false) (txt "forever", PlusInfinity) (txt "forever)") = Some (PlusInfinity, txt ")") /\
  read_constant (fun _ => false) (txt "nil", Nil) (txt "nilly)") = None.
Proof. split; [cbn; tauto|]. split; [right; exists 41, []; split; [reflexivity|auto]|]. split; vm_compute; reflexivity. Qed.

(** ** C124 Identifiers of nodes and devices. *)
Theorem C124_identifiers : forall functions a d rest, is_u32 a -> d = NODE \/ d = DEVICE -> getDescriptor a = d -> a <> UndefinedNode -> a <> UndefinedDevice ->
  no_hex rest -> exists t, write_word functions a = Words t /\ read_identifier d (t ++ rest) = Some (a, rest).
Proof. exact identifier_round. Qed.
Print Assumptions C124_identifiers.
Example C124_case : getDescriptor 0xA1000102 = DEVICE /\ write_word (fun _ => []) 0xA1000102 = Words (txt "0xa1000102") /\
  read_identifier DEVICE (txt "0xa1000102)") = Some (0xA1000102, txt ")") /\ read_identifier NODE (txt "0xa1000102)") = None /\ no_hex (txt ")").
Proof. do 4 (split; [vm_compute; reflexivity|]). exists 41, []. split; [reflexivity|lia]. Qed.
