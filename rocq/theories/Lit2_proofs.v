(** Proofs on the literals in the code, strings, constants and identifiers. *)
From Coq Require Import Ascii String Hexadecimal HexadecimalString HexadecimalZ.
From Verif Require Import Base Atom_model Atom_proofs Utils_model Utils_spec Utils_proofs Ppr_model Mac_model Lit_model Lit_spec Lit_proofs.
Local Open Scope Z_scope.

Lemma pointer_index : forall n, 0 <= n < 4096 -> asIndex (IPointer n) = n /\ getDescriptor (IPointer n) = I_PTR.
Proof.
  intros n H. unfold IPointer. rewrite land_4095, idx_arith, desc_arith. unfold u32.
  change (desc I_PTR) with 2214592512. change I_PTR with 132. split; lia.
Qed.
Lemma pointer_to : forall extent, Z.of_nat extent < 4096 -> Z.to_nat (asIndex (IPointer (Z.of_nat extent))) = extent.
Proof. intros extent H. destruct (pointer_index (Z.of_nat extent)) as [-> _]; lia. Qed.

(** Times and durations. *)
Lemma written_time : forall head c write extent v, is_i64 v -> room write extent ->
  exists c', write_time head c write extent v = Some (c', (extent + 3)%nat) /\ GetTimestamp c' write = Some v /\
    nth_error c' extent = Some head /\ others_kept write extent c c' /\ List.length c' = Nat.max (List.length c) (extent + 3).
Proof.
  intros head c write extent v I [R1 R2]. unfold write_time. cbv zeta. replace (extent + 1)%nat with (S extent) by lia.
  destruct (struct_write (Utils_model.put c write (IPointer (Z.of_nat extent))) extent head v I) as (c' & E & Hh & Hg & Hl & Hf).
  rewrite E. exists c'. split; [reflexivity|]. rewrite put_length in Hl. split; [|split; [exact Hh|split]].
  - unfold GetTimestamp, Utils_model.get. rewrite (Hf write) by (rewrite ?put_length; lia). rewrite put_same, pointer_to by assumption. exact Hg.
  - intros j N L B. rewrite (Hf j) by (rewrite ?put_length; lia). apply put_other; [congruence|assumption].
  - lia.
Qed.

(** Strings. *)
Lemma plain_bytes : forall s, plain s -> map byte s = s /\ chars s = s /\ storable s.
Proof.
  intros s [L F]. assert (Forall (fun ch => 1 <= ch <= 127) s) as F' by (eapply Forall_impl; [|exact F]; intros ? H; apply H).
  split; [|split; [|now split]]; unfold chars; clear L F; induction F' as [|c s H F IH]; cbn; try reflexivity; rewrite IH; f_equal.
  - unfold byte. lia.
  - unfold sext8. destruct (Z.ltb_spec c 128); lia.
Qed.
Lemma quote_end : forall s rest acc, Forall (fun ch => 1 <= ch <= 127 /\ ch <> 34) s -> until_quote (s ++ 34 :: rest) acc = Some (acc ++ s, rest).
Proof.
  induction s as [|c s IH]; intros rest acc F; cbn; [now rewrite app_nil_r|]. inversion_clear F as [|? ? [_ N] F'].
  destruct (Z.eqb_spec c 34); [contradiction|]. rewrite IH by assumption. now rewrite <- app_assoc.
Qed.
Lemma string_read : forall s rest, plain s -> str ([34] ++ s ++ [34] ++ rest) = Some (s, rest).
Proof. intros s rest [_ F]. cbn [app str Z.eqb Pos.eqb]. now rewrite quote_end. Qed.
Lemma written_string : forall c write extent s, room write extent -> plain s ->
  exists c' extent', write_string c write extent s = (c', extent') /\ string_text c' write = Some ([34] ++ s ++ [34]) /\
    others_kept write extent c c' /\ extent' = (extent + 1 + (List.length s + 3) / 4)%nat.
Proof.
  intros c write extent s [R1 R2] P. destruct (plain_bytes s P) as (B & C & St).
  destruct (pointer_index (Z.of_nat extent)) as [X D]; [lia|].
  destruct (set_get_string (Utils_model.put c write (IPointer (Z.of_nat extent))) write (IPointer (Z.of_nat extent)) s (put_same _ _ _) D St) as (c' & E & G & K).
  { rewrite pointer_to by assumption. lia. }
  unfold SetString in E. unfold Utils_model.get in E. rewrite put_same in E. rewrite pointer_to in E, K by assumption. cbv zeta in E.
  destruct P as [L F]. unfold write_string. cbv zeta. rewrite B. assert (u16 (Z.of_nat (List.length s)) = Z.of_nat (List.length s)) as -> by (unfold u16; lia).
  assert (u8 (Z.of_nat (List.length s)) = Z.of_nat (List.length s)) as U by (unfold u8; lia). rewrite U in E |- *. injection E as E. rewrite E.
  exists c'. eexists. split; [reflexivity|]. split; [|split].
  - unfold string_text. rewrite G, C. reflexivity.
  - intros j N J B'. rewrite (K j) by (rewrite ?put_length; lia). apply put_other; [congruence|assumption].
  - rewrite Nat2Z.id, firstn_all. destruct (string_words_bytes s) as [_ W]; [apply St|]. lia.
Qed.

(** Identifiers. *)
Fixpoint hex_value (u : Hexadecimal.uint) (n : Z) : Z :=
  match u with
  | Hexadecimal.Nil => n
  | D0 u => hex_value u (16 * n) | D1 u => hex_value u (16 * n + 1) | D2 u => hex_value u (16 * n + 2)
  | D3 u => hex_value u (16 * n + 3) | D4 u => hex_value u (16 * n + 4) | D5 u => hex_value u (16 * n + 5)
  | D6 u => hex_value u (16 * n + 6) | D7 u => hex_value u (16 * n + 7) | D8 u => hex_value u (16 * n + 8)
  | D9 u => hex_value u (16 * n + 9) | Da u => hex_value u (16 * n + 10) | Db u => hex_value u (16 * n + 11)
  | Dc u => hex_value u (16 * n + 12) | Dd u => hex_value u (16 * n + 13) | De u => hex_value u (16 * n + 14)
  | Df u => hex_value u (16 * n + 15)
  end.
Definition not_hex (t : text) : Prop := match t with c :: _ => hex_digit c = None | [] => False end.
Lemma not_hex_spec : forall t, no_hex t -> not_hex t.
Proof.
  intros t (c & r & -> & N). cbn. unfold hex_digit, digit.
  destruct (Z.leb_spec 48 c), (Z.leb_spec c 57), (Z.leb_spec 97 c), (Z.leb_spec c 102), (Z.leb_spec 65 c), (Z.leb_spec c 70); cbn [andb]; try reflexivity; exfalso; apply N; lia.
Qed.
Lemma take_hex_value : forall u n rest, not_hex rest ->
  take_hex (txt (NilEmpty.string_of_uint u) ++ rest) n = (hex_value u n, rest).
Proof.
  induction u; intros n rest N; cbn [NilEmpty.string_of_uint txt hex_value app];
    [destruct rest as [|c rest]; [destruct N|]; cbn in N |- *; now rewrite N|..];
    cbn [take_hex]; match goal with |- context [hex_digit ?c] => let z := eval vm_compute in (hex_digit c) in change (hex_digit c) with z end;
    cbv iota; rewrite IHu by assumption; do 2 f_equal; lia.
Qed.
Lemma hex_value_acc : forall u p, hex_value u (Zpos p) = Zpos (Pos.of_hex_uint_acc u p).
Proof. induction u; intros p; cbn [hex_value Pos.of_hex_uint_acc]; [reflexivity|..]; rewrite <- IHu; f_equal; lia. Qed.
Lemma hex_value_0 : forall u, hex_value u 0 = Z.of_N (Pos.of_hex_uint u).
Proof.
  induction u; cbn [hex_value Pos.of_hex_uint]; [reflexivity|exact IHu|..]; cbn [Z.of_N]; rewrite <- hex_value_acc; reflexivity.
Qed.
Lemma hex_read : forall a rest, 0 < a < 2^32 -> not_hex rest -> hex (txt "0x" ++ hex_text a ++ rest) = Some (a, rest).
Proof.
  intros a rest [P B] N. unfold hex. rewrite strip_app. unfold hex_text. pose proof (of_to a) as V.
  destruct a as [|p|p]; [lia| |lia]. cbn [Z.to_hex_int NilEmpty.string_of_int]. cbn [Z.to_hex_int Z.of_hex_int] in V. unfold Z.of_hex_uint in V.
  set (u := Pos.to_hex_uint p) in *. clearbody u. pose proof (take_hex_value u 0 rest N) as T. rewrite hex_value_0, V in T.
  assert (exists c t', txt (NilEmpty.string_of_uint u) ++ rest = c :: t' /\ space c = false /\ hex_digit c <> None) as (c & t' & E & S & H).
  { destruct u; [cbn in V; discriminate|..]; cbn [NilEmpty.string_of_uint txt app]; do 2 eexists; (split; [reflexivity|]); (split; [reflexivity|vm_compute; discriminate]). }
  rewrite E in T |- *. cbn [skip_spaces]. rewrite S. destruct (hex_digit c); [|now destruct H]. rewrite T. destruct rest; [destruct N|].
  destruct (Z.ltb_spec (Z.pos p) (2^32)); [reflexivity|lia].
Qed.

Lemma nil_words : forall a, readsAsNil a = true -> In a [2147483648; 1073741823; 2181038079; 3238002688; 2701131775; 2717908991; 2734686207; 3338665983].
Proof.
  intros a E. unfold readsAsNil in E. rewrite !orb_true_iff, !Z.eqb_eq in E. cbn [In]. repeat (destruct E as [E| ->]; [|auto 12]). subst a. auto.
Qed.
Lemma identifier_round : forall functions a d rest, is_u32 a -> d = NODE \/ d = DEVICE -> getDescriptor a = d -> a <> UndefinedNode -> a <> UndefinedDevice ->
  no_hex rest -> exists t, write_word functions a = Words t /\ read_identifier d (t ++ rest) = Some (a, rest).
Proof.
  intros functions a d rest U D G N1 N2 R. apply not_hex_spec in R. exists (txt "0x" ++ hex_text a).
  assert (readsAsNil a = false) as Q.
  { destruct (readsAsNil a) eqn:E; [|reflexivity]. apply nil_words in E.
    assert (getDescriptor a = 160 \/ getDescriptor a = 161) as G' by (destruct D as [-> | ->]; auto).
    cbn [In] in E. exfalso. repeat (destruct E as [<- | E]; [first [now destruct N1|now destruct N2|now destruct G'; discriminate|idtac]|]). destruct E. }
  assert (2147483648 <= a) as B.
  { rewrite desc_arith in G. unfold is_u32 in U. assert (128 <= a / 16777216 mod 256) by (rewrite G; destruct D as [-> | ->]; vm_compute; discriminate). lia. }
  unfold is_u32 in U. split.
  - unfold write_word. assert (isFloat a = false) as ->.
    { unfold isFloat. rewrite Z.shiftr_div_pow2 by lia. apply Z.eqb_neq. change (2^31) with 2147483648. intros E. assert (1 <= a / 2147483648) by (apply Z.div_le_lower_bound; lia). lia. }
    cbv zeta. rewrite G, Q. destruct D as [-> | ->]; reflexivity.
  - unfold read_identifier. rewrite <- app_assoc, hex_read by (try assumption; lia). rewrite G, Z.eqb_refl. reflexivity.
Qed.

(** Constants. *)
Lemma constant_kept : forall indentation functions name rest, In name kept -> separated indentation rest = true ->
  exists a, In (name, a) constants /\ read_constant indentation (name, a) (name ++ rest) = Some (a, rest) /\ write_word functions a = Words name.
Proof.
  intros indentation functions name rest I S.
  assert (exists a, In (name, a) constants /\ write_word functions a = Words name) as (a & C & W).
  { repeat (destruct I as [<- | I]; [eexists; split; [cbn [In constants]; eauto 12|reflexivity]|]). destruct I. }
  exists a. split; [exact C|]. split; [|exact W]. unfold read_constant, match_separated. cbn [fst snd]. now rewrite strip_app, S.
Qed.
Lemma constants_lost : forall functions,
  (exists bits, In (txt "|nb", UndefinedFloat) constants /\ write_word functions UndefinedFloat = Number bits) /\
  (In (txt "|nid", UndefinedNode) constants /\ write_word functions UndefinedNode = Words (txt "|sid") /\ (forall a, ~ In (txt "|sid", a) constants)) /\
  (In (txt "|st", UndefinedString) constants /\ write_word functions UndefinedString = Words (txt "0xc6ffffff")).
Proof.
  intros functions. split; [|split].
  - eexists. split; [cbn; tauto|reflexivity].
  - split; [cbn; tauto|]. split; [reflexivity|]. intros a I. cbn [In constants] in I. repeat (destruct I as [I|I]; [discriminate I|]). destruct I.
  - split; [cbn; tauto|reflexivity].
Qed.
Lemma nil_time_lost : exists c write extent c' extent' t,
  room write extent /\ write_nil_ts c write extent = (c', extent') /\ write_timestamp c' write 0 = Some t /\ t = txt "-0s:0ms:1us" /\ timestamp t = Literal (-1) [].
Proof. exists [0; 0], 1%nat, 2%nat. do 3 eexists. split; [split; [lia|reflexivity]|]. split; [reflexivity|]. split; [vm_compute; reflexivity|]. split; vm_compute; reflexivity. Qed.

(** Witnesses. *)
Lemma wrong_time : exists t v v', shows_time t v [] /\ timestamp t = Literal v' [] /\ v' <> v.
Proof.
  exists (txt "18446744073710s:0ms:0us"), 18446744073710000000, 448384. split; [|split; [vm_compute; reflexivity|discriminate]].
  exists [], (txt "18446744073710"), (txt "0"), (txt "0"), 1. repeat split; try discriminate; try (left; split; reflexivity);
    repeat constructor; vm_compute; discriminate.
Qed.
Lemma odd_times : timestamp (txt "1s:-1ms: 0us") = Literal 999000 [] /\ timestamp (txt "-9223372036854s:775ms:808us") = Overflow.
Proof. split; vm_compute; reflexivity. Qed.
Lemma not_ascii : exists c write extent s c' extent' t, room write extent /\ str ([34] ++ s ++ [34]) = Some (s, []) /\ write_string c write extent s = (c', extent') /\
  string_text c' write = Some t /\ t <> [34] ++ s ++ [34].
Proof.
  exists [0; 0], 1%nat, 2%nat, [-61; -87]. do 3 eexists. split; [split; [lia|reflexivity]|]. split; [reflexivity|]. split; [reflexivity|]. split; [vm_compute; reflexivity|discriminate].
Qed.
Lemma too_long : exists c write extent s c' extent', room write extent /\ List.length s = 255%nat /\ write_string c write extent s = (c', extent') /\ string_text c' write = None.
Proof.
  exists [0; 0], 1%nat, 2%nat, (repeat 97 255). do 2 eexists. split; [split; [lia|reflexivity]|]. split; [reflexivity|]. split; [vm_compute; reflexivity|vm_compute; reflexivity].
Qed.
Lemma truncated : exists c write extent s c' extent' t, room write extent /\ List.length s = 260%nat /\ write_string c write extent s = (c', extent') /\
  string_text c' write = Some t /\ t = txt """aaaa""".
Proof.
  exists [0; 0], 1%nat, 2%nat, (repeat 97 260). do 3 eexists. split; [split; [lia|reflexivity]|]. split; [reflexivity|]. split; [vm_compute; reflexivity|]. split; vm_compute; reflexivity.
Qed.
Lemma quote_inside : exists c index s c' t s' rest, SetString c index s = Some c' /\ GetString c' index = Some s /\ string_text c' index = Some t /\
  str t = Some (s', rest) /\ s' <> s.
Proof.
  exists [IPointer 1], 0%nat, [97; 34; 98]. do 4 eexists. split; [vm_compute; reflexivity|]. split; [vm_compute; reflexivity|]. split; [vm_compute; reflexivity|]. split; [vm_compute; reflexivity|discriminate].
Qed.
Lemma smallest : ToString_us (- 2^63) = None.
Proof. reflexivity. Qed.
Lemma overflow : duration (txt "9223372036854775807s") = Overflow.
Proof. vm_compute. reflexivity. Qed.

Lemma apart_separated : forall indentation rest, apart indentation rest <-> separated indentation rest = true.
Proof.
  intros indentation rest. unfold apart, separated. rewrite orb_true_iff. split; (intros [H|H]; [auto|right]).
  - destruct H as (c & r & -> & H). rewrite !orb_true_iff, !Z.eqb_eq. tauto.
  - destruct rest as [|c r]; [discriminate|]. rewrite !orb_true_iff, !Z.eqb_eq in H. exists c, r. tauto.
Qed.
Lemma constant_apart : forall indentation functions name rest, In name kept -> apart indentation rest ->
  exists a, In (name, a) constants /\ read_constant indentation (name, a) (name ++ rest) = Some (a, rest) /\ write_word functions a = Words name.
Proof. intros indentation functions name rest K A. apply constant_kept; [exact K|]. apply apart_separated, A. Qed.
Lemma constant_not_apart : forall indentation name a rest, ~ apart indentation rest -> read_constant indentation (name, a) (name ++ rest) = None.
Proof.
  intros indentation name a rest N. unfold read_constant, match_separated. cbn [fst snd]. rewrite strip_app.
  destruct (separated indentation rest) eqn:E; [|reflexivity]. exfalso. apply N, apart_separated, E.
Qed.
