(** Proofs on the literals: times and durations. *)
From Coq Require Import Ascii String DecimalString DecimalZ.
From Verif Require Import Base Atom_model Utils_model Ppr_model Mac_model Mac3_proofs Mac5_proofs Lit_model Lit_spec.
Local Open Scope Z_scope.

Lemma strip_app : forall s r, strip s (s ++ r) = Some r.
Proof. induction s as [|a s IH]; intros r; cbn; [reflexivity|]. now rewrite Z.eqb_refl. Qed.
Lemma strip_inv : forall s t r, strip s t = Some r -> t = s ++ r.
Proof.
  induction s as [|a s IH]; intros t r E; cbn in E; [now injection E as ->|].
  destruct t as [|b t]; [discriminate|]. destruct (Z.eqb_spec a b) as [->|]; [|discriminate]. now rewrite (IH _ _ E).
Qed.
Definition no_digit (t : text) : Prop := match t with c :: _ => digit c = false | [] => False end.

Lemma digit_spec c : digit c = true <-> 48 <= c <= 57.
Proof. unfold digit. rewrite andb_true_iff. lia. Qed.
Lemma space_spec c : space c = true <-> c = 32 \/ 9 <= c <= 13.
Proof. unfold space. rewrite orb_true_iff, andb_true_iff. lia. Qed.

Lemma skip_blank : forall sp t, blank sp -> skip_spaces (sp ++ t) = skip_spaces t.
Proof. induction 1 as [|c sp H B IH]; cbn; [reflexivity|]. apply space_spec in H. now rewrite H. Qed.
Lemma skip_inv : forall t, exists sp, blank sp /\ t = sp ++ skip_spaces t.
Proof.
  induction t as [|c t (sp & B & IH)]; [exists []; split; [constructor|reflexivity]|]. cbn. destruct (space c) eqn:E.
  - exists (c :: sp). split; [constructor; [now apply space_spec|assumption]|]. cbn. now rewrite <- IH.
  - exists []. split; [constructor|reflexivity].
Qed.

Lemma take_app : forall ds r n, Forall (fun c => 48 <= c <= 57) ds -> no_digit r ->
  take_digits (ds ++ r) n = (fold_left (fun n c => 10 * n + (c - 48)) ds n, r).
Proof.
  induction ds as [|c ds IH]; intros r n F N; cbn.
  - destruct r as [|c r]; cbn in N; [contradiction|]. cbn. now rewrite N.
  - inversion_clear F as [|? ? H F']. apply digit_spec in H. rewrite H. now apply IH.
Qed.
Lemma take_inv : forall t n v r, take_digits t n = (v, r) ->
  exists ds, t = ds ++ r /\ Forall (fun c => 48 <= c <= 57) ds /\ v = fold_left (fun n c => 10 * n + (c - 48)) ds n /\ (r = [] \/ no_digit r).
Proof.
  induction t as [|c t IH]; intros n v r E; cbn in E.
  - injection E as <- <-. exists []. repeat split; [constructor|now left].
  - destruct (digit c) eqn:D.
    + destruct (IH _ _ _ E) as (ds & -> & F & -> & R). exists (c :: ds). repeat split; [|assumption]. constructor; [now apply digit_spec|assumption].
    + injection E as <- <-. exists []. repeat split; [constructor|now right].
Qed.

Lemma unsigned_app : forall ds r, all_digits ds -> no_digit r -> unsigned_part (ds ++ r) = Some (number ds, r).
Proof.
  intros ds r [NE F] N. unfold unsigned_part. destruct ds as [|c ds]; [now destruct NE|].
  pose proof (take_app (c :: ds) r 0 F N) as T. inversion_clear F as [|? ? H F']. apply digit_spec in H.
  change ((c :: ds) ++ r) with (c :: (ds ++ r)) in *. cbv iota. rewrite H, T. unfold number. destruct r; [destruct N|]. reflexivity.
Qed.
Lemma unsigned_inv : forall t v r, unsigned_part t = Some (v, r) ->
  exists ds, t = ds ++ r /\ all_digits ds /\ v = number ds /\ no_digit r.
Proof.
  intros t v r E. unfold unsigned_part in E. destruct t as [|c t]; [discriminate|]. destruct (digit c) eqn:D; [|discriminate].
  destruct (take_digits (c :: t) 0) as [v' r'] eqn:T. destruct r' as [|c' r']; [discriminate|]. injection E as <- <-.
  destruct (take_inv _ _ _ _ T) as (ds & E & F & V & [R|R]); [discriminate|]. exists ds. repeat split; try assumption.
  intros ->. cbn in E. injection E as -> ->. cbn in R. congruence.
Qed.

(** A number after blanks and a sign. *)
Lemma signed_digits : forall sg sigma ds r, signed sg sigma -> all_digits ds ->
  skip_spaces (sg ++ ds ++ r) = sg ++ ds ++ r /\ sign (sg ++ ds ++ r) = (sigma =? -1, ds ++ r).
Proof.
  intros sg sigma ds r S [NE F]. destruct ds as [|c ds]; [now destruct NE|]. inversion_clear F as [|? ? H F'].
  destruct S; cbn; [|split; reflexivity..].
  split; [destruct (space c) eqn:E; [apply space_spec in E; lia|reflexivity]|].
  destruct (Z.eqb_spec c 45); [lia|]. destruct (Z.eqb_spec c 43); [lia|]. reflexivity.
Qed.
Lemma signed_part : forall sp sg sigma ds r, blank sp -> signed sg sigma -> all_digits ds ->
  sign (skip_spaces (sp ++ sg ++ ds ++ r)) = (sigma =? -1, ds ++ r).
Proof.
  intros sp sg sigma ds r B S A. rewrite skip_blank by assumption. destruct (signed_digits sg sigma ds r S A) as [-> ->]. reflexivity.
Qed.
Lemma sign_inv : forall t n t', sign t = (n, t') -> exists sg sigma, t = sg ++ t' /\ signed sg sigma /\ n = (sigma =? -1).
Proof.
  intros t n t' E. unfold sign in E. destruct t as [|c t]; [injection E as <- <-; exists [], 1; repeat split; constructor|].
  destruct (Z.eqb_spec c 45) as [->|]; [injection E as <- <-; exists (txt "-"), (-1); repeat split; constructor|].
  destruct (Z.eqb_spec c 43) as [->|]; injection E as <- <-; [exists (txt "+"), 1; repeat split; constructor|exists [], 1; repeat split; constructor].
Qed.
Lemma signed_value : forall sg sigma n, signed sg sigma -> (if sigma =? -1 then - n else n) = sigma * n.
Proof. intros sg sigma n []; cbn [Z.eqb Pos.eqb]; lia. Qed.

Lemma in_int64_spec v : in_int64 v = true <-> is_i64 v.
Proof. unfold in_int64, is_i64. rewrite andb_true_iff. lia. Qed.
Lemma in_int64_false v : in_int64 v = false <-> ~ is_i64 v.
Proof. rewrite <- in_int64_spec. now destruct (in_int64 v). Qed.

Lemma read_int64_app : forall sp sg sigma ds r, blank sp -> signed sg sigma -> all_digits ds -> no_digit r ->
  read_int64 (sp ++ sg ++ ds ++ r) = if in_int64 (sigma * number ds) then Some (sigma * number ds, r) else None.
Proof.
  intros sp sg sigma ds r B S A N. unfold read_int64. rewrite (signed_part sp sg sigma ds r B S A), (unsigned_app ds r A N).
  cbv zeta. rewrite (signed_value sg sigma _ S). reflexivity.
Qed.
Lemma read_int64_inv : forall t v r, read_int64 t = Some (v, r) ->
  exists sp sg sigma ds, t = sp ++ sg ++ ds ++ r /\ blank sp /\ signed sg sigma /\ all_digits ds /\ no_digit r /\ v = sigma * number ds /\ is_i64 v.
Proof.
  intros t v r E. unfold read_int64 in E. destruct (sign (skip_spaces t)) as [n t'] eqn:G.
  destruct (skip_inv t) as (sp & B & T). destruct (sign_inv _ _ _ G) as (sg & sigma & T' & S & ->).
  destruct (unsigned_part t') as [[v' r']|] eqn:U; [|discriminate]. destruct (unsigned_inv _ _ _ U) as (ds & -> & A & -> & N).
  rewrite (signed_value sg sigma _ S) in E. fold (in_int64 (sigma * number ds)) in E.
  destruct (in_int64 (sigma * number ds)) eqn:I; [|discriminate]. injection E as <- <-. apply in_int64_spec in I.
  exists sp, sg, sigma, ds. rewrite T' in T. repeat (split; [assumption|]). split; [reflexivity|assumption].
Qed.
Lemma read_uint64_app : forall sp sg sigma ds r, blank sp -> signed sg sigma -> all_digits ds -> no_digit r ->
  read_uint64 (sp ++ sg ++ ds ++ r) = if number ds <? 2^64 then Some (if sigma =? -1 then u64 (- number ds) else number ds, r) else None.
Proof.
  intros sp sg sigma ds r B S A N. unfold read_uint64. rewrite (signed_part sp sg sigma ds r B S A), (unsigned_app ds r A N). reflexivity.
Qed.

Lemma scale_no_digit : forall unit k rest, scale unit k -> no_digit (unit ++ rest).
Proof. intros unit k rest []; reflexivity. Qed.
Lemma zero_x : forall t, starts (txt "0x") t = true -> exists t', t = 48 :: 120 :: t'.
Proof.
  intros t E. unfold starts in E. destruct (strip (txt "0x") t) as [t'|] eqn:S; [|discriminate]. apply strip_inv in S. exists t'. exact S.
Qed.

Definition duration' (t : text) : literal :=
  match read_int64 t with
  | None => No
  | Some (n, t) =>
      match strip (txt "us") t with
      | Some t => Literal n t
      | None =>
          match strip (txt "ms") t with
          | Some t => checked (n * 1000) t
          | None =>
              match strip (txt "s") t with
              | Some t => if starts (txt ":") t then No else checked (n * 1000000) t
              | None => No
              end
          end
      end
  end.
Lemma duration_eq : forall t, duration t = duration' t.
Proof.
  intros t. unfold duration. destruct (starts (txt "0x") t) eqn:E; [|reflexivity]. destruct (zero_x t E) as (t' & ->). reflexivity.
Qed.

Lemma starts_colon : forall r, starts (txt ":") r = false <-> forall r', r <> 58 :: r'.
Proof.
  intros r. unfold starts. destruct r as [|c r]; cbn [strip txt]; [split; [discriminate|reflexivity]|].
  change (char_of ":"%char) with 58. destruct (Z.eqb_spec 58 c) as [<-|N]; split; intros H; try reflexivity; try discriminate; [now destruct (H r)|intros r' E; congruence].
Qed.

Lemma duration_shown : forall t n k rest, shows_duration t n k rest ->
  duration t = if in_int64 n then checked (n * k) rest else No.
Proof.
  intros t n k rest (sp & sg & sigma & ds & unit & -> & B & S & A & U & -> & C). rewrite duration_eq. unfold duration'.
  rewrite (read_int64_app sp sg sigma ds (unit ++ rest) B S A (scale_no_digit _ _ _ U)).
  destruct (in_int64 (sigma * number ds)) eqn:I; [|reflexivity].
  destruct U.
  - rewrite strip_app. unfold checked. now rewrite Z.mul_1_r, I.
  - rewrite strip_app. reflexivity.
  - rewrite strip_app. change (strip (txt "us") (txt "s" ++ rest)) with (@None text). change (strip (txt "ms") (txt "s" ++ rest)) with (@None text).
    cbv iota. specialize (C eq_refl). apply starts_colon in C. now rewrite C.
Qed.
Lemma duration_inv : forall t, duration t <> No -> exists n k rest, shows_duration t n k rest /\ is_i64 n.
Proof.
  intros t H. rewrite duration_eq in H. unfold duration' in H. destruct (read_int64 t) as [[n r]|] eqn:E; [|now destruct H].
  destruct (read_int64_inv _ _ _ E) as (sp & sg & sigma & ds & -> & B & S & A & N & -> & I).
  assert (forall unit k rest, r = unit ++ rest -> scale unit k -> (unit = txt "s" -> forall r, rest <> 58 :: r) ->
    exists n k rest, shows_duration (sp ++ sg ++ ds ++ r) n k rest /\ is_i64 n) as W.
  { intros unit k rest -> U C. exists (sigma * number ds), k, rest. split; [|assumption]. exists sp, sg, sigma, ds, unit. repeat (split; [solve [auto]|]). auto. }
  destruct (strip (txt "us") r) as [rest|] eqn:S1; [apply (W (txt "us") 1 rest); [now apply strip_inv|constructor|discriminate]|].
  destruct (strip (txt "ms") r) as [rest|] eqn:S2; [apply (W (txt "ms") 1000 rest); [now apply strip_inv|constructor|discriminate]|].
  destruct (strip (txt "s") r) as [rest|] eqn:S3; [|now destruct H]. destruct (starts (txt ":") rest) eqn:C; [now destruct H|].
  apply (W (txt "s") 1000000 rest); [now apply strip_inv|constructor|]. intros _. now apply starts_colon.
Qed.
Lemma duration_iff : forall t d rest,
  duration t = Literal d rest <-> exists n k, shows_duration t n k rest /\ is_i64 n /\ d = n * k /\ is_i64 d.
Proof.
  intros t d rest. split.
  - intros E. destruct (duration_inv t) as (n & k & rest' & S & I); [congruence|]. rewrite (duration_shown t n k rest' S) in E.
    apply in_int64_spec in I as I'. rewrite I' in E. unfold checked in E. destruct (in_int64 (n * k)) eqn:I2; [|discriminate].
    injection E as <- <-. exists n, k. apply in_int64_spec in I2. auto.
  - intros (n & k & S & I & -> & I2). rewrite (duration_shown t n k rest S). apply in_int64_spec in I, I2. unfold checked. now rewrite I, I2.
Qed.
Lemma duration_overflow : forall t,
  duration t = Overflow <-> exists n k rest, shows_duration t n k rest /\ is_i64 n /\ ~ is_i64 (n * k).
Proof.
  intros t. split.
  - intros E. destruct (duration_inv t) as (n & k & rest' & S & I); [congruence|]. rewrite (duration_shown t n k rest' S) in E.
    apply in_int64_spec in I as I'. rewrite I' in E. unfold checked in E. destruct (in_int64 (n * k)) eqn:I2; [discriminate|].
    exists n, k, rest'. apply in_int64_false in I2. auto.
  - intros (n & k & rest & S & I & I2). rewrite (duration_shown t n k rest S). apply in_int64_spec in I. apply in_int64_false in I2. unfold checked. now rewrite I, I2.
Qed.

(** What is printed. *)
Lemma uint_digits : forall u, Forall (fun c => 48 <= c <= 57) (txt (NilEmpty.string_of_uint u)).
Proof.
  induction u; cbn [NilEmpty.string_of_uint txt]; constructor; try assumption;
    match goal with |- context [char_of ?a] => let z := eval vm_compute in (char_of a) in change (char_of a) with z end; lia.
Qed.
Lemma number_digits : forall t n, Forall (fun c => 48 <= c <= 57) t -> Mac_model.digits t n = fold_left (fun n c => 10 * n + (c - 48)) t n.
Proof.
  induction t as [|c t IH]; intros n F; cbn; [reflexivity|]. inversion_clear F as [|? ? H F'].
  apply digit_spec in H as H'. unfold digit in H'. rewrite H'. now apply IH.
Qed.
Lemma to_text_digits : forall n, 0 <= n -> all_digits (to_text n) /\ number (to_text n) = n.
Proof.
  intros n H. assert (Forall (fun c => 48 <= c <= 57) (to_text n)) as F.
  { unfold to_text. destruct n as [|p|p]; [apply (uint_digits (Decimal.D0 Decimal.Nil))|apply uint_digits|lia]. }
  split; [split; [apply to_text_nonempty|exact F]|].
  rewrite <- (atoi_to_text n) at 2. unfold atoi, number. destruct (to_text n) as [|c t] eqn:E; [reflexivity|].
  rewrite <- (number_digits (c :: t) 0 F). inversion_clear F as [|? ? H' F']. destruct (Z.eqb_spec c 45); [lia|]. destruct (Z.eqb_spec c 43); [lia|]. reflexivity.
Qed.

Lemma sign_of : forall d, signed (if d <? 0 then txt "-" else []) (if d <? 0 then -1 else 1).
Proof. intros d. destruct (d <? 0); constructor. Qed.

Lemma duration_round : forall d rest, is_i64 d -> d <> - 2^63 -> no_colon rest ->
  exists t, ToString_us d = Some t /\ duration (t ++ rest) = Literal d rest.
Proof.
  intros d rest I M C. unfold ToString_us. destruct (Z.eqb_spec d (- 2^63)); [contradiction|]. cbv zeta.
  set (sg := if d <? 0 then txt "-" else []).
  assert (forall a unit k, scale unit k -> 0 <= a -> a * k = Z.abs d ->
    duration ((sg ++ to_text a ++ unit) ++ rest) = Literal d rest) as W.
  { intros a unit k U P E. apply duration_iff. destruct (to_text_digits a P) as [A V]. unfold is_i64 in *.
    exists ((if d <? 0 then -1 else 1) * a), k. split; [|split; [|split]].
    - exists [], sg, (if d <? 0 then -1 else 1), (to_text a), unit. repeat (split; [|]).
      + cbn [app]. now rewrite <- !app_assoc.
      + constructor.
      + apply sign_of.
      + apply A.
      + apply A.
      + exact U.
      + now rewrite V.
      + intros _. exact C.
    - assert (0 < k) by (destruct U; lia). destruct (Z.ltb_spec d 0); nia.
    - destruct (Z.ltb_spec d 0); nia.
    - exact I. }
  pose proof (Z.abs_nonneg d) as P.
  destruct (Z.eqb_spec (Z.abs d mod 1000) 0) as [E|E]; cbn [negb].
  2:{ eexists. split; [reflexivity|]. apply (W _ _ 1); [constructor|lia|lia]. }
  assert (Z.abs d = 1000 * (Z.abs d / 1000)) as D by (pose proof (Z.div_mod (Z.abs d) 1000); lia).
  destruct (Z.eqb_spec (Z.abs d / 1000 mod 1000) 0) as [E'|E']; cbn [negb]; eexists; (split; [reflexivity|]).
  - apply (W _ _ 1000000); [constructor|apply Z.div_pos; lia|]. pose proof (Z.div_mod (Z.abs d / 1000) 1000). lia.
  - apply (W _ _ 1000); [constructor|apply Z.div_pos; lia|]. lia.
Qed.

(** Times. *)
Definition timestamp' (negative : bool) (t : text) : literal :=
  match read_uint64 t with
  | None => No
  | Some (s, t) =>
      match strip (txt "s:") t with
      | None => No
      | Some t =>
          match read_uint64 t with
          | None => No
          | Some (ms, t) =>
              match strip (txt "ms:") t with
              | None => No
              | Some t =>
                  match read_uint64 t with
                  | None => No
                  | Some (us, t) =>
                      match strip (txt "us") t with
                      | None => No
                      | Some t =>
                          let ts := i64 (u64 (s * 1000000 + ms * 1000 + us)) in
                          if negative then checked (- ts) t else Literal ts t
                      end
                  end
              end
          end
      end
  end.
Lemma timestamp_eq : forall t, timestamp t =
  match strip (txt "-") t with Some t => timestamp' true t | None => timestamp' false t end.
Proof.
  intros t. unfold timestamp. destruct (starts (txt "0x") t) eqn:E; [destruct (zero_x t E) as (t' & ->); reflexivity|].
  destruct (strip (txt "-") t); reflexivity.
Qed.

Lemma number_pos : forall ds, all_digits ds -> 0 <= number ds.
Proof.
  intros ds [_ F]. unfold number. assert (forall n, 0 <= n -> 0 <= fold_left (fun n c => 10 * n + (c - 48)) ds n) as H; [|now apply H].
  clear -F. induction F as [|c ds H F IH]; intros n P; cbn [fold_left]; [assumption|]. apply IH. lia.
Qed.
Lemma time'_shown : forall negative s ms us rest, all_digits s -> all_digits ms -> all_digits us ->
  number s * 1000000 + number ms * 1000 + number us < 2^63 ->
  timestamp' negative (s ++ txt "s:" ++ ms ++ txt "ms:" ++ us ++ txt "us" ++ rest) =
  Literal ((if negative then -1 else 1) * (number s * 1000000 + number ms * 1000 + number us)) rest.
Proof.
  intros negative s ms us rest A1 A2 A3 B. unfold timestamp'.
  pose proof (number_pos _ A1). pose proof (number_pos _ A2). pose proof (number_pos _ A3).
  assert (forall ds r, all_digits ds -> no_digit r -> number ds < 2^64 -> read_uint64 (ds ++ r) = Some (number ds, r)) as R.
  { intros ds r A N L. pose proof (read_uint64_app [] [] 1 ds r (Forall_nil _) no_sign A N) as Q. cbn [app] in Q. rewrite Q.
    destruct (Z.ltb_spec (number ds) (2^64)); [|lia]. reflexivity. }
  rewrite R by (try assumption; try reflexivity; lia). rewrite strip_app.
  rewrite R by (try assumption; try reflexivity; lia). rewrite strip_app.
  rewrite R by (try assumption; try reflexivity; lia). rewrite strip_app.
  set (v := number s * 1000000 + number ms * 1000 + number us) in *.
  assert (i64 (u64 v) = v) as ->.
  { assert (0 <= v) by lia. clearbody v. unfold u64, i64. lia. }
  cbv zeta. destruct negative; [|f_equal; lia]. unfold checked. assert (in_int64 (- v) = true) as -> by (apply in_int64_spec; unfold is_i64; lia). f_equal; lia.
Qed.
Lemma no_dash : forall ds r, all_digits ds -> strip (txt "-") (ds ++ r) = None.
Proof.
  intros [|c ds] r [NE F]; [now destruct NE|]. inversion_clear F as [|? ? H F']. cbn [app txt strip]. change (char_of "-"%char) with 45.
  destruct (Z.eqb_spec 45 c); [lia|reflexivity].
Qed.
Lemma time_shown : forall t v rest, shows_time t v rest -> - 2^63 < v < 2^63 -> timestamp t = Literal v rest.
Proof.
  intros t v rest (sg & s & ms & us & sigma & -> & G & A1 & A2 & A3 & ->) B. rewrite timestamp_eq.
  destruct G as [[-> ->]|[-> ->]].
  - cbn [app]. rewrite no_dash by assumption. rewrite time'_shown by (try assumption; lia). reflexivity.
  - rewrite strip_app. rewrite time'_shown by (try assumption; lia). reflexivity.
Qed.
Lemma time_round : forall ts ref rest, - 2^63 < ts - ref < 2^63 ->
  exists t, ToString_s_ms_us ts ref = Some t /\ timestamp (t ++ rest) = Literal (ts - ref) rest.
Proof.
  intros ts ref rest B. unfold ToString_s_ms_us. cbv zeta. assert (in_int64 (ts - ref) = true) as -> by (apply in_int64_spec; unfold is_i64; lia).
  destruct (Z.eqb_spec (ts - ref) (- 2^63)); [lia|]. cbn [negb orb]. eexists. split; [reflexivity|].
  set (d := ts - ref) in *. apply time_shown; [|assumption].
  pose proof (Z.abs_nonneg d).
  assert (0 <= Z.abs d / 1000) by (apply Z.div_pos; lia). assert (0 <= Z.abs d / 1000 / 1000) by (apply Z.div_pos; lia).
  destruct (to_text_digits (Z.abs d / 1000 / 1000)) as [A1 V1]; [assumption|].
  destruct (to_text_digits (Z.abs d / 1000 mod 1000)) as [A2 V2]; [apply Z.mod_pos_bound; lia|].
  destruct (to_text_digits (Z.abs d mod 1000)) as [A3 V3]; [apply Z.mod_pos_bound; lia|].
  exists (if d <? 0 then txt "-" else []), (to_text (Z.abs d / 1000 / 1000)), (to_text (Z.abs d / 1000 mod 1000)), (to_text (Z.abs d mod 1000)), (if d <? 0 then -1 else 1).
  split; [now rewrite <- !app_assoc|]. split; [destruct (d <? 0); auto|]. do 3 (split; [assumption|]). rewrite V1, V2, V3.
  pose proof (Z.div_mod (Z.abs d) 1000). pose proof (Z.div_mod (Z.abs d / 1000) 1000). destruct (Z.ltb_spec d 0); lia.
Qed.

(** No text is both. *)
Lemma duration_not_time : forall t, duration t <> No -> timestamp t = No.
Proof.
  intros t H. destruct (duration_inv t H) as (n & k & rest & S & I). destruct S as (sp & sg & sigma & ds & unit & -> & B & S & A & U & -> & C).
  assert (strip (txt "s:") (unit ++ rest) = None) as N.
  { destruct U; [reflexivity|reflexivity|]. specialize (C eq_refl). apply starts_colon in C. unfold starts in C. cbn [app txt strip] in *.
    rewrite Z.eqb_refl. cbn [app]. destruct (strip (txt ":") rest) eqn:E; [cbn in E; rewrite E in C; discriminate|exact E]. }
  assert (forall neg sp sg sigma, blank sp -> signed sg sigma -> timestamp' neg (sp ++ sg ++ ds ++ unit ++ rest) = No) as W.
  { clear B S sp sg sigma C H I. intros neg sp sg sigma B S. unfold timestamp'. rewrite (read_uint64_app sp sg sigma ds _ B S A (scale_no_digit _ _ _ U)).
    destruct (number ds <? 2 ^ 64); [|reflexivity]. now rewrite N. }
  rewrite timestamp_eq. destruct (strip (txt "-") (sp ++ sg ++ ds ++ unit ++ rest)) as [t'|] eqn:E; [|now apply (W false sp sg sigma)].
  apply strip_inv in E. assert (sp = []) as ->.
  { destruct sp as [|c sp]; [reflexivity|]. inversion_clear B as [|? ? Hc _]. cbn in E. injection E as E _. change (char_of "-"%char) with 45 in E. lia. }
  destruct S; cbn [app] in E.
  - pose proof (no_dash ds (unit ++ rest) A) as D. rewrite E in D. now rewrite strip_app in D.
  - discriminate E.
  - apply (f_equal (strip (txt "-"))) in E. rewrite !strip_app in E. injection E as <-. apply (W true [] [] 1); constructor.
Qed.
