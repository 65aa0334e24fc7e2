From Verif Require Import Base Image_model Image_spec.
Local Open Scope nat_scope.

(** ** Reasoning about writes *)

(** [f] writes inside [b, b + n) and what it writes there guarantees [P]. *)
Definition does (f : mem -> option mem) (b n : nat) (P : mem -> Prop) : Prop :=
  forall m, b + n <= length m -> exists m', f m = Some m' /\ same_outside m m' b n /\
    forall m'', same_inside m' m'' b n -> P m''.

Definition bind {A B} (o : option A) (f : A -> option B) : option B :=
  match o with Some a => f a | None => None end.

Lemma does_seq f g b n1 n2 (P1 P2 : mem -> Prop) :
  does f b n1 P1 -> does g (b + n1) n2 P2 ->
  does (fun m => bind (f m) g) b (n1 + n2) (fun m => P1 m /\ P2 m).
Proof.
  intros F G m L. destruct (F m) as [m1 [E1 [[L1 C1] A1]]]; [lia|].
  destruct (G m1) as [m2 [E2 [[L2 C2] A2]]]; [lia|].
  exists m2. rewrite E1. cbn. split; [exact E2|]. split.
  - split; [lia|]. intros j Hj. rewrite C2 by lia. apply C1. lia.
  - intros m'' A. split.
    + apply A1. intros j Hj. rewrite A by lia. apply C2. lia.
    + apply A2. intros j Hj. apply A. lia.
Qed.

Lemma does_eq f g b n P : (forall m, f m = g m) -> does f b n P -> does g b n P.
Proof. intros E F m L. destruct (F m L) as [m' [E' H]]. exists m'. rewrite <- E. auto. Qed.
Lemma does_weaken f b n (P Q : mem -> Prop) : (forall m, P m -> Q m) -> does f b n P -> does f b n Q.
Proof. intros I F m L. destruct (F m L) as [m' [E [C A]]]. exists m'. split; [auto|]. split; auto. Qed.
Lemma does_len f b n n' (P : mem -> Prop) : n = n' -> does f b n P -> does f b n' P.
Proof. intros ->; auto. Qed.
Lemma does_nil b (P : mem -> Prop) : (forall m, P m) -> does (fun m => Some m) b 0 P.
Proof. intros H m L. exists m. repeat split; auto. Qed.

Lemma does_store b w : does (fun m => store m b w) b 1 (fun m => load m b = Some w).
Proof.
  intros m L. destruct (upd_some m b w) as [m' E]; [lia|]. exists m'. split; [exact E|]. split.
  - split; [exact (upd_length _ _ _ _ E)|]. intros j Hj. apply (upd_other _ _ _ _ _ E). lia.
  - intros m'' A. unfold load. rewrite A by lia. exact (upd_same _ _ _ _ E).
Qed.

Lemma does_store_list l : forall b,
  does (fun m => store_list m b l) b (length l) (fun m => load_list m b (length l) = Some l).
Proof.
  induction l as [|w l IH]; intros b; cbn [store_list length load_list].
  - apply does_nil. reflexivity.
  - change (S (length l)) with (1 + length l).
    eapply does_weaken; [|eapply does_eq; [|eapply does_seq; [apply (does_store b w)|]]].
    2: { intros m. cbn. unfold bind. destruct (store m b w); reflexivity. }
    2: { replace (b + 1) with (S b) by lia. apply IH. }
    cbn. intros m [H1 H2]. rewrite H1, H2. reflexivity.
Qed.

(** ** Generic items *)
Definition codec {X} (size : X -> nat) (wr : mem -> nat -> X -> option mem) (rd : mem -> nat -> option X) (x : X) : Prop :=
  forall b, does (fun m => wr m b x) b (size x) (fun m => rd m b = Some x).

Lemma does_items {X} (size : X -> nat) wr rd (xs : list X) :
  Forall (codec size wr rd) xs -> forall b,
  does (fun m => write_items size wr m b xs) b (fold_right (fun x n => size x + n) 0 xs)
       (fun m => read_items size rd m b (length xs) =
                 Some (xs, b + fold_right (fun x n => size x + n) 0 xs)).
Proof.
  induction 1 as [|x xs H _ IH]; intros b; cbn [write_items fold_right length read_items].
  - apply does_nil. intros m. do 2 f_equal. lia.
  - eapply does_weaken; [|eapply does_eq; [|eapply does_seq; [apply (H b)|apply IH]]].
    2: { intros m. cbn. unfold bind. destruct (wr m b x); reflexivity. }
    cbn. intros m [H1 H2]. rewrite H1, H2. do 2 f_equal. lia.
Qed.

Lemma wrap16_id n : (Z.of_nat n < 65536)%Z -> wrap16 n = n.
Proof. intros H. unfold wrap16, u16. rewrite Z.mod_small by lia. lia. Qed.

(** With 16-bit offsets, as long as every offset fits. *)
Lemma read_items16_eq {X} (size : X -> nat) rd m base n : forall off xs e,
  read_items size rd m (base + off) n = Some (xs, e) ->
  (Z.of_nat (off + fold_right (fun x n => size x + n) 0 xs)%nat < 65536)%Z ->
  read_items16 size rd m base off n = Some (xs, off + fold_right (fun x n => size x + n) 0 xs).
Proof.
  induction n as [|n IH]; intros off xs e H Hb; cbn [read_items read_items16] in *.
  - inversion H; subst. cbn. do 2 f_equal. lia.
  - destruct (rd m (base + off)) as [x|]; [|discriminate].
    destruct (read_items size rd m (base + off + size x) n) as [[xs' e']|] eqn:E; [|discriminate].
    inversion H; subst. cbn [fold_right] in *.
    rewrite wrap16_id by lia.
    rewrite (IH (off + size x) xs' e) by (rewrite ?Nat.add_assoc; auto; lia).
    do 2 f_equal. lia.
Qed.

(** ** Views and objects *)
Lemma count_small {X} (l : list X) : small l -> Z.to_nat (count l) = length l.
Proof. intros H. unfold count, u32, small in *. rewrite Z.mod_small by lia. lia. Qed.

Ltac runs := intros m; unfold bind;
  repeat match goal with |- context [match ?x with Some _ => _ | None => _ end] => destruct x end; reflexivity.

Lemma map_u16 l : Forall is_u16 l -> map u16 l = l.
Proof.
  induction 1 as [|x l H _ IH]; cbn; [reflexivity|]. rewrite IH. f_equal.
  unfold u16, is_u16 in *. apply Z.mod_small. assumption.
Qed.


Lemma view_codec v : view_small v -> codec view_size write_view read_view v.
Proof.
  intros (S1 & S2 & R) b. unfold write_view.
  eapply does_len; [|eapply does_weaken; [|eapply does_eq; [|
    eapply does_seq; [apply (does_store b (count (v_code v)))|
    eapply does_seq; [apply (does_store (b + 1) (count (v_refs v)))|
    eapply does_seq; [eapply does_eq; [|apply (does_store_list (v_code v))]; intros; reflexivity|
                      apply (does_store_list (v_refs v))]]]]]].
  3: { intros m. unfold bind. replace (b + 1 + 1) with (b + 2) by lia.
       destruct (store m b _); [|reflexivity]. destruct (store m0 _ _); [|reflexivity].
       destruct (store_list m1 _ _); reflexivity. }
  - cbn. unfold view_size. lia.
  - cbn beta. intros m (A & B & C & D). unfold read_view. rewrite A, B. rewrite !count_small by assumption.
    replace (b + 2) with (b + 1 + 1) by lia. rewrite C, D, map_u16 by assumption. destruct v; reflexivity.
Qed.


Lemma object_codec o : object_small o -> codec object_size write_object read_object o.
Proof.
  intros (S1 & S2 & S3 & S4 & R & SV) b. unfold write_object.
  assert (VC : Forall (codec view_size write_view read_view) (o_views o)).
  { eapply Forall_impl; [|exact SV]. apply view_codec. }
  eapply does_len; [|eapply does_weaken; [|eapply does_eq; [|
    eapply does_seq; [apply (does_store b (o_oid o))|
    eapply does_seq; [apply (does_store (b + 1) (count (o_code o)))|
    eapply does_seq; [apply (does_store (b + 1 + 1) (count (o_refs o)))|
    eapply does_seq; [apply (does_store (b + 1 + 1 + 1) (count (o_markers o)))|
    eapply does_seq; [apply (does_store (b + 1 + 1 + 1 + 1) (count (o_views o)))|
    eapply does_seq; [apply (does_store_list (o_code o))|
    eapply does_seq; [apply (does_store_list (o_refs o))|
    eapply does_seq; [apply (does_store_list (o_markers o))|
                      apply (does_items _ _ _ _ VC)]]]]]]]]]]].
  3: { intros m. unfold bind. cbn zeta.
       replace (b + 2) with (b + 1 + 1) by lia. replace (b + 3) with (b + 1 + 1 + 1) by lia.
       replace (b + 4) with (b + 1 + 1 + 1 + 1) by lia. replace (b + 5) with (b + 1 + 1 + 1 + 1 + 1) by lia.
       repeat (match goal with |- (match ?x with Some _ => _ | None => _ end) = _ => destruct x end; [|reflexivity]).
       reflexivity. }
  - cbn. unfold object_size. lia.
  - cbn beta. intros m (A & B & C & D & E & F & G & H & I). unfold read_object.
    replace (b + 2) with (b + 1 + 1) by lia. replace (b + 3) with (b + 1 + 1 + 1) by lia.
    replace (b + 4) with (b + 1 + 1 + 1 + 1) by lia. replace (b + 5) with (b + 1 + 1 + 1 + 1 + 1) by lia.
    rewrite A, B, C, D, E. cbn zeta. rewrite !count_small by assumption.
    rewrite F, G, H, I, map_u16 by assumption. destruct o; reflexivity.
Qed.

(** ** Strings *)
Lemma byte_set_same w k ch : k < 4 -> (0 <= ch < 256)%Z -> byte_of (set_byte w k ch) k = ch.
Proof.
  intros K H. unfold set_byte, byte_of. destruct k as [|[|[|[|k]]]]; [| | | |lia]; cbn [Z.of_nat Pos.of_succ_nat Pos.succ].
  - change (256 ^ 0)%Z with 1%Z. lia.
  - change (256 ^ 1)%Z with 256%Z. lia.
  - change (256 ^ 2)%Z with 65536%Z. lia.
  - change (256 ^ 3)%Z with 16777216%Z. lia.
Qed.

Lemma byte_set_other w k j ch : k < 4 -> j < 4 -> k <> j -> (0 <= ch < 256)%Z ->
  byte_of (set_byte w k ch) j = byte_of w j.
Proof.
  intros K J N H. unfold set_byte, byte_of.
  assert (E0 : (256 ^ 0 = 1)%Z) by reflexivity. assert (E1 : (256 ^ 1 = 256)%Z) by reflexivity.
  assert (E2 : (256 ^ 2 = 65536)%Z) by reflexivity. assert (E3 : (256 ^ 3 = 16777216)%Z) by reflexivity.
  destruct k as [|[|[|[|k]]]], j as [|[|[|[|j]]]]; try lia; cbn [Z.of_nat Pos.of_succ_nat Pos.succ];
    rewrite ?E0, ?E1, ?E2, ?E3; clear; lia.
Qed.

Lemma store_byte_spec m b k ch : b + k / 4 < length m -> (0 <= ch < 256)%Z ->
  exists m', store_byte m b k ch = Some m' /\ length m' = length m /\
    load_byte m' b k = Some ch /\
    (forall j, j <> k -> load_byte m' b j = load_byte m b j) /\
    (forall j, j <> b + k / 4 -> nth_error m' j = nth_error m j).
Proof.
  intros L H. unfold store_byte.
  destruct (load m (b + k / 4)) as [w|] eqn:E; [|apply nth_error_None in E; lia].
  destruct (upd_some m (b + k / 4) (set_byte w (k mod 4) ch)) as [m' U]; [lia|].
  exists m'. unfold store. split; [exact U|]. split; [exact (upd_length _ _ _ _ U)|].
  assert (M4 : forall x, x mod 4 < 4) by (intros; apply Nat.mod_upper_bound; lia).
  split; [|split].
  - unfold load_byte, load. rewrite (upd_same _ _ _ _ U). cbn [option_map]. f_equal. apply byte_set_same; auto.
  - intros j Hj. unfold load_byte, load.
    destruct (Nat.eq_dec (j / 4) (k / 4)) as [Q|Q].
    + rewrite Q. rewrite (upd_same _ _ _ _ U). unfold load in E. rewrite E. cbn [option_map]. f_equal.
      apply byte_set_other; auto. intros X. apply Hj.
      rewrite (Nat.div_mod j 4), (Nat.div_mod k 4) by lia. congruence.
    + rewrite (upd_other _ _ _ _ _ U) by lia. reflexivity.
  - intros j Hj. apply (upd_other _ _ _ _ _ U). auto.
Qed.

Lemma store_bytes_spec b s : forall m k, Forall (fun ch => 0 <= ch < 256)%Z s ->
  b + (k + length s + 3) / 4 <= length m ->
  exists m', store_bytes m b k s = Some m' /\ length m' = length m /\
    (forall i ch, nth_error s i = Some ch -> load_byte m' b (k + i) = Some ch) /\
    (forall j, j < k -> load_byte m' b j = load_byte m b j) /\
    (forall j, j < b \/ b + (k + length s + 3) / 4 <= j -> nth_error m' j = nth_error m j).
Proof.
  induction s as [|ch s IH]; intros m k HF HL; cbn [store_bytes length] in *.
  - exists m. split; [reflexivity|]. split; [reflexivity|]. split; [|auto]. intros [|i] c H; discriminate.
  - inversion HF as [|? ? Hc Hs]; subst.
    assert (D : k / 4 < (k + S (length s) + 3) / 4).
    { change (k / 4 < (k + S (length s) + 3) / 4). apply Nat.lt_le_trans with ((k + 4) / 4).
      - replace (k + 4) with (1 * 4 + k) by lia. rewrite Nat.div_add_l by lia. lia.
      - apply Nat.div_le_mono; lia. }
    destruct (store_byte_spec m b k ch) as [m1 [E1 [L1 [S1 [O1 F1]]]]]; [lia|assumption|].
    rewrite E1. destruct (IH m1 (S k) Hs) as [m2 [E2 [L2 [S2 [O2 F2]]]]].
    { replace (S k + length s) with (k + S (length s)) by lia. lia. }
    exists m2. split; [exact E2|]. split; [lia|]. split; [|split].
    + intros [|i] c Hi; cbn in Hi.
      * inversion Hi; subst. rewrite Nat.add_0_r, O2 by lia. exact S1.
      * replace (k + S i) with (S k + i) by lia. apply S2, Hi.
    + intros j Hj. rewrite O2 by lia. apply O1. lia.
    + intros j Hj. rewrite F2 by (replace (S k + length s) with (k + S (length s)) by lia; lia).
      apply F1. lia.
Qed.

Lemma scan_ok m b s : Forall (fun ch => 1 <= ch < 256)%Z s -> forall fuel k,
  (forall i ch, nth_error (s ++ [0%Z]) i = Some ch -> load_byte m b (k + i) = Some ch) ->
  length s < fuel -> scan fuel m b k = Some s.
Proof.
  induction 1 as [|ch s H _ IH]; intros fuel k B F; (destruct fuel as [|fuel]; [cbn in F; lia|]); cbn [scan].
  - specialize (B 0 0%Z eq_refl). rewrite Nat.add_0_r in B. rewrite B. reflexivity.
  - pose proof (B 0 ch eq_refl) as B0. rewrite Nat.add_0_r in B0. rewrite B0.
    destruct (Z.eqb_spec ch 0); [lia|]. rewrite (IH fuel (S k)); [reflexivity| |cbn in F; lia].
    intros i c Hi. replace (S k + i) with (k + S i) by lia. apply B, Hi.
Qed.


Definition words_for (s : list Z) : nat := (length s + 4) / 4.

Lemma words_for_pos s : 0 < words_for s.
Proof.
  unfold words_for. assert (1 <= (length s + 4) / 4); [|lia].
  apply Nat.div_le_lower_bound; lia.
Qed.

Lemma string_size_words s : string_size s = 1 + words_for s.
Proof.
  unfold string_size, words_for. cbn zeta.
  replace (length s + 4) with ((length s + 1) + 3) by lia. generalize (length s + 1). intros n.
  pose proof (Nat.div_mod n 4 ltac:(lia)). pose proof (Nat.mod_upper_bound n 4 ltac:(lia)).
  destruct (Nat.eqb_spec (n mod 4) 0).
  - assert ((n + 3) / 4 = n / 4); [|lia]. symmetry. apply Nat.div_unique with 3; lia.
  - assert ((n + 3) / 4 = n / 4 + 1); [|lia]. symmetry. apply Nat.div_unique with (n mod 4 - 1); lia.
Qed.

Lemma symbol_words_eq s : symbol_words s = words_for s.
Proof.
  pose proof (string_size_words s) as H. unfold string_size in H. unfold symbol_words. cbn zeta in *.
  destruct ((length s + 1) mod 4 =? 0); lia.
Qed.

(** The characters and the terminating NUL are in the words at [b]. *)
Lemma does_chars b s : text s ->
  does (fun m => store_bytes m b 0 (s ++ [0%Z])) b (words_for s)
       (fun m => forall fuel, length s < fuel -> scan fuel m b 0 = Some s).
Proof.
  intros T m L.
  destruct (store_bytes_spec b (s ++ [0%Z]) m 0) as [m' [E [L' [S1 [_ F]]]]].
  { apply Forall_app. split; [|repeat constructor; lia]. eapply Forall_impl; [|exact T]. cbn; intros; lia. }
  { rewrite app_length. cbn [length]. replace (0 + (length s + 1) + 3) with (length s + 4) by lia. exact L. }
  rewrite app_length in F. cbn [length] in F. replace (0 + (length s + 1) + 3) with (length s + 4) in F by lia.
  exists m'. split; [exact E|]. split; [split; [exact L'|exact F]|].
  intros m'' A fuel Hf. apply scan_ok; [exact T| |exact Hf].
  intros i ch Hi. specialize (S1 i ch Hi). unfold load_byte, load in *. rewrite A; [exact S1|].
  assert (i < length (s ++ [0%Z])) by (apply nth_error_Some; congruence).
  rewrite app_length in H. cbn [length] in H.
  assert ((0 + i) / 4 < words_for s); [|lia]. unfold words_for.
  apply Nat.lt_le_trans with ((i + 4) / 4).
  + replace (i + 4) with (1 * 4 + i) by lia. rewrite Nat.div_add_l by lia. cbn. lia.
  + apply Nat.div_le_mono; lia.
Qed.

(** The memory must reach the end of the characters for the scan to have fuel. *)
Lemma length_same_inside (m m' : mem) b n : b + n <= length m -> 0 < n -> same_inside m m' b n -> b + n <= length m'.
Proof.
  intros L P A. assert (H : nth_error m' (b + n - 1) <> None).
  { rewrite A by lia. apply nth_error_Some. lia. }
  apply nth_error_Some in H. lia.
Qed.

Lemma words_for_length s : length s < 4 * words_for s.
Proof. unfold words_for. pose proof (Nat.div_mod (length s + 4) 4 ltac:(lia)).
  pose proof (Nat.mod_upper_bound (length s + 4) 4 ltac:(lia)). lia. Qed.

Lemma does_read_chars b s : text s ->
  does (fun m => store_bytes m b 0 (s ++ [0%Z])) b (words_for s)
       (fun m => scan (S (4 * length m)) m b 0 = Some s).
Proof.
  intros T m L. destruct (does_chars b s T m L) as [m' [E [C A]]]. exists m'. split; [exact E|]. split; [exact C|].
  intros m'' A'. apply A; [exact A'|].
  pose proof (words_for_pos s). pose proof (words_for_length s).
  assert (b + words_for s <= length m''); [|lia].
  apply (length_same_inside m' m''); [destruct C; lia|lia|exact A'].
Qed.

Lemma does_string b s : text s ->
  does (fun m => write_string m b s) b (string_size s)
       (fun m => forall init, read_string m b init = Some (init ++ s)).
Proof.
  intros T. eapply does_len; [|eapply does_weaken; [|eapply does_eq; [|
    eapply does_seq; [apply (does_store b (Z.of_nat (string_size s - 1)))|apply (does_read_chars (b + 1) s T)]]]].
  - rewrite string_size_words. reflexivity.
  - cbn beta. intros m [_ H] init. unfold read_string. rewrite H. reflexivity.
  - intros m. unfold write_string, bind. destruct (store m b _); reflexivity.
Qed.

(** ** Members and classes *)

Lemma member_codec x : member_ok x -> codec member_size write_member read_member x.
Proof.
  intros (T1 & T2 & R) b. unfold write_member.
  eapply does_len; [|eapply does_weaken; [|eapply does_eq; [|
    eapply does_seq; [apply (does_store b (mb_read x))|
    eapply does_seq; [apply (does_store (b + 1) (mb_type x))|
    eapply does_seq; [apply (does_string (b + 1 + 1) _ T1)|
    eapply does_seq; [apply (does_store (b + 1 + 1 + string_size (mb_class x)) (mb_iter x))|
                      apply (does_string (b + 1 + 1 + string_size (mb_class x) + 1) _ T2)]]]]]]].
  3: { intros m. unfold bind. cbn zeta. replace (b + 2) with (b + 1 + 1) by lia.
       replace (b + (2 + string_size (mb_class x))) with (b + 1 + 1 + string_size (mb_class x)) by lia.
       replace (b + (2 + string_size (mb_class x) + 1)) with (b + 1 + 1 + string_size (mb_class x) + 1) by lia.
       repeat (match goal with |- (match ?x with Some _ => _ | None => _ end) = _ => destruct x end; [|reflexivity]).
       reflexivity. }
  - unfold member_size. lia.
  - cbn beta. intros m (A & B & C & D & E). unfold read_member. replace (b + 2) with (b + 1 + 1) by lia.
    rewrite A, B, C. cbn [app]. cbn zeta.
    replace (b + (2 + string_size (mb_class x))) with (b + 1 + 1 + string_size (mb_class x)) by lia.
    replace (b + (2 + string_size (mb_class x) + 1)) with (b + 1 + 1 + string_size (mb_class x) + 1) by lia.
    rewrite D, E. cbn [app].
    destruct (Z.leb_spec 0 (mb_read x)); [|lia]. destruct (Z.leb_spec (mb_read x) 11); [|lia].
    destruct x; reflexivity.
Qed.


(** What is in memory after a class is written. *)
Lemma does_class c b : class_ok c ->
  does (fun m => write_class m b c) b (class_size c)
       (fun m => read_class [] m b = Some c /\
                 (forall init, read_string m (b + 1) init = Some (init ++ k_opcode c))).
Proof.
  intros (T & S & M). unfold write_class.
  assert (MC : Forall (codec member_size write_member read_member) (k_members c)).
  { eapply Forall_impl; [|exact M]. apply member_codec. }
  set (o := b + 1 + string_size (k_opcode c)).
  eapply does_len; [|eapply does_weaken; [|eapply does_eq; [|
    eapply does_seq; [apply (does_store b (k_atom c))|
    eapply does_seq; [apply (does_string (b + 1) _ T)|
    eapply does_seq; [apply (does_store o (k_type c))|
    eapply does_seq; [apply (does_store (o + 1) (k_use c))|
    eapply does_seq; [apply (does_store (o + 1 + 1) (count (k_members c)))|
                      apply (does_items _ _ _ _ MC)]]]]]]]].
  3: { intros m. unfold bind. cbn zeta.
       replace (b + (1 + string_size (k_opcode c))) with o by (unfold o; lia).
       replace (o + 2) with (o + 1 + 1) by lia. replace (o + 3) with (o + 1 + 1 + 1) by lia.
       repeat (match goal with |- (match ?x with Some _ => _ | None => _ end) = _ => destruct x end; [|reflexivity]).
       reflexivity. }
  - unfold class_size. lia.
  - cbn beta. intros m (A & B & C & D & E & F). split; [|exact B].
    unfold read_class. rewrite A, B. cbn [app]. cbn zeta.
    replace (b + (1 + string_size (k_opcode c))) with o by (unfold o; lia).
    replace (o + 2) with (o + 1 + 1) by lia. replace (o + 3) with (o + 1 + 1 + 1) by lia.
    rewrite C, D, E. rewrite count_small by assumption.
    fold o in F. rewrite F. destruct c; reflexivity.
Qed.

(** Whatever class is written, reading it into a default-constructed class
    does not give it back. *)
Lemma class_never_read_back c b m : class_ok c -> b + class_size c <= length m ->
  exists m', write_class m b c = Some m' /\ read_class undefined_name m' b <> Some c.
Proof.
  intros H L. destruct (does_class c b H m L) as [m' [E [_ A]]]. exists m'. split; [exact E|].
  destruct (A m') as [_ B]; [intros j _; reflexivity|]. unfold read_class.
  destruct (load m' b); [|discriminate]. rewrite B. cbn zeta.
  destruct (load m' _); [|discriminate]. destruct (load m' _); [|discriminate].
  destruct (load m' _); [|discriminate]. destruct (read_items _ _ _ _ _) as [[ms e]|]; [|discriminate].
  intros X. apply (f_equal (fun o => match o with Some k => length (k_opcode k) | None => 0 end)) in X.
  cbn in X. lia.
Qed.

(** ** Code segments *)
Lemma does_segment os b : Forall object_small os ->
  does (fun m => write_segment m b os) b (segment_size os)
       (fun m => read_items object_size read_object m b (length os) = Some (os, b + segment_size os)).
Proof.
  intros H. apply (does_items object_size write_object read_object os).
  eapply Forall_impl; [|exact H]. apply object_codec.
Qed.

Lemma length_segment os : 5 * length os <= segment_size os.
Proof.
  unfold segment_size. induction os as [|o os IH]; cbn [length fold_right]; [lia|].
  assert (5 <= object_size o) by (unfold object_size; lia). lia.
Qed.

Lemma read_segment_ok m b os :
  read_items object_size read_object m b (length os) = Some (os, b + segment_size os) ->
  (Z.of_nat (segment_size os) < 65536)%Z -> read_segment m b (length os) = Some os.
Proof.
  intros H B. unfold read_segment. pose proof (length_segment os).
  rewrite wrap16_id by lia.
  rewrite (read_items16_eq object_size read_object m b (length os) 0 os (b + segment_size os)).
  - reflexivity.
  - rewrite Nat.add_0_r. exact H.
  - exact B.
Qed.

Lemma read_segment_wraps m b o1 o2 e :
  read_items object_size read_object m b 2 = Some ([o1; o2], e) ->
  Z.of_nat (object_size o1) = 65536%Z -> read_segment m b 2 = Some [o1; o1].
Proof.
  intros H S. cbn [read_items] in H.
  destruct (read_object m b) as [o|] eqn:E; [|discriminate].
  destruct (read_object m (b + object_size o)) as [o'|]; [|discriminate].
  inversion H; subst. unfold read_segment. change (wrap16 2) with 2. cbn [read_items16].
  rewrite Nat.add_0_r, E. assert (W : wrap16 (0 + object_size o1) = 0).
  { unfold wrap16, u16. rewrite Nat.add_0_l, S. reflexivity. }
  rewrite W, Nat.add_0_r, E. reflexivity.
Qed.

(** ** Names *)

Lemma does_name n b : name_ok n ->
  does (fun m => write_name m b n) b (name_size n)
       (fun m => load m b = Some (fst n) /\ load m (b + 1) = Some (Z.of_nat (symbol_words (snd n))) /\
                 scan (S (4 * length m)) m (b + 2) 0 = Some (snd n)).
Proof.
  intros T. eapply does_len; [|eapply does_weaken; [|eapply does_eq; [|
    eapply does_seq; [apply (does_store b (fst n))|
    eapply does_seq; [apply (does_store (b + 1) (Z.of_nat (symbol_words (snd n))))|
                      apply (does_read_chars (b + 1 + 1) _ T)]]]]].
  3: { intros m. unfold write_name, bind. replace (b + 2) with (b + 1 + 1) by lia.
       repeat (match goal with |- (match ?x with Some _ => _ | None => _ end) = _ => destruct x end; [|reflexivity]).
       reflexivity. }
  - unfold name_size. rewrite symbol_words_eq. lia.
  - cbn beta. intros m (A & B & C). replace (b + 2) with (b + 1 + 1) by lia. auto.
Qed.

Lemma does_name_items ns : Forall name_ok ns -> forall b,
  does (fun m => write_items name_size write_name m b ns) b (fold_right (fun x n => name_size x + n) 0 ns)
       (fun m => read_name_loop m b (length ns) = Some ns).
Proof.
  induction 1 as [|x ns H _ IH]; intros b; cbn [write_items fold_right length read_name_loop].
  - apply does_nil. reflexivity.
  - eapply does_weaken; [|eapply does_eq; [|eapply does_seq; [apply (does_name x b H)|apply IH]]].
    2: { intros m. cbn. unfold bind. destruct (write_name m b x); reflexivity. }
    cbn beta. intros m [(A & B & C) D]. rewrite A, B, C, Nat2Z.id.
    replace (b + (symbol_words (snd x) + 2)) with (b + name_size x) by (unfold name_size; lia).
    rewrite D. destruct x; reflexivity.
Qed.

Lemma does_names ns b : Forall name_ok ns -> small ns ->
  does (fun m => write_names m b ns) b (names_size ns) (fun m => read_names m b = Some ns).
Proof.
  intros T S. unfold names_size. eapply does_weaken; [|eapply does_eq; [|
    eapply does_seq; [apply (does_store b (count ns))|apply (does_name_items ns T)]]].
  - cbn beta. intros m [A B]. unfold read_names. rewrite A, count_small by assumption. exact B.
  - intros m. unfold write_names, bind. destruct (store m b _); reflexivity.
Qed.

(** ** Images *)
Lemma shift_map_u16 l k : Forall is_u16 (shift_map l k).
Proof.
  unfold shift_map. apply Forall_forall. intros x Hx. apply in_map_iff in Hx. destruct Hx as [y [<- _]].
  unfold is_u16, u16. apply Z.mod_pos_bound. lia.
Qed.


(** What the array holds after [serialize]. *)
Lemma serialize_data fill im : image_ok im ->
  exists r, serialize fill im = Some r /\
    r_time r = im_time im /\ r_map_size r = length (im_map im) /\
    r_code_size r = segment_size (im_code im) /\ r_names_size r = names_size (im_names im) /\
    length (r_data r) = r_map_size r + r_code_size r + r_names_size r /\
    load_list (r_data r) 0 (length (im_map im)) = Some (shift_map (im_map im) (Z.of_nat (length (im_map im)))) /\
    read_items object_size read_object (r_data r) (length (im_map im)) (length (im_code im)) =
      Some (im_code im, length (im_map im) + segment_size (im_code im)) /\
    read_names (r_data r) (length (im_map im) + segment_size (im_code im)) = Some (im_names im).
Proof.
  intros H. set (ms := length (im_map im)). set (sm := shift_map (im_map im) (Z.of_nat ms)).
  assert (Lsm : length sm = ms) by (unfold sm, shift_map, ms; apply map_length).
  assert (D : does (fun m => bind (write_map m 0 sm) (fun m => bind (write_segment m ms (im_code im))
                (fun m => write_names m (ms + segment_size (im_code im)) (im_names im)))) 0
              (ms + (segment_size (im_code im) + names_size (im_names im)))
              (fun m => load_list m 0 ms = Some sm /\
                 (read_items object_size read_object m ms (length (im_code im)) = Some (im_code im, ms + segment_size (im_code im))) /\
                 read_names m (ms + segment_size (im_code im)) = Some (im_names im))).
  { apply does_seq.
    - pose proof (does_store_list sm 0) as X. rewrite Lsm in X. exact X.
    - rewrite Nat.add_0_l. apply does_seq.
      + apply does_segment. apply H.
      + apply does_names; apply H. }
  destruct (D (repeat fill (ms + segment_size (im_code im) + names_size (im_names im)))) as [m' [E [[L _] A]]].
  { rewrite repeat_length. lia. }
  rewrite repeat_length in L.
  exists (mkraw (im_time im) ms (segment_size (im_code im)) (names_size (im_names im)) m').
  split.
  { unfold serialize. fold ms. cbn zeta. fold sm.
    unfold bind in E. destruct (write_map _ 0 sm) as [m1|]; [|discriminate].
    destruct (write_segment m1 ms (im_code im)) as [m2|]; [|discriminate]. rewrite E. reflexivity. }
  cbn [r_time r_map_size r_code_size r_names_size r_data]. repeat (split; [auto; fail|]).
  apply A. intros j _. reflexivity.
Qed.

Lemma image_round_trip fill im : image_ok im -> (Z.of_nat (segment_size (im_code im)) < 65536)%Z ->
  exists r, serialize fill im = Some r /\
    load_image r = Some (mkimage (im_time im) (shift_map (im_map im) (Z.of_nat (length (im_map im))))
                                 (im_code im) (im_names im)).
Proof.
  intros H B. destruct (serialize_data fill im H) as (r & E & T & MS & CS & NS & L & M & C & N).
  exists r. split; [exact E|]. unfold load_image. rewrite T, MS, CS.
  pose proof (length_segment (im_code im)) as LS. pose proof (ok_map _ H) as OM.
  unfold read_map. destruct (Z.ltb_spec 65535 (Z.of_nat (length (im_map im)))); [lia|].
  rewrite M. cbn [option_map]. rewrite map_u16 by apply shift_map_u16.
  rewrite OM in *. rewrite (read_segment_ok _ _ _ C B). rewrite N. reflexivity.
Qed.

Lemma many_objects r : (65535 < Z.of_nat (r_map_size r))%Z -> load_image r = None.
Proof.
  intros H. unfold load_image, read_map. destruct (Z.ltb_spec 65535 (Z.of_nat (r_map_size r))); [reflexivity|lia].
Qed.

Definition big : sys_object := mkobj 1 (repeat 0%Z (Z.to_nat 65531)) [] [] [].
Definition tiny : sys_object := mkobj 2 [7%Z] [] [] [].

Lemma big_size : Z.of_nat (object_size big) = 65536%Z.
Proof. unfold object_size, big. cbn [o_code o_refs o_markers o_views length fold_right]. rewrite repeat_length. lia. Qed.

Lemma image_refuted : exists fill im r, image_ok im /\ serialize fill im = Some r /\
  (forall im', load_image r = Some im' -> im_code im' <> im_code im).
Proof.
  set (im := mkimage 0 [0; 0]%Z [big; tiny] []).
  assert (H : image_ok im).
  { constructor; cbn [im im_map im_code im_names].
    - reflexivity.
    - repeat constructor; cbn [big tiny o_code o_refs o_markers o_views]; unfold small; rewrite ?repeat_length; cbn [length]; lia.
    - constructor.
    - unfold small. cbn. lia. }
  destruct (serialize_data 0 im H) as (r & E & T & MS & CS & NS & L & M & C & N).
  exists 0%Z, im, r. split; [exact H|]. split; [exact E|].
  intros im' X. unfold load_image in X. rewrite MS in X.
  cbn [im im_map im_code length] in C, X.
  rewrite (read_segment_wraps _ _ _ _ _ C big_size) in X.
  destruct (read_map _ _ _); [|discriminate]. destruct (read_names _ (2 + r_code_size r)); [|discriminate].
  intros Y.
  apply (f_equal (fun o => match o with Some i => map o_oid (im_code i) | None => [] end)) in X.
  cbn [im_code] in X. rewrite Y in X. cbn [map o_oid big tiny im im_code] in X. clear - X.
  apply (f_equal (fun l => nth 1 l 0%Z)) in X. cbn [nth] in X. lia.
Qed.

(** ** Files *)
Lemma bytes4_words ws : Forall is_u32 ws -> words_of (length ws) (concat (map bytes4 ws)) = Some ws.
Proof.
  induction 1 as [|w ws H _ IH]; [reflexivity|]. cbn [length map concat words_of].
  assert (E : bytes4 w = [byte_of w 0; byte_of w 1; byte_of w 2; byte_of w 3]) by reflexivity.
  rewrite E. cbn [app length Nat.ltb Nat.leb firstn skipn]. rewrite IH. cbn [option_map]. do 2 f_equal.
  unfold byte_of, of_bytes, is_u32 in *. cbn [fold_right Z.of_nat Pos.of_succ_nat Pos.succ].
  change (256 ^ 0)%Z with 1%Z. change (256 ^ 1)%Z with 256%Z. change (256 ^ 2)%Z with 65536%Z.
  change (256 ^ 3)%Z with 16777216%Z. clear - H. lia.
Qed.

Lemma of_bytes4 w : is_u32 w -> of_bytes (bytes4 w) = w.
Proof.
  intros H. unfold bytes4. cbn [seq map].
  unfold byte_of, of_bytes, is_u32 in *. cbn [fold_right Z.of_nat Pos.of_succ_nat Pos.succ].
  change (256 ^ 0)%Z with 1%Z. change (256 ^ 1)%Z with 256%Z. change (256 ^ 2)%Z with 65536%Z.
  change (256 ^ 3)%Z with 16777216%Z. lia.
Qed.

Lemma of_bytes_app l1 l2 : of_bytes (l1 ++ l2) = (of_bytes l1 + 256 ^ Z.of_nat (length l1) * of_bytes l2)%Z.
Proof.
  induction l1 as [|a l1 IH]; cbn [app length]; [change (256 ^ Z.of_nat 0)%Z with 1%Z; change (of_bytes []) with 0%Z; ring|].
  unfold of_bytes in *. cbn [fold_right]. rewrite IH, Nat2Z.inj_succ, Z.pow_succ_r by lia. ring.
Qed.

Lemma of_bytes8 w : is_i64 w -> i64 (of_bytes (bytes8 w)) = w.
Proof.
  intros H.
  assert (E : bytes8 w = bytes4 (u64 w mod 4294967296) ++ bytes4 (u64 w / 4294967296)).
  { unfold bytes8, bytes4. cbn [seq map app]. unfold byte_of. generalize (u64 w). intros x.
    cbn [Z.of_nat Pos.of_succ_nat Pos.succ].
    change (256 ^ 0)%Z with 1%Z. change (256 ^ 1)%Z with 256%Z. change (256 ^ 2)%Z with 65536%Z.
    change (256 ^ 3)%Z with 16777216%Z. change (256 ^ 4)%Z with 4294967296%Z.
    change (256 ^ 5)%Z with (4294967296 * 256)%Z. change (256 ^ 6)%Z with (4294967296 * 65536)%Z.
    change (256 ^ 7)%Z with (4294967296 * 16777216)%Z.
    rewrite <- !Z.div_div by lia. rewrite !Z.div_1_r.
    assert (A0 : (x mod 256 = (x mod 4294967296) mod 256)%Z) by (clear; lia).
    assert (A1 : ((x / 256) mod 256 = (x mod 4294967296 / 256) mod 256)%Z) by (clear; lia).
    assert (A2 : ((x / 65536) mod 256 = (x mod 4294967296 / 65536) mod 256)%Z) by (clear; lia).
    assert (A3 : ((x / 16777216) mod 256 = (x mod 4294967296 / 16777216) mod 256)%Z) by (clear; lia).
    rewrite <- A0, <- A1, <- A2, <- A3. reflexivity. }
  rewrite E, of_bytes_app, !of_bytes4.
  - change (256 ^ Z.of_nat (length (bytes4 (u64 w mod 4294967296))))%Z with 4294967296%Z.
    unfold is_i64 in H. unfold i64, u64. clear E. lia.
  - unfold is_u32, u64. lia.
  - unfold is_u32, u64. lia.
Qed.

Lemma file_round_trip r : is_i64 (r_time r) ->
  (Z.of_nat (r_map_size r) < 4294967296)%Z -> (Z.of_nat (r_code_size r) < 4294967296)%Z ->
  (Z.of_nat (r_names_size r) < 4294967296)%Z ->
  length (r_data r) = r_map_size r + r_code_size r + r_names_size r -> Forall is_u32 (r_data r) ->
  read_file (write_file r) = Some r.
Proof.
  intros HT HM HC HN HL HD. destruct r as [t ms cs ns d]. cbn [r_time r_map_size r_code_size r_names_size r_data] in *.
  unfold read_file, write_file. cbn [r_time r_map_size r_code_size r_names_size r_data].
  set (b0 := bytes8 t). set (b1 := bytes4 (Z.of_nat ms)). set (b2 := bytes4 (Z.of_nat cs)). set (b3 := bytes4 (Z.of_nat ns)).
  set (dd := concat (map bytes4 d)).
  assert (E0 : firstn 8 (b0 ++ b1 ++ b2 ++ b3 ++ dd) = b0) by reflexivity.
  assert (E1 : firstn 4 (skipn 8 (b0 ++ b1 ++ b2 ++ b3 ++ dd)) = b1) by reflexivity.
  assert (E2 : firstn 4 (skipn 12 (b0 ++ b1 ++ b2 ++ b3 ++ dd)) = b2) by reflexivity.
  assert (E3 : firstn 4 (skipn 16 (b0 ++ b1 ++ b2 ++ b3 ++ dd)) = b3) by reflexivity.
  assert (E4 : skipn 20 (b0 ++ b1 ++ b2 ++ b3 ++ dd) = dd) by reflexivity.
  rewrite E0, E1, E2, E3, E4. unfold b0, b1, b2, b3.
  rewrite of_bytes8 by assumption. rewrite !of_bytes4 by (unfold is_u32; lia). rewrite !Nat2Z.id.
  assert (G : (length (b0 ++ b1 ++ b2 ++ b3 ++ dd) <? 20) = false).
  { apply Nat.ltb_ge. rewrite !app_length. change (length b0) with 8. change (length b1) with 4.
    change (length b2) with 4. change (length b3) with 4. lia. }
  unfold b0, b1, b2, b3 in G. rewrite G. rewrite <- HL. unfold dd. rewrite bytes4_words by assumption. reflexivity.
Qed.

(** ** The exact format *)
Lemma store_list_app l1 l2 : forall m b,
  store_list m b (l1 ++ l2) = match store_list m b l1 with Some m1 => store_list m1 (b + length l1) l2 | None => None end.
Proof.
  induction l1 as [|w l1 IH]; intros m b; cbn [app store_list length].
  - rewrite Nat.add_0_r. reflexivity.
  - destruct (store m b w); [|reflexivity]. rewrite IH. replace (S b + length l1) with (b + S (length l1)) by lia. reflexivity.
Qed.

Lemma view_format m b v : write_view m b v = store_list m b (view_words v).
Proof.
  unfold write_view, view_words. cbn [app store_list].
  replace (b + 1) with (S b) by lia. replace (b + 2) with (S (S b)) by lia.
  destruct (store m b _) as [m1|]; [|reflexivity]. destruct (store m1 _ _) as [m2|]; [|reflexivity].
  rewrite store_list_app. reflexivity.
Qed.
Lemma view_words_length v : length (view_words v) = view_size v.
Proof. unfold view_words, view_size. cbn [app length]. rewrite app_length. lia. Qed.

Lemma views_format vs : forall m b,
  write_items view_size write_view m b vs = store_list m b (concat (map view_words vs)).
Proof.
  induction vs as [|v vs IH]; intros m b; cbn [write_items map concat]; [reflexivity|].
  rewrite store_list_app, view_format, view_words_length.
  destruct (store_list m b (view_words v)); [apply IH|reflexivity].
Qed.
Lemma object_words_length o : length (object_words o) = object_size o.
Proof.
  unfold object_words, object_size. cbn [app length]. rewrite !app_length.
  assert (E : length (concat (map view_words (o_views o))) = fold_right (fun v n => view_size v + n) 0 (o_views o)).
  { induction (o_views o) as [|v vs IH]; cbn [map concat fold_right]; [reflexivity|].
    rewrite app_length, view_words_length, IH. reflexivity. }
  lia.
Qed.
Lemma object_format m b o : write_object m b o = store_list m b (object_words o).
Proof.
  unfold write_object, object_words. cbn [app store_list]. cbn zeta.
  replace (b + 1) with (S b) by lia. replace (b + 2) with (S (S b)) by lia.
  replace (b + 3) with (S (S (S b))) by lia. replace (b + 4) with (S (S (S (S b)))) by lia.
  do 5 (match goal with |- match ?x with Some _ => _ | None => _ end = _ => destruct x end; [|reflexivity]).
  replace (b + 5) with (S (S (S (S (S b))))) by lia. generalize (S (S (S (S (S b))))). intros c.
  rewrite store_list_app. match goal with |- match ?x with Some _ => _ | None => _ end = _ => destruct x end; [|reflexivity].
  rewrite store_list_app. match goal with |- match ?x with Some _ => _ | None => _ end = _ => destruct x end; [|reflexivity].
  rewrite store_list_app. match goal with |- match ?x with Some _ => _ | None => _ end = _ => destruct x end; [|reflexivity].
  apply views_format.
Qed.

Lemma view_format_size v : (forall m b, write_view m b v = store_list m b (view_words v)) /\ length (view_words v) = view_size v.
Proof. split; [intros; apply view_format|apply view_words_length]. Qed.
Lemma object_format_size o : (forall m b, write_object m b o = store_list m b (object_words o)) /\ length (object_words o) = object_size o.
Proof. split; [intros; apply object_format|apply object_words_length]. Qed.
Lemma object_round_trip o : object_small o -> round_trips object_size write_object read_object o.
Proof. intros H b. apply (object_codec o H b). Qed.
Lemma view_round_trip v : view_small v -> round_trips view_size write_view read_view v.
Proof. intros H b. apply (view_codec v H b). Qed.
Lemma member_round_trip x : member_ok x -> round_trips member_size write_member read_member x.
Proof. intros H b. apply (member_codec x H b). Qed.
Lemma class_round_trip c : class_ok c -> round_trips class_size write_class (read_class []) c.
Proof.
  intros H b. eapply does_weaken; [|apply (does_class c b H)]. cbn beta. intros m [A _]. exact A.
Qed.


(** ** The object map *)
Fixpoint offsets (off : nat) (os : list sys_object) : list Z :=
  match os with [] => [] | o :: os' => Z.of_nat off :: offsets (off + object_size o) os' end.

Lemma build_eq os : forall im off, (Z.of_nat (off + segment_size os)%nat < 65536)%Z ->
  fold_left add_sys_object os (im, Z.of_nat off) =
  (mkimage (im_time im) (im_map im ++ offsets off os) (im_code im ++ os) (im_names im), Z.of_nat (off + segment_size os)).
Proof.
  unfold segment_size. induction os as [|o os IH]; intros im off H; cbn [fold_left offsets fold_right] in *.
  - rewrite !app_nil_r, Nat.add_0_r. destruct im; reflexivity.
  - unfold add_sys_object at 2. assert (E : u32 (Z.of_nat off + Z.of_nat (object_size o)) = Z.of_nat (off + object_size o)).
    { unfold u32. rewrite Z.mod_small; lia. }
    assert (E' : u16 (Z.of_nat off) = Z.of_nat off) by (unfold u16; rewrite Z.mod_small; lia).
    rewrite E, E', IH by lia. cbn [im_time im_map im_code im_names]. rewrite <- !app_assoc. cbn [app].
    rewrite Nat.add_assoc. reflexivity.
Qed.

Lemma offsets_length os : forall off, length (offsets off os) = length os.
Proof. induction os; intros; cbn; congruence. Qed.

Lemma build_image_ok t os ns : Forall object_small os -> Forall name_ok ns -> small ns ->
  (Z.of_nat (segment_size os) < 65536)%Z ->
  build_image t os ns = mkimage t (offsets 0 os) os ns /\ image_ok (build_image t os ns).
Proof.
  intros A B C D. assert (E : build_image t os ns = mkimage t (offsets 0 os) os ns).
  { unfold build_image. rewrite (build_eq os _ 0) by lia. reflexivity. }
  split; [exact E|]. rewrite E. constructor; cbn; auto. apply offsets_length.
Qed.

Lemma read_items_at {X} (size : X -> nat) rd m n : forall b xs e i x,
  read_items size rd m b n = Some (xs, e) -> nth_error xs i = Some x ->
  rd m (b + fold_right (fun x n => size x + n) 0 (firstn i xs)) = Some x.
Proof.
  induction n as [|n IH]; intros b xs e i x H N; cbn [read_items] in H.
  - inversion H; subst. destruct i; discriminate.
  - destruct (rd m b) as [y|] eqn:R; [|discriminate].
    destruct (read_items size rd m (b + size y) n) as [[ys e']|] eqn:Q; [|discriminate].
    inversion H; subst. destruct i as [|i]; cbn [nth_error firstn fold_right] in *.
    + inversion N; subst. rewrite Nat.add_0_r. exact R.
    + rewrite Nat.add_assoc. eapply IH; eassumption.
Qed.

Lemma offsets_at os : forall off i o, nth_error os i = Some o ->
  nth_error (offsets off os) i = Some (Z.of_nat (off + segment_size (firstn i os))).
Proof.
  unfold segment_size. induction os as [|a os IH]; intros off [|i] o H; try discriminate; cbn [nth_error offsets firstn fold_right] in *.
  - rewrite Nat.add_0_r. reflexivity.
  - rewrite (IH _ _ _ H). do 2 f_equal. lia.
Qed.

Lemma segment_firstn os i : segment_size (firstn i os) <= segment_size os.
Proof.
  unfold segment_size. revert i. induction os as [|a os IH]; intros [|i]; cbn [firstn fold_right]; try lia.
  specialize (IH i). lia.
Qed.

Lemma object_map_designates fill t os ns : Forall object_small os -> Forall name_ok ns -> small ns ->
  (Z.of_nat (length os + segment_size os)%nat < 65536)%Z ->
  exists r im, serialize fill (build_image t os ns) = Some r /\ load_image r = Some im /\
    im_time im = t /\ im_code im = os /\ im_names im = ns /\
    forall i o, nth_error os i = Some o -> exists p,
      nth_error (im_map im) i = Some p /\ read_object (r_data r) (Z.to_nat p) = Some o.
Proof.
  intros A B C D.
  destruct (build_image_ok t os ns A B C ltac:(lia)) as [E OK].
  destruct (serialize_data fill _ OK) as (r & S & _ & _ & _ & _ & _ & _ & R & _).
  destruct (image_round_trip fill (build_image t os ns) OK) as (r' & S' & L).
  { rewrite E. cbn [im_code]. lia. }
  rewrite S in S'. injection S' as <-.
  exists r. eexists. split; [exact S|]. split; [exact L|]. rewrite E in *.
  cbn [im_time im_map im_code im_names] in *. repeat (split; [reflexivity|]).
  rewrite offsets_length in *. intros i o N.
  exists (Z.of_nat (length os + segment_size (firstn i os))). split.
  - unfold shift_map. rewrite nth_error_map. rewrite (offsets_at _ _ _ _ N). cbn [option_map]. f_equal.
    pose proof (segment_firstn os i). unfold u16. rewrite (Z.mod_small (Z.of_nat (length os))) by lia.
    rewrite Z.mod_small; lia.
  - rewrite Nat2Z.id. apply (read_items_at _ _ _ _ _ _ _ _ _ R N).
Qed.
