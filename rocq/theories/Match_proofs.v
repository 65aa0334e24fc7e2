(** Lemmas about matching and binding maps. *)
From Verif Require Import Base Float32 Atom_model Atom_proofs Utils_model Utils_proofs Match_model Match_spec.
Local Open Scope nat_scope.

Ltac inv H := inversion H; subst; clear H.
(** Peel one [do] of a hypothesis [... = Ok _]. *)
Ltac peel H x E := match type of H with obind ?e _ = Ok _ => destruct e as [x| |] eqn:E; [|discriminate H|discriminate H]; cbn [obind] in H end.

Lemma from_opt_ok {A} (x : option A) a : from_opt x = Ok a -> x = Some a.
Proof. destruct x; cbn; congruence. Qed.
Lemma word_ok o i a : word o i = Ok a -> nth_error (code_of o) i = Some a.
Proof. apply from_opt_ok. Qed.
Lemma ref_ok o i r : ref o i = Ok r -> nth_error (refs_of o) i = Some r.
Proof. apply from_opt_ok. Qed.
Lemma deref_ok E r o : deref E r = Ok o -> heap E r = Some o.
Proof. apply from_opt_ok. Qed.
Lemma get_value_ok m k v : get_value m k = Ok v <-> value_at m k v.
Proof.
  unfold get_value, value_at. destruct (nth_error (vals m) k) as [[w|]|]; split; intros H; try discriminate; congruence.
Qed.

Lemma set_value_ok m k v m' : set_value m k v = Ok m' ->
  length (vals m') = length (vals m) /\ value_at m' k v /\ (forall j, j <> k -> nth_error (vals m') j = nth_error (vals m) j).
Proof.
  unfold set_value, value_at. destruct (nth_error (vals m) k) as [old|] eqn:N; [|discriminate].
  destruct (upd (vals m) k (Some v)) as [l|] eqn:U; [|discriminate]. intros H. inv H. cbn [vals].
  split; [exact (upd_length _ _ _ _ U)|]. split; [exact (upd_same _ _ _ _ U)|].
  intros j J. apply (upd_other _ _ _ _ _ U). congruence.
Qed.
Lemma set_value_total m k v : k < length (vals m) -> exists m', set_value m k v = Ok m'.
Proof.
  intros H. unfold set_value. destruct (nth_error (vals m) k) eqn:N; [|apply nth_error_None in N; lia].
  destruct (upd_some (vals m) k (Some v) H) as [l U]. rewrite U. eauto.
Qed.
Lemma value_lt m k v : value_at m k v -> k < length (vals m).
Proof. intros H. apply nth_error_Some. unfold value_at in H. congruence. Qed.

(** ** Times *)
Lemma set_time_ok m k t t' : is_i64 t' -> time_of m k t ->
  exists m', set_time m k t' = Ok m' /\ length (vals m') = length (vals m) /\ time_of m' k t' /\
    (forall j, j <> k -> nth_error (vals m') j = nth_error (vals m) j).
Proof.
  intros R (h & s & V & D & G). unfold set_time. rewrite (proj2 (get_value_ok m k _) V). cbn [obind].
  assert (L : 2 <= length s).
  { unfold GetInt64, get in G. cbn [nth_error] in G. destruct s as [|a [|b s]]; cbn in *; try discriminate; lia. }
  destruct (set_int64_total (ATimestamp :: s) 1 t') as [s' S]; [cbn [length]; lia|].
  rewrite S. cbn [from_opt obind].
  destruct (set_value_total m k (StructV s') (value_lt _ _ _ V)) as [m' M]. rewrite M.
  exists m'. split; [reflexivity|]. destruct (set_value_ok _ _ _ _ M) as (A & B & C).
  split; [exact A|]. split; [|exact C].
  assert (H0 : nth_error s' 0 = Some ATimestamp).
  { rewrite (set_int64_frame _ _ _ _ 0 S) by lia. reflexivity. }
  destruct s' as [|h' s']; [discriminate|]. cbn in H0. inv H0.
  exists ATimestamp, s'. split; [exact B|]. split; [reflexivity|]. exact (get_set_int64 _ _ _ _ R S).
Qed.

Lemma time_at_ok m k t : time_of m k t -> exists h s, value_at m k (StructV (h :: s)) /\ time_at (Some (h :: s)) = Ok (Some t).
Proof.
  intros (h & s & V & D & G). exists h, s. split; [exact V|]. unfold time_at. rewrite D, Z.eqb_refl. rewrite G. reflexivity.
Qed.

Lemma time_of_frame m m' k t : time_of m k t -> nth_error (vals m') k = nth_error (vals m) k -> time_of m' k t.
Proof. intros (h & s & V & R) E. exists h, s. split; [|exact R]. unfold value_at in *. congruence. Qed.

Lemma time_of_fun m k t t' : time_of m k t -> time_of m k t' -> t = t'.
Proof.
  intros (h & s & V & D & G) (h' & s' & V' & D' & G'). unfold value_at in *. rewrite V in V'. inv V'. congruence.
Qed.

Lemma match_timings_exact E m a b ai bi sa sb :
  ai <> bi -> is_i64 a -> is_i64 b -> time_of m ai sa -> time_of m bi sb ->
  exists r m', match_timings E m a b ai bi = Ok (r, m') /\
    (r = true <-> (Z.max sa a < Z.min sb b \/ (sa <= a /\ b <= sb) \/ (a < sa /\ sb <= b))%Z) /\
    (r = true -> time_of m' ai (Z.max sa a) /\ time_of m' bi (Z.min sb b)) /\
    (r = false -> m' = m) /\
    length (vals m') = length (vals m) /\
    (forall k, k <> ai -> k <> bi -> nth_error (vals m') k = nth_error (vals m) k).
Proof.
  intros N Ra Rb Ta Tb. unfold match_timings.
  destruct (time_at_ok _ _ _ Ta) as (ha & ca & Va & Ea). destruct (time_at_ok _ _ _ Tb) as (hb & cb & Vb & Eb).
  rewrite (proj2 (get_value_ok _ _ _) Va), (proj2 (get_value_ok _ _ _) Vb). cbn [obind get_code].
  rewrite Ea, Eb. cbn [obind]. clear Ea Eb Va Vb ha ca hb cb.
  destruct (Z.leb_spec sa a).
  - destruct (Z.leb_spec b sb).
    + destruct (set_time_ok m ai sa a Ra Ta) as (m1 & S1 & L1 & T1 & F1). rewrite S1. cbn [obind].
      assert (Tb1 : time_of m1 bi sb) by (apply (time_of_frame m); auto).
      destruct (set_time_ok m1 bi sb b Rb Tb1) as (m2 & S2 & L2 & T2 & F2). rewrite S2. cbn [obind].
      exists true, m2. split; [reflexivity|]. split; [split; [lia|reflexivity]|]. split.
      * intros _. rewrite Z.max_r, Z.min_r by lia. split; [|exact T2]. apply (time_of_frame m1); auto.
      * split; [discriminate|]. split; [congruence|]. intros k K1 K2. rewrite F2 by auto. apply F1; auto.
    + destruct (Z.ltb_spec a sb).
      * destruct (set_time_ok m ai sa a Ra Ta) as (m1 & S1 & L1 & T1 & F1). rewrite S1. cbn [obind].
        exists true, m1. split; [reflexivity|]. split; [split; [lia|reflexivity]|]. split.
        -- intros _. rewrite Z.max_r, Z.min_l by lia. split; [exact T1|]. apply (time_of_frame m); auto.
        -- split; [discriminate|]. auto.
      * exists false, m. split; [reflexivity|]. split; [split; [discriminate|lia]|]. split; [discriminate|]. auto.
  - destruct (Z.leb_spec sb b).
    + exists true, m. split; [reflexivity|]. split; [split; [lia|reflexivity]|]. split.
      * intros _. rewrite Z.max_l, Z.min_l by lia. auto.
      * split; [discriminate|]. auto.
    + destruct (Z.ltb_spec sa b).
      * destruct (set_time_ok m bi sb b Rb Tb) as (m1 & S1 & L1 & T1 & F1). rewrite S1. cbn [obind].
        exists true, m1. split; [reflexivity|]. split; [split; [lia|reflexivity]|]. split.
        -- intros _. rewrite Z.max_l, Z.min_r by lia. split; [|exact T1]. apply (time_of_frame m); auto.
        -- split; [discriminate|]. auto.
      * exists false, m. split; [reflexivity|]. split; [split; [discriminate|lia]|]. split; [discriminate|]. auto.
Qed.

(** ** Copies of structures *)
Lemma IPointer_index n : (Z.of_nat n < 4096)%Z -> getDescriptor (IPointer (Z.of_nat n)) = I_PTR /\ index (IPointer (Z.of_nat n)) = n.
Proof.
  intros H. unfold IPointer. rewrite land_4095, Z.mod_small by lia. unfold I_PTR. rewrite shl24.
  assert (E : u32 (132 * 16777216 + Z.of_nat n) = (132 * 16777216 + Z.of_nat n)%Z).
  { unfold u32. apply Z.mod_small. lia. }
  rewrite E. split.
  - rewrite desc_arith. lia.
  - unfold index. rewrite idx_arith. replace ((132 * 16777216 + Z.of_nat n) mod 4096)%Z with (Z.of_nat n) by lia. lia.
Qed.

Definition range_eq (d d' : list Z) (a b : nat) : Prop := forall j, a <= j < b -> nth_error d' j = nth_error d j.

Definition copied (src dest : list Z) (ext si : nat) (d' : list Z) (e' : nat) : Prop :=
  ext < e' /\ length d' = e' /\ (forall j, j < ext -> j < length dest -> nth_error d' j = nth_error dest j) /\
  ((Z.of_nat e' <= 4096)%Z -> forall d'', range_eq d' d'' ext e' -> copy_of src si d'' ext).

Lemma put_range c i a j : j <> i -> j < length c -> nth_error (put c i a) j = nth_error c j.
Proof. intros. apply put_other; congruence. Qed.

Lemma copy_ok fuel : forall src dest ext si d' e',
  copy_structure fuel src dest ext si = Ok (d', e') -> length dest <= ext -> copied src dest ext si d' e'.
Proof.
  induction fuel as [|f IH]; intros src dest ext si d' e' H L; cbn [copy_structure] in H; [discriminate|].
  peel H h Hh. apply from_opt_ok in Hh.
  set (E0 := ext + (1 + arity h)) in *.
  (* the loop *)
  assert (Loop : forall n i d e,
    copy_loop (fun d e s => copy_structure f src d e s) d e ext src si i n = Ok (d', e') ->
    i + n = 1 + arity h -> E0 <= e -> length d <= e -> (ext + i <= length d \/ i = 0) -> (e = E0 \/ length d = e) ->
    e <= e' /\ length d' = e' /\ (forall j, j < ext + i -> j < length d -> nth_error d' j = nth_error d j) /\
    range_eq d d' E0 e /\
    ((Z.of_nat e' <= 4096)%Z -> forall k, i <= k < i + n -> forall d'', range_eq d' d'' ext e' -> copy_word src (si + k) d'' (ext + k))).
  { induction n as [|n IHn]; intros i d e R N E1 L1 L2 L3; cbn [copy_loop] in R.
    - inv R. assert (Ld : length d' = e') by (destruct L2, L3; lia).
      split; [lia|]. split; [exact Ld|]. split; [auto|]. split; [intros j _; reflexivity|]. intros _ k K. lia.
    - peel R a Ha. apply from_opt_ok in Ha.
      destruct (getDescriptor a =? I_PTR)%Z eqn:D.
      + apply Z.eqb_eq in D. destruct (copy_structure f src _ e (index a)) as [[d1 e1]| |] eqn:C; cbn [obind] in R; try discriminate.
        cbn [fst snd] in R.
        assert (LP : length (put d (ext + i) (IPointer (Z.of_nat e))) <= e) by (rewrite put_length; lia).
        destruct (IH _ _ _ _ _ _ C LP) as (A1 & A2 & A3 & A4). rewrite put_length in A3.
        destruct (IHn _ _ _ R) as (B1 & B2 & B3 & B4 & B5); try lia.
        split; [lia|]. split; [exact B2|]. split; [|split].
        * intros j J1 J2. rewrite B3 by lia. rewrite A3 by lia. apply put_range; lia.
        * intros j J. destruct (Nat.lt_ge_cases j (length d)) as [Q|Q].
          -- rewrite B4 by lia. rewrite A3 by lia. apply put_range; lia.
          -- (* j beyond d but below e: only possible when e = E0 *) destruct L3; lia.
        * intros M k K d'' Hd. destruct (Nat.eq_dec k i) as [->|K'].
          -- destruct (IPointer_index e) as [I1 I2]; [lia|].
             assert (N1 : nth_error d'' (ext + i) = Some (IPointer (Z.of_nat e))).
             { rewrite Hd by lia. rewrite B3 by lia. rewrite A3 by lia. apply put_same. }
             eapply copy_inner; [exact Ha|exact D|exact N1|exact I1|]. rewrite I2.
             apply A4; [lia|]. intros j J. rewrite Hd by lia. apply B4. lia.
          -- apply B5; [exact M|lia|exact Hd].
      + apply Z.eqb_neq in D.
        destruct (IHn _ _ _ R) as (B1 & B2 & B3 & B4 & B5); try lia; try (rewrite put_length; lia).
        rewrite put_length in B3.
        split; [lia|]. split; [exact B2|]. split; [|split].
        * intros j J1 J2. rewrite B3 by lia. apply put_range; lia.
        * intros j J. destruct (Nat.lt_ge_cases j (length d)) as [Q|Q].
          -- rewrite B4 by lia. apply put_range; lia.
          -- destruct L3; lia.
        * intros M k K d'' Hd. destruct (Nat.eq_dec k i) as [->|K'].
          -- apply (copy_atom _ _ _ _ a); [exact Ha|exact D|]. rewrite Hd by lia. rewrite B3 by lia. apply put_same.
          -- apply B5; [exact M|lia|exact Hd]. }
  destruct (Loop _ _ _ _ H) as (A1 & A2 & A3 & A4 & A5); try lia.
  split; [lia|]. split; [exact A2|]. split.
  { intros j J1 J2. apply A3; lia. }
  intros M d'' Hd.
  eapply copy_struct; [exact Hh|]. intros k K. apply A5; [exact M|lia|exact Hd].
Qed.

(** ** How a map evolves while matching *)
Section Evolve.
Context (E : env).

Definition value_no_ti (v : value) : Prop := match v with StructV s => no_ti E s | _ => True end.

Inductive evolves (nar : bool) : bmap -> bmap -> Prop :=
| ev_refl m : evolves nar m m
| ev_bind m k id v m1 m' : value_at m k (Unbound id) -> bound v -> (nar = false -> value_no_ti v) ->
    set_value m id v = Ok m1 -> evolves nar m1 m' -> evolves nar m m'
| ev_time m k t t' m1 m' : nar = true -> time_of m k t -> is_i64 t' -> set_time m k t' = Ok m1 ->
    evolves nar m1 m' -> evolves nar m m'.

Lemma evolves_trans nar m1 m2 m3 : evolves nar m1 m2 -> evolves nar m2 m3 -> evolves nar m1 m3.
Proof. induction 1; eauto using evolves. Qed.

Lemma map_no_ti_set m k v m' : map_no_ti E m -> value_no_ti v -> set_value m k v = Ok m' -> map_no_ti E m'.
Proof.
  intros H V S j s A. destruct (set_value_ok _ _ _ _ S) as (_ & B & C). destruct (Nat.eq_dec j k) as [->|J].
  - unfold value_at in *. rewrite B in A. inv A. exact V.
  - unfold value_at in A. rewrite C in A by assumption. exact (H _ _ A).
Qed.

Lemma evolves_no_ti m m' : evolves false m m' -> map_no_ti E m -> map_no_ti E m'.
Proof.
  remember false as nar eqn:En. induction 1; intros M; subst; try discriminate; auto.
  apply IHevolves; auto. eapply map_no_ti_set; eauto.
Qed.

Definition cond (nar : bool) (o p : cobj) (m : bmap) : Prop :=
  nar = true \/ (heap_no_ti E /\ no_ti E (code_of o) /\ no_ti E (code_of p) /\ map_no_ti E m).

Lemma int64_range c i t : GetInt64 c i = Some t -> is_i64 t.
Proof.
  unfold GetInt64. destruct (get c i), (get c (S i)); try discriminate. intros H. inv H.
  unfold is_i64, i64. generalize (Z.lor (Z.shiftl z 32) z0). intros x. lia.
Qed.
Lemma timestamp_range c i t : GetTimestamp c i = Some t -> is_i64 t.
Proof. unfold GetTimestamp. destruct (get c i); [|discriminate]. apply int64_range. Qed.

Lemma time_at_inv E' m k v c t : get_value m k = Ok v -> get_code E' v = Ok c -> time_at c = Ok (Some t) ->
  (exists o, v = ObjV o) \/ time_of m k t.
Proof.
  intros G C T. apply get_value_ok in G. destruct v as [id|a|s|o]; cbn in C.
  - inv C. discriminate.
  - inv C. cbn in T. destruct (_ =? _)%Z; discriminate.
  - inv C. right. destruct s as [|h s]; [discriminate|]. cbn [time_at] in T.
    destruct (Z.eqb_spec (getDescriptor h) TIMESTAMP) as [D|D]; [|discriminate].
    peel T x X. inv T. apply from_opt_ok in X. exists h, s. auto.
  - left. eauto.
Qed.

Lemma set_time_inv m k t m' : set_time m k t = Ok m' -> exists h s, value_at m k (StructV (h :: s)).
Proof.
  unfold set_time. intros H. peel H v V. apply get_value_ok in V.
  destruct v as [|?|[|h s]|?]; try discriminate. eauto.
Qed.

Lemma match_timings_evolves m a b ai bi r m' : is_i64 a -> is_i64 b ->
  match_timings E m a b ai bi = Ok (r, m') -> evolves true m m'.
Proof.
  intros Ra Rb H. unfold match_timings in H.
  peel H va Va. peel H vb Vb. peel H ca Ca. peel H cb Cb. peel H ta Ta.
  destruct ta as [sa|]; [|inv H; constructor]. peel H tb Tb. destruct tb as [sb|]; [|inv H; constructor].
  pose proof (time_at_inv _ _ _ _ _ _ Va Ca Ta) as Qa. pose proof (time_at_inv _ _ _ _ _ _ Vb Cb Tb) as Qb.
  (* what an assignment of a time does *)
  assert (S : forall m0 k t m1 v0 t0, is_i64 t -> nth_error (vals m0) k = nth_error (vals m) k ->
            get_value m k = Ok v0 -> ((exists o, v0 = ObjV o) \/ time_of m k t0) ->
            set_time m0 k t = Ok m1 -> evolves true m0 m1).
  { intros m0 k t m1 v0 t0 R N G Q X. destruct Q as [[o ->]|T].
    - destruct (set_time_inv _ _ _ _ X) as (h & s & V). apply get_value_ok in G. unfold value_at in *.
      rewrite N in V. congruence.
    - eapply ev_time; [reflexivity| |exact R|exact X|constructor]. apply (time_of_frame m); eauto. }
  destruct (sa <=? a)%Z.
  - destruct (b <=? sb)%Z.
    + peel H m1 M1. peel H m2 M2. inv H. eapply evolves_trans; [eapply S; [exact Ra|reflexivity|exact Va|exact Qa|exact M1]|].
      destruct (Nat.eq_dec ai bi) as [->|N].
      * (* the same variable: it holds a time now *)
        destruct Qa as [[o ->]|T].
        { destruct (set_time_inv _ _ _ _ M1) as (h & s & V). apply get_value_ok in Va. unfold value_at in *. congruence. }
        destruct (set_time_ok m bi sa a Ra T) as (m1' & X1 & _ & T1 & _). rewrite M1 in X1. inv X1.
        eapply ev_time; [reflexivity|exact T1|exact Rb|exact M2|constructor].
      * eapply S; [exact Rb| |exact Vb|exact Qb|exact M2].
        unfold set_time in M1. peel M1 v1 V1. destruct v1 as [|?|[|h s]|?]; try discriminate.
        peel M1 s' S'. apply (set_value_ok _ _ _ _ M1). congruence.
    + destruct (a <? sb)%Z; [|inv H; constructor]. peel H m1 M1. inv H. eapply S; [exact Ra|reflexivity|exact Va|exact Qa|exact M1].
  - destruct (sb <=? b)%Z; [inv H; constructor|]. destruct (sa <? b)%Z; [|inv H; constructor].
    peel H m1 M1. inv H. eapply S; [exact Rb|reflexivity|exact Vb|exact Qb|exact M1].
Qed.

Lemma put_forall (P : Z -> Prop) d i a : Forall P d -> P a -> P UndefinedAtom -> Forall P (put d i a).
Proof.
  intros H A U. apply Forall_forall. intros x Hx. apply In_nth_error in Hx. destruct Hx as [j Hj].
  destruct (Nat.eq_dec j i) as [->|J].
  - rewrite put_same in Hj. congruence.
  - unfold put in Hj. destruct (upd (grow d i) i a) as [c'|] eqn:X.
    + rewrite (upd_other _ _ _ _ _ X) in Hj by congruence. unfold grow in Hj.
      apply nth_error_In in Hj. apply in_app_or in Hj. destruct Hj as [Hj|Hj].
      * rewrite Forall_forall in H. auto.
      * apply repeat_spec in Hj. congruence.
    + apply nth_error_In in Hj. rewrite Forall_forall in H. auto.
Qed.

Lemma copy_forall (P : Z -> Prop) fuel : forall src dest ext si d' e',
  copy_structure fuel src dest ext si = Ok (d', e') ->
  Forall P src -> Forall P dest -> P UndefinedAtom -> (forall n, P (IPointer n)) -> Forall P d'.
Proof.
  induction fuel as [|f IH]; intros src dest ext si d' e' H Fs D U I; cbn [copy_structure] in H; [discriminate|].
  peel H h Hh. revert H. generalize (ext + (1 + arity h)). generalize 0 at 1. generalize (S (arity h)).
  intros n. revert dest D. induction n as [|n IHn]; intros dest D i e H; cbn [copy_loop] in H.
  - inv H. exact D.
  - peel H a Ha. apply from_opt_ok in Ha. destruct (getDescriptor a =? I_PTR)%Z.
    + destruct (copy_structure f src _ e (index a)) as [[d1 e1]| |] eqn:C; cbn [obind] in H; try discriminate.
      cbn [fst snd] in H. eapply IHn; [|exact H]. eapply IH; [exact C| | | |]; auto. apply put_forall; auto.
    + eapply IHn; [|exact H]. apply put_forall; auto.
      apply nth_error_In in Ha. rewrite Forall_forall in Fs. auto.
Qed.

Lemma ipointer_not_ti n : IPointer n <> ti_atom E.
Proof.
  intros H. apply (f_equal (fun a => a / 16777216)%Z) in H. revert H. unfold IPointer, ti_atom, AObject, u32, I_PTR, OBJECT.
  rewrite !shl24, !land_4095, shl8. lia.
Qed.
Lemma undefined_not_ti : UndefinedAtom <> ti_atom E.
Proof.
  intros H. apply (f_equal (fun a => a / 16777216)%Z) in H. revert H. unfold UndefinedAtom, ti_atom, AObject, u32, OBJECT.
  rewrite !shl24, !land_4095, shl8. lia.
Qed.
Lemma structure_no_ti fuel src si s : structure_value fuel src si = Ok s -> no_ti E src -> no_ti E s.
Proof.
  unfold structure_value. intros H N. peel H r R. inv H. destruct r as [d e]. cbn [fst].
  eapply copy_forall; [exact R|exact N|constructor|apply undefined_not_ti|intros; apply ipointer_not_ti].
Qed.

Definition rec_ok (nar : bool) (rec : bmap -> cobj -> nat -> nat -> cobj -> nat -> nat -> outcome (bool * bmap)) : Prop :=
  forall m o ob oi p pi ar b m', cond nar o p m -> rec m o ob oi p pi ar = Ok (b, m') -> evolves nar m m'.

Lemma ok_snd (x b : bool) (m m' : bmap) : Ok (x, m) = Ok (b, m') -> m = m'.
Proof. intros H. injection H as _ H. exact H. Qed.

Section Steps.
Context (nar : bool) (fuel : nat) (rec : bmap -> cobj -> nat -> nat -> cobj -> nat -> nat -> outcome (bool * bmap)).
Context (R : rec_ok nar rec).

Lemma match_structure_evolves m o ob oi p pi b m' : cond nar o p m ->
  match_structure E rec m o ob oi p pi = Ok (b, m') -> evolves nar m m'.
Proof.
  intros C H. unfold match_structure in H. peel H oa Oa. peel H pa Pa.
  destruct (negb (oa =? pa)%Z); [inv H; constructor|]. destruct (arity oa =? 0); [inv H; constructor|].
  destruct (getDescriptor oa =? TIMESTAMP)%Z.
  { peel H t T. peel H t' T'. inv H. constructor. }
  destruct (pa =? ti_atom E)%Z eqn:TI.
  - apply Z.eqb_eq in TI. subst pa. destruct C as [->|(_ & _ & C & _)].
    + peel H r Hr. destruct r as [[b1 m1]|].
      * inv H. unfold ti_case in Hr. peel Hr aa Haa. peel Hr ba Hba.
        destruct (_ && _); [|discriminate]. peel Hr va Va. peel Hr ca Ca. destruct ca; [|discriminate].
        peel Hr vb Vb. peel Hr cb Cb. destruct cb; [|discriminate].
        destruct (_ && _); [|discriminate]. peel Hr ta Ta. peel Hr tb Tb. peel Hr r Hm. inv Hr.
        apply from_opt_ok in Ta. apply from_opt_ok in Tb.
        eapply match_timings_evolves; [| |exact Hm]; eapply timestamp_range; eassumption.
      * eapply R; [left; reflexivity|exact H].
    + exfalso. apply word_ok in Pa. apply nth_error_In in Pa. unfold no_ti in C. rewrite Forall_forall in C.
      exact (C _ Pa eq_refl).
  - eapply R; [exact C|exact H].
Qed.

Lemma match_object_evolves m o p b m' :
  (nar = true \/ (heap_no_ti E /\ map_no_ti E m)) ->
  match_object E rec m o p = Ok (b, m') -> evolves nar m m'.
Proof.
  intros C H. unfold match_object in H. peel H oo Oo. peel H pp Pp. peel H oa Oa. peel H pa Pa.
  destruct (negb (oa =? pa)%Z); [inv H; constructor|]. destruct (by_identity E _); [inv H; constructor|].
  eapply R; [|exact H]. apply deref_ok in Oo. apply deref_ok in Pp.
  destruct C as [->|[C1 C2]]; [left; reflexivity|right]. split; [exact C1|]. split; [exact (C1 _ _ Oo)|]. split; [exact (C1 _ _ Pp)|exact C2].
Qed.

Lemma value_match_evolves m k v o i p b m' : cond nar o p m -> value_at m k v ->
  value_match E fuel rec m v o i = Ok (b, m') -> evolves nar m m'.
Proof.
  intros C V H. destruct v as [id|a|s|r]; cbn [value_match] in H; peel H a' A'.
  - destruct (getDescriptor a' =? I_PTR)%Z.
    { peel H s Es. peel H m1 M1. inv H. eapply ev_bind; [exact V| | |exact M1|constructor]; [exact I|].
      intros ->. cbn. eapply structure_no_ti; [exact Es|]. destruct C as [C|(_ & C & _)]; [discriminate|exact C]. }
    destruct (getDescriptor a' =? R_PTR)%Z.
    { peel H s Es. peel H m1 M1. inv H. eapply ev_bind; [exact V| | |exact M1|constructor]; [exact I|]. intros; exact I. }
    destruct (getDescriptor a' =? WILDCARD)%Z; [inv H; constructor|].
    peel H m1 M1. inv H. eapply ev_bind; [exact V| | |exact M1|constructor]; [exact I|]. intros; exact I.
  - inv H. constructor.
  - destruct (negb _); [inv H; constructor|]. eapply match_structure_evolves; [|exact H].
    destruct C as [C|(C1 & C2 & C3 & C4)]; [left; exact C|right]. cbn [code_of]. split; [exact C1|]. split; [exact C2|].
    split; [exact (C4 _ _ V)|exact C4].
  - peel H q Q. eapply match_object_evolves; [|exact H].
    destruct C as [C|(C1 & C2 & C3 & C4)]; auto.
Qed.

Lemma match_member_evolves m o of p pi b m' : cond nar o p m ->
  match_member E fuel rec m o of p pi = Ok (b, m') -> evolves nar m m'.
Proof.
  intros C H. unfold match_member in H. peel H oa Oa. peel H pa Pa. cbn zeta in H.
  assert (C' : nar = true \/ (heap_no_ti E /\ map_no_ti E m)) by (destruct C as [C|(C1 & _ & _ & C4)]; auto).
  assert (V : (do v <- get_value m (index pa); value_match E fuel rec m v o of) = Ok (b, m') -> evolves nar m m').
  { intros X. peel X v G. apply get_value_ok in G. eapply value_match_evolves; eauto. }
  destruct (_ || _ || _)%Z; [apply ok_snd in H; subst m'; constructor|]. destruct (getDescriptor oa =? I_PTR)%Z.
  - destruct (getDescriptor pa =? VL_PTR)%Z; [auto|]. destruct (getDescriptor pa =? I_PTR)%Z.
    + eapply match_structure_evolves; eauto.
    + apply ok_snd in H. subst m'. constructor.
  - destruct (getDescriptor oa =? R_PTR)%Z.
    + destruct (getDescriptor pa =? VL_PTR)%Z; [auto|]. destruct (getDescriptor pa =? R_PTR)%Z.
      * peel H ro Ro. peel H rp Rp. eapply match_object_evolves; eauto.
      * apply ok_snd in H. subst m'. constructor.
    + destruct (getDescriptor pa =? VL_PTR)%Z; [auto|]. destruct (_ || _)%Z; apply ok_snd in H; subst m'; constructor.
Qed.
End Steps.

Lemma cond_evolves nar o p m m' : cond nar o p m -> evolves nar m m' -> cond nar o p m'.
Proof.
  intros [C|(C1 & C2 & C3 & C4)] V; [left; exact C|]. destruct nar; [left; reflexivity|].
  right. split; [|split; [|split]]; auto. eapply evolves_no_ti; eauto.
Qed.

Lemma match_evolves nar fuel : rec_ok nar (match_ E fuel).
Proof.
  induction fuel as [|f IH]; intros m o ob oi p pi ar b m' C H; cbn [match_] in H; [discriminate|].
  peel H r Hr. destruct r as [b1 m1]. cbn [fst snd] in H.
  pose proof (match_member_evolves nar f (match_ E f) IH _ _ _ _ _ _ _ C Hr) as V.
  destruct b1; [|inv H; exact V]. destruct (oi =? ar); [inv H; exact V|].
  eapply evolves_trans; [exact V|]. eapply IH; [|exact H]. eapply cond_evolves; eauto.
Qed.

(** Consequences. *)
Lemma set_value_own m id v m1 : own m -> bound v -> set_value m id v = Ok m1 -> own m1.
Proof.
  intros O B S k id' V. destruct (set_value_ok _ _ _ _ S) as (_ & X & Y). destruct (Nat.eq_dec k id) as [->|K].
  - unfold value_at in *. rewrite X in V. inv V. destruct B.
  - unfold value_at in V. rewrite Y in V by assumption. exact (O _ _ V).
Qed.
Lemma set_time_value m k t m1 : set_time m k t = Ok m1 -> exists v, bound v /\ set_value m k v = Ok m1.
Proof.
  unfold set_time. intros H. peel H v V. destruct v as [|?|[|h s]|?]; try discriminate. peel H s' Es.
  exists (StructV s'). split; [exact I|exact H].
Qed.

Lemma evolves_own nar m m' : evolves nar m m' -> own m -> own m'.
Proof.
  induction 1; intros O; auto.
  - apply IHevolves. eapply set_value_own; eauto.
  - apply IHevolves. destruct (set_time_value _ _ _ _ H2) as (v & B & S). eapply set_value_own; eauto.
Qed.

Lemma keeps_refl m : keeps m m.
Proof. split; auto. Qed.
Lemma keeps_trans a b c : keeps a b -> keeps b c -> keeps a c.
Proof. intros [L1 H1] [L2 H2]. split; [congruence|]. eauto. Qed.

Lemma bind_keeps m k id v m1 : own m -> value_at m k (Unbound id) -> set_value m id v = Ok m1 -> keeps m m1.
Proof.
  intros O V S. destruct (set_value_ok _ _ _ _ S) as (L & _ & F). split; [exact L|].
  intros j w W B. rewrite (O _ _ V) in *. destruct (Nat.eq_dec j k) as [->|J].
  - unfold value_at in *. rewrite V in W. inv W. destruct B.
  - unfold value_at in *. rewrite F; assumption.
Qed.

Lemma evolves_keeps m m' : evolves false m m' -> own m -> keeps m m'.
Proof.
  remember false as nar eqn:En. induction 1; intros O; subst; try discriminate; [apply keeps_refl|].
  eapply keeps_trans; [eapply bind_keeps; eauto|]. apply IHevolves; auto. eapply set_value_own; eauto.
Qed.

Lemma kbt_refl m : keeps_but_times m m.
Proof. split; auto. Qed.
Lemma time_bound m k t : time_of m k t -> exists v, value_at m k v /\ bound v.
Proof. intros (h & s & V & _). exists (StructV (h :: s)). split; [exact V|exact I]. Qed.
Lemma kbt_trans a b c : keeps_but_times a b -> keeps_but_times b c -> keeps_but_times a c.
Proof.
  intros [L1 H1] [L2 H2]. split; [congruence|]. intros k v V B.
  destruct (H1 k v V B) as [W|(t & t' & T & T')].
  - destruct (H2 k v W B) as [|(t & t' & T & T')]; auto. right. exists t, t'. split; [|exact T'].
    apply (time_of_frame b); auto. unfold value_at in *. congruence.
  - destruct (time_bound _ _ _ T') as (w & W & Bw). destruct (H2 k w W Bw) as [W'|(u & u' & U & U')].
    + right. exists t, t'. split; [exact T|]. apply (time_of_frame b); auto. unfold value_at in *. congruence.
    + right. exists t, u'. auto.
Qed.
Lemma keeps_kbt m m' : keeps m m' -> keeps_but_times m m'.
Proof. intros [L H]. split; auto. Qed.

Lemma evolves_kbt m m' : evolves true m m' -> own m -> keeps_but_times m m'.
Proof.
  induction 1; intros O; [apply kbt_refl| |].
  - eapply kbt_trans; [apply keeps_kbt; eapply bind_keeps; eauto|]. apply IHevolves. eapply set_value_own; eauto.
  - destruct (set_time_ok m k t t' H1 H0) as (m1' & S & L & T & F). rewrite H2 in S. inv S.
    eapply kbt_trans; [|apply IHevolves; destruct (set_time_value _ _ _ _ H2) as (v & B & S); eapply set_value_own; eauto].
    split; [exact L|]. intros j v V B. destruct (Nat.eq_dec j k) as [->|J].
    + right. exists t, t'. auto.
    + left. unfold value_at in *. rewrite F; assumption.
Qed.
End Evolve.

(** ** A successful match makes the pattern equal to the object *)
Scheme same_member_m := Minimality for same_member Sort Prop
  with same_structure_m := Minimality for same_structure Sort Prop
  with same_object_m := Minimality for same_object Sort Prop
  with same_value_m := Minimality for same_value Sort Prop.
Combined Scheme same_mutual from same_member_m, same_structure_m, same_object_m, same_value_m.

Section Sound.
Context (E : env).

Lemma same_value_bound m o i v : same_value E m o i v -> bound v.
Proof. destruct 1; exact I. Qed.

Lemma same_keeps m m' : keeps m m' ->
  (forall o i p j, same_member E m o i p j -> same_member E m' o i p j) /\
  (forall o i p j, same_structure E m o i p j -> same_structure E m' o i p j) /\
  (forall r r', same_object E m r r' -> same_object E m' r r') /\
  (forall o i v, same_value E m o i v -> same_value E m' o i v /\ bound v).
Proof.
  intros [L K]. apply same_mutual; intros; try (split; [|exact I]).
  - eapply same_open; eauto.
  - eapply same_any; eauto.
  - destruct H3. eapply same_variable; eauto.
  - eapply same_inner; eauto.
  - eapply same_reference; eauto.
  - eapply same_atom; eauto.
  - eapply same_time; eauto.
  - eapply same_members; eauto.
  - apply same_self.
  - eapply same_content; eauto.
  - eapply value_atom; eauto.
  - eapply value_copy; eauto.
  - eapply value_structure; eauto.
  - eapply value_object; eauto.
Qed.

Context (HT : heap_no_ti E) (HF : structures_fit E).
Definition in_heap (o : cobj) : Prop := exists r, heap E r = Some o.

Definition rec_same (rec : bmap -> cobj -> nat -> nat -> cobj -> nat -> nat -> outcome (bool * bmap)) : Prop :=
  forall m o ob oi p pi ar m', own m -> in_heap o -> no_ti E (code_of p) -> map_no_ti E m ->
    rec m o ob oi p pi ar = Ok (true, m') ->
    forall k, oi <= k <= ar -> same_member E m' o (ob + k) p (pi + (k - oi)).

Lemma in_heap_no_ti o : in_heap o -> no_ti E (code_of o).
Proof. intros [r H]. exact (HT _ _ H). Qed.

Lemma Equal_close l r : Equal (ftol E) l r = true <-> close E l r.
Proof. unfold Equal, close. destruct (feqb l r); split; auto. intros [H|H]; [discriminate|exact H]. Qed.
Lemma match_atom_equal a b : match_atom E a b = true -> atoms_equal E a b.
Proof.
  unfold match_atom, atoms_equal. destruct (Z.eqb_spec b a) as [->|]; [auto|].
  destruct (isFloat b) eqn:B, (isFloat a) eqn:A; cbn [andb]; try discriminate. rewrite Equal_close. auto.
Qed.
Lemma ok_pair (x b : bool) (m m' : bmap) : Ok (x, m) = Ok (b, m') -> m = m' /\ x = b.
Proof. intros H. injection H as H1 H2. auto. Qed.

Section Steps.
Context (fuel : nat) (rec : bmap -> cobj -> nat -> nat -> cobj -> nat -> nat -> outcome (bool * bmap)).
Context (R : rec_same rec) (RE : rec_ok E false rec).

Lemma match_structure_same m o ob p pi m' : own m -> in_heap o -> no_ti E (code_of p) -> map_no_ti E m ->
  match_structure E rec m o ob 0 p pi = Ok (true, m') -> same_structure E m' o ob p pi.
Proof.
  intros O Ho Hp Hm H. unfold match_structure in H. rewrite Nat.add_0_r in H.
  peel H oa Oa. peel H pa Pa. apply word_ok in Oa, Pa.
  destruct (Z.eqb_spec oa pa) as [->|]; cbn [negb] in H; [|apply ok_pair in H; destruct H; discriminate].
  destruct (Nat.eqb_spec (arity pa) 0) as [A|A].
  { eapply same_members; [exact Oa|exact Pa|]. intros k K. lia. }
  destruct (Z.eqb_spec (getDescriptor pa) TIMESTAMP) as [T|T].
  { peel H t Ht. peel H t' Ht'. apply from_opt_ok in Ht, Ht'. apply ok_pair in H. destruct H as [_ H].
    eapply same_time; eauto. unfold Synchronous in H. lia. }
  destruct (Z.eqb_spec pa (ti_atom E)) as [X|X].
  { exfalso. subst pa. apply nth_error_In in Pa. unfold no_ti in Hp. rewrite Forall_forall in Hp. exact (Hp _ Pa eq_refl). }
  eapply same_members; [exact Oa|exact Pa|]. intros k K.
  assert (K' : 0 + 1 <= k <= arity pa) by lia. pose proof (R _ _ _ _ _ _ _ _ O Ho Hp Hm H k K') as Q.
  replace (pi + 1 + (k - (0 + 1))) with (pi + k) in Q by lia. exact Q.
Qed.

Lemma match_object_same m r r' m' : own m -> map_no_ti E m ->
  match_object E rec m r r' = Ok (true, m') -> same_object E m' r r'.
Proof.
  intros O Hm H. unfold match_object in H. peel H o Ho. peel H p Hp. peel H oa Oa. peel H pa Pa.
  apply deref_ok in Ho, Hp. apply word_ok in Oa, Pa.
  destruct (Z.eqb_spec oa pa) as [->|]; cbn [negb] in H; [|apply ok_pair in H; destruct H; discriminate].
  destruct (by_identity E (asOpcode pa)).
  { apply ok_pair in H. destruct H as [_ H]. apply Nat.eqb_eq in H. subst. apply same_self. }
  eapply same_content; [exact Ho|exact Hp|exact Oa|exact Pa|]. intros k K.
  pose proof (R _ _ _ _ _ _ _ _ O (ex_intro _ _ Ho) (HT _ _ Hp) Hm H k K) as Q.
  replace (1 + (k - 1)) with k in Q by lia. exact Q.
Qed.

Lemma value_match_same m k v o i p m' : own m -> in_heap o -> no_ti E (code_of p) -> map_no_ti E m -> value_at m k v ->
  (forall a, nth_error (code_of o) i = Some a -> getDescriptor a <> WILDCARD) ->
  value_match E fuel rec m v o i = Ok (true, m') -> exists v', value_at m' k v' /\ same_value E m' o i v'.
Proof.
  intros O Ho Hp Hm V W H.
  assert (C : cond E false o p m) by (right; split; [exact HT|split; [apply in_heap_no_ti; exact Ho|split; assumption]]).
  pose proof (value_match_evolves E false fuel rec RE _ _ _ _ _ _ _ _ C V H) as Ev.
  pose proof (evolves_keeps _ _ _ Ev O) as [_ K].
  destruct v as [id|b|s|r]; cbn [value_match] in H; peel H a A; apply word_ok in A.
  - rewrite (O _ _ V) in *. destruct (Z.eqb_spec (getDescriptor a) I_PTR) as [D|D].
    { peel H s Es. peel H m1 M1. apply ok_pair in H. destruct H as [-> _].
      exists (StructV s). split; [exact (proj1 (proj2 (set_value_ok _ _ _ _ M1)))|].
      eapply value_copy; [exact A|exact D|]. unfold structure_value in Es. peel Es q Q. inv Es. destruct q as [s n]. cbn [fst].
      destruct Ho as [r Hr]. pose proof (HF _ _ _ _ _ _ Hr Q) as N.
      destruct (copy_ok _ _ _ _ _ _ _ Q (Nat.le_refl 0)) as (_ & _ & _ & X). apply X; [exact N|]. intros j _. reflexivity. }
    destruct (Z.eqb_spec (getDescriptor a) R_PTR) as [D'|D'].
    { peel H r Er. peel H m1 M1. apply ok_pair in H. destruct H as [-> _]. apply ref_ok in Er.
      exists (ObjV r). split; [exact (proj1 (proj2 (set_value_ok _ _ _ _ M1)))|].
      eapply value_object; [exact A|exact Er|apply same_self]. }
    destruct (Z.eqb_spec (getDescriptor a) WILDCARD) as [D''|D'']; [destruct (W _ A D'')|].
    peel H m1 M1. apply ok_pair in H. destruct H as [-> _].
    exists (AtomV a). split; [exact (proj1 (proj2 (set_value_ok _ _ _ _ M1)))|].
    eapply value_atom; [exact A|left; reflexivity].
  - apply ok_pair in H. destruct H as [-> H]. exists (AtomV b). split; [exact V|].
    eapply value_atom; [exact A|apply match_atom_equal; exact H].
  - destruct (Z.eqb_spec (getDescriptor a) I_PTR) as [D|D]; cbn [negb] in H; [|apply ok_pair in H; destruct H; discriminate].
    exists (StructV s). split; [exact (K _ _ V I)|]. eapply value_structure; [exact A|exact D|].
    eapply match_structure_same; [exact O|exact Ho| |exact Hm|exact H]. exact (Hm _ _ V).
  - peel H q Q. apply ref_ok in Q. exists (ObjV r). split; [exact (K _ _ V I)|].
    eapply value_object; [exact A|exact Q|]. eapply match_object_same; eauto.
Qed.

Lemma match_member_same m o i p j m' : own m -> in_heap o -> no_ti E (code_of p) -> map_no_ti E m ->
  match_member E fuel rec m o i p j = Ok (true, m') -> same_member E m' o i p j.
Proof.
  intros O Ho Hp Hm H. unfold match_member in H. peel H a A. peel H b B. apply word_ok in A, B. cbn zeta in H.
  destruct (Z.eqb_spec (getDescriptor a) T_WILDCARD) as [W1|W1]; [eapply same_open; [exact A|left; right; exact W1]|].
  destruct (Z.eqb_spec (getDescriptor a) WILDCARD) as [W2|W2]; [eapply same_open; [exact A|left; left; exact W2]|].
  destruct (Z.eqb_spec (getDescriptor a) VL_PTR) as [W3|W3]; [eapply same_open; [exact A|right; exact W3]|].
  cbn [orb] in H.
  assert (V : getDescriptor b = VL_PTR -> (do v <- get_value m (index b); value_match E fuel rec m v o i) = Ok (true, m') ->
              same_member E m' o i p j).
  { intros D X. peel X v G. apply get_value_ok in G.
    destruct (value_match_same m (index b) v o i p m') as (v' & V' & Sv); auto.
    { intros a' A'. congruence. }
    eapply same_variable; eauto. }
  assert (Wl : forall x, Ok (x, m) = Ok (true, m') -> x = ((getDescriptor b =? T_WILDCARD) || (getDescriptor b =? WILDCARD))%Z ->
              same_member E m' o i p j).
  { intros x X ->. apply ok_pair in X. destruct X as [_ X]. eapply same_any; [exact B|]. apply orb_prop in X.
    unfold wild. destruct X as [X|X]; apply Z.eqb_eq in X; auto. }
  destruct (Z.eqb_spec (getDescriptor a) I_PTR) as [I1|I1].
  - destruct (Z.eqb_spec (getDescriptor b) VL_PTR) as [D|D]; [auto|].
    destruct (Z.eqb_spec (getDescriptor b) I_PTR) as [D'|D'].
    + eapply same_inner; eauto. eapply match_structure_same; eauto.
    + eapply Wl; [exact H|reflexivity].
  - destruct (Z.eqb_spec (getDescriptor a) R_PTR) as [I2|I2].
    + destruct (Z.eqb_spec (getDescriptor b) VL_PTR) as [D|D]; [auto|].
      destruct (Z.eqb_spec (getDescriptor b) R_PTR) as [D'|D'].
      * peel H ro Ro. peel H rp Rp. apply ref_ok in Ro, Rp. eapply same_reference; eauto. eapply match_object_same; eauto.
      * eapply Wl; [exact H|reflexivity].
    + destruct (Z.eqb_spec (getDescriptor b) VL_PTR) as [D|D]; [auto|].
      destruct ((getDescriptor b =? T_WILDCARD)%Z || (getDescriptor b =? WILDCARD)%Z) eqn:X.
      * eapply Wl; [exact H|reflexivity].
      * apply ok_pair in H. destruct H as [_ H]. eapply same_atom; eauto. apply match_atom_equal. exact H.
Qed.
End Steps.

Lemma match_same fuel : rec_same (match_ E fuel).
Proof.
  induction fuel as [|f IH]; intros m o ob oi p pi ar m' O Ho Hp Hm H k K; cbn [match_] in H; [discriminate|].
  peel H r Hr. destruct r as [b1 m1]. cbn [fst snd] in H. destruct b1; [|apply ok_pair in H; destruct H; discriminate].
  assert (C : cond E false o p m) by (right; split; [exact HT|split; [apply in_heap_no_ti; exact Ho|split; assumption]]).
  pose proof (match_member_evolves E false f (match_ E f) (match_evolves E false f) _ _ _ _ _ _ _ C Hr) as V.
  pose proof (match_member_same f (match_ E f) IH (match_evolves E false f) _ _ _ _ _ _ O Ho Hp Hm Hr) as Q.
  destruct (Nat.eqb_spec oi ar) as [->|N].
  - apply ok_pair in H. destruct H as [-> _]. replace k with ar by lia. replace (pi + (ar - ar)) with pi by lia. exact Q.
  - pose proof (evolves_own _ _ _ _ V O) as O1. pose proof (evolves_no_ti _ _ _ V Hm) as Hm1.
    destruct (Nat.eq_dec k oi) as [->|Nk].
    + assert (C1 : cond E false o p m1) by (eapply cond_evolves; eauto).
      pose proof (match_evolves E false f _ _ _ _ _ _ _ _ _ C1 H) as V2.
      pose proof (evolves_keeps _ _ _ V2 O1) as K2. replace (pi + (oi - oi)) with pi by lia.
      apply (proj1 (same_keeps _ _ K2)). exact Q.
    + pose proof (IH _ _ _ _ _ _ _ _ O1 Ho Hp Hm1 H k ltac:(lia)) as X.
      replace (pi + 1 + (k - (oi + 1))) with (pi + (k - oi)) in X by lia. exact X.
Qed.

Lemma match_object_sound fuel m r r' m' : own m -> map_no_ti E m ->
  match_object E (match_ E fuel) m r r' = Ok (true, m') -> same_object E m' r r' /\ keeps m m'.
Proof.
  intros O Hm H. split; [eapply match_object_same; eauto; apply match_same|].
  eapply evolves_keeps; [|exact O]. eapply match_object_evolves; [apply match_evolves|right; split; eassumption|exact H].
Qed.
End Sound.

(** ** Histories (C15) *)
Lemma match_fact_evolves E fuel l m fo fp a b r m' : match_fact E fuel l m fo fp a b = Ok (r, m') -> evolves E true m m'.
Proof.
  unfold match_fact. intros H. peel H o Eo. peel H p P. peel H ro Ro. peel H rp Rp. peel H q Q. destruct q as [bq mq]. cbn [fst snd] in H.
  assert (V : evolves E true m mq) by (eapply match_object_evolves; [apply (match_evolves E true fuel)|left; reflexivity|exact Q]).
  destruct bq; [|inv H; exact V]. peel H ho Ho. peel H hp Hp. destruct (_ && _); [inv H; exact V|].
  peel H ta Ta. peel H tb Tb. peel H t T. destruct t as [bt mt]. cbn [fst snd] in H.
  apply (f_equal (fun x => match x with Ok (_, y) => Some y | _ => None end)) in H. inv H.
  apply from_opt_ok in Ta, Tb.
  eapply evolves_trans; [exact V|]. eapply match_timings_evolves; [| |exact T]; eapply timestamp_range; eassumption.
Qed.

Lemma run_evolves E fuel l : forall m m', run E fuel m l = Ok m' -> evolves E true m m'.
Proof.
  induction l as [|x l IH]; intros m m' H; cbn [run] in H; [inv H; constructor|]. peel H m1 M1.
  eapply evolves_trans; [|apply IH; exact H]. destruct x; cbn [run_op] in M1; peel M1 r Hr; inv M1; destruct r as [b m1]; cbn [snd].
  - eapply match_object_evolves; [apply (match_evolves E true fuel)|left; reflexivity|exact Hr].
  - eapply match_fact_evolves; exact Hr.
Qed.

Lemma run_evolves_objects E fuel l : heap_no_ti E -> Forall object_op l -> forall m m', map_no_ti E m ->
  run E fuel m l = Ok m' -> evolves E false m m'.
Proof.
  intros HT F. induction F as [|x l Fx F IH]; intros m m' Hm H; cbn [run] in H; [inv H; constructor|]. peel H m1 M1.
  assert (V : evolves E false m m1).
  { destruct x; [|destruct Fx]. cbn [run_op] in M1; peel M1 r Hr; inv M1; destruct r as [b m1]; cbn [snd].
    eapply match_object_evolves; [apply (match_evolves E false fuel)|right; split; eassumption|exact Hr]. }
  eapply evolves_trans; [exact V|]. eapply IH; [|exact H]. eapply evolves_no_ti; eauto.
Qed.

Lemma bound_never_changes E fuel l m m' : heap_no_ti E -> map_no_ti E m -> own m -> Forall object_op l ->
  run E fuel m l = Ok m' -> keeps m m'.
Proof. intros. eapply evolves_keeps; [eapply run_evolves_objects; eauto|assumption]. Qed.
Lemma only_times_change E fuel l m m' : own m -> run E fuel m l = Ok m' -> keeps_but_times m m' /\ own m'.
Proof. intros O H. split; [eapply evolves_kbt|eapply evolves_own]; eauto using run_evolves. Qed.

(** ** Abstraction (C16) *)
Lemma atoms_equal_match E a b : match_atom E b a = true <-> atoms_equal E b a.
Proof.
  split; [apply match_atom_equal|]. unfold match_atom. intros [->|(A & B & C)].
  - rewrite Z.eqb_refl. reflexivity.
  - destruct (a =? b)%Z; [reflexivity|]. rewrite A, B. apply Equal_close. exact C.
Qed.

Lemma find_value_ok (test : value -> bool) l : forall n, Forall (fun v => v <> None) l ->
  exists r, find_value (fun v => Ok (test v)) l n = Ok r /\
    match r with
    | Some i => n <= i /\ (exists v, nth_error l (i - n) = Some (Some v) /\ test v = true) /\
                (forall j v, j < i - n -> nth_error l j = Some (Some v) -> test v = false)
    | None => forall j v, nth_error l j = Some (Some v) -> test v = false
    end.
Proof.
  induction l as [|[v|] l IH]; intros n F; cbn [find_value].
  - exists None. split; [reflexivity|]. intros [|j] v; discriminate.
  - inv F. cbn [obind]. destruct (test v) eqn:T.
    + exists (Some n). split; [reflexivity|]. replace (n - n) with 0 by lia. split; [lia|]. split; [exists v; auto|].
      intros j w J. lia.
    + destruct (IH (S n) H2) as (r & Hr & X). exists r. split; [exact Hr|]. destruct r as [i|].
      * destruct X as (A & (w & B & C) & D). split; [lia|]. replace (i - n) with (S (i - S n)) by lia.
        split; [exists w; auto|]. intros [|j] u J N; cbn in N; [congruence|]. apply (D j); [lia|exact N].
      * intros [|j] u N; cbn in N; [congruence|]. eapply X; exact N.
  - inv F. congruence.
Qed.

Section Abstraction.
Context (E : env).

Lemma contains_atom_iff v a : contains_atom E v a = true <-> exists b, v = AtomV b /\ atoms_equal E b a.
Proof.
  split.
  - destruct v; cbn [contains_atom]; try discriminate. intros H. exists a0. split; [reflexivity|]. apply atoms_equal_match. exact H.
  - intros (b & -> & H). cbn [contains_atom]. apply atoms_equal_match. exact H.
Qed.
Lemma contains_object_iff v o : contains_object v o = true <-> v = ObjV o.
Proof.
  split.
  - destruct v; cbn; try discriminate. intros H. apply Nat.eqb_eq in H. congruence.
  - intros ->. cbn. apply Nat.eqb_refl.
Qed.

Lemma search (test : value -> bool) m : full m ->
  exists r, find_value (fun v => Ok (test v)) (vals m) 0 = Ok r /\
    match r with
    | Some k => first_with m (fun v => test v = true) k
    | None => none_with m (fun v => test v = true)
    end.
Proof.
  intros F. destruct (find_value_ok test (vals m) 0 F) as (r & Hr & X). exists r. split; [exact Hr|].
  destruct r as [k|].
  - destruct X as (_ & A & B). rewrite Nat.sub_0_r in *. split; [exact A|]. intros j v J V T. rewrite (B j v J V) in T. discriminate.
  - intros j v V T. rewrite (X j v V) in T. discriminate.
Qed.

Lemma first_with_iff m P Q k : (forall v, P v <-> Q v) -> first_with m P k -> first_with m Q k.
Proof.
  intros I [(v & V & H) N]. split; [exists v; split; [exact V|apply I; exact H]|].
  intros j w J W X. apply (N j w J W). apply I. exact X.
Qed.
Lemma none_with_iff m P Q : (forall v, P v <-> Q v) -> none_with m P -> none_with m Q.
Proof. intros I N j v V X. apply (N j v V). apply I. exact X. Qed.

Lemma first_with_unique m P i j : first_with m P i -> first_with m P j -> i = j.
Proof.
  intros [(v & V & Pv) A] [(w & W & Pw) B]. destruct (Nat.lt_trichotomy i j) as [L|[L|L]]; [|exact L|].
  - destruct (B i v L V Pv).
  - destruct (A j w L W Pw).
Qed.
Lemma first_none m P i : first_with m P i -> none_with m P -> False.
Proof. intros [(v & V & Pv) _] N. exact (N _ _ V Pv). Qed.

(** [m'] extends [m] by new variables. *)
Definition extends (m m' : bmap) : Prop := (exists l, vals m' = vals m ++ l) /\ (full m -> full m').
Lemma extends_refl m : extends m m.
Proof. split; [exists []; symmetry; apply app_nil_r|auto]. Qed.
Lemma extends_trans a b c : extends a b -> extends b c -> extends a c.
Proof. intros [(l & L) F] [(l' & L') F']. split; [exists (l ++ l'); rewrite L', L; symmetry; apply app_assoc|auto]. Qed.
Lemma extends_push m v : extends m (push m v).
Proof.
  split; [exists [Some v]; reflexivity|]. intros F. unfold full, push. cbn [vals]. apply Forall_app. split; [exact F|].
  constructor; [discriminate|constructor].
Qed.
Lemma extends_at m m' k v : extends m m' -> value_at m k v -> value_at m' k v.
Proof.
  intros [(l & L) _] V. pose proof (value_lt _ _ _ V). unfold value_at in *. rewrite L, nth_error_app1; assumption.
Qed.
Lemma extends_back m m' k v : extends m m' -> k < length (vals m) -> value_at m' k v -> value_at m k v.
Proof. intros [(l & L) _] K V. unfold value_at in *. rewrite L, nth_error_app1 in V; assumption. Qed.
Lemma first_extends m m' P k : extends m m' -> first_with m P k -> first_with m' P k.
Proof.
  intros X [(v & V & Pv) A]. split; [exists v; split; [eapply extends_at; eauto|exact Pv]|].
  intros j w J W. apply (A j w J). eapply extends_back; eauto. apply value_lt in V. lia.
Qed.
Lemma push_at m v : value_at (push m v) (length (vals m)) v.
Proof. unfold value_at, push. cbn [vals]. rewrite nth_error_app2, Nat.sub_diag by lia. reflexivity. Qed.
Lemma push_first m v P : none_with m P -> P v -> first_with (push m v) P (length (vals m)).
Proof.
  intros N Pv. split; [exists v; split; [apply push_at|exact Pv]|]. intros j w J W.
  apply (N j w). eapply extends_back; [apply extends_push|exact J|exact W].
Qed.

(** Atoms. *)
Lemma get_atom_ok m a : full m ->
  exists k m', get_atom_variable E m a = Ok (VLPointer (Z.of_nat k), m') /\ first_with m' (holds_atom E a) k /\
    ((first_with m (holds_atom E a) k /\ m' = m) \/ (none_with m (holds_atom E a) /\ k = length (vals m) /\ m' = push m (AtomV a))).
Proof.
  intros F. unfold get_atom_variable. destruct (search (fun v => contains_atom E v a) m F) as (r & Hr & X). rewrite Hr. cbn [obind].
  destruct r as [k|].
  - exists k, m. split; [reflexivity|]. apply (first_with_iff _ _ (holds_atom E a)) in X; [|intros; apply contains_atom_iff]. auto.
  - exists (length (vals m)), (push m (AtomV a)). split; [reflexivity|].
    apply (none_with_iff _ _ (holds_atom E a)) in X; [|intros; apply contains_atom_iff].
    split; [|right; auto]. apply push_first; [exact X|]. exists a. split; [reflexivity|left; reflexivity].
Qed.
Lemma get_object_ok m o : full m ->
  exists k m', get_object_variable m o = Ok (VLPointer (Z.of_nat k), m') /\ first_with m' (holds_object o) k /\
    ((first_with m (holds_object o) k /\ m' = m) \/ (none_with m (holds_object o) /\ k = length (vals m) /\ m' = push m (ObjV o))).
Proof.
  intros F. unfold get_object_variable. destruct (search (fun v => contains_object v o) m F) as (r & Hr & X). rewrite Hr. cbn [obind].
  destruct r as [k|].
  - exists k, m. split; [reflexivity|]. apply (first_with_iff _ _ (holds_object o)) in X; [|intros; apply contains_object_iff]. auto.
  - exists (length (vals m)), (push m (ObjV o)). split; [reflexivity|].
    apply (none_with_iff _ _ (holds_object o)) in X; [|intros; apply contains_object_iff].
    split; [|right; auto]. apply push_first; [exact X|reflexivity].
Qed.

(** Structures. *)
Lemma find_from_ok test m start n : forall i r, find_from test m start i n = Ok r -> i < length (vals m) ->
  match r with
  | Some k => exists v, value_at m k v /\ test v = Ok true
  | None => True
  end.
Proof.
  induction n as [|n IH]; intros i r H L; cbn [find_from] in H; [discriminate|].
  peel H v V. peel H b B. apply get_value_ok in V. destruct b; [inv H; eauto|]. cbn zeta in H.
  destruct (Nat.leb_spec (length (vals m)) (S i)).
  - destruct (0 =? start); [inv H; exact I|]. eapply IH; [exact H|lia].
  - destruct (S i =? start); [inv H; exact I|]. eapply IH; [exact H|lia].
Qed.

(** Going around from [start], every value has been tried. *)
Lemma find_from_none test m start n : forall i, find_from test m start i n = Ok None -> start < length (vals m) -> i < length (vals m) ->
  (i < start -> forall j, i <= j < start -> exists v, value_at m j v /\ test v = Ok false) /\
  (start <= i -> forall j, (i <= j < length (vals m) \/ j < start) -> exists v, value_at m j v /\ test v = Ok false).
Proof.
  induction n as [|n IH]; intros i H Ls L; cbn [find_from] in H; [discriminate|].
  peel H v V. peel H b B. apply get_value_ok in V. destruct b; [discriminate|]. cbn zeta in H.
  destruct (Nat.leb_spec (length (vals m)) (S i)) as [A|A].
  - destruct (Nat.eqb_spec 0 start) as [Z0|Z0].
    + split; [lia|]. intros _ j J. assert (j = i) by lia. subst. eauto.
    + destruct (IH 0 H Ls ltac:(lia)) as [X _]. split; [lia|]. intros _ j J.
      destruct (Nat.eq_dec j i) as [->|]; [eauto|]. apply X; lia.
  - destruct (Nat.eqb_spec (S i) start) as [Z0|Z0].
    + split; [|lia]. intros _ j J. assert (j = i) by lia. subst. eauto.
    + destruct (IH (S i) H Ls A) as [X Y]. split.
      * intros I1 j J. destruct (Nat.eq_dec j i) as [->|]; [eauto|]. apply X; lia.
      * intros I1 j J. destruct (Nat.eq_dec j i) as [->|]; [eauto|]. apply Y; lia.
Qed.

Lemma structure_extends fuel m c i f w m' : get_structure_variable E fuel m c i f = Ok (w, m') -> extends m m'.
Proof.
  unfold get_structure_variable. intros H. peel H r Hr. destruct r as [k|].
  - inv H. apply extends_refl.
  - peel H s Es. inv H. apply extends_push.
Qed.

(** With a start index inside the map, the search meets every variable. *)
Lemma get_structure_ok fuel m c i f w m' : (0 <= f < Z.of_nat (length (vals m)))%Z ->
  get_structure_variable E fuel m c i f = Ok (w, m') ->
  (exists k v, w = VLPointer (Z.of_nat k) /\ m' = m /\ value_at m k v /\ contains_structure E v (skipn i c) = Ok true) \/
  (exists s, (forall k, k < length (vals m) -> exists v, value_at m k v /\ contains_structure E v (skipn i c) = Ok false) /\
     structure_value fuel c i = Ok s /\ w = VLPointer (Z.of_nat (length (vals m))) /\ m' = push m (StructV s)).
Proof.
  intros Rf H. unfold get_structure_variable in H.
  replace ((0 <=? f)%Z && (0 <? length (vals m))) with true in H.
  2:{ symmetry. apply andb_true_intro. split; [lia|apply Nat.ltb_lt; lia]. }
  cbn zeta in H. destruct (Z.ltb_spec (Z.of_nat (length (vals m))) f); [lia|].
  peel H r Hr. destruct r as [k|].
  - inv H. left. destruct (find_from_ok _ _ _ _ _ _ Hr ltac:(lia)) as (v & V & T). exists k, v. auto.
  - peel H s Es. inv H. right. exists s. split; [|auto].
    intros k K. destruct (find_from_none _ _ _ _ _ Hr ltac:(lia) ltac:(lia)) as [_ X]. apply X; lia.
Qed.

Lemma abs_extends fuel m x w m' : full m -> abs_op E fuel m x = Ok (w, m') -> extends m m'.
Proof.
  intros F H. destruct x as [a|o|c i f]; cbn [abs_op] in H.
  - destruct (get_atom_ok m a F) as (k & m1 & Hk & _ & D). rewrite H in Hk. inv Hk.
    destruct D as [[_ ->]|(_ & _ & ->)]; [apply extends_refl|apply extends_push].
  - destruct (get_object_ok m o F) as (k & m1 & Hk & _ & D). rewrite H in Hk. inv Hk.
    destruct D as [[_ ->]|(_ & _ & ->)]; [apply extends_refl|apply extends_push].
  - eapply structure_extends; exact H.
Qed.
Lemma abs_run_extends fuel l : forall m m', full m -> abs_run E fuel m l = Ok m' -> extends m m'.
Proof.
  induction l as [|x l IH]; intros m m' F H; cbn [abs_run] in H; [inv H; apply extends_refl|].
  peel H r Hr. destruct r as [w m1]. cbn [snd] in H. pose proof (abs_extends _ _ _ _ _ F Hr) as X.
  eapply extends_trans; [exact X|]. apply IH; [apply X; exact F|exact H].
Qed.

(** The same value always gets the same variable, whatever happens in between. *)
Lemma atom_stable fuel m a w m1 l m2 : full m -> get_atom_variable E m a = Ok (w, m1) ->
  abs_run E fuel m1 l = Ok m2 -> get_atom_variable E m2 a = Ok (w, m2).
Proof.
  intros F H R. destruct (get_atom_ok m a F) as (k & m1' & Hk & Fk & D). rewrite H in Hk. inv Hk.
  pose proof (abs_extends fuel m (AbsAtom a) _ _ F H) as X1. pose proof (abs_run_extends _ _ _ _ (proj2 X1 F) R) as X2.
  assert (F2 : full m2) by (apply X2, X1, F).
  destruct (get_atom_ok m2 a F2) as (k2 & m2' & H2 & _ & D2). rewrite H2.
  destruct D2 as [[A ->]|(A & _)].
  - rewrite (first_with_unique _ _ _ _ A (first_extends _ _ _ _ X2 Fk)). reflexivity.
  - destruct (first_none _ _ _ (first_extends _ _ _ _ X2 Fk) A).
Qed.
Lemma object_stable fuel m o w m1 l m2 : full m -> get_object_variable m o = Ok (w, m1) ->
  abs_run E fuel m1 l = Ok m2 -> get_object_variable m2 o = Ok (w, m2).
Proof.
  intros F H R. destruct (get_object_ok m o F) as (k & m1' & Hk & Fk & D). rewrite H in Hk. inv Hk.
  pose proof (abs_extends fuel m (AbsObject o) _ _ F H) as X1. pose proof (abs_run_extends _ _ _ _ (proj2 X1 F) R) as X2.
  assert (F2 : full m2) by (apply X2, X1, F).
  destruct (get_object_ok m2 o F2) as (k2 & m2' & H2 & _ & D2). rewrite H2.
  destruct D2 as [[A ->]|(A & _)].
  - rewrite (first_with_unique _ _ _ _ A (first_extends _ _ _ _ X2 Fk)). reflexivity.
  - destruct (first_none _ _ _ (first_extends _ _ _ _ X2 Fk) A).
Qed.

(** No two variables have equal atoms (in the order of creation) or the same object. *)
Definition distinct (m : bmap) : Prop :=
  (forall i j a b, i < j -> value_at m i (AtomV a) -> value_at m j (AtomV b) -> ~ atoms_equal E a b) /\
  (forall i j o, value_at m i (ObjV o) -> value_at m j (ObjV o) -> i = j).
Lemma push_split m v k w : value_at (push m v) k w -> (k < length (vals m) /\ value_at m k w) \/ (k = length (vals m) /\ w = v).
Proof.
  intros V. pose proof (value_lt _ _ _ V) as L. unfold push in L. cbn [vals] in L. rewrite app_length in L. cbn [length] in L.
  destruct (Nat.eq_dec k (length (vals m))) as [->|N].
  - right. split; [reflexivity|]. pose proof (push_at m v) as Q. unfold value_at in *. congruence.
  - left. split; [lia|]. eapply extends_back; [apply extends_push|lia|exact V].
Qed.
Lemma distinct_push_struct m s : distinct m -> distinct (push m (StructV s)).
Proof.
  intros [A B]. split.
  - intros i j a b L V W. destruct (push_split _ _ _ _ V) as [[_ V']|[_ X]]; [|discriminate].
    destruct (push_split _ _ _ _ W) as [[_ W']|[_ X]]; [|discriminate]. eapply A; eauto.
  - intros i j o V W. destruct (push_split _ _ _ _ V) as [[_ V']|[_ X]]; [|discriminate].
    destruct (push_split _ _ _ _ W) as [[_ W']|[_ X]]; [|discriminate]. eapply B; eauto.
Qed.
Lemma abs_distinct fuel m x w m' : full m -> distinct m -> abs_op E fuel m x = Ok (w, m') -> distinct m'.
Proof.
  intros F D H. destruct x as [a|o|c i f]; cbn [abs_op] in H.
  - destruct (get_atom_ok m a F) as (k & m1 & Hk & _ & C). rewrite H in Hk. inv Hk.
    destruct C as [[_ ->]|(N & _ & ->)]; [exact D|]. destruct D as [A B]. split.
    + intros i j b c L V W. destruct (push_split _ _ _ _ V) as [[Li V']|[Ei Ev]]; destruct (push_split _ _ _ _ W) as [[Lj W']|[Ej Ew]].
      * exact (A i j b c L V' W').
      * inv Ew. intros Q. apply (N _ _ V'). exists b. auto.
      * lia.
      * lia.
    + intros i j o V W. destruct (push_split _ _ _ _ V) as [[_ V']|[_ X]]; [|discriminate].
      destruct (push_split _ _ _ _ W) as [[_ W']|[_ X]]; [|discriminate]. eapply B; eauto.
  - destruct (get_object_ok m o F) as (k & m1 & Hk & _ & C). rewrite H in Hk. inv Hk.
    destruct C as [[_ ->]|(N & _ & ->)]; [exact D|]. destruct D as [A B]. split.
    + intros i j a b L V W. destruct (push_split _ _ _ _ V) as [[_ V']|[_ X]]; [|discriminate].
      destruct (push_split _ _ _ _ W) as [[_ W']|[_ X]]; [|discriminate]. eapply A; eauto.
    + intros i j r V W. destruct (push_split _ _ _ _ V) as [[_ V']|[Ei X]]; destruct (push_split _ _ _ _ W) as [[_ W']|[Ej Y]].
      * eapply B; eauto.
      * inv Y. destruct (N _ _ V' eq_refl).
      * inv X. destruct (N _ _ W' eq_refl).
      * congruence.
  - unfold get_structure_variable in H. peel H r Hr. destruct r as [k|]; [inv H; exact D|].
    peel H s Es. inv H. apply distinct_push_struct. exact D.
Qed.
Lemma abs_run_distinct fuel l : forall m m', full m -> distinct m -> abs_run E fuel m l = Ok m' -> full m' /\ distinct m'.
Proof.
  induction l as [|x l IH]; intros m m' F D H; cbn [abs_run] in H; [inv H; auto|].
  peel H r Hr. destruct r as [w m1]. cbn [snd] in H. pose proof (abs_extends _ _ _ _ _ F Hr) as X.
  eapply IH; [apply X; exact F|eapply abs_distinct; eauto|exact H].
Qed.
Lemma abs_from_empty fuel l m : abs_run E fuel empty_map l = Ok m -> full m /\ distinct m.
Proof.
  apply abs_run_distinct; [constructor|]. split.
  - intros [|i] j a b _ V; discriminate.
  - intros [|i] j o V; discriminate.
Qed.
End Abstraction.

Lemma variable_index k : (Z.of_nat k < 4096)%Z -> getDescriptor (VLPointer (Z.of_nat k)) = VL_PTR /\ index (VLPointer (Z.of_nat k)) = k.
Proof.
  intros H. unfold VLPointer. rewrite land_4095, Z.mod_small by lia. unfold VL_PTR. rewrite shl24.
  assert (E : u32 (134 * 16777216 + Z.of_nat k) = (134 * 16777216 + Z.of_nat k)%Z).
  { unfold u32. apply Z.mod_small. lia. }
  rewrite E. split.
  - rewrite desc_arith. lia.
  - unfold index. rewrite idx_arith. replace ((134 * 16777216 + Z.of_nat k) mod 4096)%Z with (Z.of_nat k) by lia. lia.
Qed.

(** ** Counting the variables without a value *)
Lemma upd_count (l l' : list (option value)) k old v : nth_error l k = Some old -> upd l k v = Some l' ->
  Z.of_nat (length (filter is_unbound_slot l')) =
  (Z.of_nat (length (filter is_unbound_slot l)) + is_unbound v - is_unbound old)%Z.
Proof.
  assert (B : forall v, is_unbound v = if is_unbound_slot v then 1%Z else 0%Z) by (intros [[]|]; reflexivity).
  revert l' k. induction l as [|x l IH]; intros l' [|k] N U; cbn in N, U; try discriminate.
  - inv N. inv U. cbn [filter]. rewrite !B. destruct (is_unbound_slot old), (is_unbound_slot v); cbn [length]; lia.
  - destruct (upd l k v) as [l1|] eqn:U1; [|discriminate]. inv U. specialize (IH _ _ N U1).
    cbn [filter]. destruct (is_unbound_slot x); cbn [length]; lia.
Qed.
Lemma count_le m : unbound_count m <= length (vals m).
Proof. unfold unbound_count. induction (vals m) as [|x l IH]; cbn [filter length]; [lia|]. destruct (is_unbound_slot x); cbn [length]; lia. Qed.


Lemma set_value_counted m k v m' : small m -> counted m -> set_value m k v = Ok m' -> counted m' /\ small m'.
Proof.
  unfold set_value, counted. intros L C H. destruct (nth_error (vals m) k) as [old|] eqn:N; [|discriminate].
  destruct (upd (vals m) k (Some v)) as [l|] eqn:U; [|discriminate]. inv H. cbn [unbound].
  pose proof (upd_count _ _ _ _ _ N U) as Q. pose proof (count_le (mkmap l 0)) as B.
  unfold small, unbound_count in *. cbn [vals] in *. rewrite (upd_length _ _ _ _ U) in *. rewrite C. split; [|exact L].
  enough (T : u32 (Z.of_nat (length (filter is_unbound_slot (vals m))) + is_unbound (Some v) - is_unbound old) =
    Z.of_nat (length (filter is_unbound_slot l))) by exact T.
  rewrite <- Q. unfold u32. apply Z.mod_small. lia.
Qed.
Lemma evolves_counted E nar m m' : evolves E nar m m' -> small m -> counted m -> counted m' /\ small m'.
Proof.
  induction 1; intros L C; auto.
  - destruct (set_value_counted _ _ _ _ L C H2). auto.
  - destruct (set_time_value _ _ _ _ H2) as (v & B & S0). destruct (set_value_counted _ _ _ _ L C S0). auto.
Qed.
Lemma run_counted E fuel l m m' : small m -> counted m -> run E fuel m l = Ok m' -> counted m' /\ small m'.
Proof. intros L C H. eapply evolves_counted; [eapply run_evolves; exact H|exact L|exact C]. Qed.

Lemma add_unbound_counted m id m' : (Z.of_nat id < 2 ^ 32 - 1)%Z -> small m -> counted m -> add_unbound_value m id = Ok m' ->
  counted m' /\ small m'.
Proof.
  unfold add_unbound_value. intros I L C H. eapply set_value_counted; [| |exact H].
  - unfold small. cbn [vals]. rewrite app_length, repeat_length. unfold small in L. lia.
  - unfold counted, unbound_count. cbn [vals unbound]. rewrite C. unfold unbound_count. f_equal.
    rewrite filter_app, app_length. replace (length (filter is_unbound_slot (repeat None (S id - length (vals m))))) with 0; [lia|].
    generalize (S id - length (vals m)). intros n. induction n as [|n IH]; [reflexivity|]. cbn [repeat filter is_unbound_slot]. exact IH.
Qed.
Lemma push_counted m v : bound v -> counted m -> counted (push m v).
Proof.
  unfold counted, unbound_count, push. cbn [vals unbound]. intros B ->. rewrite filter_app, app_length.
  destruct v; cbn; try destruct B; lia.
Qed.
Lemma abs_run_counted E fuel l : forall m m', full m -> counted m -> abs_run E fuel m l = Ok m' -> counted m'.
Proof.
  induction l as [|x l IH]; intros m m' F C H; cbn [abs_run] in H; [inv H; exact C|].
  peel H r Hr. destruct r as [w m1]. cbn [snd] in H. pose proof (abs_extends _ _ _ _ _ _ F Hr) as X.
  eapply IH; [apply X; exact F| |exact H].
  destruct x as [a|o|c i f]; cbn [abs_op] in Hr.
  - destruct (get_atom_ok E m a F) as (k & m1' & Hk & _ & D). rewrite Hr in Hk. inv Hk.
    destruct D as [[_ ->]|(_ & _ & ->)]; [exact C|apply push_counted; [exact I|exact C]].
  - destruct (get_object_ok m o F) as (k & m1' & Hk & _ & D). rewrite Hr in Hk. inv Hk.
    destruct D as [[_ ->]|(_ & _ & ->)]; [exact C|apply push_counted; [exact I|exact C]].
  - unfold get_structure_variable in Hr. peel Hr r Er. destruct r as [k|]; [inv Hr; exact C|].
    peel Hr s Es. inv Hr. apply push_counted; [exact I|exact C].
Qed.
Lemma fully_specified_iff m : counted m -> (is_fully_specified m = true <-> forall k id, ~ value_at m k (Unbound id)).
Proof.
  unfold counted, is_fully_specified, unbound_count, value_at. intros ->. split.
  - intros H k id V. apply Z.eqb_eq in H. apply nth_error_In in V.
    assert (X : In (Some (Unbound id)) (filter is_unbound_slot (vals m))) by (apply filter_In; split; [exact V|reflexivity]).
    destruct (filter is_unbound_slot (vals m)); [destruct X|]. cbn [length] in H. lia.
  - intros H. destruct (filter is_unbound_slot (vals m)) as [|x l] eqn:X; [reflexivity|exfalso].
    assert (Y : In x (filter is_unbound_slot (vals m))) by (rewrite X; left; reflexivity).
    apply filter_In in Y. destruct Y as [Y Z0]. apply In_nth_error in Y. destruct Y as [k Y].
    destruct x as [[id|?|?|?]|]; try discriminate. exact (H _ _ Y).
Qed.

(** ** Witnesses *)
(** (mk.val ...)-like objects: 0 is an instance of the pattern 1; in 4 a Boolean
    stands for the object and a wildcard for the value; the first member of 5 is
    a set of references; 6 is a fact with times 5 and 8, and 7 a pattern for it; 8 differs from 0 by its value. *)
Definition ex_head := AObject 6 3.
Definition ex_heap (r : nat) : option cobj :=
  match r with
  | 0 => Some (mkcobj [ex_head; RPointer 0; RPointer 1; Boolean true] [2; 3])
  | 1 => Some (mkcobj [ex_head; VLPointer 0; RPointer 0; VLPointer 1] [3])
  | 2 => Some (mkcobj [AObject 1 1; Boolean true] [])
  | 3 => Some (mkcobj [AObject 2 1; Boolean true] [])
  | 4 => Some (mkcobj [ex_head; Boolean false; RPointer 1; Wildcard 0] [2; 3])
  | 5 => Some (mkcobj [ex_head; IPointer 4; RPointer 0; Boolean true; ASet 1; RPointer 1] [3; 2])
  | 6 => Some (mkcobj [AObject 7 5; RPointer 0; IPointer 6; IPointer 9; Boolean true; Boolean true; ATimestamp; 0; 5; ATimestamp; 0; 8]%Z [2])
  | 7 => Some (mkcobj [AObject 7 5; RPointer 0; VLPointer 0; VLPointer 1; Boolean true; Boolean true]%Z [2])
  | 8 => Some (mkcobj [ex_head; RPointer 0; RPointer 1; Boolean false] [2; 3])
  | _ => None
  end.
Definition ex_env := mkenv ex_heap (mkops 1 2 3 4 5) (S754_zero false) 10%Z.
Definition ex_map := mkmap [Some (Unbound 0); Some (Unbound 1)] 2.
Definition ex_times (a b : Z) := mkmap [Some (StructV [ATimestamp; 0; a]); Some (StructV [ATimestamp; 0; b])]%Z 0.

Lemma nth_error_nil {A} i : nth_error (@nil A) i = None.
Proof. destruct i; reflexivity. Qed.
Lemma ex_own : own ex_map.
Proof.
  intros [|[|k]] id V; try (injection V as <-; reflexivity).
  unfold value_at in V. cbn in V. rewrite nth_error_nil in V. discriminate.
Qed.
Lemma ex_no_ti : heap_no_ti ex_env.
Proof.
  intros r o H. do 9 (destruct r as [|r]; [injection H as <-; repeat (constructor; [vm_compute; discriminate|]); constructor|]). discriminate.
Qed.
Lemma ex_map_no_ti : map_no_ti ex_env ex_map.
Proof. intros [|[|k]] s V; try discriminate. unfold value_at in V. cbn in V. rewrite nth_error_nil in V. discriminate. Qed.
Lemma ex_fit : structures_fit ex_env.
Proof.
  intros r o fuel i s n Hr H.
  destruct fuel as [|[|[|fuel]]]; [discriminate| | |];
  do 9 (destruct r as [|r]; [injection Hr as <-;
    do 12 (destruct i as [|i]; [vm_compute in H; first [discriminate H | injection H as _ <-; vm_compute; discriminate]|]);
    first [discriminate H | destruct i; discriminate H]|]); discriminate.
Qed.

(** C13: an input interval without any instant is accepted, and what is stored then has none. *)
Lemma match_timings_empty : exists E m a b,
  time_of m 0 0 /\ time_of m 1 10 /\ (b <= a)%Z /\
  exists m', match_timings E m a b 0 1 = Ok (true, m') /\ time_of m' 0 5 /\ time_of m' 1 5.
Proof.
  assert (T : forall x y, GetInt64 [ATimestamp; 0; x]%Z 1 = Some x -> GetInt64 [ATimestamp; 0; y]%Z 1 = Some y ->
            time_of (ex_times x y) 0 x /\ time_of (ex_times x y) 1 y).
  { intros x y X Y. split; [exists ATimestamp, [0%Z; x]|exists ATimestamp, [0%Z; y]];
    (split; [reflexivity|split; [vm_compute; reflexivity|assumption]]). }
  exists ex_env, (ex_times 0 10), 5%Z, 5%Z. destruct (T 0 10 eq_refl eq_refl)%Z as [T1 T2].
  split; [exact T1|]. split; [exact T2|]. split; [lia|]. exists (ex_times 5 5).
  destruct (T 5 5 eq_refl eq_refl)%Z as [T3 T4]. split; [vm_compute; reflexivity|]. auto.
Qed.

(** C14 *)
Lemma object_value_any_atom : exists E m r r' m' o p,
  own m /\ heap E r = Some o /\ heap E r' = Some p /\
  match_object E (match_ E 20) m r r' = Ok (true, m') /\
  nth_error (code_of p) 1 = Some (VLPointer 0) /\ value_at m' 0 (ObjV 2) /\ nth_error (code_of o) 1 = Some (Boolean false).
Proof.
  exists ex_env, (mkmap [Some (ObjV 2); Some (Unbound 1)] 1), 4, 1.
  eexists. eexists. eexists. split.
  { intros [|[|k]] id V; try discriminate; [injection V as <-; reflexivity|]. unfold value_at in V. cbn in V. rewrite nth_error_nil in V. discriminate. }
  split; [reflexivity|]. split; [reflexivity|]. split; [vm_compute; reflexivity|]. repeat split.
Qed.
Lemma wildcard_leaves_unbound : exists E m r r' m' p,
  own m /\ heap E r' = Some p /\ match_object E (match_ E 20) m r r' = Ok (true, m') /\
  nth_error (code_of p) 3 = Some (VLPointer 1) /\ value_at m' 1 (Unbound 1).
Proof.
  exists ex_env, ex_map, 4, 1. eexists. eexists. split; [exact ex_own|]. split; [reflexivity|]. split; [vm_compute; reflexivity|]. repeat split.
Qed.
Lemma set_of_references_lost : exists E m m' s,
  own m /\ match_object E (match_ E 20) m 5 1 = Ok (true, m') /\ value_at m' 0 (StructV s) /\
  nth_error s 1 = Some (RPointer 1) /\ match_object E (match_ E 20) m' 5 1 = UB.
Proof.
  exists ex_env, ex_map. eexists. eexists. split; [exact ex_own|]. split; [vm_compute; reflexivity|].
  split; [vm_compute; reflexivity|]. split; [vm_compute; reflexivity|]. vm_compute. reflexivity.
Qed.

(** C15 *)
Lemma fact_changes_times : exists E m l m', own m /\ run E 20 m l = Ok m' /\ time_of m 0 1 /\ time_of m' 0 5.
Proof.
  exists ex_env, (ex_times 1 9), [MatchFact true 6 7 0 1]. eexists. split; [|split; [vm_compute; reflexivity|]].
  { intros [|[|k]] id V; try discriminate. unfold value_at in V. cbn in V. rewrite nth_error_nil in V. discriminate. }
  split; eexists; eexists; repeat split.
Qed.

(** C16 *)
Lemma nested_not_found : exists E c i m1 m2 w1 w2,
  get_structure_variable E 20 empty_map c i 0 = Ok (w1, m1) /\ get_structure_variable E 20 m1 c i 0 = Ok (w2, m2) /\
  index w1 <> index w2 /\ value_at m2 (index w1) (StructV [ASet 1; IPointer 2; ASet 1; Boolean true]) /\
  value_at m2 (index w2) (StructV [ASet 1; IPointer 2; ASet 1; Boolean true]).
Proof.
  exists ex_env, [Boolean true; ASet 1; IPointer 3; ASet 1; Boolean true], 1. do 4 eexists.
  split; [vm_compute; reflexivity|]. split; [vm_compute; reflexivity|]. split; [vm_compute; discriminate|].
  split; vm_compute; reflexivity.
Qed.
Lemma search_start_out_of_bounds : exists E m c i f,
  full m /\ (f = Z.of_nat (length (vals m)))%Z /\ get_structure_variable E 20 m c i f = UB.
Proof.
  exists ex_env, (mkmap [Some (ObjV 2)] 0), [ASet 1; Boolean true], 0, 1%Z.
  split; [constructor; [discriminate|constructor]|]. split; [reflexivity|]. vm_compute. reflexivity.
Qed.
Lemma no_search_duplicates : exists E c i m1 m2 w1 w2,
  get_structure_variable E 20 empty_map c i (-1) = Ok (w1, m1) /\ get_structure_variable E 20 m1 c i (-1) = Ok (w2, m2) /\
  index w1 <> index w2 /\ value_at m2 (index w1) (StructV c) /\ value_at m2 (index w2) (StructV c).
Proof.
  exists ex_env, [ASet 1; Boolean true], 0. do 4 eexists.
  split; [vm_compute; reflexivity|]. split; [vm_compute; reflexivity|]. split; [vm_compute; discriminate|].
  split; vm_compute; reflexivity.
Qed.

(** Abstracting [n] different objects gives a map of [n] values. *)
Definition objects (n : nat) : bmap := mkmap (map (fun k => Some (ObjV k)) (seq 0 n)) 0.
Lemma objects_at n k v : value_at (objects n) k v -> k < n /\ v = ObjV k.
Proof.
  unfold value_at, objects. cbn [vals]. rewrite nth_error_map. intros H. destruct (nth_error (seq 0 n) k) as [x|] eqn:X; [|discriminate].
  cbn in H. inv H. assert (K : k < n). { rewrite <- (seq_length n 0). apply nth_error_Some. congruence. }
  split; [exact K|]. rewrite nth_error_nth' with (d := 0) in X by (rewrite seq_length; lia). rewrite seq_nth in X by lia.
  cbn [plus] in X. injection X as ->. reflexivity.
Qed.
Lemma objects_full n : full (objects n).
Proof. apply Forall_forall. intros x X. apply in_map_iff in X. destruct X as (k & <- & _). discriminate. Qed.
Lemma objects_next n : get_object_variable (objects n) n = Ok (VLPointer (Z.of_nat n), objects (S n)).
Proof.
  destruct (get_object_ok (objects n) n (objects_full n)) as (k & m' & H & _ & D). rewrite H.
  assert (L : length (vals (objects n)) = n) by (cbn [objects vals]; rewrite map_length, seq_length; reflexivity).
  destruct D as [[((v & V & P) & _) _]|(_ & K & M)].
  - destruct (objects_at _ _ _ V) as [Q ->]. inv P. lia.
  - rewrite L in K. subst k m'. do 2 f_equal. unfold push, objects. cbn [vals unbound]. f_equal.
    rewrite seq_S, map_app. reflexivity.
Qed.
Lemma abs_run_app E fuel l1 : forall m l2, abs_run E fuel m (l1 ++ l2) = obind (abs_run E fuel m l1) (fun m1 => abs_run E fuel m1 l2).
Proof.
  induction l1 as [|x l IH]; intros m l2; [reflexivity|]. cbn [app abs_run]. destruct (abs_op E fuel m x); cbn [obind]; auto.
Qed.
Lemma objects_run E fuel n : abs_run E fuel empty_map (map AbsObject (seq 0 n)) = Ok (objects n).
Proof.
  induction n as [|n IH]; [reflexivity|]. rewrite seq_S, map_app, abs_run_app, IH. cbn [obind map plus abs_run abs_op].
  rewrite objects_next. reflexivity.
Qed.
Lemma many_variables_wrap : exists E l m w m',
  abs_run E 20 empty_map l = Ok m /\ get_object_variable m 4096 = Ok (w, m') /\ value_at m' (index w) (ObjV 0).
Proof.
  exists ex_env, (map AbsObject (seq 0 4096)), (objects 4096), (VLPointer 0), (objects 4097).
  split; [apply objects_run|]. split; [|reflexivity]. rewrite objects_next. do 2 f_equal. 
Qed.

Lemma match_timings_nonempty E m a b ai bi sa sb :
  ai <> bi -> is_i64 a -> is_i64 b -> time_of m ai sa -> time_of m bi sb -> (sa < sb)%Z -> (a < b)%Z ->
  exists r m', match_timings E m a b ai bi = Ok (r, m') /\
    (r = true <-> exists t, (sa <= t < sb /\ a <= t < b)%Z) /\
    (r = true -> exists a' b', time_of m' ai a' /\ time_of m' bi b' /\
                 forall t, (a' <= t < b' <-> sa <= t < sb /\ a <= t < b)%Z) /\
    (r = false -> m' = m) /\
    (forall k, k <> ai -> k <> bi -> nth_error (vals m') k = nth_error (vals m) k).
Proof.
  intros N Ra Rb Ta Tb S1 S2. destruct (match_timings_exact E m a b ai bi sa sb N Ra Rb Ta Tb) as (r & m' & H & A & B & C & _ & F).
  exists r, m'. split; [exact H|]. split; [|split; [|split; [exact C|exact F]]].
  - rewrite A. split.
    + intros X. exists (Z.max sa a). lia.
    + intros (t & X). lia.
  - intros X. destruct (B X) as [B1 B2]. exists (Z.max sa a), (Z.min sb b). split; [exact B1|]. split; [exact B2|]. intros t. lia.
Qed.

Lemma copy_endless : exists m, full m /\ counted m /\ assign m = None.
Proof.
  exists (objects 256). split; [apply objects_full|]. split; vm_compute; reflexivity.
Qed.
Lemma copy_exact m : (Z.of_nat (length (vals m)) < 256)%Z -> exists m', assign m = Some m' /\ m' = m.
Proof. intros H. unfold assign. destruct (Z.ltb_spec 255 (Z.of_nat (length (vals m)))); [lia|]. exists m. destruct m. auto. Qed.
