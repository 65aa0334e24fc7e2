(** Lemmas for the operators on vectors (C150 to C155): sums, products, distances. *)
From Verif Require Import Base Float32 Float32_facts Float32_round Atom_model Atom_proofs Op_model Bp_model Vec_model Vec_spec Vec_proofs Vec2_proofs.
Local Open Scope nat_scope.
Local Set Default Proof Using "Type".

(** ** Words *)
Lemma object_word op n : (0 <= op < 4096 -> 0 <= n < 256 -> getDescriptor (AObject op n) = OBJECT /\ asOpcode (AObject op n) = op)%Z.
Proof.
  intros A B. rewrite desc_arith, op_arith. unfold AObject, u32. rewrite shl24, shl8. change 4095%Z with (Z.ones 12). rewrite Z.land_ones by lia. change (2 ^ 12)%Z with 4096%Z.
  rewrite (Z.mod_small op) by lia. unfold OBJECT. lia.
Qed.
Lemma object_not_float w : getDescriptor w = OBJECT -> isFloat w = false.
Proof. rewrite desc_arith, isFloat_arith. unfold OBJECT. intros H. apply Z.eqb_neq. lia. Qed.
Lemma float_desc w : isFloat w = true -> (0 <= getDescriptor w < 128)%Z.
Proof. rewrite desc_arith, isFloat_arith. intros H. apply Z.eqb_eq in H. lia. Qed.
Lemma float_stored x : is_u32 x -> isFloat (Float x) = true /\ asFloat (Float x) = stored x.
Proof.
  unfold is_u32. intros B. rewrite isFloat_arith. unfold asFloat, stored, Float, u32. rewrite shl1, shr1. split; [apply Z.eqb_eq; lia|lia].
Qed.
Lemma asFloat_u32 w : is_u32 (asFloat w).
Proof. unfold asFloat, u32, is_u32. lia. Qed.
Lemma set_word n : (0 <= n < 256 -> getDescriptor (ASet n) = SET /\ getAtomCount (ASet n) = n)%Z.
Proof.
  intros A. assert (D : getDescriptor (ASet n) = SET) by (rewrite desc_arith; unfold ASet, u32; rewrite shl24; unfold SET; lia). split; [exact D|].
  unfold getAtomCount. rewrite D. cbn [Z.eqb SET orb Pos.eqb]. replace (SET =? SET)%Z with true by reflexivity. cbn [orb]. change 255%Z with (Z.ones 8). rewrite Z.land_ones by lia. change (2 ^ 8)%Z with 256%Z.
  unfold ASet, u32. rewrite shl24. unfold SET. lia.
Qed.
Lemma value_word i : (Z.of_nat i < 4096)%Z -> getDescriptor (ValuePointer (Z.of_nat i)) = VALUE_PTR /\ place (ValuePointer (Z.of_nat i)) = i.
Proof.
  intros A. unfold place. rewrite desc_arith, idx_arith. unfold ValuePointer, u32. rewrite shl24. change 4095%Z with (Z.ones 12). rewrite Z.land_ones by lia. change (2 ^ 12)%Z with 4096%Z.
  rewrite (Z.mod_small (Z.of_nat i)) by lia. unfold VALUE_PTR. lia.
Qed.
Lemma inner_word i : (Z.of_nat i < 4096)%Z -> getDescriptor (IPointer (Z.of_nat i)) = I_PTR /\ place (IPointer (Z.of_nat i)) = i.
Proof.
  intros A. unfold place. rewrite desc_arith, idx_arith. unfold IPointer, u32. rewrite shl24. change 4095%Z with (Z.ones 12). rewrite Z.land_ones by lia. change (2 ^ 12)%Z with 4096%Z.
  rewrite (Z.mod_small (Z.of_nat i)) by lia. unfold I_PTR. lia.
Qed.
Lemma bits2_u32 f x y : (forall a b, f32_valid a = true -> f32_valid b = true -> f32_valid (f a b) = true) -> is_u32 x -> is_u32 y -> is_u32 (bits2 f x y).
Proof. intros V A B. apply bits_of_range, V; apply of_bits_valid; assumption. Qed.

Lemma both_eq f xs : forall ys, both f xs ys = map stored (map (fun p => f (fst p) (snd p)) (combine xs ys)).
Proof. induction xs as [|x xs IH]; intros [|y ys]; cbn; [reflexivity..|]. rewrite IH. reflexivity. Qed.
Lemma numbers_u32 bound m n d xs : numbers_at bound m n d xs -> Forall is_u32 xs.
Proof. intros H. apply Forall_forall. intros x X. apply In_nth_error in X as (i & E). destruct (H i x E) as (? & w & _ & _ & _ & <-). apply asFloat_u32. Qed.

(** ** Kinds *)
Section Kinds.
Context (vec3 vec2 vec quat : Z).
Notation opcode := (opcode vec3 vec2 vec quat).
Lemma is_kind k w : opcodes vec3 vec2 vec quat -> asOpcode w = opcode k ->
  is vec3 w = match k with Three => true | _ => false end /\ is vec2 w = match k with Two => true | _ => false end /\
  is vec w = match k with Any => true | _ => false end /\ is quat w = match k with Quaternion => true | _ => false end.
Proof.
  intros (D & _) E. unfold is. rewrite E. inversion D as [|? ? A1 D1]; subst. inversion D1 as [|? ? A2 D2]; subst. inversion D2 as [|? ? A3 D3]; subst. cbn in A1, A2, A3.
  assert (vec3 <> vec2 /\ vec3 <> vec /\ vec3 <> quat /\ vec2 <> vec /\ vec2 <> quat /\ vec <> quat) as (? & ? & ? & ? & ? & ?) by intuition congruence.
  destruct k; cbn [Vec_spec.opcode]; rewrite ?Z.eqb_refl; repeat split; try reflexivity; apply Z.eqb_neq; congruence.
Qed.
End Kinds.

(** ** Reading what was written *)
Lemma nth_middle {A} (l : list A) a r i : nth_error (l ++ a :: r) (length l) = Some a /\ nth_error (l ++ a :: r) (length l + S i) = nth_error r i.
Proof.
  split; rewrite nth_error_app2 by lia; [replace (length l - length l) with 0 by lia; reflexivity|]. replace (length l + S i - length l) with (S i) by lia. reflexivity.
Qed.
Section Read.
Context (grown : nat -> nat) (bound : nat -> nat -> option Z) (here : nat).
Context (vec3 vec2 vec quat : Z).
Notation opcode := (opcode vec3 vec2 vec quat).
Notation written := (written grown false here vec3 vec2 vec quat).

Lemma number_written m n a j v : is_u32 v -> nth_error (cells m) j = Some (Float v) -> a = address_ m ->
  number_at bound m n (mkc (Values a) j) (stored v).
Proof.
  clear grown. intros U E ->. destruct (float_stored v U) as (F & G). exists (mkc (Values (address_ m)) j), (Float v).
  assert (W : fetch bound m (mkc (Values (address_ m)) j) = Some (Float v)) by (unfold fetch; cbn [inside at_]; rewrite Nat.eqb_refl; exact E).
  pose proof (float_desc _ F) as D. repeat split; [|exact W|exact F|exact G].
  eapply Here; [exact W|unfold I_PTR; lia|unfold VL_PTR; lia|unfold VALUE_PTR; lia].
Qed.
Lemma written_reads k vs s : opcodes vec3 vec2 vec quat -> Forall is_u32 vs -> (length vs < 256)%nat ->
  match dimension k with Some n => length vs = n | None => True end ->
  (Z.of_nat (length (cells (mem s)) + words_for k (length vs)) <= 4096)%Z ->
  kept_but here (mem s) (mem (written k vs s)) /\
  exists d, vector_at bound vec3 vec2 vec quat (mem (written k vs s)) 1 (mkc Code here) k (map stored vs) d.
Proof.
  intros O U N K B. unfold Vec2_proofs.written. rewrite set_head_eq, add_parts_eq. cbn [fst mem results].
  set (v := length (cells (mem s))) in *. set (h := head_of vec3 vec2 vec quat k (length vs)). set (t := tail_of k v vs).
  rewrite <- pushes_app. set (M := pushes grown ([h] ++ t) _).
  destruct (pushes_spec grown ([h] ++ t) (patch false here (ValuePointer (Z.of_nat v)) (mem s))) as (C & D & _). fold M in C, D. cbn [patch cells code_] in C, D.
  split; [split; [intros i H; rewrite D; apply Nat.eqb_neq in H; rewrite H; reflexivity|exists ([h] ++ t); exact C]|].
  assert (Lt : 1 + length t = words_for k (length vs)) by (pose proof (extra_length false k v vs 0%Z) as X; unfold extra in X; cbn [length] in X; fold t in X; lia).
  assert (W0 : fetch bound M (mkc Code here) = Some (ValuePointer (Z.of_nat v))) by (unfold fetch; cbn [inside at_]; rewrite D, Nat.eqb_refl; reflexivity).
  assert (Vl : (Z.of_nat v < 4096)%Z) by lia. destruct (value_word v Vl) as (V1 & V2).
  assert (H0 : nth_error (cells M) v = Some h) by (rewrite C; apply (nth_middle (cells (mem s)) h t 0)).
  assert (Ht : forall i, nth_error (cells M) (v + S i) = nth_error t i) by (intros i; rewrite C; apply (nth_middle (cells (mem s)) h t i)).
  assert (Ho : getDescriptor h = OBJECT /\ asOpcode h = opcode k).
  { apply object_word; [apply O|destruct k; cbn in *; lia]. }
  set (e := mkc (Values (address_ M)) v).
  assert (We : fetch bound M e = Some h) by (unfold fetch, e; cbn [inside at_]; rewrite Nat.eqb_refl; exact H0).
  assert (Le : leads bound M 1 (mkc Code here) e).
  { eapply Value; [exact W0|exact V1|]. rewrite V2. eapply Here; [exact We| | |]; destruct Ho as (-> & _); discriminate. }
  assert (Flat : k <> Any -> t = map Float vs) by (unfold t; intros; destruct k; [reflexivity..|congruence|reflexivity]).
  assert (Num : forall b, (forall i, nth_error (cells M) (b + S i) = nth_error (map Float vs) i) -> numbers_at bound M 1 (mkc (Values (address_ M)) b) (map stored vs)).
  { intros b Hb i x E. rewrite nth_error_map in E. destruct (nth_error vs i) as [y|] eqn:Y; [|discriminate]. cbn in E. injection E as <-.
    unfold child. cbn [inside at_]. apply number_written; [|rewrite Hb, nth_error_map, Y; reflexivity|reflexivity]. rewrite Forall_forall in U. apply U. eapply nth_error_In, Y. }
  destruct (dimension k) as [n|] eqn:Dk.
  - exists e, e, h. destruct Ho as (Ho1 & Ho2). assert (KA : k <> Any) by (destruct k; discriminate). repeat split; auto; [|rewrite Dk, map_length; auto].
    apply Num. intros i. rewrite Ht, Flat by exact KA. reflexivity.
  - assert (k = Any) as -> by (destruct k; try discriminate; reflexivity). cbn [words_for] in B.
    exists (mkc (Values (address_ M)) (2 + v)), e, h. destruct Ho as (Ho1 & Ho2).
    assert (T0 : nth_error (cells M) (v + 1) = Some (IPointer (Z.of_nat (2 + v)))) by (rewrite Ht; reflexivity).
    assert (T1 : nth_error (cells M) (2 + v) = Some (ASet (Z.of_nat (length vs)))) by (replace (2 + v) with (v + 2) by lia; rewrite Ht; reflexivity).
    assert (Wu : fetch bound M (mkc (Values (address_ M)) (2 + v)) = Some (ASet (Z.of_nat (length vs)))) by (unfold fetch; cbn [inside at_]; rewrite Nat.eqb_refl; exact T1).
    destruct (set_word (Z.of_nat (length vs))) as (S1 & S2); [lia|].
    destruct (inner_word (2 + v)) as (I1 & I2); [lia|].
    split; [exact Le|]. split; [exact We|]. split; [exact Ho1|]. split; [exact Ho2|]. split.
    + apply Num. intros i. replace (2 + v + S i) with (v + S (S (S i))) by lia. rewrite Ht. reflexivity.
    + cbn [dimension]. split.
      * eapply Inside; [unfold fetch, child, e; cbn [inside at_]; rewrite Nat.eqb_refl; exact T0|exact I1|]. rewrite I2. cbn [inside child e].
        eapply Here; [exact Wu| | |]; rewrite S1; discriminate.
      * exists (ASet (Z.of_nat (length vs))). rewrite map_length. auto.
Qed.
End Read.
