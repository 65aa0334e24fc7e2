(** Lemmas for the operators on vectors (C155): expressions on two facts. *)
From Verif Require Import Base Float32 Float32_facts Float32_round Atom_model Atom_proofs Op_model Bp_model Bp_spec Bp_proofs Vec_model Vec_spec Vec_proofs Vec2_proofs Vec3_proofs Vec4_proofs Vec5_proofs.
Local Open Scope nat_scope.

Lemma nth_words (m : Bp_model.mem) b n i : i < n -> nth_error (words m b n) i = Some (m (b + i)).
Proof. intros H. unfold words. rewrite nth_error_map. rewrite (nth_error_nth' (seq b n) 0) by (rewrite seq_length; lia). rewrite seq_nth by lia. reflexivity. Qed.
Lemma words_count (m : Bp_model.mem) b n : length (words m b n) = n.
Proof. unfold words. rewrite map_length, seq_length. reflexivity. Qed.
Lemma shown_leaves ok okr m l ws : Forall2 (shows ok okr m) l (map Leaf ws) -> l = ws.
Proof.
  revert l. induction ws as [|w ws IH]; intros l F; inversion F as [|a t l' ts A B E1 E2]; subst; [reflexivity|]. inversion A; subst. f_equal. apply IH, B.
Qed.

Section Trees.
Context (vec3 vec2 vec quat : Z).
Notation vector_tree := (vector_tree vec3 vec2 vec quat).

Lemma tree_simple k t xs : vector_tree k t xs -> tame t /\ height t <= 2.
Proof.
  assert (T : forall ws, fold_right (fun t P => tame t /\ P) True (map Leaf ws)) by (induction ws; cbn; auto).
  assert (Hh : forall ws, list_max (map height (map Leaf ws)) = 0) by (induction ws as [|w ws IH]; cbn in *; [reflexivity|exact IH]).
  intros (h & ws & _ & _ & _ & _ & D). destruct (dimension k).
  - destruct D as (-> & _). cbn [tame height]. rewrite Hh. split; [apply T|lia].
  - destruct D as (u & _ & ->). cbn [tame height fold_right map list_max]. rewrite Hh. split; [split; [apply T|exact I]|cbn; lia].
Qed.

Lemma tree_vector bound M e lo hi k t xs w j : (forall i, 0 < i -> code_ M i = Some (e i)) ->
  vector_tree k t xs -> shows (within lo hi) (within lo hi) e w t -> getDescriptor w = I_PTR -> 0 < lo -> 0 < j -> e j = w ->
  exists d, vector_at bound vec3 vec2 vec quat M 1 (mkc Code j) k xs d /\ inside d = Code.
Proof.
  intros C (h & ws & Dh & Oh & Fw & Ex & D) Sh Dw Lo J Ej.
  assert (Num : forall b, 0 < b -> (forall i x, nth_error ws i = Some x -> e (b + S i) = x) -> numbers_at bound M 1 (mkc Code b) xs).
  { intros b B H i x E. rewrite Ex, nth_error_map in E. destruct (nth_error ws i) as [v|] eqn:V; [|discriminate]. cbn in E. injection E as <-.
    exists (mkc Code (b + S i)), v. assert (W : fetch bound M (mkc Code (b + S i)) = Some v) by (unfold fetch; cbn [inside at_]; rewrite C by lia; rewrite (H _ _ V); reflexivity).
    assert (Fv : isFloat v = true) by (rewrite Forall_forall in Fw; apply Fw; eapply nth_error_In, V). pose proof (float_desc _ Fv) as Dv.
    repeat split; auto. eapply Here; [exact W|unfold I_PTR; lia|unfold VL_PTR; lia|unfold VALUE_PTR; lia]. }
  assert (Leaves : forall b u, 0 < b -> Forall2 (shows (within lo hi) (within lo hi) e) (words e (b + 1) (count u)) (map Leaf ws) -> count u = length ws /\ numbers_at bound M 1 (mkc Code b) xs).
  { intros b u B F2. apply shown_leaves in F2. split; [rewrite <- F2, words_count; reflexivity|]. apply Num; [exact B|]. intros i x E.
    assert (Li : i < count u) by (rewrite <- (words_count e (b + 1) (count u)), F2; apply nth_error_Some; congruence).
    rewrite <- F2, nth_words in E by exact Li. injection E as <-. f_equal. lia. }
  assert (Step : forall j' w' P, 0 < j' -> e j' = w' -> getDescriptor w' = I_PTR -> 0 < place w' -> getDescriptor (e (place w')) = P -> P <> I_PTR -> P <> VL_PTR -> P <> VALUE_PTR ->
    leads bound M 1 (mkc Code j') (mkc Code (place w')) /\ fetch bound M (mkc Code (place w')) = Some (e (place w'))).
  { intros j' w' P A B I0 D0 E0 N1 N2 N3. assert (W : fetch bound M (mkc Code (place w')) = Some (e (place w'))) by (unfold fetch; cbn [inside at_]; apply C; exact D0).
    split; [|exact W]. eapply Inside; [unfold fetch; cbn [inside at_]; rewrite C by exact A; rewrite B; reflexivity|exact I0|]. eapply Here; [exact W|congruence..]. }
  destruct (dimension k) as [n|] eqn:Dk.
  - destruct D as (-> & Ln). inversion Sh as [| |? ? D0 O0 R0 N0 K0 F2 E1 E2]; subst h.
    assert (P0 : 0 < place w) by (unfold within in O0; lia).
    destruct (Step j w OBJECT J Ej Dw P0 Dh) as (S1 & S2); [discriminate..|]. destruct (Leaves _ _ P0 F2) as (_ & Nu).
    exists (mkc Code (place w)). split; [|reflexivity]. exists (mkc Code (place w)), (e (place w)). rewrite Dk. repeat split; auto. subst xs. rewrite map_length. exact Ln.
  - destruct D as (u & Du & ->). inversion Sh as [| |? ? D0 O0 R0 N0 K0 F2 E1 E2]; subst h.
    assert (P0 : 0 < place w) by (unfold within in O0; lia).
    destruct (Step j w OBJECT J Ej Dw P0 Dh) as (S1 & S2); [discriminate..|].
    inversion F2 as [|w2 t2 l2 ts2 Sh2 F3 E3 E4]; subst. inversion F3; subst.
    destruct (count (e (place (e j)))) as [|[|cn]] eqn:Cn; try discriminate. cbn in E3. injection E3 as E3. 
    inversion Sh2 as [| |? ? D3 O3 R3 N3 K3 F4 E5 E6]; subst u.
    assert (P3 : 0 < place w2) by (unfold within in O3; lia).
    destruct (Step (place (e j) + 1) w2 SET ltac:(lia) (eq_sym E3) D3 P3 Du) as (S3 & S4); [discriminate..|]. destruct (Leaves _ _ P3 F4) as (Cu & Nu).
    exists (mkc Code (place w2)). split; [|reflexivity]. exists (mkc Code (place (e j))), (e (place (e j))). rewrite Dk.
    split; [exact S1|]. split; [exact S2|]. split; [exact Dh|]. split; [exact Oh|]. split; [exact Nu|]. split; [exact S3|].
    exists (e (place w2)). split; [exact S4|]. split; [exact Du|]. rewrite map_length, <- Cu. unfold count.
    assert (G' : getAtomCount (e (place w2)) = Z.land (e (place w2)) (Z.ones 8)) by (unfold getAtomCount; rewrite Du; reflexivity). rewrite G', Z.land_ones by lia.
    pose proof (Z.mod_pos_bound (e (place w2)) (2 ^ 8) ltac:(lia)). lia.
Qed.
End Trees.

Section Lists.
Context (vec3 vec2 vec quat : Z) (bound : nat -> nat -> option Z).
Lemma list_reads k vs : opcodes vec3 vec2 vec quat -> Forall is_u32 vs -> length vs < 256 ->
  match dimension k with Some n => length vs = n | None => True end ->
  exists d, vector_at bound vec3 vec2 vec quat (list_memory (head_of vec3 vec2 vec quat k (length vs) :: tail_of k 0 vs)) 1 (mkc Code 0) k (map stored vs) d.
Proof.
  intros O U N K. set (h := head_of vec3 vec2 vec quat k (length vs)). set (t := tail_of k 0 vs). set (M := list_memory (h :: t)).
  assert (Ho : getDescriptor h = OBJECT /\ asOpcode h = opcode vec3 vec2 vec quat k) by (apply object_word; [apply O|destruct k; cbn in *; lia]). destruct Ho as (Ho1 & Ho2).
  assert (W0 : fetch bound M (mkc Code 0) = Some h) by reflexivity.
  assert (L0 : leads bound M 1 (mkc Code 0) (mkc Code 0)) by (eapply Here; [exact W0| | |]; rewrite Ho1; discriminate).
  assert (Num : forall b, (forall i, nth_error (h :: t) (b + S i) = nth_error (map Float vs) i) -> numbers_at bound M 1 (mkc Code b) (map stored vs)).
  { intros b Hb i x E. rewrite nth_error_map in E. destruct (nth_error vs i) as [y|] eqn:Y; [|discriminate]. cbn in E. injection E as <-.
    assert (Uy : is_u32 y) by (rewrite Forall_forall in U; apply U; eapply nth_error_In, Y). destruct (float_stored y Uy) as (F1 & F2). pose proof (float_desc _ F1) as Dv.
    assert (W : fetch bound M (mkc Code (b + S i)) = Some (Float y)) by (unfold fetch, M; cbn [inside at_ list_memory code_]; rewrite Hb, nth_error_map, Y; reflexivity).
    exists (mkc Code (b + S i)), (Float y). repeat split; auto. eapply Here; [exact W|unfold I_PTR; lia|unfold VL_PTR; lia|unfold VALUE_PTR; lia]. }
  destruct (dimension k) as [n|] eqn:Dk.
  - exists (mkc Code 0), (mkc Code 0), h. rewrite Dk, map_length. repeat split; auto. apply Num. intros i. destruct k; try discriminate; reflexivity.
  - assert (k = Any) as -> by (destruct k; try discriminate; reflexivity). exists (mkc Code 2), (mkc Code 0), h. rewrite Dk.
    destruct (set_word (Z.of_nat (length vs))) as (S1 & S2); [lia|].
    assert (W2 : fetch bound M (mkc Code 2) = Some (ASet (Z.of_nat (length vs)))) by reflexivity.
    repeat (split; [assumption|]). split; [apply Num; intros i; reflexivity|]. split.
    + eapply Inside; [reflexivity|reflexivity|]. eapply Here; [exact W2| | |]; rewrite S1; discriminate.
    + exists (ASet (Z.of_nat (length vs))). rewrite map_length. auto.
Qed.
End Lists.

Section Expr.
Context (grown : nat -> nat) (vec3 vec2 vec quat : Z) (fuel : nat).
Context (root : Z -> Z) (product quotient : list Z -> list Z -> list Z) (angle : list Z -> list Z -> Z).
Notation vector_tree := (vector_tree vec3 vec2 vec quat).

Lemma build_both q0 q1 v0 v1 t0 t1 op k0 k1 xs ys : 2 <= fuel ->
  shows anywhere anywhere q0 v0 t0 -> shows anywhere anywhere q1 v1 t1 -> getDescriptor v0 = I_PTR -> getDescriptor v1 = I_PTR ->
  vector_tree k0 t0 xs -> vector_tree k1 t1 ys -> 3 + tsize t1 + tsize t0 <= limit ->
  exists e, build_expression fuel op q0 q1 v0 v1 = Some e /\ e 1 = ptr 3 /\ e 2 = ptr (3 + tsize t1) /\
    shows (within 3 (3 + tsize t1)) (within 3 (3 + tsize t1)) e (ptr 3) t1 /\
    shows (within (3 + tsize t1) (3 + tsize t1 + tsize t0)) (within (3 + tsize t1) (3 + tsize t1 + tsize t0)) e (ptr (3 + tsize t1)) t0.
Proof.
  intros F S0 S1 D0 D1 T0 T1 B. destruct (tree_simple _ _ _ _ _ _ _ T0) as (Tm0 & H0). destruct (tree_simple _ _ _ _ _ _ _ T1) as (Tm1 & H1).
  unfold build_expression. rewrite D0, D1, Z.eqb_refl.
  destruct (copy_tree t1 fuel q1 (write (write (fun _ => UndefinedAtom) 0 op) 1 (ptr 3)) 3 v1 S1 D1 Tm1) as (e1 & C1 & Sh1 & Fr1); [lia|lia|]. rewrite C1.
  destruct (copy_tree t0 fuel q0 (write e1 2 (ptr (3 + tsize t1))) (3 + tsize t1) v0 S0 D0 Tm0) as (e2 & C2 & Sh2 & Fr2); [lia|lia|]. rewrite C2.
  exists e2. split; [reflexivity|]. split; [rewrite Fr2 by lia; unfold write at 1; cbn; rewrite Fr1 by lia; reflexivity|]. split; [rewrite Fr2 by lia; reflexivity|].
  split; [|exact Sh2]. assert (Ag : forall i, within 3 (3 + tsize t1) i -> e1 i = e2 i).
  { unfold within. intros i Hi. rewrite Fr2 by lia. unfold write. replace (i =? 2) with false by (symmetry; apply Nat.eqb_neq; lia). reflexivity. }
  apply (shows_agree _ _ e1); auto.
Qed.

Lemma expression_partial o f op q0 q1 v0 v1 t0 t1 k xs ys : opcodes vec3 vec2 vec quat -> plus_or_minus o = Some f -> k <> Quaternion -> 2 <= fuel ->
  shows anywhere anywhere q0 v0 t0 -> shows anywhere anywhere q1 v1 t1 -> getDescriptor v0 = I_PTR -> getDescriptor v1 = I_PTR ->
  vector_tree k t1 xs -> vector_tree k t0 ys -> length xs = length ys -> 3 + tsize t1 + tsize t0 <= limit ->
  exists l d, build_and_evaluate grown vec3 vec2 vec quat fuel root product quotient angle o op q0 q1 v0 v1 = Some l /\
    vector_at (fun _ _ => None) vec3 vec2 vec quat (list_memory (found_result l)) 1 (mkc Code 0) k (both f xs ys) d.
Proof.
  intros O P KQ F S0 S1 D0 D1 T1 T0 L B. destruct (build_both q0 q1 v0 v1 t0 t1 op k k ys xs F S0 S1 D0 D1 T0 T1 B) as (e & Be & E1 & E2 & Sh1 & Sh0).
  unfold build_and_evaluate. assert (NF : isFloat v0 = false).
  { destruct (isFloat v0) eqn:X; [|reflexivity]. apply float_desc in X. rewrite D0 in X. unfold I_PTR in X. lia. }
  rewrite NF, Be. cbn [andb]. unfold evaluate_expression. set (s := mks (mkm (fun i => Some (e i)) [] 0 0) []).
  assert (C : forall i, 0 < i -> code_ (hide 0 (mem s)) i = Some (e i)) by (intros [|i] Hi; [lia|reflexivity]).
  assert (Pt : forall i, (Z.of_nat i < 4096)%Z -> getDescriptor (ptr i) = I_PTR) by (intros i Hi; apply inner_word, Hi).
  assert (Lm : limit = Z.to_nat 4096) by reflexivity.
  pose proof (tsize_pos _ _ _ _ _ S0 D0) as Ps.
  assert (A1 : getDescriptor (ptr 3) = I_PTR) by (apply Pt; lia). assert (A0 : getDescriptor (ptr (3 + tsize t1)) = I_PTR) by (apply Pt; lia).
  destruct (tree_vector vec3 vec2 vec quat (fun _ _ => None) (hide 0 (mem s)) e 3 (3 + tsize t1) k t1 xs (ptr 3) 1 C T1 Sh1 A1 ltac:(lia) ltac:(lia) E1) as (d1 & V1 & I1).
  destruct (tree_vector vec3 vec2 vec quat (fun _ _ => None) (hide 0 (mem s)) e (3 + tsize t1) (3 + tsize t1 + tsize t0) k t0 ys (ptr (3 + tsize t1)) 2 C T0 Sh0 A0 ltac:(lia) ltac:(lia) E2) as (d0 & V0 & I0).
  assert (Sd : forall n d, inside d = Code -> settled n (mem s) d) by (intros n d Id; unfold settled; rewrite Id; exact I).
  rewrite (op_sum grown (fun _ _ => None) true 0 vec3 vec2 vec quat fuel root product quotient angle o f k xs ys d1 d0 1 s O P KQ ltac:(lia) V1 V0 L (Sd _ _ I1) (Sd _ _ I0)).
  destruct (vector_dim _ _ _ _ _ _ _ _ _ _ _ V1) as (Dm1 & Dm2).
  destruct (list_reads vec3 vec2 vec quat (fun _ _ => None) k (pairs f xs ys) O) as (d & V).
  - apply pairs_u32; [eapply oper_u32, P|eapply vector_u32, V1|eapply vector_u32, V0].
  - rewrite pairs_length by exact L. exact Dm1.
  - rewrite pairs_length by exact L. exact Dm2.
  - eexists _, d. split; [reflexivity|]. unfold written. rewrite set_head_eq, add_parts_eq. cbn [fst results set_atomic keep app found_result mem patch s cells length]. 
    rewrite both_eq. fold (pairs f xs ys). change (Nil =? Nil)%Z with true. cbn iota.
    assert (Hn : (head_of vec3 vec2 vec quat k (length (pairs f xs ys)) =? Nil)%Z = false).
    { apply Z.eqb_neq. intros X. destruct (object_word (opcode vec3 vec2 vec quat k) (match k with Any => 1%Z | _ => Z.of_nat (length (pairs f xs ys)) end)) as (Y & _); [apply O|rewrite pairs_length by exact L; destruct k; lia|].
      unfold head_of in X. rewrite X in Y. discriminate Y. }
    rewrite Hn. exact V.
Qed.

(** Numbers. *)
Lemma expression_numbers o op q0 q1 v0 v1 : isFloat v0 = true -> isFloat v1 = true -> v0 <> PlusInfinity -> v1 <> PlusInfinity ->
  (o = Over -> feqb (num v0) fzero = false) -> o <> Distance ->
  exists a, build_and_evaluate grown vec3 vec2 vec quat fuel root product quotient angle o op q0 q1 v0 v1 = Some [a] /\ std_of o [v1] [v0] = Some (true, Atomic a).
Proof.
  intros F0 F1 N0 N1 Z0 ND. apply Z.eqb_neq in N0, N1. unfold build_and_evaluate. rewrite F0, F1. cbn [andb].
  destruct o; [| | | |congruence]; eexists; [..|rewrite (Z0 eq_refl)]; (split; [reflexivity|]); unfold std_of, add, sub, mul, div, heads; rewrite F0, F1, ?N0, ?N1, ?(Z0 eq_refl); reflexivity.
Qed.
End Expr.
