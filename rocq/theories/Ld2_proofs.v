(** Times at the start: proofs. *)
From Verif Require Import Base Atom_model Utils_model Utils_proofs Ld_model Ld_spec Ld_proofs.
Local Open Scope nat_scope.

Lemma chain c r : Unshared c r -> forall a b t, Reach c r a -> Reach c r b -> Reach c a t -> Reach c b t -> Reach c a b \/ Reach c b a.
Proof.
  intros (HU & _) a b t Ra Rb H. revert Rb. revert b.
  assert (G : forall t, Reach c a t -> forall b, Reach c r b -> Reach c b t -> Reach c a b \/ Reach c b a).
  { clear t H. assert (SN : forall P : nat -> Prop, P a -> (forall p q, Reach c a p -> P p -> Step c p q -> P q) -> forall t, Reach c a t -> P t).
    { intros P H0 HS t H. assert (K : forall x t, Reach c x t -> Reach c a x -> P x -> P t).
      { clear t H. intros x t H. induction H as [x|x y z S _ IH]; intros Rx Px; [exact Px|]. apply IH; [exact (reach_trans _ _ _ _ Rx (reach_one _ _ _ S))|exact (HS x y Rx Px S)]. }
      exact (K a t H (reach_here _ _) H0). }
    apply (SN (fun t => forall b, Reach c r b -> Reach c b t -> Reach c a b \/ Reach c b a)).
    - intros b _ H. right. exact H.
    - intros p q Rp IH St b Rb H. apply reach_last in H. destruct H as [->|(p' & Rp' & St')].
      + left. exact (reach_trans _ _ _ _ Rp (reach_one _ _ _ St)).
      + assert (p' = p) as -> by (apply (HU p' p q); [exact (reach_trans _ _ _ _ Rb Rp')|exact (reach_trans _ _ _ _ Ra Rp)|exact St'|exact St]).
        exact (IH b Rb Rp'). }
  intros b Rb Hb. exact (G t H b Rb Hb).
Qed.
Lemma no_circle c i j : Ends c -> Step c i j -> ~ Reach c j i.
Proof.
  intros (rank & Hr) St H. assert (Q : forall x y, Reach c x y -> rank y <= rank x).
  { intros x y R. induction R as [|x y z S _ IH]; [lia|]. specialize (Hr _ _ S). lia. }
  specialize (Q _ _ H). specialize (Hr _ _ St). lia.
Qed.
Lemma siblings c r i a b t : Ends c -> Unshared c r -> Reach c r i -> Step c i a -> Step c i b -> a <> b -> Reach c a t -> ~ Reach c b t.
Proof.
  intros HE HU Ri Sa Sb N Ra Rb.
  assert (Q : forall a b, Step c i a -> Step c i b -> a <> b -> ~ Reach c a b).
  { clear - HE HU Ri. intros a b Sa Sb N R. apply reach_last in R. destruct R as [->|(p & Rp & Sp)]; [congruence|].
    assert (Ra : Reach c r a) by exact (reach_trans _ _ _ _ Ri (reach_one _ _ _ Sa)).
    assert (p = i) as -> by (apply (proj1 HU p i b); [exact (reach_trans _ _ _ _ Ra Rp)|exact Ri|exact Sp|exact Sb]). exact (no_circle _ _ _ HE Sa Rp). }
  destruct (chain c r HU a b t (reach_trans _ _ _ _ Ri (reach_one _ _ _ Sa)) (reach_trans _ _ _ _ Ri (reach_one _ _ _ Sb)) Ra Rb) as [H|H].
  - exact (Q _ _ Sa Sb N H).
  - exact (Q _ _ Sb Sa (fun E => N (eq_sym E)) H).
Qed.

Section Code.
Variable (c : code) (r : nat) (ref : Z).
Hypothesis HE : Ends c.
Hypothesis HW : Within c r.
Hypothesis HU : Unshared c r.
Hypothesis HT : TimesApart c r.
Hypothesis HF : Free (ASSIGN_PTR :: others) c r.
Hypothesis Href : (0 <= ref <= max_time)%Z.

Definition T (t : nat) : Prop := Reach c r t /\ kind c t TIMESTAMP.
Definition word_of (t j : nat) : Prop := j = S t \/ j = S (S t).
Definition Agree (d : code) : Prop := length d = length c /\ forall j, (forall t, T t -> ~ word_of t j) -> nth_error d j = nth_error c j.
(** [P]: the words that were looked at; [d] before, [e] after. *)
Definition Post (d e : code) (P : nat -> Prop) : Prop :=
  length e = length d /\
  (forall t, T t -> P t -> exists v, time_at d t = Some v /\ time_at e t = Some (later ref v)) /\
  (forall j, (forall t, T t -> P t -> ~ word_of t j) -> nth_error e j = nth_error d j).

Lemma word_not_reached t j : T t -> word_of t j -> ~ Reach c r j.
Proof.
  intros (Rt & Kt) [->| ->]; destruct (HT t Rt Kt) as (_ & _ & H1 & H2); [rewrite Nat.add_1_r in H1; exact H1|].
  assert (E : t + 2 = S (S t)) by lia. rewrite E in H2. exact H2.
Qed.
Lemma agree_reached d i : Agree d -> Reach c r i -> nth_error d i = nth_error c i.
Proof. intros (_ & H) R. apply H. intros t Ht W. exact (word_not_reached t i Ht W R). Qed.
Lemma words_apart t t' j : T t -> T t' -> word_of t j -> word_of t' j -> t = t'.
Proof.
  intros Ht Ht' W W'. destruct W as [->| ->], W' as [E|E]; try congruence.
  - exfalso. apply (word_not_reached t' t Ht'); [left; congruence|exact (proj1 Ht)].
  - exfalso. apply (word_not_reached t t' Ht); [left; congruence|exact (proj1 Ht')].
Qed.
Lemma time_frame d e t : nth_error e (S t) = nth_error d (S t) -> nth_error e (S (S t)) = nth_error d (S (S t)) -> time_at e t = time_at d t.
Proof. intros H1 H2. unfold time_at, GetInt64, get. rewrite H1, H2. reflexivity. Qed.
Lemma post_keeps d e P t : Post d e P -> T t -> ~ P t -> time_at e t = time_at d t.
Proof.
  intros (_ & _ & H) Ht N. apply time_frame; apply H; intros t' Ht' Hp' W; apply N.
  - rewrite (words_apart t t' (S t) Ht Ht' (or_introl eq_refl) W). exact Hp'.
  - rewrite (words_apart t t' (S (S t)) Ht Ht' (or_intror eq_refl) W). exact Hp'.
Qed.
Lemma post_nothing d P : (forall t, T t -> ~ P t) -> Post d d P.
Proof. intros H. split; [reflexivity|]. split; [intros t Ht Hp; destruct (H t Ht Hp)|reflexivity]. Qed.
Lemma post_more d e P Q : Post d e P -> (forall t, T t -> (P t <-> Q t)) -> Post d e Q.
Proof.
  intros (H1 & H2 & H3) E. split; [exact H1|]. split; [intros t Ht Hq; apply H2; [exact Ht|apply E; assumption]|].
  intros j Hj. apply H3. intros t Ht Hp. apply Hj; [exact Ht|apply E; assumption].
Qed.
Lemma post_both d e g P Q : Post d e P -> Post e g Q -> (forall t, T t -> P t -> ~ Q t) -> Post d g (fun t => P t \/ Q t).
Proof.
  intros HP HQ HD. split; [rewrite (proj1 HQ); exact (proj1 HP)|]. split.
  - intros t Ht [Hp|Hq].
    + destruct (proj1 (proj2 HP) t Ht Hp) as (v & V1 & V2). exists v. split; [exact V1|]. rewrite (post_keeps _ _ _ t HQ Ht (HD t Ht Hp)). exact V2.
    + destruct (proj1 (proj2 HQ) t Ht Hq) as (v & V1 & V2). exists v. split; [|exact V2]. rewrite <- V1. symmetry. apply (post_keeps _ _ _ t HP Ht).
      intros Hp. exact (HD t Ht Hp Hq).
  - intros j Hj. transitivity (nth_error e j); [apply HQ|apply HP]; intros t Ht Hp; apply Hj; auto.
Qed.
Lemma post_agree d e P : Agree d -> Post d e P -> Agree e.
Proof.
  intros (A1 & A2) (H1 & _ & H3). split; [congruence|]. intros j Hj. rewrite H3; [exact (A2 j Hj)|]. intros t Ht _. exact (Hj t Ht).
Qed.

Lemma get_total d j : S j < length d -> exists v, GetInt64 d j = Some v.
Proof.
  intros H. unfold GetInt64, get. destruct (nth_error d j) eqn:E1; [|apply nth_error_None in E1; lia]. destruct (nth_error d (S j)) eqn:E2; [|apply nth_error_None in E2; lia].
  eexists. reflexivity.
Qed.
Lemma get_i64 d j v : GetInt64 d j = Some v -> is_i64 v.
Proof.
  unfold GetInt64. destruct (get d j); [|discriminate]. destruct (get d (S j)); [|discriminate]. intros E. injection E as <-. unfold is_i64, i64. lia.
Qed.
Lemma shift_ok d t : Agree d -> T t -> exists e, shift ref d t = Ok e /\ Post d e (fun x => x = t).
Proof.
  intros HA Ht. destruct Ht as (Rt & Kt). destruct (HT t Rt Kt) as (Hh & Hl & _ & _). unfold shift.
  destruct (get_total d (S t)) as (v & Ev); [rewrite (proj1 HA); lia|]. rewrite Ev.
  assert (Hd : nth_error d t = Some ATimestamp) by (rewrite (agree_reached d t HA Rt); exact Hh).
  destruct (upd d t ATimestamp) as [d1|] eqn:E1; [|exfalso; destruct (upd_some d t ATimestamp) as (x & Ex); [rewrite (proj1 HA); lia|congruence]].
  assert (D1 : forall j, nth_error d1 j = nth_error d j).
  { intros j. destruct (Nat.eq_dec j t) as [->|N]; [rewrite Hd; exact (upd_same _ _ _ _ E1)|exact (upd_other _ _ _ _ _ E1 (fun E => N (eq_sym E)))]. }
  assert (L1 := upd_length _ _ _ _ E1). set (w := if (max_time - ref <=? v)%Z then max_time else (v + ref)%Z).
  destruct (set_int64_total d1 (S t) w) as (e & Ee); [rewrite L1, (proj1 HA); lia|]. rewrite Ee. exists e. split; [reflexivity|].
  assert (Iv := get_i64 _ _ _ Ev). assert (Iw : is_i64 w /\ w = later ref v).
  { unfold w, later, max_time in *. unfold is_i64 in *. destruct (Z.leb_spec (9223372036854775807 - ref) v); split; lia. }
  split; [rewrite (set_int64_length _ _ _ _ Ee); exact L1|]. split.
  - intros x _ ->. exists v. split; [exact Ev|]. unfold time_at. rewrite (get_set_int64 _ _ _ _ (proj1 Iw) Ee). f_equal. exact (proj2 Iw).
  - intros j Hj. specialize (Hj t (conj Rt Kt) eq_refl). rewrite (set_int64_frame _ _ _ _ j Ee); [exact (D1 j)| |]; intros ->; apply Hj; [left|right]; reflexivity.
Qed.

Lemma update_step fuel d i : update_timestamps (S fuel) ref d i = match nth_error d i with
  | None => Bad
  | Some a => if (getDescriptor a =? TIMESTAMP)%Z then shift ref d i
      else if (getDescriptor a =? I_PTR)%Z then update_timestamps fuel ref d (Z.to_nat (asIndex a))
      else if open_kind (getDescriptor a) then update_members fuel ref d (S i) (Z.to_nat (getAtomCount a)) else Ok d end.
Proof. reflexivity. Qed.
Lemma members_step fuel d i n : update_members (S fuel) ref d i n = match n with 0 => Ok d | S n => match update_timestamps fuel ref d i with Ok d => update_members fuel ref d (S i) n | r => r end end.
Proof. reflexivity. Qed.

Definition Done (i N : nat) : Prop := forall f d, N <= f -> Agree d -> exists e, update_timestamps f ref d i = Ok e /\ Post d e (Reach c i).
Lemma step_kind i k a : nth_error c i = Some a -> Step c i k -> getDescriptor a = I_PTR /\ k = Z.to_nat (asIndex a) \/ getDescriptor a = ASSIGN_PTR \/
  structure (getDescriptor a) /\ exists m, k = i + m /\ 1 <= m <= Z.to_nat (getAtomCount a).
Proof.
  intros E St. inversion St as [b Hb Db|b Hb Db|b m Hb Db Hm]; subst; rewrite E in Hb; injection Hb as <-.
  - left. split; [exact Db|reflexivity].
  - right. left. exact Db.
  - right. right. split; [exact Db|]. exists m. split; [reflexivity|exact Hm].
Qed.
Lemma not_structure d : In d [TIMESTAMP; I_PTR] -> ~ structure d.
Proof. intros [<-|[<-|[]]] H; unfold structure in H; cbn in H; repeat (destruct H as [H|H]; [discriminate|]); destruct H. Qed.
Lemma done i : Reach c r i -> exists N, Done i N.
Proof.
  destruct HE as (rank & Hr). assert (Q : forall n i, rank i < n -> Reach c r i -> exists N, Done i N); [|intros H; exact (Q (S (rank i)) i ltac:(lia) H)].
  clear i. induction n as [|n IH]; intros i Hi Ri; [lia|].
  assert (E := HW i Ri). destruct (nth_error c i) as [a|] eqn:Ea; [|apply nth_error_None in Ea; lia]. clear E.
  assert (NF : forall d, getDescriptor a = d -> ~ In d (ASSIGN_PTR :: others)). { intros d Hd. apply (HF i); [exact Ri|exists a; split; assumption]. }
  assert (IHS : forall k, Step c i k -> exists N, Done k N).
  { intros k St. apply IH; [specialize (Hr _ _ St); lia|exact (reach_trans _ _ _ _ Ri (reach_one _ _ _ St))]. }
  destruct (Z.eqb_spec (getDescriptor a) TIMESTAMP) as [E1|N1].
  { exists 1. intros [|f] d Hf HA; [lia|]. rewrite update_step, (agree_reached d i HA Ri), Ea, E1. change (TIMESTAMP =? TIMESTAMP)%Z with true. cbn beta iota.
    assert (Ti : T i) by (split; [exact Ri|exists a; split; assumption]). destruct (shift_ok d i HA Ti) as (e & H1 & H2). exists e. split; [exact H1|].
    apply (post_more _ _ _ _ H2). intros t Ht. split; [intros ->; constructor|]. intros R. apply reach_case in R. destruct R as [->|(k & St & _)]; [reflexivity|].
    destruct (step_kind i k a Ea St) as [(D & _)|[D|(D & _)]]; [rewrite E1 in D; discriminate|rewrite E1 in D; discriminate|].
    destruct (not_structure (getDescriptor a)); [rewrite E1; left; reflexivity|exact D]. }
  assert (NT : ~ kind c i TIMESTAMP). { intros (b & Hb & Db). congruence. }
  destruct (Z.eqb_spec (getDescriptor a) I_PTR) as [E2|N2].
  { destruct (IHS _ (step_pointer c i a Ea E2)) as (N & H). exists (S N). intros [|f] d Hf HA; [lia|]. rewrite update_step, (agree_reached d i HA Ri), Ea, E2.
    change (I_PTR =? TIMESTAMP)%Z with false. change (I_PTR =? I_PTR)%Z with true. cbn beta iota.
    destruct (H f d ltac:(lia) HA) as (e & H1 & H2). exists e. split; [exact H1|]. apply (post_more _ _ _ _ H2). intros t (_ & Kt). split.
    - intros R. exact (reach_step _ _ _ _ (step_pointer c i a Ea E2) R).
    - intros R. apply reach_case in R. destruct R as [->|(k & St & R)]; [contradiction|].
      destruct (step_kind i k a Ea St) as [(_ & ->)|[D|(D & _)]]; [exact R|rewrite E2 in D; discriminate|].
      destruct (not_structure (getDescriptor a)); [rewrite E2; right; left; reflexivity|exact D]. }
  destruct (open_kind (getDescriptor a)) eqn:O.
  - assert (SM : forall j, S i <= j -> j < S i + Z.to_nat (getAtomCount a) -> Step c i j).
    { intros j H1 H2. assert (M : j = i + (j - i)) by lia. rewrite M. apply (step_member c i a (j - i) Ea (open_kind_structure _ O)). lia. }
    assert (L : forall m j, j + m = S i + Z.to_nat (getAtomCount a) -> S i <= j ->
      exists N, forall f d, N <= f -> Agree d -> exists e, update_members f ref d j m = Ok e /\ Post d e (fun t => exists k, j <= k < j + m /\ Reach c k t)).
    { induction m as [|m IHm]; intros j Hj Hj'.
      - exists 1. intros [|f] d Hf HA; [lia|]. exists d. split; [reflexivity|]. apply post_nothing. intros t _ (k & Hk & _). lia.
      - destruct (IHS j (SM j ltac:(lia) ltac:(lia))) as (N & H). destruct (IHm (S j) ltac:(lia) ltac:(lia)) as (N' & H'). exists (S (max N N')).
        intros [|f] d Hf HA; [lia|]. destruct (H f d ltac:(lia) HA) as (e & H1 & H2). destruct (H' f e ltac:(lia) (post_agree _ _ _ HA H2)) as (g & H3 & H4).
        exists g. split; [rewrite members_step, H1; exact H3|]. refine (post_more _ _ _ _ (post_both _ _ _ _ _ H2 H4 _) _).
        + intros t _ R (k & Hk & R'). assert (SJ := SM j ltac:(lia) ltac:(lia)). assert (SK := SM k ltac:(lia) ltac:(lia)).
          exact (siblings c r i j k t (ex_intro _ rank Hr) HU Ri SJ SK ltac:(lia) R R').
        + intros t _. split.
          * intros [R|(k & Hk & R)]; [exists j; split; [lia|exact R]|exists k; split; [lia|exact R]].
          * intros (k & Hk & R). destruct (Nat.eq_dec k j) as [->|]; [left; exact R|right; exists k; split; [lia|exact R]]. }
    destruct (L (Z.to_nat (getAtomCount a)) (S i)) as (N & H); [lia|lia|]. exists (S N). intros [|f] d Hf HA; [lia|].
    rewrite update_step, (agree_reached d i HA Ri), Ea, (proj2 (Z.eqb_neq _ _) N1), (proj2 (Z.eqb_neq _ _) N2), O.
    destruct (H f d ltac:(lia) HA) as (e & H1 & H2). exists e. split; [exact H1|]. apply (post_more _ _ _ _ H2). intros t (_ & Kt). split.
    + intros (k & Hk & R). exact (reach_step _ _ _ _ (SM k ltac:(lia) ltac:(lia)) R).
    + intros R. apply reach_case in R. destruct R as [->|(k & St & R)]; [contradiction|].
      destruct (step_kind i k a Ea St) as [(D & _)|[D|(_ & m & -> & Hm)]]; [congruence|destruct (NF _ D); left; reflexivity|]. exists (i + m). split; [lia|exact R].
  - exists 1. intros [|f] d Hf HA; [lia|]. rewrite update_step, (agree_reached d i HA Ri), Ea, (proj2 (Z.eqb_neq _ _) N1), (proj2 (Z.eqb_neq _ _) N2), O.
    exists d. split; [reflexivity|]. apply post_nothing. intros t (_ & Kt) R. apply reach_case in R. destruct R as [->|(k & St & R)]; [contradiction|].
    destruct (step_kind i k a Ea St) as [(D & _)|[D|(D & _)]]; [congruence|destruct (NF _ D); left; reflexivity|].
    rewrite (structure_open _ D) in O; [discriminate|]. intros Q. apply (NF _ eq_refl). right. exact Q.
Qed.
End Code.

Lemma times_shifted c ref : Ends c -> Within c 0 -> Unshared c 0 -> TimesApart c 0 -> Free (ASSIGN_PTR :: others) c 0 -> (0 <= ref <= max_time)%Z ->
  exists N, forall f, N <= f -> exists d, init_timestamps f ref c = Ok d /\ length d = length c /\
    (forall t, Reach c 0 t -> kind c t TIMESTAMP -> exists v, time_at c t = Some v /\ time_at d t = Some (later ref v)) /\
    (forall j, (forall t, Reach c 0 t -> kind c t TIMESTAMP -> j <> t + 1 /\ j <> t + 2) -> nth_error d j = nth_error c j).
Proof.
  intros HE HW HU HT HF Hr. destruct (done c 0 ref HE HW HU HT HF Hr 0 (reach_here _ _)) as (N & H). exists N. intros f Hf.
  destruct (H f c Hf) as (d & H1 & H2 & H3 & H4); [split; reflexivity|]. exists d. split; [exact H1|]. split; [exact H2|]. split.
  - intros t Rt Kt. exact (H3 t (conj Rt Kt) Rt).
  - intros j Hj. apply H4. intros t (Rt & Kt) _ [W|W]; destruct (Hj t Rt Kt); lia.
Qed.
