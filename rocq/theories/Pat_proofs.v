(** A match says whether the input conforms to the pattern. *)
From Verif Require Import Base Pat_model Pat_spec.
Local Open Scope nat_scope.

Section Match.
Context (w : world) (p : list word).

Definition plain (v : word) : Prop := match v with Leaf _ | Wild | Tail | Head _ _ => True | _ => False end.

Lemma lands_fun o i a b : Lands w o i a b -> forall c d, Lands w o i c d -> a = c /\ b = d.
Proof.
  induction 1 as [o i v Hv Hp|o i k o' i' Hk _ IH|o i r o' Hr Ho]; intros c d H'.
  - inversion H' as [? ? v' Hv' Hp'|? ? k' ? ? Hk' HL|? ? r' ? Hr' Ho']; subst; auto.
    + destruct Hk' as [E|E]; rewrite E in Hv; injection Hv as <-; destruct Hp.
    + rewrite Hr' in Hv; injection Hv as <-; destruct Hp.
  - inversion H' as [? ? v' Hv' Hp'|? ? k' ? ? Hk' HL|? ? r' ? Hr' Ho']; subst.
    + destruct Hk as [E|E]; rewrite E in Hv'; injection Hv' as <-; destruct Hp'.
    + apply IH. replace k with k'; [exact HL|]. destruct Hk as [E|E], Hk' as [E'|E']; rewrite E in E'; congruence.
    + destruct Hk as [E|E]; rewrite E in Hr'; discriminate.
  - inversion H' as [? ? v' Hv' Hp'|? ? k' ? ? Hk' HL|? ? r' ? Hr' Ho']; subst.
    + rewrite Hr in Hv'; injection Hv' as <-; destruct Hp'.
    + destruct Hk' as [E|E]; rewrite E in Hr; discriminate.
    + rewrite Hr in Hr'; injection Hr' as <-. rewrite Ho in Ho'. injection Ho' as <-. auto.
Qed.

(** In objects, the code of the program does not matter. *)
Lemma deref_lands fuel : forall o i d, dereference w fuel p (Ref o i) = Some d ->
  exists o' i', d = Ref o' i' /\ Lands w o i o' i'.
Proof.
  induction fuel as [|fuel IH]; intros o i d H; cbn -[word_of reference_of] in H; [discriminate|].
  destruct (word_of w o i) as [v|] eqn:Ev; [|discriminate].
  destruct v as [z| | |k|r|k|k|n k|q k|k n]; cbn -[word_of reference_of] in H;
    try (injection H as <-; exists o, i; split; [reflexivity|]; eapply L_here; [exact Ev|exact I]);
    try discriminate.
  - destruct (IH _ _ _ H) as (a & b & -> & HL). exists a, b. split; [reflexivity|]. eapply L_in; [left; exact Ev|exact HL].
  - destruct (reference_of w o r) as [o'|] eqn:Er; [|discriminate]. injection H as <-. exists o', 0. split; [reflexivity|].
    eapply L_ref; [exact Ev|exact Er].
  - destruct (word_of w o k) as [v|] eqn:Ek; [|discriminate].
    destruct v as [z| | |k'|r|k'|k'|n k'|q k'|k' n];
      try discriminate;
      try (destruct (IH _ _ _ H) as (a & b & -> & HL); exists a, b; split; [reflexivity|]; eapply L_in; [right; exact Ev|exact HL]).
    destruct (word_of w o k') as [v'|] eqn:Ek'; [|discriminate].
    destruct v' as [z| | |k''|r|k''|k''|n k''|q k''|k'' n];
      try (destruct (IH _ _ _ H) as (a & b & -> & HL); exists a, b; split; [reflexivity|]; eapply L_in; [right; exact Ev|exact HL]).
    injection H as <-. exists o, k'. split; [reflexivity|]. eapply L_in; [right; exact Ev|]. eapply L_in; [left; exact Ek|].
    eapply L_here; [exact Ek'|exact I].
Qed.

(** Where a pattern ends up. *)
Definition Head_of (t : tree) (d : cursor) : Prop :=
  match t with
  | TObj o t => d = Ref o 0 /\ Headed w o /\ Reads w p d t
  | _ => (forall o, d <> Ref o 0) /\ Reads w p d t /\ exists v, fetch w p d = Some v /\ plain v
  end.

Definition here (c : cursor) : Prop := forall o, c <> Ref o 0.
Lemma here_move c i : here c -> inner c i -> here (move c i).
Proof. intros H I0 o. destruct c as [k|o' k]; cbn in *; [discriminate|]. intros E. injection E as -> ->. contradiction. Qed.
Lemma here_child c j : here (child c (S j)).
Proof. intros o. destruct c; cbn; [discriminate|]. intros E. injection E as E E'. lia. Qed.

Lemma head_here c t v : here c -> Reads w p c t -> fetch w p c = Some v -> plain v -> Head_of t c.
Proof.
  intros Hc HR Hv Hp. destruct t as [|z|o t|k l]; cbn; eauto 6.
  inversion HR; subst; try congruence; match goal with E : fetch _ _ _ = _ |- _ => rewrite E in Hv; injection Hv as <-; destruct Hp end.
Qed.

Lemma deref_reads fuel : forall c t d, here c -> Reads w p c t -> dereference w fuel p c = Some d -> Head_of t d.
Proof.
  induction fuel as [|fuel IH]; intros c t d Hc HR H; [discriminate|].
  assert (HR' := HR).
  inversion HR as [c0 E|c0 E|c0 z E|c0 i t0 E Hi HR0|c0 r o t0 E Er Hh HR0|c0 i E Hi E'|k i t0 E Hi HR0|c0 k l E Hl]; subst;
    cbn [dereference] in H; rewrite E in H.
  - injection H as <-. eapply head_here; [exact Hc|exact HR'|exact E|exact I].
  - injection H as <-. eapply head_here; [exact Hc|exact HR'|exact E|exact I].
  - injection H as <-. eapply head_here; [exact Hc|exact HR'|exact E|exact I].
  - exact (IH _ _ _ (here_move _ _ Hc Hi) HR0 H).
  - rewrite Er in H. injection H as <-. split; [reflexivity|]. split; [exact Hh|exact HR0].
  - rewrite E' in H. destruct fuel as [|fuel]; [discriminate|]. cbn [dereference] in H. rewrite E' in H. injection H as <-.
    eapply head_here; [exact (here_move _ _ Hc Hi)|apply R_wild; exact E'|exact E'|exact I].
  - refine (IH _ _ _ _ HR0 H). intros o E0. injection E0 as _ E0. exact (Hi E0).
  - injection H as <-. eapply head_here; [exact Hc|exact HR'|exact E|exact I].
Qed.

Lemma members_true f n : forall j, members f j n = Some true -> forall x, j <= x < j + n -> f x = Some true.
Proof.
  induction n as [|n IH]; intros j H x Hx; [lia|]. cbn in H. destruct (f j) as [[|]|] eqn:Ej; try discriminate.
  destruct (Nat.eq_dec x j) as [->|N]; [exact Ej|]. apply (IH _ H). lia.
Qed.
Lemma members_false f n : forall j, members f j n = Some false -> exists x, j <= x < j + n /\ f x = Some false.
Proof.
  induction n as [|n IH]; intros j H; cbn in H; [discriminate|]. destruct (f j) as [[|]|] eqn:Ej; try discriminate.
  - destruct (IH _ H) as (x & Hx & Ex). exists x. split; [lia|exact Ex].
  - exists j. split; [lia|exact Ej].
Qed.

(** What a match with the pattern [t], that ended up at [d], says of what the input ended up at. *)
Definition Says (fuel : nat) : Prop := forall t d o i b, Head_of t d -> matches w fuel p d (Ref o i) = Some b -> (b = true <-> Fits w o i t).

(** A pattern that is not an object. *)
Lemma says_here fuel t d o i b :
  (forall f, f < S fuel -> Says f) ->
  match t with TObj _ _ => False | _ => True end ->
  Reads w p d t -> (forall o', d = Ref o' 0 -> i <> 0) ->
  (exists v, fetch w p d = Some v /\ plain v) ->
  matches w (S fuel) p d (Ref o i) = Some b -> (b = true <-> Fits w o i t).
Proof.
  intros IH Ht HR Hd (v & Ev & Hp) H.
  assert (H1 : match fetch w p d, fetch w p (Ref o i) with
          | Some (Head k n), Some v =>
              if negb (count v =? n) then Some false
              else match v with
                   | Head k' _ =>
                       if (k =? k')%Z
                       then members (fun j => both (dereference w fuel p (child d j)) (dereference w fuel p (child (Ref o i) j)) (matches w fuel p)) 1 n
                       else Some false
                   | _ => Some false
                   end
          | Some Wild, Some _ | Some Tail, Some _ => Some true
          | Some (Gp _), Some _ => match dereference w fuel p d with Some c => matches w fuel p c (Ref o i) | None => None end
          | Some u, Some v => Some (word_eqb u v)
          | _, _ => None
          end = Some b).
  { cbn [matches] in H. destruct d as [k|o' [|k]]; try exact H. destruct i as [|i]; [|exact H]. exfalso. exact (Hd o' eq_refl eq_refl). }
  clear H. rewrite Ev in H1.
  inversion HR as [c0 E|c0 E|c0 z E|c0 j t0 E Hi HR0|c0 r o1 t0 E Er Hh HR0|c0 j E Hi E'|k j t0 E Hi HR0|c0 k l E Hl]; subst;
    rewrite E in Ev; injection Ev as <-; try (destruct Hp; fail).
  - destruct (fetch w p (Ref o i)); [|discriminate]. injection H1 as <-. split; [intros _; apply F_any|reflexivity].
  - destruct (fetch w p (Ref o i)); [|discriminate]. injection H1 as <-. split; [intros _; apply F_any|reflexivity].
  - cbn [fetch] in H1. destruct (word_of w o i) as [u|] eqn:Eu; [|discriminate]. injection H1 as <-. split.
    + intros Hb. destruct u; cbn in Hb; try discriminate. apply Z.eqb_eq in Hb. subst. apply F_leaf. exact Eu.
    + intros HF. inversion HF as [|? ? ? E'| | |]; subst. rewrite Eu in E'. injection E' as ->. cbn. apply Z.eqb_refl.
  - cbn [fetch] in H1. destruct (word_of w o i) as [u|] eqn:Eu; [|discriminate].
    assert (Hno : (forall kk, u <> Head kk (length l)) \/ u = Head k (length l) \/ exists kk, kk <> k /\ u = Head kk (length l)).
    { destruct u as [| | | | | | | | |kk n]; try (left; intros kk E'; discriminate).
      destruct (Nat.eq_dec n (length l)) as [->|N]; [|left; intros k' E'; injection E' as _ E'; exact (N E')].
      right. destruct (Z.eq_dec kk k) as [->|N]; [left; reflexivity|]. right. exists kk. auto. }
    destruct Hno as [N|[->|(kk & N & ->)]].
    + assert (b = false). { destruct (negb (count u =? length l)) eqn:En; [congruence|].
        apply Bool.negb_false_iff, Nat.eqb_eq in En. destruct u as [| | | | | | | | |kk n]; try congruence. cbn in En. subst n. exfalso. exact (N kk eq_refl). }
      subst b. split; [discriminate|]. intros HF. inversion HF as [| | | |? ? ? ? E' Hm]; subst. rewrite Eu in E'. injection E' as E'. exfalso. exact (N _ E').
    + cbn [count] in H1. rewrite Nat.eqb_refl, Z.eqb_refl in H1. cbn [negb] in H1. split.
      * intros ->. apply F_node; [exact Eu|]. intros j t Hj.
        assert (Hlen : j < length l) by (apply nth_error_Some; congruence).
        assert (Hm := members_true _ _ _ H1 (S j) ltac:(lia)). cbn beta in Hm.
        destruct (dereference w fuel p (child d (S j))) as [d'|] eqn:Ed; [|discriminate].
        destruct (dereference w fuel p (child (Ref o i) (S j))) as [x|] eqn:Ex; [|discriminate]. cbn [both] in Hm.
        cbn [child] in Ex. destruct (deref_lands _ _ _ _ Ex) as (o' & i' & -> & HL). exists o', i'. split; [exact HL|].
        apply (IH fuel ltac:(lia) t d' o' i' true); [|exact Hm|reflexivity].
        eapply deref_reads; [apply here_child|exact (Hl j t Hj)|exact Ed].
      * intros HF. inversion HF as [| | | |? ? ? ? E' Hm]; subst. destruct b; [reflexivity|]. exfalso.
        destruct (members_false _ _ _ H1) as (x & Hx & Fx). destruct x as [|j]; [lia|].
        destruct (nth_error l j) as [t|] eqn:Ej; [|apply nth_error_None in Ej; lia].
        destruct (dereference w fuel p (child d (S j))) as [d'|] eqn:Ed; [|discriminate].
        destruct (dereference w fuel p (child (Ref o i) (S j))) as [y|] eqn:Ex; [|discriminate]. cbn [both] in Fx.
        cbn [child] in Ex. destruct (deref_lands _ _ _ _ Ex) as (o' & i' & -> & HL).
        destruct (Hm j t Ej) as (o2 & i2 & HL2 & HF2). destruct (lands_fun _ _ _ _ HL _ _ HL2) as [-> ->].
        apply (IH fuel ltac:(lia) t d' o2 i2 false) in HF2; [discriminate| |exact Fx].
        eapply deref_reads; [apply here_child|exact (Hl j t Ej)|exact Ed].
    + cbn [count] in H1. rewrite Nat.eqb_refl in H1. cbn [negb] in H1. rewrite (proj2 (Z.eqb_neq k kk)) in H1 by congruence.
      injection H1 as <-. split; [discriminate|]. intros HF. inversion HF as [| | | |? ? ? ? E' Hm]; subst. congruence.
Qed.

Lemma not_obj_plain d t v : Reads w p d t -> fetch w p d = Some v -> plain v -> match t with TObj _ _ => False | _ => True end.
Proof.
  intros HR Hv Hp. destruct t; try exact I.
  inversion HR; subst; match goal with E : fetch _ _ _ = _ |- _ => rewrite E in Hv; injection Hv as <-; destruct Hp end.
Qed.

Lemma says fuel : Says fuel.
Proof.
  assert (G : forall f, f < S fuel -> Says f); [|exact (G fuel ltac:(lia))].
  generalize (S fuel) as m. induction m as [|m IH]; intros f Hf; [lia|].
  destruct (Nat.lt_ge_cases f m) as [Hlt|Hge]; [exact (IH f Hlt)|]. assert (f = m) by lia. subst f. clear Hf Hge.
  intros t d o i b Hh H. destruct m as [|m]; [discriminate|].
  destruct t as [|z|o' t|k l]; cbn [Head_of] in Hh;
    try (destruct Hh as (Hd & HR & Hv); eapply says_here; [exact IH|exact I|exact HR|intros o' E; exfalso; exact (Hd o' E)|exact Hv|exact H]).
  destruct Hh as (-> & (k & n & Eh) & HR). destruct i as [|i].
  - cbn [matches] in H. injection H as <-. rewrite Nat.eqb_eq. split.
    + intros ->. apply F_obj.
    + intros HF. inversion HF; subst; reflexivity.
  - assert (Hi : b = true <-> Fits w o (S i) t).
    { eapply says_here; [exact IH| |exact HR|intros; discriminate| |exact H].
      - eapply not_obj_plain; [exact HR|exact Eh|exact I].
      - exists (Head k n). split; [exact Eh|exact I]. }
    rewrite Hi. split; [apply F_place|]. intros HF. inversion HF; subst; assumption.
Qed.

(** A skeleton. *)
Lemma fits_says fuel k o t b s n : nth_error p k = Some (Head s n) -> Reads w p (Stem k) t -> fits w fuel p k o = Some b -> (b = true <-> Fits w o 0 t).
Proof.
  intros Hk HR H. refine (says fuel t (Stem k) o 0 b _ H). eapply head_here; [intros o'; discriminate|exact HR|exact Hk|exact I].
Qed.
End Match.
