(** Reading objects by computation, and concrete objects. *)
From Verif Require Import Base Float32 Atom_model Utils_model Bp_model Bp_spec Bp_proofs Bp2_proofs Bp3_proofs Abs_model Abs_spec Abs_proofs Abs2_proofs Abs3_proofs Abs4_proofs Abs5_proofs.
Local Open Scope nat_scope.

Fixpoint walk (fuel : nat) (m : mem) (size k : nat) : list nat :=
  match fuel with
  | 0 => []
  | S fuel => if k <? size then k :: walk fuel m size (if raw (m k) then k + count (m k) + 1 else k + 1) else []
  end.
Lemma walk_steps : forall fuel m size k, (k < size -> steps m size 1 k) -> Forall (steps m size 1) (walk fuel m size k).
Proof.
  induction fuel as [|fuel IH]; intros m size k H; cbn [walk]; [constructor|]. destruct (Nat.ltb_spec k size) as [L|L]; [|constructor].
  constructor; [exact (H L)|]. apply IH. intro L2. destruct (raw (m k)) eqn:R; [apply steps_raw|apply steps_next]; auto.
Qed.
Lemma walk_all : forall fuel m size k0, size <= fuel + k0 -> (k0 < size -> In k0 (walk fuel m size k0)) /\
  forall k, steps m size k0 k -> In k (walk fuel m size k0).
Proof.
  assert (K : forall m size k0 k, steps m size k0 k -> k = k0 \/ steps m size (if raw (m k0) then k0 + count (m k0) + 1 else k0 + 1) k).
  { intros m size k0 k H; induction H as [L|k H IH R L|k H IH R L]; [left; reflexivity| |].
    - right. destruct IH as [->|IH]; [rewrite R; apply steps_here; exact L|apply steps_raw; assumption].
    - right. destruct IH as [->|IH]; [rewrite R; apply steps_here; exact L|apply steps_next; assumption]. }
  assert (B : forall m size k0 k, steps m size k0 k -> k0 < size).
  { intros m size k0 k H; induction H; assumption. }
  induction fuel as [|fuel IH]; intros m size k0 L.
  - split; [lia|]. intros k H. apply B in H. lia.
  - assert (Q : k0 < size -> In k0 (walk (S fuel) m size k0)) by (intro L2; cbn [walk]; apply Nat.ltb_lt in L2; rewrite L2; left; reflexivity).
    split; [exact Q|]. intros k H. pose proof (B _ _ _ _ H) as L2. destruct (K _ _ _ _ H) as [->|H2]; [exact (Q L2)|].
    cbn [walk]. apply Nat.ltb_lt in L2. rewrite L2. right. apply IH; [|exact H2]. destruct (raw (m k0)); lia.
Qed.

Definition starts_b (o : obj) : nat -> bool := let l := walk (size o) (word o) (size o) 1 in fun i => existsb (Nat.eqb i) l.
Lemma starts_true : forall o i, starts_b o i = true -> starts o i.
Proof.
  intros o i H. unfold starts_b in H. apply existsb_exists in H. destruct H as (j & J & E). apply Nat.eqb_eq in E. subst j.
  assert (F : Forall (steps (word o) (size o) 1) (walk (size o) (word o) (size o) 1)) by (apply walk_steps; apply steps_here).
  rewrite Forall_forall in F. exact (F _ J).
Qed.

Fixpoint opts {A} (l : list (option A)) : option (list A) :=
  match l with
  | [] => Some []
  | Some x :: l => option_map (cons x) (opts l)
  | None :: _ => None
  end.
Lemma opts_some : forall A (l : list (option A)) r, opts l = Some r -> Forall2 (fun o x => o = Some x) l r.
Proof.
  induction l as [|[x|] l IH]; intros r E; cbn in E; [injection E as <-; constructor| |discriminate].
  destruct (opts l) as [q|]; [|discriminate]. injection E as <-. constructor; [reflexivity|apply IH; reflexivity].
Qed.

(** [free_ok] for objects read anywhere. *)
Section Read.
Variable okb : obj -> nat -> bool.
Fixpoint read_word (fuel : nat) (o : obj) (w : Z) : option (tree * term) :=
  match fuel with
  | 0 => None
  | S fuel =>
      let parts o k n := opts (map (read_word fuel o) (words (word o) k n)) in
      let all o k n := forallb (fun j => okb o (k + j)) (seq 0 n) in
      let p := place w in
      if (getDescriptor w =? I_PTR)%Z then
        let h := word o p in
        if negb (okb o p) then None
        else if raw h then Some (Raw h (words (word o) (p + 1) (count h)), TRaw h (words (word o) (p + 1) (count h)))
        else if ((getDescriptor h =? I_PTR) || (getDescriptor h =? VL_PTR))%Z then None
        else if negb (all o (p + 1) (count h)) then None
        else option_map (fun l => (Bp_spec.Node h (map fst l), TStr h (map snd l))) (parts o (p + 1) (count h))
      else if (getDescriptor w =? VL_PTR)%Z then Some (Leaf w, TVar p)
      else if (getDescriptor w =? R_PTR)%Z then
        match nth_error (refs o) p with
        | None => None
        | Some r => if negb (all r 1 (count (word r 0))) then None
                    else option_map (fun l => (Leaf w, TObj (word r 0) (map snd l))) (parts r 1 (count (word r 0)))
        end
      else Some (Leaf w, TAtom w)
  end.
Definition read (fuel : nat) (o : obj) : option term :=
  if negb (forallb (fun j => okb o (1 + j)) (seq 0 (count (word o 0)))) then None
  else option_map (fun l => TObj (word o 0) (map snd l)) (opts (map (read_word fuel o) (words (word o) 1 (count (word o 0))))).

Variable ok : obj -> nat -> Prop.
Hypothesis okb_ok : forall o i, okb o i = true -> ok o i.

Lemma all_ok : forall o k n, forallb (fun j => okb o (k + j)) (seq 0 n) = true -> forall j, j < n -> ok o (k + j).
Proof. intros o k n H j L. rewrite forallb_forall in H. apply okb_ok. apply H. apply in_seq. lia. Qed.

Lemma read_parts : forall fuel o, (forall w tr t, read_word fuel o w = Some (tr, t) -> shows (ok o) anywhere (word o) w tr /\ means ok (refs o) tr t) ->
  forall ws l, opts (map (read_word fuel o) ws) = Some l -> Forall2 (shows (ok o) anywhere (word o)) ws (map fst l) /\ Forall2 (means ok (refs o)) (map fst l) (map snd l).
Proof.
  intros fuel o H ws l E. apply opts_some in E. revert l E. induction ws as [|w ws IH]; intros l E; inversion E as [|? [tr t] ? l' E1 E2]; subst; cbn; [split; constructor|].
  destruct (H _ _ _ E1) as (S1 & M1). destruct (IH _ E2) as (S2 & M2). split; constructor; assumption.
Qed.

Lemma read_word_ok : forall fuel o w tr t, read_word fuel o w = Some (tr, t) -> shows (ok o) anywhere (word o) w tr /\ means ok (refs o) tr t.
Proof.
  induction fuel as [|fuel IH]; intros o w tr t E; cbn [read_word] in E; [discriminate|]. cbv zeta in E.
  destruct (getDescriptor w =? I_PTR)%Z eqn:D.
  { apply Z.eqb_eq in D. destruct (okb o (place w)) eqn:K; cbn [negb] in E; [|discriminate]. apply okb_ok in K.
    destruct (raw (word o (place w))) eqn:R.
    { injection E as <- <-. split; [apply shows_raw; auto; intros; exact Logic.I|apply means_raw]. }
    destruct ((getDescriptor (word o (place w)) =? I_PTR) || (getDescriptor (word o (place w)) =? VL_PTR))%Z eqn:N; [discriminate|].
    apply orb_false_iff in N. destruct N as (N1 & N2). apply Z.eqb_neq in N1, N2.
    destruct (forallb _ _) eqn:A; cbn [negb] in E; [|discriminate].
    destruct (opts _) as [l|] eqn:P; cbn [option_map] in E; [|discriminate]. injection E as <- <-.
    destruct (read_parts fuel o (IH o) _ _ P) as (S1 & M1).
    split; [apply shows_node; auto; apply all_ok; exact A|apply means_str; assumption]. }
  apply Z.eqb_neq in D. destruct (getDescriptor w =? VL_PTR)%Z eqn:D2.
  { injection E as <- <-. split; [constructor; exact D|apply means_var; apply Z.eqb_eq; exact D2]. }
  apply Z.eqb_neq in D2. destruct (getDescriptor w =? R_PTR)%Z eqn:D3.
  { apply Z.eqb_eq in D3. destruct (nth_error (refs o) (place w)) as [r|] eqn:N; [|discriminate].
    destruct (forallb _ _) eqn:A; cbn [negb] in E; [|discriminate].
    destruct (opts _) as [l|] eqn:P; cbn [option_map] in E; [|discriminate]. injection E as <- <-.
    destruct (read_parts fuel r (IH r) _ _ P) as (S1 & M1).
    split; [constructor; exact D|]. eapply means_ref; try eassumption. apply (all_ok r 1). exact A. }
  apply Z.eqb_neq in D3. injection E as <- <-. split; [constructor; exact D|apply means_atom; assumption].
Qed.

Lemma read_says : forall fuel o t, read fuel o = Some t -> says ok o t.
Proof.
  intros fuel o t E. unfold read in E. destruct (forallb _ _) eqn:A; cbn [negb] in E; [|discriminate].
  destruct (opts _) as [l|] eqn:P; cbn [option_map] in E; [|discriminate]. injection E as <-.
  destruct (read_parts fuel o (read_word_ok fuel o) _ _ P) as (S1 & M1). exists (map fst l), (map snd l).
  split; [reflexivity|]. split; [apply (all_ok o 1); exact A|]. split; assumption.
Qed.
End Read.

Lemma read_starts : forall fuel o t, read starts_b fuel o = Some t -> says starts o t.
Proof. apply read_says. apply starts_true. Qed.
Lemma read_free : forall fuel o t, read (fun _ _ => true) fuel o = Some t -> says free o t.
Proof. apply read_says. intros; exact Logic.I. Qed.

Fixpoint whole_b (fuel : nat) (o : obj) : bool :=
  match fuel with
  | 0 => false
  | S fuel =>
      forallb (fun k => if raw (word o k) then k + count (word o k) <? size o else true) (walk (size o) (word o) (size o) 1) &&
      forallb (whole_b fuel) (refs o)
  end.
Lemma whole_true : forall fuel o, whole_b fuel o = true -> whole o.
Proof.
  induction fuel as [|fuel IH]; intros o H; cbn [whole_b] in H; [discriminate|]. apply andb_true_iff in H. destruct H as (H1 & H2).
  destruct o as [m n l]. cbn [word size refs] in *. constructor.
  - intros k S1 R. rewrite forallb_forall in H1. assert (I : In k (walk n m n 1)) by (apply (walk_all n m n 1); [lia|exact S1]).
    specialize (H1 k I). cbv beta in H1. rewrite R in H1. apply Nat.ltb_lt. exact H1.
  - intros o I. apply IH. rewrite forallb_forall in H2. exact (H2 o I).
Qed.

Fixpoint fits_b (fuel : nat) (o : obj) : bool :=
  match fuel with
  | 0 => false
  | S fuel => (Z.of_nat (size o) <=? 4096)%Z && (Z.of_nat (length (refs o)) <=? 4096)%Z && forallb (fits_b fuel) (refs o)
  end.
Lemma fits_true : forall fuel o, fits_b fuel o = true -> fits o.
Proof.
  induction fuel as [|fuel IH]; intros o H; cbn [fits_b] in H; [discriminate|]. apply andb_true_iff in H. destruct H as (H & H2).
  apply andb_true_iff in H. destruct H as (H0 & H1). apply Z.leb_le in H0, H1. pose proof limit_is. destruct o as [m n l]. cbn [size refs] in *. constructor; [lia|lia|].
  intros o I. apply IH. rewrite forallb_forall in H2. exact (H2 o I).
Qed.

(** * Concrete objects *)
Definition x_tol : spec_float := f32_of_bits 0x3727C5AC.
Definition x_classes : classes := mkclasses 1 2 3 4 5 6 7 8.
Definition x_user : Z -> bool := fun _ => false.
Definition x_same : obj -> obj -> bool := fun _ _ => false.
Definition x_mem (l : list Z) : mem := fun i => nth i l UndefinedAtom.
Definition x_obj (l : list Z) (rs : list obj) : obj := Obj (x_mem l) (length l) rs.
Definition x_empty : state := mkst [] 0 None.
Definition x_abstract := abstract_object x_tol 10000 4 x_classes x_user x_same 9.
Definition x_bind (st : state) := bind_pattern 4 x_user (values st).

Lemma x_distinct : distinct x_classes.
Proof. split; [|split; vm_compute; split; congruence]. repeat constructor; cbn; intuition discriminate. Qed.
Lemma x_same_spec : forall a b, x_same a b = true -> a = b.
Proof. discriminate. Qed.
Lemma x_holds : holds x_empty TVar.
Proof. intro x. destruct x; reflexivity. Qed.

(** A command with two durations, one and two seconds. *)
Definition x_cmd : obj := x_obj [AObject 5 3; DeviceFunction 1; ptr 4; 1065353216%Z; ASet 2; ptr 7; ptr 10; ADuration; 0%Z; 1000000%Z; ADuration; 0%Z; 2000000%Z] [].
Definition x_cmd_term (a b : Z) (th : Z) : term :=
  TObj (AObject 5 3) [TAtom (DeviceFunction 1); TStr (ASet 2) [TRaw ADuration [0; a]%Z; TRaw ADuration [0; b]%Z]; TAtom th].

(** Facts about a value of an entity, with their times in microseconds. *)
Definition x_ent : obj := x_obj [AObject 2 1; 1065353216%Z] [].
Definition x_ont : obj := x_obj [AObject 1 1; 1065353216%Z] [].
Definition x_val : obj := x_obj [AObject 6 4; RPointer 0; RPointer 1; 1073741824%Z; 1065353216%Z] [x_ent; x_ont].
Definition x_fact_of (a b : Z) (o : obj) : obj :=
  x_obj [AObject 3 5; RPointer 0; ptr 6; ptr 9; 1065353216%Z; 1065353216%Z; ATimestamp; 0%Z; a; ATimestamp; 0%Z; b] [o].
Definition x_fact (a b : Z) : obj := x_fact_of a b x_val.
Definition x_one : term := TAtom 1065353216.
Definition x_any : term := TAtom (Wildcard 0).
Definition x_time (a : Z) : term := TRaw ATimestamp [0%Z; a].
Definition x_ent_term : term := TObj (AObject 2 1) [x_one].
Definition x_ont_term : term := TObj (AObject 1 1) [x_one].
Definition x_val_term (e v p : term) : term := TObj (AObject 6 4) [e; x_ont_term; v; p].
Definition x_fact_term (v a b c p : term) : term := TObj (AObject 3 5) [v; a; b; c; p].

Lemma x_plain_word : forall w, raw w = false -> (getDescriptor w =? I_PTR)%Z = false -> (getDescriptor w =? VL_PTR)%Z = false ->
  (getDescriptor w =? R_PTR)%Z = false -> plain_word w.
Proof. intros w A B D E. apply Z.eqb_neq in B, D, E. repeat split; assumption. Qed.
Lemma x_cmd_says : says starts x_cmd (x_cmd_term 1000000 2000000 1065353216).
Proof. apply (read_starts 5). vm_compute. reflexivity. Qed.
Lemma x_cmd_whole : whole x_cmd.
Proof. apply (whole_true 2). vm_compute. reflexivity. Qed.
Lemma x_word_tame : forall w, (getDescriptor w =? I_PTR)%Z = false -> getDescriptor w <> I_PTR.
Proof. intros w H. apply Z.eqb_neq. exact H. Qed.
Lemma x_raw_plain : forall h a b, (getDescriptor a =? I_PTR)%Z = false -> (getDescriptor b =? I_PTR)%Z = false -> plain x_classes x_user x_user (TRaw h [a; b]).
Proof. intros h a b A B. cbn [plain]. constructor; [apply x_word_tame; exact A|]. constructor; [apply x_word_tame; exact B|constructor]. Qed.
Lemma x_atom_plain : forall w, raw w = false -> (getDescriptor w =? I_PTR)%Z = false -> (getDescriptor w =? VL_PTR)%Z = false ->
  (getDescriptor w =? R_PTR)%Z = false -> plain x_classes x_user x_user (TAtom w).
Proof. intros w A B D E. cbn [plain]. apply x_plain_word; assumption. Qed.
Lemma x_obj_plain : forall h ts fs, fates x_classes h = Some fs -> length ts = length fs ->
  ((asOpcode h = 3 \/ asOpcode h = 4)%Z -> h = AObject (asOpcode h) 5) ->
  (asOpcode h = 5%Z -> match ts with f :: _ => atom_term f | [] => True end) -> Forall (plain x_classes x_user x_user) ts ->
  plain x_classes x_user x_user (TObj h ts).
Proof.
  intros h ts fs F L A B D. cbn [plain]. rewrite F. split; [reflexivity|]. split; [exact L|]. split; [exact A|]. split; [exact B|]. rewrite fold_all. exact D.
Qed.
Lemma x_other_plain : forall h ts, fates x_classes h = None -> closed x_user (TObj h ts) -> plain x_classes x_user x_user (TObj h ts).
Proof. intros h ts F H. cbn [plain]. rewrite F. exact H. Qed.

Lemma x_cmd_plain : plain x_classes x_user x_user (x_cmd_term 1000000 2000000 1065353216).
Proof.
  eapply x_obj_plain; [reflexivity|reflexivity|intros [H|H]; discriminate H|intros _; apply x_plain_word; reflexivity|].
  constructor; [apply x_atom_plain; reflexivity|]. constructor; [|constructor; [apply x_atom_plain; reflexivity|constructor]].
  cbn [plain]. change (set_like x_user (ASet 2)) with true. cbn [fold_right]. split; [apply x_raw_plain; reflexivity|]. split; [apply x_raw_plain; reflexivity|exact Logic.I].
Qed.

(** One second is bound where there were two. *)
Lemma trip_refuted : exists o o' st' r, x_abstract o false 0 x_empty = Some (o', st') /\ whole o /\ fits o' /\
  says starts o (x_cmd_term 1000000 2000000 1065353216) /\ plain x_classes x_user x_user (x_cmd_term 1000000 2000000 1065353216) /\
  x_bind st' o' = Some r /\ says free r (x_cmd_term 1000000 1000000 (Wildcard 0)).
Proof.
  assert (Q : match x_abstract x_cmd false 0 x_empty with
    | Some (o', st') => fits_b 3 o' = true /\ match x_bind st' o' with Some r => read (fun _ _ => true) 5 r = Some (x_cmd_term 1000000 1000000 (Wildcard 0)) | None => False end
    | None => False end).
  { vm_compute. split; reflexivity. }
  destruct (x_abstract x_cmd false 0 x_empty) as [[o' st']|] eqn:E; [|contradiction]. destruct Q as (Q1 & Q2).
  destruct (x_bind st' o') as [r|] eqn:B; [|contradiction].
  exists x_cmd, o', st', r. split; [exact E|]. split; [exact x_cmd_whole|]. split; [exact (fits_true _ _ Q1)|]. split; [exact x_cmd_says|].
  split; [exact x_cmd_plain|]. split; [exact B|]. exact (read_free _ _ _ Q2).
Qed.

(** The times remembered are those of the fact within. *)
Lemma times_refuted : exists o o' st' v a b a' b', x_abstract o false 0 x_empty = Some (o', st') /\ whole o /\ fits o' /\
  says starts o (x_fact_term v (x_time 3000000) (x_time 4000000) x_one x_one) /\
  (exists p, says starts o' (x_fact_term p (TVar a) (TVar b) x_any x_any)) /\
  fwd st' = Some (a', b') /\ a' <> a /\ b' <> b.
Proof.
  pose (o := x_fact_of 3000000 4000000 (x_fact 1000000 2000000)).
  pose (p := x_fact_term (x_val_term (TVar 0) (TVar 1) x_any) (TVar 2) (TVar 3) x_any x_any).
  assert (Q : match x_abstract o false 0 x_empty with
    | Some (o', st') => fits_b 5 o' = true /\ read starts_b 5 o' = Some (x_fact_term p (TVar 4) (TVar 5) x_any x_any) /\ fwd st' = Some (2, 3)
    | None => False end).
  { vm_compute. repeat split. }
  destruct (x_abstract o false 0 x_empty) as [[o' st']|] eqn:E; [|contradiction]. destruct Q as (Q1 & Q2 & Q3).
  exists o, o', st', (x_fact_term (x_val_term x_ent_term (TAtom 1073741824) x_one) (x_time 1000000) (x_time 2000000) x_one x_one), 4, 5, 2, 3.
  split; [exact E|]. split; [apply (whole_true 5); vm_compute; reflexivity|]. split; [exact (fits_true _ _ Q1)|].
  split; [apply (read_starts 6); vm_compute; reflexivity|]. split; [exists p; exact (read_starts _ _ _ Q2)|]. split; [exact Q3|]. split; discriminate.
Qed.

(** A fact abstracted twice, another one in between: its time has two variables. *)
Lemma share_refuted : exists o1 o2 o3 st1 st2 st3 r0 r1 r2 r3 st4 v a b c, 
  x_abstract o1 false 0 x_empty = Some (r0, st1) /\
  x_abstract o2 false 3 st1 = Some (r1, st2) /\ x_abstract o3 false 3 st2 = Some (r2, st3) /\ x_abstract o2 false 3 st3 = Some (r3, st4) /\
  says starts o2 (x_fact_term v (x_time 8000) (x_time 100000) x_one x_one) /\
  (exists p, says starts r1 (x_fact_term p (TVar a) (TVar b) x_any x_any)) /\
  (exists p, says starts r3 (x_fact_term p (TVar c) (TVar b) x_any x_any)) /\ a <> c.
Proof.
  assert (Q : match x_abstract (x_fact 0 100000) false 0 x_empty with
    | Some (r0, st1) =>
      match x_abstract (x_fact 8000 100000) false 3 st1 with
      | Some (r1, st2) =>
        match x_abstract (x_fact 16000 100000) false 3 st2 with
        | Some (r2, st3) =>
          match x_abstract (x_fact 8000 100000) false 3 st3 with
          | Some (r3, st4) =>
              read starts_b 5 r1 = Some (x_fact_term (x_val_term (TVar 4) (TVar 1) x_any) (TVar 2) (TVar 3) x_any x_any) /\
              read starts_b 5 r3 = Some (x_fact_term (x_val_term (TVar 7) (TVar 1) x_any) (TVar 6) (TVar 3) x_any x_any)
          | None => False
          end
        | None => False
        end
      | None => False
      end
    | None => False
    end).
  { vm_compute. split; reflexivity. }
  destruct (x_abstract (x_fact 0 100000) false 0 x_empty) as [[r0 st1]|] eqn:E1; [|contradiction].
  destruct (x_abstract (x_fact 8000 100000) false 3 st1) as [[r1 st2]|] eqn:E2; [|contradiction].
  destruct (x_abstract (x_fact 16000 100000) false 3 st2) as [[r2 st3]|] eqn:E3; [|contradiction].
  destruct (x_abstract (x_fact 8000 100000) false 3 st3) as [[r3 st4]|] eqn:E4; [|contradiction]. destruct Q as (Q1 & Q2).
  exists (x_fact 0 100000), (x_fact 8000 100000), (x_fact 16000 100000), st1, st2, st3, r0, r1, r2, r3, st4,
    (x_val_term x_ent_term (TAtom 1073741824) x_one), 2, 3, 6.
  split; [exact E1|]. split; [exact E2|]. split; [exact E3|]. split; [exact E4|]. split; [apply (read_starts 6); vm_compute; reflexivity|].
  split; [eexists; exact (read_starts _ _ _ Q1)|]. split; [eexists; exact (read_starts _ _ _ Q2)|]. discriminate.
Qed.

(** * Examples *)
Definition x_fact_says (a b : Z) : term := x_fact_term (x_val_term x_ent_term (TAtom 1073741824) x_one) (x_time a) (x_time b) x_one x_one.
Lemma x_fact_plain : plain x_classes x_user x_user (x_fact_says 1000000 2000000).
Proof.
  eapply x_obj_plain; [reflexivity|reflexivity|intros _; reflexivity|discriminate|].
  constructor; [|constructor; [apply x_raw_plain; reflexivity|constructor; [apply x_raw_plain; reflexivity|
    constructor; [apply x_atom_plain; reflexivity|constructor; [apply x_atom_plain; reflexivity|constructor]]]]].
  eapply x_obj_plain; [reflexivity|reflexivity|intros [H|H]; discriminate H|discriminate|].
  constructor; [apply x_other_plain; [reflexivity|right; cbn; tauto]|]. constructor; [apply x_other_plain; [reflexivity|right; cbn; tauto]|].
  constructor; [apply x_atom_plain; reflexivity|]. constructor; [apply x_atom_plain; reflexivity|constructor].
Qed.
Lemma x_fact_reads : says starts (x_fact 1000000 2000000) (x_fact_says 1000000 2000000) /\ whole (x_fact 1000000 2000000).
Proof. split; [apply (read_starts 6); vm_compute; reflexivity|apply (whole_true 5); vm_compute; reflexivity]. Qed.
Lemma x_trip : match x_abstract (x_fact 1000000 2000000) false 0 x_empty with
  | Some (o', st') =>
      read starts_b 5 o' = Some (x_fact_term (x_val_term (TVar 0) (TVar 1) x_any) (TVar 2) (TVar 3) x_any x_any) /\
      length (entries st') = 4 /\ fits_b 5 o' = true /\ fwd st' = Some (2, 3) /\ first_index st' = 0 /\
      match x_bind st' o' with
      | Some r => fits_b 5 r = true /\
          read (fun _ _ => true) 5 r = Some (x_fact_term (x_val_term x_ent_term (TAtom 1073741824) x_any) (x_time 1000000) (x_time 2000000) x_any x_any)
      | None => False
      end
  | None => False
  end.
Proof. vm_compute. repeat split. Qed.
(** A second fact, in step with the first. *)
Lemma x_sync : match x_abstract (x_fact 1000000 2000000) false 0 x_empty with
  | Some (_, st) =>
      match x_abstract (x_fact 1200000 2200000) true 0 st with
      | Some (o', st') => read starts_b 5 o' = Some (x_fact_term (x_val_term (TVar 4) (TVar 1) x_any) (TVar 2) (TVar 3) x_any x_any) /\ fwd st = Some (2, 3)
      | None => False
      end
  | None => False
  end.
Proof. vm_compute. repeat split. Qed.
Lemma x_share : word_says x_val 3 (TAtom 1073741824) /\ is_value x_user (TAtom 1073741824) /\
  match x_abstract (x_fact 1000000 2000000) false 0 x_empty with
  | Some (_, st) =>
      match x_abstract (x_fact 1000000 3000000) false 0 st with
      | Some (o', st') => read starts_b 5 o' = Some (x_fact_term (x_val_term (TVar 4) (TVar 1) x_any) (TVar 2) (TVar 5) x_any x_any)
      | None => False
      end
  | None => False
  end.
Proof.
  split; [|split; [exact Logic.I|vm_compute; reflexivity]].
  exists (Leaf 1073741824%Z). split; [apply shows_leaf; vm_compute; discriminate|apply means_atom; vm_compute; discriminate].
Qed.
