(* Lemmas on images of the memory. *)
From Coq Require Import List Bool Arith Lia.
From Verif Require Import Snp_model Snp_spec.
Import ListNotations.

Lemma has_in x l : has x l = true <-> In x l.
Proof.
  unfold has. rewrite existsb_exists. split.
  - intros [y [I E]]. apply Nat.eqb_eq in E. subst. exact I.
  - intros I. exists x. split; [exact I|apply Nat.eqb_refl].
Qed.
Lemma has_not x l : has x l = false <-> ~ In x l.
Proof. rewrite <- has_in. destruct (has x l); split; intros; congruence. Qed.

(* Loops. *)
Lemma each_inv (f : nat -> list nat -> option (list nat)) (P : list nat -> Prop) :
  forall rs l l', each f rs l = Some l' -> P l ->
  (forall r a b, In r rs -> P a -> f r a = Some b -> P b) -> P l'.
Proof.
  induction rs as [|r rs IH]; intros l l' E Pl H; cbn in E.
  - congruence.
  - destruct (f r l) as [l1|] eqn:F; [|discriminate].
    eapply IH; [exact E| |].
    + eapply H; [left; reflexivity|exact Pl|exact F].
    + intros r' a b I. apply H. right. exact I.
Qed.

Lemma each_grow f (mono : forall r a b, f r a = Some b -> exists k, b = a ++ k) :
  forall rs l l', each f rs l = Some l' -> exists k, l' = l ++ k.
Proof.
  induction rs as [|r rs IH]; intros l l' E; cbn in E.
  - injection E as <-. exists []. rewrite app_nil_r. reflexivity.
  - destruct (f r l) as [l1|] eqn:F; [|discriminate].
    destruct (mono _ _ _ F) as [k1 ->]. destruct (IH _ _ E) as [k2 ->]. exists (k1 ++ k2). rewrite app_assoc. reflexivity.
Qed.

Lemma each_split f (mono : forall r a b, f r a = Some b -> exists k, b = a ++ k) :
  forall rs l l' r, each f rs l = Some l' -> In r rs ->
  exists a b, f r a = Some b /\ (exists k, a = l ++ k) /\ (exists k, l' = b ++ k).
Proof.
  induction rs as [|q rs IH]; intros l l' r E I; [destruct I|]. cbn in E.
  destruct (f q l) as [l1|] eqn:F; [|discriminate]. destruct I as [I|I].
  - subst q. exists l, l1. split; [exact F|]. split; [exists []; rewrite app_nil_r; reflexivity|].
    apply (each_grow f mono _ _ _ E).
  - destruct (IH _ _ _ E I) as [a [b [X [[k ->] Z1]]]]. destruct (mono _ _ _ F) as [k1 ->].
    exists ((l ++ k1) ++ k), b. split; [exact X|]. split; [exists (k1 ++ k); rewrite app_assoc; reflexivity|exact Z1].
Qed.

Lemma in_grow {A} (x : A) a b : (exists k, b = a ++ k) -> In x a -> In x b.
Proof. intros [k ->] I. apply in_or_app. left. exact I. Qed.

Lemma followed_shown o : followed o = shown o.
Proof.
  unfold followed, shown, reference_count. destruct (okind o); try apply firstn_all;
  rewrite removelast_firstn_len, Nat.sub_1_r; reflexivity.
Qed.

Section Add.
Context (m : memory) (all : bool).

Definition cond (r : nat) : bool := all || negb (named (m r)) || dead (m r).
Definition sub (f : nat) (r : nat) (l : list nat) : option (list nat) :=
  if cond r then add f m all r l else Some l.

Lemma add_eq f x l : add (S f) m all x l =
  if has x l then Some l
  else match each (sub f) (shown (m x)) l with Some l' => Some (l' ++ [x]) | None => None end.
Proof. cbn [add]. rewrite followed_shown. reflexivity. Qed.

Lemma add_grow : forall f x l l', add f m all x l = Some l' -> exists k, l' = l ++ k.
Proof.
  induction f as [|f IH]; intros x l l' E; [discriminate|]. rewrite add_eq in E. destruct (has x l).
  - injection E as <-. exists []. rewrite app_nil_r. reflexivity.
  - destruct (each (sub f) (shown (m x)) l) as [l1|] eqn:X; [|discriminate]. injection E as <-.
    assert (G : exists k, l1 = l ++ k).
    { eapply each_grow; [|exact X]. intros r a b F. unfold sub in F. destruct (cond r); [eapply IH; exact F|].
      injection F as <-. exists []. rewrite app_nil_r. reflexivity. }
    destruct G as [k ->]. exists (k ++ [x]). rewrite app_assoc. reflexivity.
Qed.

Lemma sub_grow f r a b : sub f r a = Some b -> exists k, b = a ++ k.
Proof.
  unfold sub. destruct (cond r); [apply add_grow|]. intros E. injection E as <-. exists []. rewrite app_nil_r. reflexivity.
Qed.

Lemma add_self : forall f x l l', add f m all x l = Some l' -> In x l'.
Proof.
  intros [|f] x l l' E; [discriminate|]. rewrite add_eq in E. destruct (has x l) eqn:H.
  - injection E as <-. apply has_in. exact H.
  - destruct (each (sub f) (shown (m x)) l) as [l1|]; [|discriminate]. injection E as <-.
    apply in_or_app. right. left. reflexivity.
Qed.

(* Objects of a set that has no end are never added. *)
Lemma add_endless (C : nat -> Prop)
  (HC : forall c, C c -> exists r, In r (shown (m c)) /\ cond r = true /\ C r) :
  forall f x l l', add f m all x l = Some l' ->
  (forall y, In y l -> ~ C y) -> forall y, In y l' -> ~ C y.
Proof.
  induction f as [|f IH]; intros x l l' E D; [discriminate|]. rewrite add_eq in E. destruct (has x l).
  - injection E as <-. exact D.
  - destruct (each (sub f) (shown (m x)) l) as [l1|] eqn:X; [|discriminate]. injection E as <-.
    assert (D1 : forall y, In y l1 -> ~ C y).
    { eapply (each_inv (sub f) (fun l => forall y, In y l -> ~ C y)); [exact X|exact D|].
      intros r a b _ Da F. unfold sub in F. destruct (cond r); [eapply IH; eassumption|]. injection F as <-. exact Da. }
    intros y I. apply in_app_or in I. destruct I as [I|[I|[]]]; [apply D1; exact I|]. subst y.
    intros Cx. destruct (HC x Cx) as [r [R [Cr CC]]].
    destruct (each_split _ (sub_grow f) _ _ _ r X R) as [a [b [F [_ G]]]].
    unfold sub in F. rewrite Cr in F. apply (D1 r); [|exact CC].
    eapply in_grow; [exact G|]. eapply add_self. exact F.
Qed.

(* Paths outside a list. *)
Inductive Path (l : list nat) (x : nat) : nat -> Prop :=
| PSelf : ~ In x l -> Path l x x
| PStep y z : Path l x y -> In z (shown (m y)) -> cond z = true -> ~ In z l -> Path l x z.

Lemma path_start l x y : Path l x y -> ~ In x l.
Proof. induction 1; assumption. Qed.
Lemma path_end l x y : Path l x y -> ~ In y l.
Proof. induction 1; assumption. Qed.
Lemma path_trans l x y z : Path l x y -> Path l y z -> Path l x z.
Proof. intros A B. induction B as [|y1 z1 B IH R Cz N]; [exact A|]. eapply PStep; eassumption. Qed.
Lemma path_less l k x y : Path (l ++ k) x y -> Path l x y.
Proof.
  intros P. induction P as [N|y z P IH R Cz N].
  - apply PSelf. intros I. apply N. apply in_or_app. left. exact I.
  - eapply PStep; [exact IH|exact R|exact Cz|]. intros I. apply N. apply in_or_app. left. exact I.
Qed.
Lemma path_first l x y : Path l x y -> x = y \/ exists r, In r (shown (m x)) /\ cond r = true /\ Path l r y.
Proof.
  intros P. induction P as [N|y z P IH R Cz N]; [left; reflexivity|]. right. destruct IH as [->|[r [R1 [C1 P1]]]].
  - exists z. split; [exact R|]. split; [exact Cz|]. apply PSelf. exact N.
  - exists r. split; [exact R1|]. split; [exact C1|]. eapply PStep; eassumption.
Qed.

Lemma add_paths : forall f x l l', add f m all x l = Some l' ->
  forall y, In y l' -> In y l \/ Path l x y.
Proof.
  induction f as [|f IH]; intros x l l' E; [discriminate|]. rewrite add_eq in E. destruct (has x l) eqn:H.
  - injection E as <-. auto.
  - apply has_not in H. destruct (each (sub f) (shown (m x)) l) as [l1|] eqn:X; [|discriminate]. injection E as <-.
    assert (D1 : (exists k, l1 = l ++ k) /\ forall y, In y l1 -> In y l \/ Path l x y).
    { eapply (each_inv (sub f) (fun a => (exists k, a = l ++ k) /\ forall y, In y a -> In y l \/ Path l x y)); [exact X| |].
      - split; [exists []; rewrite app_nil_r; reflexivity|auto].
      - intros r a b R [[k Ka] Da] F. split.
        + destruct (sub_grow _ _ _ _ F) as [k2 ->]. subst a. exists (k ++ k2). rewrite app_assoc. reflexivity.
        + intros y I. unfold sub in F. destruct (cond r) eqn:Cr; [|injection F as <-; auto].
          destruct (IH _ _ _ F y I) as [J|J]; [auto|]. right. subst a. apply path_less in J.
          eapply path_trans; [|exact J]. eapply PStep; [apply PSelf; exact H|exact R|exact Cr|]. eapply path_start; exact J. }
    intros y I. apply in_app_or in I. destruct I as [I|[I|[]]]; [apply D1; exact I|]. subst y. right. apply PSelf. exact H.
Qed.

Lemma add_new f x l l1 : ~ In x l -> each (sub f) (shown (m x)) l = Some l1 -> ~ In x l1.
Proof.
  intros N X I.
  assert (P : exists r, In r (shown (m x)) /\ cond r = true /\ Path l r x).
  { assert (Z : In x l1 -> In x l \/ exists r, In r (shown (m x)) /\ cond r = true /\ Path l r x).
    { assert (D : (exists k, l1 = l ++ k) /\ (In x l1 -> In x l \/ exists r, In r (shown (m x)) /\ cond r = true /\ Path l r x)).
      { eapply (each_inv (sub f) (fun a => (exists k, a = l ++ k) /\ (In x a -> In x l \/ exists r, In r (shown (m x)) /\ cond r = true /\ Path l r x))); [exact X| |].
        - split; [exists []; rewrite app_nil_r; reflexivity|auto].
        - intros r a b R [[k Ka] Da] F. split.
          + destruct (sub_grow _ _ _ _ F) as [k2 ->]. subst a. exists (k ++ k2). rewrite app_assoc. reflexivity.
          + intros J. unfold sub in F. destruct (cond r) eqn:Cr; [|injection F as <-; auto].
            destruct (add_paths _ _ _ _ F x J) as [K|K]; [auto|]. right. exists r. subst a. apply path_less in K. auto. }
      apply D. }
    destruct (Z I) as [K|K]; [contradiction|exact K]. }
  destruct P as [r [R [Cr P]]].
  set (C := fun c => Path l x c /\ Path l c x).
  assert (HC : forall c, C c -> exists q, In q (shown (m c)) /\ cond q = true /\ C q).
  { intros c [P1 P2]. destruct (path_first _ _ _ P2) as [E|[q [Q1 [Q2 Q3]]]].
    - subst c. exists r. split; [exact R|]. split; [exact Cr|]. split; [|exact P].
      eapply PStep; [exact P1|exact R|exact Cr|]. eapply path_start; exact P.
    - exists q. split; [exact Q1|]. split; [exact Q2|]. split; [|exact Q3].
      eapply PStep; [exact P1|exact Q1|exact Q2|]. eapply path_start; exact Q3. }
  assert (E : add (S f) m all x l = Some (l1 ++ [x])).
  { rewrite add_eq. apply has_not in N. rewrite N, X. reflexivity. }
  eapply (add_endless C HC _ _ _ _ E).
  - intros y Iy [P1 _]. apply path_end in P1. contradiction.
  - apply in_or_app. right. left. reflexivity.
  - split; apply PSelf; exact N.
Qed.

Lemma NoDup_snoc {A} (l : list A) x : NoDup l -> ~ In x l -> NoDup (l ++ [x]).
Proof.
  intros N I. apply NoDup_rev in N. rewrite <- (rev_involutive (l ++ [x])). apply NoDup_rev.
  rewrite rev_app_distr. cbn. constructor; [|exact N]. rewrite <- in_rev. exact I.
Qed.

Lemma add_nodup : forall f x l l', add f m all x l = Some l' -> NoDup l -> NoDup l'.
Proof.
  induction f as [|f IH]; intros x l l' E N; [discriminate|]. rewrite add_eq in E. destruct (has x l) eqn:H.
  - injection E as <-. exact N.
  - apply has_not in H. destruct (each (sub f) (shown (m x)) l) as [l1|] eqn:X; [|discriminate]. injection E as <-.
    apply NoDup_snoc; [|eapply add_new; eassumption].
    eapply (each_inv (sub f) (@NoDup nat)); [exact X|exact N|].
    intros r a b _ Na F. unfold sub in F. destruct (cond r); [eapply IH; eassumption|]. injection F as <-. exact Na.
Qed.

(* Every object comes after those that were followed from it. *)
Definition Ordered (l : list nat) : Prop :=
  forall a y b, l = a ++ y :: b -> forall r, In r (shown (m y)) -> cond r = true -> In r a.

Lemma snoc_split {A} (l : list A) x a y b : l ++ [x] = a ++ y :: b ->
  (b = [] /\ l = a /\ x = y) \/ exists b', b = b' ++ [x] /\ l = a ++ y :: b'.
Proof.
  intros E. destruct (exists_last (l := y :: b) ltac:(discriminate)) as [b' [z Z]].
  rewrite Z in E. rewrite app_assoc in E. apply app_inj_tail in E. destruct E as [E1 E2]. subst z.
  destruct b' as [|c b']; cbn in Z.
  - injection Z as -> ->. left. rewrite app_nil_r in E1. auto.
  - injection Z as -> ->. right. exists b'. auto.
Qed.

Lemma add_ordered : forall f x l l', add f m all x l = Some l' -> Ordered l -> Ordered l'.
Proof.
  induction f as [|f IH]; intros x l l' E O; [discriminate|]. rewrite add_eq in E. destruct (has x l) eqn:H.
  - injection E as <-. exact O.
  - destruct (each (sub f) (shown (m x)) l) as [l1|] eqn:X; [|discriminate]. injection E as <-.
    assert (O1 : Ordered l1).
    { eapply (each_inv (sub f) Ordered); [exact X|exact O|].
      intros r a b _ Oa F. unfold sub in F. destruct (cond r); [eapply IH; eassumption|]. injection F as <-. exact Oa. }
    intros a y b S' r R Cr. apply snoc_split in S'. destruct S' as [[-> [-> ->]]|[b' [-> S']]].
    + destruct (each_split _ (sub_grow f) _ _ _ r X R) as [a1 [b1 [F [_ G]]]].
      unfold sub in F. rewrite Cr in F. eapply in_grow; [exact G|]. eapply add_self. exact F.
    + eapply O1; eassumption.
Qed.

Lemma taken_in r o : In r (taken m all o) <-> In r (shown o) /\ cond r = true.
Proof.
  unfold taken, cond. rewrite filter_In. destruct all, (named (m r)), (dead (m r)); reflexivity.
Qed.
Lemma path_reach l x y : Path l x y -> Reach m (taken m all) x y.
Proof.
  induction 1 as [|y z P IH R]; [apply RSelf|eapply RStep; [exact IH|]]. apply taken_in. auto.
Qed.

Lemma add_all_spec f : forall xs l l',
  add_all f m all xs l = Some l' ->
  (exists k, l' = l ++ k) /\
  (NoDup l -> NoDup l') /\ (Ordered l -> Ordered l') /\
  (forall x, In x xs -> all = true \/ dead (m x) = false -> In x l') /\
  (forall y, In y l' -> In y l \/ exists x, In x xs /\ (all = true \/ dead (m x) = false) /\ Reach m (taken m all) x y).
Proof.
  induction xs as [|x xs IH]; intros l l' E; cbn [add_all] in E.
  - injection E as <-. split; [exists []; rewrite app_nil_r; reflexivity|]. split; [auto|]. split; [auto|].
    split; [intros x []|auto].
  - destruct (all || negb (dead (m x))) eqn:A.
    + destruct (add f m all x l) as [l1|] eqn:F; [|discriminate].
      destruct (IH _ _ E) as [[k2 G] [N [O [I R]]]]. destruct (add_grow _ _ _ _ F) as [k1 G1].
      split; [subst; exists (k1 ++ k2); rewrite app_assoc; reflexivity|].
      split; [intros Nl; apply N; eapply add_nodup; eassumption|].
      split; [intros Ol; apply O; eapply add_ordered; eassumption|]. split.
      * intros z [Z|Z] C; [|apply I; assumption]. subst z. rewrite G. apply in_or_app. left. eapply add_self; exact F.
      * intros y Y. destruct (R y Y) as [K|[z [Z1 [Z2 Z3]]]].
        -- destruct (add_paths _ _ _ _ F y K) as [J|J]; [auto|]. right. exists x. split; [left; reflexivity|].
           split; [|eapply path_reach; exact J]. apply orb_prop in A. destruct A as [A|A]; [auto|].
           right. destruct (dead (m x)); [discriminate|reflexivity].
        -- right. exists z. split; [right; exact Z1|auto].
    + destruct (IH _ _ E) as [G [N [O [I R]]]]. split; [exact G|]. split; [exact N|]. split; [exact O|]. split.
      * intros z [Z|Z] C; [|apply I; assumption]. subst z. exfalso. destruct C as [C|C]; rewrite C in A; [discriminate|].
        rewrite orb_true_r in A. discriminate.
      * intros y Y. destruct (R y Y) as [K|[z [Z1 [Z2 Z3]]]]; [auto|]. right. exists z. split; [right; exact Z1|auto].
Qed.

(* Without cycles it ends. *)
Lemma add_ends (rank : nat -> nat) (HR : forall x r, In r (shown (m x)) -> rank r < rank x) :
  forall f x l, rank x < f -> exists l', add f m all x l = Some l'.
Proof.
  induction f as [|f IH]; intros x l L; [lia|]. rewrite add_eq. destruct (has x l); [eauto|].
  assert (X : forall rs l, (forall r, In r rs -> rank r < f) -> exists l', each (sub f) rs l = Some l').
  { induction rs as [|r rs IHr]; intros l0 B; cbn [each]; [eauto|].
    assert (Z : exists l1, sub f r l0 = Some l1).
    { unfold sub. destruct (cond r); [apply IH; apply B; left; reflexivity|eauto]. }
    destruct Z as [l1 Z]. rewrite Z. apply IHr. intros q Q. apply B. right. exact Q. }
  destruct (X (shown (m x)) l) as [l' E].
  - intros r R. apply HR in R. lia.
  - rewrite E. eauto.
Qed.

Lemma add_all_ends (H : acyclic m) xs : exists f l, add_all f m all xs [] = Some l.
Proof.
  destruct H as [rank HR].
  assert (B : exists f, forall x, In x xs -> rank x < f).
  { clear HR. induction xs as [|x q [f F]]; [exists 0; intros x []|].
    exists (S (rank x + f)). intros y [Y|Y]; [subst; lia|]. specialize (F y Y). lia. }
  destruct B as [f F]. exists f. generalize (@nil nat) as l.
  induction xs as [|x q IH]; intros l; cbn [add_all]; [eauto|].
  assert (IH' := IH (fun y Y => F y (or_intror Y))).
  destruct (all || negb (dead (m x))); [|apply IH'].
  destruct (add_ends rank HR f x l (F x (or_introl eq_refl))) as [l1 E]. rewrite E. apply IH'.
Qed.
End Add.

(* With a cycle it does not. *)
Definition loop : memory := fun x => Ob Plain 1 [x] false false [].
Lemma loop_endless all : forall f x, add f loop all x [] = None.
Proof.
  induction f as [|f IH]; intros x; [reflexivity|]. rewrite add_eq. cbn. unfold sub, cond. cbn [named loop negb].
  rewrite orb_true_r. cbn [orb]. rewrite IH. reflexivity.
Qed.
