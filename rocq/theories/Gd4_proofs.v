From Coq Require Import List ZArith Bool Arith Lia.
From Verif Require Import Gd_model Gd_spec Gd_proofs Gd2_proofs Gd3_proofs.
Import ListNotations.

(* Operators for the cases: 0 adds, 1 compares (greater), 2 makes a time. *)
Definition w_ops (f : nat) (vs : list val) : option val :=
  match f, vs with
  | 0, [VFloat a; VFloat b] => Some (VFloat (a + b))
  | 1, [VFloat a; VFloat b] => Some (VBool (b <? a)%Z)
  | 2, [VFloat a] => Some (VTime a)
  | 2, [VTime a] => Some (VTime (a + 1))
  | _, _ => None
  end.

Definition no_bindings : env := fun _ => None.
Definition num (z : Z) : expr := Lit (VFloat z).

(* Guards that do not hold of what they leave: a test, then an assignment. *)
Definition w_spoiled : list guard :=
  [Test (Op 1 [Var 0; num 0]); Assign 0 (Op 0 [num (-1); num 0])].

Lemma spoiled : exists s',
  eval_guards w_ops 0 (set no_bindings 0 (VFloat 5)) w_spoiled = Some s' /\
  exists g, In g w_spoiled /\ ~ satisfied w_ops s' g.
Proof.
  eexists; split; [vm_compute; reflexivity|].
  exists (Test (Op 1 [Var 0; num 0])). split; [left; reflexivity|].
  intros (v & D & N). apply eval_denotes in D. cbn in D. injection D as <-. apply N; reflexivity.
Qed.

(* A boolean is not bound. *)
Lemma not_bound : exists s',
  eval_guard w_ops 0 (set no_bindings 1 (VFloat 5)) (Assign 0 (Op 1 [Var 1; num 0])) = Some s' /\
  denotes w_ops (set no_bindings 1 (VFloat 5)) (Op 1 [Var 1; num 0]) (VBool true) /\
  s' 0 = None.
Proof.
  eexists; split; [vm_compute; reflexivity|]. split; [|reflexivity].
  apply eval_denotes; reflexivity.
Qed.

(* A literal object is bound with its variables inside. *)
Lemma hole_bound : exists s',
  eval_guard w_ops 0 (set no_bindings 1 (VFloat 5)) (Assign 0 (Str KObject [Var 1; num 0])) = Some s' /\
  denotes w_ops (set no_bindings 1 (VFloat 5)) (Str KObject [Var 1; num 0]) (VStr KObject [VFloat 5; VFloat 0]) /\
  s' 0 = Some (VStr KObject [VHole 1; VFloat 0]).
Proof.
  eexists; split; [vm_compute; reflexivity|]. split; [|reflexivity].
  apply eval_denotes; reflexivity.
Qed.

(* A template argument that cannot be computed is let through unbound. *)
Lemma template_unbound : exists s',
  eval_guard w_ops 1 no_bindings (Assign 0 (Op 0 [Var 1; num 0])) = Some s' /\ s' 0 = None.
Proof. eexists; split; [vm_compute; reflexivity|reflexivity]. Qed.

(* A value found by matching is replaced. *)
Lemma overwritten : exists s',
  eval_guards w_ops 0 (set no_bindings 0 (VFloat 5)) [Assign 0 (Op 0 [num 6; num 0])] = Some s' /\
  s' 0 = Some (VFloat 6).
Proof. eexists; split; [vm_compute; reflexivity|reflexivity]. Qed.

(* Two assignments of a variable, the second without a value. *)
Definition w_twice : list guard :=
  [Assign 0 (Op 0 [num 1; num 2]); Assign 0 (Op 0 [Var 1; num 2])].

Lemma twice : as_written w_twice /\ (exists s', eval_guards w_ops 0 no_bindings w_twice = Some s') /\
  scan_answers 0 no_bindings w_twice false.
Proof.
  split; [|split].
  - intros x y [H|[H|[]]]; discriminate.
  - eexists; vm_compute; reflexivity.
  - exists 1. intros [|m] L; [lia|]. reflexivity.
Qed.

(* A variable used before it is assigned. *)
Definition w_late : list guard :=
  [Test (Op 1 [Var 1; num 0]); Assign 1 (Op 0 [Var 0; num 2])].

Lemma late : scan_answers 0 (set no_bindings 0 (VFloat 5)) w_late true /\
  eval_guards w_ops 0 (set no_bindings 0 (VFloat 5)) w_late = None /\
  exists s', eval_guards w_ops 0 (set no_bindings 0 (VFloat 5)) (rev w_late) = Some s'.
Proof.
  split; [|split].
  - exists 2. intros [|[|m]] L; [lia|lia|]. reflexivity.
  - reflexivity.
  - eexists; vm_compute; reflexivity.
Qed.

(* A variable that nothing binds, in a literal. *)
Definition w_literal : list guard := [Assign 0 (Str KObject [Var 1; num 0])].

Lemma literal : scan_answers 0 no_bindings w_literal true /\
  forall ops, eval_guards ops 0 no_bindings w_literal = None.
Proof. split; [exists 0; reflexivity|reflexivity]. Qed.

(* Two variables assigned from each other. *)
Definition w_mutual : list guard :=
  [Assign 0 (Op 0 [Var 1; num 1]); Assign 1 (Op 0 [Var 0; num (-1)])].

Lemma mutual_variable : forall n,
  scan_variable 0 no_bindings w_mutual n 1 1 = None /\ scan_variable 0 no_bindings w_mutual n 2 0 = None.
Proof.
  induction n as [|n [IH1 IH2]]; [split; reflexivity|].
  split.
  - transitivity (scan_location (scan_variable 0 no_bindings w_mutual n 2) (Op 0 [Var 0; num (-1)])); [reflexivity|].
    cbn [scan_location fold_right]. rewrite IH2; reflexivity.
  - transitivity (scan_location (scan_variable 0 no_bindings w_mutual n 1) (Op 0 [Var 1; num 1])); [reflexivity|].
    cbn [scan_location fold_right]. rewrite IH1; reflexivity.
Qed.

Lemma mutual : scan_endless 0 no_bindings w_mutual.
Proof.
  intro n. unfold scan_guards.
  change (match scan_location (scan_variable 0 no_bindings w_mutual n 1) (Op 0 [Var 1; num 1]) with
          | Some true => scan_from 0 no_bindings w_mutual n (tl w_mutual) 2
          | Some false => if counted_bound 0 no_bindings 0 then scan_from 0 no_bindings w_mutual n (tl w_mutual) 2 else Some false
          | None => None
          end = None).
  cbn [scan_location fold_right]. rewrite (proj1 (mutual_variable n)). reflexivity.
Qed.

(* Forward timings reported, not there. *)
Definition w_numbers : list guard :=
  [Assign 1 (Op 0 [Var 0; num 0]); Assign 2 (Op 0 [Var 0; num 1])].

Lemma numbers : exists s',
  fwd_timings w_ops 0 (set no_bindings 0 (VFloat 5)) w_numbers 1 2 = Some s' /\
  ~ time_bound s' 1 /\ ~ time_bound s' 2.
Proof.
  eexists; split; [vm_compute; reflexivity|].
  split; intros (t & H); vm_compute in H; discriminate.
Qed.

(* Forward timings that need another variable. *)
Definition w_chain : list guard :=
  [Assign 3 (Op 0 [Var 0; num 1]); Assign 1 (Op 2 [Var 0]); Assign 2 (Op 2 [Var 3])].

Lemma chain : (exists s', eval_guards w_ops 0 (set no_bindings 0 (VFloat 5)) w_chain = Some s' /\
    time_bound s' 1 /\ time_bound s' 2) /\
  fwd_timings w_ops 0 (set no_bindings 0 (VFloat 5)) w_chain 1 2 = None.
Proof.
  split; [|reflexivity].
  eexists; split; [vm_compute; reflexivity|]. split; eexists; reflexivity.
Qed.

(* Cases that meet the hypotheses. *)
Definition w_good : list guard :=
  [Assign 1 (Op 2 [Var 0]); Assign 2 (Op 2 [Var 1]); Assign 3 (Op 0 [Var 0; num 1]); Test (Op 1 [Var 3; Var 0])].

Definition w_start : env := set no_bindings 0 (VFloat 5).

Lemma good_runs : exists s', eval_guards w_ops 0 w_start w_good = Some s' /\
  s' 1 = Some (VTime 5) /\ s' 2 = Some (VTime 6) /\ s' 3 = Some (VFloat 6).
Proof. eexists; split; [vm_compute; reflexivity|]. repeat split; reflexivity. Qed.

Lemma w_sums : forall vs v, w_ops 0 vs = Some v -> number_or_structure v.
Proof.
  intros vs v H.
  destruct vs as [|[] [|[] [|]]]; cbn in H; try discriminate; injection H as <-; exact Logic.I.
Qed.

Lemma w_times : forall vs v, w_ops 2 vs = Some v -> exists t, v = VTime t.
Proof.
  intros vs v H. destruct vs as [|[] [|]]; cbn in H; try discriminate; injection H as <-; eexists; reflexivity.
Qed.

Lemma good_definite : definite_assignments w_ops w_good.
Proof.
  intros x e [H|[H|[H|[H|[]]]]]; try discriminate; injection H as <- <-; constructor.
  - intros vs v H. destruct (w_times vs v H) as (t & ->). exact Logic.I.
  - intros vs v H. destruct (w_times vs v H) as (t & ->). exact Logic.I.
  - exact w_sums.
Qed.

Lemma good_fresh : NoDup (targets w_good) /\ forall x, In x (targets w_good) -> ~ given 0 w_start x.
Proof.
  split.
  - cbn. repeat constructor; cbn; intuition discriminate.
  - intros x I [H|H]; [lia|]. cbn in I.
    destruct I as [<-|[<-|[<-|[]]]]; apply H; reflexivity.
Qed.

Lemma good_written : as_written w_good.
Proof. intros x y [H|[H|[H|[H|[]]]]]; discriminate. Qed.

Lemma good_uses : uses_only w_start w_good 1 2 /\ uses_only w_start w_good 2 1.
Proof.
  split; intros e z [H|[H|[H|[H|[]]]]] O; try discriminate; injection H as <-.
  - left. inversion O as [|? ? a I Oa|]; subst. destruct I as [<-|[]]. inversion Oa; subst. discriminate.
  - right. inversion O as [|? ? a I Oa|]; subst. destruct I as [<-|[]]. inversion Oa; subst. reflexivity.
Qed.

Lemma good_times : assigned_times w_ops w_good 1 /\ assigned_times w_ops w_good 2.
Proof.
  split; intros e [H|[H|[H|[H|[]]]]]; try discriminate; injection H as <-;
    eexists; eexists; (split; [reflexivity|exact w_times]).
Qed.

Lemma good_ranked : ranked 0 w_start w_good (fun x => x).
Proof.
  intros x e y (l1 & l2 & E & N) O NX NY.
  assert (In (Assign x e) w_good) as I by (rewrite E, in_app_iff; right; left; reflexivity).
  destruct I as [H|[H|[H|[H|[]]]]]; try discriminate; injection H as <- <-;
    inversion O as [|? ? a Ia Oa]; subst; cbn in Ia;
    repeat (destruct Ia as [<-|Ia]; [inversion Oa; subst|]); try destruct Ia;
    try lia; exfalso; apply NY; right; discriminate.
Qed.

(* An order in which the scan and the evaluation agree, with operators that never fail. *)
Definition w_total (f : nat) (vs : list val) : option val := Some (VFloat (Z.of_nat (length vs))).

Lemma total_case :
  scan_guards 0 w_start 3 w_good = Some true /\ (forall x, x < 0 -> w_start x <> None) /\
  in_order w_start w_good /\ literals_bound w_start w_good /\ tests_apply_operators w_good /\
  definite_assignments w_total w_good /\ never_failing w_total.
Proof.
  repeat split.
  - lia.
  - intros l1 g l2 x E O N I.
    destruct l1 as [|g1 [|g2 [|g3 [|g4 [|g5 l1]]]]]; cbn in E; try discriminate;
      injection E as <- ; subst; cbn [body] in O;
      inversion O as [|? ? a Ia Oa|]; subst; cbn in Ia;
      repeat (destruct Ia as [<-|Ia]; [inversion Oa; subst|]); try destruct Ia;
      try (vm_compute in N; discriminate); cbn; auto.
  - intros g x I O.
    left. destruct I as [<-|[<-|[<-|[<-|[]]]]]; cbn [body] in *;
      inversion O as [|? ? a Ia Oa|]; subst; cbn in Ia;
      repeat (destruct Ia as [<-|Ia]; [inversion Oa; subst|]); try destruct Ia;
      (solve [econstructor; [left; reflexivity|constructor]
             |econstructor; [right; left; reflexivity|constructor]]).
  - intros e I. cbn in I.
    destruct I as [H|[H|[H|[H|[]]]]]; try discriminate. injection H as <-. eexists; eexists; reflexivity.
  - intros x e I. cbn in I. destruct I as [H|[H|[H|[H|[]]]]]; try discriminate; injection H as <- <-; constructor;
      intros vs v H; injection H as <-; exact Logic.I.
  - intros f vs. eexists; split; [reflexivity|discriminate].
Qed.

Lemma w_compares : forall vs v, w_ops 1 vs = Some v -> one_word v.
Proof.
  intros vs v H.
  destruct vs as [|[] [|[] [|]]]; cbn in H; try discriminate; injection H as <-; exact Logic.I.
Qed.

Lemma literal_definite : definite w_ops (Str KObject [Op 1 [Var 0; num 3]; num 0]) /\
  exists s', eval_guard w_ops 0 w_start (Assign 1 (Str KObject [Op 1 [Var 0; num 3]; num 0])) = Some s' /\
    s' 1 = Some (VStr KObject [VBool true; VFloat 0]).
Proof.
  split.
  - constructor. constructor. intros a [<-|[<-|[]]]; [constructor; exact w_compares|constructor].
  - eexists; split; [vm_compute; reflexivity|reflexivity].
Qed.
