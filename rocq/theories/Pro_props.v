(* C204 to C206: facts kept for a later time in a simulation. *)
From Coq Require Import ZArith QArith List Bool Arith.
From Verif Require Import Pro_model Pro_spec Pro_proofs.
Import ListNotations.

(* Facts about the same object at the same time; about the same object. *)
Definition same (a b : fact) : bool := Nat.eqb (obj a) (obj b) && Z.eqb (after a) (after b) && Z.eqb (before a) (before b).
Definition about (a b : fact) : bool := Nat.eqb (obj a) (obj b).
Definition all (f : fact) := true.
Definition box := Fc 1 2 false 0 5 1 false.
Definition ball := Fc 2 3 false 0 5 (1 # 2) false.
Definition group := Fc 3 4 false 0 5 1 true.
Definition hand := Fc 4 1 false 10 20 1 false.
Definition no_box := Fc 5 2 true 10 20 1 false.
Definition hand2 := Fc 6 1 false 30 40 1 false.
Definition nothing := Ev 0 true None [] no_box false all.
Definition moves := Ev 1 true (Some 5%Z) [box; group; ball] hand false all.
Definition again := Ev 1 true (Some 5%Z) [box; group; ball] hand2 false all.
Definition other := Ev 2 true (Some 5%Z) [box] hand false all.

(* C204.  What is kept for a later time gives way to what is predicted for that time: this is wrong
   if the prediction comes first. *)
Theorem C204_refuted : exists e1 e e2 n f p,
  counts e /\ stands (run same about (e1 ++ e :: e2)) n f p /\ same (inp e) p = true /\ neg (inp e) = negb (neg p).
Proof.
  exists [], nothing, [moves], 0%nat, box, (Fc 0 2 false 10 20 1 false). split; [split; reflexivity|].
  split; [split; [exists 1%nat; left; reflexivity|intros []]|split; reflexivity].
Qed.
Print Assumptions C204_refuted.
(* It gives way to whatever comes after it. *)
Theorem C204_after_partial : forall evidence timeless es e e2 n o f p,
  counts e -> In (n, o, f, p) (made (run evidence timeless es)) -> evidence (inp e) p = true ->
  In n (invalid (run evidence timeless (es ++ e :: e2))).
Proof. exact defeated. Qed.
Print Assumptions C204_after_partial.
(* And nothing is kept any more against what it has given way to. *)
Theorem C204_before_partial : forall evidence timeless es e n f p e2 n' o' f' p',
  counts e -> stands (run evidence timeless es) n f p -> evidence (inp e) p = true ->
  In (n', o', f', p') (made (run evidence timeless ((es ++ [e]) ++ e2))) -> ~ In (n', o', f', p') (made (run evidence timeless (es ++ [e]))) ->
  evidence p' (inp e) = false.
Proof.
  intros ev tl es e n f p e2 n' o' f' p' C ((o1 & M) & I) E H N. eapply not_against; [exact H|exact N|]. eapply defeating_iff; eassumption.
Qed.
Print Assumptions C204_before_partial.
(* It gives way to nothing else. *)
Theorem C204_only_partial : forall evidence timeless es n, In n (invalid (run evidence timeless es)) ->
  exists e1 e e2 o f p, es = e1 ++ e :: e2 /\ counts e /\ In (n, o, f, p) (made (run evidence timeless e1)) /\ evidence (inp e) p = true.
Proof. exact only_defeated. Qed.
Print Assumptions C204_only_partial.
Example C204_case :
  map (fun x => (fst (fst (fst x)), obj (snd x))) (made (run same about [moves; nothing; other; again])) = [(0, 2); (1, 3)]%nat /\
  invalid (run same about [moves; nothing; other; again]) = [0]%nat.
Proof. split; reflexivity. Qed.

(* C205.  No fact is kept twice at a time, and an overlay does this once only. *)
Theorem C205_one : forall evidence timeless es n f p n' f' p',
  stands (run evidence timeless es) n f p -> stands (run evidence timeless es) n' f' p' -> fid f = fid f' -> n = n'.
Proof. exact one_of_each. Qed.
Print Assumptions C205_one.
Theorem C205_overlay : forall evidence timeless es e e2, counts e -> is_later e ->
  filter (of_ov (ov e)) (made (run evidence timeless (es ++ e :: e2))) = filter (of_ov (ov e)) (made (run evidence timeless (es ++ [e]))).
Proof. exact overlay_once. Qed.
Print Assumptions C205_overlay.
Example C205_case :
  counts moves /\ is_later moves /\ length (made (run same about [moves; again; other; again])) = 2%nat /\ invalid (run same about [moves; again; other; again]) = [].
Proof. split; [split; reflexivity|]. split; [split; [exists 5%Z; split; [reflexivity|discriminate]|reflexivity]|]. split; reflexivity. Qed.

(* C206.  What is kept: a fact of the overlay, no composite state, for the time of a later
   input that does not say the same or the opposite. *)
Theorem C206_origin : forall evidence timeless es n o f p, In (n, o, f, p) (made (run evidence timeless es)) ->
  exists e1 e e2, es = e1 ++ e :: e2 /\ counts e /\ is_later e /\ o = ov e /\ In f (saved e) /\ icst f = false /\ timeless f (inp e) = false /\
    kept_for f (inp e) p.
Proof. exact origin. Qed.
Print Assumptions C206_origin.
(* All of those are, when the first later input comes, unless something that defeated another one
   is in the way or the prediction cannot be injected. *)
Theorem C206_all : forall evidence timeless es e f,
  counts e -> is_later e -> (forall x, In x es -> counts x -> is_later x -> ov x <> ov e) ->
  In f (saved e) -> icst f = false -> timeless f (inp e) = false -> accepts e f = true ->
  (forall g, In g (defeating (run evidence timeless (es ++ [e]))) -> evidence (shifted f (inp e)) g = false) ->
  exists n f' p, stands (run evidence timeless (es ++ [e])) n f' p /\ fid f' = fid f.
Proof.
  intros ev tl es e f C L N I A B X D. apply all_kept; auto. intros H. apply done_from in H. destruct H as (e1 & x & e2 & -> & C' & L' & E).
  apply (N x); auto. apply in_or_app. right. left. reflexivity.
Qed.
Print Assumptions C206_all.
(* What defeated another one is an input that was evidence of a fact kept at that moment. *)
Theorem C206_in_the_way : forall evidence timeless es g, In g (defeating (run evidence timeless es)) <->
  exists e1 e e2 n f p, es = e1 ++ e :: e2 /\ counts e /\ g = inp e /\ stands (run evidence timeless e1) n f p /\ evidence g p = true.
Proof. exact in_the_way. Qed.
Print Assumptions C206_in_the_way.
Example C206_case : map (fun x => snd x) (made (run same about [nothing; moves])) =
  [Fc 0 2 false 10 20 1 false; Fc 0 3 false 10 20 (1 # 2) false].
Proof. reflexivity. Qed.
