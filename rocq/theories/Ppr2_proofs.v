From Coq Require Import String.
From Verif Require Import Base Ppr_model Ppr_spec.
Local Open Scope Z_scope.

(** * What is written is read back *)
Definition V (c lc lcc : Z) (str label cmd : text) (args : list rs) : vars :=
  {| v_c := c; v_lastc := lc; v_lastcc := lcc; v_str := str; v_label := label; v_count := 0; v_comment := false;
     v_set := false; v_cmd := cmd; v_tail := []; v_args := args |}.

(** From these variables, with enough fuel, the loop ends on [s] with variables that satisfy [P]. *)
Definition R (ty : kind) (c : Z) (str label cmd : text) (args : list rs) (t : text) (s : stream) (P : vars -> Prop) : Prop :=
  forall lc lcc, exists n, forall fuel, (n <= fuel)%nat ->
    exists v, loop fuel ty 0 (V c lc lcc str label cmd args) (open t) (0%nat, 0%nat) = Done 0 v s (0%nat, 0%nat) /\ P v.

Lemma R_step : forall ty c str label cmd args t c' str' label' cmd' args' t' s P k,
  (forall lc lcc, exists lc' lcc', forall fuel, (k <= fuel)%nat ->
    loop (S fuel) ty 0 (V c lc lcc str label cmd args) (open t) (0%nat, 0%nat) =
    loop fuel ty 0 (V c' lc' lcc' str' label' cmd' args') (open t') (0%nat, 0%nat)) ->
  R ty c' str' label' cmd' args' t' s P -> R ty c str label cmd args t s P.
Proof.
  intros ty c str label cmd args t c' str' label' cmd' args' t' s P k H HR lc lcc.
  destruct (H lc lcc) as (lc' & lcc' & E). destruct (HR lc' lcc') as [n Hn].
  exists (S (n + k)). intros fuel L. destruct fuel as [|fuel]; [lia|]. rewrite E by lia. apply Hn. lia.
Qed.

Lemma plain_not : forall d, plain d ->
  (d =? 34) = false /\ (d =? 9) = false /\ (d =? 33) = false /\ (d =? 10) = false /\ (d =? 13) = false /\ (d =? 59) = false /\
  (d =? 32) = false /\ (d =? 40) = false /\ (d =? 123) = false /\ (d =? 41) = false /\ (d =? 125) = false /\ (d =? 124) = false /\
  (d =? 91) = false /\ (d =? 93) = false.
Proof.
  intros d [A B]. cbn [In] in B. repeat split; apply Z.eqb_neq; lia.
Qed.

Lemma plain_58 : plain 58.
Proof. split; [lia|]. cbn. intuition discriminate. Qed.

Lemma R_char : forall ty c str label cmd args d t s P, plain d ->
  R ty d (str ++ [d]) label cmd args t s P -> R ty c str label cmd args (d :: t) s P.
Proof.
  intros ty c str label cmd args d t s P Pd. apply (R_step _ _ _ _ _ _ _ _ _ _ _ _ _ _ _ 0).
  intros lc lcc. exists c, lc. intros fuel _.
  destruct (plain_not d Pd) as (E1 & E2 & E3 & E4 & E5 & E6 & E7 & E8 & E9 & E10 & E11 & E12 & E13 & E14).
  cbn [loop open eof get orb fail rest].
  cbn [negb andb v_comment with_c with_str V v_c v_lastc v_lastcc v_str v_label v_count v_set v_cmd v_tail v_args].
  rewrite E1, E2, E3, E4, E5, E6, E7, E8, E9, E10, E11, E12, E13, E14. reflexivity.
Qed.

Lemma quoted_read : forall q t, ~ In 34 q -> ~ In 10 q -> ~ In 13 q -> forall str c lastc, exists lc lcc, forall fuel, (S (List.length q) <= fuel)%nat ->
  read_quoted fuel (open (q ++ 34 :: t)) str c lastc = Closed (str ++ c :: q) lc lcc (open t).
Proof.
  induction q as [|d q IH]; intros t N1 N2 N3 str c lastc.
  - exists c, lastc. intros fuel L. destruct fuel as [|fuel]; [cbn in L; lia|]. reflexivity.
  - destruct (IH t (fun H => N1 (or_intror H)) (fun H => N2 (or_intror H)) (fun H => N3 (or_intror H)) (str ++ [c]) d c) as (lc & lcc & E).
    exists lc, lcc. intros fuel L. destruct fuel as [|fuel]; [cbn in L; lia|]. cbn [List.length] in L.
    cbn [app read_quoted]. unfold get, open; cbn [eof fail orb rest].
    destruct (Z.eqb_spec d 34) as [->|]; [exfalso; apply N1; left; reflexivity|].
    destruct (Z.eqb_spec d 10) as [->|]; [exfalso; apply N2; left; reflexivity|].
    destruct (Z.eqb_spec d 13) as [->|]; [exfalso; apply N3; left; reflexivity|]. cbn [orb].
    fold (open (q ++ 34 :: t)). rewrite E by lia. f_equal. now rewrite <- app_assoc.
Qed.

Lemma R_string : forall ty c str label cmd args q t s P, ~ In 34 q -> ~ In 10 q -> ~ In 13 q ->
  R ty 34 (str ++ 34 :: q ++ [34]) label cmd args t s P -> R ty c str label cmd args (34 :: q ++ 34 :: t) s P.
Proof.
  intros ty c str label cmd args q t s P N1 N2 N3. apply (R_step _ _ _ _ _ _ _ _ _ _ _ _ _ _ _ (S (List.length q))).
  intros lc lcc. destruct (quoted_read q t N1 N2 N3 str 34 c) as (lc' & lcc' & E). exists lc', lcc'. intros fuel L.
  cbn [loop open eof get orb fail rest].
  cbn [negb andb v_comment with_c with_str V v_c v_lastc v_lastcc v_str v_label v_count v_set v_cmd v_tail v_args].
  fold (open (q ++ 34 :: t)). change (34 =? 34) with true. cbn match. rewrite E by exact L.
  cbn [negb andb orb v_comment with_c with_str V v_c v_lastc v_lastcc v_str v_label v_count v_set v_cmd v_tail v_args].
  cbn -[loop]. rewrite <- app_assoc. reflexivity.
Qed.

Lemma last_cons : forall (a : Z) w c, last (a :: w) c = last w a.
Proof.
  intros a w. revert a. induction w as [|b w IH]; intros a c; [reflexivity|].
  change (last (a :: b :: w) c) with (last (b :: w) c). rewrite (IH b c), (IH b a). reflexivity.
Qed.

Lemma last_app_cons : forall (q : list Z) a w c, last (q ++ a :: w) c = last w a.
Proof. induction q as [|b q IH]; intros a w c; cbn [app]; [apply last_cons|]. rewrite last_cons. apply IH. Qed.

Lemma R_word : forall w, word w -> forall ty c str label cmd args t s P,
  R ty (last w c) (str ++ w) label cmd args t s P -> R ty c str label cmd args (w ++ t) s P.
Proof.
  induction 1 as [|d w Pd W IH|q w N1 N2 N3 W IH]; intros ty c str label cmd args t s P H.
  - rewrite app_nil_r in H. exact H.
  - cbn [app]. apply R_char; [exact Pd|]. apply IH. rewrite last_cons in H. rewrite <- app_assoc. exact H.
  - cbn [app]. rewrite <- app_assoc. cbn [app]. apply R_string; auto. apply IH.
    rewrite last_cons, last_app_cons in H. rewrite <- app_assoc. cbn [app]. rewrite <- app_assoc. exact H.
Qed.

(** ** The end of words *)
Definition always (ty : kind) : bool := is ty Set_ || is ty Development || is ty Root.
Definition flush (ty : kind) (cmd : text) (args : list rs) (str : text) : text * list rs :=
  match str with
  | [] => (cmd, args)
  | _ => if negb (match cmd with [] => true | _ => false end) || always ty then (cmd, args ++ [atom str]) else (str, args)
  end.

Ltac opens := cbn [loop open eof get peek orb fail rest];
  cbn [negb andb orb v_comment with_c with_str with_comment with_label with_tail push V v_c v_lastc v_lastcc v_str v_label v_count v_set v_cmd v_tail v_args].

Lemma R_space : forall ty c str cmd0 args0 cmd args t s P, ty <> Root -> flush ty cmd0 args0 str = (cmd, args) ->
  R ty 32 [] [] cmd args t s P -> R ty c str [] cmd0 args0 (32 :: t) s P.
Proof.
  intros ty c str cmd0 args0 cmd args t s P NR F. apply (R_step _ _ _ _ _ _ _ _ _ _ _ _ _ _ _ 0).
  intros lc lcc. exists c, lc. intros fuel _. opens. unfold end_word, flush, always in *.
  cbn -[loop]. destruct str as [|a str]; cbn -[loop is]; [injection F as -> ->; reflexivity|].
  assert (is ty Root = false) as N by (destruct ty; try reflexivity; congruence). rewrite N, orb_false_r in F.
  destruct (negb match cmd0 with [] => true | _ => false end || (is ty Set_ || is ty Development)); injection F as <- <-; reflexivity.
Qed.

Definition ended (cmd tail : text) (args : list rs) (v : vars) : Prop := v_cmd v = cmd /\ v_tail v = tail /\ v_args v = args.

Lemma R_end : forall ty c str cmd0 args0 t s (P : vars -> Prop) k,
  (forall lc lcc, exists v, P v /\ forall fuel, (k <= fuel)%nat ->
    loop (S fuel) ty 0 (V c lc lcc str [] cmd0 args0) (open t) (0%nat, 0%nat) = Done 0 v s (0%nat, 0%nat)) ->
  R ty c str [] cmd0 args0 t s P.
Proof.
  intros ty c str cmd0 args0 t s P k H lc lcc. destruct (H lc lcc) as (v & Pv & E).
  exists (S k). intros fuel L. destruct fuel as [|fuel]; [lia|]. exists v. split; [apply E; lia|exact Pv].
Qed.

Lemma tail_read : forall u t, Forall (fun c => 32 < c) u -> forall c tl fuel, (S (List.length u) <= fuel)%nat ->
  read_tail fuel (open (u ++ 10 :: t)) c tl = Some (tl ++ u, 10, open t).
Proof.
  induction u as [|d u IH]; intros t F c tl fuel L; (destruct fuel as [|fuel]; [cbn in L; lia|]).
  - cbn. now rewrite app_nil_r.
  - inversion F as [|? ? Fd Fu]; subst. cbn [app read_tail open eof get orb fail rest].
    apply Z.ltb_lt in Fd. rewrite Fd. fold (open (u ++ 10 :: t)). rewrite IH; [|exact Fu|cbn in L; lia].
    now rewrite <- app_assoc.
Qed.

Lemma R_close : forall ty o c str cmd0 args0 cmd args d t, (ty = Structure /\ o = 41 \/ ty = Development /\ o = 125) -> d <> 58 ->
  flush ty cmd0 args0 str = (cmd, args) ->
  R ty c str [] cmd0 args0 (o :: d :: t) (open (d :: t)) (ended cmd [] args).
Proof.
  intros ty o c str cmd0 args0 cmd args d t K D F. apply (R_end _ _ _ _ _ _ _ _ 0). intros lc lcc.
  exists (V o c lc [] [] cmd args). split; [repeat split|]. intros fuel _. apply Z.eqb_neq in D.
  destruct K as [[-> ->]|[-> ->]]; opens; cbn -[loop]; rewrite D; cbn -[loop];
    unfold end_word, flush in *; cbn -[loop] in *; destruct str as [|a str]; cbn -[loop] in *;
    try (injection F as -> ->; reflexivity).
  - destruct cmd0 as [|b cmd0]; cbn in *; injection F as <- <-; reflexivity.
  - rewrite orb_true_r in *. injection F as <- <-; reflexivity.
Qed.

Lemma R_close_tail : forall ty o c str cmd0 args0 cmd args u t, (ty = Structure /\ o = 41 \/ ty = Development /\ o = 125) ->
  Forall (fun c => 32 < c) u -> flush ty cmd0 args0 str = (cmd, args) ->
  R ty c str [] cmd0 args0 (o :: 58 :: u ++ 10 :: t) (open t) (ended cmd (58 :: u) args).
Proof.
  intros ty o c str cmd0 args0 cmd args u t K U F.
  assert (Forall (fun c => 32 < c) (58 :: u)) as U' by (constructor; [lia|exact U]).
  apply (R_end _ _ _ _ _ _ _ _ (S (S (List.length u)))). intros lc lcc.
  exists {| v_c := 10; v_lastc := c; v_lastcc := lc; v_str := []; v_label := []; v_count := 0; v_comment := false;
            v_set := false; v_cmd := cmd; v_tail := 58 :: u; v_args := args |}. split; [repeat split|]. intros fuel L.
  pose proof (tail_read (58 :: u) t U' o [] fuel L) as E. cbn [app] in E. unfold open in E.
  destruct K as [[-> ->]|[-> ->]]; opens; cbn -[loop read_tail]; rewrite E; cbn -[loop];
    unfold end_word, flush in *; cbn -[loop] in *; destruct str as [|a str]; cbn -[loop] in *;
    try (injection F as -> ->; reflexivity).
  - destruct cmd0 as [|b cmd0]; cbn in *; injection F as <- <-; reflexivity.
  - rewrite orb_true_r in *. injection F as <- <-; reflexivity.
Qed.

Lemma R_close_set : forall c str cmd0 args0 cmd args t, flush Set_ cmd0 args0 str = (cmd, args) ->
  R Set_ c str [] cmd0 args0 (93 :: t) (open t) (ended cmd [] args).
Proof.
  intros c str cmd0 args0 cmd args t F. apply (R_end _ _ _ _ _ _ _ _ 0). intros lc lcc.
  exists (V 93 c lc [] [] cmd args). split; [repeat split|]. intros fuel _. opens.
  cbn -[loop]. unfold end_word, flush in *. cbn -[loop] in *. destruct str as [|a str]; cbn -[loop] in *.
  - injection F as -> ->; reflexivity.
  - rewrite orb_true_r in *. injection F as <- <-; reflexivity.
Qed.

(** ** Sub-structures *)
Lemma R_sub : forall ty ty' o l c cmd args t s1 (P1 : vars -> Prop) r t1 s P,
  (ty' = Structure /\ o = 40 \/ ty' = Development /\ o = 123 \/ ty' = Set_ /\ o = 91 /\ exists d u, t = d :: u /\ d <> 93) ->
  label_ok l ->
  R ty' 0 [] [] [] [] t s1 P1 -> s1 = open t1 -> (forall v, P1 v -> made ty' l v = r) ->
  R ty o [] [] cmd (args ++ [r]) t1 s P -> R ty c [] [] cmd args (l ++ o :: t) s P.
Proof.
  intros ty ty' o l c cmd args t s1 P1 r t1 s P K L HR -> M H.
  assert (N : forall c0 str, (str = [] /\ l = [] \/ c0 = 58 /\ str = l /\ l <> []) -> R ty c0 str [] cmd args (o :: t) s P).
  { intros c0 str B lc lcc. destruct (HR 0 0) as [n1 H1]. destruct (H c0 lc) as [n2 H2]. exists (S (n1 + n2)).
    intros fuel Lf. destruct fuel as [|fuel]; [lia|]. destruct (H1 fuel ltac:(lia)) as (v1 & E1 & Q1).
    destruct (H2 fuel ltac:(lia)) as (v & E & Q). exists v. split; [|exact Q].
    assert (SUB : after_sub (loop fuel ty 0) 0 ty' l (V o c0 lc [] [] cmd args) (loop fuel ty' 0 (start []) (open t) (0%nat, 0%nat)) =
                  Done 0 v s (0%nat, 0%nat)).
    { change (start []) with (V 0 0 0 [] [] [] []). rewrite E1. cbn [after_sub step_count]. rewrite (M v1 Q1).
      cbn [push V v_c v_lastc v_lastcc v_str v_label v_count v_comment v_set v_cmd v_tail v_args]. exact E. }
    destruct K as [[-> ->]|[[-> ->]|(-> & -> & d & u & -> & D)]]; opens; cbn -[loop start after_sub].
    - destruct B as [[-> ->]|(-> & -> & NE)]; [exact SUB|]. destruct l as [|b l]; [congruence|]. cbn -[loop start after_sub]. exact SUB.
    - destruct B as [[-> ->]|(-> & -> & NE)]; [exact SUB|]. destruct l as [|b l]; [congruence|]. cbn -[loop start after_sub]. exact SUB.
    - apply Z.eqb_neq in D. rewrite D. destruct B as [[-> ->]|(-> & -> & NE)].
      + destruct (c0 =? 58); cbn -[loop start after_sub]; exact SUB.
      + cbn -[loop start after_sub]. exact SUB. }
  destruct L as [->|(w & -> & W)]; [apply N; left; auto|].
  rewrite <- app_assoc. apply R_word; [exact W|]. apply R_char; [exact plain_58|]. apply N. right. repeat split.
  destruct w; discriminate.
Qed.

Lemma R_empty_set : forall ty c0 cmd args d t s P, c0 <= 32 -> 32 <= d -> d <> 59 ->
  (forall c, R ty c [] [] cmd (args ++ [Rs Set_ [] [] [] []]) (d :: t) s P) -> R ty c0 [] [] cmd args (91 :: 93 :: d :: t) s P.
Proof.
  intros ty c0 cmd args d t s P D0 D1 D2 H. refine (R_step _ _ _ _ _ _ _ _ _ _ _ _ _ _ _ 0 _ (H 91)). clear H.
  intros lc lcc. exists c0, lc. intros fuel _. opens. cbn -[loop].
  apply Z.ltb_ge in D0. apply Z.ltb_ge in D1. apply Z.eqb_neq in D2. rewrite D1, D2.
  destruct (c0 =? 58); cbn -[loop Z.ltb]; rewrite D0, ?andb_false_r; reflexivity.
Qed.

(** ** Structural induction *)
Section Ind.
Variable P : rs -> Prop.
Hypothesis H : forall k cmd label tail args, Forall P args -> P (Rs k cmd label tail args).
Fixpoint rs_all (r : rs) : P r :=
  match r with
  | Rs k cmd label tail args => H k cmd label tail args
      ((fix go (l : list rs) : Forall P l := match l with [] => Forall_nil _ | a :: l => Forall_cons _ (rs_all a) (go l) end) args)
  end.
End Ind.

Definition is_atom (r : rs) : bool := is (kind_of r) Atom.
Definition pend_str (r : rs) : text := if is_atom r then cmd_of r else [].
Definition pend_args (r : rs) (args : list rs) : list rs := if is_atom r then args else args ++ [r].

Definition delim (d : Z) : Prop := d = 32 \/ d = 41 \/ d = 93 \/ d = 125 \/ d = 10.

(** A structure is read back inside another. *)
Definition child (r : rs) : Prop := fine r -> forall ty c cmd args d t s P,
  (bare_empty_set r -> c <= 32 /\ d <> 10) -> delim d ->
  (forall c, R ty c (pend_str r) [] cmd (pend_args r args) (d :: t) s P) -> R ty c [] [] cmd args (print r ++ d :: t) s P.

Lemma fine_all : forall args, fold_right (fun a P => fine a /\ P) True args -> Forall fine args.
Proof. induction args as [|a l IH]; intros H; constructor; [apply H|apply IH, H]. Qed.

Lemma atom_fine : forall r, fine r -> is_atom r = true -> r = atom (cmd_of r) /\ cmd_of r <> [].
Proof. intros [k cmd label tail args] F A. destruct k; try discriminate. destruct F as (_ & N & -> & -> & ->). auto. Qed.

Lemma flush_pend : forall ty cmd args r, fine r -> (is_atom r = true -> cmd <> [] \/ always ty = true) ->
  flush ty cmd (pend_args r args) (pend_str r) = (cmd, args ++ [r]).
Proof.
  intros ty cmd args r F A. unfold pend_args, pend_str. destruct (is_atom r) eqn:E; [|reflexivity].
  destruct (atom_fine r F E) as [-> N]. specialize (A eq_refl). cbn [cmd_of atom] in *. unfold flush.
  destruct (cmd_of r) as [|b u]; [congruence|]. destruct A as [A|A].
  - destruct cmd; [congruence|]. reflexivity.
  - rewrite A, orb_true_r. reflexivity.
Qed.

Definition spaced (l : list rs) : text := List.concat (map (fun a => txt " " ++ print a) l).

Lemma read_spaced : forall ty cmd s P d t, ty <> Root -> delim d -> d <> 10 -> forall l, Forall child l -> Forall fine l ->
  (forall a, In a l -> is_atom a = true -> cmd <> [] \/ always ty = true) ->
  forall cmd0 args0 str A, flush ty cmd0 args0 str = (cmd, A) ->
  (forall c cmd' args' str', flush ty cmd' args' str' = (cmd, A ++ l) -> R ty c str' [] cmd' args' (d :: t) s P) ->
  forall c, R ty c str [] cmd0 args0 (spaced l ++ d :: t) s P.
Proof.
  intros ty cmd s P d t NR D D10 l. induction l as [|a l IH]; intros HC HF HA cmd0 args0 str A F K c.
  - cbn. apply K. rewrite app_nil_r. exact F.
  - inversion HC as [|? ? Ca Cl]; subst. inversion HF as [|? ? Fa Fl]; subst.
    change (spaced (a :: l)) with (32 :: print a ++ spaced l). cbn [app]. rewrite <- app_assoc.
    apply (R_space _ _ _ _ _ cmd A _ _ _ NR F).
    assert (exists d' t', spaced l ++ d :: t = d' :: t' /\ delim d' /\ d' <> 10) as (d' & t' & E & D' & D10').
    { destruct l as [|b l]; [exists d, t; auto|]. eexists 32, _. split; [reflexivity|]. split; [left; reflexivity|discriminate]. }
    rewrite E. apply Ca; [exact Fa|split; [lia|exact D10']|exact D'|]. intros c'. rewrite <- E.
    apply IH with (A := A ++ [a]); auto.
    + intros b Ib. apply HA. right; exact Ib.
    + apply flush_pend; [exact Fa|]. apply HA. left; reflexivity.
    + intros c'' cmd' args' str' F'. apply K. rewrite F', <- app_assoc. reflexivity.
Qed.

Lemma between_cons : forall a l, between (txt " ") (map print (a :: l)) = print a ++ spaced l.
Proof.
  intros a l. revert a. induction l as [|b l IH]; intros a.
  - cbn. now rewrite app_nil_r.
  - change (map print (a :: b :: l)) with (print a :: map print (b :: l)).
    change (between (txt " ") (print a :: map print (b :: l))) with (print a ++ txt " " ++ between (txt " ") (map print (b :: l))).
    rewrite IH. reflexivity.
Qed.

Lemma word_first : forall w, word w -> w <> [] -> exists d u, w = d :: u /\ (d < 0 \/ 32 < d) /\ d <> 93.
Proof.
  intros w W N. destruct W as [|c w [A B] W|q w]; [congruence| |].
  - exists c, w. split; [reflexivity|]. split; [exact A|]. intros ->. apply B. cbn. tauto.
  - eexists 34, _. split; [reflexivity|]. split; lia.
Qed.

Lemma label_first : forall l o t, label_ok l -> 32 < o -> o <> 93 -> exists d u, l ++ o :: t = d :: u /\ (d < 0 \/ 32 < d) /\ d <> 93.
Proof.
  intros l o t [->|(w & -> & W)] O1 O2.
  - eexists o, t. split; [reflexivity|]. split; auto.
  - destruct w as [|a w]; [eexists 58, _; split; [reflexivity|]; lia|].
    destruct (word_first _ W ltac:(discriminate)) as (d & u & E & Q1 & Q2). rewrite E. eexists d, _. split; [reflexivity|]. auto.
Qed.

Ltac texts := try change (txt "(") with [40]; try change (txt ")") with [41]; try change (txt "[") with [91]; try change (txt "]") with [93];
  try change (txt "{") with [123]; try change (txt "}") with [125]; cbn [app].

Lemma print_first : forall r t, fine r -> exists d u, print r ++ t = d :: u /\ (d < 0 \/ 32 < d) /\ d <> 93.
Proof.
  intros [k cmd label tail args] t F. destruct k; try (destruct F; fail); cbn [print].
  - destruct F as (L & _). rewrite <- app_assoc. texts. apply (label_first label 40); [exact L|lia|lia].
  - destruct F as (L & _). rewrite <- app_assoc. texts. apply (label_first label 91); [exact L|lia|lia].
  - destruct F as (W & N & _). destruct (word_first _ W N) as (d & u & -> & Q1 & Q2). eexists d, _. split; [reflexivity|]. auto.
  - destruct F as (L & _). rewrite <- app_assoc. texts. apply (label_first label 123); [exact L|lia|lia].
Qed.

Lemma delim_not : forall d, delim d -> d <> 58.
Proof. unfold delim. intros d H. lia. Qed.

(** The inside of structures. *)
Lemma inside_structure : forall cmd args, word cmd -> Forall child args -> Forall fine args -> (cmd = [] -> forall a, In a args -> kind_of a <> Atom) ->
  forall t s Q, (forall c cmd' args' str', flush Structure cmd' args' str' = (cmd, args) -> R Structure c str' [] cmd' args' (41 :: t) s Q) ->
  R Structure 0 [] [] [] [] (cmd ++ spaced args ++ 41 :: t) s Q.
Proof.
  intros cmd args W HC HF HA t s Q K. apply R_word; [exact W|]. cbn [app].
  apply (read_spaced Structure cmd s Q 41 t) with (A := []); auto.
  - discriminate.
  - right; left; reflexivity.
  - discriminate.
  - intros a I E. left. intros ->. apply (HA eq_refl a I). unfold is_atom in E. destruct (kind_of a); try discriminate. reflexivity.
  - unfold flush. destruct cmd; reflexivity.
Qed.

Lemma inside_development : forall args, Forall child args -> Forall fine args ->
  forall t s Q, (forall c cmd' args' str', flush Development cmd' args' str' = ([], args) -> R Development c str' [] cmd' args' (125 :: t) s Q) ->
  R Development 0 [] [] [] [] (spaced args ++ 125 :: t) s Q.
Proof.
  intros args HC HF t s Q K.
  apply (read_spaced Development [] s Q 125 t) with (A := []); auto.
  - discriminate.
  - right; right; right; left; reflexivity.
  - discriminate.
Qed.

Lemma inside_set : forall a args, Forall child (a :: args) -> Forall fine (a :: args) ->
  forall t, R Set_ 0 [] [] [] [] (between (txt " ") (map print (a :: args)) ++ 93 :: t) (open t) (ended [] [] (a :: args)).
Proof.
  intros a args HC HF t. inversion HC as [|? ? Ca Cl]; subst. inversion HF as [|? ? Fa Fl]; subst.
  rewrite between_cons, <- app_assoc.
  assert (exists d' t', spaced args ++ 93 :: t = d' :: t' /\ delim d' /\ d' <> 10) as (d' & t' & E & D' & D10').
  { destruct args as [|b l]; [eexists 93, t; split; [reflexivity|]; split; [right; right; left; reflexivity|discriminate]|].
    eexists 32, _. split; [reflexivity|]. split; [left; reflexivity|discriminate]. }
  rewrite E. apply Ca; [exact Fa|split; [lia|exact D10']|exact D'|]. intros c'. rewrite <- E.
  apply (read_spaced Set_ [] _ _ 93 t) with (A := [a]); auto.
  - discriminate.
  - right; right; left; reflexivity.
  - discriminate.
  - rewrite flush_pend; auto.
  - intros c cmd' args' str' F. apply R_close_set. exact F.
Qed.

Lemma children : forall r, child r.
Proof.
  apply rs_all. intros k cmd label tail args IH F ty c cmd0 args0 d t s P B D K. pose proof (delim_not d D) as D58.
  destruct k; try (destruct F; fail); cbn [print].
  - destruct F as (L & -> & W & A & HA). apply fine_all in A. rewrite app_nil_r.
    repeat rewrite <- app_assoc. texts. 
    fold (spaced args). repeat rewrite <- app_assoc. cbn [app].
    eapply (R_sub ty Structure 40 label); [left; auto|exact L| |reflexivity| |apply (K 40)].
    + apply inside_structure; auto. intros c1 cmd' args' str' Fl. apply (R_close Structure 41); [left; auto|exact D58|exact Fl].
    + intros v (E1 & E2 & E3). unfold made. rewrite E1, E2, E3. reflexivity.
  - destruct F as (L & -> & -> & A & LE). apply fine_all in A. rewrite app_nil_r.
    repeat rewrite <- app_assoc. texts.
    destruct args as [|a args].
    + rewrite (LE eq_refl) in *. cbn [map between app]. 
      destruct (B eq_refl) as [B0 D10]. apply R_empty_set; [exact B0|unfold delim in D; lia|unfold delim in D; lia|exact K].
    + eapply (R_sub ty Set_ 91 label); [right; right; split; [reflexivity|]; split; [reflexivity|]|exact L|apply (inside_set a args IH A)|reflexivity| |apply (K 91)].
      * rewrite between_cons, <- !app_assoc. inversion A as [|? ? Fa Fl]; subst.
        destruct (print_first a (spaced args ++ txt "]" ++ d :: t) Fa) as (d1 & u1 & E & _ & N). exists d1, u1. split; [exact E|exact N].
      * intros v (E1 & E2 & E3). unfold made. rewrite E1, E2, E3. reflexivity.
  - destruct F as (W & N & -> & -> & ->). apply R_word; [exact W|]. cbn [app]. apply K.
  - destruct F as (L & -> & -> & A). apply fine_all in A. rewrite app_nil_r.
    repeat rewrite <- app_assoc. texts. fold (spaced args). repeat rewrite <- app_assoc. cbn [app].
    eapply (R_sub ty Development 123 label); [right; left; auto|exact L| |reflexivity| |apply (K 123)].
    + apply inside_development; auto. intros c1 cmd' args' str' Fl. apply (R_close Development 125); [right; auto|exact D58|exact Fl].
    + intros v (E1 & E2 & E3). unfold made. rewrite E1, E2, E3. reflexivity.
Qed.

(** ** The top *)
Definition s_end : stream := {| rest := []; eof := true; fail := true |}.

Lemma skip_end : forall fuel, (3 <= fuel)%nat -> skip_control fuel {| rest := []; eof := false; fail := false |} = Some s_end.
Proof. intros fuel L. do 3 (destruct fuel as [|fuel]; [lia|]). reflexivity. Qed.
Lemma indent_end : forall fuel, (3 <= fuel)%nat -> get_indent fuel s_end 0 = Some (0%nat, s_end).
Proof. intros fuel L. do 3 (destruct fuel as [|fuel]; [lia|]). reflexivity. Qed.
Lemma again_end : forall fuel ty v i, (3 <= fuel)%nat -> loop fuel ty 0 v s_end i = Done 0 v s_end i.
Proof. intros fuel ty v i L. destruct fuel as [|fuel]; [lia|]. reflexivity. Qed.

Lemma R_newline_end : forall c str args0 A, flush Root [] args0 str = ([], A) ->
  R Root c str [] [] args0 [10] s_end (fun v => v_args v = A).
Proof.
  intros c str args0 A F. apply (R_end _ _ _ _ _ _ _ _ 3). intros lc lcc.
  exists (V 10 c lc [] [] [] A). split; [reflexivity|]. intros fuel L.
  opens. cbn -[loop skip_control get_indent]. rewrite (skip_end fuel L), (indent_end fuel L).
  cbn -[loop]. unfold end_word, flush in *. cbn -[loop] in *.
  destruct str as [|a str]; cbn -[loop] in *; injection F as <-; apply again_end, L.
Qed.

Lemma skip_none : forall fuel d t, (1 <= fuel)%nat -> (d < 0 \/ 32 < d) ->
  skip_control fuel {| rest := d :: t; eof := false; fail := false |} = Some {| rest := d :: t; eof := false; fail := false |}.
Proof.
  intros fuel d t L D. destruct fuel as [|fuel]; [lia|]. cbn [skip_control eof peek orb fail rest].
  replace (control (Some d)) with false; [reflexivity|]. cbn. destruct (Z.leb_spec 0 d); destruct (Z.ltb_spec d 32); cbn; lia.
Qed.
Lemma indent_none : forall fuel d t, (1 <= fuel)%nat -> (d < 0 \/ 32 < d) ->
  get_indent fuel {| rest := d :: t; eof := false; fail := false |} 0 = Some (0%nat, {| rest := d :: t; eof := false; fail := false |}).
Proof.
  intros fuel d t L D. destruct fuel as [|fuel]; [lia|]. cbn [get_indent eof get orb fail rest].
  replace (d =? 32) with false by (symmetry; apply Z.eqb_neq; lia). reflexivity.
Qed.

Lemma R_newline : forall c str args0 A d t s P, (d < 0 \/ 32 < d) -> flush Root [] args0 str = ([], A) ->
  R Root 10 [] [] [] A (d :: t) s P -> R Root c str [] [] args0 (10 :: d :: t) s P.
Proof.
  intros c str args0 A d t s P D F. apply (R_step _ _ _ _ _ _ _ _ _ _ _ _ _ _ _ 1).
  intros lc lcc. exists c, lc. intros fuel L. opens. cbn -[loop skip_control get_indent].
  rewrite (skip_none fuel d t L D), (indent_none fuel d t L D).
  cbn -[loop]. unfold end_word, flush in *. cbn -[loop] in *.
  destruct str as [|a str]; cbn -[loop] in *; injection F as <-; reflexivity.
Qed.

Lemma R_eof : forall c A, R Root c [] [] [] A [] s_end (fun v => v_args v = A).
Proof.
  intros c A lc lcc. exists 2%nat. intros fuel L. do 2 (destruct fuel as [|fuel]; [lia|]).
  eexists. split; [reflexivity|]. reflexivity.
Qed.

Lemma top_first : forall r t, top_fine r -> exists d u, print r ++ t = d :: u /\ (d < 0 \/ 32 < d).
Proof.
  intros r t (_ & k & cmd & label & tail & args & -> & F & T & K).
  assert (exists u, print (Rs k cmd label tail args) ++ t = print (Rs k cmd label [] args) ++ u) as [u ->].
  { destruct k; first [exists t; reflexivity | exists (tail ++ t); cbn [print]; repeat rewrite <- app_assoc; reflexivity]. }
  destruct (print_first _ u F) as (d & v & E & Q & _). exists d, v. auto.
Qed.

Lemma read_top : forall l, Forall top_fine l -> forall c A, R Root c [] [] [] A (print_root l) s_end (fun v => v_args v = A ++ l).
Proof.
  induction l as [|a l IH]; intros HF c A.
  - rewrite app_nil_r. apply R_eof.
  - inversion HF as [|? ? Fa Fl]; subst. specialize (IH Fl). unfold print_root. cbn [map List.concat]. fold (print_root l).
    rewrite <- app_assoc. cbn [app].
    assert (NX : forall c str args0, flush Root [] args0 str = ([], A ++ [a]) ->
      R Root c str [] [] args0 (10 :: print_root l) s_end (fun v => v_args v = A ++ a :: l)).
    { intros c' str args0 F. destruct l as [|b l].
      - apply R_newline_end. exact F.
      - inversion Fl as [|? ? Fb _]; subst. unfold print_root in *. cbn [map List.concat] in *. rewrite <- app_assoc in *.
        destruct (top_first b ([10] ++ List.concat (map (fun a => print a ++ [10]) l)) Fb) as (d & u & E & Q).
        specialize (IH 10 (A ++ [a])). rewrite E in *. apply (R_newline _ _ _ (A ++ [a])); [exact Q|exact F|].
        rewrite <- app_assoc in IH. exact IH. }
    destruct Fa as (NB & k & cmd & label & tail & args & -> & F & T & K).
    destruct T as [->|(u & -> & U)].
    + apply children; [exact F|contradiction|right; right; right; right; reflexivity|]. intros c'. apply NX.
      apply flush_pend; [exact F|]. intros _. right; reflexivity.
    + specialize (IH 40 (A ++ [Rs k cmd label (58 :: u) args])) as IH1.
      specialize (IH 123 (A ++ [Rs k cmd label (58 :: u) args])) as IH2. rewrite <- app_assoc in IH1, IH2. cbn [app] in IH1, IH2.
      destruct (K ltac:(discriminate)) as [->| ->]; cbn [print]; repeat rewrite <- app_assoc; texts; fold (spaced args).
      * destruct F as (L & _ & W & HA & HC). apply fine_all in HA.
        eapply (R_sub Root Structure 40 label); [left; auto|exact L| |reflexivity| |exact IH1].
        -- apply inside_structure; auto; [apply Forall_forall; intros; apply children|].
           intros c1 cmd' args' str' Fl'. apply (R_close_tail Structure 41); [left; auto|exact U|exact Fl'].
        -- intros v (E1 & E2 & E3). unfold made. rewrite E1, E2, E3. reflexivity.
      * destruct F as (L & _ & -> & HA). apply fine_all in HA. cbn [app].
        eapply (R_sub Root Development 123 label); [right; left; auto|exact L| |reflexivity| |exact IH2].
        -- apply inside_development; auto; [apply Forall_forall; intros; apply children|].
           intros c1 cmd' args' str' Fl'. apply (R_close_tail Development 125); [right; auto|exact U|exact Fl'].
        -- intros v (E1 & E2 & E3). unfold made. rewrite E1, E2, E3. reflexivity.
Qed.

Lemma read_print : forall l, Forall top_fine l -> exists n, forall fuel, (n <= fuel)%nat -> read fuel (print_root l) = Structures l.
Proof.
  intros l F. destruct (read_top l F 0 [] 0 0) as [n H]. exists n. intros fuel L. destruct (H fuel L) as (v & E & A).
  unfold read. change (start []) with (V 0 0 0 [] [] [] []). rewrite E. cbn. rewrite A. reflexivity.
Qed.
