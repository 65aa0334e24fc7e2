From Coq Require Import String.
From Verif Require Import Base Ppr_model Ppr_spec.
Local Open Scope Z_scope.

(** * Reading ends *)
Definition ends (t : text) : Prop := t = [] \/ exists r, t = r ++ [10].

Definition ok (s : stream) : Prop := eof s = true \/ (eof s = false /\ fail s = false /\ ends (rest s)).
Definition mu (s : stream) : nat := if eof s then 0 else S (List.length (rest s)).

Lemma ends_tail : forall c r, ends (c :: r) -> ends r.
Proof.
  intros c r [E|[u E]]; [discriminate|]. destruct u as [|d u].
  - injection E as _ ->. left; reflexivity.
  - injection E as _ ->. right; exists u; reflexivity.
Qed.

Lemma get_ok : forall s, ok s -> ok (snd (get s)) /\ (mu (snd (get s)) <= mu s)%nat /\
  (eof s = false -> (mu (snd (get s)) < mu s)%nat).
Proof.
  intros [r e f] O. unfold get, ok, mu in *; cbn in *. destruct e; cbn.
  - split; [left; reflexivity|]. split; [lia|discriminate].
  - destruct O as [O|(_ & -> & O)]; [discriminate|]. cbn. destruct r as [|c r]; cbn.
    + split; [left; reflexivity|]. split; [lia|intros; lia].
    + split; [right; repeat split; now apply ends_tail in O|]. split; [lia|intros; lia].
Qed.

Lemma peek_ok : forall s, ok s -> ok (snd (peek s)) /\ (mu (snd (peek s)) <= mu s)%nat.
Proof.
  intros [r e f] O. unfold peek, ok, mu in *; cbn in *. destruct e; cbn.
  - split; [left; reflexivity|lia].
  - destruct O as [O|(_ & -> & O)]; [discriminate|]. cbn. destruct r as [|c r]; cbn.
    + split; [left; reflexivity|lia].
    + split; [right; auto|lia].
Qed.

(** At the end, or with something to read. *)
Definition going (s : stream) : Prop := eof s = true \/ (eof s = false /\ fail s = false /\ rest s <> []).

Lemma peek_some : forall s c, fst (peek s) = Some c -> snd (peek s) = s /\ eof s = false /\ fail s = false /\ exists r, rest s = c :: r.
Proof.
  intros [r e f] c. unfold peek; cbn. destruct e, f; cbn; try discriminate.
  destruct r as [|d r]; cbn; [discriminate|]. intro E; injection E as ->. repeat split. exists r; reflexivity.
Qed.

Lemma skip_control_ok : forall fuel s, ok s -> (mu s < fuel)%nat ->
  exists s', skip_control fuel s = Some s' /\ ok s' /\ (mu s' <= mu s)%nat /\ going s'.
Proof.
  induction fuel as [|fuel IH]; intros s O L; [lia|]. cbn [skip_control].
  destruct (eof s) eqn:E.
  - exists s. repeat split; auto. left; exact E.
  - destruct (peek_ok s O) as [P1 P2]. pose proof (peek_some s) as P3. destruct (peek s) as [p s1]. cbn in P1, P2, P3.
    destruct (control p) eqn:C.
    + destruct (get_ok s1 P1) as (G1 & G2 & G3).
      assert (mu (snd (get s1)) < fuel)%nat as Lf.
      { destruct (eof s1) eqn:E1; [|specialize (G3 eq_refl); lia].
        assert (mu s1 = 0)%nat by (unfold mu; rewrite E1; reflexivity).
        assert (0 < mu s)%nat by (unfold mu; rewrite E; lia). lia. }
      destruct (IH _ G1 Lf) as (s' & R & O' & M & G). exists s'. repeat split; auto. lia.
    + destruct p as [c|]; [|discriminate]. destruct (P3 c eq_refl) as (-> & Es & Fs & r & Er).
      exists s. repeat split; auto. right. rewrite Er. split; [exact Es|]. split; [exact Fs|discriminate].
Qed.

Lemma get_indent_ok : forall fuel s n, ok s -> going s -> (mu s < fuel)%nat ->
  exists k s', get_indent fuel s n = Some (k, s') /\ ok s' /\ (mu s' <= mu s)%nat.
Proof.
  induction fuel as [|fuel IH]; intros [r e f] n O G L; [lia|]. cbn [get_indent eof].
  destruct e.
  - eexists _, _. split; [reflexivity|]. split; [exact O|lia].
  - destruct G as [G|(_ & Ff & G)]; [discriminate|]. cbn in Ff, G. subst f.
    destruct r as [|c r]; [contradiction|].
    destruct O as [O|(_ & _ & O)]; [discriminate|]. cbn in O.
    unfold get; cbn [orb eof fail rest].
    destruct (Z.eqb_spec c 32) as [->|N].
    + destruct (IH {| rest := r; eof := false; fail := false |} (S n)) as (k & s' & R & O' & M).
      * right. cbn. repeat split. now apply ends_tail in O.
      * right. cbn. repeat split. intros ->. destruct O as [O|[u O]]; [discriminate|].
        destruct u as [|d [|]]; cbn in O; discriminate.
      * unfold mu in *; cbn in *. lia.
      * exists k, s'. split; [exact R|]. split; [exact O'|]. unfold mu in *; cbn in *. destruct (eof s'); lia.
    + eexists _, _. split; [reflexivity|]. unfold back, ok, mu; cbn. split; [right; auto|lia].
Qed.

Lemma read_tail_ok : forall fuel s c t, ok s -> (mu s < fuel)%nat ->
  exists t' c' s', read_tail fuel s c t = Some (t', c', s') /\ ok s' /\ (mu s' <= mu s)%nat.
Proof.
  induction fuel as [|fuel IH]; intros s c t O L; [lia|]. cbn [read_tail].
  destruct (eof s) eqn:E.
  - eexists _, _, _. split; [reflexivity|]. split; [exact O|lia].
  - destruct (get_ok s O) as (G1 & G2 & G3). specialize (G3 E). destruct (get s) as [d s1]. cbn in G1, G2, G3.
    destruct (32 <? d).
    + destruct (IH s1 d (t ++ [d]) G1 ltac:(lia)) as (t' & c' & s' & R & O' & M). exists t', c', s'. repeat split; auto. lia.
    + eexists _, _, _. split; [reflexivity|]. split; [exact G1|lia].
Qed.

Lemma read_name_ok : forall fuel s t, ok s -> (mu s < fuel)%nat ->
  exists t' s', read_name fuel s t = Some (t', s') /\ ok s' /\ (mu s' <= mu s)%nat.
Proof.
  induction fuel as [|fuel IH]; intros s t O L; [lia|]. cbn [read_name].
  destruct (eof s) eqn:E.
  - eexists _, _. split; [reflexivity|]. split; [exact O|lia].
  - destruct (peek_ok s O) as [P1 P2]. pose proof (peek_some s) as P3. destruct (peek s) as [p s1]. cbn in P1, P2, P3.
    destruct (32 <? as_char p) eqn:C.
    + destruct p as [c|]; [|discriminate]. destruct (P3 c eq_refl) as (-> & Es & _).
      destruct (get_ok s O) as (G1 & G2 & G3). specialize (G3 Es). destruct (get s) as [d s2]. cbn in G1, G2, G3.
      destruct (IH s2 (t ++ [d]) G1 ltac:(lia)) as (t' & s' & R & O' & M). exists t', s'. repeat split; auto. lia.
    + eexists _, _. split; [reflexivity|]. split; [exact P1|lia].
Qed.

Lemma skip_line_ok : forall fuel s, ok s -> (mu s < fuel)%nat ->
  exists s', skip_line fuel s = Some s' /\ ok s' /\ (mu s' <= mu s)%nat.
Proof.
  induction fuel as [|fuel IH]; intros s O L; [lia|]. cbn [skip_line].
  destruct (eof s) eqn:E.
  - exists s. repeat split; auto.
  - destruct (peek_ok s O) as [P1 P2]. pose proof (peek_some s) as P3. destruct (peek s) as [p s1]. cbn in P1, P2, P3.
    destruct p as [c|].
    + destruct (P3 c eq_refl) as (-> & Es & _). destruct ((c <? 0) || (13 <? c)).
      * destruct (get_ok s O) as (G1 & G2 & G3). specialize (G3 Es).
        destruct (IH _ G1 ltac:(lia)) as (s' & R & O' & M). exists s'. repeat split; auto. lia.
      * exists s. repeat split; auto.
    + exists s1. repeat split; auto.
Qed.

Lemma read_quoted_ok : forall fuel s str c lastc, eof s = false -> fail s = false -> (exists r, rest s = r ++ [10]) -> (mu s < fuel)%nat ->
  match read_quoted fuel s str c lastc with
  | Closed _ _ _ s' => ok s' /\ (mu s' <= mu s)%nat
  | Newline => True
  | Endless => False
  end.
Proof.
  induction fuel as [|fuel IH]; intros [r e f] str c lastc E F [u R] L; [lia|]. cbn in E, F, R. subst e f r.
  cbn [read_quoted]. unfold get; cbn [orb eof fail rest]. destruct u as [|d u]; cbn [app].
  - rewrite Z.eqb_refl. cbn. exact Logic.I.
  - destruct (d =? 34).
    + unfold ok, mu; cbn. split; [right; repeat split; right; exists u; reflexivity|lia].
    + destruct ((d =? 10) || (d =? 13)); [exact Logic.I|].
      specialize (IH {| rest := u ++ [10]; eof := false; fail := false |} (str ++ [c]) d c eq_refl eq_refl (ex_intro _ u eq_refl)).
      unfold mu in *; cbn in *. specialize (IH ltac:(lia)).
      destruct (read_quoted fuel _ _ _ _); auto. destruct IH as [A B]. split; [exact A|lia].
Qed.

Definition finishes (m : nat) (o : outcome) : Prop :=
  match o with
  | Fuel => False
  | Wrong => True
  | Done _ _ s _ => ok s /\ (mu s <= m)%nat
  end.

Lemma finishes_le : forall m m' o, (m <= m')%nat -> finishes m o -> finishes m' o.
Proof. intros m m' [r v s i| |] L H; cbn in *; auto. destruct H; split; auto; lia. Qed.

Lemma loop_ends : forall fuel ty expect v s i, ok s -> (mu s < fuel)%nat -> finishes (mu s) (loop fuel ty expect v s i).
Proof.
  induction fuel as [|fuel IH]; intros ty expect v s i O L; [lia|].
  cbn [loop]. destruct (eof s) eqn:E; [split; [exact O|lia]|].
  destruct (get_ok s O) as (G1 & G2 & G3). specialize (G3 E).
  assert (Gq : fst (get s) = 34 -> eof (snd (get s)) = false /\ fail (snd (get s)) = false /\ exists r, rest (snd (get s)) = r ++ [10]).
  { destruct s as [r e f]. cbn in E; subst e. destruct O as [O|(_ & Ff & O)]; [discriminate|]. cbn in Ff, O; subst f.
    unfold get; cbn [orb eof fail rest]. destruct r as [|c r]; cbn; [discriminate|]. intros ->.
    repeat split. destruct O as [O|[u O]]; [discriminate|]. destruct u as [|d u]; cbn in O; [discriminate|].
    injection O as _ ->. exists u; reflexivity. }
  destruct (get s) as [c s1]. cbn [fst snd] in *.
  assert (IH' : forall ty e v s' i, ok s' -> (mu s' <= mu s1)%nat -> finishes (mu s) (loop fuel ty e v s' i)).
  { intros. apply (finishes_le (mu s')); [lia|]. apply IH; [assumption|lia]. }
  assert (AS : forall again e ty l v o, (forall v s' i, ok s' -> (mu s' <= mu s1)%nat -> finishes (mu s) (again v s' i)) ->
    finishes (mu s1) o -> finishes (mu s) (after_sub again e ty l v o)).
  { intros again e ty' l v' o A F. destruct o as [ret sub s' i'| |]; cbn in *; [|exact Logic.I|destruct F].
    destruct F as [F1 F2]. destruct (step_count e (push v' (made ty' l sub))) as [v2 stop].
    destruct stop; [split; [exact F1|lia]|]. destruct ret; [apply A; auto|split; [exact F1|lia]]. }
  assert (SUB : forall ty' e l v s' i, ok s' -> (mu s' <= mu s1)%nat ->
    finishes (mu s) (after_sub (loop fuel ty e) e ty' l v (loop fuel ty' 0 (start []) s' i))).
  { intros ty' e l v' s' i' O' L'. apply AS; [intros; apply IH'; auto|].
    apply (finishes_le (mu s')); [exact L'|]. apply IH; [exact O'|lia]. }
  set (v1 := with_c v c (v_c v) (v_lastc v)).
  assert (Q : match (if negb (v_comment v1) && (c =? 34) then read_quoted fuel s1 (v_str v1) c (v_lastc v1)
                     else Closed (v_str v1) (v_lastc v1) (v_lastcc v1) s1) with
              | Closed _ _ _ s' => ok s' /\ (mu s' <= mu s1)%nat
              | Newline => True
              | Endless => False
              end).
  { destruct (negb (v_comment v1) && (c =? 34)) eqn:B; [|split; [exact G1|lia]].
    apply andb_prop in B. destruct B as [_ B]. apply Z.eqb_eq in B. destruct (Gq B) as (Q1 & Q2 & Q3).
    apply read_quoted_ok; auto. lia. }
  destruct (if negb (v_comment v1) && (c =? 34) then read_quoted fuel s1 (v_str v1) c (v_lastc v1)
            else Closed (v_str v1) (v_lastc v1) (v_lastcc v1) s1) as [str lastc lastcc s2| |]; [|exact Logic.I|destruct Q].
  destruct Q as [O2 L2]. clearbody v1. clear Gq.
  set (v2 := with_str (with_c v1 c lastc lastcc) str). clearbody v2.
  destruct (c =? 9); [destruct (v_comment v2); [apply IH'; auto|exact Logic.I]|].
  destruct (c =? 33).
  { destruct (v_comment v2); [apply IH'; auto|]. destruct (negb (is ty Root)); [exact Logic.I|].
    destruct (read_name_ok fuel s2 (txt "!") O2 ltac:(lia)) as (name & s3 & -> & O3 & L3).
    destruct (eof s3); [exact Logic.I|]. destruct (directive name) as [[k n]|]; [|exact Logic.I].
    destruct n as [|n].
    - destruct (skip_line_ok fuel s3 O3 ltac:(lia)) as (s4 & -> & O4 & L4).
      destruct (skip_control_ok fuel s4 O4 ltac:(lia)) as (s5 & -> & O5 & L5 & _). apply IH'; [exact O5|lia].
    - pose proof (IH k (S n) (start name) s3 i O3 ltac:(lia)) as F.
      destruct (loop fuel k (S n) (start name) s3 i) as [ret sub s4 i4| |]; [|exact Logic.I|destruct F].
      destruct F as [F1 F2]. destruct ret; [apply IH'; [exact F1|lia]|exact Logic.I]. }
  destruct ((c =? 10) || (c =? 13)).
  { destruct (v_comment v2 && (v_lastc v2 =? 46) && (v_lastcc v2 =? 46)); [apply IH'; auto|].
    destruct (skip_control_ok fuel s2 O2 ltac:(lia)) as (s3 & -> & O3 & L3 & Gg).
    destruct (get_indent_ok fuel s3 0 O3 Gg ltac:(lia)) as (cur & s4 & -> & O4 & L4).
    destruct (Nat.ltb (fst i) cur).
    - destruct (v_set (with_comment v2 false)); apply SUB; auto; lia.
    - destruct (Nat.ltb cur (fst i)).
      + destruct (end_word (is ty Set_) expect (with_comment v2 false)) as [v3 stop].
        destruct stop; split; auto; lia.
      + destruct (end_word (is ty Set_ || is ty Root) expect (with_comment v2 false)) as [v3 stop].
        destruct stop; [split; auto; lia|]. apply IH'; auto; lia. }
  destruct (c =? 59); [apply IH'; auto|].
  destruct (v_comment v2); [apply IH'; auto|].
  destruct (c =? 32).
  { destruct (end_word (is ty Set_ || is ty Development) expect v2) as [v3 stop]. destruct stop; [split; auto; lia|apply IH'; auto]. }
  destruct ((c =? 40) || (c =? 123)).
  { match goal with |- finishes _ (let '(_, _) := ?x in _) => destruct x as [v3 stop] end.
    destruct stop; [split; auto; lia|]. apply SUB; auto. }
  destruct ((c =? 41) || (c =? 125)).
  { destruct (peek_ok s2 O2) as [P1 P2]. destruct (peek s2) as [p s3]. cbn [snd] in P1, P2.
    assert (exists t' c' s', (if next_is p 58 then read_tail fuel s3 c (v_tail v2) else Some (v_tail v2, c, s3)) = Some (t', c', s') /\ ok s' /\ (mu s' <= mu s3)%nat) as (t' & c' & s' & -> & O' & L').
    { destruct (next_is p 58); [apply read_tail_ok; [exact P1|lia]|]. eexists _, _, _. split; [reflexivity|]. split; [exact P1|lia]. }
    match goal with |- finishes _ (let '(_, _) := ?x in _) => destruct x as [v3 stop] end. split; auto; lia. }
  destruct (c =? 124).
  { destruct (peek_ok s2 O2) as [P1 P2]. destruct (peek s2) as [p s3]. cbn [snd] in P1, P2.
    destruct (next_is p 91); [|apply IH'; auto; lia].
    destruct (get_ok s3 P1) as (A1 & A2 & _). destruct (get_ok _ A1) as (B1 & B2 & _). apply IH'; auto; lia. }
  destruct (c =? 91).
  { set (v3 := if v_lastc v2 =? 58 then with_str (with_label v2 (v_str v2)) [] else v2). clearbody v3.
    destruct (peek_ok s2 O2) as [P1 P2]. destruct (peek s2) as [p s3]. cbn [snd] in P1, P2.
    destruct (next_is p 93).
    - destruct (get_ok s3 P1) as (A1 & A2 & _). destruct (peek_ok _ A1) as [B1 B2]. destruct (peek (snd (get s3))) as [tc s4]. cbn [snd] in B1, B2.
      destruct ((as_char tc <? 32) || (as_char tc =? 59)); [apply IH'; auto; lia|].
      destruct (negb (v_lastc v3 =? 58) && (32 <? v_lastc v3)); apply IH'; auto; lia.
    - destruct (end_word (is ty Set_) expect v3) as [v4 stop]. destruct stop; [split; auto; lia|]. apply SUB; auto; lia. }
  destruct (c =? 93).
  { destruct (end_word (is ty Set_) expect v2) as [v3 stop]. split; auto; lia. }
  apply IH'; auto.
Qed.

Lemma read_ends : forall t fuel, (List.length t + 3 <= fuel)%nat -> read fuel (t ++ [10]) <> Unfinished.
Proof.
  intros t fuel L. unfold read.
  pose proof (loop_ends fuel Root 0 (start []) (open (t ++ [10])) (0%nat, 0%nat)) as F.
  assert (ok (open (t ++ [10]))) as O by (right; repeat split; right; exists t; reflexivity).
  specialize (F O).
  assert (M : (mu (open (t ++ [10%Z])) < fuel)%nat) by (unfold mu, open; cbn [eof rest]; rewrite app_length; cbn [List.length]; lia).
  specialize (F M).
  destruct (loop fuel Root 0 (start []) (open (t ++ [10])) (0%nat, 0%nat)) as [r v s i| |]; [|discriminate|destruct F].
  destruct (eof s); discriminate.
Qed.

(** * Reading that never ends *)
Lemma quoted_stuck : forall fuel e str c lastc, read_quoted fuel {| rest := []; eof := e; fail := true |} str c lastc = Endless.
Proof. induction fuel as [|fuel IH]; intros; [reflexivity|]. destruct e; cbn; apply IH. Qed.

Lemma open_string_stuck : forall fuel, read fuel [34] = Unfinished.
Proof.
  intros fuel. unfold read. destruct fuel as [|fuel]; [reflexivity|]. cbn [loop open eof get orb fail rest].
  cbn [negb andb v_comment with_c start]. change (34 =? 34) with true. cbn [andb].
  destruct fuel as [|fuel]; [reflexivity|]. cbn [read_quoted get orb eof fail rest].
  change (-1 =? 34) with false. change (-1 =? 10) with false. change (-1 =? 13) with false. cbn [orb]. now rewrite quoted_stuck.
Qed.

Lemma loop_stuck : forall fuel ty v i, v_comment v = false -> loop fuel ty 0 v {| rest := []; eof := false; fail := true |} i = Fuel.
Proof. induction fuel as [|fuel IH]; intros ty v i C; [reflexivity|]. cbn. rewrite C. cbn. apply IH. exact C. Qed.

Lemma trailing_space_stuck : forall fuel, read fuel [10; 32] = Unfinished.
Proof.
  intros fuel. unfold read.
  assert (loop fuel Root 0 (start []) (open [10; 32]) (0%nat, 0%nat) = Fuel) as ->; [|reflexivity].
  destruct fuel as [|fuel]; [reflexivity|].
  assert (K : skip_control fuel {| rest := [32]; eof := false; fail := false |} = None \/
              skip_control fuel {| rest := [32]; eof := false; fail := false |} = Some {| rest := [32]; eof := false; fail := false |})
    by (destruct fuel; [left|right]; reflexivity).
  assert (G : get_indent fuel {| rest := [32]; eof := false; fail := false |} 0 = None \/
              get_indent fuel {| rest := [32]; eof := false; fail := false |} 0 = Some (0%nat, {| rest := []; eof := false; fail := true |}))
    by (destruct fuel as [|[|fuel]]; [left|left|right]; reflexivity).
  cbn [loop open eof get orb fail rest]. cbn [negb andb v_comment with_c with_str start v_c v_lastc v_lastcc v_str].
  change (10 =? 34) with false. change (10 =? 9) with false. change (10 =? 33) with false. change (10 =? 10) with true. cbn [andb orb].
  destruct K as [-> | ->]; [reflexivity|]. destruct G as [-> | ->]; [reflexivity|].
  cbn -[loop]. apply loop_stuck. reflexivity.
Qed.
