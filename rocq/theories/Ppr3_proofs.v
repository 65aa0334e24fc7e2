From Coq Require Import String.
From Verif Require Import Base Ppr_model Ppr_spec.
Local Open Scope Z_scope.

(** * More fuel does not change what is read *)
Lemma get_indent_more : forall f f' s n r, (f <= f')%nat -> get_indent f s n = Some r -> get_indent f' s n = Some r.
Proof.
  induction f as [|f IH]; intros f' s n r L H; [discriminate|]. destruct f' as [|f']; [lia|]. cbn [get_indent] in *.
  destruct (eof s); [exact H|]. destruct (get s) as [c s']. destruct (c =? 32); [|exact H]. apply IH; [lia|exact H].
Qed.

Lemma skip_control_more : forall f f' s r, (f <= f')%nat -> skip_control f s = Some r -> skip_control f' s = Some r.
Proof.
  induction f as [|f IH]; intros f' s r L H; [discriminate|]. destruct f' as [|f']; [lia|]. cbn [skip_control] in *.
  destruct (eof s); [exact H|]. destruct (peek s) as [p s']. destruct (control p); [|exact H]. apply IH; [lia|exact H].
Qed.

Lemma read_tail_more : forall f f' s c t r, (f <= f')%nat -> read_tail f s c t = Some r -> read_tail f' s c t = Some r.
Proof.
  induction f as [|f IH]; intros f' s c t r L H; [discriminate|]. destruct f' as [|f']; [lia|]. cbn [read_tail] in *.
  destruct (eof s); [exact H|]. destruct (get s) as [d s']. destruct (32 <? d); [|exact H]. apply IH; [lia|exact H].
Qed.

Lemma read_name_more : forall f f' s t r, (f <= f')%nat -> read_name f s t = Some r -> read_name f' s t = Some r.
Proof.
  induction f as [|f IH]; intros f' s t r L H; [discriminate|]. destruct f' as [|f']; [lia|]. cbn [read_name] in *.
  destruct (eof s); [exact H|]. destruct (peek s) as [p s']. destruct (32 <? as_char p); [|exact H].
  destruct (get s') as [d s'']. apply IH; [lia|exact H].
Qed.

Lemma skip_line_more : forall f f' s r, (f <= f')%nat -> skip_line f s = Some r -> skip_line f' s = Some r.
Proof.
  induction f as [|f IH]; intros f' s r L H; [discriminate|]. destruct f' as [|f']; [lia|]. cbn [skip_line] in *.
  destruct (eof s); [exact H|]. destruct (peek s) as [[c|] s']; [|exact H]. destruct ((c <? 0) || (13 <? c)); [|exact H]. apply IH; [lia|exact H].
Qed.

Lemma read_quoted_more : forall f f' s str c lc, (f <= f')%nat -> read_quoted f s str c lc <> Endless ->
  read_quoted f' s str c lc = read_quoted f s str c lc.
Proof.
  induction f as [|f IH]; intros f' s str c lc L H; [exfalso; apply H; reflexivity|]. destruct f' as [|f']; [lia|]. cbn [read_quoted] in *.
  destruct (get s) as [d s']. destruct (d =? 34); [reflexivity|]. destruct ((d =? 10) || (d =? 13)); [reflexivity|].
  apply IH; [lia|exact H].
Qed.

Lemma after_sub_more : forall again again' e ty l v o o',
  (forall v s i, again v s i <> Fuel -> again' v s i = again v s i) -> (o <> Fuel -> o' = o) ->
  after_sub again e ty l v o <> Fuel -> after_sub again' e ty l v o' = after_sub again e ty l v o.
Proof.
  intros again again' e ty l v o o' A B H. destruct o as [ret sub s i| |]; cbn in *.
  - rewrite (B ltac:(discriminate)). cbn. destruct (step_count e (push v (made ty l sub))) as [v2 stop].
    destruct stop; [reflexivity|]. destruct ret; [apply A, H|reflexivity].
  - rewrite (B ltac:(discriminate)). reflexivity.
  - congruence.
Qed.

Lemma loop_more : forall f f' ty e v s i, (f <= f')%nat -> loop f ty e v s i <> Fuel -> loop f' ty e v s i = loop f ty e v s i.
Proof.
  induction f as [|f IH]; intros f' ty e v s i L H; [exfalso; apply H; reflexivity|]. destruct f' as [|f']; [lia|]. assert (L' : (f <= f')%nat) by lia.
  cbn [loop] in *. destruct (eof s); [reflexivity|].
  assert (A : forall ty e v s i, loop f ty e v s i <> Fuel -> loop f' ty e v s i = loop f ty e v s i) by (intros; apply IH; auto).
  assert (SUB : forall ty' l v s i, after_sub (loop f ty e) e ty' l v (loop f ty' 0 (start []) s i) <> Fuel ->
    after_sub (loop f' ty e) e ty' l v (loop f' ty' 0 (start []) s i) = after_sub (loop f ty e) e ty' l v (loop f ty' 0 (start []) s i)).
  { intros. apply after_sub_more; auto. }
  destruct (get s) as [c s1]. cbn [fst snd] in *.
  set (v1 := with_c v c (v_c v) (v_lastc v)) in *. clearbody v1.
  destruct (negb (v_comment v1) && (c =? 34)).
  - pose proof (read_quoted_more f f' s1 (v_str v1) c (v_lastc v1) L') as Q.
    destruct (read_quoted f s1 (v_str v1) c (v_lastc v1)) as [str lc lcc s2| |] eqn:EQ.
    + rewrite (Q ltac:(discriminate)). clear Q EQ s1 v. rename s2 into s1.
      generalize dependent (with_str (with_c v1 c lc lcc) str). clear v1 str lc lcc. intros v2 H.
      Ltac go f f' L' A SUB H :=
        repeat match goal with
        | |- context [if ?b then _ else _] => destruct b; try reflexivity; try (apply A; exact H); try (apply SUB; exact H)
        | |- context [match read_name f' ?s ?t with _ => _ end] => let E := fresh "E" in
            destruct (read_name f s t) as [[? ?]|] eqn:E; [rewrite (read_name_more _ _ _ _ _ L' E)|congruence]
        | |- context [match skip_line f' ?s with _ => _ end] => let E := fresh "E" in
            destruct (skip_line f s) as [?|] eqn:E; [rewrite (skip_line_more _ _ _ _ L' E)|congruence]
        | |- context [match skip_control f' ?s with _ => _ end] => let E := fresh "E" in
            destruct (skip_control f s) as [?|] eqn:E; [rewrite (skip_control_more _ _ _ _ L' E)|congruence]
        | |- context [match get_indent f' ?s ?n with _ => _ end] => let E := fresh "E" in
            destruct (get_indent f s n) as [[? ?]|] eqn:E; [rewrite (get_indent_more _ _ _ _ _ L' E)|congruence]
        | |- context [match read_tail f' ?s ?c ?n with _ => _ end] => let E := fresh "E" in
            destruct (read_tail f s c n) as [[[? ?] ?]|] eqn:E; [rewrite (read_tail_more _ _ _ _ _ _ L' E)|congruence]
        | |- context [match directive ?n with _ => _ end] => destruct (directive n) as [[? [|?]]|]; try reflexivity
        | |- context [match loop f' ?k ?n ?v ?s ?i with _ => _ end] =>
            let D := fresh "D" in pose proof (A k n v s i) as D; destruct (loop f k n v s i) as [[|?] ? ? ?| |];
            [rewrite D by discriminate; apply A; exact H|rewrite D by discriminate; reflexivity|rewrite D by discriminate; reflexivity|congruence]
        | |- context [let '(_, _) := peek ?s in _] => destruct (peek s) as [? ?]
        | |- context [let '(_, _) := end_word ?a ?b ?c in _] => destruct (end_word a b c) as [? ?]
        | |- context [match v_str ?v with _ => _ end] => destruct (v_str v) as [|? ?] eqn:?
        end.
      go f f' L' A SUB H.
      all: try reflexivity; try (apply A; exact H); try (apply SUB; exact H).
    + rewrite (Q ltac:(discriminate)). reflexivity.
    + congruence.
  - generalize dependent (with_str (with_c v1 c (v_lastc v1) (v_lastcc v1)) (v_str v1)). clear v1. intros v2 H.
    go f f' L' A SUB H.
    all: try reflexivity; try (apply A; exact H); try (apply SUB; exact H).
Qed.

Lemma read_more : forall f f' t, (f <= f')%nat -> read f t <> Unfinished -> read f' t = read f t.
Proof.
  intros f f' t L H. unfold read in *. rewrite (loop_more f f'); [reflexivity|exact L|].
  intros E. rewrite E in H. congruence.
Qed.

Lemma reads_at : forall f t l, read f t = Structures l -> reads t l.
Proof. intros f t l E. exists f. intros f' L. rewrite (read_more f f'); [exact E|exact L|]. rewrite E. discriminate. Qed.

Lemma reads_one : forall t l l', reads t l -> reads t l' -> l = l'.
Proof.
  intros t l l' [n H] [n' H']. specialize (H (n + n')%nat ltac:(lia)). specialize (H' (n + n')%nat ltac:(lia)). congruence.
Qed.

(** Witnesses: a labelled empty set before a structure; an empty set at the top; a
    tail inside a structure. *)
Definition a_ := atom (txt "a").
Definition leak := Rs Structure (txt "s") [] [] [Rs Set_ [] (txt "l:") [] []; Rs Structure (txt "t") [] [] [a_]].
Definition leaked := Rs Structure (txt "s") [] [] [Rs Set_ [] (txt "l:") [] []; Rs Structure (txt "t") (txt "l:") [] [a_]].
Definition empty_set := Rs Set_ [] [] [] [].
Definition swallowed := Rs Structure (txt "s") [] [] [Rs Structure (txt "t") [] (txt ":x)") [a_]].

Lemma round_trip_refuted :
  (reads (print_root [leak]) [leaked] /\ [leaked] <> [leak]) /\
  (reads (print_root [empty_set]) [] /\ [] <> [empty_set]) /\
  (reads (print_root [Rs Structure (txt "s") [] [] [Rs Structure (txt "t") [] (txt ":x") [a_]]]) [swallowed] /\
   [swallowed] <> [Rs Structure (txt "s") [] [] [Rs Structure (txt "t") [] (txt ":x") [a_]]]).
Proof.
  split; [|split]; (split; [apply (reads_at 40); vm_compute; reflexivity|discriminate]).
Qed.
