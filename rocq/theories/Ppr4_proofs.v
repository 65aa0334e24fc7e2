From Coq Require Import String.
From Verif Require Import Base Ppr_model Ppr_spec Ppr2_proofs Ppr3_proofs.
Local Open Scope Z_scope.

(** * Comments *)
Definition VC (c lc lcc : Z) (str label cmd : text) (args : list rs) : vars := with_comment (V c lc lcc str label cmd args) true.

Lemma in_comment : forall fuel ty c lc lcc str label cmd args d t, d <> 10 -> d <> 13 ->
  loop (S fuel) ty 0 (VC c lc lcc str label cmd args) (open (d :: t)) (0%nat, 0%nat) =
  loop fuel ty 0 (VC d c lc str label cmd args) (open t) (0%nat, 0%nat).
Proof.
  intros fuel ty c lc lcc str label cmd args d t N1 N2. unfold VC. opens.
  apply Z.eqb_neq in N1, N2. rewrite N1, N2. cbn [orb]. destruct (d =? 9); [reflexivity|]. destruct (d =? 33); [reflexivity|]. destruct (d =? 59); reflexivity.
Qed.
Lemma comment_start : forall fuel ty c lc lcc str label cmd args t,
  loop (S fuel) ty 0 (V c lc lcc str label cmd args) (open (59 :: t)) (0%nat, 0%nat) =
  loop fuel ty 0 (VC 59 c lc str label cmd args) (open t) (0%nat, 0%nat).
Proof. reflexivity. Qed.
Lemma comment_end : forall fuel ty c lc lcc str label cmd args t, ~ (c = 46 /\ lc = 46) ->
  loop (S fuel) ty 0 (VC c lc lcc str label cmd args) (open (10 :: t)) (0%nat, 0%nat) =
  loop (S fuel) ty 0 (V c lc lcc str label cmd args) (open (10 :: t)) (0%nat, 0%nat).
Proof.
  intros fuel ty c lc lcc str label cmd args t N. unfold VC. opens. cbn [Z.eqb Pos.eqb orb].
  replace ((c =? 46) && (lc =? 46)) with false; [reflexivity|].
  symmetry. apply andb_false_iff. rewrite !Z.eqb_neq. lia.
Qed.
Fixpoint last2 (lc c : Z) (b : text) : Z * Z := match b with [] => (lc, c) | d :: b => last2 c d b end.
Lemma last2_app : forall b lc c d e, last2 lc c (b ++ [d; e]) = (d, e).
Proof. induction b as [|x b IH]; intros lc c d e; [reflexivity|]. cbn. apply IH. Qed.
Lemma comment_last : forall b lc, (forall b', b <> b' ++ [46; 46]) -> ~ (snd (last2 lc 59 b) = 46 /\ fst (last2 lc 59 b) = 46).
Proof.
  intros b lc H. destruct b as [|x0 b0]; [cbn; lia|].
  destruct (list_eq_dec Z.eq_dec b0 []) as [->|N]; [cbn; lia|].
  destruct (exists_last N) as (b1 & y & ->). change (x0 :: b1 ++ [y]) with ((x0 :: b1) ++ [y]) in *.
  destruct (@exists_last _ (x0 :: b1)) as (b2 & x & E2); [discriminate|]. rewrite E2 in *. rewrite <- app_assoc in *. cbn [app] in *. rewrite last2_app. cbn.
  intros [-> ->]. apply (H b2). reflexivity.
Qed.
Lemma comment_read : forall b c lc lcc ty str label cmd args t n, ~ In 10 b -> ~ In 13 b ->
  ~ (snd (last2 lc c b) = 46 /\ fst (last2 lc c b) = 46) -> exists lcc', forall fuel, (S n <= fuel)%nat ->
  loop (List.length b + fuel) ty 0 (VC c lc lcc str label cmd args) (open (b ++ 10 :: t)) (0%nat, 0%nat) =
  loop fuel ty 0 (V (snd (last2 lc c b)) (fst (last2 lc c b)) lcc' str label cmd args) (open (10 :: t)) (0%nat, 0%nat).
Proof.
  induction b as [|d b IH]; intros c lc lcc ty str label cmd args t n N1 N2 L.
  - exists lcc. intros fuel H. cbn [List.length app last2 fst snd] in *. destruct fuel as [|fuel]; [lia|]. apply comment_end. exact L.
  - cbn [last2] in *. destruct (IH d c lc ty str label cmd args t n) as [lcc' E]; [firstorder|firstorder|exact L|].
    exists lcc'. intros fuel H. cbn [List.length app plus]. rewrite in_comment by (intros ->; firstorder). apply E, H.
Qed.
Lemma R_comment : forall b ty c str label cmd args t s P, comment b ->
  (forall c, R ty c str label cmd args (10 :: t) s P) -> R ty c str label cmd args (59 :: b ++ 10 :: t) s P.
Proof.
  intros b ty c str label cmd args t s P (N1 & N2 & N3) H lc lcc.
  destruct (comment_read b 59 c lc ty str label cmd args t 0 N1 N2 (comment_last b c N3)) as [lcc' E].
  destruct (H (snd (last2 c 59 b)) (fst (last2 c 59 b)) lcc') as [n Hn].
  exists (S (List.length b + S n)). intros fuel L. destruct fuel as [|fuel]; [lia|]. rewrite comment_start.
  replace fuel with (List.length b + (fuel - List.length b))%nat by lia. rewrite E by lia. apply Hn. lia.
Qed.
Lemma R_gap : forall ty c cmd args t s P, R ty 32 [] [] cmd args t s P -> R ty c [] [] cmd args (32 :: t) s P.
Proof. intros ty c cmd args t s P. apply (R_step _ _ _ _ _ _ _ _ _ _ _ _ _ _ _ 0). intros lc lcc. exists c, lc. intros fuel _. reflexivity. Qed.

Lemma line_first : forall l t, line_ok l -> exists d u, line_text l ++ t = d :: u /\ (d < 0 \/ 32 < d).
Proof.
  intros [r|b|r b] t H; cbn [line_text line_ok] in *.
  - rewrite <- app_assoc. apply top_first, H.
  - exists 59, ((b ++ [10]) ++ t). split; [reflexivity|lia].
  - rewrite <- app_assoc. apply top_first, H.
Qed.
(** What may come after the lines: the end of the text, or something that is read from there. *)
Definition final (A : list rs) (T : text) (s : stream) (P : vars -> Prop) : Prop :=
  (T = [] /\ s = s_end /\ P = (fun v => v_args v = A)) \/
  ((exists d u, T = d :: u /\ (d < 0 \/ 32 < d)) /\ forall c, R Root c [] [] [] A T s P).
Lemma comments_top : forall T s P l, Forall line_ok l -> forall c A, final (A ++ List.concat (map line_code l)) T s P ->
  R Root c [] [] [] A (List.concat (map line_text l) ++ T) s P.
Proof.
  intros T s P. induction l as [|a l IH]; intros HF c A FT.
  - cbn [map List.concat] in FT. rewrite app_nil_r in FT. destruct FT as [(-> & -> & ->)|[_ H]]; [apply R_eof|apply H].
  - inversion HF as [|? ? Fa Fl]; subst. specialize (IH Fl). cbn [map List.concat] in *. rewrite <- app_assoc.
    assert (FT' : forall A', A' = A ++ line_code a -> final (A' ++ List.concat (map line_code l)) T s P) by (intros A' ->; rewrite <- app_assoc; exact FT).
    assert (NX : forall c str args0, flush Root [] args0 str = ([], A ++ line_code a) ->
      R Root c str [] [] args0 (10 :: List.concat (map line_text l) ++ T) s P).
    { intros c' str args0 F. destruct l as [|b l].
      - cbn [map List.concat app] in *. specialize (FT' _ eq_refl). rewrite app_nil_r in FT'.
        destruct FT' as [(-> & -> & ->)|[(d & u & E & Q) H]]; [apply R_newline_end; exact F|].
        specialize (H 10). rewrite E in *. apply (R_newline _ _ _ (A ++ line_code a)); [exact Q|exact F|exact H].
      - inversion Fl as [|? ? Fb _]; subst. cbn [map List.concat] in *.
        destruct (line_first b (List.concat (map line_text l) ++ T) Fb) as (d & u & E & Q).
        specialize (IH 10 (A ++ line_code a) (FT' _ eq_refl)). rewrite <- app_assoc in *. rewrite E in *. apply (R_newline _ _ _ (A ++ line_code a)); [exact Q|exact F|].
        exact IH. }
    destruct a as [r|b|r b]; cbn [line_text line_ok line_code] in *.
    + (* as in Ppr2_proofs.read_top *)
      rewrite <- app_assoc. cbn [app].
      destruct Fa as (NB & k & cmd & label & tail & args & -> & F & Tl & K).
      destruct Tl as [->|(u & -> & U)].
      * apply children; [exact F|contradiction|right; right; right; right; reflexivity|]. intros c'. apply NX.
        apply flush_pend; [exact F|]. intros _. right; reflexivity.
      * specialize (IH 40 (A ++ [Rs k cmd label (58 :: u) args]) (FT' _ eq_refl)) as IH1.
        specialize (IH 123 (A ++ [Rs k cmd label (58 :: u) args]) (FT' _ eq_refl)) as IH2.
        destruct (K ltac:(discriminate)) as [->| ->]; cbn [print]; repeat rewrite <- app_assoc; texts; fold (spaced args).
        -- destruct F as (L & _ & W & HA & HC). apply fine_all in HA.
           eapply (R_sub Root Structure 40 label); [left; auto|exact L| |reflexivity| |exact IH1].
           ++ apply inside_structure; auto; [apply Forall_forall; intros; apply children|].
              intros c1 cmd' args' str' Fl'. apply (R_close_tail Structure 41); [left; auto|exact U|exact Fl'].
           ++ intros v (E1 & E2 & E3). unfold made. rewrite E1, E2, E3. reflexivity.
        -- destruct F as (L & _ & -> & HA). apply fine_all in HA. cbn [app].
           eapply (R_sub Root Development 123 label); [right; left; auto|exact L| |reflexivity| |exact IH2].
           ++ apply inside_development; auto; [apply Forall_forall; intros; apply children|].
              intros c1 cmd' args' str' Fl'. apply (R_close_tail Development 125); [right; auto|exact U|exact Fl'].
           ++ intros v (E1 & E2 & E3). unfold made. rewrite E1, E2, E3. reflexivity.
    + cbn [app] in *. rewrite <- app_assoc. cbn [app]. apply R_comment; [exact Fa|]. intros c'. apply NX. unfold flush. rewrite app_nil_r. reflexivity.
    + destruct Fa as ((NB & k & cmd & label & tail & args & -> & F & Tl & K) & Et & Ek & Cb). cbn [tail_of kind_of] in *. subst tail.
      rewrite <- app_assoc. cbn [app]. rewrite <- app_assoc. cbn [app].
      apply children; [exact F|contradiction|left; reflexivity|]. intros c'.
      replace (pend_str (Rs k cmd label [] args)) with (@nil Z) by (unfold pend_str, is_atom; destruct k; try reflexivity; congruence).
      apply R_gap. apply R_comment; [exact Cb|]. intros c''. apply NX.
      unfold flush, pend_args, is_atom. destruct k; try reflexivity; congruence.
Qed.
Lemma comments_read : forall l, Forall line_ok l -> reads (List.concat (map line_text l)) (List.concat (map line_code l)).
Proof.
  intros l F. destruct (comments_top [] s_end (fun v => v_args v = [] ++ List.concat (map line_code l)) l F 0 []) with (lc := 0) (lcc := 0) as [n H]; [left; auto|].
  exists n. intros fuel L. destruct (H fuel L) as (v & E & A). rewrite app_nil_r in E.
  unfold read. change (start []) with (V 0 0 0 [] [] [] []). rewrite E. cbn. rewrite A. reflexivity.
Qed.

(** ** A closing bracket that was not opened *)
Lemma R_superfluous : forall c A d e t, d = 41 \/ d = 125 \/ d = 93 -> e <> 58 -> R Root c [] [] [] A (d :: e :: t) (open (e :: t)) (fun _ => True).
Proof.
  intros c A d e t D E lc lcc. exists 1%nat. intros fuel L. destruct fuel as [|fuel]; [lia|]. apply Z.eqb_neq in E.
  destruct D as [->|[->| ->]]; opens; cbn [Z.eqb Pos.eqb orb]; unfold next_is; cbn [peek rest eof fail orb]; rewrite ?E; eexists; (split; [reflexivity|exact Logic.I]).
Qed.
Lemma superfluous_refused : forall l d e t, Forall line_ok l -> d = 41 \/ d = 125 \/ d = 93 -> e <> 58 ->
  exists n, forall fuel, (n <= fuel)%nat -> read fuel (List.concat (map line_text l) ++ d :: e :: t) = Refused.
Proof.
  intros l d e t F D E. destruct (comments_top (d :: e :: t) (open (e :: t)) (fun _ => True) l F 0 []) with (lc := 0) (lcc := 0) as [n H].
  { right. split; [exists d, (e :: t); split; [reflexivity|lia]|]. intros c. apply R_superfluous; assumption. }
  exists n. intros fuel L. destruct (H fuel L) as (v & Ev & _). unfold read. change (start []) with (V 0 0 0 [] [] [] []). rewrite Ev. reflexivity.
Qed.

(** A comment that ends in two dots: the next line is a comment as well. *)
Lemma dots_refuted : reads (txt ";.." ++ [10] ++ txt "(a)" ++ [10] ++ txt "(b)" ++ [10]) [Rs Structure (txt "b") [] [] []].
Proof. apply (reads_at 30). vm_compute. reflexivity. Qed.
