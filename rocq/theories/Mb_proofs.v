(** Proofs about the model base. *)
From Verif Require Import Base Atom_model Mb_model Mb_spec.

(** ** Comparison is an equivalence *)
Section TreeInd.
Variable P : tree -> Prop.
Hypothesis HK : forall a, P (Known a).
Hypothesis HN : forall a c l, Forall P l -> P (Node a c l).
Fixpoint tree_all (t : tree) : P t :=
  match t with
  | Known a => HK a
  | Node a c l => HN a c l ((fix go (l : list tree) : Forall P l := match l with [] => Forall_nil P | x :: l' => Forall_cons x (tree_all x) (go l') end) l)
  end.
End TreeInd.
Lemma Match_node a c ls b d rs : Match (Node a c ls) (Node b d rs) = same_code c d && Match_all ls rs.
Proof. reflexivity. Qed.
Lemma same_code_iff c d : same_code c d = true <-> c = d.
Proof. unfold same_code. destruct (list_eq_dec Z.eq_dec c d); split; intros; try assumption; try reflexivity; try discriminate; contradiction. Qed.
Lemma Match_refl t : Match t t = true.
Proof.
  induction t as [a|a c l IH] using tree_all; [apply Z.eqb_refl|]. rewrite Match_node. apply andb_true_iff. split; [apply same_code_iff; reflexivity|].
  induction IH; [reflexivity|]. cbn [Match_all]. rewrite H. exact IHIH.
Qed.
Lemma Match_all_refl l : Match_all l l = true.
Proof. induction l; [reflexivity|]. cbn [Match_all]. rewrite Match_refl. assumption. Qed.
Lemma Match_sym : forall t u, Match t u = true -> Match u t = true.
Proof.
  induction t as [a|a c l IH] using tree_all; intros [b|b d r] H; try discriminate.
  - cbn in *. rewrite Z.eqb_sym. exact H.
  - rewrite Match_node in *. apply andb_true_iff in H. destruct H as (H & K). apply same_code_iff in H. subst d. apply andb_true_iff. split; [apply same_code_iff; reflexivity|].
    revert r K. induction IH as [|x l HX HL IHL]; intros [|y r] K; try discriminate; [reflexivity|]. cbn [Match_all] in *. apply andb_true_iff in K. destruct K as (K1 & K2). rewrite (HX _ K1). apply IHL. exact K2.
Qed.
Lemma Match_all_sym l : forall r, Match_all l r = true -> Match_all r l = true.
Proof. induction l as [|x l IH]; intros [|y r] H; try discriminate; [reflexivity|]. cbn [Match_all] in *. apply andb_true_iff in H. destruct H as (A & B). rewrite (Match_sym _ _ A). apply IH. exact B. Qed.
Lemma Match_trans : forall t u v, Match t u = true -> Match u v = true -> Match t v = true.
Proof.
  induction t as [a|a c l IH] using tree_all; intros [b|b d r] [e|e f s] H K; try discriminate.
  - cbn in *. lia.
  - rewrite Match_node in *. apply andb_true_iff in H, K. destruct H as (H1 & H2), K as (K1 & K2). apply same_code_iff in H1, K1. subst. apply andb_true_iff. split; [apply same_code_iff; reflexivity|].
    revert r s H2 K2. induction IH as [|x l HX HL IHL]; intros [|y r] [|z s] H K; try discriminate; [reflexivity|]. cbn [Match_all] in *. apply andb_true_iff in H, K. destruct H as (A1 & A2), K as (B1 & B2).
    rewrite (HX _ _ A1 B1). exact (IHL _ _ A2 B2).
Qed.
Lemma Match_all_trans l : forall r s, Match_all l r = true -> Match_all r s = true -> Match_all l s = true.
Proof.
  induction l as [|x l IH]; intros [|y r] [|z s] H K; try discriminate; [reflexivity|]. cbn [Match_all] in *. apply andb_true_iff in H, K. destruct H as (A1 & A2), K as (B1 & B2).
  rewrite (Match_trans _ _ _ A1 B1). exact (IH _ _ A2 B2).
Qed.
Lemma same_but_refl c : forall i, same_but i c c = true.
Proof. induction c as [|x c IH]; intros i; [reflexivity|]. cbn [same_but]. rewrite Z.eqb_refl, orb_true_r. apply IH. Qed.
Lemma same_but_sym c : forall i d, same_but i c d = true -> same_but i d c = true.
Proof. induction c as [|x c IH]; intros i [|y d] H; try discriminate; [reflexivity|]. cbn [same_but] in *. apply andb_true_iff in H. destruct H as (A & B). rewrite Z.eqb_sym, A. exact (IH _ _ B). Qed.
Lemma same_but_trans c : forall i d e, same_but i c d = true -> same_but i d e = true -> same_but i c e = true.
Proof.
  induction c as [|x c IH]; intros i [|y d] [|z e] H K; try discriminate; [reflexivity|]. cbn [same_but] in *. apply andb_true_iff in H, K. destruct H as (A & B), K as (A' & B').
  rewrite (IH _ _ _ B B'), andb_true_r. destruct (house_keeping i); [reflexivity|]. cbn [orb] in *. lia.
Qed.
Lemma same_but_spec c : forall i d, same_but i c d = true <-> length c = length d /\ forall k x y, house_keeping (i + k) = false -> nth_error c k = Some x -> nth_error d k = Some y -> x = y.
Proof.
  induction c as [|x c IH]; intros i [|y d].
  - cbn. split; [|reflexivity]. intros _. split; [reflexivity|]. intros [|k] ? ? _ Q; discriminate.
  - split; [discriminate|]. intros (L & _). discriminate.
  - split; [discriminate|]. intros (L & _). discriminate.
  - cbn [same_but length]. rewrite andb_true_iff, IH. split.
    + intros (A & L & B). split; [congruence|]. intros [|k] x' y' HK E1 E2; cbn in E1, E2.
      * rewrite Nat.add_0_r in HK. rewrite HK in A. injection E1 as <-. injection E2 as <-. cbn in A. lia.
      * apply (B k); try assumption. rewrite <- Nat.add_succ_comm in HK. exact HK.
    + intros (L & B). split; [|split; [congruence|]].
      * destruct (house_keeping i) eqn:E; [reflexivity|]. cbn. apply Z.eqb_eq. apply (B 0%nat); [rewrite Nat.add_0_r; exact E|reflexivity|reflexivity].
      * intros k x' y' HK E1 E2. apply (B (S k)); try assumption. rewrite <- Nat.add_succ_comm. exact HK.
Qed.
Lemma fact_refl f : match_fact f f = true.
Proof. unfold match_fact. rewrite Z.eqb_refl, Match_all_refl. rewrite (proj2 (same_code_iff _ _) eq_refl). reflexivity. Qed.
Lemma fact_sym f g : match_fact f g = true -> match_fact g f = true.
Proof.
  unfold match_fact. rewrite !andb_true_iff, !same_code_iff. intros (A & B & C). split; [rewrite Z.eqb_sym; exact A|]. split; [congruence|apply Match_all_sym; exact C].
Qed.
Lemma fact_trans f g h : match_fact f g = true -> match_fact g h = true -> match_fact f h = true.
Proof.
  unfold match_fact. rewrite !andb_true_iff, !same_code_iff. intros (A & B & C) (A' & B' & C'). split; [lia|]. split; [congruence|exact (Match_all_trans _ _ _ C C')].
Qed.
Lemma entry_refl a : match_entry a a = true.
Proof. unfold match_entry. rewrite same_but_refl, !fact_refl. reflexivity. Qed.
Lemma entry_sym a b : match_entry a b = true -> match_entry b a = true.
Proof. unfold match_entry. rewrite !andb_true_iff. intros ((A & B) & C). split; [split; [apply same_but_sym; exact A|apply fact_sym; exact B]|apply fact_sym; exact C]. Qed.
Lemma entry_trans a b c : match_entry a b = true -> match_entry b c = true -> match_entry a c = true.
Proof.
  unfold match_entry. rewrite !andb_true_iff. intros ((A & B) & C) ((A' & B') & C'). split; [split; [exact (same_but_trans _ _ _ _ A A')|exact (fact_trans _ _ _ B B')]|exact (fact_trans _ _ _ C C')].
Qed.

(** ** Equal models have equal hash codes, if they refer to the same models *)
Lemma fact_hash o f g : match_fact f g = true -> refers_alike f g -> hash_fact o f = hash_fact o g.
Proof.
  unfold match_fact, refers_alike. rewrite !andb_true_iff, same_code_iff. intros (A & B & _) R. apply Z.eqb_eq in A. unfold hash_fact. rewrite A, B, R. reflexivity.
Qed.
Section Lists.
Context (o : ops).
Notation eqm := (equal o).
Lemma equal_refl a : eqm a a = true.
Proof. unfold equal. rewrite Z.eqb_refl, entry_refl. reflexivity. Qed.
Lemma equal_sym a b : eqm a b = true -> eqm b a = true.
Proof. unfold equal. rewrite !andb_true_iff. intros (A & B). split; [rewrite Z.eqb_sym; exact A|apply entry_sym; exact B]. Qed.
Lemma equal_trans a b c : eqm a b = true -> eqm b c = true -> eqm a c = true.
Proof. unfold equal. rewrite !andb_true_iff. intros (A & B) (A' & B'). split; [lia|exact (entry_trans _ _ _ B B')]. Qed.
Lemma equal_left a b c : eqm a b = true -> eqm a c = eqm b c.
Proof.
  intros H. destruct (eqm a c) eqn:A, (eqm b c) eqn:B; try reflexivity.
  - rewrite (equal_trans b a c (equal_sym _ _ H) A) in B. discriminate.
  - rewrite (equal_trans a b c H B) in A. discriminate.
Qed.
Definition has (l : list entry) (m : mdl) : Prop := exists e, In e l /\ eqm m (e_mdl e) = true.
Lemma find_some l m e : find o l m = Some e -> In e l /\ eqm m (e_mdl e) = true.
Proof. apply find_some. Qed.
Lemma find_none l m : find o l m = None <-> ~ has l m.
Proof.
  unfold find, has. split.
  - intros H (e & I & E). pose proof (List.find_none _ _ H e I) as Q. cbn in Q. congruence.
  - intros H. destruct (List.find _ l) as [e|] eqn:F; [|reflexivity]. apply List.find_some in F. exfalso. apply H. exists e. exact F.
Qed.
Lemma has_iff l m : has l m <-> exists e, find o l m = Some e.
Proof.
  destruct (find o l m) as [e|] eqn:F.
  - split; [intros _; exists e; reflexivity|]. intros _. apply find_some in F. exists e. exact F.
  - split; [|intros (e & Q); discriminate]. intros H. apply find_none in F. contradiction.
Qed.
Lemma has_equal l a b : eqm a b = true -> has l a -> has l b.
Proof. intros E (e & I & H). exists e. split; [exact I|]. rewrite <- (equal_left a b _ E). exact H. Qed.
(** No two equal elements. *)
Fixpoint uniq (l : list entry) : Prop := match l with [] => True | e :: l' => ~ has l' (e_mdl e) /\ uniq l' end.
Lemma has_app l k m : has (l ++ k) m <-> has l m \/ has k m.
Proof.
  unfold has. split.
  - intros (e & I & E). apply in_app_or in I. destruct I; [left|right]; exists e; auto.
  - intros [(e & I & E)|(e & I & E)]; exists e; (split; [apply in_or_app; auto|exact E]).
Qed.
Lemma uniq_app l e : uniq l -> ~ has l (e_mdl e) -> uniq (l ++ [e]).
Proof.
  induction l as [|x l IH]; intros U H; cbn; [split; [|exact I]; intros (y & [] & _)|]. destruct U as (U1 & U2). split.
  - rewrite has_app. intros [Q|(y & [<-|[]] & E)]; [contradiction|]. apply H. exists x. split; [left; reflexivity|]. apply equal_sym. exact E.
  - apply IH; [exact U2|]. intros (y & I & E). apply H. exists y. split; [right; exact I|exact E].
Qed.
Lemma filter_in {A} (f : A -> bool) l x : In x (filter f l) -> In x l.
Proof. rewrite filter_In. tauto. Qed.
Lemma uniq_filter f l : uniq l -> uniq (filter f l).
Proof.
  induction l as [|x l IH]; [auto|]. intros (U1 & U2). cbn. destruct (f x); [|auto]. split; [|auto]. intros (y & I & E). apply U1. exists y. split; [apply (filter_in f); exact I|exact E].
Qed.
Lemma uniq_same l e x : uniq l -> In e l -> In x l -> eqm (e_mdl e) (e_mdl x) = true -> e = x.
Proof.
  induction l as [|y l IH]; [intros _ []|]. intros (U1 & U2) [->|I] [->|J] E; [reflexivity| | |apply IH; assumption].
  - exfalso. apply U1. exists x. auto.
  - exfalso. apply U1. exists e. split; [exact I|apply equal_sym; exact E].
Qed.
Lemma in_insert l e x : In x (insert o l e) <-> In x l \/ x = e /\ ~ has l (e_mdl e).
Proof.
  unfold insert. destruct (find o l (e_mdl e)) as [y|] eqn:F.
  - split; [auto|]. intros [H|(_ & H)]; [exact H|]. exfalso. apply H. apply has_iff. exists y. exact F.
  - apply find_none in F. rewrite in_app_iff. cbn. split; [intros [H|[<-|[]]]; auto|]. intros [H|(-> & _)]; auto.
Qed.
Lemma uniq_insert l e : uniq l -> uniq (insert o l e).
Proof. intros U. unfold insert. destruct (find o l (e_mdl e)) eqn:F; [exact U|]. apply uniq_app; [exact U|apply find_none; exact F]. Qed.
Lemma has_insert l e m : has (insert o l e) m <-> has l m \/ eqm m (e_mdl e) = true.
Proof.
  split.
  - intros (x & I & E). apply in_insert in I. destruct I as [I|(-> & _)]; [left; exists x; auto|auto].
  - intros [(x & I & E)|E].
    + exists x. split; [apply in_insert; auto|exact E].
    + destruct (find o l (e_mdl e)) as [y|] eqn:F.
      * apply find_some in F. destruct F as (I & Q). exists y. split; [apply in_insert; auto|exact (equal_trans _ _ _ E Q)].
      * exists e. split; [|exact E]. apply in_insert. right. split; [reflexivity|apply find_none; exact F].
Qed.
Lemma in_erase l m x : In x (erase o l m) <-> In x l /\ eqm m (e_mdl x) = false.
Proof. unfold erase. rewrite filter_In, negb_true_iff. reflexivity. Qed.
Lemma has_erase l m k : has (erase o l m) k <-> has l k /\ eqm m k = false.
Proof.
  unfold has. split.
  - intros (x & I & E). apply in_erase in I. destruct I as (I & Q). split; [exists x; auto|]. destruct (eqm m k) eqn:W; [|reflexivity]. rewrite (equal_trans _ _ _ W E) in Q. discriminate.
  - intros ((x & I & E) & Q). exists x. split; [|exact E]. apply in_erase. split; [exact I|]. destruct (eqm m (e_mdl x)) eqn:W; [|reflexivity].
    rewrite (equal_trans _ _ _ W (equal_sym _ _ E)) in Q. discriminate.
Qed.
Lemma uniq_touched l e now : uniq l -> uniq (touched o l e now).
Proof. intros U. apply uniq_insert, uniq_filter. exact U. Qed.
Lemma in_touched l e now x : In x (touched o l e now) <-> (In x l /\ eqm (e_mdl e) (e_mdl x) = false) \/ x = mkentry (e_mdl e) now.
Proof.
  unfold touched. rewrite in_insert, in_erase. split; [tauto|]. intros [H| ->]; [auto|]. right. split; [reflexivity|]. rewrite has_erase. cbn [e_mdl]. intros (_ & Q). rewrite equal_refl in Q. discriminate.
Qed.
Lemma has_touched l e now m : In e l -> (has (touched o l e now) m <-> has l m).
Proof.
  intros I. unfold touched. rewrite has_insert, has_erase. cbn [e_mdl]. split.
  - intros [(H & _)|H]; [exact H|]. exists e. auto.
  - intros H. destruct (eqm m (e_mdl e)) eqn:E; [right; reflexivity|]. left. split; [exact H|]. destruct (eqm (e_mdl e) m) eqn:Q; [|reflexivity]. rewrite (equal_sym _ _ Q) in E. discriminate.
Qed.
End Lists.

(** ** Operations *)
Section Base.
Context (o : ops) (thz : Z) (pack : tree -> tree).
Notation eqm := (equal o).
Notation has := (has o).
Notation uniq := (uniq o).
Definition inv (b : base) : Prop := uniq (white b) /\ uniq (black b) /\ forall m, ~ (has (white b) m /\ has (black b) m).
Lemma inv_empty : inv empty.
Proof. split; [exact I|]. split; [exact I|]. intros m ((e & [] & _) & _). Qed.
Lemma inv_touch_black b e now : In e (black b) -> inv b -> inv (mkbase (white b) (touched o (black b) e now)).
Proof.
  intros I (U & V & D). split; [exact U|]. split; [apply uniq_touched; exact V|]. intros m. cbn [white black]. rewrite has_touched by exact I. apply D.
Qed.
Lemma inv_touch_white b e now : In e (white b) -> inv b -> inv (mkbase (touched o (white b) e now) (black b)).
Proof.
  intros I (U & V & D). split; [apply uniq_touched; exact U|]. split; [exact V|]. intros m. cbn [white black]. rewrite has_touched by exact I. apply D.
Qed.
Lemma inv_add_white b m now : ~ has (black b) m -> inv b -> inv (mkbase (insert o (white b) (mkentry m now)) (black b)).
Proof.
  intros N (U & V & D). split; [apply uniq_insert; exact U|]. split; [exact V|]. intros k. cbn [white black]. rewrite has_insert. cbn [e_mdl]. intros ([H|H] & K); [apply (D k); auto|].
  apply N. exact (has_equal o _ _ _ H K).
Qed.
Lemma inv_add_black b m now : ~ has (white b) m -> inv b -> inv (mkbase (white b) (insert o (black b) (mkentry m now))).
Proof.
  intros N (U & V & D). split; [exact U|]. split; [apply uniq_insert; exact V|]. intros k. cbn [white black]. rewrite has_insert. cbn [e_mdl]. intros (K & [H|H]); [apply (D k); auto|].
  apply N. exact (has_equal o _ _ _ H K).
Qed.
Lemma inv_check b m now : inv b -> inv (fst (check o b m now)).
Proof.
  intros H. unfold check. destruct (find o (black b) m) as [e|] eqn:F; [apply find_some in F; apply inv_touch_black; [apply F|exact H]|].
  destruct (find o (white b) m) as [e|] eqn:G; [apply find_some in G; apply inv_touch_white; [apply G|exact H]|]. apply inv_add_white; [apply find_none; exact F|exact H].
Qed.
(** The nine cases of a pair, in the code's order. *)
Inductive pair_case (b : base) (m0 m1 : mdl) (now : Z) : base * option mdl * option mdl -> Prop :=
| P_black e : find o (black b) m0 = Some e -> pair_case b m0 m1 now (mkbase (white b) (touched o (black b) e now), None, None)
| P_known_black e x : find o (black b) m0 = None -> find o (white b) m0 = Some e -> find o (black b) (redirect m1 (pack (as_tree (e_mdl e)))) = Some x ->
    pair_case b m0 m1 now (mkbase (touched o (white b) e now) (touched o (black b) x now), Some (e_mdl e), None)
| P_known_known e x : find o (black b) m0 = None -> find o (white b) m0 = Some e -> find o (black b) (redirect m1 (pack (as_tree (e_mdl e)))) = None ->
    find o (touched o (white b) e now) (redirect m1 (pack (as_tree (e_mdl e)))) = Some x ->
    pair_case b m0 m1 now (mkbase (touched o (touched o (white b) e now) x now) (black b), Some (e_mdl e), Some (e_mdl x))
| P_known_new e : find o (black b) m0 = None -> find o (white b) m0 = Some e -> find o (black b) (redirect m1 (pack (as_tree (e_mdl e)))) = None ->
    find o (touched o (white b) e now) (redirect m1 (pack (as_tree (e_mdl e)))) = None ->
    pair_case b m0 m1 now (mkbase (insert o (touched o (white b) e now) (mkentry (redirect m1 (pack (as_tree (e_mdl e)))) now)) (black b), Some (e_mdl e), Some (redirect m1 (pack (as_tree (e_mdl e)))))
| P_new_black x : find o (black b) m0 = None -> find o (white b) m0 = None -> find o (black b) (redirect m1 (as_tree m0)) = Some x ->
    pair_case b m0 m1 now (mkbase (white b) (touched o (black b) x now), Some m0, None)
| P_new_known x : find o (black b) m0 = None -> find o (white b) m0 = None -> find o (black b) (redirect m1 (as_tree m0)) = None -> find o (white b) (redirect m1 (as_tree m0)) = Some x ->
    pair_case b m0 m1 now (mkbase (touched o (white b) x now) (black b), Some m0, Some (e_mdl x))
| P_new_new : find o (black b) m0 = None -> find o (white b) m0 = None -> find o (black b) (redirect m1 (as_tree m0)) = None -> find o (white b) (redirect m1 (as_tree m0)) = None ->
    pair_case b m0 m1 now (mkbase (insert o (insert o (white b) (mkentry m0 now)) (mkentry (redirect m1 (pack (as_tree m0))) now)) (black b), Some m0, Some (redirect m1 (pack (as_tree m0)))).
Lemma pair_cases b m0 m1 now : pair_case b m0 m1 now (check_pair o pack b m0 m1 now).
Proof.
  unfold check_pair. destruct (find o (black b) m0) as [e|] eqn:F; [apply P_black; exact F|]. destruct (find o (white b) m0) as [e|] eqn:G; cbn [white black].
  - destruct (find o (black b) (redirect m1 (pack (as_tree (e_mdl e))))) as [x|] eqn:H; [apply P_known_black; assumption|].
    destruct (find o (touched o (white b) e now) (redirect m1 (pack (as_tree (e_mdl e))))) as [x|] eqn:K; [apply P_known_known; assumption|apply P_known_new; assumption].
  - destruct (find o (black b) (redirect m1 (as_tree m0))) as [x|] eqn:H; [apply P_new_black; assumption|].
    destruct (find o (white b) (redirect m1 (as_tree m0))) as [x|] eqn:K; [apply P_new_known; assumption|apply P_new_new; assumption].
Qed.
Lemma inv_pair b m0 m1 now : inv b -> regular_op o pack b (SubmitPair m0 m1 now) -> inv (fst (fst (check_pair o pack b m0 m1 now))).
Proof.
  intros H R. destruct (pair_cases b m0 m1 now); cbn [fst].
  - apply find_some in H0. apply inv_touch_black; [apply H0|exact H].
  - apply find_some in H1, H2. apply (inv_touch_black (mkbase (touched o (white b) e now) (black b))); [apply H2|]. apply inv_touch_white; [apply H1|exact H].
  - apply find_some in H1, H3. apply (inv_touch_white (mkbase (touched o (white b) e now) (black b))); [apply H3|]. apply inv_touch_white; [apply H1|exact H].
  - apply find_some in H1. apply (inv_add_white (mkbase (touched o (white b) e now) (black b))); [apply find_none; exact H2|]. apply inv_touch_white; [apply H1|exact H].
  - apply find_some in H2. apply inv_touch_black; [apply H2|exact H].
  - apply find_some in H3. apply inv_touch_white; [apply H3|exact H].
  - apply find_none in H0, H1, H2. apply (inv_add_white (mkbase (insert o (white b) (mkentry m0 now)) (black b))); [cbn [black]; apply R; assumption|]. apply inv_add_white; assumption.
Qed.
Lemma inv_erase b m : inv b -> inv (mkbase (erase o (white b) m) (black b)).
Proof. intros (U & V & D). split; [apply uniq_filter; exact U|]. split; [exact V|]. intros k. cbn [white black]. rewrite has_erase. intros ((H & _) & K). apply (D k). auto. Qed.
Lemma inv_step b x : inv b -> regular_op o pack b x -> inv (step o thz pack b x).
Proof.
  intros H R. destruct x as [m now|m0 m1 now|m now|m|now|m v now]; cbn [step].
  - apply inv_check. exact H.
  - apply inv_pair; assumption.
  - apply (inv_add_black (mkbase (erase o (white b) m) (black b))); [|apply inv_erase; exact H]. cbn [white]. rewrite has_erase, equal_refl. intros (_ & Q). discriminate.
  - apply inv_erase. exact H.
  - destruct H as (U & V & D). split; [exact U|]. split; [apply uniq_filter; exact V|]. intros m (K & (e & I & E)). apply (D m). split; [exact K|]. exists e. split; [apply (filter_in _ _ _ I)|exact E].
  - destruct v; cbn [load]; cbn [regular_op] in R; [apply inv_add_white|apply inv_add_black]; assumption.
Qed.
Lemma inv_run xs : forall b, inv b -> regular o thz pack b xs -> inv (run o thz pack b xs).
Proof. induction xs as [|x xs IH]; intros b H R; [exact H|]. destruct R as (R1 & R2). apply IH; [apply inv_step; assumption|exact R2]. Qed.
Lemma never_both xs m : regular o thz pack empty xs -> ~ (live o (run o thz pack empty xs) m /\ failed o (run o thz pack empty xs) m).
Proof. intros R. apply (inv_run xs empty inv_empty R). Qed.

(** ** Remembering failures *)
Lemma touched_since l e m now t : In e l -> (exists x, In x l /\ eqm m (e_mdl x) = true /\ touch x = t) ->
  exists x, In x (touched o l e now) /\ eqm m (e_mdl x) = true /\ (touch x = t \/ touch x = now).
Proof.
  intros I (x & J & E & T). destruct (eqm (e_mdl e) (e_mdl x)) eqn:Q.
  - exists (mkentry (e_mdl e) now). split; [apply in_touched; auto|]. split; [|right; reflexivity]. cbn [e_mdl]. exact (equal_trans o _ _ _ E (equal_sym o _ _ Q)).
  - exists x. split; [apply in_touched; auto|auto].
Qed.
Lemma remember_step b x m t t0 : failed_since o b m t -> t0 <= t -> not_before t0 x -> trims_before (t0 + thz) x ->
  exists t', t0 <= t' /\ failed_since o (step o thz pack b x) m t'.
Proof.
  intros F L N T. assert (K : exists t', t0 <= t' /\ failed_since o b m t') by (exists t; auto).
  assert (TB : forall e now, In e (black b) -> t0 <= now -> exists t', t0 <= t' /\ exists y, In y (touched o (black b) e now) /\ eqm m (e_mdl y) = true /\ touch y = t').
  { intros e now I LN. destruct (touched_since _ e m now t I F) as (y & Y1 & Y2 & Y3). exists (touch y). split; [destruct Y3; lia|]. exists y. auto. }
  destruct x as [k now|m0 m1 now|k now|k|now|k v now]; cbn [step not_before time_of] in *.
  - unfold check. destruct (find o (black b) k) as [e|] eqn:Q; [apply find_some in Q; apply TB; [apply Q|exact N]|]. destruct (find o (white b) k); exact K.
  - destruct (pair_cases b m0 m1 now); cbn [fst]; try exact K; match goal with Q : find o (black b) _ = Some ?e |- _ => apply find_some in Q; apply (TB e); [apply Q|exact N] end.
  - exists t. split; [exact L|]. destruct F as (e & I & E & W). exists e. split; [apply in_insert; left; exact I|auto].
  - exact K.
  - exists t. split; [exact L|]. destruct F as (e & I & E & W). exists e. split; [|auto]. cbn [trim black]. apply filter_In. split; [exact I|]. cbn in T. rewrite negb_true_iff. apply Z.leb_gt. lia.
  - destruct v; cbn [load]; [exact K|]. exists t. split; [exact L|]. destruct F as (e & I & E & W). exists e. split; [apply in_insert; left; exact I|auto].
Qed.
Lemma remember xs : forall b m t t0, failed_since o b m t -> t0 <= t -> Forall (not_before t0) xs -> Forall (trims_before (t0 + thz)) xs ->
  exists t', t0 <= t' /\ failed_since o (run o thz pack b xs) m t'.
Proof.
  induction xs as [|x xs IH]; intros b m t t0 F L N T; [exists t; auto|]. inversion N; subst. inversion T; subst.
  destruct (remember_step b x m t t0 F L H1 H3) as (t' & L' & F'). exact (IH _ m t' t0 F' L' H2 H4).
Qed.
Lemma refused b m now : failed o b m -> snd (check o b m now) = None /\ failed_since o (fst (check o b m now)) m now.
Proof.
  intros H. apply has_iff in H. destruct H as (e & F). unfold check. rewrite F. split; [reflexivity|]. apply find_some in F. exists (mkentry (e_mdl e) now). cbn [fst black e_mdl touch].
  split; [apply in_touched; auto|]. split; [apply F|reflexivity].
Qed.
Lemma fail_since b m now : ~ failed o b m -> failed_since o (failure o b m now) m now.
Proof.
  intros H. exists (mkentry m now). split; [apply in_insert; right; split; [reflexivity|exact H]|]. split; [apply equal_refl|reflexivity].
Qed.
Lemma since_equal b m m' t : eqm m m' = true -> failed_since o b m t -> failed_since o b m' t.
Proof. intros E (e & I & H & T). exists e. split; [exact I|]. split; [|exact T]. rewrite <- (equal_left o _ _ _ E). exact H. Qed.
Lemma failed_refused b m t m' xs now : ~ failed o b m -> eqm m m' = true -> Forall (not_before t) xs -> Forall (trims_before (t + thz)) xs ->
  snd (check o (run o thz pack (failure o b m t) xs) m' now) = None.
Proof.
  intros F E N T. destruct (remember xs _ m t t (fail_since b m t F) (Z.le_refl t) N T) as (t' & _ & H). apply refused. apply (since_equal _ _ _ _ E) in H. destruct H as (e & I & Q & _). exists e. auto.
Qed.
Lemma refused_again b m t m' xs now : snd (check o b m t) = None -> eqm m m' = true -> Forall (not_before t) xs -> Forall (trims_before (t + thz)) xs ->
  snd (check o (run o thz pack (fst (check o b m t)) xs) m' now) = None.
Proof.
  intros F E N T. assert (FB : failed o b m).
  { unfold check in F. destruct (find o (black b) m) eqn:Q; [apply has_iff; eauto|]. destruct (find o (white b) m); discriminate. }
  destruct (refused b m t FB) as (_ & S). destruct (remember xs _ m t t S (Z.le_refl t) N T) as (t' & _ & H). apply refused. apply (since_equal _ _ _ _ E) in H. destruct H as (e & I & Q & _). exists e. auto.
Qed.
Lemma forgotten b m t now : inv b -> failed_since o b m t -> t + thz <= now -> ~ failed o (trim thz b now) m.
Proof.
  intros (_ & U & _) (e & I & E & T) L (x & J & Q). cbn [trim black] in J. apply filter_In in J. destruct J as (J & W).
  assert (e = x) by (apply (uniq_same o (black b)); try assumption; exact (equal_trans o _ _ _ (equal_sym o _ _ E) Q)). subst x. rewrite negb_true_iff in W. apply Z.leb_gt in W. lia.
Qed.
Lemma only_trimmed b x m : failed o b m -> failed o (step o thz pack b x) m \/ exists now t, x = Trim now /\ failed_since o b m t /\ t + thz <= now.
Proof.
  intros (e & I & E).
  assert (G : forall t, t <= touch e -> not_before t x -> trims_before (t + thz) x -> failed o (step o thz pack b x) m).
  { intros t L N T. destruct (remember_step b x m (touch e) t) as (t' & _ & (y & A & B & _)); [exists e; auto|exact L|exact N|exact T|]. exists y. auto. }
  destruct x as [k now|m0 m1 now|k now|k|now|k v now].
  5: { destruct (Z.le_gt_cases (touch e + thz) now) as [Q|Q]; [right; exists now, (touch e); split; [reflexivity|]; split; [exists e; auto|exact Q]|].
       left. exists e. split; [|exact E]. cbn [step trim black]. apply filter_In. split; [exact I|]. rewrite negb_true_iff. apply Z.leb_gt. lia. }
  4: left; apply (G (touch e)); [lia|exact Logic.I|exact Logic.I].
  all: left; apply (G (Z.min (touch e) now)); [lia|cbn; lia|exact Logic.I].
Qed.

(** ** Live models *)
Lemma answer b m now : snd (check o b m now) = None /\ failed o b m \/
  (exists k, snd (check o b m now) = Some k /\ ~ failed o b m /\ eqm m k = true /\ in_use b k /\ in_use (fst (check o b m now)) k) \/
  (snd (check o b m now) = Some m /\ ~ failed o b m /\ ~ live o b m /\ in_use (fst (check o b m now)) m).
Proof.
  unfold check. destruct (find o (black b) m) as [e|] eqn:F; [left; split; [reflexivity|]; apply has_iff; eauto|]. right. pose proof F as NF. apply find_none in NF.
  destruct (find o (white b) m) as [e|] eqn:G.
  - left. exists (e_mdl e). apply find_some in G. split; [reflexivity|]. split; [exact NF|]. split; [apply G|]. split; [apply in_map; apply G|]. cbn [fst]. unfold in_use. cbn [white].
    change (e_mdl e) with (e_mdl (mkentry (e_mdl e) now)). apply in_map. apply in_touched. auto.
  - right. split; [reflexivity|]. split; [exact NF|]. pose proof G as NG. apply find_none in NG. split; [exact NG|]. unfold in_use. cbn [fst white]. change m with (e_mdl (mkentry m now)) at 1. apply in_map. apply in_insert. auto.
Qed.
Lemma touched_in l e now k : In e l -> In k (map e_mdl l) -> uniq l -> In k (map e_mdl (touched o l e now)).
Proof.
  intros I J U. apply in_map_iff in J. destruct J as (x & <- & J). apply in_map_iff. destruct (eqm (e_mdl e) (e_mdl x)) eqn:Q.
  - assert (e = x) by (apply (uniq_same o l); assumption). subst x. exists (mkentry (e_mdl e) now). split; [reflexivity|]. apply in_touched. auto.
  - exists x. split; [reflexivity|]. apply in_touched. auto.
Qed.
Lemma insert_in l e k : In k (map e_mdl l) -> In k (map e_mdl (insert o l e)).
Proof. intros J. apply in_map_iff in J. destruct J as (x & <- & J). apply in_map. apply in_insert. auto. Qed.
Lemma use_step b x k : inv b -> in_use b k -> ~ ends o k x -> in_use (step o thz pack b x) k.
Proof.
  intros (U & V & D) K N. unfold in_use in *. destruct x as [m now|m0 m1 now|m now|m|now|m v now]; cbn [step].
  - unfold check. destruct (find o (black b) m); [exact K|]. destruct (find o (white b) m) as [e|] eqn:G; cbn [fst white]; [apply find_some in G; apply touched_in; [apply G|exact K|exact U]|apply insert_in; exact K].
  - destruct (pair_cases b m0 m1 now); cbn [fst white]; try exact K.
    + apply find_some in H0. apply touched_in; [apply H0|exact K|exact U].
    + apply find_some in H0, H2. apply touched_in; [apply H2| |apply uniq_touched; exact U]. apply touched_in; [apply H0|exact K|exact U].
    + apply find_some in H0. apply insert_in. apply touched_in; [apply H0|exact K|exact U].
    + apply find_some in H2. apply touched_in; [apply H2|exact K|exact U].
    + apply insert_in, insert_in. exact K.
  - cbn [failure white]. apply in_map_iff in K. destruct K as (e & <- & K). apply in_map. apply in_erase. split; [exact K|]. destruct (eqm m (e_mdl e)) eqn:Q; [|reflexivity]. exfalso. apply N. cbn. apply equal_sym. exact Q.
  - cbn [timeout white]. apply in_map_iff in K. destruct K as (e & <- & K). apply in_map. apply in_erase. split; [exact K|]. destruct (eqm m (e_mdl e)) eqn:Q; [|reflexivity]. exfalso. apply N. cbn. apply equal_sym. exact Q.
  - exact K.
  - destruct v; cbn [load white]; [apply insert_in; exact K|exact K].
Qed.
Lemma use_run xs : forall b k, inv b -> regular o thz pack b xs -> in_use b k -> Forall (fun x => ~ ends o k x) xs -> in_use (run o thz pack b xs) k.
Proof.
  induction xs as [|x xs IH]; intros b k H R K N; [exact K|]. inversion N; subst. destruct R as (R1 & R2). apply IH; [apply inv_step; assumption|exact R2|apply use_step; assumption|assumption].
Qed.
Lemma use_answer b k m now : inv b -> in_use b k -> eqm m k = true -> snd (check o b m now) = Some k.
Proof.
  intros (U & V & D) K E. apply in_map_iff in K. destruct K as (e & <- & K). destruct (answer b m now) as [(_ & F)|[(k & -> & _ & Q & J & _)|(_ & _ & NL & _)]].
  - exfalso. apply (D m). split; [exists e; auto|exact F].
  - f_equal. apply in_map_iff in J. destruct J as (x & <- & J). f_equal. apply (uniq_same o (white b)); try assumption. exact (equal_trans o _ _ _ (equal_sym o _ _ Q) E).
  - exfalso. apply NL. exists e. auto.
Qed.
Lemma same_answer h m now k xs m' now' : regular o thz pack empty h -> snd (check o (run o thz pack empty h) m now) = Some k ->
  regular o thz pack (fst (check o (run o thz pack empty h) m now)) xs -> Forall (fun x => ~ ends o k x) xs -> eqm m m' = true ->
  snd (check o (run o thz pack (fst (check o (run o thz pack empty h) m now)) xs) m' now') = Some k.
Proof.
  intros R A R' N E. pose proof (inv_run h empty inv_empty R) as HI. set (b := run o thz pack empty h) in *.
  assert (K : in_use (fst (check o b m now)) k /\ eqm m k = true).
  { destruct (answer b m now) as [(Q & _)|[(k' & Q & _ & E' & _ & K)|(Q & _ & _ & K)]]; [congruence| |].
    - rewrite Q in A. injection A as <-. auto.
    - rewrite Q in A. injection A as <-. split; [exact K|apply equal_refl]. }
  destruct K as (K & EK). pose proof (inv_check b m now HI) as HC. apply use_answer; [apply inv_run; assumption|apply use_run; assumption|exact (equal_trans o _ _ _ (equal_sym o _ _ E) EK)].
Qed.

(** ** Pairs *)
Lemma live_use b k : in_use b k -> live o b k.
Proof. unfold in_use. intros K. apply in_map_iff in K. destruct K as (e & <- & K). exists e. split; [exact K|apply equal_refl]. Qed.
Lemma pair_answers b m0 m1 now b' a0 a1 : uniq (white b) -> check_pair o pack b m0 m1 now = (b', a0, a1) ->
  (a0 = None <-> failed o b m0) /\ (a0 = None -> a1 = None) /\
  (forall k, a1 = Some k -> live o b' k) /\
  (forall k, a0 = Some k -> in_use b k /\ eqm m0 k = true /\ live o b' k \/ k = m0 /\ ~ live o b m0 /\ (live o b' m0 \/ a1 = None \/ exists k', a1 = Some k' /\ in_use b k')).
Proof.
  intros U E. pose proof (pair_cases b m0 m1 now) as P. rewrite E in P. clear E. remember (b', a0, a1) as r eqn:Er.
  assert (KN : forall e, find o (white b) m0 = Some e -> in_use b (e_mdl e) /\ eqm m0 (e_mdl e) = true).
  { intros e F. apply find_some in F. split; [apply in_map; apply F|apply F]. }
  assert (TU : forall l e bl, In e l -> live o (mkbase (touched o l e now) bl) (e_mdl e)).
  { intros l e bl I. exists (mkentry (e_mdl e) now). split; [apply in_touched; auto|apply equal_refl]. }
  destruct P; injection Er as <- <- <-.
  - split; [split; [intros _; apply has_iff; eauto|reflexivity]|]. split; [reflexivity|]. split; intros k Q; discriminate.
  - split; [split; [discriminate|intros F; apply find_none in H; contradiction]|]. split; [discriminate|]. split; [discriminate|]. intros k Q. injection Q as <-. left. destruct (KN e H0) as (K1 & K2). split; [exact K1|]. split; [exact K2|].
    apply find_some in H0. apply TU. apply H0.
  - split; [split; [discriminate|intros F; apply find_none in H; contradiction]|]. split; [discriminate|]. apply find_some in H2. destruct H2 as (X1 & X2). destruct (KN e H0) as (K1 & K2). apply find_some in H0. split; intros k Q; injection Q as <-.
    + apply TU. exact X1.
    + left. split; [exact K1|]. split; [exact K2|]. apply live_use. unfold in_use. cbn [white]. apply touched_in; [exact X1| |apply uniq_touched; exact U]. apply touched_in; [apply H0|exact K1|exact U].
  - split; [split; [discriminate|intros F; apply find_none in H; contradiction]|]. split; [discriminate|]. destruct (KN e H0) as (K1 & K2). apply find_some in H0. split; intros k Q; injection Q as <-.
    + unfold live. apply (has_insert o). right. apply equal_refl.
    + left. split; [exact K1|]. split; [exact K2|]. apply live_use. unfold in_use. cbn [white]. apply insert_in. apply touched_in; [apply H0|exact K1|exact U].
  - split; [split; [discriminate|intros F; apply find_none in H; contradiction]|]. split; [discriminate|]. split; [discriminate|]. intros k Q. injection Q as <-. right. apply find_none in H0. auto.
  - split; [split; [discriminate|intros F; apply find_none in H; contradiction]|]. split; [discriminate|]. apply find_some in H2. split; intros k Q; injection Q as <-.
    + apply TU. apply H2.
    + right. apply find_none in H0. split; [reflexivity|]. split; [exact H0|]. right. right. exists (e_mdl x). split; [reflexivity|apply in_map; apply H2].
  - split; [split; [discriminate|intros F; apply find_none in H; contradiction]|]. split; [discriminate|]. split; intros k Q; injection Q as <-.
    + unfold live. apply (has_insert o). right. apply equal_refl.
    + right. apply find_none in H0. split; [reflexivity|]. split; [exact H0|]. left. unfold live. apply (has_insert o). left. apply (has_insert o). right. apply equal_refl.
Qed.
End Base.

(** ** Equality *)
Lemma fact_alike f g : match_fact f g = true <-> f_head f = f_head g /\ p_code f = p_code g /\ Match_all (p_refs f) (p_refs g) = true.
Proof. unfold match_fact. rewrite !andb_true_iff, same_code_iff, Z.eqb_eq. reflexivity. Qed.
Lemma alike_iff a b : match_entry a b = true <->
  length (mcode a) = length (mcode b) /\ (forall i x y, (i < 6 \/ 10 < i)%nat -> nth_error (mcode a) i = Some x -> nth_error (mcode b) i = Some y -> x = y) /\
  match_fact (lhs a) (lhs b) = true /\ match_fact (rhs a) (rhs b) = true.
Proof.
  unfold match_entry. rewrite !andb_true_iff, same_but_spec. cbn [Nat.add]. unfold house_keeping.
  assert (Q : forall i, ((6 <=? i)%nat && (i <=? 10)%nat) = false <-> (i < 6 \/ 10 < i)%nat).
  { intros i. rewrite andb_false_iff, !Nat.leb_gt. lia. }
  split.
  - intros (((L & H) & A) & B). split; [exact L|]. split; [|auto]. intros i x y W. apply H. apply Q. exact W.
  - intros (L & H & A & B). split; [split; [split; [exact L|]|exact A]|exact B]. intros i x y W. apply H. apply Q. exact W.
Qed.
Lemma match_alike : forall t u, Match t u = true <-> alike t u.
Proof.
  induction t as [a|a c l IH] using tree_all; intros [b|b d r].
  - cbn. rewrite Z.eqb_eq. split; [intros ->; constructor|intros H; inversion H; reflexivity].
  - split; [discriminate|intros H; inversion H].
  - split; [discriminate|intros H; inversion H].
  - rewrite Match_node, andb_true_iff, same_code_iff.
    assert (Q : Match_all l r = true <-> Forall2 alike l r).
    { revert r. induction IH as [|x l HX HL IHL]; intros [|y r]; cbn [Match_all].
      - split; [constructor|reflexivity].
      - split; [discriminate|intros H; inversion H].
      - split; [discriminate|intros H; inversion H].
      - rewrite andb_true_iff, HX, IHL. split; [intros (A & B); constructor; assumption|intros H; inversion H; auto]. }
    rewrite Q. split; [intros (-> & H); constructor; exact H|intros H; inversion H; subst; auto].
Qed.
Lemma fact_payload f g : match_fact f g = true <-> f_head f = f_head g /\ alike (payload f) (payload g).
Proof. rewrite <- match_alike. unfold payload. rewrite Match_node. unfold match_fact. rewrite !andb_true_iff, Z.eqb_eq. reflexivity. Qed.
Lemma content_iff a b : match_entry a b = true <-> same_content a b.
Proof.
  rewrite alike_iff, !fact_payload. split.
  - intros (A & B & C & D). constructor; assumption.
  - intros [A B C D]. auto.
Qed.
Lemma equal_content o a b : equal o a b = true -> same_content a b.
Proof. unfold equal. rewrite andb_true_iff, content_iff. tauto. Qed.
Lemma content_equal o a b : args_apart a -> same_content a b -> refers_alike (lhs a) (lhs b) -> refers_alike (rhs a) (rhs b) -> equal o a b = true.
Proof.
  intros P C L R. pose proof C as M. apply content_iff in M. unfold equal. rewrite M, andb_true_r. apply Z.eqb_eq. unfold hash. unfold match_entry in M. rewrite !andb_true_iff in M. destruct M as ((_ & ML) & MR).
  rewrite (fact_hash o _ _ ML L), (fact_hash o _ _ MR R). f_equal. f_equal. f_equal. f_equal.
  destruct C as [LN CC _ _]. assert (N : forall i, (i < 6 \/ 10 < i)%nat -> nth i (mcode a) 0 = nth i (mcode b) 0).
  { intros i W. destruct (nth_error (mcode a) i) as [x|] eqn:A.
    - assert (exists y, nth_error (mcode b) i = Some y) as (y & B).
      { destruct (nth_error (mcode b) i) eqn:B; [eauto|]. apply nth_error_None in B. rewrite <- LN in B. apply nth_error_None in B. congruence. }
      rewrite (nth_error_nth _ _ _ A), (nth_error_nth _ _ _ B). exact (CC i x y W A B).
    - apply nth_error_None in A. rewrite !nth_overflow by congruence. reflexivity. }
  rewrite <- (N 1%nat) by lia. f_equal. unfold args_apart in P. apply N. lia.
Qed.

(** ** Witnesses *)
Definition ops0 : ops := mkops 1 2 3 4.
Definition fact_head : Z := 0xC3000105.
(** A fact of a command on function 9, and a fact of an instance of model [t]. *)
Definition cmd_fact : fact := mkfact fact_head 0 [0xC3000203; 0xC5000900; 5] [Known 77].
Definition other_fact : fact := mkfact fact_head 0 [0xC3000703; 8; 9] [Known 78].
Definition imdl_fact (t : tree) : fact := mkfact fact_head 0 [0xC3000303; 1; 2] [t].
Definition m_code (g : Z) : list Z := [0xC8000506; 0x8200000B; 3; 4; 5; 6; 0; 1; 1; 1; 1; 0xC1000000; g].
Definition first_mdl (a : Z) : mdl := mkmdl a (m_code 1) cmd_fact other_fact.
Definition second_mdl (a : Z) (t : tree) : mdl := mkmdl a (m_code 2) other_fact (imdl_fact t).
(** Packing adds the unpacked copy as a hidden reference. *)
Definition pack0 (t : tree) : tree := match t with Known a => Known a | Node a c l => Node a c (l ++ [Node 0 c l]) end.
(** The pair is learned at 0, the second model fails at 1, the first times out; the
    same pair is learned again, the first model being at address [a]. *)
Definition relearn (a : Z) : list op :=
  [SubmitPair (first_mdl 16) (second_mdl 32 (Known 0)) 0; Failure (second_mdl 32 (pack0 (as_tree (first_mdl 16)))) 1; Timeout (first_mdl 16);
   SubmitPair (first_mdl a) (second_mdl 48 (Known 0)) 2].
Lemma both_refuted : exists o thz pack xs m, Forall (fun x => match x with LoadMdl _ _ _ => False | _ => True end) xs /\
  live o (run o thz pack empty xs) m /\ failed o (run o thz pack empty xs) m.
Proof.
  exists ops0, 1000, pack0, (relearn 1040), (second_mdl 32 (pack0 (as_tree (first_mdl 16)))). split; [repeat constructor|]. split.
  - eexists. split; [right; left; reflexivity|vm_compute; reflexivity].
  - eexists. split; [left; reflexivity|vm_compute; reflexivity].
Qed.
Lemma relearned_refuted : exists o thz pack b m t m' now, in_use b m /\ same_content m m' /\ snd (check o (run o thz pack (failure o b m t) []) m' now) = Some m'.
Proof.
  exists ops0, 1000, pack0, (run ops0 1000 pack0 empty [SubmitPair (first_mdl 16) (second_mdl 32 (Known 0)) 0]), (second_mdl 32 (pack0 (as_tree (first_mdl 16)))), 1, (second_mdl 48 (pack0 (as_tree (first_mdl 64)))), 2.
  split; [right; left; vm_compute; reflexivity|]. split; [apply content_iff; vm_compute; reflexivity|]. vm_compute. reflexivity.
Qed.
(** A failure reported twice does not renew the memory of it. *)
Lemma renewed_refuted : exists o thz pack m xs t now, ends o m (Failure m t) /\ Forall (trims_before (t + thz)) xs /\ Forall (not_before t) xs /\
  failed o (run o thz pack empty [Failure m 0; Failure m t]) m /\ snd (check o (run o thz pack empty ([Failure m 0; Failure m t] ++ xs)) m now) = Some m.
Proof.
  exists ops0, 1000, pack0, (first_mdl 16), [Trim 1500], 900, 1600. split; [apply equal_refl|]. split; [repeat constructor; cbn; lia|]. split; [repeat constructor; cbn; lia|]. split.
  - eexists. split; [left; reflexivity|vm_compute; reflexivity].
  - vm_compute. reflexivity.
Qed.
(** The first model of a pair is answered although it is not live. *)
Lemma pair_refuted : exists o thz pack xs m0 m1 now b' k a1, check_pair o pack (run o thz pack empty xs) m0 m1 now = (b', Some k, a1) /\ ~ live o b' k.
Proof.
  exists ops0, 1000, pack0, [Submit (second_mdl 32 (as_tree (first_mdl 16))) 0], (first_mdl 16), (second_mdl 48 (Known 0)), 1. eexists. eexists. eexists. split; [vm_compute; reflexivity|].
  intros (e & [<-|[]] & H). vm_compute in H. discriminate.
Qed.
(** The second model is what is submitted, referring to the first model that is in
    use. *)
Lemma second_answer o pack b m0 m1 now b' a0 a1 : check_pair o pack b m0 m1 now = (b', Some a0, a1) ->
  (forall e, ~ (In e (black b) /\ equal o m0 (e_mdl e) = true)) /\
  (exists t, (t = as_tree a0 \/ t = pack (as_tree a0)) /\ (a1 = None <-> failed o b (redirect m1 t)) /\
     (forall k, a1 = Some k -> in_use b k /\ equal o (redirect m1 t) k = true /\ ~ failed o b (redirect m1 t) \/
        k = redirect m1 (pack (as_tree a0)) /\ ~ live o b (redirect m1 t) /\ live o b' a0 /\ live o b' k)).
Proof.
  intros E. pose proof (pair_cases o pack b m0 m1 now) as P. rewrite E in P. clear E. remember (b', Some a0, a1) as r eqn:Er.
  assert (NB : find o (black b) m0 = None -> forall e, ~ (In e (black b) /\ equal o m0 (e_mdl e) = true)).
  { intros F e (I & Q). apply find_none in F. apply F. exists e. auto. }
  assert (TW : forall e k now, In e (white b) -> In k (touched o (white b) e now) -> exists k', e_mdl k' = e_mdl k /\ In k' (white b)).
  { intros e k n I J. apply in_touched in J. destruct J as [(J & _)| ->]; [exists k; auto|exists e; auto]. }
  destruct P; try discriminate Er; injection Er as <- <- <-.
  - split; [apply NB; assumption|]. exists (pack (as_tree (e_mdl e))). split; [auto|]. split; [split; [intros _; apply has_iff; eauto|reflexivity]|]. discriminate.
  - split; [apply NB; assumption|]. exists (pack (as_tree (e_mdl e))). split; [auto|]. pose proof H1 as NF. apply find_none in NF. split; [split; [discriminate|intros Q; contradiction]|].
    intros k Q. injection Q as <-. left. apply find_some in H2, H0. destruct (TW e x now (proj1 H0) (proj1 H2)) as (k' & K1 & K2). split; [rewrite <- K1; apply in_map; exact K2|]. split; [apply H2|exact NF].
  - split; [apply NB; assumption|]. exists (pack (as_tree (e_mdl e))). split; [auto|]. pose proof H1 as NF. apply find_none in NF. split; [split; [discriminate|intros Q; contradiction]|].
    intros k Q. injection Q as <-. right. apply find_some in H0. apply find_none in H2. split; [reflexivity|]. split; [intros W; apply H2; apply has_touched; [apply H0|exact W]|]. split; unfold live; apply (has_insert o).
    + left. apply has_touched; [apply H0|]. exists e. split; [apply H0|apply equal_refl].
    + right. apply equal_refl.
  - split; [apply NB; assumption|]. exists (as_tree m0). split; [auto|]. split; [split; [intros _; apply has_iff; eauto|reflexivity]|]. discriminate.
  - split; [apply NB; assumption|]. exists (as_tree m0). split; [auto|]. pose proof H1 as NF. apply find_none in NF. split; [split; [discriminate|intros Q; contradiction]|].
    intros k Q. injection Q as <-. left. apply find_some in H2. split; [apply in_map; apply H2|]. split; [apply H2|exact NF].
  - split; [apply NB; assumption|]. exists (as_tree m0). split; [auto|]. pose proof H1 as NF. apply find_none in NF. split; [split; [discriminate|intros Q; contradiction]|].
    intros k Q. injection Q as <-. right. split; [reflexivity|]. apply find_none in H2. split; [exact H2|]. split; unfold live; apply (has_insert o); [left; apply (has_insert o); right; apply equal_refl|right; apply equal_refl].
Qed.
Lemma uniq_white o thz pack xs : forall b, uniq o (white b) -> uniq o (white (run o thz pack b xs)).
Proof.
  induction xs as [|x xs IH]; intros b U; [exact U|]. cbn [run fold_left]. apply IH. destruct x as [m now|m0 m1 now|m now|m|now|m v now]; cbn [step].
  - unfold check. destruct (find o (black b) m); [exact U|]. destruct (find o (white b) m); [apply uniq_touched|apply uniq_insert]; exact U.
  - destruct (pair_cases o pack b m0 m1 now); cbn [fst white]; repeat lazymatch goal with |- uniq _ (touched _ _ _ _) => apply uniq_touched | |- uniq _ (insert _ _ _) => apply uniq_insert end; exact U.
  - apply uniq_filter. exact U.
  - apply uniq_filter. exact U.
  - exact U.
  - destruct v; cbn [load white]; [apply uniq_insert|]; exact U.
Qed.
Lemma pair_run o thz pack xs m0 m1 now b' a0 a1 : check_pair o pack (run o thz pack empty xs) m0 m1 now = (b', a0, a1) ->
  (a0 = None <-> failed o (run o thz pack empty xs) m0) /\ (a0 = None -> a1 = None) /\ (forall k, a1 = Some k -> live o b' k) /\
  (forall k, a0 = Some k -> in_use (run o thz pack empty xs) k /\ equal o m0 k = true /\ live o b' k \/
     k = m0 /\ ~ live o (run o thz pack empty xs) m0 /\ (live o b' m0 \/ a1 = None \/ exists k', a1 = Some k' /\ in_use (run o thz pack empty xs) k')).
Proof. apply pair_answers. apply uniq_white. exact Logic.I. Qed.
Lemma forgotten_run o thz pack xs m t now now' : regular o thz pack empty xs -> failed_since o (run o thz pack empty xs) m t -> t + thz <= now ->
  exists k, snd (check o (trim thz (run o thz pack empty xs) now) m now') = Some k.
Proof.
  intros R F L. pose proof (forgotten o thz _ m t now (inv_run o thz pack xs empty (inv_empty o) R) F L) as N.
  destruct (answer o (trim thz (run o thz pack empty xs) now) m now') as [(_ & Q)|[(k & Q & _)|(Q & _)]]; [contradiction|eauto|eauto].
Qed.
