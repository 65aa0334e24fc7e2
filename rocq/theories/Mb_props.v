(** Theorems about the model base. *)
From Verif Require Import Base Atom_model Mb_model Mb_spec Mb_proofs.

(** ** C31 Failed models are not re-learned while remembered *)

(** No model is both live and failed, after any history of submissions, failures,
    timeouts, clean-ups and loads; missing: histories that are not [regular], where it
    is false. *)
Theorem C31_never_both_partial : forall o thz pack xs m, regular o thz pack empty xs ->
  ~ (live o (run o thz pack empty xs) m /\ failed o (run o thz pack empty xs) m).
Proof. exact never_both. Qed.
Print Assumptions C31_never_both_partial.
(** A pair is learned, the second model fails, the first one times out, and the pair
    is learned again: the second model is live and failed. *)
Theorem C31_never_both_refuted : exists o thz pack xs m, Forall (fun x => match x with LoadMdl _ _ _ => False | _ => True end) xs /\
  live o (run o thz pack empty xs) m /\ failed o (run o thz pack empty xs) m.
Proof. exact both_refuted. Qed.
Print Assumptions C31_never_both_refuted.
(** A model that failed at [t] is refused, whatever happens after, as long as no
    clean-up takes place at [t + thz] or later. *)
Theorem C31_failed_refused : forall o thz pack b m t m' xs now, ~ failed o b m -> equal o m m' = true ->
  Forall (not_before t) xs -> Forall (trims_before (t + thz)) xs -> snd (check o (run o thz pack (failure o b m t) xs) m' now) = None.
Proof. exact failed_refused. Qed.
Print Assumptions C31_failed_refused.
(** Each refusal renews the memory. *)
Theorem C31_refusal_renews : forall o thz pack b m t m' xs now, snd (check o b m t) = None -> equal o m m' = true ->
  Forall (not_before t) xs -> Forall (trims_before (t + thz)) xs -> snd (check o (run o thz pack (fst (check o b m t)) xs) m' now) = None.
Proof. exact refused_again. Qed.
Print Assumptions C31_refusal_renews.
(** A repeated failure does not. *)
Theorem C31_failure_renews_refuted : exists o thz pack m xs t now, ends o m (Failure m t) /\ Forall (trims_before (t + thz)) xs /\ Forall (not_before t) xs /\
  failed o (run o thz pack empty [Failure m 0; Failure m t]) m /\ snd (check o (run o thz pack empty ([Failure m 0; Failure m t] ++ xs)) m now) = Some m.
Proof. exact renewed_refuted. Qed.
Print Assumptions C31_failure_renews_refuted.
(** A failed model is forgotten only by a clean-up that takes place [thz] or more after
    the last time, and then it is. *)
Theorem C31_forgotten_only : forall o thz pack b x m, failed o b m ->
  failed o (step o thz pack b x) m \/ exists now t, x = Trim now /\ failed_since o b m t /\ t + thz <= now.
Proof. exact only_trimmed. Qed.
Print Assumptions C31_forgotten_only.
Theorem C31_forgotten : forall o thz pack xs m t now now', regular o thz pack empty xs -> failed_since o (run o thz pack empty xs) m t -> t + thz <= now ->
  exists k, snd (check o (trim thz (run o thz pack empty xs) now) m now') = Some k.
Proof. exact forgotten_run. Qed.
Print Assumptions C31_forgotten.
(** The answer to a submission: nothing if the model failed; the known model if an
    equal one is live; else the model itself, which is live from then on. *)
Theorem C31_answer : forall o b m now, snd (check o b m now) = None /\ failed o b m \/
  (exists k, snd (check o b m now) = Some k /\ ~ failed o b m /\ equal o m k = true /\ in_use b k /\ in_use (fst (check o b m now)) k) \/
  (snd (check o b m now) = Some m /\ ~ failed o b m /\ ~ live o b m /\ in_use (fst (check o b m now)) m).
Proof. exact answer. Qed.
Print Assumptions C31_answer.
(** The same known model is answered until an equal one fails or times out. *)
Theorem C31_same_answer : forall o thz pack h m now k xs m' now', regular o thz pack empty h -> snd (check o (run o thz pack empty h) m now) = Some k ->
  regular o thz pack (fst (check o (run o thz pack empty h) m now)) xs -> Forall (fun x => ~ ends o k x) xs -> equal o m m' = true ->
  snd (check o (run o thz pack (fst (check o (run o thz pack empty h) m now)) xs) m' now') = Some k.
Proof. exact same_answer. Qed.
Print Assumptions C31_same_answer.
(** Equal models have the same content; the converse if their facts are not about
    instances of different models. *)
Theorem C31_equal_content : forall o a b, equal o a b = true -> same_content a b.
Proof. exact equal_content. Qed.
Print Assumptions C31_equal_content.
Theorem C31_content_equal_partial : forall o a b, args_apart a -> same_content a b -> refers_alike (lhs a) (lhs b) -> refers_alike (rhs a) (rhs b) -> equal o a b = true.
Proof. exact content_equal. Qed.
Print Assumptions C31_content_equal_partial.
(** Otherwise a failed model is learned again, when the model whose instances it is
    about is at another address. *)
Theorem C31_relearned_refuted : exists o thz pack b m t m' now, in_use b m /\ same_content m m' /\
  snd (check o (run o thz pack (failure o b m t) []) m' now) = Some m'.
Proof. exact relearned_refuted. Qed.
Print Assumptions C31_relearned_refuted.

(** A model fails at 100 and is submitted at 200 and 1150 (horizon 1000); it is
    forgotten by the clean-up at 2200. *)
Definition story : list op := [Submit (first_mdl 16) 0; Failure (first_mdl 16) 100; Submit (first_mdl 48) 200; Trim 1150; Submit (first_mdl 48) 1150].
Example C31_ex_regular : regular ops0 1000 pack0 empty (story ++ [Trim 2200; Submit (first_mdl 48) 2300]).
Proof. cbn [regular app story regular_op]. auto 10. Qed.
Example C31_ex_refused : ~ failed ops0 empty (first_mdl 16) /\ equal ops0 (first_mdl 16) (first_mdl 48) = true /\
  Forall (not_before 100) (skipn 2 story) /\ Forall (trims_before (1150 + 1000)) story /\
  snd (check ops0 (run ops0 1000 pack0 empty story) (first_mdl 48) 1200) = None /\
  snd (check ops0 (run ops0 1000 pack0 empty (story ++ [Trim 2200])) (first_mdl 48) 2300) = Some (first_mdl 48).
Proof.
  split; [intros (e & [] & _)|]. split; [vm_compute; reflexivity|]. split; [repeat constructor; cbn; lia|]. split; [repeat constructor; cbn; lia|]. vm_compute. auto.
Qed.
Example C31_ex_known : snd (check ops0 (run ops0 1000 pack0 empty [Submit (first_mdl 16) 0]) (first_mdl 48) 1) = Some (first_mdl 16).
Proof. vm_compute. reflexivity. Qed.
Example C31_ex_equal : args_apart (first_mdl 16) /\ same_content (first_mdl 16) (first_mdl 48) /\ ~ same_content (first_mdl 16) (second_mdl 32 (Known 0)).
Proof. split; [right; vm_compute; reflexivity|]. split; [apply content_iff; vm_compute; reflexivity|]. rewrite <- content_iff. vm_compute. discriminate. Qed.

(** ** C32 A pair of dependent models is accepted or refused consistently *)

(** Refusing the first model refuses both; an answer for the second is live; an answer
    for the first is a known live model, or the model itself, which is then live,
    unless the second is refused or was known already. *)
Theorem C32_pair_partial : forall o thz pack xs m0 m1 now b' a0 a1, check_pair o pack (run o thz pack empty xs) m0 m1 now = (b', a0, a1) ->
  (a0 = None <-> failed o (run o thz pack empty xs) m0) /\ (a0 = None -> a1 = None) /\ (forall k, a1 = Some k -> live o b' k) /\
  (forall k, a0 = Some k -> in_use (run o thz pack empty xs) k /\ equal o m0 k = true /\ live o b' k \/
     k = m0 /\ ~ live o (run o thz pack empty xs) m0 /\ (live o b' m0 \/ a1 = None \/ exists k', a1 = Some k' /\ in_use (run o thz pack empty xs) k')).
Proof. exact pair_run. Qed.
Print Assumptions C32_pair_partial.
(** The second answer is about the second model referring to the first model answered:
    nothing if that failed, the known one if it is live, else itself, and then both are
    live. *)
Theorem C32_second : forall o pack b m0 m1 now b' a0 a1, check_pair o pack b m0 m1 now = (b', Some a0, a1) ->
  (forall e, ~ (In e (black b) /\ equal o m0 (e_mdl e) = true)) /\
  (exists t, (t = as_tree a0 \/ t = pack (as_tree a0)) /\ (a1 = None <-> failed o b (redirect m1 t)) /\
     (forall k, a1 = Some k -> in_use b k /\ equal o (redirect m1 t) k = true /\ ~ failed o b (redirect m1 t) \/
        k = redirect m1 (pack (as_tree a0)) /\ ~ live o b (redirect m1 t) /\ live o b' a0 /\ live o b' k)).
Proof. exact second_answer. Qed.
Print Assumptions C32_second.
(** The full statement is false: the first model is answered and not live. *)
Theorem C32_pair_refuted : exists o thz pack xs m0 m1 now b' k a1, check_pair o pack (run o thz pack empty xs) m0 m1 now = (b', Some k, a1) /\ ~ live o b' k.
Proof. exact pair_refuted. Qed.
Print Assumptions C32_pair_refuted.
(** A pair is accepted, then answered with the known models; when the second fails, the
    second only is refused. *)
Definition pair_now (t : Z) (b : base) := check_pair ops0 pack0 b (first_mdl 64) (second_mdl 80 (Known 0)) t.
Example C32_ex : let m1 := second_mdl 32 (pack0 (as_tree (first_mdl 16))) in
  let b := run ops0 1000 pack0 empty [SubmitPair (first_mdl 16) (second_mdl 32 (Known 0)) 0] in
  snd (fst (pair_now 5 b)) = Some (first_mdl 16) /\ snd (pair_now 5 b) = Some m1 /\
  snd (fst (pair_now 5 (failure ops0 b m1 3))) = Some (first_mdl 16) /\ snd (pair_now 5 (failure ops0 b m1 3)) = None.
Proof. vm_compute. auto. Qed.
