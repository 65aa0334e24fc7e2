(** C42: generated names; C74: labels in decompiled code; C75: ignoring named objects;
    C76: reusing a decompiler; C77: names of labels and variables. *)
From Coq Require Import Sorted.
From Verif Require Import Base Obj_model Dec_model Dec_spec Dec_proofs Dec_stream.

(** Two objects with the same user-defined name. *)
Definition homonyms : image := mkimage [mkobj 1 3; mkobj 2 3] (fun _ => Some [120]) (fun _ => [101]).
Theorem C42_unique_refuted : exists img st i j, decompile_references no_names [] img = Named st /\ (i < length (objs img))%nat /\ (j < length (objs img))%nat /\ i <> j /\ name st i = name st j.
Proof. exists homonyms. eexists. exists 0%nat, 1%nat. split; [vm_compute; reflexivity|]. vm_compute. repeat split; auto; discriminate. Qed.
Print Assumptions C42_unique_refuted.
(** If the user-defined names are different, all names are different. *)
Theorem C42_unique_partial : forall img st i j, decompile_references no_names [] img = Named st -> (forall i j s, user_name img i s -> user_name img j s -> i = j) ->
  (i < length (objs img))%nat -> (j < length (objs img))%nat -> i <> j -> name st i <> None /\ name st i <> name st j.
Proof. exact unique. Qed.
Print Assumptions C42_unique_partial.
(** A name that is made up is different from all others, whatever the user-defined names,
    the names passed and the previous uses of the decompiler. *)
Theorem C42_made_up : forall l g img st i j, decompile_references (used l) g img = Named st -> made_up img i -> name (prefill (used l) g) i = None -> i <> j ->
  name st i <> None /\ name st i <> name st j.
Proof. exact unique_generated. Qed.
Print Assumptions C42_made_up.
(** User-defined names are kept. *)
Theorem C42_kept : forall l g img st i s, decompile_references (used l) g img = Named st -> user_name img i s -> name st i = Some s.
Proof. exact user_kept. Qed.
Print Assumptions C42_kept.
(** A new decompiler names all images of less than 65536 objects: the search for a name
    that is free ends. *)
Theorem C42_ends : forall img, Z.of_nat (length (objs img)) < 65536 -> exists st, decompile_references no_names [] img = Named st.
Proof. exact new_named. Qed.
Print Assumptions C42_ends.
(** Not those with more. *)
Theorem C42_large_refuted : forall img st g, 65536 <= Z.of_nat (length (objs img)) -> forall st', decompile_references st g img <> Named st'.
Proof. exact endless. Qed.
Print Assumptions C42_large_refuted.
(** Suffixes are not repeated. *)
Theorem C42_suffixes : forall a b, is_u32 a -> is_u32 b -> make_suffix a = make_suffix b -> a = b.
Proof. exact suffix_inj. Qed.
Print Assumptions C42_suffixes.
(** But "aa", which follows "z" according to the comment, is none of them. *)
Theorem C42_aa_refuted : forall v, is_u32 v -> make_suffix v <> [97; 97].
Proof. exact no_aa. Qed.
Print Assumptions C42_aa_refuted.
(** Variables and labels of an object: the same name iff the same index; one insertion in
    the text for each. *)
Theorem C42_variables : forall l j k a b s t, Forall is_u16 l -> nth_error l j = Some a -> nth_error l k = Some b ->
  nth_error (requests no_vars l) j = Some s -> nth_error (requests no_vars l) k = Some t -> (s = t <-> a = b).
Proof. exact variables. Qed.
Print Assumptions C42_variables.
Theorem C42_inserted : forall l, NoDup (insertions no_vars l) /\ forall i, In i (insertions no_vars l) <-> In i l.
Proof. exact inserted_once. Qed.
Print Assumptions C42_inserted.
(** Objects of class |a.b without OID; one has the name that would be made up. *)
Definition some_image : image :=
  mkimage [mkobj UNDEFINED_OID 3; mkobj 4 3; mkobj UNDEFINED_OID 3] (fun x => if x =? 4 then Some [97; 110; 116; 105; 95; 97; 95; 98; 48] else None) (fun _ => [124; 97; 46; 98]).
Example C42_case : (exists st, decompile_references no_names [] some_image = Named st /\
    map (name st) [0; 1; 2]%nat = [Some [97; 110; 116; 105; 95; 97; 95; 98; 48; 98]; Some [97; 110; 116; 105; 95; 97; 95; 98; 48]; Some [97; 110; 116; 105; 95; 97; 95; 98; 49]]) /\
  (forall i j s, user_name some_image i s -> user_name some_image j s -> i = j) /\
  requests no_vars [9; 4; 9] = [[118; 48]; [118; 49]; [118; 48]] /\ insertions no_vars [9; 4; 9] = [9; 4] /\ map make_suffix [0; 1; 25; 26; 27] = [[97]; [98]; [122]; [98; 97]; [98; 98]].
Proof.
  split; [eexists; split; vm_compute; reflexivity|]. split; [|vm_compute; auto].
  assert (U : forall i s, user_name some_image i s -> i = 1%nat).
  { intros [|[|[|[|i]]]] s (o & O & S'); cbn in O; try discriminate; injection O as <-; vm_compute in S'; try discriminate; auto. }
  intros i j s I J. rewrite (U i s I), (U j s J). auto.
Qed.

(** The insertion of a label does not end when more than 65535 items were written. *)
Theorem C74_ends_refuted : exists ops, labels_pushed ops /\ orun empty_stream ops = Loops.
Proof. exact stream_loops. Qed.
Print Assumptions C74_ends_refuted.
(** In general. *)
Theorem C74_too_many : forall ops i t, (forall i t, ~ In (Insert i t) ops) -> 65536 <= push_count ops -> orun empty_stream (ops ++ [Insert i t]) = Loops.
Proof. exact too_many. Qed.
Print Assumptions C74_too_many.
(** The label of something that was written without being pushed is put first of all. *)
Theorem C74_unpushed_refuted : exists ops s, orun empty_stream (ops ++ [Insert 7 [118; 48; 58]]) = Running s /\ ops <> [] /\ exists r, content s = [118; 48; 58] ++ r /\ exists s0, orun empty_stream ops = Running s0 /\ content s0 = r /\ r <> [].
Proof. exact not_pushed. Qed.
Print Assumptions C74_unpushed_refuted.
(** Otherwise the text is the document with every label right before what it labels. *)
Theorem C74_labels_partial : forall ops, push_count ops < 65536 -> labels_pushed ops -> exists s, orun empty_stream ops = Running s /\ content s = render (items (document ops)).
Proof. exact stream_ok. Qed.
Print Assumptions C74_labels_partial.
(** (1 [2] 3) with labels a: for the expression and b: for the set. *)
Definition some_ops : list oop := [Push [40] 0; Push [49] 1; Write [32]; Push [91] 2; Push [50] 3; Write [93]; Insert 2 [98; 58]; Write [32]; Push [51] 4; Insert 0 [97; 58]; Write [41]].
Example C74_case : push_count some_ops < 65536 /\ labels_pushed some_ops /\ render (items (document some_ops)) = [97; 58; 40; 49; 32; 98; 58; 91; 50; 93; 32; 51; 41].
Proof.
  split; [vm_compute; reflexivity|]. split; [|vm_compute; reflexivity].
  intros p i t q E. repeat (destruct p as [|? p]; [discriminate E || (inversion E; subst; eexists; cbn; tauto)|inversion E as [[E1 E']]; clear E; rename E' into E; subst]); try discriminate E.
Qed.

(** An object without a name is left out: the OIDs of named objects are kept modulo
    65536. *)
Theorem C75_left_out_refuted : exists img st w, decompile no_names img true = Some (st, w) /\ made_up img 1 /\ w = [].
Proof. exact skipped_unnamed. Qed.
Print Assumptions C75_left_out_refuted.
(** If OIDs are less than 65536: exactly the objects without user-defined names are
    written, in order, with their names. *)
Theorem C75_unnamed_partial : forall img st w, decompile no_names img true = Some (st, w) -> (forall o, In o (objs img) -> is_u16 (o_oid o)) ->
  StronglySorted Z.lt (map fst w) /\ forall i t, In (Z.of_nat i, t) w <-> made_up img i /\ name st i = Some t.
Proof. exact unnamed_written. Qed.
Print Assumptions C75_unnamed_partial.
(** When named objects are not ignored, all objects, in order, with their names. *)
Theorem C75_all : forall img st w, decompile no_names img false = Some (st, w) -> map fst w = map Z.of_nat (seq 0 (length (objs img))) /\
  forall i t, In (Z.of_nat i, t) w -> name st i = Some t.
Proof. exact all_written. Qed.
Print Assumptions C75_all.
Example C75_case : (exists st, decompile no_names img2 true = Some (st, [(1, [101; 110; 116; 95; 56])])) /\ (exists st, decompile no_names img2 false = Some (st, [(0, [110; 48]); (1, [101; 110; 116; 95; 56])])) /\
  (forall o, In o (objs img2) -> is_u16 (o_oid o)).
Proof. split; [eexists; vm_compute; reflexivity|]. split; [eexists; vm_compute; reflexivity|]. intros o [<-|[<-|[]]]; split; vm_compute; congruence. Qed.

(** A decompiler that was used for an image refuses the next one, and writes it with
    other names than a new one would. *)
Theorem C76_refused_refuted : exists a b st w, decompile no_names a false = Some (st, w) /\
  (exists st', decompile_references st [] b = Refused st') /\
  option_map snd (decompile st b false) <> option_map snd (decompile no_names b false).
Proof. exact reuse_refused. Qed.
Print Assumptions C76_refused_refuted.
(** Or gives an object the name of an object of the previous image. *)
Theorem C76_stale_refuted : exists a b st w st', decompile no_names a false = Some (st, w) /\ decompile_references st [] b = Named st' /\
  name st' 0 = name st 0 /\ (forall s, decompile_references no_names [] b = Named s -> name s 0 <> name st' 0).
Proof. exact reuse_stale. Qed.
Print Assumptions C76_stale_refuted.
(** For the same image, the names are the same. *)
Theorem C76_again_partial : forall img st, decompile_references no_names [] img = Named st -> exists st', decompile_references st [] img = Named st' /\ forall i, name st' i = name st i.
Proof. exact again. Qed.
Print Assumptions C76_again_partial.
Example C76_case : exists st st', decompile_references no_names [] some_image = Named st /\ decompile_references st [] some_image = Named st' /\ name st' 2 = Some [97; 110; 116; 105; 95; 97; 95; 98; 49].
Proof. eexists. eexists. split; [vm_compute; reflexivity|]. split; vm_compute; reflexivity. Qed.

(** A label and a variable of a model get the same name. *)
Theorem C77_clash_refuted : exists i j, i <> j /\ fst (snd (get_variable_name no_vars i)) = get_hlp_variable_name false j.
Proof. exact clash. Qed.
Print Assumptions C77_clash_refuted.
(** Two variables of a model do not. *)
Theorem C77_variables_partial : forall p i j, is_u32 i -> is_u32 j -> get_hlp_variable_name p i = get_hlp_variable_name p j -> i = j.
Proof. exact hlp_variables. Qed.
Print Assumptions C77_variables_partial.
Example C77_case : get_hlp_variable_name true 12 = [118; 49; 50; 58] /\ fst (snd (get_variable_name no_vars 12)) = get_hlp_variable_name false 0.
Proof. split; vm_compute; reflexivity. Qed.
