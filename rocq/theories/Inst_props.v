(** Theorems about instances of composite states and models. *)
From Verif Require Import Base Float32 Atom_model Utils_model Bp_model Bp_spec Inst_model Inst_spec Inst4_proofs Inst5_proofs Inst6_proofs Inst7_proofs.
Local Open Scope nat_scope.

(** ** C135 The position of an exposed argument *)

(** In the instance made with a map, the value of every variable of the facts, save the two
    times of the first fact, is the exposed argument at the position told for the variable;
    every argument has one variable; no position is told for any other variable. *)
Theorem C135_position : forall fuel ti fact h s hlp tr T op wr f i, meant fuel h s -> ready h -> template hlp tr T ->
  build_f_ihlp fuel ti fact h hlp op wr = Some f -> fits f -> nth_error (refs f) 0 = Some i ->
  (forall x, In x (exposed h) -> exists p w, position h (Z.of_nat x) = Z.of_nat p /\
     nth_error (elements i 3) p = Some w /\ word_means i w (s x)) /\
  (forall p, p < length (elements i 3) -> exists! x, position h (Z.of_nat x) = Z.of_nat p) /\
  (forall z, (forall x, In x (exposed h) -> z <> Z.of_nat x) -> position h z = (-1)%Z).
Proof. exact position_spec. Qed.
Print Assumptions C135_position.
Example C135_example : meant 3 y_map y_term /\ ready y_map /\ template y_hlp y_tree y_tpl /\
  build_f_ihlp 3 50 1 y_map y_hlp 40 false = Some y_f /\ fits y_f /\ exposed y_map = [1; 4] /\
  map (fun x => position y_map x) [0; 1; 2; 3; 4; 5]%Z = [-1; 0; -1; -1; 1; -1]%Z.
Proof. exact (conj y_meant (conj y_ready (conj y_template (conj y_f_is (conj y_fits (conj eq_refl eq_refl)))))). Qed.

(** ** C136 What an instance says *)

(** Full statement: the fact made for a composite state or a model says: this state or
    model, with its template where the variables are replaced by their values (those of
    time intervals stay), with the values of the variables of the facts, in order, between
    the two times of the map.  Refuted: a word of a duration in the template is taken for a
    variable. *)
Theorem C136_build_refuted : exists fuel ti fact h s hlp tr T H op wr f,
  meant fuel h s /\ ready h /\ getDescriptor (word hlp 1) = I_PTR /\ shows anywhere anywhere (word hlp) (word hlp 1) tr /\
  (forall l, means free l tr T) /\ says free hlp H /\ build_f_ihlp fuel ti fact h hlp op wr = Some f /\ fits f /\
  ~ says free f (instance fact op H (fill (AObject ti 2) s false T) (map s (exposed h)) wr
      (s (Z.to_nat (fwd_after h))) (s (Z.to_nat (fwd_before h)))).
Proof. exact build_refuted. Qed.
Print Assumptions C136_build_refuted.
(** Proved when no word of raw data in the template looks like a pointer or a variable
    ([quiet], part of [template]). *)
Theorem C136_build_partial : forall fuel ti fact h s, meant fuel h s -> ready h ->
  forall hlp op wr f tr T H, template hlp tr T -> says free hlp H ->
  build_f_ihlp fuel ti fact h hlp op wr = Some f -> fits f ->
  says free f (instance fact op H (fill (AObject ti 2) s false T) (map s (exposed h)) wr
    (s (Z.to_nat (fwd_after h))) (s (Z.to_nat (fwd_before h)))).
Proof. exact build_says. Qed.
Print Assumptions C136_build_partial.
Example C136_example : meant 3 y_map y_term /\ ready y_map /\ template y_hlp y_tree y_tpl /\ says free y_hlp y_says /\
  build_f_ihlp 3 50 1 y_map y_hlp 40 false = Some y_f /\ fits y_f.
Proof. exact (conj y_meant (conj y_ready (conj y_template (conj y_hlp_says (conj y_f_is y_fits))))). Qed.
Example C136_words : words (word y_f) 0 12 = [AObject 1 5; RPointer 0; ptr 6; ptr 9; one; one; ATimestamp; 0%Z; 100%Z; ATimestamp; 0%Z; 200%Z] /\
  match refs y_f with
  | [i] => words (word i) 0 11 = [AObject 40 5; RPointer 0; ptr 6; ptr 8; Boolean false; one; ASet 1; 44%Z; ASet 2; RPointer 1; 45%Z] /\
           length (refs i) = 2
  | _ => False
  end.
Proof. exact y_words. Qed.

(** ** C137 The map read from an instance *)

(** Full statement: a map for the same pattern, initialized from the instance, gives every
    variable that had a value when the instance was made its meaning, and the others stay
    without value.  Refuted for the variables of a time interval in the template, which
    then mean themselves. *)
Theorem C137_trip_refuted : exists fuel ti fact h h2 s hlp tr T op wr f h3 x,
  meant fuel h s /\ ready h /\ timed h /\ alike h h2 /\ template hlp tr T /\ height tr <= fuel /\
  (exists b, In (x, b) (vars (AObject ti 2) false T)) /\ knows h x /\
  build_f_ihlp fuel ti fact h hlp op wr = Some f /\ fits f /\
  init_from_f_ihlp fuel h2 f = Some h3 /\ ~ gives fuel h3 x (s x).
Proof. exact trip_refuted. Qed.
Print Assumptions C137_trip_refuted.
(** Refuted too for the variables of the template without a value: the map takes them as
    known. *)
Theorem C137_unbound_refuted : exists fuel ti fact h h2 s hlp tr T op wr f h3 x,
  meant fuel h s /\ ready h /\ timed h /\ alike h h2 /\ template hlp tr T /\ height tr <= fuel /\
  In (x, false) (vars (AObject ti 2) false T) /\ ~ knows h x /\ ~ knows h2 x /\
  build_f_ihlp fuel ti fact h hlp op wr = Some f /\ fits f /\
  init_from_f_ihlp fuel h2 f = Some h3 /\ knows h3 x.
Proof. exact unbound_refuted. Qed.
Print Assumptions C137_unbound_refuted.
(** Proved for the variables of the template that had a value, none of them in a time
    interval, and for all variables of the facts. *)
Theorem C137_trip_partial : forall fuel ti fact h h2 s hlp tr T op wr f,
  meant fuel h s -> ready h -> timed h -> alike h h2 ->
  template hlp tr T -> height tr <= fuel -> (forall x b, In (x, b) (vars (AObject ti 2) false T) -> x < first h /\ b = false) ->
  build_f_ihlp fuel ti fact h hlp op wr = Some f -> fits f ->
  exists h3, init_from_f_ihlp fuel h2 f = Some h3 /\ alike h h3 /\
    (forall x b, In (x, b) (vars (AObject ti 2) false T) -> knows h x -> gives fuel h3 x (s x)) /\
    (forall x, In x (exposed h) -> definite h x -> gives fuel h3 x (s x)) /\
    (forall x, In x (exposed h) -> ~ definite h x -> nth_error (vals h3) x = nth_error (vals h2) x) /\
    gives fuel h3 (Z.to_nat (fwd_after h)) (s (Z.to_nat (fwd_after h))) /\
    gives fuel h3 (Z.to_nat (fwd_before h)) (s (Z.to_nat (fwd_before h))).
Proof. exact trip_back. Qed.
Print Assumptions C137_trip_partial.
Example C137_example : meant 3 y_map y_term /\ ready y_map /\ timed y_map /\
  alike y_map (mkh (repeat (Some Unbound) 5) 1 2 3) /\ template y_hlp y_tree y_tpl /\ height y_tree <= 3 /\
  vars (AObject 50 2) false y_tpl = [(0, false)] /\ build_f_ihlp 3 50 1 y_map y_hlp 40 false = Some y_f /\ fits y_f.
Proof.
  split; [exact y_meant|]. split; [exact y_ready|]. split; [exact y_timed|]. split; [repeat split; reflexivity|].
  split; [exact y_template|]. split; [vm_compute; lia|]. split; [reflexivity|]. split; [exact y_f_is|exact y_fits].
Qed.

(** ** C138 The pattern of an instance *)

(** Full statement: in the pattern made of an instance every argument becomes the variable
    whose value it is.  Refuted: the arguments are numbered without the two times, so that
    an argument behind them becomes the variable of a time. *)
Theorem C138_abstract_refuted : exists fuel ti fact h s hlp tr T op wr f i icst imdl g j x y p,
  meant fuel h s /\ ready h /\ template hlp tr T /\ build_f_ihlp fuel ti fact h hlp op wr = Some f /\ fits f /\
  nth_error (refs f) 0 = Some i /\ abstract_f_ihlp icst imdl f = Some g /\ nth_error (refs g) 0 = Some j /\
  position h (Z.of_nat x) = Z.of_nat p /\ (exists w, nth_error (elements i 3) p = Some w /\ word_means i w (s x)) /\
  nth_error (elements j 3) p = Some (VLPointer (Z.of_nat y)) /\ s y <> s x.
Proof. exact abstract_refuted. Qed.
Print Assumptions C138_abstract_refuted.
(** What is made of any instance: the same fact of the same state or model with its
    arguments numbered from 0, those of the template first. *)
Theorem C138_abstract_partial : forall icst imdl f g, abstract_f_ihlp icst imdl f = Some g ->
  exists i j hlp, nth_error (refs f) 0 = Some i /\ nth_error (refs i) (place (word i 1)) = Some hlp /\
    refs g = [j] /\ word g = word f /\ size g = size f /\ refs j = [hlp] /\
    word j 0 = AObject (if (asOpcode (word i 0%nat) =? icst)%Z then icst else imdl) 5 /\ word j 1 = RPointer 0 /\
    word j 4 = word i 4 /\ word j 5 = word i 5 /\
    elements j 2 = variables 0 (length (elements i 2)) /\
    elements j 3 = variables (length (elements i 2)) (length (elements i 3)).
Proof. exact abstract_spec. Qed.
Print Assumptions C138_abstract_partial.
(** An argument becomes its variable exactly when this precedes both times. *)
Theorem C138_right_partial : forall fuel ti fact h s hlp tr T op wr f i icst imdl g j, meant fuel h s -> ready h -> template hlp tr T ->
  count (word hlp (place (word hlp 1))) = first h ->
  build_f_ihlp fuel ti fact h hlp op wr = Some f -> fits f -> nth_error (refs f) 0 = Some i ->
  abstract_f_ihlp icst imdl f = Some g -> nth_error (refs g) 0 = Some j ->
  length (elements j 3) = length (elements i 3) /\
  forall x, In x (exposed h) ->
    (nth_error (elements j 3) (Z.to_nat (position h (Z.of_nat x))) = Some (VLPointer (Z.of_nat x)) <->
     (Z.of_nat x < fwd_after h /\ Z.of_nat x < fwd_before h)%Z).
Proof. exact abstract_right. Qed.
Print Assumptions C138_right_partial.
Example C138_example : count (word y_hlp (place (word y_hlp 1))) = first y_map /\
  match abstract_f_ihlp 40 41 y_f with
  | Some g => match refs g with [j] => elements j 2 = [VLPointer 0] /\ elements j 3 = [VLPointer 1; VLPointer 2] | _ => False end
  | None => False
  end.
Proof. vm_compute. repeat split. Qed.

(** ** C139 The map of a composite state or a model *)

(** Full statement: the map made for a composite state or a model has an entry without
    value for each variable of its template and its objects and for nothing else.  Refuted:
    a word of a string in the objects is taken for a variable, and the entries before it
    are null. *)
Theorem C139_map_refuted : exists fuel hlp packed tr T h x y, template hlp tr T /\ height tr <= fuel /\ vars 0 false T = [] /\
  init_from_hlp fuel hlp packed = Some h /\ ~ occurs packed x /\ nth_error (vals h) x = Some (Some Unbound) /\
  nth_error (vals h) y = Some None.
Proof. exact map_refuted. Qed.
Print Assumptions C139_map_refuted.
(** Proved when no word of raw data looks like a variable and the variables are below 256;
    with the number of variables of the template and the times of the first fact. *)
Theorem C139_map_partial : forall fuel ti hlp packed tr T first_obj, template hlp tr T -> height tr <= fuel ->
  1 <= count (word hlp (place (word hlp 2))) ->
  nth_error (refs hlp) (place (word hlp (place (word hlp 2) + 1))) = Some first_obj ->
  clear_code packed -> (forall x, occurs packed x -> x < 256) -> (forall x b, In (x, b) (vars ti false T) -> x < 256) ->
  exists h, init_from_hlp fuel hlp packed = Some h /\
    describes (vals h) (fun x => occurs packed x \/ exists b, In (x, b) (vars ti false T)) /\
    (forall n, first h <= n <-> forall x b, In (x, b) (vars ti false T) -> x < n) /\
    (3 < size first_obj -> forall k z, (k = 2 /\ z = fwd_after h) \/ (k = 3 /\ z = fwd_before h) ->
       (getDescriptor (word first_obj k) = VL_PTR -> z = Z.of_nat (place (word first_obj k))) /\
       (getDescriptor (word first_obj k) <> VL_PTR -> z = (-1)%Z)).
Proof. exact init_describes. Qed.
Print Assumptions C139_map_partial.
Example C139_example : template y_hlp y_tree y_tpl /\ height y_tree <= 3 /\ count (word y_hlp (place (word y_hlp 2))) = 1 /\
  nth_error (refs y_hlp) (place (word y_hlp (place (word y_hlp 2) + 1))) = Some y_fact /\
  clear_code y_packed /\ (forall x, occurs y_packed x -> x < 256) /\
  init_from_hlp 3 y_hlp y_packed = Some (mkh (repeat (Some Unbound) 5) 1 2 3).
Proof.
  split; [exact y_template|]. split; [vm_compute; lia|]. split; [vm_compute; reflexivity|]. split; [reflexivity|].
  split; [exact y_clear|]. split; [exact y_occurs|exact y_init].
Qed.
