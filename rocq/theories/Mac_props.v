(** C110 to C116: macros, counters, conditions and loads of the preprocessor. *)
From Coq Require Import String.
From Verif Require Import Base Ppr_model Ppr_spec Mac_model Mac_spec.
From Verif Require Mac_proofs Mac2_proofs Mac3_proofs Mac4_proofs Mac5_proofs Mac6_proofs Ppr_props.
Local Open Scope Z_scope.

(** * C110: the use of a macro is replaced by its body, with the arguments for the parameters *)

(** False in general: a parameter that occurs twice is replaced once; an argument that is
    called like a later parameter is replaced in turn; a body that is a parameter is left. *)
Theorem C110_substitution_refuted :
  outputs no_files nothing (lines ["!def (f x) (g x x)"; "(f a)"]%string) (lines [""; "(g a x)"]%string) /\
  outputs no_files nothing (lines ["!def (f x y) (g x y)"; "(f y a)"]%string) (lines [""; "(g a y)"]%string) /\
  outputs no_files nothing (lines ["!def (f x) x"; "(f a)"]%string) (lines [""; "x"]%string).
Proof. exact Mac5_proofs.substitution_refuted. Qed.
Print Assumptions C110_substitution_refuted.

(** True without these: a definition and its use, amid code that does not use the macro. *)
Theorem C110_substitution_partial : forall files src body use l1 l2,
  cmd_of src <> [] -> cmd_of use = cmd_of src -> code use -> linear (map cmd_of (args_of src)) (args_of use) (args_of body) ->
  let other := without (eqt (cmd_of src)) in
  other body -> other (meaning (map cmd_of (args_of src)) body use) -> Forall other l1 -> Forall other l2 ->
  processed files nothing (define src body :: l1 ++ use :: l2)
    (Ok 0 (define src body :: l1 ++ meaning (map cmd_of (args_of src)) body use :: l2) (with_macro src body)).
Proof. exact Mac5_proofs.def_used. Qed.
Print Assumptions C110_substitution_partial.

(** One expansion, wherever it takes place. *)
Theorem C110_expansion_partial : forall src body use, linear (map cmd_of (args_of src)) (args_of use) (args_of body) ->
  expand (src, body) use = Some (meaning (map cmd_of (args_of src)) body use).
Proof. exact Mac_proofs.expand_meaning. Qed.
Print Assumptions C110_expansion_partial.

(** It is refused when, and only when, the macro has parameters and the number of arguments is another. *)
Theorem C110_refused_partial : forall src body use, expand (src, body) use = None <->
  args_of src <> [] /\ List.length (args_of src) <> List.length (args_of use).
Proof. exact Mac_proofs.expand_refused. Qed.
Print Assumptions C110_refused_partial.

Definition src1 : rs := Rs Structure (txt "f") [] [] [atom (txt "x"); atom (txt "y")].
Definition body1 : rs := Rs Structure (txt "g") [] [] [atom (txt "y"); Rs Set_ [] [] [] [Rs Structure (txt "h") [] [] [atom (txt "x")]]].
Definition use1 : rs := Rs Structure (txt "f") (txt "l:") [] [Rs Structure (txt "k") [] [] [atom (txt "1")]; atom (txt "b")].
Example C110_case :
  linear (map cmd_of (args_of src1)) (args_of use1) (args_of body1) /\ without (eqt (txt "f")) body1 /\ code use1 /\
  without (eqt (txt "f")) (meaning (map cmd_of (args_of src1)) body1 use1) /\
  meaning (map cmd_of (args_of src1)) body1 use1 =
    Rs Structure (txt "g") (txt "l:") [] [atom (txt "b"); Rs Set_ [] [] [] [Rs Structure (txt "h") [] [] [Rs Structure (txt "k") [] [] [atom (txt "1")]]]].
Proof.
  split; [|split; [|split; [|split; [|vm_compute; reflexivity]]]].
  - repeat split; try (vm_compute; lia); try (intros q [<-|[]]; reflexivity); try (intros q []); intros [H|[]]; discriminate H.
  - vm_compute. tauto.
  - vm_compute. tauto.
  - vm_compute. tauto.
Qed.

(** * C111: code that uses no macro and no counter goes through unchanged *)
Theorem C111_untouched : forall files s l, all_active s -> Forall (passive s) l -> known s [] = false -> processed files s l (Ok 0 l s).
Proof. exact Mac2_proofs.untouched. Qed.
Print Assumptions C111_untouched.

(** From text to text. *)
Theorem C111_text : forall files l, Forall top_fine l -> outputs files nothing (print_root l) (print_root l).
Proof. exact Mac2_proofs.text_untouched. Qed.
Print Assumptions C111_text.

Example C111_case : Forall top_fine Ppr_props.sample /\
  passive (set_counters nothing [(txt "n", 3)]) (Rs Structure (txt "m") [] [] [atom (txt "k")]).
Proof.
  split; [exact (proj1 Ppr_props.C108_case)|]. left. vm_compute. tauto.
Qed.

(** * C112: of two branches of a condition, the one that holds is kept *)

(** False: the branch that does not hold is kept as well, and what comes after the first
    condition is not preprocessed at all. *)
Theorem C112_conditions_refuted :
  outputs no_files nothing (lines ["!ifdef d"; "(a)"; "!endif"]%string) (lines [""; "(a)"; ""]%string) /\
  outputs no_files nothing (lines ["!ifdef d"; "(a)"; "!endif"; "!def (f x) (g x)"; "(f b)"]%string) (lines [""; "(a)"; ""; ""; "(f b)"]%string).
Proof. exact Mac5_proofs.conditions_refuted. Qed.
Print Assumptions C112_conditions_refuted.

(** What is true: the first condition ends the preprocessing, and whatever follows is kept as it is. *)
Theorem C112_stops_partial : forall files s l1 x l2 s', all_active s -> Forall (passive s) l1 -> known s [] = false ->
  kind_of x = Condition -> condition s x = Some s' -> processed files s (l1 ++ x :: l2) (Ok 0 (l1 ++ x :: l2) s').
Proof. exact Mac2_proofs.condition_stops. Qed.
Print Assumptions C112_stops_partial.

(** The line adds its condition to those that are pending, turns the last one round, or drops
    it, whether or not they hold. *)
Theorem C112_pending_partial : forall files s x l cs, known s [] = false -> kind_of x = Condition -> pends (conds s) x cs ->
  processed files s (x :: l) (Ok 0 (x :: l) (set_conds s cs)).
Proof. exact Mac6_proofs.pending_first. Qed.
Print Assumptions C112_pending_partial.
Theorem C112_else_partial : forall s d b, holds_now s (d, negb b) <-> ~ holds_now s (d, b).
Proof. exact Mac6_proofs.else_flips. Qed.
Print Assumptions C112_else_partial.

(** While one of them does not hold, nothing is preprocessed, other than a condition; while
    all hold, code is, as in C110, C111 and C113. *)
Theorem C112_skips_partial : forall files s x l, known s [] = false -> kind_of x <> Condition -> ~ Forall (holds_now s) (conds s) ->
  processed files s (x :: l) (Ok 0 (x :: l) s).
Proof. exact Mac6_proofs.pending_skips. Qed.
Print Assumptions C112_skips_partial.
Theorem C112_active_partial : forall s, all_active s <-> Forall (holds_now s) (conds s).
Proof. exact Mac6_proofs.all_active_spec. Qed.
Print Assumptions C112_active_partial.

Definition waiting : state := set_conds (with_macro (atom (txt "d")) (atom (txt "1"))) [(txt "d", true)].
Example C112_skips_case : ~ Forall (holds_now waiting) (conds waiting) /\
  pends (conds waiting) (Rs Condition (txt "!else") [] [] []) [(txt "d", false)] /\
  Forall (holds_now (set_conds waiting [(txt "d", false)])) [(txt "d", false)].
Proof.
  split; [|split].
  - intros H. inversion H as [|? ? H1 _]; subst. apply H1. left. eexists. vm_compute. reflexivity.
  - apply (pends_else _ _ (txt "d") true []); reflexivity.
  - constructor; [|constructor]. left. eexists. vm_compute. reflexivity.
Qed.

Example C112_case : exists s', condition nothing (Rs Condition (txt "!ifdef") [] [] [atom (txt "d")]) = Some s' /\ conds s' = [(txt "d", false)].
Proof. eexists. split; vm_compute; reflexivity. Qed.

(** * C113: each use of a counter gets a number of its own *)

(** False in general: two uses of a macro that uses a counter get the same. *)
Theorem C113_counters_refuted :
  outputs no_files nothing (lines ["!counter n 0"; "!def (f x) (g n x)"; "(f a)"; "(f b)"]%string) (lines [""; ""; "(g 0 a)"; "(g 0 b)"]%string).
Proof. exact Mac5_proofs.counters_refuted. Qed.
Print Assumptions C113_counters_refuted.

(** True of all code, when there are no macros and no counter is called like a number. *)
Theorem C113_counters_partial : forall files s l, macros s = [] -> conds s = [] -> find (counters s) [] = None ->
  (forall n, find (counters s) (to_text n) = None) -> Forall code l ->
  exists l' s', processed files s l (Ok 0 l' s') /\ List.length l' = List.length l /\
    numbered (counters s) (counters s') (List.concat (map names l)) (List.concat (map names l')).
Proof. exact Mac4_proofs.counters_number. Qed.
Print Assumptions C113_counters_partial.

(** From the line that starts the counter: the numbers count from the number given there. *)
Theorem C113_start_partial : forall files name start l, name <> [] -> name <> txt "!counter" -> (forall n, name <> to_text n) -> Forall code l ->
  exists l' s' c', processed files nothing (counter name start :: l) (Ok 0 (counter name start :: l') s') /\ List.length l' = List.length l /\
    numbered [(name, atoi start)] c' (List.concat (map names l)) (List.concat (map names l')).
Proof. exact Mac5_proofs.counter_used. Qed.
Print Assumptions C113_start_partial.
Theorem C113_number_partial : forall n, atoi (to_text n) = n.
Proof. exact Mac5_proofs.atoi_to_text. Qed.
Print Assumptions C113_number_partial.

Definition counting : state := set_counters nothing [(txt "n", 0)].
Example C113_case : (forall n, find (counters counting) (to_text n) = None) /\
  processed no_files counting [Rs Structure (txt "a") [] [] [atom (txt "n"); atom (txt "n")]; atom (txt "n")]
    (Ok 0 [Rs Structure (txt "a") [] [] [atom (txt "0"); atom (txt "1")]; atom (txt "2")] (set_counters nothing [(txt "n", 3)])).
Proof.
  split; [|apply (Mac_proofs.processed_at _ 20); [vm_compute; reflexivity|discriminate]].
  intros n. unfold counting. cbn [counters set_counters find]. destruct (eqt (txt "n") (to_text n)) eqn:E; [|reflexivity].
  apply Mac_proofs.eqt_eq in E. exfalso. unfold to_text in E. destruct (Z.to_int n) as [d|d]; [destruct d|]; discriminate E.
Qed.

(** * C114: in the end, no use of a macro or of a counter is left *)

(** False in general: a use that comes before the definition is left; and a macro that uses
    itself is expanded for ever. *)
Theorem C114_normal_form_refuted :
  outputs no_files nothing (lines ["(f q)"; "!def (f x) (g x)"]%string) (lines ["(f q)"; ""]%string) /\
  (forall files, never_ends files nothing (lines ["!def (f x) (f x)"; "(f a)"]%string)).
Proof. exact (conj Mac5_proofs.left_over_refuted Mac5_proofs.self_never_ends). Qed.
Print Assumptions C114_normal_form_refuted.

(** True when the definitions come first, and when the preprocessing ends. *)
Theorem C114_normal_form_partial : forall files, (forall name l, files name = Some l -> Forall item l) ->
  forall f s defs l n out s', tame s -> Forall defines defs -> Forall code l ->
  passes files f s (defs ++ l) = Ok n out s' ->
  exists defs' l', out = defs' ++ l' /\ List.length defs' = List.length defs /\ Forall defines defs' /\ Forall (without (known s')) l'.
Proof. exact Mac3_proofs.normal_form. Qed.
Print Assumptions C114_normal_form_partial.

Example C114_case : tame nothing /\ defines (define src1 body1) /\ code use1 /\
  exists s', passes no_files 20 nothing [define src1 body1; use1] = Ok 0 [define src1 body1; meaning (map cmd_of (args_of src1)) body1 use1] s' /\ known s' (txt "f") = true.
Proof.
  split; [repeat split; cbn; intros; discriminate|]. split; [|split; [vm_compute; tauto|eexists; split; vm_compute; reflexivity]].
  split; [|split; [reflexivity|discriminate]]. right. split; [reflexivity|]. split; [discriminate|]. split; [repeat constructor; vm_compute; tauto|].
  exists src1, [body1]. repeat split; discriminate.
Qed.

(** * C115: no text makes the preprocessor do something undefined *)

(** False: taking back a definition; a condition that is closed and was not opened; loading
    a file that is protected by a condition. *)
Theorem C115_defined_refuted :
  crashes no_files nothing (lines ["!def (f x) (g x)"; "!undef f"]%string) /\
  crashes no_files nothing (lines ["!else"; "(a)"]%string) /\
  crashes (one_file (txt "e") guarded_file) nothing (lines ["!load e"; "(a)"]%string).
Proof. exact Mac5_proofs.crashes_refuted. Qed.
Print Assumptions C115_defined_refuted.

(** True without conditions and without !undef, in the file and in those it loads. *)
Theorem C115_defined_partial : forall files, (forall name l, files name = Some l -> Forall item l) ->
  forall f s l, tame s -> Forall item l -> passes files f s l <> Undefined.
Proof. exact Mac3_proofs.passes_tame. Qed.
Print Assumptions C115_defined_partial.

Example C115_case : Forall item [load (txt "e"); use1] /\ (forall name l, one_file (txt "e") (lines ["(a b)"]%string) name = Some l -> Forall item l).
Proof.
  split.
  - constructor; [right|constructor; [left; vm_compute; tauto|constructor]]. split; [reflexivity|]. split; [discriminate|].
    split; [repeat constructor; vm_compute; tauto|]. exists (atom (txt "e")), []. repeat split; discriminate.
  - intros name l. unfold one_file. destruct (eqt name (txt "e")); [|discriminate]. vm_compute read. intros E. injection E as <-.
    constructor; [left; vm_compute; tauto|constructor].
Qed.

(** * C116: a file is loaded once, in the place of the first line that loads it *)
Theorem C116_first_partial : forall files s l1 name new l2, all_active s -> known s [] = false ->
  Forall (passive s) l1 -> Forall (passive s) new -> Forall (passive s) l2 ->
  ~ In name (loaded s) -> files name = Some new ->
  processed files s (l1 ++ load name :: l2) (Ok 0 (l1 ++ new ++ l2) (set_loaded s (loaded s ++ [name]))).
Proof. exact Mac2_proofs.load_first. Qed.
Print Assumptions C116_first_partial.

Theorem C116_again_partial : forall files s l1 name l2, all_active s -> known s [] = false -> Forall (passive s) l1 -> Forall (passive s) l2 ->
  In name (loaded s) -> processed files s (l1 ++ load name :: l2) (Ok 0 (l1 ++ l2) s).
Proof. exact Mac2_proofs.load_again. Qed.
Print Assumptions C116_again_partial.

(** Whatever is preprocessed, the files that are loaded are all different. *)
Theorem C116_once_partial : forall files s l n l' s', processed files s l (Ok n l' s') -> NoDup (loaded s) ->
  NoDup (loaded s') /\ exists new, loaded s' = loaded s ++ new.
Proof. exact Mac4_proofs.loaded_once. Qed.
Print Assumptions C116_once_partial.

Example C116_case : processed (one_file (txt "e") (lines ["(a b)"]%string)) nothing [load (txt "e"); atom (txt "c"); load (txt "e")]
  (Ok 0 [Rs Structure (txt "a") [] [] [atom (txt "b")]; atom (txt "c")] (set_loaded nothing [txt "e"])).
Proof. apply (Mac_proofs.processed_at _ 20); [vm_compute; reflexivity|discriminate]. Qed.
