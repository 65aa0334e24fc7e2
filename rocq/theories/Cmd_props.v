(** Properties C156 to C162: the commands of programs. *)
From Verif Require Import Base Cmd_model Cmd_spec Cmd_proofs Cmd2_proofs Cmd3_proofs.
Local Open Scope nat_scope.

(** C156. The commands of a program are carried out together, in order, or not at all. *)
Theorem C156_unknown_refuted : exists l e n,
  inject_productions no_device 1 [] 100 [] false 0 0 100 1 false true l = Some (false, e, n) /\ carried_out e <> [].
Proof. exact half_refuted. Qed.
Print Assumptions C156_unknown_refuted.
Theorem C156_probe_refuted : exists l, Forall known l /\ forallb ok l = true /\
  inject_productions no_device 1 [] 100 [] false 0 0 100 1 false true l = None.
Proof. exact probe_refuted. Qed.
Print Assumptions C156_probe_refuted.
(** Missing: unknown functions, and probes of 255 objects. *)
Theorem C156_together_partial : forall executes program inputs code_size groups notify now reference period tolerance l,
  let run := inject_productions executes program inputs code_size groups notify now reference period tolerance false true l in
  let times := (fact_after now reference period tolerance, fact_before now reference period) in
  Forall known l -> Forall no_long_probe l ->
  (forallb ok l = true -> exists e n, run = Some (true, e, n) /\ carried_out e = all_meant executes times 0 l) /\
  (forallb ok l = false -> run = Some (false, [], None)).
Proof. exact together_partial. Qed.
Print Assumptions C156_together_partial.

Definition ex_commands : list production :=
  [mkp true (Inj (Described 3) true) 9 [2] 0; mkp true (Modify (ViewOf 4 77 3) 1) 7 [] 0; mkp true (Device 6) 5 [] 0; mkp true (Inj (Existing 8) true) 9 [8] 0].
Example C156_example : Forall known ex_commands /\ Forall no_long_probe ex_commands /\ forallb ok ex_commands = true /\
  all_meant a_device (1020, 1100)%Z 0 ex_commands =
    [Injected (New 0); Pending true 4 77 3 1; Sent 6; InjectedFact 6 1020 1100; Injected (Old 8)].
Proof. repeat split; repeat constructor; discriminate. Qed.

(** C157. What a program injects or ejects is what it describes, also when its productions
    are computed. *)
Theorem C157_program_refuted : exists l e n, Forall known l /\ Forall no_long_probe l /\
  inject_productions no_device 1 [] 100 [] false 0 0 100 1 true true l = Some (true, e, n) /\ carried_out e = [Injected Self] /\
  all_meant no_device (0, 0)%Z 0 l = [Injected (New 0)].
Proof. exact red_object_refuted. Qed.
Print Assumptions C157_program_refuted.
Theorem C157_code_refuted : exists l, Forall known l /\ Forall no_long_probe l /\
  inject_productions no_device 1 [] 100 [] false 0 0 100 1 true true l = None.
Proof. exact red_code_refuted. Qed.
Print Assumptions C157_code_refuted.
(** Missing: computed productions with new objects. *)
Theorem C157_given_partial : forall executes program inputs code_size groups notify now reference period tolerance l,
  let run b := inject_productions executes program inputs code_size groups notify now reference period tolerance true b l in
  let times := (fact_after now reference period tolerance, fact_before now reference period) in
  Forall known l -> Forall no_long_probe l -> Forall given l ->
  (exists e n, run true = Some (true, e, n) /\ carried_out e = all_meant executes times 0 l) /\ run false = Some (false, [], None).
Proof. exact computed_partial. Qed.
Print Assumptions C157_given_partial.
Example C157_example : Forall given (tl ex_commands) /\ length (tl ex_commands) = 3.
Proof. split; [repeat constructor|reflexivity]. Qed.

(** C158. The notification of a reduction tells the program, its inputs, and exactly the
    commands carried out, with the facts of those sent to devices. *)
Theorem C158_stop_refuted : exists l e n,
  inject_productions no_device 1 [2] 100 [5] true 0 0 100 1 false true l = Some (true, e, Some n) /\
  words n 7 = Some (WSet 2) /\ says (sizes_of l) n 8 (Command 0) /\ words n 9 = None.
Proof. exact stop_refuted. Qed.
Print Assumptions C158_stop_refuted.
Theorem C158_many_refuted : exists l e n, Forall plain l /\
  inject_productions a_device 1 [] 100 [5] true 0 0 100 1 false true l = Some (true, e, Some n) /\
  length (all_news a_device 0 l) = 256 /\ words n 3 = Some (WI 6) /\ words n 6 = Some (WSet 0).
Proof. exact many_refuted. Qed.
Print Assumptions C158_many_refuted.
Theorem C158_empty_refuted : exists l e n, Forall plain l /\
  inject_productions no_device 1 [] 100 [5] true 0 0 100 1 false true l = Some (true, e, Some n) /\
  all_news no_device 0 l = [] /\ notified e = [5].
Proof. exact empty_refuted. Qed.
Print Assumptions C158_empty_refuted.
(** Missing: stop and functions to be done; notifications beyond the size of pointers or sets. *)
Theorem C158_told_partial : forall executes program inputs code_size groups notify now reference period tolerance red l e n,
  Forall plain l -> Forall no_long_probe l ->
  cmd_count l < 256 -> length inputs < 256 -> word_total inputs l < 4096 -> ref_total inputs l < 4096 ->
  inject_productions executes program inputs code_size groups notify now reference period tolerance red true l = Some (true, e, Some n) ->
  tells (sizes_of l) n (all_news executes 0 l) /\ tells_inputs n inputs /\ tells_program n program.
Proof. exact told_partial. Qed.
Print Assumptions C158_told_partial.
(** Each group to notify is notified once, if there is a command to tell of. *)
Theorem C158_groups_partial : forall executes program inputs code_size groups notify now reference period tolerance l,
  Forall known l -> Forall no_long_probe l -> forallb ok l = true ->
  exists e n, inject_productions executes program inputs code_size groups notify now reference period tolerance false true l = Some (true, e, n) /\
    (n <> None <-> (groups <> [] /\ notify = true /\ cmd_count l <> 0)) /\
    notified e = match n with Some _ => groups | None => [] end.
Proof. exact notified_partial. Qed.
Print Assumptions C158_groups_partial.
Example C158_example : Forall plain ex_commands /\ cmd_count ex_commands = 4 /\ word_total [2; 3] ex_commands = 43 /\ ref_total [2; 3] ex_commands = 9 /\
  all_news a_device 0 ex_commands = [Command 0; Command 2; FactOf 2 true; Command 3].
Proof. repeat split; repeat constructor. Qed.

(** C159. A path leads where it says. *)
Theorem C159_view_refuted : exists h c p d, walk 10 h c p = Some (At d) /\ c_obj d = 2 /\ exists e, path_to h c p e /\ c_obj e = 3.
Proof. exact view_group_refuted. Qed.
Print Assumptions C159_view_refuted.
(** Missing: references written in views. *)
Theorem C159_path_partial : forall h c p d, stays h c p -> ((exists fuel, walk fuel h c p = Some (At d)) <-> path_to h c p d).
Proof. exact path_partial. Qed.
Print Assumptions C159_path_partial.
Theorem C159_undefined_partial : forall h fuel p c, stays h c p -> walk fuel h c p = Some Undefined ->
  exists q s e, p = q ++ ToView :: s /\ path_to h c q e /\ c_view e = None.
Proof. exact undefined_path. Qed.
Print Assumptions C159_undefined_partial.
Example C159_example : walk 10 w_heap w_this [ToMember 2; ToMember 1] = Some (At (mkc 1 (Some 1) false 4)) /\
  walk 10 w_heap w_this [ToMember 1; ToView] = Some Undefined /\ walk 10 w_heap w_this [ToView; ToMember 3] = Some (At (mkc 1 (Some 1) true 3)).
Proof. repeat split. Qed.

(** C160. Modifications and assignments apply to the member that is named. *)
Theorem C160_group_refuted : exists h c d m, stays h c [] /\ path_to h c [] d /\ named h d m = Some (GroupAt 3 m) /\
  forall fuel, get_member fuel h c [] m = Some (ViewOf 3 0 m).
Proof. exact group_refuted. Qed.
Print Assumptions C160_group_refuted.
Theorem C160_undefined_refuted : exists h c d m, stays h c [] /\ path_to h c [] d /\ named h d m = Some (GroupAt 3 m) /\
  forall fuel, get_member fuel h c [] m = None.
Proof. exact group_undefined_refuted. Qed.
Print Assumptions C160_undefined_refuted.
Theorem C160_inner_refuted : exists h c p d m, path_to h c p d /\ named h d m = Some (ObjectAt 4 4) /\
  forall fuel, 2 <= fuel -> get_member fuel h c p m = Some (ObjectAt 4 1).
Proof. exact inner_refuted. Qed.
Print Assumptions C160_inner_refuted.
(** Missing: groups, and structures inside objects. *)
Theorem C160_named_partial : forall h c p d m k n, stays h c p -> path_to h c p d ->
  (in_view d = false -> at_ d = 0 /\ k = KObject) -> (in_view d = true -> at_ d = 0) ->
  fetch h d = Some (Head k n) -> (in_view d = true -> k = KSet) ->
  exists f, forall fuel, f <= fuel -> get_member fuel h c p m = named h d m /\ named h d m <> None.
Proof. exact target_partial. Qed.
Print Assumptions C160_named_partial.
Example C160_example : get_member 10 w_heap w_this [ToView] 3 = Some (ViewOf 3 77 3) /\ get_member 10 w_heap w_this [ToMember 1] 1 = Some (ObjectAt 2 1).
Proof. split; reflexivity. Qed.

(** C161. red makes the productions of the positive section for every input that fits its
    pattern, and those of the negative section for the other inputs that fit its own. *)
Theorem C161_first_refuted : exists pos neg l, definite pos /\ definite neg /\
  reduced pos neg l = [(1, 1); (3, 1)] /\ red pos neg l = ([(1, 1)], true).
Proof. exact red_stops_refuted. Qed.
Print Assumptions C161_first_refuted.
Theorem C161_guard_refuted : exists pos neg l, anti pos = false /\ definite neg /\ reduced pos neg l = [] /\ red pos neg l = ([(1, 1)], true).
Proof. exact red_guard_refuted. Qed.
Print Assumptions C161_guard_refuted.
Theorem C161_anti_refuted : exists pos neg l, anti pos = true /\ definite neg /\ reduced pos neg l = [(2, 1)] /\ red pos neg l = ([], false).
Proof. exact red_anti_refuted. Qed.
Print Assumptions C161_anti_refuted.
(** Missing: inputs in another order, anti-patterns, guards that are false, 256 productions. *)
Theorem C161_reduced_partial : forall pos neg l, definite pos -> definite neg -> prods pos <> [] -> prods neg <> [] -> in_order pos neg l ->
  length (reduced pos neg l) < 256 -> red pos neg l = (reduced pos neg l, negb (length (reduced pos neg l) =? 0)).
Proof. exact red_partial. Qed.
Print Assumptions C161_reduced_partial.
(** In any order, nothing else is made. *)
Theorem C161_only_partial : forall pos neg l x q, definite pos -> definite neg -> In (x, q) (fst (red pos neg l)) ->
  In (Some x) l /\ ((fits pos x = true /\ In q (prods pos)) \/ (fits neg x = true /\ In q (prods neg))).
Proof. exact red_sound. Qed.
Print Assumptions C161_only_partial.
Definition ex_even : section := mksec false Nat.even (fun x => if x =? 4 then [Fails] else [Gives true]) [7; 8].
Example C161_example : definite odds /\ definite ex_even /\ in_order odds ex_even [Some 1; None; Some 3; Some 2; Some 4] /\
  red odds ex_even [Some 1; None; Some 3; Some 2; Some 4] = ([(1, 1); (3, 1); (2, 7); (2, 8)], true).
Proof.
  split; [split; [reflexivity|intros x []]|]. split; [split; [reflexivity|]|].
  - intros x H. cbn in H. destruct (x =? 4) in H; destruct H as [H|[]]; discriminate.
  - split; [|reflexivity]. exists [Some 1; None; Some 3], [Some 2], [Some 4]. split; [reflexivity|].
    split; [|split]; intros x H; cbn in H; repeat (destruct H as [H|H]; [try discriminate; injection H as <-; split || reflexivity; reflexivity|]); destruct H.
Qed.

(** C162. The fact that a command was executed by a device holds from its execution to the end
    of the frame. *)
Theorem C162_empty_refuted : exists now reference period tolerance,
  (reference <= now)%Z /\ (0 < period)%Z /\ (0 <= tolerance < period)%Z /\ (fact_before now reference period < fact_after now reference period tolerance)%Z.
Proof. exact tolerance_refuted. Qed.
Print Assumptions C162_empty_refuted.
Theorem C162_early_refuted : exists now reference period tolerance,
  (reference <= now)%Z /\ (0 < period)%Z /\ (0 <= tolerance)%Z /\ (2 * tolerance < period)%Z /\ (now < fact_after now reference period tolerance)%Z.
Proof. exact early_refuted. Qed.
Print Assumptions C162_early_refuted.
(** Missing: tolerances of half a period; from its execution. *)
Theorem C162_frame_partial : forall now reference period tolerance,
  (reference <= now)%Z -> (0 < period)%Z -> (0 <= tolerance)%Z -> (2 * tolerance < period)%Z ->
  let a := fact_after now reference period tolerance in let b := fact_before now reference period in
  (now <= a < b)%Z /\ (b <= now + period)%Z /\ (exists k, b = reference + k * period)%Z /\ (a <= now + 2 * tolerance)%Z.
Proof. exact times_partial. Qed.
Print Assumptions C162_frame_partial.
Example C162_example : fact_after 1035 0 100 10 = 1035%Z /\ fact_after 1005 0 100 10 = 1020%Z /\ fact_before 1005 0 100 = 1100%Z.
Proof. repeat split. Qed.
