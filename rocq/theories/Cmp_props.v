(** C166, C167: compiling and decompiling objects. *)
From Verif Require Import Base Cmp_model Cmp_spec Cmp_proofs Cmp2_proofs Cmp3_proofs Cmp4_proofs Cmp5_proofs Cmp6_proofs.
Local Open Scope nat_scope.

(** C166, in full: whatever is accepted is decompiled to the same structure with the same values,
    and each use of a name to a use of what the name is of.  Each of these is accepted and is
    decompiled to something else, whatever the names stand for: a set of 256 elements; an object of
    more than 4096 words; (ptn ::); a label used by a later member of the same structure; a variable
    within a member used by a later one. *)
Theorem C166_set_refuted : exists c n p l s, compile_object c n p l = Some s /\
  forall rho f o, show_object f (code s) = Some o -> ~ Shown rho (Node None c n p l) o.
Proof. exists 1%Z, 1, false, [SetOf None (repeat (Val 0) 256)]. exact set_lost. Qed.
Print Assumptions C166_set_refuted.

Theorem C166_far_refuted : exists s, compile_object 1 2 false [SetOf None (repeat (Raw 0 (repeat 0%Z 250)) 17); Raw 5 []] = Some s /\
  forall rho f o, show_object f (code s) = Some o -> ~ Shown rho (Node None 1 2 false [SetOf None (repeat (Raw 0 (repeat 0%Z 250)) 17); Raw 5 []]) o.
Proof. exact far_lost. Qed.
Print Assumptions C166_far_refuted.

Theorem C166_guard_refuted : exists s, compile_object 1 2 true [Rest] = Some s /\
  forall rho f o, show_object f (code s) = Some o -> ~ Shown rho (Node None 1 2 true [Rest]) o.
Proof. exact guard_lost. Qed.
Print Assumptions C166_guard_refuted.

Theorem C166_label_refuted : exists s, compile_object 1 2 false [Node (Some 0) 2 1 false [Val 1]; Use 0] = Some s /\
  forall rho f o, show_object f (code s) = Some o -> ~ Shown rho (Node None 1 2 false [Node (Some 0) 2 1 false [Val 1]; Use 0]) o.
Proof. exact label_lost. Qed.
Print Assumptions C166_label_refuted.

Theorem C166_variable_refuted : exists s, compile_object 1 1 true [Node None 2 2 false [Node None 3 1 false [Var 0]; Use 0]] = Some s /\
  forall rho f o, show_object f (code s) = Some o -> ~ Shown rho (Node None 1 1 true [Node None 2 2 false [Node None 3 1 false [Var 0]; Use 0]]) o.
Proof. exact variable_lost. Qed.
Print Assumptions C166_variable_refuted.

(** [(ptn (foo x: [x x:]))]: the use is of neither; it refers to the object itself. *)
Theorem C166_twice_refuted : exists s, compile_object 1 1 true [Node None 2 2 false [Var 0; SetOf None [Use 0; Var 0]]] = Some s /\
  forall f o, show_object f (code s) = Some o -> o = ONode 0 1 [ONode 2 2 [OWild 3; OSet 5 [OUse 0; OWild 7]]].
Proof. exact outer_lost. Qed.
Print Assumptions C166_twice_refuted.

(** An object of at most 4096 words, members counted, sets below 256 elements, each name defined once
    and before it is used, and not used by a member behind the one it is defined in: it is
    decompiled, given enough steps, to the same structure and values; each name has an index of its
    own, at which it is defined and which its uses refer to. *)
Theorem C166_same_partial c n p l s : let t := Node None c n p l in
  compile_object c n p l = Some s -> extent s <= 4096 -> (forall u, Sub t u -> Counted u /\ Late u) ->
  NoDup (defined (events t)) -> Declared (fun _ => False) t ->
  exists rho o N, (forall f, N <= f -> show_object f (code s) = Some o) /\ Shown rho t o /\
    (forall x y, In x (defined (events t)) -> In y (defined (events t)) -> rho x = rho y -> x = y).
Proof. exact (object_shown c n p l s). Qed.
Print Assumptions C166_same_partial.

(** Whatever number of steps is given, nothing else is shown. *)
Theorem C166_one_partial f g m o o' : show_object f m = Some o -> show_object g m = Some o' -> o = o'.
Proof. exact (object_same f g m o o'). Qed.
Print Assumptions C166_one_partial.

(** [(ptn v0:(foo v1: [v1 7 (bar 4 v0 ::)]) [v1 v0])], bar with four members. *)
Definition C166_members : list tree :=
  [Node (Some 0) 2 2 false [Var 1; SetOf None [Use 1; Raw 7 [8; 9]%Z; Node None 3 4 false [Val 4; Use 0; Rest]]]; SetOf None [Use 1; Use 0]].
Example C166_example :
  (exists s, compile_object 1 2 true C166_members = Some s /\ extent s <= 4096 /\
     show_object 20 (code s) = Some (ONode 0 1 [ONode 3 2 [OWild 4; OSet 6 [OUse 4; ORaw 7 [W 8; W 9]; ONode 13 3 [OVal 4; OUse 3; ORest]]]; OSet 18 [OUse 4; OUse 3]])) /\
  (forall u, Sub (Node None 1 2 true C166_members) u -> Counted u /\ Late u) /\
  NoDup (defined (events (Node None 1 2 true C166_members))) /\ Declared (fun _ => False) (Node None 1 2 true C166_members).
Proof.
  split; [|split; [|split]].
  - eexists. split; [vm_compute; reflexivity|]. split; [apply Nat.leb_le; vm_compute; reflexivity|vm_compute; reflexivity].
  - assert (R : ends_with_rest [Val 4; Use 0; Rest]) by (exists [Val 4; Use 0]; reflexivity).
    unfold C166_members. intros u Hu.
    repeat match goal with
    | H : In _ (_ :: _) |- _ => destruct H as [<-|H]
    | H : In _ [] |- _ => destruct H
    | H : Sub _ _ |- _ => inversion H; subst; clear H
    end; (split; [cbn; try (left; reflexivity); try (right; split; [exact R|discriminate]); try exact I; try lia|]);
    cbn; try exact I; intros i j a x Hij Hi Hj F;
    destruct j as [|[|[|[|j]]]]; destruct i as [|[|[|[|i]]]]; cbn in Hi, Hj; try discriminate; try lia;
    injection Hi as <-; injection Hj as <-; cbn in F; repeat (destruct F as [F|F]; try discriminate); exact F.
  - cbn. constructor; [cbn; intros [F|F]; [discriminate|exact F]|]. constructor; [intros F; exact F|constructor].
  - intros a x b E. right. cbn in E.
    destruct a as [|? [|? [|? [|? [|? [|? [|? ?]]]]]]]; cbn in E; try discriminate; injection E; intros; subst; cbn; auto; try discriminate.
Qed.

(** C167, in full: an object is accepted exactly if it is in order: members as many as the class has,
    or [::] at the end within a skeleton; variables and wildcards within skeletons only; a label not
    on an empty set; each name used is defined before.  [(ptn (foo [x: ::]))] is accepted although foo
    has three members. *)
Theorem C167_leak_refuted : exists c n p l, compile_object c n p l <> None /\ ~ Ordered false (Node None c n p l).
Proof. exists 1%Z, 1, true, [Node None 2 3 false [SetOf None [Var 0; Rest]]]. exact leak. Qed.
Print Assumptions C167_leak_refuted.

(** If no set ends with [::], it is exactly so. *)
Theorem C167_accepted_partial c n p l : let t := Node None c n p l in (forall u, Sub t u -> NoRest u) ->
  (compile_object c n p l <> None <-> Ordered false t /\ Declared (fun _ => False) t).
Proof. exact (accepted c n p l). Qed.
Print Assumptions C167_accepted_partial.

Example C167_example :
  compile_object 1 2 true C166_members <> None /\
  compile_object 1 2 true [Node None 2 2 false [Var 1]; SetOf None []] = None /\
  compile_object 1 2 true [Node None 2 1 false [Var 1]; SetOf (Some 3) []] = None /\
  compile_object 1 2 true [Node None 2 1 false [Var 1]; Use 2] = None /\
  compile_object 1 2 false [Node None 2 1 false [Var 1]; Use 1] = None /\
  (forall u, Sub (Node None 1 2 true [Node None 2 1 false [Var 1]; Use 2]) u -> NoRest u).
Proof.
  split; [vm_compute; discriminate|]. do 4 (split; [vm_compute; reflexivity|]). intros u Hu.
  repeat match goal with
    | H : In _ (_ :: _) |- _ => destruct H as [<-|H]
    | H : In _ [] |- _ => destruct H
    | H : Sub _ _ |- _ => inversion H; subst; clear H
    end; exact I.
Qed.
