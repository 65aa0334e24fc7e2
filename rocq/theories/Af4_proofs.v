(** Witnesses about the auto-focus. *)
From Verif Require Import Base Utils_model Af_model Af_spec.
Local Open Scope nat_scope.

Notation empty_focus := (mkstate [] [] [] []).

(** Maps: the values, and whether there is no unbound variable. *)
Definition w_map := (list nat * bool)%type.
Definition w_intersect (a b : w_map) : bool := existsb (fun x => existsb (Nat.eqb x) (fst b)) (fst a).
Definition w_full (a : w_map) : bool := snd a.
(** The first target matches the inputs with the value 5: its variable gets the value 2. *)
Definition w_matches (t : nat) (m : w_map) (v : @view w_map) : option w_map :=
  if existsb (Nat.eqb 5) (fst (v_map v)) then Some (2 :: fst m, true) else None.
Definition w_cfg := mkconfig false true true 1000 1000.
Definition w_v : @view w_map := mkview 10 0 ([2], true).
Definition w_u : @view w_map := mkview 11 1 ([5], true).
Definition w_events : list (Z * @event w_map) :=
  [(0%Z, Reduction true (Goal 1) ([1], false) false false);
   (0%Z, Reduction true (Goal 2) ([2], true) false false);
   (1%Z, Other w_v); (2%Z, Other w_u)].

Lemma twice_refuted : exists (B : Type) intersect full matches achieved cfg (es : list (Z * @event B)) (v : @view B),
  pass_through cfg = false /\ length (List.filter (fun u => v_id u =? v_id v) (incoming es)) = 1 /\
  2 <= length (List.filter (fun u => v_id u =? v_id v) (injects (snd (run intersect full matches achieved cfg es empty_focus)))).
Proof.
  exists w_map, w_intersect, w_full, w_matches, (fun _ _ => false), w_cfg, w_events, w_v. split; [reflexivity|]. split; vm_compute; [reflexivity|lia].
Qed.

Lemma switch_refuted : exists (B : Type) intersect full matches achieved cfg (es : list (Z * @event B)) t,
  gtpx_on cfg = false /\ (forall o, In o (open_after es) -> is_goal o = true -> target o = t) /\
  In (Learn t) (snd (run intersect full matches achieved cfg es empty_focus)).
Proof.
  exists w_map, w_intersect, w_full, w_matches, (fun t p => (t =? 1) && (p =? 2))%bool, (mkconfig true false true 1000 1000),
    [(0%Z, Reduction true (Goal 1) ([1], true) false false); (1%Z, Reduction true (Prediction 2) ([2], true) false false); (2%Z, Outcome true false 2 w_v)], 1.
  split; [reflexivity|]. split; [|vm_compute; left; reflexivity]. intros o [<-|[]] _. reflexivity.
Qed.

Lemma hook_refuted : exists (B : Type) intersect full matches achieved cfg (es : list (Z * @event B)) n t v m,
  pass_through cfg = false /\ es = [(n, Reduction true (Goal t) m false true); (n, Other v)] /\ full m = false /\
  intersect m (v_map v) = false /\ matches t m v = None /\
  ~ In (Hook t v) (snd (run intersect full matches achieved cfg es empty_focus)).
Proof.
  exists w_map, w_intersect, w_full, w_matches, (fun _ _ => false), w_cfg. eexists. exists 0%Z, 1, w_v, ([1], false).
  split; [reflexivity|]. split; [reflexivity|]. split; [reflexivity|]. split; [reflexivity|]. split; [reflexivity|].
  vm_compute. intros [E|[]]; discriminate.
Qed.

Lemma buffer_refuted : exists (A : Type) (old : Z -> A -> bool) l now x, In x (snd (read_all old now l)) /\ old now x = true.
Proof. exists Z, (fun now x => too_late 10 now x), [0%Z], 100%Z, 0%Z. split; [left; reflexivity|reflexivity]. Qed.

Definition w_fact (c : Z) : fact := mkfact 7 true 100 200 c c.
Definition w_view (s : sync) : iview := mkiview (w_fact 1056964608) s 3 1 4 5.
Definition w_groups : list ogroup := [mkogroup 20 1; mkogroup 21 2].
Lemma group_refuted : exists morph base ref tol now c origin v g gs, inject_input morph base ref tol now c origin v (g :: gs) = None.
Proof. exists (fun r _ _ => r), 1%Z, 0%Z, 0%Z, 0%Z, true, (mkogroup 4 1), (w_view GrantedOnce), (mkogroup 20 1), []. reflexivity. Qed.
Lemma confidence_refuted : exists morph base ref tol now c origin v gs l x, inject_input morph base ref tol now c origin v gs = Some l /\ In x l /\
  i_sync v = Periodic /\ cfd (i_fact v) <> unit_float /\ cfd (i_fact (fst x)) = unit_float.
Proof.
  exists (fun r _ _ => r), 100%Z, 0%Z, 5%Z, 150%Z, true, (mkogroup 4 1), (w_view Periodic), w_groups. eexists. eexists.
  split; [reflexivity|]. split; [left; reflexivity|]. split; [reflexivity|]. split; [vm_compute; discriminate|reflexivity].
Qed.
Lemma hold_refuted : exists morph base ref tol now c origin v gs l x, inject_input morph base ref tol now c origin v gs = Some l /\ In x l /\
  (forall g, In g gs -> 0 < g_upr g)%Z /\ (0 < base)%Z /\ (0 < tol)%Z /\ (ref <= now)%Z /\ i_sync v = Hold /\ (before (i_fact (fst x)) < after (i_fact (fst x)))%Z.
Proof.
  exists (fun r _ _ => r), 10%Z, 0%Z, 50%Z, 150%Z, true, (mkogroup 4 1), (w_view Hold), w_groups. eexists. eexists.
  split; [reflexivity|]. split; [left; reflexivity|]. split; [intros g [<-|[<-|[]]]; reflexivity|]. repeat split; vm_compute; congruence.
Qed.

Definition w_a := mkainput 1 (Fresh Contradicts).
Definition w_b := mkainput 2 (Fresh Contradicts).
Lemma signals_refuted : exists hold ps s w, threads hold ps (watching, []) = Some (s, w) /\ 2 <= length (signalled s).
Proof. exists false, [Check w_a; Check w_b; Body w_a; Body w_b]. eexists. eexists. split; [reflexivity|]. vm_compute. lia. Qed.

(** An input that is no instance, then an instance that shares nothing with it. *)
Definition w_parts : list comp := [mkcomp 1 None false; mkcomp 2 (Some [9]) false].
Lemma tidy_refuted : exists before after, NoDup (map o_id before) /\ (forall c, In c before -> discarded c = false) /\
  assemble before = Some after /\ ~ tidy before after.
Proof.
  exists w_parts. eexists. split; [repeat constructor; cbn; intuition discriminate|]. split; [intros c [<-|[<-|[]]]; reflexivity|]. split; [reflexivity|].
  intros (_ & H). destruct (H _ (or_introl eq_refl) eq_refl) as [(c & ps & I0 & P & Q)|(ps & P & _)]; [|discriminate].
  cbn in I0. destruct I0 as [<-|[<-|[]]]; cbn in P; [discriminate|]. injection P as <-. destruct Q as [Q|[]]. discriminate.
Qed.
Lemma overflow_refuted : exists before, (forall c, In c before -> discarded c = false) /\ assemble before = None.
Proof. exists [mkcomp 2 (Some [1]) false; mkcomp 1 None false; mkcomp 1 None false]. split; [intros c [<-|[<-|[<-|[]]]]; reflexivity|reflexivity]. Qed.

Lemma rate_refuted : exists l r, rated l unrated = Some r /\ (evidences r = Z.of_nat (length l) /\ rate r * evidences r <> Z.of_nat (length (List.filter (fun b => b) l)))%Z.
Proof. exists [true; false]. eexists. split; [reflexivity|]. split; vm_compute; congruence. Qed.
