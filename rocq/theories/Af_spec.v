(** Vocabulary for the statements about the auto-focus. *)
From Verif Require Import Base Af_model.
Local Open Scope nat_scope.

(** * Traces *)
Section Trace.
Context {B : Type}.
Notation event := (@event B). Notation act := (@act B). Notation view := (@view B).

(** The inputs injected, in order. *)
Definition injects (l : list act) : list view := flat_map (fun a => match a with Inject v => [v] | _ => [] end) l.
(** The facts that came in, in order. *)
Definition incoming (es : list (Z * event)) : list view :=
  flat_map (fun e => match snd e with Other v => [v] | _ => [] end) es.

(** The targets that are open: goal or prediction, fact, map, weak requirements. *)
Record open := mkopen { is_goal : bool; target : nat; values : B; weak : bool }.
Definition same (g : bool) (t : nat) (o : open) : bool := (Bool.eqb (is_goal o) g && (target o =? t))%bool.
(** A reduction of a model that makes a goal or a prediction opens a target, an outcome
    closes it. *)
Definition after_event (e : event) (l : list open) : list open :=
  let add g t m w := if existsb (same g t) l then l else l ++ [mkopen g t m w] in
  match e with
  | Reduction true (Goal t) m w _ => add true t m w
  | Reduction true (Prediction t) m w _ => add false t m w
  | Outcome _ g t _ => List.filter (fun o => negb (same g t o)) l
  | _ => l
  end.
Definition open_after (es : list (Z * event)) : list open := fold_left (fun l e => after_event (snd e) l) es [].

(** The inputs that share a value with a target that is open when they come. *)
Fixpoint concerning (intersect : B -> B -> bool) (es : list (Z * event)) (l : list open) : list view :=
  match es with
  | [] => []
  | (_, e) :: es =>
      match e with
      | Other v => if existsb (fun o => intersect (values o) (v_map v)) l then [v] else []
      | _ => []
      end ++ concerning intersect es (after_event e l)
  end.

(** The maps of all targets are without unbound variables. *)
Definition all_full (full : B -> bool) (es : list (Z * event)) : Prop :=
  forall n m w st p, In (n, Reduction true p m w st) es -> full m = true.

(** A fact is a goal or a prediction. *)
Definition typed (goal : nat -> bool) (es : list (Z * event)) : Prop :=
  (forall n t m w st, In (n, Reduction true (Goal t) m w st) es -> goal t = true) /\
  (forall n t m w st, In (n, Reduction true (Prediction t) m w st) es -> goal t = false) /\
  (forall n s g t v, In (n, Outcome s g t v) es -> g = goal t).

(** What is done for a target. *)
Definition about (t : nat) (a : act) : Prop :=
  match a with Take t' _ | Start t' _ | Learn t' | Hook t' _ => t' = t | _ => False end.
(** Something is learned. *)
Definition learns (z : act) : Prop := match z with Start _ _ | Learn _ => True | _ => False end.
(** A target is opened again. *)
Definition reopened (t : nat) (es : list (Z * event)) : Prop :=
  exists n m w st p, In (n, Reduction true p m w st) es /\ (p = Goal t \/ p = Prediction t).
End Trace.

(** * Buffers *)
(** Those that are not too old. *)
Definition recent {A : Type} (old : Z -> A -> bool) (now : Z) (l : list A) : list A := List.filter (fun x => negb (old now x)) l.

(** What is in a buffer after a traversal: the first, and those not too old. *)
Definition left_in {A : Type} (old : Z -> A -> bool) (now : Z) (l : list A) : list A :=
  match l with [] => [] | x :: l => x :: recent old now l end.

(** Those put aside that share a value with a map and were not injected for one; what is put
    aside after they were; the inputs put aside. *)
Definition due {B : Type} (intersect : B -> B -> bool) (m : B) (l : list (@cached B)) : list (@view B) :=
  flat_map (fun c => if c_done c then [] else if intersect m (v_map (c_view c)) then [c_view c] else []) l.
Definition marked {B : Type} (intersect : B -> B -> bool) (m : B) (c : @cached B) : @cached B :=
  if intersect m (v_map (c_view c)) then mkcached (c_view c) (c_ijt c) true else c.
Definition ids {B : Type} (l : list (@cached B)) : list nat := map (fun c => v_id (c_view c)) l.

(** * Injection *)
(** The view of an input in a group: from the group of the input, of the same salience, about
    the same, and for as many periods of the group as it lives (once, for those granted). *)
Definition right_view (morph : Z -> Z -> Z -> Z) (origin : ogroup) (v : iview) (g : ogroup) (w : injected) : Prop :=
  i_host (fst w) = g_id g /\ i_origin (fst w) = i_host v /\ i_sln (fst w) = i_sln v /\
  payload (i_fact (fst w)) = payload (i_fact v) /\ positive (i_fact (fst w)) = positive (i_fact v) /\
  i_res (fst w) = match i_sync v with Granted => 1%Z | _ => morph (i_res v) (g_upr origin) (g_upr g) end.
(** Whether changes of the input are to be modelled. *)
Definition watched (ctpx_on : bool) (v : iview) : bool :=
  (ctpx_on && match i_sync v with Periodic => positive (i_fact v) | Hold => true | _ => false end)%bool.

(** * Atomic states *)
(** An input after which a state is no longer watched. *)
Definition decisive (i : ainput) : bool :=
  match a_sort i with
  | Predicted true (Confirms | Contradicts) | Fresh (Confirms | Contradicts) => true
  | _ => false
  end.
(** An input kept for the extractor. *)
Definition kept (i : ainput) : bool := match a_sort i with Target | Fresh Neither => true | _ => false end.
(** The inputs before the first decisive one, and that one. *)
Fixpoint until (l : list ainput) : list ainput * option ainput :=
  match l with
  | [] => ([], None)
  | i :: l => if decisive i then ([], Some i) else let (k, d) := until l in (i :: k, d)
  end.

(** * Components *)
(** An input that is not discarded. *)
Definition remains (cs : list comp) (id : nat) : Prop := exists c, In c cs /\ o_id c = id /\ discarded c = false.
(** No input is both in a composite state and in an instance that is in it; an instance is
    kept only if it shares an input with it; an input is left out only if it is in an
    instance, or if it is an instance none of whose components is kept. *)
Definition tidy (before after : list comp) : Prop :=
  (forall c ps, In c after -> o_parts c = Some ps -> discarded c = false ->
     (forall p, In p ps -> ~ remains after p) /\ exists p c', In p ps /\ In c' before /\ o_id c' = p) /\
  (forall c, In c after -> discarded c = true ->
     (exists c' ps, In c' before /\ o_parts c' = Some ps /\ In (o_id c) ps) \/
     (exists ps, o_parts c = Some ps /\ forall p, In p ps -> ~ remains after p)).
