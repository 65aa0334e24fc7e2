(** Model of r_exec/cst_controller.{h,cpp}: how a composite state collects facts
    and produces its instances (forward chaining), and how it splits a goal into
    sub-goals (backward chaining).

    The matching of one fact against one pattern is the subject of
    [Match_model]; here it is a parameter, as is the type of binding maps.
    Pointers to facts, patterns and simulations are [nat]; times are [Z].
    Not modelled here: the promotion of saved facts to a later time within a
    simulation (cst_controller.cpp:297-388; it changes no overlay field that
    matching reads), traces, and the caching of evidence (see [Ev_model]). *)
From Coq Require Import SpecFloat.
From Verif Require Import Base Float32.
Local Open Scope nat_scope.

(** r_exec/factory.h:155-239: what a composite state reads of a fact. *)
Record fact := mkfact { ptr : nat; after : Z; before : Z; cfd : spec_float }.
(** r_exec/factory.h:393-490: a prediction: its target, its simulations, the
    validities it depends on. *)
Record pred := mkpred { target : fact; psims : list nat; pvalid : list nat }.
(** An input: the fact of the view; [ipred] is [get_pred()] (factory.h:219-224). *)
Record input := mkinput { ifact : fact; ipred : option pred }.
(** cst_controller.cpp:280-295: [input_object]. *)
Definition object_of (x : input) : fact := match ipred x with Some p => target p | None => ifact x end.
(** cst_controller.cpp:283-290: [predictionSimulation], set only if there is
    exactly one simulation. *)
Definition simulation_of (x : input) : option nat :=
  match ipred x with Some p => match psims p with [s] => Some s | _ => None end | None => None end.

(** The binding maps (binding_map.h:245-420): [bmatch b f p] is
    [map->load(b); map->match_fwd_strict(f, p)], the map if it succeeds;
    [breset b f] is [reset_fwd_timings]; the forward timings. *)
Record binder (B : Type) := mkbinder {
  bmatch : B -> fact -> nat -> option B;
  breset : B -> fact -> B;
  fwd_after : B -> Z;
  fwd_before : B -> Z }.
Arguments bmatch {B}. Arguments breset {B}. Arguments fwd_after {B}. Arguments fwd_before {B}.

(** The composite state: its patterns (cst_controller.cpp:115-128), the map
    built from them (hlp_controller.cpp:95-98), the result of evaluating its
    forward guards on a map (hlp_overlay.cpp:133-153: the updated map, or
    failure), and its groups: saliency thresholds of the primary and secondary
    groups and of the output groups (cst_controller.cpp:733-772). *)
Record cst (B : Type) := mkcst {
  axioms : list nat;
  others : list nat;
  initial : B;
  guards : B -> option B;
  thr1 : spec_float;
  thr2 : spec_float;
  outs : nat }.
Arguments axioms {B}. Arguments others {B}. Arguments initial {B}. Arguments guards {B}.
Arguments thr1 {B}. Arguments thr2 {B}. Arguments outs {B}.

(** r_exec/cst_controller.h:106-124; [loaded] is [code_ != NULL] (overlay.h:112). *)
Record overlay (B : Type) := mkov {
  ax : list nat;            (* axiom_patterns_ *)
  nax : list nat;           (* non_axiom_patterns_ *)
  axi : list input;         (* axiom_inputs_ *)
  naxi : list input;        (* non_axiom_inputs_ *)
  bnd : B;                  (* bindings_ *)
  deadline : Z;             (* match_deadline_ *)
  low : spec_float;         (* lowest_cfd_ *)
  sims : list nat;          (* simulations_ *)
  preds : list nat;         (* predictions_ *)
  defv : list nat;          (* defeasible_validities_ *)
  loaded : bool;
  inval : bool }.
Arguments mkov {B}. Arguments ax {B}. Arguments nax {B}. Arguments axi {B}. Arguments naxi {B}.
Arguments bnd {B}. Arguments deadline {B}. Arguments low {B}. Arguments sims {B}. Arguments preds {B}.
Arguments defv {B}. Arguments loaded {B}. Arguments inval {B}.

(** What is produced: the instance (map and components in the order of
    [get_f_icst], cst_controller.cpp:723-731; the fact's confidence is the
    literal 1 of binding_map.cpp:1159), stated as a fact, predicted from grounds,
    or predicted within simulations; and the injections: group (0 primary, 1
    secondary, 2+i output group i) and saliency. *)
Inductive how := Stated | PredictedFrom (grounds : list nat) | Simulated (in_sims : list nat) (validities : list nat).
Record production (B : Type) := mkprod {
  pbnd : B;
  components : list input;
  fact_cfd : spec_float;
  mode : how;
  plow : spec_float;
  injections : list (nat * spec_float) }.
Arguments mkprod {B}. Arguments pbnd {B}. Arguments components {B}. Arguments fact_cfd {B}.
Arguments mode {B}. Arguments plow {B}. Arguments injections {B}.

Section Model.
Context {B : Type} (M : binder B) (C : cst B).
(** [root_] of a simulation, and [root_] of its [get_root_sim()] (factory.cpp:771-783). *)
Context (root : nat -> nat) (root_root : nat -> nat).

(** cst_controller.cpp:96-97, 112-122, 514-518: the master overlay;
    [HLPOverlay(c, bindings)] loads the code (hlp_overlay.cpp:112,
    overlay.cpp:108-113). *)
Definition master : overlay B :=
  mkov (axioms C) (others C) [] [] (initial C) 0%Z fone [] [] [] true false.

(** cst_controller.cpp:99-110: the copy; it goes through the same base
    constructor, so its code is loaded, and it is not invalidated. *)
Definition copy (o : overlay B) : overlay B :=
  mkov (ax o) (nax o) (axi o) (naxi o) (bnd o) (deadline o) (low o) (sims o) (preds o) (defv o) true false.

(** cst_controller.cpp:130-135 *)
Definition can_match (o : overlay B) (now : Z) : bool :=
  if (deadline o =? 0)%Z then true else (now <=? deadline o)%Z.

(** std::unordered_set / std::set insertion. *)
Definition insert (x : nat) (l : list nat) : list nat := if existsb (Nat.eqb x) l then l else l ++ [x].
(** r_code/list.h:326-337: [remove] erases the first occurrence. *)
Fixpoint remove1 (x : nat) (l : list nat) : list nat :=
  match l with [] => [] | y :: r => if y =? x then r else y :: remove1 x r end.

(** cst_controller.cpp:502-510 *)
Definition has_root (l : list nat) (r : nat) : bool := existsb (fun s => root s =? r) l.
(** cst_controller.cpp:229-234 *)
Definition add_sims (l : list nat) (new : list nat) : list nat :=
  fold_left (fun l s => if has_root l (root_root s) then l else insert s l) new l.
(** cst_controller.cpp:222-226, 240-241: [last_cfd]. *)
Definition last_cfd (x : input) : spec_float := cfd (object_of x).

(** cst_controller.cpp:215-245 *)
Definition update (b : B) (x : input) (is_ax : bool) (o : overlay B) : overlay B :=
  let axi' := if is_ax then axi o ++ [x] else axi o in
  let naxi' := if is_ax then naxi o else naxi o ++ [x] in
  let low' := if SFltb (last_cfd x) (low o) then last_cfd x else low o in
  match ipred x with
  | Some p =>
      mkov (ax o) (nax o) axi' naxi' b (deadline o) low'
        (match psims p with [] => sims o | l => add_sims (sims o) l end)
        (match psims p with [] => insert (ptr (ifact x)) (preds o) | _ => preds o end)
        (fold_left (fun l v => insert v l) (pvalid p) (defv o)) (loaded o) (inval o)
  | None => mkov (ax o) (nax o) axi' naxi' b (deadline o) low' (sims o) (preds o) (defv o) (loaded o) (inval o)
  end.

(** cst_controller.cpp:200-213, the part after the copy: [this]. *)
Definition take (b : B) (x : input) (is_ax : bool) (bound : option nat) (o : overlay B) : overlay B :=
  let o1 :=
    mkov (match bound with Some p => if is_ax then remove1 p (ax o) else ax o | None => ax o end)
         (match bound with Some p => if is_ax then nax o else remove1 p (nax o) | None => nax o end)
         (axi o) (naxi o) (bnd o)
         (if (deadline o =? 0)%Z then fwd_before M b else deadline o)
         (low o) (sims o) (preds o) (defv o) (loaded o) (inval o) in
  update b x is_ax o1.

(** cst_controller.cpp:479-497: the first pattern of the list that matches. *)
Fixpoint first_match (b : B) (f : fact) (l : list nat) : option (nat * B) :=
  match l with
  | [] => None
  | p :: r => match bmatch M b f p with Some b' => Some (p, b') | None => first_match b f r end
  end.

(** cst_controller.cpp:448-477: which map to start from; [None]: no match. *)
Definition start_map (o : overlay B) (f : fact) (s : option nat) : option B :=
  let empty := match axi o, naxi o with [], [] => true | _, _ => false end in
  let plain := if empty then breset M (bnd o) f else bnd o in
  match s with
  | None => Some plain
  | Some s =>
      if 1 <? length (sims o) then None
      else if match sims o with [s'] => negb (s' =? s) | _ => false end then None
      else match axi o, naxi o with
           | _ :: _, [] =>
               if (after f <? fwd_before M (bnd o))%Z && (fwd_after M (bnd o) <? before f)%Z then Some plain
               else if (before f <=? fwd_after M (bnd o))%Z then None
               else Some (breset M (bnd o) f)
           | _, _ => Some plain
           end
  end.

(** cst_controller.cpp:448-500: the pattern, whether it is an axiom, the map. *)
Definition bind_pattern (o : overlay B) (x : input) : option (nat * bool * B) :=
  match start_map o (object_of x) (simulation_of x) with
  | None => None
  | Some b =>
      match first_match b (object_of x) (ax o) with
      | Some (p, b') => Some (p, true, b')
      | None => match first_match b (object_of x) (nax o) with
                | Some (p, b') => Some (p, false, b')
                | None => None
                end
      end
  end.

(** cst_controller.cpp:733-772 and hlp_controller.cpp:191-203. *)
Definition inject_stated (l : spec_float) : list (nat * spec_float) :=
  (if SFltb (thr1 C) l then (0, fone) :: map (fun i => (2 + i, fone)) (seq 0 (outs C)) else []) ++
  (if SFltb (thr2 C) l then [(1, fone)] else []).
Definition inject_predicted (l : spec_float) : list (nat * spec_float) :=
  if SFltb (thr1 C) l then [(0, l)] else [].

(** cst_controller.cpp:137-198 *)
Definition inject_production (x : input) (o : overlay B) : production B :=
  let comps := axi o ++ naxi o in
  match sims o with
  | [] =>
      match preds o with
      | [] => mkprod (bnd o) comps fone Stated (low o) (inject_stated (low o))
      | g => mkprod (bnd o) comps fone (PredictedFrom g) (low o) (inject_predicted (low o))
      end
  | ss => mkprod (bnd o) comps fone
            (Simulated ss (match ipred x with Some _ => defv o | None => [] end)) (low o) (inject_predicted (low o))
  end.

(** cst_controller.cpp:247-279: reasons not to look at the patterns: the saved
    inputs are visited in order; the first dead one invalidates the overlay, the
    first one equal to the input ends the visit. *)
Inductive gate := Go | Skip | Kill.
Fixpoint visit (dead : nat -> bool) (x : input) (l : list input) : gate :=
  match l with
  | [] => Go
  | y :: r =>
      if dead (ptr (ifact y)) then Kill
      else if ptr (ifact x) =? ptr (ifact y) then Skip
      else visit dead x r
  end.

Definition invalidate (o : overlay B) : overlay B :=
  mkov (ax o) (nax o) (axi o) (naxi o) (bnd o) (deadline o) (low o) (sims o) (preds o) (defv o) (loaded o) true.
Definition with_map (b : B) (o : overlay B) : overlay B :=
  mkov (ax o) (nax o) (axi o) (naxi o) b (deadline o) (low o) (sims o) (preds o) (defv o) (loaded o) (inval o).
Definition with_code (c : bool) (o : overlay B) : overlay B :=
  mkov (ax o) (nax o) (axi o) (naxi o) (bnd o) (deadline o) (low o) (sims o) (preds o) (defv o) c (inval o).

(** Result of [CSTOverlay::reduce]: [this], the offspring, what is produced, and
    whether it matched. *)
Record reduced := mkred { self : overlay B; offspring : option (overlay B); made : list (production B); matched : bool }.

(** cst_controller.cpp:247-446 *)
Definition reduce (dead : nat -> bool) (x : input) (o : overlay B) : reduced :=
  if dead (ptr (ifact x)) then mkred o None [] false
  else match visit dead x (axi o ++ naxi o) with
  | Kill => mkred (invalidate o) None [] false
  | Skip => mkred o None [] false
  | Go =>
      match bind_pattern o x with
      | None => mkred o None [] false
      | Some (p, is_ax, b) =>
          if length (ax o) + length (nax o) =? 1 then
            if negb (loaded o) then
              let o1 := with_map b (with_code true o) in
              match guards C b with
              | Some b' =>
                  let o2 := with_map b' o1 in
                  let me := take b' x is_ax None o2 in
                  mkred (invalidate me) (Some (copy o2)) [inject_production x me] true
              | None => mkred (with_code false o1) None [] false
              end
            else
              let me := take b x is_ax None o in
              mkred (invalidate me) (Some (copy o)) [inject_production x me] true
          else mkred (take b x is_ax (Some p) o) (Some (copy o)) [] true
      end
  end.

(** cst_controller.cpp:583-606: all overlays get the input; offspring are pushed
    in front while the list is visited, so they are not visited; expired and
    invalidated overlays are erased. *)
Fixpoint visit_all (now : Z) (dead : nat -> bool) (x : input) (l : list (overlay B))
  : list (overlay B) * list (overlay B) * list (production B) * bool :=
  match l with
  | [] => ([], [], [], false)
  | o :: r =>
      if negb (can_match o now) then visit_all now dead x r
      else if inval o then visit_all now dead x r
      else
        let z := reduce dead x o in
        let '(kept, new, ps, m) := visit_all now dead x r in
        (self z :: kept, new ++ match offspring z with Some c => [c] | None => [] end, made z ++ ps, matched z || m)
  end.
(** A reduction: the time, which objects are invalidated, the input. *)
Record event := mkev { now : Z; dead : nat -> bool; arrived : input }.
(** cst_controller.cpp:561-562, 583-606. *)
Definition step (l : list (overlay B)) (e : event) : list (overlay B) * list (production B) :=
  if dead e (ptr (ifact (arrived e))) then (l, [])
  else let '(kept, new, ps, _) := visit_all (now e) (dead e) (arrived e) l in (new ++ kept, ps).
Fixpoint run (l : list (overlay B)) (es : list event) : list (overlay B) * list (production B) :=
  match es with
  | [] => (l, [])
  | e :: r => let (l1, p1) := step l e in let (l2, p2) := run l1 r in (l2, p1 ++ p2)
  end.
Definition productions (es : list event) : list (production B) := snd (run [master] es).

End Model.
