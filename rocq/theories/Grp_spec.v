(** Vocabulary of the statements about groups. *)
From Verif Require Import Base Float32 Atom_model Obj_model Obj_spec View_model View_spec Grp_model.

(** What can happen to a group: requests on its parameters, arrival of views
    (loaded from an image, injected, ...), requests on its views, removal of a
    view, and updates. *)
Inductive gop :=
  | AskMod (i : nat) (x : spec_float)
  | AskSet (i : nat) (x : spec_float)
  | LoadView (v : gview) (made : bool)
  | Inject (v : gview) (made : bool) (now : Z)
  | InjectHlp (v : gview) (now : Z)
  | InjectGroup (v : gview)
  | InjectNtf (v : gview) (now : Z)
  | Secondary (v : gview) (oid : Z)
  | Existing (oid : Z) (v : gview) (now : Z)
  | AskView (o : pendop)
  | Delete (v : gview)
  | Update (e : env).

(** What the code does; None: undefined behaviour. *)
Definition run_gop (g : group) (o : gop) : option group :=
  match o with
  | AskMod i x => Some (group_mod g i x)
  | AskSet i x => Some (group_set g i x)
  | LoadView v made => Some (load g v made)
  | Inject v made now => Some (inject g v made now)
  | InjectHlp v now => Some (inject_hlp g v now)
  | InjectGroup v => Some (inject_group g v)
  | InjectNtf v now => Some (inject_notification g v now)
  | Secondary v oid => Some (load_secondary g v oid)
  | Existing oid v now => Some (inject_existing g oid v now)
  | AskView o => Some (with_pend g (pend g ++ [o]))
  | Delete v => Some (delete_view g v)
  | Update e => match update e g with Some (g', _) => Some g' | None => None end
  end.
Fixpoint run_gops (g : group) (os : list gop) : option group :=
  match os with
  | [] => Some g
  | o :: os' => match run_gop g o with Some g' => run_gops g' os' | None => None end
  end.
(** A new group: 32 words, no view, nothing asked for.  The counters of the change
    monitors are not initialised. *)
Definition new_group (code : list Z) (mon_s mon_a : Z) : group :=
  mkgroup code (fun _ => no_tally) no_decay mon_s mon_a (fun _ => []) [] [] [].

(** ** Parameters (C22) *)

(** Each parameter carries the list of the changes asked for. *)
Record gabstract := mkgabs { g_value : gparam -> spec_float; g_asked : gparam -> list spec_float }.
(** The value after an update: the mean of the requests added to the old value,
    clamped to [0,1]. *)
Definition gupdated (old : spec_float) (cs : list spec_float) : spec_float :=
  match cs with
  | [] => old
  | _ => let x := fadd old (mean cs) in kept (if flt x fzero then fzero else if flt fone x then fone else x)
  end.
Definition gon {A} (f : gparam -> A) (p : gparam) (x : A) : gparam -> A := fun q => if gparam_eqb q p then x else f q.
Definition gask (s : gabstract) (p : gparam) (x : spec_float) : gabstract :=
  mkgabs (g_value s) (gon (g_asked s) p (g_asked s p ++ [x])).
Definition gsettle (ps : list gparam) (s : gabstract) : gabstract :=
  mkgabs (fun q => if existsb (gparam_eqb q) ps then gupdated (g_value s q) (g_asked s q) else g_value s q)
         (fun q => if existsb (gparam_eqb q) ps then [] else g_asked s q).
Definition param_of (i : nat) : option gparam :=
  match i with
  | 2 => Some SlnThr | 3 => Some ActThr | 4 => Some VisThr | 5 => Some CSln
  | 6 => Some CSlnThr | 7 => Some CAct | 8 => Some CActThr | _ => None
  end%nat.
(** Every update should settle the requests on all the parameters. *)
Definition gabs_op (settled : list gparam) (s : gabstract) (o : gop) : gabstract :=
  match o with
  | AskMod i x => match param_of i with Some p => gask s p x | None => s end
  | AskSet i x => match param_of i with Some p => gask s p (fsub x (g_value s p)) | None => s end
  | Update _ => gsettle settled s
  | _ => s
  end.
Definition gabs_ops (settled : list gparam) (s : gabstract) (os : list gop) : gabstract := fold_left (gabs_op settled) os s.
Definition gstart (g : group) : gabstract := mkgabs (get g) (fun _ => []).
(** The code settles only these five (see C22_all_parameters_refuted). *)
Definition five : list gparam := [SlnThr; ActThr; VisThr; CSln; CAct].
Definition all_params : list gparam := [SlnThr; ActThr; VisThr; CSln; CAct; CSlnThr; CActThr].

(** Never 2^32 requests pending on one parameter. *)
Fixpoint gfew (settled : list gparam) (s : gabstract) (os : list gop) : Prop :=
  match os with
  | [] => True
  | o :: os' => (forall p, Z.of_nat (length (g_asked (gabs_op settled s o) p)) < 4294967296) /\ gfew settled (gabs_op settled s o) os'
  end.
Definition no_existing (o : gop) : Prop := match o with Existing _ _ _ => False | _ => True end.
(** Requests with arguments that are float32 numbers; or finite ones. *)
Definition gvalid (o : gop) : Prop := match o with AskMod _ x | AskSet _ x => f32_valid x = true | _ => True end.
Definition gsensible (o : gop) : Prop := match o with AskMod _ x | AskSet _ x => f32_valid x = true /\ is_finite x = true | _ => True end.
(** Requests on parameters: finite changes, and values in range. *)
Definition tame (o : gop) : Prop :=
  match o with AskMod i x => param_of i <> None -> f32_valid x = true /\ is_finite x = true
  | AskSet i x => param_of i <> None -> f32_valid x = true /\ is_finite x = true /\ in_unit x | _ => True end.
(** No decay is configured, and none is asked for (members 9 and 11). *)
Definition no_decay_asked (o : gop) : Prop :=
  match o with AskMod i _ | AskSet i _ => i <> GRP_DCY_PER /\ i <> GRP_DCY_PRD | _ => True end.

(** Ranges of the other members, on which requests act at once. *)
Inductive span := Positive | Unit.
Definition span_of (i : nat) : option span :=
  match i with
  | 1 | 11 | 14 | 16 | 25 | 28 => Some Positive
  | 13 | 15 | 23 | 24 | 26 | 27 | 30 => Some Unit
  | _ => None
  end%nat.
Definition in_span (s : span) (f : spec_float) : Prop :=
  fle fzero f = true /\ match s with Positive => True | Unit => fle f fone = true end.
(** ... and the value expected. *)
Definition into_span (s : span) (x : spec_float) : spec_float :=
  if flt x fzero then fzero
  else match s with Positive => x | Unit => if flt fone x then fone else x end.

(** ** Collections (C23) *)

(** The views arriving by an operation are of the kinds it is used for, and each
    OID belongs to one view: [home] gives the collection each OID is meant for. *)
Definition loadable (k : Z) : Prop :=
  In k [GROUP; INSTANTIATED_PROGRAM; INSTANTIATED_INPUT_LESS_PROGRAM; INSTANTIATED_ANTI_PROGRAM;
        INSTANTIATED_CPP_PROGRAM; COMPOSITE_STATE; MODEL; MARKER; OBJECT].
Definition injectable (k : Z) : Prop :=
  In k [NULL_PROGRAM; INSTANTIATED_PROGRAM; INSTANTIATED_INPUT_LESS_PROGRAM; INSTANTIATED_ANTI_PROGRAM;
        INSTANTIATED_CPP_PROGRAM; COMPOSITE_STATE; MODEL; MARKER; OBJECT].
(** The collection each kind belongs to. *)
Definition belongs (is_ntf : bool) (k : Z) (p : place) : Prop :=
  match p with
  | Ntf => is_ntf = true
  | Ipgm => is_ntf = false /\ In k [NULL_PROGRAM; INSTANTIATED_PROGRAM; INSTANTIATED_CPP_PROGRAM; COMPOSITE_STATE; MODEL]
  | Anti => is_ntf = false /\ k = INSTANTIATED_ANTI_PROGRAM
  | InputLess => is_ntf = false /\ k = INSTANTIATED_INPUT_LESS_PROGRAM
  | Grp => is_ntf = false /\ k = GROUP
  | Other => is_ntf = false /\ In k [OBJECT; MARKER]
  end.
Definition proper (home : Z -> place) (o : gop) : Prop :=
  match o with
  | LoadView v _ => ntf v = false /\ loadable (kind v) /\ belongs false (kind v) (home (vid v))
  | Inject v _ _ => ntf v = false /\ injectable (kind v) /\ belongs false (kind v) (home (vid v))
  | InjectHlp v _ => ntf v = false /\ In (kind v) [COMPOSITE_STATE; MODEL] /\ home (vid v) = Ipgm
  | InjectGroup v => ntf v = false /\ kind v = GROUP /\ home (vid v) = Grp
  | InjectNtf v _ => ntf v = true /\ home (vid v) = Ntf
  | Secondary v oid => ntf v = false /\ kind v = MODEL /\ home oid = Ipgm
  | Delete v => belongs (ntf v) (kind v) (home (vid v))
  | _ => True
  end.
(** The OIDs held, collection by collection. *)
Definition ids (g : group) (p : place) : list Z := map fst (views g p).
Definition held (g : group) (oid : Z) : Prop := exists p, In oid (ids g p).
(** The OID an operation brings in, or takes out. *)
Definition brings (o : gop) : option Z :=
  match o with
  | LoadView v _ | Inject v _ _ | InjectHlp v _ | InjectGroup v | InjectNtf v _ => Some (vid v)
  | Secondary _ oid => Some oid
  | _ => None
  end.
Definition takes (o : gop) : option Z := match o with Delete v => Some (vid v) | _ => None end.
Definition is_update (o : gop) : bool := match o with Update _ => true | _ => false end.
(** Controllers are there: C++ programs are known, and views of null programs come
    with a controller (not yet activated). *)
Definition equipped (o : gop) : Prop :=
  match o with
  | LoadView v made => kind v = INSTANTIATED_CPP_PROGRAM -> made = true
  | Inject v made _ => (kind v = INSTANTIATED_CPP_PROGRAM -> made = true) /\ (kind v = NULL_PROGRAM -> ctl v = Some false)
  | InjectNtf v _ => is_program (kind v) = false
  | _ => True
  end.

(** ** Activation (C24) *)
Definition should_be_active (g : group) (v : gview) : bool :=
  flt (get g ActThr) (get_act (vw v)) && flt (get g CSlnThr) (get g CSln) && flt (get g CActThr) (get g CAct).
Definition activity_right (g : group) : Prop :=
  forall v, In v (all_views g) -> is_program (kind v) = true -> ctl v = Some (should_be_active g v).
(** Histories without the four kinds of events that break it: requests on the
    activation threshold, injections of existing objects, updates that read the
    former control values after having updated them, and updates that skip a
    view. *)
Definition all_due (e : env) (g : group) : Prop := forall v, In v (all_views g) -> ijt v < planned e.
Definition calm_op (g : group) (o : gop) : Prop :=
  match o with
  | AskMod i _ | AskSet i _ => i <> GRP_ACT_THR
  | Existing _ _ _ => False
  | Update e => act_in_order e = true /\ sln_in_order e = true /\ all_due e g
  | _ => True
  end.
Fixpoint calm (g : group) (os : list gop) : Prop :=
  match os with
  | [] => True
  | o :: os' => calm_op g o /\ match run_gop g o with Some g' => calm g' os' | None => True end
  end.

(** ** Resilience (C25) *)
(** An operation that does not touch the view [oid] (except updates). *)
Definition leaves_alone (oid : Z) (o : gop) : Prop :=
  match o with
  | Existing j _ _ => j <> oid
  | AskView (PMod j i _) | AskView (PSet j i _) => j <> oid \/ i <> VIEW_RES
  | _ => brings o <> Some oid /\ takes o <> Some oid
  end.
(** The effect on one view of an operation asked for earlier. *)
Definition asked_of (oid : Z) (w : view) (o : pendop) : view :=
  match o with PMod j i x => if j =? oid then view_mod w i x else w | PSet j i x => if j =? oid then view_set w i x else w end.
Definition keeps (oid : Z) (o : gop) : Prop := brings o <> Some oid /\ takes o <> Some oid.
Definition due (oid : Z) (g : group) (o : gop) : Prop :=
  match o with
  | Update e => invalid e oid = false /\ forall v, get_view g oid = Some v -> ijt v < planned e
  | _ => True
  end.
Fixpoint always_due (oid : Z) (g : group) (os : list gop) : Prop :=
  match os with
  | [] => True
  | o :: os' => due oid g o /\ match run_gop g o with Some g' => always_due oid g' os' | None => True end
  end.
Definition never_invalid (oid : Z) (o : gop) : Prop := match o with Update e => invalid e oid = false | _ => True end.
Definition count_updates (os : list gop) : Z := Z.of_nat (length (filter is_update os)).

(** ** Statistics (C53) and newly salient views (C54) *)
(** The saliencies of the views, and the activations of the programs. *)
Definition slns (l : list gview) : list spec_float := map (fun v => get_sln (vw v)) l.
Definition acts (l : list gview) : list spec_float := map (fun v => get_act (vw v)) (filter (fun v => is_program (kind v)) l).
Definition average (l : list spec_float) : spec_float := match l with [] => fzero | _ => mean l end.
(** A synchronisation mode that reacts to the rising edge, or at every update. *)
Definition once (s : Z) : bool := (s =? SYNC_ONCE) || (s =? SYNC_ONCE_AXIOM) || (s =? SYNC_PERIODIC).
Definition holds (s : Z) : bool := (s =? SYNC_HOLD) || (s =? SYNC_AXIOM).
(** A view is salient in its group. *)
Definition salient (g : group) (v : gview) : bool := flt (get g SlnThr) (get_sln (vw v)).
