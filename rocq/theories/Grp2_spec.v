(** Vocabulary for notifications, visibility, decay and change monitoring in a
    group. *)
From Coq Require Import Floats.SpecFloat.
From Verif Require Import Base Float32 Atom_model Obj_model View_model View_spec Grp_model Grp_spec.

(** The saliency (the activation) of a view after each of the updates of a
    history. *)
Definition sln_of (oid : Z) (g : group) : spec_float := match get_view g oid with Some v => get_sln (vw v) | None => fzero end.
Definition act_of (oid : Z) (g : group) : spec_float := match get_view g oid with Some v => get_act (vw v) | None => fzero end.
Fixpoint trace {A} (f : group -> A) (g : group) (os : list gop) : list A :=
  match os with
  | [] => []
  | o :: os' => match run_gop g o with Some g' => (if is_update o then [f g'] else []) ++ trace f g' os' | None => [] end
  end.
(** No request on the given members of the group. *)
Definition steady (ms : list nat) (o : gop) : Prop := match o with AskMod i _ | AskSet i _ => ~ In i ms | _ => True end.
(** The number of elements above [high] since the last that is neither low nor
    high. *)
Definition stretch (low high : spec_float) (l : list spec_float) : Z :=
  fold_left (fun n x => if flt x low then n else if flt high x then n + 1 else 0) l 0.

(** A group looks at a group it holds a view of exactly while it is c-active and
    c-salient and the view is above its visibility threshold. *)
Definition should_be_seen (g : group) (v : gview) : option bool :=
  if flt (get g VisThr) (get_vis (vw v)) && flt (get g CSlnThr) (get g CSln) && flt (get g CActThr) (get g CAct) then Some (get_cov v) else None.
Definition sight_right (g : group) : Prop := forall v, In v (all_views g) -> kind v = GROUP -> seen v = should_be_seen g v.
(** Histories without the events that break it. *)
Definition clear_op (g : group) (o : gop) : Prop :=
  match o with
  | AskMod i _ | AskSet i _ => i <> GRP_VIS_THR
  | Existing _ _ _ | InjectGroup _ => False
  | LoadView v _ => kind v = GROUP -> seen v = None
  | InjectNtf v _ => kind v <> GROUP
  | Update e => act_in_order e = true /\ sln_in_order e = true /\ all_due e g
  | _ => True
  end.
Fixpoint clear (g : group) (os : list gop) : Prop :=
  match os with
  | [] => True
  | o :: os' => clear_op g o /\ match run_gop g o with Some g' => clear g' os' | None => True end
  end.

(** The state of the countdown of a change monitor after [n] updates, with the
    period [prd], from the value [m]: it is at 0 when changes are looked at. *)
Definition countdown (m prd : Z) (n : Z) : Z :=
  if n <=? Z.max m 0 then m - n else prd - (n - Z.max m 0 - 1) mod (prd + 1).

(** What a change monitor compares a value with: the value at the last update at
    which it looked (its countdown was at 0). *)
Definition last_looked (init : spec_float) (l : list (Z * spec_float)) : spec_float :=
  fold_left (fun r mx => if fst mx =? 0 then snd mx else r) l init.
Fixpoint times {A} (n : nat) (f : A -> A) (x : A) : A := match n with O => x | S m => times m f (f x) end.
(** No request on the saliency of a view. *)
Definition spares (oid : Z) (o : gop) : Prop :=
  match o with
  | AskView (PMod j i _) | AskView (PSet j i _) => j <> oid \/ i <> VIEW_SLN
  | Existing j _ _ => j <> oid
  | _ => brings o <> Some oid /\ takes o <> Some oid
  end.
