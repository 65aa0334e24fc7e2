(** Vocabulary for the statements about the abstraction of objects into patterns. *)
From Verif Require Import Base Float32 Atom_model Utils_model Bp_model Bp_spec Abs_model.
Local Open Scope nat_scope.

(** No pointer, no head of raw data. *)
Definition plain_word (w : Z) : Prop :=
  raw w = false /\ getDescriptor w <> I_PTR /\ getDescriptor w <> VL_PTR /\ getDescriptor w <> R_PTR.

(** Sets and the like: structures that are kept and whose parts are abstracted. *)
Definition set_like (user : Z -> bool) (h : Z) : bool :=
  negb (user (asOpcode h)) && ((getDescriptor h =? SET) || (getDescriptor h =? OBJECT))%Z.

(** What becomes of a part of an object: abstracted, kept, replaced by a wildcard. *)
Inductive fate := Vary | Same | Blank.

(** By class: facts and anti-facts (object, after, before, confidence, threshold),
    commands (function, arguments, threshold), values (object, attribute, value,
    threshold), instances (model or state, template arguments, exposed arguments, weak
    requirements, threshold).  The other objects are not abstracted. *)
Definition fates (C : classes) (h : Z) : option (list fate) :=
  let op := asOpcode h in
  if ((op =? c_fact C) || (op =? c_antifact C))%Z then Some [Vary; Vary; Vary; Blank; Blank]
  else if (op =? c_cmd C)%Z then Some [Same; Vary; Blank]
  else if (op =? c_mkval C)%Z then Some [Vary; Vary; Vary; Blank]
  else if ((op =? c_imdl C) || (op =? c_icst C))%Z then Some [Vary; Vary; Vary; Blank; Blank]
  else None.

Section Spec.
Context (C : classes) (user kept : Z -> bool).

(** What is left of an object when confidences and thresholds are forgotten. *)
Fixpoint blur (t : term) : term :=
  match t with
  | TStr h ts => if set_like user h then TStr h (map blur ts) else t
  | TObj h ts =>
      match fates C h with
      | Some fs => TObj h (map (fun '(f, t) => match f with Blank => TAtom (Wildcard 0) | _ => t end) (combine fs (map blur ts)))
      | None => t
      end
  | _ => t
  end.

(** [pattern t p]: [p] has a variable in the place of every value of [t]. *)
Inductive pattern : term -> term -> Prop :=
| pattern_atom : forall w x, pattern (TAtom w) (TVar x)
| pattern_raw : forall h ws x, pattern (TRaw h ws) (TVar x)
| pattern_value : forall h ts x, set_like user h = false -> pattern (TStr h ts) (TVar x)
| pattern_set : forall h ts ps, set_like user h = true -> Forall2 pattern ts ps -> pattern (TStr h ts) (TStr h ps)
| pattern_entity : forall h ts x, asOpcode h = c_ent C -> pattern (TObj h ts) (TVar x)
| pattern_object : forall h fs ts ps, fates C h = Some fs -> parts fs ts ps -> pattern (TObj h ts) (TObj h ps)
| pattern_other : forall h ts, asOpcode h <> c_ent C -> fates C h = None -> pattern (TObj h ts) (TObj h ts)
with parts : list fate -> list term -> list term -> Prop :=
| parts_nil : parts [] [] []
| parts_vary : forall fs t p ts ps, pattern t p -> parts fs ts ps -> parts (Vary :: fs) (t :: ts) (p :: ps)
| parts_same : forall fs t ts ps, parts fs ts ps -> parts (Same :: fs) (t :: ts) (t :: ps)
| parts_blank : forall fs t ts ps, parts fs ts ps -> parts (Blank :: fs) (t :: ts) (TAtom (Wildcard 0) :: ps).

(** No variable but in what is kept. *)
Fixpoint closed (t : term) : Prop :=
  match t with
  | TVar _ => False
  | TAtom _ | TRaw _ _ => True
  | TStr h ts => fold_right (fun t P => closed t /\ P) True ts
  | TObj h ts => kept h = true \/ fold_right (fun t P => closed t /\ P) True ts
  end.

(** Objects that can be abstracted: complete members; no variables; atoms that are no
    pointers; structures that become a value hold atoms only, and raw data that look like
    no pointer. *)
Definition atom_term (t : term) : Prop := match t with TAtom w => plain_word w | _ => False end.
Fixpoint plain (t : term) : Prop :=
  match t with
  | TVar _ => False
  | TAtom w => plain_word w
  | TRaw h ws => Forall (fun w => getDescriptor w <> I_PTR) ws
  | TStr h ts => if set_like user h then fold_right (fun t P => plain t /\ P) True ts else Forall atom_term ts
  | TObj h ts =>
      match fates C h with
      | Some fs =>
          kept h = false /\ length ts = length fs /\
          ((asOpcode h = c_fact C \/ asOpcode h = c_antifact C) -> h = AObject (asOpcode h) 5) /\
          (asOpcode h = c_cmd C -> match ts with f :: _ => atom_term f | [] => True end) /\
          fold_right (fun t P => plain t /\ P) True ts
      | None => closed t
      end
  end.
End Spec.

(** Equal within the tolerances. *)
Inductive near (ftol : spec_float) (ttol : Z) : term -> term -> Prop :=
| near_refl : forall t, near ftol ttol t t
| near_atom : forall a b, near_word ftol a b = true -> near ftol ttol (TAtom a) (TAtom b)
| near_words : forall h ws ws', Forall2 (fun a b => near_word ftol a b = true) ws ws' -> near ftol ttol (TRaw h ws) (TRaw h ws')
| near_time : forall h a b a' b', getDescriptor h = TIMESTAMP ->
    Synchronous ttol (i64 (Z.lor (Z.shiftl a 32) b)) (i64 (Z.lor (Z.shiftl a' 32) b')) = true ->
    near ftol ttol (TRaw h [a; b]) (TRaw h [a'; b'])
| near_str : forall h ts ts', Forall2 (near ftol ttol) ts ts' -> near ftol ttol (TStr h ts) (TStr h ts')
| near_obj : forall h ts ts', Forall2 (near ftol ttol) ts ts' -> near ftol ttol (TObj h ts) (TObj h ts').

(** What an entry of the map holds; structures hold atoms, or raw data that look like no
    pointer. *)
Definition held (x : nat) (e : entry) (t : term) : Prop :=
  match e with
  | EUnbound => t = TVar x
  | EAtom a => t = TAtom a /\ plain_word a
  | EStruct m n =>
      n = count (m 0) + 1 /\ getDescriptor (m 0) <> I_PTR /\ getDescriptor (m 0) <> VL_PTR /\
      if raw (m 0) then t = TRaw (m 0) (words m 1 (count (m 0))) /\ Forall (fun w => getDescriptor w <> I_PTR) (words m 1 (count (m 0)))
      else t = TStr (m 0) (map TAtom (words m 1 (count (m 0)))) /\ Forall plain_word (words m 1 (count (m 0)))
  | EObj o => says free o t
  end.
(** [sigma] gives what the map holds, and leaves the other variables. *)
Definition holds (st : state) (sigma : nat -> term) : Prop :=
  forall x, match nth_error (entries st) x with Some e => held x e (sigma x) | None => sigma x = TVar x end.

(** Values: they become variables. *)
Definition is_value (user : Z -> bool) (t : term) : Prop :=
  match t with TAtom _ | TRaw _ _ => True | TStr h _ => set_like user h = false | _ => False end.
(** What a word of an object says. *)
Definition word_says (o : obj) (i : nat) (t : term) : Prop :=
  exists tr, shows (starts o) anywhere (word o) (word o i) tr /\ means starts (refs o) tr t.

(** A word of the object being written. *)
Definition written (x : dest) (i : nat) : Z := fst (fst x) i.

(** No fact in it, but in objects that are not abstracted. *)
Fixpoint no_fact (C : classes) (t : term) : Prop :=
  match t with
  | TVar _ | TAtom _ | TRaw _ _ => True
  | TStr h ts => fold_right (fun t P => no_fact C t /\ P) True ts
  | TObj h ts =>
      (asOpcode h <> c_fact C /\ asOpcode h <> c_antifact C) /\
      (fates C h = None \/ fold_right (fun t P => no_fact C t /\ P) True ts)
  end.

(** The opcodes are different. *)
Definition distinct (C : classes) : Prop :=
  NoDup [c_ont C; c_ent C; c_fact C; c_antifact C; c_cmd C; c_mkval C; c_imdl C; c_icst C] /\
  (0 <= c_fact C < 4096)%Z /\ (0 <= c_antifact C < 4096)%Z.
