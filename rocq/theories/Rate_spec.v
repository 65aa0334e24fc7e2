(** Vocabulary of the statements about the rating of models. *)
From Coq Require Import Floats.SpecFloat.
From Verif Require Import Base Float32 Atom_model Obj_model Obj_spec View_spec Grp_model Rate_model.

(** The success rate, the evidence count and the strength, as read by anyone. *)
Definition rate (m : rated) : spec_float := num (m_sr m).
Definition evidence (m : rated) : spec_float := num (m_cnt m).
Definition is_strong (m : rated) : bool := feqb (num (m_strength m)) fone.
(** The evidence count is the integer [n]. *)
Definition counted (m : rated) (n : Z) : Prop := feqb (evidence m) (f32_of_Z n) = true.
(** A model as it is created, or loaded: its rate is in [0,1] and its evidence is a
    positive integer, at most 2^23. *)
Definition meaningful (m : rated) : Prop := in_unit (rate m) /\ exists n, 1 <= n <= 8388608 /\ counted m n.

(** The rates that one more success (failure) gives. *)
Definition rated_success (m : rated) : spec_float := fdiv (fadd (fmul (rate m) (evidence m)) fone) (fadd (evidence m) fone).
Definition rated_failure (m : rated) : spec_float := fdiv (fmul (rate m) (evidence m)) (fadd (evidence m) fone).
(** The inertia rule: rate and evidence reach both settings. *)
Definition inertial (c : inertia) (m : rated) : bool :=
  fle (sr_thr c) (rated_success m) && fle (f32_of_Z (cnt_thr c)) (fadd (evidence m) fone).
(** All activations asked for are in [0,1]. *)
Definition asked_in_range (l : list effect) : Prop :=
  Forall (fun e => match e with ActPrimary x | ActSecondary x => in_unit x | Deleted => True end) l.
Definition is_success (o : outcome) : Prop := match o with Primary _ s _ _ | Secondary _ _ s => s = true end.
(** A failure that counts: reported to the primary controller, with certainty, for a
    model that was allowed to fail. *)
Definition counts_as_failure (o : outcome) (thr : spec_float) : Prop :=
  exists cfd, o = Primary thr false cfd true /\ feqb cfd fone = true.
Definition counts_as_success (o : outcome) : Prop :=
  (exists thr cfd rf, o = Primary thr true cfd rf /\ feqb cfd fone = true).
(** [k] is [x] rounded down. *)
Definition floor_of (x : spec_float) (k : Z) : Prop := fle (f32_of_Z k) x = true /\ flt x (f32_of_Z (k + 1)) = true.
