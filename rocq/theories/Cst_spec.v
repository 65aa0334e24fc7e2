(** Vocabulary of the statements about composite states. *)
From Coq Require Import SpecFloat.
From Verif Require Import Base Float32 Cst_model.
From Coq Require Import Permutation.
Local Open Scope nat_scope.

(** [subseq s l]: the elements of [s] occur in [l] in the same order. *)
Inductive subseq {A} : list A -> list A -> Prop :=
| sub_nil l : subseq [] l
| sub_take x s l : subseq s l -> subseq (x :: s) (x :: l)
| sub_skip x s l : subseq s l -> subseq s (x :: l).

(** Time does not go back and what is invalidated stays so. *)
Definition no_return (e e' : event) : Prop :=
  (now e <= now e')%Z /\ forall i, dead e i = true -> dead e' i = true.
Definition orderly (es : list event) : Prop := ForallOrdPairs no_return es.

(** The patterns of a composite state. *)
Definition patterns {B} (C : cst B) : list nat := axioms C ++ others C.
(** The facts that an instance is made of. *)
Definition parts {B} (p : production B) : list nat := map (fun x => ptr (ifact x)) (components p).

(** Each input fits its pattern, given what the previous ones bound.  The time
    interval starts afresh from the first input; it may start afresh from a
    simulated one. *)
Inductive fitted {B} (M : binder B) : B -> list input -> list nat -> B -> Prop :=
| fit_none b : fitted M b [] [] b
| fit_more b xs ps b1 x p b2 :
    fitted M b xs ps b1 ->
    (xs <> [] /\ bmatch M b1 (object_of x) p = Some b2 \/
     (xs = [] \/ simulation_of x <> None) /\ bmatch M (breset M b1 (object_of x)) (object_of x) p = Some b2) ->
    fitted M b (xs ++ [x]) (ps ++ [p]) b2.

(** An input fits at most one pattern of the composite state, whatever is bound. *)
Definition only_fits {B} (M : binder B) (C : cst B) (x : input) (p : nat) : Prop :=
  forall b q b', In q (patterns C) -> bmatch M b (object_of x) q = Some b' -> q = p.

Definition predicted (x : input) : Prop := ipred x <> None.
Definition simulated (x : input) : Prop := exists p, ipred x = Some p /\ psims p <> [].
Definition sims_of (x : input) : list nat := match ipred x with Some p => psims p | None => [] end.
Definition validities_of (x : input) : list nat := match ipred x with Some p => pvalid p | None => [] end.
(** The confidence that counts for an input: that of what is stated or predicted. *)
Definition confidence (x : input) : spec_float := cfd (object_of x).
(** A number that is at most one. *)
Definition proper (f : spec_float) : Prop := f32_valid f = true /\ fle f fone = true.
(** No two of the instances are made of the same facts. *)
Definition all_different {B} (l : list (production B)) : Prop :=
  ForallOrdPairs (fun p q => ~ Permutation (parts p) (parts q)) l.

(** Two composite states that differ by their guards only. *)
Definition same_but_guards {B} (C C' : cst B) : Prop :=
  axioms C = axioms C' /\ others C = others C' /\ initial C = initial C' /\
  thr1 C = thr1 C' /\ thr2 C = thr2 C' /\ outs C = outs C'.

(** At time [t], the time interval that the first of the inputs sets is still open. *)
Definition open_at {B} (M : binder B) (C : cst B) (s : list event) (t : Z) : Prop :=
  match s with
  | [] => True
  | e1 :: _ => forall p1 b1, fitted M (initial C) [arrived e1] [p1] b1 -> (0 < fwd_before M b1 /\ t <= fwd_before M b1)%Z
  end.
(** Events where each fact arrives once. *)
Definition each_once (es : list event) : Prop := NoDup (map (fun x => ptr (ifact x)) (map arrived es)).
