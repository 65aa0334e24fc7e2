(* Vocabulary for statements on forward chaining. *)
From Coq Require Import ZArith QArith List Bool.
From Verif Require Import Req_model Fwd_model.
Import ListNotations.

(* The bindings that are tried: those found with requirements, or the first match. *)
Definition tried (rs : list result) (b : nat) (x : result) : Prop :=
  In x rs \/ (rs = [] /\ x = Rs b None).

(* The same as a list. *)
Definition choice (b : nat) (l : list result) : list result := match l with [] => [Rs b None] | _ => l end.

(* The requirements let the model fire with some bindings: those in force, or
   those of the simulation. *)
Inductive offered (st : status) (s : source) (rs : list result) (sims : option (list result)) (b : nat)
  : result -> Prop :=
| OWeak x : st = WeakEnabled -> tried rs b x -> offered st s rs sims b x
| ONone x : st = NoRequirement -> s <> Simulated -> tried rs b x -> offered st s rs sims b x
| OSim l x : st <> WeakEnabled -> s = Simulated -> sims = Some l -> tried l b x -> offered st s rs sims b x.

(* What the requirements forbid, but is followed silently. *)
Definition silent (m : mdl) (st : status) (s : source) : Prop :=
  s <> Simulated /\ (st = StrongDisabledWeak \/ (has_tpl m = false /\ (st = WeakDisabled \/ st = StrongNoWeak))).

(* Confidence after a chain of models. *)
Inductive Chain (c0 : Q) : list mdl -> Q -> Prop :=
| CNil : Chain c0 [] c0
| CStep mo now m s st rs sims req b guards r c d sim gs ms c1 :
    Chain c0 ms c1 ->
    In (Predict r c sim gs d) (snd (reduce mo now m (Inp s c1) st rs sims req b guards)) ->
    Chain c0 (ms ++ [m]) c.
Definition product (ms : list mdl) : Q := fold_right (fun m a => a * rate m) 1 ms.

(* The predictions that are watched. *)
Definition watched (es : list effect) : list rhs :=
  flat_map (fun e => match e with Watch r _ => [r] | _ => [] end) es.
(* The predictions that are injected. *)
Definition predictions (es : list effect) : list rhs :=
  flat_map (fun e => match e with Predict r _ _ _ _ => [r] | _ => [] end) es.

(* The right-hand sides of results with the guards met. *)
Definition passing (guards : nat -> option rhs) (rs : list result) : list rhs :=
  flat_map (fun x => match guards (bm x) with Some r => [r] | None => [] end) rs.

(* Powers of a rate. *)
Fixpoint power (q : Q) (n : nat) : Q := match n with O => 1 | S k => power q k * q end.

(* The time of the last match. *)
Definition last_match (t : Z) (l : list arrival) : Z :=
  fold_left (fun t a => if negb (gone a) && fwd a then at_ a else t) l t.

(* What belongs to a simulation. *)
Definition of_simulation (e : effect) : Prop :=
  match e with
  | Predict _ _ s _ _ => s = true
  | PredInstance s => s = true
  | Need _ _ s _ => s = true
  | _ => False
  end.
