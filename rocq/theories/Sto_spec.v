(* What is said about facts, requirements and monitors: from the list of events
   alone. *)
From Coq Require Import ZArith QArith List Bool Arith.
From Verif Require Import Sto_model.
Import ListNotations.
Open Scope Z_scope.

(* The time after the events. *)
Fixpoint time (es : list event) : Z :=
  match es with
  | [] => 0
  | Pass d :: q => Z.max 0 d + time q
  | _ :: q => time q
  end.

(* An interval lasts: it ends later, or it is a moment that is now or later. *)
Definition lasts (t a u : Z) : bool := (t <? u) || ((a =? u) && (t <=? u)).
Definition mem (i : nat) (l : list nat) : bool := existsb (Nat.eqb i) l.
Fixpoint kills (es : list event) : list nat :=
  match es with [] => [] | Kill i :: q => i :: kills q | _ :: q => kills q end.

(* The facts and the predictions that came, each once, the latest first. *)
Definition inputs (want : fact -> bool) (es : list event) : list fact :=
  flat_map (fun e => match e with Input f => if want f then [f] else [] | _ => [] end) es.
Definition once (l : list fact) : list fact :=
  fold_left (fun acc f => if existsb (fun x => (fid x =? fid f)%nat) acc then acc else f :: acc) l [].
Definition actual (f : fact) : bool := match target f with None => true | Some _ => false end.
Definition foreseen (f : fact) : bool := match target f with None => false | Some _ => negb (simulated f) end.

(* The same number is the same fact. *)
Definition named (es : list event) : Prop :=
  forall f g, In (Input f) es -> In (Input g) es -> fid f = fid g -> f = g.

(* Still there after the events, and lasting beyond. *)
Definition open_fact (es : list event) (f : fact) : bool :=
  negb (mem (fid f) (kills es)) && (time es <? until f).
Definition open_target (es : list event) (f : fact) : bool :=
  negb (mem (fid f) (kills es)) && match target f with Some (a, u) => lasts (time es) a u | None => false end.

(* The requirements stored, of a sign, simulated or not, the latest first. *)
Definition is_sim (r : req) : bool := match rsims r with [] => false | _ => true end.
Definition stored (sim neg : bool) (es : list event) : list req :=
  rev (flat_map (fun e => match e with Store r => if Bool.eqb (rneg r) neg && Bool.eqb (is_sim r) sim then [r] else [] | _ => [] end) es).
Definition stored2 (neg : bool) (es : list event) : list req :=
  rev (flat_map (fun e => match e with
       | Store r => if Bool.eqb (rneg r) neg && negb (is_sim r) then [r] else []
       | Store2 r => if Bool.eqb (rneg r) neg then [r] else []
       | _ => [] end) es).
Definition current (es : list event) (r : req) : bool :=
  negb (mem (rid r) (kills es)) && lasts (time es) (rfrom r) (runtil r).

(* There are weak and strong requirements on the model after the events. *)
Definition mixed (es : list event) : bool :=
  fold_left (fun m e => match e with Counts w s => (0 <? w)%nat && (0 <? s)%nat | _ => m end) es false.
(* Prediction p is made on ground g when there are both. *)
Definition grounded (es : list event) (p g : nat) : Prop :=
  exists e1 e2, es = e1 ++ Attach p g :: e2 /\ mixed e1 = true.

(* After the events, strong requirement r defeats weak requirement e. *)
Definition opposes (clash : nat -> nat -> bool) (e r : req) : Prop :=
  rneg e = false /\ rneg r = true /\ (exists sim, rsims r = [sim] /\ In sim (rsims e)) /\
  clash (rinst e) (rinst r) = true /\ (rcfd e <= rcfd r)%Q.

(* What one monitor is told: every positive requirement from when it waits until
   it chains, leaves, or is found lost. *)
Fixpoint heard (chains : nat -> nat -> bool) (m : nat) (w l : bool) (es : list event) : list req :=
  match es with
  | [] => []
  | Wait x :: q => if (x =? m)%nat then heard chains m true l q else heard chains m w l q
  | Leave x :: q => if (x =? m)%nat then heard chains m false l q else heard chains m w l q
  | Lose x :: q => if (x =? m)%nat then heard chains m w true q else heard chains m w l q
  | Store r :: q =>
      if negb (rneg r) && w then
        if l then heard chains m false l q
        else r :: heard chains m (negb (chains m (rid r))) l q
      else heard chains m w l q
  | _ :: q => heard chains m w l q
  end.
Definition waits (es : list event) : list nat :=
  flat_map (fun e => match e with Wait m => [m] | _ => [] end) es.
Definition told_of (m : nat) (l : list (nat * req)) : list req :=
  flat_map (fun x => if (fst x =? m)%nat then [snd x] else []) l.
