(* What is said about drives. *)
From Coq Require Import ZArith QArith List Bool Arith.
From Verif Require Import Drv_model.
Import ListNotations.

(* The outcomes of a drive. *)
Definition outcomes (d : nat) (l : list out) : list bool :=
  flat_map (fun o => match o with DriveOut _ _ x ok => if (x =? d)%nat then [ok] else [] | _ => [] end) l.
(* A top-level model has to do something about the drive. *)
Definition concerned (w : setting) (a : arrival) : Prop :=
  (thr w (actl a) < rate w (actl a) * acfd a)%Q /\ (armatch a = true \/ areuse a = true) /\ aguards a = true.
(* How often the jobs of the monitor of a goal are done. *)
Definition jobs (g : nat) (es : list event) : nat :=
  length (filter (fun e => match e with Timer x => (x =? g)%nat | _ => false end) es).
