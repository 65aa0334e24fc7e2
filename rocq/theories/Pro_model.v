(* Facts kept for a later time in a simulation: their promotion and their defeat. *)
From Coq Require Import ZArith QArith List Bool Arith.
Import ListNotations.

(* A fact or an anti-fact: its identity, its object, its interval, its confidence; whether
   it is an instance of a composite state. *)
Record fact := Fc { fid : nat; obj : nat; neg : bool; after : Z; before : Z; fcfd : Q; icst : bool }.

(* An input of an overlay of a composite state, a prediction in the one simulation that is
   looked at: the overlay, whether it is in this simulation or in none
   (r_exec/cst_controller.cpp:298-299), its latest end of time if it has any, its
   non-axiom inputs (targets in place of predictions, 335-338), the target of the input,
   whether this was promoted itself, and what inject_prediction answers (377). *)
Record event := Ev { ov : nat; own : bool; fwd_before : option Z; saved : list fact; inp : fact; promoted : bool; accepts : fact -> bool }.

(* Sim::defeasible_promoted_facts_ (number, original, promoted fact), the validities that
   were invalidated, Sim::defeating_facts_, the overlays with this simulation in
   promoted_in_sim_, and all that was ever promoted (number, overlay, original, fact). *)
Record state := St { entries : list (nat * fact * fact); invalid : list nat; defeating : list fact; done : list nat;
                     made : list (nat * nat * fact * fact) }.
Definition init := St [] [] [] [] [].
Definition num (d : nat * fact * fact) := fst (fst d).
Definition orig (d : nat * fact * fact) := snd (fst d).
Definition prom (d : nat * fact * fact) := snd d.

Section Pro.
(* is_evidence and is_timeless_evidence other than MATCH_FAILURE. *)
Variable evidence timeless : fact -> fact -> bool.

(* cst_controller.cpp:303-321, the input defeats promoted facts. *)
Definition defeat (i : fact) (s : state) : state :=
  let hit := filter (fun d => evidence i (prom d)) (entries s) in
  St (filter (fun d => negb (evidence i (prom d))) (entries s)) (map num hit ++ invalid s)
     (defeating s ++ map (fun _ => i) hit) (done s) (made s).

(* 351-356: the new fact; its identity is not of interest (0). *)
Definition shifted (f i : fact) : fact := Fc 0 (obj f) (neg f) (after i) (before i) (fcfd f) false.
(* 333-385, one of the saved inputs. *)
Definition promote (e : event) (s : state) (f : fact) : state :=
  if icst f then s
  else if existsb (fun d => Nat.eqb (fid (orig d)) (fid f)) (entries s) then s
  else if timeless f (inp e) then s
  else
    let p := shifted f (inp e) in
    if existsb (evidence p) (defeating s) then s
    else if accepts e f
         then let n := length (made s) in
              St ((n, f, p) :: entries s) (invalid s) (defeating s) (done s) (made s ++ [(n, ov e, f, p)])
         else s.

(* 323-327. *)
Definition later (e : event) : bool :=
  ((after (inp e) <? before (inp e)) && match fwd_before e with Some b => b <=? after (inp e) | None => false end)%Z.
(* CSTOverlay::reduce, 297-388. *)
Definition step (s : state) (e : event) : state :=
  if promoted e || negb (own e) then s
  else
    let s1 := defeat (inp e) s in
    if later e && negb (existsb (Nat.eqb (ov e)) (done s1))
    then fold_left (promote e) (saved e) (St (entries s1) (invalid s1) (defeating s1) (ov e :: done s1) (made s1))
    else s1.
Definition run (es : list event) : state := fold_left step es init.
End Pro.
