(* Assumptions: what a model takes for the cause of a fact that it did not predict. *)
From Coq Require Import ZArith QArith List Bool.
From Verif Require Import Req_model.
Import ListNotations.

(* r_exec/mdl_controller.cpp:318-368: what a model is, MDL_STRENGTH, its success rate,
   and the saliency threshold of its group. *)
Record mdl := Md { is_req : bool; is_reuse : bool; is_cmd : bool; strength : Q; rate : Q; thr : Q }.
(* A fact or an anti-fact of an object, or a prediction; its confidence and its end. *)
Record fact := Fc { obj : nat; anti : bool; predicted : bool; fcfd : Q; until : Z }.
(* MatchResult with the bindings. *)
Inductive matched := MNo | MPos (b : nat) | MNeg (b : nat).

(* A model and what is given about it; bindings are numbers: the match of a fact with the
   right side (2597), the evaluation of the forward times (2613), retrieve_imdl_bwd
   (2619), the backward guards (2622), the left side with its variables bound (2629). *)
Record agent := Ag { par : mdl; rhs : fact -> matched; timings : nat -> option nat; look : nat -> status * nat;
                     guards : nat -> option nat; lhs : nat -> fact }.

(* What is injected: a fact, its saliency, and the time it has. *)
Record made := Mk { what : fact; sln : Q; ttl : Z }.

(* PrimaryMDLController::assume_lhs, mdl_controller.cpp:2608-2649.  That the assumption is
   noted as one of the model's own is in Fwd_model. *)
Definition assume_lhs (a : agent) (now : Z) (b : nat) (opposite : bool) (c : Q) : option made :=
  match timings a b with
  | None => None
  | Some b1 =>
      let (st, b2) := look a b1 in
      match st with
      | WeakEnabled | NoRequirement =>
          match guards a b2 with
          | None => None
          | Some b3 =>
              let l := lhs a b3 in
              let f := Fc (obj l) (if opposite then negb (anti l) else anti l) (predicted l) c (until l) in
              Some (Mk f c (if (now <? until l)%Z then until l - now else 0)%Z)
          end
      | _ => None
      end
  end.

(* PrimaryMDLController::assume, 2576-2606. *)
Definition assume (a : agent) (now : Z) (i : fact) : option made :=
  let m := par a in
  if is_req m || is_reuse m || is_cmd m then None
  else if Qeq_bool (strength m) 0 then None
  else if predicted i then None
  else
    let c := rate m * fcfd i in
    if Qle_bool c (thr m) then None
    else match rhs a i with
         | MNo => None
         | MPos b => assume_lhs a now b false c
         | MNeg b => assume_lhs a now b true c
         end.
