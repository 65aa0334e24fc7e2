(* Forward chaining of models: what one input makes a model predict, watch,
   notify and ask for. *)
From Coq Require Import ZArith QArith List Bool.
From Verif Require Import Req_model.
Import ListNotations.

(* r_exec/factory.h: an input is a fact, a prediction, or a simulated one
   (Pred::is_simulation). *)
Inductive source := Actual | Predicted | Simulated.

(* The confidence is that of the fact, or of the target of the prediction;
   exact numbers in place of floats. *)
Record input := Inp { src : source; icfd : Q }.

(* mdl_controller.cpp:318-363, the constructor: what a model is; its success
   rate (365-368), the saliency threshold of its group, whether it has template
   arguments and the numbers of weak and strong requirements on it. *)
Record mdl := Md { rate : Q; sln_thr : Q; is_req : bool; is_cmd : bool; is_reuse : bool;
                   has_tpl : bool; weak : nat; strong : nat }.

(* The bound right-hand side: which fact it is, and when it ends. *)
Record rhs := Rh { what : nat; until : Z }.

(* mdl_controller.h, BindingResult: the bindings and the requirement used. *)
Record result := Rs { bm : nat; ground : option nat }.

Inductive effect :=
| Predict (r : rhs) (c : Q) (sim : bool) (grounds : list nat) (defeat : option nat)
      (* a prediction is injected: confidence, simulated, antecedents (input not
         listed), the requirement by which it can be defeated *)
| Instance                    (* the instance of the model is injected in the primary group *)
| PredInstance (sim : bool)   (* a prediction of it is *)
| Mark (g : option nat)       (* a reduction marker goes to the output groups *)
| Second (c : Q)              (* the instance is injected in the secondary group *)
| Watch (r : rhs) (failures : bool)   (* a monitor; whether failures are rated *)
| Need (r : rhs) (c : Q) (sim allowed : bool) (* store_requirement of the model on the right *)
| Track (r : rhs).            (* active_requirements_ gets an entry *)

Definition Qgt_bool (a b : Q) : bool := negb (Qle_bool a b).

(* mdl_controller.cpp:1739-1758, inject_prediction; no marker if [mark] is [None]. *)
Definition inject (m : mdl) (p i : effect) (c : Q) (mark : option effect) : bool * list effect :=
  if Qgt_bool c (sln_thr m) then
    (true, p :: i :: match mark with Some k => [k] | None => [] end)
  else (false, []).

(* hlp_controller.cpp, HLPController::inject_prediction, of simulated predictions. *)
Definition inject_sim (m : mdl) (p : effect) (c : Q) : bool * list effect :=
  if Qgt_bool c (sln_thr m) then (true, [p]) else (false, []).

Section Predict.
(* _Fact::MatchObject of a bound right-hand side with an earlier one. *)
Context (mo : nat -> nat -> bool).

(* mdl_controller.cpp:1096-1100, register_requirement; [req]: some requirement was
   found by retrieve_imdl_fwd. *)
Definition register (req : bool) (r : rhs) : list effect := if req then [Track r] else [].

(* mdl_controller.cpp:1584-1737, PrimaryMDLController::predict, of a controller
   that is not invalidated. *)
Definition predict (now : Z) (m : mdl) (i : input) (allowed req : bool) (g : option nat)
    (r : rhs) (already : list rhs) : list effect * list rhs :=
  if existsb (fun a => mo (what r) (what a)) already then ([], already)
  else
    let c := if allowed then icfd i * rate m else 0 in
    match src i, allowed with
    | Predicted, false => ([], already)
    | Simulated, false => ([], already)
    | s, _ =>
        let sim := match s with Simulated => true | _ => false end in
        if is_req m then
          ([Mark None; Need r c sim allowed], already)
        else
          match s with
          | Simulated =>
              let d := match g with
                       | Some k => if (Nat.ltb 0 (weak m) && Nat.ltb 0 (strong m))%bool then Some k else None
                       | None => None
                       end in
              let (ok, es) := inject_sim m (Predict r c true [] d) c in
              if ok then
                (es ++ (if is_cmd m || is_reuse m then snd (inject_sim m (PredInstance true) c) else []),
                 already ++ [r])
              else ([], already)
          | Actual =>
              if allowed then
                if (until r <=? now)%Z then (register req r, already)
                else
                  let (ok, es) := inject m (Predict r c false [] None) Instance c (Some (Mark g)) in
                  (register req r ++ es ++ [Watch r ok; Second c], already)
              else (register req r ++ [Watch r false], already)
          | Predicted =>
              if (until r <=? now)%Z then (register req r, already)
              else
                let (ok, es) := inject m (Predict r c false match g with Some k => [k] | None => [] end None)
                                         (PredInstance false) c None in
                if ok then (register req r ++ es, already ++ [r]) else (register req r, already)
          end
    end.

(* mdl_controller.cpp:177-198, the loop over the results; [guards] evaluates the
   forward guards and binds the right-hand side. *)
Fixpoint predict_all (now : Z) (m : mdl) (i : input) (allowed req : bool) (guards : nat -> option rhs)
    (rs : list result) (already : list rhs) : bool * list effect :=
  match rs with
  | [] => (false, [])
  | x :: q =>
      match guards (bm x) with
      | None => predict_all now m i allowed req guards q already
      | Some r =>
          let (es, already') := predict now m i allowed req (ground x) r already in
          let (_, fs) := predict_all now m i allowed req guards q already' in
          (true, es ++ fs)
      end
  end.

(* hlp_controller.h:97-103, the order of the values. *)
Definition allows (s : status) : bool :=
  match s with WeakEnabled | NoRequirement => true | _ => false end.

(* mdl_controller.cpp:129-204, PrimaryMDLOverlay::reduce once the input matches:
   [st] and [rs] are given by retrieve_imdl_fwd, [sims] by
   check_simulated_chaining ([None]: no). *)
Definition reduce (now : Z) (m : mdl) (i : input) (st : status) (rs : list result) (sims : option (list result))
    (req : bool) (bm0 : nat) (guards : nat -> option rhs) : bool * list effect :=
  let go allowed l :=
    predict_all now m i allowed req guards match l with [] => [Rs bm0 None] | _ => l end [] in
  match st with
  | WeakDisabled | StrongNoWeak =>
      match src i with
      | Simulated => match sims with Some l => go true l | None => (false, []) end
      | _ => if has_tpl m then (false, []) else go false rs
      end
  | NoRequirement =>
      match src i with
      | Simulated => match sims with Some l => go true l | None => (false, []) end
      | _ => go true rs
      end
  | StrongDisabledWeak =>
      match src i with
      | Simulated => match sims with Some l => go true l | None => (false, []) end
      | _ => go false rs
      end
  | WeakEnabled => go true rs
  end.

(* mdl_controller.cpp:241-297 and 2787-2808, SecondaryMDLOverlay::reduce once the
   input matches, and SecondaryMDLController::predict. *)
Definition predict2 (m : mdl) (req allowed : bool) (r : rhs) : list effect :=
  register req r ++ (if is_req m then [Need r 1 false allowed] else [Watch r false]).
Definition reduce2 (m : mdl) (st : status) (rs : list result) (req : bool) (bm0 : nat)
    (guards : nat -> option rhs) : bool * list effect :=
  let go :=
    let es := flat_map (fun x => match guards (bm x) with Some r => [r] | None => [] end)
                match rs with [] => [Rs bm0 None] | _ => rs end in
    (negb (Nat.eqb (length es) 0), flat_map (predict2 m req true) es) in
  match st with
  | WeakDisabled | StrongNoWeak | NoRequirement => if has_tpl m then (false, []) else go
  | StrongDisabledWeak | WeakEnabled => go
  end.
End Predict.

(* mdl_controller.cpp:1760-1834, PrimaryMDLController::reduce of an input that is
   no goal to be pursued: what it goes to. [fwd]: the overlay matched; [pm], [gm]: a monitor of
   predictions, of goals, takes it; the time of the last match. *)
Record ctl := Ct { orphan : bool; assumptions : list (nat * bool) (* and whether invalidated *);
                   last : Z; act0 : bool }.
Record arrival := Ar { obj : nat; gone : bool; fwd : bool; pm : bool; gm : bool; at_ : Z }.
Record use := Us { chained : bool; for_preds : bool; for_goals : bool; assumed : bool }.
Definition nothing : use := Us false false false false.

(* The loop over assumptions: dead ones before the input are dropped. *)
Fixpoint own (o : nat) (l : list (nat * bool)) : bool * list (nat * bool) :=
  match l with
  | [] => (false, [])
  | (a, dead) :: q =>
      if dead then own o q
      else if Nat.eqb a o then (true, q)
      else let (b, q') := own o q in (b, (a, dead) :: q')
  end.

(* mdl_controller.cpp:2668-2683, check_last_match_time. *)
Definition check_last (thz : Z) (c : ctl) (now : Z) (match_ : bool) : ctl :=
  if match_ then Ct (orphan c) (assumptions c) now (act0 c)
  else if (thz <? now - last c)%Z then Ct (orphan c) (assumptions c) (last c) true
  else c.

Definition arrive (thz : Z) (c : ctl) (a : arrival) : ctl * use :=
  if orphan c then (c, nothing)
  else if gone a then (c, nothing)
  else
    let (mine, l) := own (obj a) (assumptions c) in
    let c := Ct (orphan c) l (last c) (act0 c) in
    if mine then (c, nothing)
    else
      let p := if fwd a then false else pm a in
      let g := if p then false else gm a in
      (check_last thz c (at_ a) (fwd a),
       Us true (negb (fwd a)) (negb p) (negb (fwd a) && negb p && negb g)).
Fixpoint arrive_all (thz : Z) (c : ctl) (l : list arrival) : ctl * list use :=
  match l with
  | [] => (c, [])
  | a :: q => let (c1, u) := arrive thz c a in let (c2, us) := arrive_all thz c1 q in (c2, u :: us)
  end.
