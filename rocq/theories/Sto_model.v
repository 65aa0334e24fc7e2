(* What a model keeps for later: facts that matched its left side, requirements
   on it, and monitors that wait for requirements; and what a new requirement
   does to all of them.

   The three parts do not read each other in the code modelled here, apart from
   the clock and from what is invalidated; they are three components of a state.
   Critical sections are not modelled: each event is one step.  r_code::list is a
   list.  Matching is given. *)
From Coq Require Import ZArith QArith List Bool Arith.
Import ListNotations.
Open Scope Z_scope.

(* A fact that matches the left side of the model, or whose opposite does
   (mdl_controller.cpp:204-209): its own times, for a prediction the times of its
   target, and whether the prediction is simulated. *)
Record fact := Fa { fid : nat; from : Z; until : Z; target : option (Z * Z); simulated : bool }.

(* f_p_f_imdl: a predicted instance of the model, as a fact or an anti-fact
   (rneg), the simulations of the prediction (none: not simulated), times and
   confidence of the instance (hlp_controller.cpp:326-339), the instance. *)
Record req := Re { rid : nat; rneg : bool; rsims : list nat; rfrom : Z; runtil : Z; rcfd : Q; rinst : nat }.

(* What happens.  Look and LookReq: the loops that check evidence or retrieve
   requirements and erase what is too old among the first n entries
   (hlp_controller.cpp:204-259, mdl_controller.cpp:445-1092); they return at the
   first match, so that any number of entries may be visited. *)
Inductive event :=
| Pass (d : Z)                       (* time *)
| Kill (i : nat)                     (* a fact or prediction is invalidated *)
| Input (f : fact)                   (* reduced by the model in the primary group *)
| Input2 (f : fact)                  (* reduced by the model in the secondary group *)
| Look (n : nat)
| LookReq (sim neg : bool) (n : nat)
| Store (r : req)                    (* store_requirement of the primary controller *)
| Store2 (r : req)                   (* of the secondary controller, by a model of the secondary group *)
| Counts (wr sr : nat)               (* numbers of weak and strong models on this one *)
| Attach (p g : nat)                 (* prediction p is simulated with requirement g as ground *)
| Wait (m : nat)                     (* add_r_monitor *)
| Leave (m : nat)                    (* remove_r_monitor *)
| Lose (m : nat)                     (* the monitor is not alive any more *)
| Batch (second : bool) (k : nat).   (* the k-th BatchReductionJob is done *)

(* The clock and what is invalidated. *)
Record base := Ba { now : Z; dead : list nat }.
Definition step_base (e : event) (b : base) : base :=
  match e with
  | Pass d => Ba (now b + Z.max 0 d) (dead b)
  | Kill i => Ba (now b) (i :: dead b)
  | _ => b
  end.
Definition is_dead (b : base) (i : nat) : bool := existsb (Nat.eqb i) (dead b).

(* EvidenceEntry::is_too_old, hlp_controller.h:125-130. *)
Definition too_old (b : base) (i : nat) (a u : Z) : bool :=
  is_dead b i || (if a =? u then u <? now b else u <=? now b).

(* The times of an entry, hlp_controller.cpp:316-339: those of the target of a
   prediction. *)
Definition start (f : fact) : Z := match target f with Some (a, _) => a | None => from f end.
Definition finish (f : fact) : Z := match target f with Some (_, u) => u | None => until f end.
Definition old_fact (b : base) (f : fact) : bool := too_old b (fid f) (start f) (finish f).
Definition old_req (b : base) (r : req) : bool := too_old b (rid r) (rfrom r) (runtil r).

(* A loop that erases what is too old among the first n entries. *)
Fixpoint sweep {A} (old : A -> bool) (n : nat) (l : list A) : list A :=
  match n, l with
  | O, _ => l
  | _, [] => []
  | S m, x :: q => if old x then sweep old m q else x :: sweep old m q
  end.

(* HLPController::_store_evidence, hlp_controller.h:143-163: what is too old is
   erased until the fact is found; it is not stored twice. *)
Fixpoint keep (b : base) (f : fact) (l : list fact) : bool * list fact :=
  match l with
  | [] => (false, [])
  | x :: q =>
      if (fid x =? fid f)%nat then (true, l)
      else if old_fact b x then keep b f q
      else let (found, q') := keep b f q in (found, x :: q')
  end.
Definition store_evidence (b : base) (f : fact) (l : list fact) : list fact :=
  let (found, l') := keep b f l in if found then l' else f :: l'.

(* The facts kept by the primary controller (evidences_, predicted_evidences_) and
   by the secondary one, the jobs to come, and the facts that were reduced again
   with a requirement. *)
Record kept := Ke { facts : list fact; predicted : list fact; facts2 : list fact; predicted2 : list fact;
                    jobs : list req; jobs2 : list req; again : list (fact * req); again2 : list (fact * req) }.

(* MDLController::reduce_cache, mdl_controller.h:255-276: what remains, and what
   is reduced.  The end is that of the fact itself. *)
Definition reduce_cache (b : base) (l : list fact) : list fact * list fact :=
  let l' := filter (fun f => negb (old_fact b f)) l in
  (l', filter (fun f => negb (until f <=? now b)) l').

Definition take_nth {A} (k : nat) (l : list A) : option (A * list A) :=
  match nth_error l k with
  | Some x => Some (x, firstn k l ++ skipn (S k) l)
  | None => None
  end.

(* hlp_overlay.cpp:304-312 and mdl_controller.cpp:204-209 (Input),
   SecondaryMDLOverlay::reduce, 247 (Input2: nothing is kept), store_requirement
   1549-1571 and 2810-2819 (jobs), reduce_batch 1839-1846 and 2778-2785 (Batch;
   the controller is not an orphan). *)
Definition step_kept (b : base) (e : event) (s : kept) : kept :=
  match e with
  | Input f =>
      match target f with
      | None => Ke (store_evidence b f (facts s)) (predicted s) (facts2 s) (predicted2 s) (jobs s) (jobs2 s) (again s) (again2 s)
      | Some _ =>
          if simulated f then s
          else Ke (facts s) (store_evidence b f (predicted s)) (facts2 s) (predicted2 s) (jobs s) (jobs2 s) (again s) (again2 s)
      end
  | Look n =>
      Ke (sweep (old_fact b) n (facts s)) (sweep (old_fact b) n (predicted s)) (facts2 s) (predicted2 s)
         (jobs s) (jobs2 s) (again s) (again2 s)
  | Store r =>
      if rneg r then s
      else Ke (facts s) (predicted s) (facts2 s) (predicted2 s) (jobs s ++ [r])
              (match rsims r with [] => jobs2 s ++ [r] | _ => jobs2 s end) (again s) (again2 s)
  | Store2 r =>
      if rneg r then s
      else Ke (facts s) (predicted s) (facts2 s) (predicted2 s) (jobs s) (jobs2 s ++ [r]) (again s) (again2 s)
  | Batch false k =>
      match take_nth k (jobs s) with
      | None => s
      | Some (r, q) =>
          let (l, x) := reduce_cache b (facts s) in
          let (p, y) := reduce_cache b (predicted s) in
          Ke l p (facts2 s) (predicted2 s) q (jobs2 s) (again s ++ map (fun f => (f, r)) (x ++ y)) (again2 s)
      end
  | Batch true k =>
      match take_nth k (jobs2 s) with
      | None => s
      | Some (r, q) =>
          let (l, x) := reduce_cache b (facts2 s) in
          let (p, y) := reduce_cache b (predicted2 s) in
          Ke (facts s) (predicted s) l p (jobs s) q (again s) (again2 s ++ map (fun f => (f, r)) (x ++ y))
      end
  | _ => s
  end.

Section Sto.
(* match_fwd_lenient of a weak and of a strong instance gives
   MATCH_SUCCESS_NEGATIVE (mdl_controller.cpp:1529-1532); _GMonitor::signal of a
   monitor with a requirement returns true. *)
Context (clash chains : nat -> nat -> bool).

(* The requirements kept: requirements_ and simulated_requirements_ of the primary
   controller, requirements_ of the secondary one (mdl_controller.h:206-222); the
   defeasible consequences attached to predictions, and those invalidated. *)
Record reqs := Rs { rpos : list req; rneg_ : list req; spos : list req; sneg : list req;
                    rpos2 : list req; rneg2 : list req; wr : nat; sr : nat;
                    links : list (nat * nat); defeated : list nat }.

(* MDLController::_store_requirement, mdl_controller.cpp:427-442. *)
Definition push (b : base) (r : req) (l : list req) : list req := r :: filter (fun x => negb (old_req b x)) l.

(* has_defeasible_consequence, factory.h:492. *)
Definition used (s : reqs) (i : nat) : bool := existsb (fun l => (snd l =? i)%nat) (links s).

(* 1514-1547: the requirements of which the consequences are invalidated. *)
Definition defeats (s : reqs) (r : req) : list nat :=
  match rneg r, rsims r with
  | true, [sim] =>
      if (0 <? wr s)%nat && (0 <? sr s)%nat then
        map rid (filter (fun e => used s (rid e) && existsb (Nat.eqb sim) (rsims e) && clash (rinst e) (rinst r)
                                  && Qle_bool (rcfd e) (rcfd r)) (spos s))
      else []
  | _, _ => []
  end.

(* PrimaryMDLController::store_requirement, 1492-1547 and 1570-1571. *)
Definition store (b : base) (r : req) (s : reqs) : reqs :=
  let d := defeated s ++ defeats s r in
  match rneg r, rsims r with
  | false, [] => Rs (push b r (rpos s)) (rneg_ s) (spos s) (sneg s) (push b r (rpos2 s)) (rneg2 s) (wr s) (sr s) (links s) d
  | true, [] => Rs (rpos s) (push b r (rneg_ s)) (spos s) (sneg s) (rpos2 s) (push b r (rneg2 s)) (wr s) (sr s) (links s) d
  | false, _ => Rs (rpos s) (rneg_ s) (push b r (spos s)) (sneg s) (rpos2 s) (rneg2 s) (wr s) (sr s) (links s) d
  | true, _ => Rs (rpos s) (rneg_ s) (spos s) (push b r (sneg s)) (rpos2 s) (rneg2 s) (wr s) (sr s) (links s) d
  end.

(* SecondaryMDLController::store_requirement, 2810-2819 (Store2); the numbers of
   requirements, hlp_controller.cpp:100-145 (Counts); 1706-1714 and 2311-2319
   (Attach). *)
Definition step_reqs (b : base) (e : event) (s : reqs) : reqs :=
  match e with
  | Store r => store b r s
  | Store2 r =>
      if rneg r
      then Rs (rpos s) (rneg_ s) (spos s) (sneg s) (rpos2 s) (push b r (rneg2 s)) (wr s) (sr s) (links s) (defeated s)
      else Rs (rpos s) (rneg_ s) (spos s) (sneg s) (push b r (rpos2 s)) (rneg2 s) (wr s) (sr s) (links s) (defeated s)
  | LookReq false false n => Rs (sweep (old_req b) n (rpos s)) (rneg_ s) (spos s) (sneg s) (rpos2 s) (rneg2 s) (wr s) (sr s) (links s) (defeated s)
  | LookReq false true n => Rs (rpos s) (sweep (old_req b) n (rneg_ s)) (spos s) (sneg s) (rpos2 s) (rneg2 s) (wr s) (sr s) (links s) (defeated s)
  | LookReq true false n => Rs (rpos s) (rneg_ s) (sweep (old_req b) n (spos s)) (sneg s) (rpos2 s) (rneg2 s) (wr s) (sr s) (links s) (defeated s)
  | LookReq true true n => Rs (rpos s) (rneg_ s) (spos s) (sweep (old_req b) n (sneg s)) (rpos2 s) (rneg2 s) (wr s) (sr s) (links s) (defeated s)
  | Counts w q => Rs (rpos s) (rneg_ s) (spos s) (sneg s) (rpos2 s) (rneg2 s) w q (links s) (defeated s)
  | Attach p g =>
      if (0 <? wr s)%nat && (0 <? sr s)%nat
      then Rs (rpos s) (rneg_ s) (spos s) (sneg s) (rpos2 s) (rneg2 s) (wr s) (sr s) ((p, g) :: links s) (defeated s)
      else s
  | _ => s
  end.

(* Pred::is_invalidated, factory.cpp:597-602, for what is attached. *)
Definition falls (s : reqs) (p : nat) : bool :=
  existsb (fun l => (fst l =? p)%nat && existsb (Nat.eqb (snd l)) (defeated s)) (links s).

(* The monitors that wait for requirements (r_monitors_), those not alive, and
   what they were told. *)
Record mons := Mo { waiting : list nat; gone : list nat; told : list (nat * req) }.

(* 1553-1564: the monitors that remain, and those signalled. *)
Fixpoint signal (g : list nat) (r : req) (l : list nat) : list nat * list nat :=
  match l with
  | [] => ([], [])
  | m :: q =>
      let (rest, sig) := signal g r q in
      if existsb (Nat.eqb m) g then (rest, sig)
      else if chains m (rid r) then (rest, m :: sig)
      else (m :: rest, m :: sig)
  end.

(* 1148-1163 (Wait, Leave), 1549-1565 (Store). *)
Definition step_mons (e : event) (s : mons) : mons :=
  match e with
  | Wait m => Mo (m :: waiting s) (gone s) (told s)
  | Leave m => Mo (remove Nat.eq_dec m (waiting s)) (gone s) (told s)
  | Lose m => Mo (waiting s) (m :: gone s) (told s)
  | Store r =>
      if rneg r then s
      else let (rest, sig) := signal (gone s) r (waiting s) in
           Mo rest (gone s) (told s ++ map (fun m => (m, r)) sig)
  | _ => s
  end.

Record state := St { clock : base; caches : kept; demands : reqs; guards : mons }.
Definition init : state := St (Ba 0 []) (Ke [] [] [] [] [] [] [] []) (Rs [] [] [] [] [] [] 0 0 [] []) (Mo [] [] []).
Definition step (s : state) (e : event) : state :=
  St (step_base e (clock s)) (step_kept (clock s) e (caches s)) (step_reqs (clock s) e (demands s)) (step_mons e (guards s)).
Definition run (es : list event) : state := fold_left step es init.
End Sto.
