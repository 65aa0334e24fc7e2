(** Model of what a program does once its inputs and guards are there: r_exec/
    pgm_overlay.cpp:207-516 (inject_productions), 518-534, 790-813 (the notification),
    and of the evaluation contexts of programs: r_exec/context.cpp:176-251 (dereference),
    418-480 (getMember), 501-653 (red).

    Simplifications: objects are their addresses; the words of a command that is copied in
    a notification are told apart by the command and their position; callbacks of probes
    are left out; what the world answers (evaluation, devices, the objects that are equal
    to a new one) is given by parameters. *)
From Verif Require Import Base.
Local Open Scope nat_scope.

(** * Commands *)

(** The first argument of an injection or ejection (254-270): an object that is there, or
    the description of one. *)
Inductive arg := Existing (o : nat) | Described (content : nat).
(** What mod and set apply to (353-411). *)
Inductive place := ViewOf (g oid m : nat) | ObjectAt (o m : nat) | GroupAt (g m : nat) | Nowhere.

(** A command: to the executive (icmd), to a device (cmd), or with another head.  [Todo]:
    new class, delete class, ldc, swap (413-420).  [Probe n]: with [n] objects. *)
Inductive command :=
| Inj (a : arg) (view : bool)
| Ejt (a : arg) (node : nat)
| Modify (t : place) (v : Z)
| Assign (t : place) (v : Z)
| Todo
| Probe (n : nat)
| Stop
| Unknown
| Device (d : nat)
| Odd.

(** A production: whether it evaluates (230), the command, the number of words of the
    command, the objects it refers to, where its first argument is written. *)
Record production := mkp { ok : bool; what : command; size : nat; uses : list nat; slot : nat }.

(** An object of the memory; one made for the production of that number; the program. *)
Inductive obj := Old (o : nat) | New (i : nat) | Self.
Definition obj_eqb (a b : obj) : bool :=
  match a, b with Old x, Old y => x =? y | New x, New y => x =? y | Self, Self => true | _, _ => false end.

(** What is seen from outside. *)
Inductive effect :=
| Injected (o : obj)
| Ejected (o : obj) (node : nat)
| Pending (add : bool) (g oid m : nat) (v : Z)
| OnObject (add : bool) (o m : nat) (v : Z)
| OnGroup (add : bool) (g m : nat) (v : Z)
| Probed
| Stopped
| Sent (d : nat)
| InjectedFact (d : nat) (after before : Z)
| Notified (g : nat).

(** The words of a notification, and its references. *)
Inductive word := WMarker | WSet (n : nat) | WI (i : nat) | WR (i : nat) | WOne | Part (i k : nat).
Inductive ref := RObj (o : obj) | RFact (i : nat) (positive : bool).
Definition ref_eqb (a b : ref) : bool :=
  match a, b with
  | RObj x, RObj y => obj_eqb x y
  | RFact i p, RFact j q => (i =? j) && Bool.eqb p q
  | _, _ => false
  end.
(** atom.inline.cpp:135-148, 215-218: indices of 12 bits, counts of 8. *)
Definition IPtr (i : nat) : word := WI (i mod 4096).
Definition RPtr (i : nat) : word := WR (i mod 4096).
Definition SetOf (n : nat) : word := WSet (n mod 256).

(** A notification being written: words, references, write_index, extent_index. *)
Record note := mkn { words : nat -> option word; refs : list ref; wi : nat; ei : nat }.
Definition put (k : nat) (w : word) (f : nat -> option word) : nat -> option word := fun j => if j =? k then Some w else f j.

(** addReference, context.h:109-120: an object that is there is not added again. *)
Definition add_ref (r : ref) (l : list ref) : list ref := if existsb (ref_eqb r) l then l else l ++ [r].
(** [copy(mk_rdx, extent_index, extent_index)], context.h:471-474: the words of production
    [i] from [extent_index] on. *)
Fixpoint put_parts (i k n at_ : nat) (f : nat -> option word) : nat -> option word :=
  match n with 0 => f | S n => put_parts i (S k) n (S at_) (put at_ (Part i k) f) end.
Definition copy_command (i : nat) (p : production) (n : note) : note :=
  mkn (put_parts i 0 (size p) (ei n) (words n)) (fold_left (fun l o => add_ref (RObj (Old o)) l) (uses p) (refs n))
    (wi n) (ei n + size p).
(** 325-329, 347-351, 493-494. *)
Definition tell_command (i : nat) (p : production) (n : note) : note :=
  copy_command i p (mkn (put (wi n) (IPtr (ei n)) (words n)) (refs n) (S (wi n)) (ei n)).
(** 496-497. *)
Definition tell_fact (i : nat) (positive : bool) (n : note) : note :=
  mkn (put (wi n) (RPtr (length (refs n))) (words n)) (refs n ++ [RFact i positive]) (S (wi n)) (ei n).

(** get_mk_rdx, 518-534 (no input), 790-813. *)
Fixpoint put_inputs (k n : nat) (f : nat -> option word) : nat -> option word :=
  match n with 0 => f | S n => put_inputs (S k) n (put (5 + k) (RPtr k) f) end.
Definition get_mk_rdx (program : nat) (inputs : list nat) : note :=
  let e := 6 + length inputs in
  let f := put 0 WMarker (put 1 (RPtr 0) (put 2 (IPtr 5) (put 3 (IPtr e) (put 4 WOne (put 5 (SetOf (length inputs)) (fun _ => None)))))) in
  mkn (put_inputs 1 (length inputs) f) (RObj (Old program) :: map (fun o => RObj (Old o)) inputs) e e.

Section Productions.
(** [executes d]: the device executes the command.  (check_existence gives the object itself:
    packing is not required, mem.tpl.cpp:200-213.) *)
Context (executes : nat -> bool).
(** The program and its inputs, the number of words of its code, the groups to notify, whether
    reductions are notified (IPGM_NFR). *)
Context (program : nat) (inputs : list nat) (code_size : nat) (groups : list nat) (notify : bool).
(** Time, the reference of time, the sampling period, the tolerance of time. *)
Context (now reference period tolerance : Z).

(** 468-471. *)
Definition frame_start : Z := (now - Z.rem (now - reference) period)%Z.
Definition fact_after : Z := Z.max now (frame_start + 2 * tolerance).
Definition fact_before : Z := (frame_start + period)%Z.

(** What a production adds to the count of commands, 248-283. *)
Definition counted (c : command) : nat :=
  match c with Inj _ _ | Ejt _ _ => 1 | Modify _ _ | Assign _ _ | Probe _ => 0 | Device _ => 2 | _ => 1 end.
Definition cmd_count (l : list production) : nat := fold_right (fun p n => counted (what p) + n) 0 l.

(** The first pass, 226-284.  [red]: the productions were computed by red, all at once.  The
    place of the argument is then one in the values, but it is the code that is patched
    (270): [None] beyond its end.  [Some false]: something does not evaluate. *)
Fixpoint first_pass (red : bool) (l : list production) : option bool :=
  match l with
  | [] => Some true
  | p :: l =>
      if (negb red && negb (ok p))%bool then Some false
      else match what p with
           | Inj (Described _) _ | Ejt (Described _) _ => if (red && (code_size <=? slot p))%bool then None else first_pass red l
           | _ => first_pass red l
           end
  end.

(** The object of the argument in the second pass, 313, 336.  In the code, the argument was
    patched with a pointer to the object made.  In the values it was not: it leads to the
    description, in a context whose object is the program. *)
Definition object_of (red : bool) (i : nat) (a : arg) : obj :=
  match a with Existing o => Old o | Described _ => if red then Self else New i end.

(** 353-411. *)
Definition apply_to (add : bool) (t : place) (v : Z) : list effect :=
  match t with
  | ViewOf g oid m => [Pending add g oid m v]
  | ObjectAt o m => [OnObject add o m v]
  | GroupAt g m => [OnGroup add g m v]
  | Nowhere => []
  end.

(** The state of the second pass: what was done, the notification, the count of commands. *)
Record state := mks { done : list effect; told : option note; count : nat }.
Definition telling (f : note -> note) (s : state) : option note := option_map f (told s).

(** One command of the second pass, 300-499.  [None]: no end (uint8 loop counter, 439);
    [Some (s, false)]: unknown function. *)
Definition execute (red : bool) (i : nat) (p : production) (s : state) : option (state * bool) :=
  match what p with
  | Inj a true => Some (mks (done s ++ [Injected (object_of red i a)]) (telling (tell_command i p) s) (count s), true)
  | Inj a false => Some (mks (done s) (told s) (count s - 1), true)
  | Ejt a node => Some (mks (done s ++ [Ejected (object_of red i a) node]) (telling (tell_command i p) s) (count s), true)
  | Modify t v => Some (mks (done s ++ apply_to true t v) (told s) (count s), true)
  | Assign t v => Some (mks (done s ++ apply_to false t v) (told s) (count s), true)
  | Todo => Some (s, true)
  | Probe n => if n =? 255 then None else Some (mks (done s ++ [Probed]) (told s) (count s), true)
  | Stop => Some (mks (done s ++ [Stopped]) (told s) (count s), true)
  | Unknown => Some (s, false)
  | Device d =>
      let e := executes d in
      Some (mks (done s ++ Sent d :: (if e then [InjectedFact d fact_after fact_before] else []))
              (telling (fun n => tell_fact i e (tell_command i p n)) s) (count s), true)
  | Odd => Some (s, true)
  end.

Fixpoint second_pass (red : bool) (i : nat) (l : list production) (s : state) : option (state * bool) :=
  match l with
  | [] => Some (s, true)
  | p :: l => match execute red i p s with
              | Some (s, true) => second_pass red (S i) l s
              | r => r
              end
  end.

(** 286-297: a notification, if there is something to notify and somebody to be notified. *)
Definition start_note (l : list production) : option note :=
  if (negb (length groups =? 0) && negb (cmd_count l =? 0) && notify)%bool then
    let n := get_mk_rdx program inputs in
    Some (mkn (put (wi n) (SetOf (cmd_count l)) (words n)) (refs n) (S (wi n)) (S (wi n) + cmd_count l))
  else None.
(** 502-514. *)
Definition finish (s : state) : list effect * option note :=
  match told s with
  | None => (done s, None)
  | Some n => (done s ++ map Notified groups, Some (mkn (put (6 + length inputs) (SetOf (count s)) (words n)) (refs n) (wi n) (ei n)))
  end.

(** inject_productions, 207-516.  The outcome: whether it succeeded, what was done, the
    notification.  [None]: undefined, or no end. *)
Definition inject_productions (red evaluates : bool) (l : list production) : option (bool * list effect * option note) :=
  if (red && negb evaluates)%bool then Some (false, [], None)
  else match first_pass red l with
       | None => None
       | Some false => Some (false, [], None)
       | Some true =>
           match second_pass red 0 l (mks [] (start_note l) (cmd_count l)) with
           | None => None
           | Some (s, false) => Some (false, done s, None)
           | Some (s, true) => let (e, n) := finish s in Some (true, e, n)
           end
       end.
End Productions.

(** * Paths, context.cpp:176-251 *)

(** Words: the head of a structure, pointers in the same code, references, other atoms. *)
Inductive kind := KObject | KGroup | KSet.
Inductive cell := Head (k : kind) (n : nat) | Ip (i : nat) | Rp (i : nat) | Leaf (z : Z).
(** An object; a view: its code, its two references, the group it is in, its identifier. *)
Record body := mkbody { code : list cell; references : list nat }.
Record vbody := mkvbody { vcode : list cell; vreferences : list nat; host : nat; oid : nat }.
Record heap := mkheap { objects : nat -> option body; views : nat -> option vbody }.

(** A context: the object, its view, whether the code is that of the view, the index.
    Contexts in the value array are left out. *)
Record context := mkc { c_obj : nat; c_view : option nat; in_view : bool; at_ : nat }.
Definition fetch (h : heap) (c : context) : option cell :=
  if in_view c then match c_view c with
                    | Some v => match views h v with Some b => nth_error (vcode b) (at_ c) | None => None end
                    | None => None
                    end
  else match objects h (c_obj c) with Some b => nth_error (code b) (at_ c) | None => None end.
Definition member (c : context) (i : nat) : context := mkc (c_obj c) (c_view c) (in_view c) (at_ c + i).

(** dereference (176-251) for these words.  [None]: out of bounds, or no end.  A reference is
    looked up among those of the object, also when it is in the code of a view (197-199). *)
Fixpoint dereference (fuel : nat) (h : heap) (c : context) : option context :=
  match fuel with
  | 0 => None
  | S fuel =>
      match fetch h c with
      | Some (Ip i) => dereference fuel h (mkc (c_obj c) (c_view c) (in_view c) i)
      | Some (Rp r) =>
          match objects h (c_obj c) with
          | Some b => match nth_error (references b) r with Some o => Some (mkc o None false 0) | None => None end
          | None => None
          end
      | Some _ => Some c
      | None => None
      end
  end.

(** The steps of a path: the view, or a member. *)
Inductive step := ToView | ToMember (i : nat).
(** The result: undefined (the view of an object that has none here), or a context. *)
Inductive reached := Undefined | At (c : context).
(** 200-222. *)
Definition walk_step (fuel : nat) (h : heap) (c : context) (s : step) : option reached :=
  match s with
  | ToView => match c_view c with Some _ => Some (At (mkc (c_obj c) (c_view c) true 0)) | None => Some Undefined end
  | ToMember i => match dereference fuel h (member c i) with Some c => Some (At c) | None => None end
  end.
Fixpoint walk (fuel : nat) (h : heap) (c : context) (p : list step) : option reached :=
  match p with
  | [] => Some (At c)
  | s :: p => match walk_step fuel h c s with
              | Some (At c) => walk fuel h c p
              | r => r
              end
  end.

(** * getMember, 418-480 *)
(** The steps before the last, 440-446: a view that is not there is not checked for. *)
Definition go_step (fuel : nat) (h : heap) (c : context) (s : step) : option context :=
  match s with
  | ToView => match c_view c with Some _ => Some (mkc (c_obj c) (c_view c) true 0) | None => None end
  | ToMember i => dereference fuel h (member c i)
  end.
Fixpoint go (fuel : nat) (h : heap) (c : context) (p : list step) : option context :=
  match p with
  | [] => Some c
  | s :: p => match go_step fuel h c s with Some c => go fuel h c p | None => None end
  end.
(** 448-480: a group is dealt with like a view.  [VIEW_OID] is 12.  [m]: what the last step
    holds.  [None]: undefined. *)
Definition get_member (fuel : nat) (h : heap) (c : context) (p : list step) (m : nat) : option place :=
  match go fuel h c p with
  | None => None
  | Some c =>
      match fetch h c with
      | Some (Head KObject _) => Some (ObjectAt (c_obj c) m)
      | Some (Head KGroup _) | Some (Head KSet _) =>
          match c_view c with
          | Some v =>
              match views h v with
              | Some b =>
                  if in_view c then (if at_ c =? 0 then Some (ViewOf (host b) (oid b) m) else None)
                  else match objects h (c_obj c) with
                       | Some o => match nth_error (code o) (at_ c + 12) with
                                   | Some (Leaf z) => Some (ViewOf (host b) (Z.to_nat z) m)
                                   | _ => None
                                   end
                       | None => None
                       end
              | None => None
              end
          | None => None
          end
      | Some _ => Some Nowhere
      | None => None
      end
  end.

(** * red, 501-653 *)
(** What a guard gives: it does not evaluate, or a Boolean (or something that is not false). *)
Inductive guard := Fails | Gives (b : bool).
(** A section: an anti-pattern or a pattern, the skeleton, the guards, the productions. *)
Record section := mksec { anti : bool; skeleton : nat -> bool; guards : nat -> list guard; prods : list nat }.
(** [match(input, pattern)], 501-521: the value of a guard is not looked at. *)
Definition guards_pass (s : section) (x : nat) : bool := forallb (fun g => match g with Fails => false | Gives _ => true end) (guards s x).
(** 523-566. *)
Definition accepts (s : section) (x : nat) : bool :=
  if anti s then (if skeleton s x then false else negb (guards_pass s x))
  else (if skeleton s x then guards_pass s x else false).

(** reduce, 568-604: [None] is an input that is undefined.  The inputs left, what is made. *)
Fixpoint reduce (s : section) (l : list (option nat)) : list (option nat) * list (nat * nat) :=
  match l with
  | [] => ([], [])
  | None :: l => reduce s l
  | Some x :: l =>
      if accepts s x then let (k, p) := reduce s l in (k, map (fun q => (x, q)) (prods s) ++ p)
      else (Some x :: l, [])
  end.
Definition reduce_section (s : section) (l : list (option nat)) : list (option nat) * list (nat * nat) :=
  match prods s with [] => (l, []) | _ => reduce s l end.
(** Red, 606-653: the elements of the set that is made; whether it succeeds. *)
Definition red (pos neg : section) (l : list (option nat)) : list (nat * nat) * bool :=
  let (k, p) := reduce_section pos l in
  let (_, q) := reduce_section neg k in
  match l, p ++ q with
  | [], _ => ([], false)
  | _, [] => ([], false)
  | _, r => (firstn (length r mod 256) r, true)
  end.
