(** Model of the macros, counters, conditions and loads of the preprocessor:
    r_comp/preprocessor.cpp:610-820, 912-1074, 1115-1129. *)
From Coq Require Import String DecimalString.
From Verif Require Import Base Ppr_model.
Local Open Scope Z_scope.

(** Assignments to the members of a structure. *)
Definition with_cmd_of (r : rs) (c : text) : rs := let 'Rs k _ l t a := r in Rs k c l t a.
Definition with_label_of (r : rs) (l : text) : rs := let 'Rs k c _ t a := r in Rs k c l t a.
Definition with_args_of (r : rs) (a : list rs) : rs := let 'Rs k c l t _ := r in Rs k c l t a.

(** Tables by names, in place of [unordered_map]s. *)
Definition table (A : Type) := list (text * A).
Fixpoint find {A} (m : table A) (k : text) : option A :=
  match m with
  | [] => None
  | (k', v) :: m => if eqt k' k then Some v else find m k
  end.
Fixpoint drop {A} (m : table A) (k : text) : table A :=
  match m with
  | [] => []
  | (k', v) :: m => if eqt k' k then drop m k else (k', v) :: drop m k
  end.
Definition put {A} (m : table A) (k : text) (v : A) : table A := (k, v) :: drop m k.

(** preprocessor.h:156-161, 949-954: [src_] and [dest_].  Simplified: the source points to
    the arguments of the !def itself, so that processing the body of a macro again in a
    later pass changes the macro before it is registered again; here the macro keeps the
    body it was last registered with. *)
Definition macro := (rs * rs)%type.

(** The static members, preprocessor.h:100-104; conditions as (name, reversed), the last
    one first.  Not modelled: [int32] overflow of the counters. *)
Record state := { macros : table macro; counters : table Z; conds : list (text * bool); loaded : list text }.
Definition set_macros (s : state) (m : table macro) : state :=
  {| macros := m; counters := counters s; conds := conds s; loaded := loaded s |}.
Definition set_counters (s : state) (c : table Z) : state :=
  {| macros := macros s; counters := c; conds := conds s; loaded := loaded s |}.
Definition set_conds (s : state) (c : list (text * bool)) : state :=
  {| macros := macros s; counters := counters s; conds := c; loaded := loaded s |}.
Definition set_loaded (s : state) (l : list text) : state :=
  {| macros := macros s; counters := counters s; conds := conds s; loaded := l |}.

(** [std::to_string]. *)
Definition to_text (n : Z) : text := txt (NilEmpty.string_of_int (Z.to_int n)).

(** [atoi]: an optional sign, then the leading digits. *)
Fixpoint digits (t : text) (n : Z) : Z :=
  match t with
  | c :: t => if (48 <=? c) && (c <=? 57) then digits t (10 * n + (c - 48)) else n
  | [] => n
  end.
Definition atoi (t : text) : Z :=
  match t with
  | c :: t' => if c =? 45 then - digits t' 0 else if c =? 43 then digits t' 0 else digits t 0
  | [] => 0
  end.

(** preprocessor.cpp:1024-1045, [findAtom], and the assignment to what is found, 1014-1018:
    the structure in which the first atom called [name] is overwritten by [new]. *)
Fixpoint overwrite (name : text) (new : rs) (r : rs) {struct r} : option rs :=
  let 'Rs k c lb t args := r in
  option_map (Rs k c lb t)
    ((fix go (l : list rs) : option (list rs) :=
        match l with
        | [] => None
        | a :: l =>
            match (match kind_of a with
                   | Atom => if eqt (cmd_of a) name then Some new else None
                   | Structure | Set_ | Development => overwrite name new a
                   | _ => None
                   end) with
            | Some a' => Some (a' :: l)
            | None => option_map (cons a) (go l)
            end
        end) args).
(** The loop, 1010-1019. *)
Fixpoint fill (params args : list rs) (r : rs) : rs :=
  match params, args with
  | p :: params, a :: args => fill params args (match overwrite (cmd_of p) a r with Some r' => r' | None => r end)
  | _, _ => r
  end.

(** preprocessor.cpp:970-1022, without the checks of null pointers and of the name. *)
Definition expand (m : macro) (old : rs) : option rs :=
  let '(src, dest) := m in
  match args_of src with
  | [] => match args_of old with
          | [] => Some (with_label_of dest (label_of old))
          | _ => Some (with_cmd_of old (cmd_of dest))
          end
  | params => if Nat.eqb (List.length params) (List.length (args_of old))
              then Some (fill params (args_of old) (with_label_of dest (label_of old)))
              else None
  end.

(** preprocessor.cpp:1063-1074. *)
Definition found {A} (o : option A) : bool := match o with Some _ => true | None => false end.
Definition active (s : state) (c : text * bool) : bool :=
  let f := found (find (macros s) (fst c)) || found (find (counters s) (fst c)) in
  if snd c then negb f else f.

(** What [process] ends with: the number of changes, the structure and the static members
    after; [Error]: -1; [Undefined]: undefined behaviour; [Out]: more steps are needed. *)
Inductive result (A : Type) := Ok (changes : nat) (r : A) (s : state) | Error | Undefined | Out.
Arguments Ok {A}. Arguments Error {A}. Arguments Undefined {A}. Arguments Out {A}.

(** 619-623, 769-773. *)
Definition count_up (s : state) (r : rs) : nat * rs * state :=
  match find (counters s) (cmd_of r) with
  | Some n => (1%nat, with_cmd_of r (to_text n), set_counters s (put (counters s) (cmd_of r) (n + 1)))
  | None => (0%nat, r, s)
  end.
(** 625-639, 743-757. *)
Definition expand_in (s : state) (r : rs) : option (nat * rs) :=
  match find (macros s) (cmd_of r) with
  | Some m => match expand m r with Some r' => Some (1%nat, r') | None => None end
  | None => Some (0%nat, r)
  end.

(** 649-663. *)
Definition condition (s : state) (r : rs) : option state :=
  if eqt (cmd_of r) (txt "!ifdef") then
    match args_of r with a :: _ => Some (set_conds s ((cmd_of a, false) :: conds s)) | [] => None end
  else if eqt (cmd_of r) (txt "!ifundef") then
    match args_of r with a :: _ => Some (set_conds s ((cmd_of a, true) :: conds s)) | [] => None end
  else if eqt (cmd_of r) (txt "!else") then
    match conds s with (n, b) :: l => Some (set_conds s ((n, negb b) :: l)) | [] => None end
  else if eqt (cmd_of r) (txt "!endif") then
    match conds s with _ :: l => Some (set_conds s l) | [] => None end
  else Some s.

(** The last of [args_]. *)
Definition back_of (d : rs) (l : list rs) : rs := last l d.

Section Process.
(** The files that can be read, with their structures, 783-809.  Simplified: paths are the
    names given in the !load, and two paths are equivalent when they are equal. *)
Variable files : text -> option (list rs).

(** preprocessor.cpp:610-781, [process] on a structure; the loop on its arguments,
    644-778, whose boolean says that it returned 0 early; the loop on the arguments of an
    argument, 760-765; and the loop on the body of a macro, 685-688. *)
Fixpoint process (fuel : nat) (s : state) (r : rs) {struct fuel} : result rs :=
  match fuel with
  | O => Out
  | S fuel =>
      let '(n1, r, s) := count_up s r in
      match expand_in s r with
      | None => Error
      | Some (n2, r) =>
          match args_of r with
          | [] => Ok (n1 + n2) r s
          | args => match each fuel s args with
                    | Ok n (args, early) s => Ok (if early : bool then 0 else n1 + n2 + n) (with_args_of r args) s
                    | Error => Error | Undefined => Undefined | Out => Out
                    end
          end
      end
  end
with each (fuel : nat) (s : state) (l : list rs) {struct fuel} : result (list rs * bool) :=
  match fuel with
  | O => Out
  | S fuel =>
      match l with
      | [] => Ok 0 ([], false) s
      | x :: l =>
          (* 768-778: [n] changes were made, [x] is what the argument has become. *)
          let next (n : nat) (x : rs) (s : state) :=
            let '(n', x, s) := count_up s x in
            match each fuel s l with
            | Ok m (l, early) s => Ok (n + n' + m) (x :: l, early) s
            | o => o
            end in
          if is (kind_of x) Condition then
            match condition s x with
            | None => Undefined
            | Some s => Ok 0 (x :: l, true) s
            end
          else if negb (forallb (active s) (conds s)) then Ok 0 (x :: l, true) s
          else if is (kind_of x) Directive then
            let args := args_of x in
            if eqt (cmd_of x) (txt "!counter") then
              match args with
              | [] => Undefined
              | a :: _ => next 0%nat x (set_counters s (put (counters s) (cmd_of a)
                            (match args with [_] => 0 | _ => atoi (cmd_of (back_of a args)) end)))
              end
            else if eqt (cmd_of x) (txt "!def") then
              match args with
              | [] => Undefined
              | a :: _ =>
                  match repeat_ fuel s (back_of a args) with
                  | Ok n body s =>
                      let args := removelast args ++ [body] in
                      let src := hd body args in
                      next n (with_args_of x args) (set_macros s (put (macros s) (cmd_of src) (src, body)))
                  | Error => Error | Undefined => Undefined | Out => Out
                  end
              end
            else if eqt (cmd_of x) (txt "!undef") then
              match args with
              | [] => Undefined
              | a :: _ =>
                  match find (macros s) (cmd_of a), find (counters s) (cmd_of a) with
                  | Some _, Some _ => next 0%nat x (set_counters (set_macros s (drop (macros s) (cmd_of a))) (drop (counters s) (cmd_of a)))
                  | _, _ => Undefined (* 695-696: [erase] of [end()] *)
                  end
              end
            else if eqt (cmd_of x) (txt "!load") then
              match args with
              | [] => Undefined
              | a :: _ =>
                  let name := cmd_of a in
                  let known := existsb (eqt name) (loaded s) in
                  match (if known then Some [] else files name) with
                  | None => Error
                  | Some new =>
                      let s := if known then s else set_loaded s (loaded s ++ [name]) in
                      match new ++ l with (* 717-740: the line after is not processed in this pass *)
                      | [] => Ok 1 ([], false) s
                      | y :: l' => match each fuel s l' with
                                   | Ok m (l', early) s => Ok (1 + m) (y :: l', early) s
                                   | o => o
                                   end
                      end
                  end
              end
            else next 0%nat x s
          else
            match expand_in s x with
            | None => Error
            | Some (n, x) =>
                match subs fuel s (args_of x) with
                | Ok m args s => next (n + m)%nat (with_args_of x args) s
                | Error => Error | Undefined => Undefined | Out => Out
                end
            end
      end
  end
with subs (fuel : nat) (s : state) (l : list rs) {struct fuel} : result (list rs) :=
  match fuel with
  | O => Out
  | S fuel =>
      match l with
      | [] => Ok 0 [] s
      | x :: l =>
          match process fuel s x with
          | Ok n x s => match subs fuel s l with
                        | Ok m l s => Ok (n + m) (x :: l) s
                        | o => o
                        end
          | Error => Error | Undefined => Undefined | Out => Out
          end
      end
  end
with repeat_ (fuel : nat) (s : state) (r : rs) {struct fuel} : result rs :=
  match fuel with
  | O => Out
  | S fuel =>
      match process fuel s r with
      | Ok O r s => Ok 0 r s
      | Ok n r s => match repeat_ fuel s r with
                    | Ok m r s => Ok (n + m) r s
                    | o => o
                    end
      | o => o
      end
  end.

(** preprocessor.cpp:1115-1127: the passes on the root. *)
Fixpoint passes (fuel : nat) (s : state) (l : list rs) : result (list rs) :=
  match fuel with
  | O => Out
  | S fuel' =>
      match process fuel s (Rs Root [] [] [] l) with
      | Ok O r s => Ok 0 (args_of r) s
      | Ok _ r s => passes fuel' s (args_of r)
      | Error => Error | Undefined => Undefined | Out => Out
      end
  end.
End Process.
