(** Vocabulary for the statements about macros, counters, conditions and loads. *)
From Coq Require Import String.
From Verif Require Import Base Ppr_model Ppr_spec Mac_model.
Local Open Scope Z_scope.

(** * Substitution *)

(** Kinds whose arguments belong to the code. *)
Definition inner (k : kind) : bool := match k with Structure | Set_ | Development => true | _ => false end.

(** Words replaced all at once, at any depth. *)
Fixpoint subst (sigma : list (text * rs)) (r : rs) : rs :=
  let 'Rs k c lb t args := r in
  match k with
  | Atom => match find sigma c with Some r' => r' | None => r end
  | _ => if inner k then Rs k c lb t (map (subst sigma) args) else r
  end.

(** How often the word [p] occurs. *)
Fixpoint uses (p : text) (r : rs) : nat :=
  let 'Rs k c _ _ args := r in
  match k with
  | Atom => if eqt c p then 1%nat else 0%nat
  | _ => if inner k then list_sum (map (uses p) args) else 0%nat
  end.
Definition uses_in (p : text) (l : list rs) : nat := list_sum (map (uses p) l).

(** What a macro means: its body, with the arguments for the parameters, and the label of the use. *)
Definition meaning (params : list text) (body use : rs) : rs :=
  let 'Rs k c _ t l := body in
  Rs k c (label_of use) t (map (subst (combine params (args_of use))) l).

(** Each parameter occurs once at most, and no argument mentions a parameter that comes later. *)
Fixpoint linear (params : list text) (args : list rs) (body : list rs) : Prop :=
  match params, args with
  | p :: params, a :: args =>
      (uses_in p body <= 1)%nat /\ ~ In p params /\ (forall q, In q params -> uses q a = 0%nat) /\ linear params args body
  | [], [] => True
  | _, _ => False
  end.

(** * Code without directives *)

(** Only structures, sets, developments and words, with none of the names [known]. *)
Fixpoint without (known : text -> bool) (r : rs) : Prop :=
  let 'Rs k c _ _ args := r in
  (inner k = true \/ k = Atom) /\ known c = false /\ fold_right (fun a P => without known a /\ P) True args.

Definition known (s : state) (c : text) : bool := found (find (macros s) c) || found (find (counters s) c).
Definition code (r : rs) : Prop := without (fun _ => false) r.

(** Directives that only matter later: classes, operators, functions. *)
Definition declaration (r : rs) : Prop :=
  kind_of r = Directive /\ (cmd_of r = txt "!class" \/ cmd_of r = txt "!op" \/ cmd_of r = txt "!dfn").
(** Lines that a pass has nothing to do with. *)
Definition passive (s : state) (r : rs) : Prop :=
  without (known s) r \/ (declaration r /\ known s (cmd_of r) = false).
Definition all_active (s : state) : Prop := forallb (active s) (conds s) = true.

(** Code, or a directive other than !undef, with arguments made of code, the first of
    which has a name; and a body, for !def. *)
Definition item (r : rs) : Prop :=
  code r \/
  (kind_of r = Directive /\ cmd_of r <> txt "!undef" /\ Forall code (args_of r) /\
   exists a l, args_of r = a :: l /\ cmd_of a <> [] /\ (cmd_of r = txt "!def" -> l <> [])).
(** No pending condition; the bodies of macros are code; nothing has an empty name. *)
Definition tame (s : state) : Prop :=
  conds s = [] /\ (forall k m, find (macros s) k = Some m -> code (snd m)) /\ known s [] = false.

(** A directive that only defines: not a !load. *)
Definition defines (r : rs) : Prop := item r /\ kind_of r = Directive /\ cmd_of r <> txt "!load".

Definition nothing : state := {| macros := []; counters := []; conds := []; loaded := [] |}.

(** With enough steps, the structures [l] are processed with the outcome [o]. *)
Definition processed (files : text -> option (list rs)) (s : state) (l : list rs) (o : result (list rs)) : Prop :=
  exists n, forall fuel, (n <= fuel)%nat -> passes files fuel s l = o.
(** One pass on the root. *)
Definition one_pass (files : text -> option (list rs)) (s : state) (l : list rs) (n : nat) (l' : list rs) (s' : state) : Prop :=
  exists m, forall fuel, (m <= fuel)%nat -> process files fuel s (Rs Root [] [] [] l) = Ok n (Rs Root [] [] [] l') s'.

(** The text [t] is preprocessed into [t']. *)
Definition outputs (files : text -> option (list rs)) (s : state) (t t' : text) : Prop :=
  exists l l' s', reads t l /\ processed files s l (Ok 0 l' s') /\ t' = print_root l'.

(** The text [t] leads to undefined behaviour. *)
Definition crashes (files : text -> option (list rs)) (s : state) (t : text) : Prop :=
  exists l, reads t l /\ processed files s l Undefined.
(** The preprocessing of the text [t] never ends. *)
Definition never_ends (files : text -> option (list rs)) (s : state) (t : text) : Prop :=
  exists l, reads t l /\ forall fuel, passes files fuel s l = Out.

(** A text made of lines. *)
Definition lines (l : list string) : text := List.concat (map (fun s => txt s ++ [10]) l).
Definition no_files : text -> option (list rs) := fun _ => None.

(** A set of files of one file. *)
Definition one_file (name t : text) : text -> option (list rs) :=
  fun n => if eqt n name then match read 80 t with Structures l => Some l | _ => None end else None.
(** The lines [!load name], [!def src body] and [!counter name start], and the state after the second. *)
Definition load (name : text) : rs := Rs Directive (txt "!load") [] [] [atom name].
Definition define (src body : rs) : rs := Rs Directive (txt "!def") [] [] [src; body].
Definition counter (name start : text) : rs := Rs Directive (txt "!counter") [] [] [atom name; atom start].
Definition with_macro (src body : rs) : state := set_macros nothing [(cmd_of src, (src, body))].
(** A file that is protected against being loaded twice. *)
Definition guarded_file : text := lines ["!ifundef E"; "!def E 1"; "!endif"]%string.

(** * Names in the code, from left to right. *)
Fixpoint names (r : rs) : list text :=
  let 'Rs _ c _ _ args := r in c :: List.concat (map names args).

(** The names [before] and [after]: a use of a counter got a number, counted from the value
    of the counter before, [c], up to that after, [c']; no two uses of one counter got the
    same; the rest stayed; and a counter went up once for each use. *)
Definition numbered (c c' : table Z) (before after : list text) : Prop :=
  List.length before = List.length after /\
  (forall x y, In (x, y) (combine before after) ->
     match find c x with
     | Some start => exists n stop, find c' x = Some stop /\ start <= n < stop /\ y = to_text n
     | None => y = x
     end) /\
  NoDup (filter (fun p => found (find c (fst p))) (combine before after)) /\
  (forall x, find c' x = option_map (fun n => n + Z.of_nat (count_occ (list_eq_dec Z.eq_dec) before x)) (find c x)).

(** * Conditions *)

(** The name [d] is that of a macro or of a counter. *)
Definition defined (s : state) (d : text) : Prop :=
  (exists m, find (macros s) d = Some m) \/ (exists n, find (counters s) d = Some n).
(** The condition on the name [fst c]: it is defined, or, when [snd c], it is not. *)
Definition holds_now (s : state) (c : text * bool) : Prop :=
  if snd c then ~ defined s (fst c) else defined s (fst c).
(** The conditions that are pending after the line [x], if [before] were pending. *)
Inductive pends (before : list (text * bool)) (x : rs) : list (text * bool) -> Prop :=
| pends_ifdef a l : cmd_of x = txt "!ifdef" -> args_of x = a :: l -> pends before x ((cmd_of a, false) :: before)
| pends_ifundef a l : cmd_of x = txt "!ifundef" -> args_of x = a :: l -> pends before x ((cmd_of a, true) :: before)
| pends_else d b l : cmd_of x = txt "!else" -> before = (d, b) :: l -> pends before x ((d, negb b) :: l)
| pends_endif c l : cmd_of x = txt "!endif" -> before = c :: l -> pends before x l.
