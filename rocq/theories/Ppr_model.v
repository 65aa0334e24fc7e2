(** Model of the reader of the preprocessor: r_comp/preprocessor.cpp:132-535, 538-607,
    the printer, 869-910, and of the part of [std::istream] that they use. *)
From Verif Require Import Base.
From Coq Require Import String Ascii.
Local Open Scope Z_scope.

(** Characters are [char]s, from -128 to 127. *)
Definition text := list Z.
Definition char_of (a : ascii) : Z := let n := Z.of_nat (nat_of_ascii a) in if n <? 128 then n else n - 256.
Fixpoint txt (s : string) : text :=
  match s with EmptyString => [] | String a s => char_of a :: txt s end.
Fixpoint eqt (a b : text) : bool :=
  match a, b with
  | [], [] => true
  | x :: a, y :: b => (x =? y) && eqt a b
  | _, _ => false
  end.

(** * Streams
    What is left to read, and the flags [eofbit] and [failbit].  [get] and [peek] on a
    stream that is not good read nothing, set [failbit] and return -1; reading past the
    end sets [eofbit], and [failbit] for [get].  [seekg(-1, cur)] clears [eofbit], then
    goes back by one character unless [failbit] is set (C++11, 31.7.5.4). *)
Record stream := { rest : text; eof : bool; fail : bool }.
Definition get (s : stream) : Z * stream :=
  if eof s || fail s then (-1, {| rest := rest s; eof := eof s; fail := true |})
  else match rest s with
       | [] => (-1, {| rest := []; eof := true; fail := true |})
       | c :: r => (c, {| rest := r; eof := false; fail := false |})
       end.
(** The result is an [int]: [None] for -1. *)
Definition peek (s : stream) : option Z * stream :=
  if eof s || fail s then (None, {| rest := rest s; eof := eof s; fail := true |})
  else match rest s with
       | [] => (None, {| rest := []; eof := true; fail := false |})
       | c :: r => (Some c, s)
       end.
(** Go back over [c], the last character that was read. *)
Definition back (c : Z) (s : stream) : stream :=
  if fail s then {| rest := rest s; eof := false; fail := true |}
  else {| rest := c :: rest s; eof := false; fail := false |}.
Definition open (t : text) : stream := {| rest := t; eof := false; fail := false |}.

(** [peek() < 32], on [int]s. *)
Definition control (p : option Z) : bool := match p with None => true | Some c => (0 <=? c) && (c <? 32) end.
(** [peek() == c]. *)
Definition next_is (p : option Z) (c : Z) : bool := match p with None => false | Some d => d =? c end.
(** [(c = peek()) < 32] and [> 32], on [char]s. *)
Definition as_char (p : option Z) : Z := match p with None => -1 | Some c => c end.

(** * Structures: preprocessor.h:98-121
    Not modelled: errors' texts, lines, parents, paths of files. *)
Inductive kind := Root | Structure | Set_ | Atom | Directive | Condition | Development.
Inductive rs := Rs (ty : kind) (cmd label tail : text) (args : list rs).
Definition is (a b : kind) : bool :=
  match a, b with
  | Root, Root | Structure, Structure | Set_, Set_ | Atom, Atom | Directive, Directive
  | Condition, Condition | Development, Development => true
  | _, _ => false
  end.
Definition atom (s : text) : rs := Rs Atom s [] [] [].
(** Its members. *)
Definition kind_of (r : rs) : kind := let 'Rs k _ _ _ _ := r in k.
Definition cmd_of (r : rs) : text := let 'Rs _ c _ _ _ := r in c.
Definition label_of (r : rs) : text := let 'Rs _ _ l _ _ := r in l.
Definition tail_of (r : rs) : text := let 'Rs _ _ _ t _ := r in t.
Definition args_of (r : rs) : list rs := let 'Rs _ _ _ _ a := r in a.

(** preprocessor.cpp:132-151.  The result is the number of spaces over 3. *)
Fixpoint get_indent (fuel : nat) (s : stream) (count : nat) : option (nat * stream) :=
  match fuel with
  | O => None
  | S fuel =>
      if eof s then Some (Nat.div count 3, s)
      else
        let '(c, s) := get s in
        if c =? 32 then get_indent fuel s (S count)
        else Some (Nat.div count 3, back c s)
  end.

(** The loops [while (!eof && peek() < 32) get();], 224-226 and 595-597. *)
Fixpoint skip_control (fuel : nat) (s : stream) : option stream :=
  match fuel with
  | O => None
  | S fuel =>
      if eof s then Some s
      else
        let '(p, s) := peek s in
        if control p then skip_control fuel (snd (get s)) else Some s
  end.

(** The loops of the tail, [while (!eof && (c = get()) > 32) tail += c;], 363-364, 423-424;
    also the last character read. *)
Fixpoint read_tail (fuel : nat) (s : stream) (c : Z) (t : text) : option (text * Z * stream) :=
  match fuel with
  | O => None
  | S fuel =>
      if eof s then Some (t, c, s)
      else
        let '(c, s) := get s in
        if 32 <? c then read_tail fuel s c (t ++ [c]) else Some (t, c, s)
  end.

(** The name of a directive, 545-546. *)
Fixpoint read_name (fuel : nat) (s : stream) (t : text) : option (text * stream) :=
  match fuel with
  | O => None
  | S fuel =>
      if eof s then Some (t, s)
      else
        let '(p, s) := peek s in
        if 32 <? as_char p then let '(c, s) := get s in read_name fuel s (t ++ [c]) else Some (t, s)
  end.

(** The rest of the line, 592-593. *)
Fixpoint skip_line (fuel : nat) (s : stream) : option stream :=
  match fuel with
  | O => None
  | S fuel =>
      if eof s then Some s
      else
        let '(p, s) := peek s in
        match p with
        | Some c => if (c <? 0) || (13 <? c) then skip_line fuel (snd (get s)) else Some s
        | None => Some s
        end
  end.

(** A string, 173-187: until the closing quote, which is the last character read.
    [Newline]: a newline inside; [Endless]: more steps are needed. *)
Inductive quoted := Closed (str : text) (lastc lastcc : Z) (s : stream) | Newline | Endless.
Fixpoint read_quoted (fuel : nat) (s : stream) (str : text) (c lastc : Z) : quoted :=
  match fuel with
  | O => Endless
  | S fuel =>
      let str := str ++ [c] in
      let lastcc := lastc in
      let lastc := c in
      let '(c, s) := get s in
      if c =? 34 then Closed str lastc lastcc s
      else if (c =? 10) || (c =? 13) then Newline
      else read_quoted fuel s str c lastc
  end.

(** * The reader *)

(** The local variables of [parse] and the members of [this] that it sets. *)
Record vars := { v_c : Z; v_lastc : Z; v_lastcc : Z; v_str : text; v_label : text; v_count : nat; v_comment : bool;
  v_set : bool; v_cmd : text; v_tail : text; v_args : list rs }.
Definition with_c (v : vars) (c lastc lastcc : Z) : vars :=
  {| v_c := c; v_lastc := lastc; v_lastcc := lastcc; v_str := v_str v; v_label := v_label v; v_count := v_count v;
     v_comment := v_comment v; v_set := v_set v; v_cmd := v_cmd v; v_tail := v_tail v; v_args := v_args v |}.
Definition with_str (v : vars) (s : text) : vars :=
  {| v_c := v_c v; v_lastc := v_lastc v; v_lastcc := v_lastcc v; v_str := s; v_label := v_label v; v_count := v_count v;
     v_comment := v_comment v; v_set := v_set v; v_cmd := v_cmd v; v_tail := v_tail v; v_args := v_args v |}.
Definition with_label (v : vars) (s : text) : vars :=
  {| v_c := v_c v; v_lastc := v_lastc v; v_lastcc := v_lastcc v; v_str := v_str v; v_label := s; v_count := v_count v;
     v_comment := v_comment v; v_set := v_set v; v_cmd := v_cmd v; v_tail := v_tail v; v_args := v_args v |}.
Definition with_comment (v : vars) (b : bool) : vars :=
  {| v_c := v_c v; v_lastc := v_lastc v; v_lastcc := v_lastcc v; v_str := v_str v; v_label := v_label v; v_count := v_count v;
     v_comment := b; v_set := v_set v; v_cmd := v_cmd v; v_tail := v_tail v; v_args := v_args v |}.
Definition with_set (v : vars) (b : bool) : vars :=
  {| v_c := v_c v; v_lastc := v_lastc v; v_lastcc := v_lastcc v; v_str := v_str v; v_label := v_label v; v_count := v_count v;
     v_comment := v_comment v; v_set := b; v_cmd := v_cmd v; v_tail := v_tail v; v_args := v_args v |}.
Definition with_cmd (v : vars) (s : text) : vars :=
  {| v_c := v_c v; v_lastc := v_lastc v; v_lastcc := v_lastcc v; v_str := v_str v; v_label := v_label v; v_count := v_count v;
     v_comment := v_comment v; v_set := v_set v; v_cmd := s; v_tail := v_tail v; v_args := v_args v |}.
Definition with_tail (v : vars) (s : text) : vars :=
  {| v_c := v_c v; v_lastc := v_lastc v; v_lastcc := v_lastcc v; v_str := v_str v; v_label := v_label v; v_count := v_count v;
     v_comment := v_comment v; v_set := v_set v; v_cmd := v_cmd v; v_tail := s; v_args := v_args v |}.
Definition push (v : vars) (r : rs) : vars :=
  {| v_c := v_c v; v_lastc := v_lastc v; v_lastcc := v_lastcc v; v_str := v_str v; v_label := v_label v; v_count := v_count v;
     v_comment := v_comment v; v_set := v_set v; v_cmd := v_cmd v; v_tail := v_tail v; v_args := v_args v ++ [r] |}.
Definition counted (v : vars) : vars :=
  {| v_c := v_c v; v_lastc := v_lastc v; v_lastcc := v_lastcc v; v_str := v_str v; v_label := v_label v; v_count := S (v_count v);
     v_comment := v_comment v; v_set := v_set v; v_cmd := v_cmd v; v_tail := v_tail v; v_args := v_args v |}.

(** Indents: [cur_indent] and [prev_indent]. *)
Definition indents := (nat * nat)%type.

(** What [parse] ends with: the value returned, never negative here, and the rest;
    [Wrong]: -1; [Fuel]: more steps are needed. *)
Inductive outcome := Done (ret : nat) (v : vars) (s : stream) (i : indents) | Wrong | Fuel.

Definition start (cmd : text) : vars :=
  {| v_c := 0; v_lastc := 0; v_lastcc := 0; v_str := []; v_label := []; v_count := 0; v_comment := false; v_set := false;
     v_cmd := cmd; v_tail := []; v_args := [] |}.

(** [(param_expect > 0) && (++param_count == param_expect)]: the variables after, and
    whether to return 0. *)
Definition step_count (expect : nat) (v : vars) : vars * bool :=
  match expect with
  | O => (v, false)
  | _ => let v := counted v in (v, Nat.eqb (v_count v) expect)
  end.

(** The block that ends a word, e.g. 306-321: it becomes an argument if there is a
    command already, or for the kinds of structure where [always]; otherwise it is the
    command.  Second: return 0. *)
Definition end_word (always : bool) (expect : nat) (v : vars) : vars * bool :=
  match v_str v with
  | [] => (v, false)
  | s => if negb (match v_cmd v with [] => true | _ => false end) || always
         then step_count expect (with_str (push v (atom s)) [])
         else (with_str (with_cmd v s) [], false)
  end.

(** The kinds of directives and their numbers of parameters, 554-587. *)
Definition directive (name : text) : option (kind * nat) :=
  if eqt name (txt "!def") then Some (Directive, 2%nat)
  else if eqt name (txt "!counter") then Some (Directive, 2%nat)
  else if eqt name (txt "!undef") then Some (Directive, 1%nat)
  else if eqt name (txt "!ifdef") then Some (Condition, 1%nat)
  else if eqt name (txt "!ifundef") then Some (Condition, 1%nat)
  else if eqt name (txt "!else") then Some (Condition, 0%nat)
  else if eqt name (txt "!endif") then Some (Condition, 0%nat)
  else if eqt name (txt "!class") then Some (Directive, 1%nat)
  else if eqt name (txt "!op") then Some (Directive, 1%nat)
  else if eqt name (txt "!dfn") then Some (Directive, 1%nat)
  else if eqt name (txt "!load") then Some (Directive, 1%nat)
  else None.

Definition made (ty : kind) (label : text) (v : vars) : rs := Rs ty (v_cmd v) label (v_tail v) (v_args v).

(** After a sub-structure is read, e.g. 350-356: [again] goes on with the loop. *)
Definition after_sub (again : vars -> stream -> indents -> outcome) (expect : nat) (ty : kind) (label : text) (v : vars) (o : outcome) : outcome :=
  match o with
  | Wrong => Wrong
  | Fuel => Fuel
  | Done ret sub s i =>
      let '(v, stop) := step_count expect (push v (made ty label sub)) in
      if stop then Done 0 v s i
      else match ret with
           | O => again v s i
           | S ret => Done ret v s i
           end
  end.

(** preprocessor.cpp:165-533: the loop of [parse] on a structure of kind [ty].  [expect]
    is [param_expect]; the characters are those of the source, in decimal. *)
Fixpoint loop (fuel : nat) (ty : kind) (expect : nat) (v : vars) (s : stream) (i : indents) {struct fuel} : outcome :=
  match fuel with
  | O => Fuel
  | S fuel =>
    if eof s then Done 0 v s i
    else
      let again := loop fuel ty expect in
      let sub (ty' : kind) (label : text) (v : vars) (s : stream) (i : indents) :=
        after_sub again expect ty' label v (loop fuel ty' 0 (start []) s i) in
      let '(c, s) := get s in
      let v := with_c v c (v_c v) (v_lastc v) in
      let q := if negb (v_comment v) && (c =? 34)
               then read_quoted fuel s (v_str v) c (v_lastc v)
               else Closed (v_str v) (v_lastc v) (v_lastcc v) s in
      match q with
      | Newline => Wrong
      | Endless => Fuel
      | Closed str lastc lastcc s =>
        let v := with_str (with_c v c lastc lastcc) str in
        let in_comment := v_comment v in
        let set := is ty Set_ in
        if c =? 9 (* tab *) then if in_comment then again v s i else Wrong
        else if c =? 33 (* ! *) then
          if in_comment then again v s i
          else if negb (is ty Root) then Wrong
          else (* 538-607 *)
            match read_name fuel s (txt "!") with
            | None => Fuel
            | Some (name, s) =>
                if eof s then Wrong
                else match directive name with
                     | None => Wrong
                     | Some (k, O) =>
                         match skip_line fuel s with
                         | None => Fuel
                         | Some s =>
                             match skip_control fuel s with
                             | None => Fuel
                             | Some s => again (push v (Rs k name [] [] [])) s i
                             end
                         end
                     | Some (k, n) =>
                         match loop fuel k n (start name) s i with
                         | Wrong => Wrong
                         | Fuel => Fuel
                         | Done (S _) _ _ _ => Wrong
                         | Done O sub s i => again (push v (made k [] sub)) s i
                         end
                     end
            end
        else if (c =? 10) || (c =? 13) then
          if in_comment && (v_lastc v =? 46) && (v_lastcc v =? 46) then again v s i
          else
            let v := with_comment v false in
            match skip_control fuel s with
            | None => Fuel
            | Some s =>
                match get_indent fuel s 0 with
                | None => Fuel
                | Some (cur, s) =>
                    let prev := fst i in
                    let i := (cur, prev) in
                    if Nat.ltb prev cur then
                      if v_set v then
                        let l := v_label v in
                        sub Set_ l (with_set (with_label v []) false) s i
                      else sub Structure [] v s i
                    else if Nat.ltb cur prev then
                      let '(v, stop) := end_word set expect v in
                      if stop then Done 0 v s i else Done (prev - cur - 1) v s i
                    else
                      let '(v, stop) := end_word (set || is ty Root) expect v in
                      if stop then Done 0 v s i else again v s i
                end
            end
        else if c =? 59 (* ; *) then again (with_comment v true) s i
        else if in_comment then again v s i
        else if c =? 32 then
          let '(v, stop) := end_word (set || is ty Development) expect v in
          if stop then Done 0 v s i else again v s i
        else if (c =? 40) (* ( *) || (c =? 123) (* { *) then
          let '(v, stop) := match v_str v with
                            | [] => (v, false)
                            | str => if v_lastc v =? 58 (* : *) then (with_str (with_label v str) [], false)
                                     else end_word set expect v
                            end in
          if stop then Done 0 v s i
          else sub (if c =? 40 then Structure else Development) (v_label v) (with_label v []) s i
        else if (c =? 41) (* ) *) || (c =? 125) (* } *) then
          let '(p, s) := peek s in
          match (if next_is p 58 then read_tail fuel s c (v_tail v) else Some (v_tail v, c, s)) with
          | None => Fuel
          | Some (t, c', s) =>
              let '(v, _) := end_word (set || ((c =? 125) && is ty Development)) expect (with_tail (with_c v c' (v_lastc v) (v_lastcc v)) t) in
              Done 0 v s i
          end
        else if c =? 124 (* | *) then
          let '(p, s) := peek s in
          if next_is p 91 then again (with_str v (v_str v ++ txt "|[]")) (snd (get (snd (get s)))) i
          else again (with_str v (v_str v ++ [c])) s i
        else if c =? 91 (* [ *) then
          let v := if v_lastc v =? 58 then with_str (with_label v (v_str v)) [] else v in
          let '(p, s) := peek s in
          if next_is p 93 then
            let s := snd (get s) in
            let '(tc, s) := peek s in
            if (as_char tc <? 32) || (as_char tc =? 59) then again (with_set v true) s i
            else if negb (v_lastc v =? 58) && (32 <? v_lastc v) then again (with_str v (v_str v ++ txt "[]")) s i
            else again (push v (Rs Set_ [] (v_label v) [] [])) s i
          else
            let '(v, stop) := end_word set expect v in
            if stop then Done 0 v s i
            else sub Set_ (v_label v) (with_label v []) s i
        else if c =? 93 (* ] *) then
          let '(v, _) := end_word set expect v in Done 0 v s i
        else again (with_str v (v_str v ++ [c])) s i
      end
  end.

(** What a file is read as: its structures; preprocessor.cpp:801-806, 1101-1111. *)
Inductive reading := Structures (l : list rs) | Refused | Unfinished.
Definition read (fuel : nat) (t : text) : reading :=
  match loop fuel Root 0 (start []) (open t) (0%nat, 0%nat) with
  | Done _ v s _ => if eof s then Structures (v_args v) else Refused
  | Wrong => Refused
  | Fuel => Unfinished
  end.

(** * The printer: preprocessor.cpp:869-910 *)
Fixpoint between (sep : text) (l : list text) : text :=
  match l with
  | [] => []
  | [a] => a
  | a :: l => a ++ sep ++ between sep l
  end.
Fixpoint print (r : rs) : text :=
  let 'Rs ty cmd label tail args := r in
  match ty with
  | Atom => cmd
  | Directive | Condition => []
  | Structure => label ++ txt "(" ++ cmd ++ List.concat (map (fun a => txt " " ++ print a) args) ++ txt ")" ++ tail
  | Development => label ++ txt "{" ++ cmd ++ List.concat (map (fun a => txt " " ++ print a) args) ++ txt "}" ++ tail
  | Set_ => label ++ txt "[" ++ between (txt " ") (map print args) ++ txt "]" ++ tail
  | Root => List.concat (map (fun a => print a ++ [10]) args)
  end.
Definition print_root (l : list rs) : text := List.concat (map (fun a => print a ++ [10]) l).
