(** Vocabulary for the statements about the reader and the printer of the preprocessor. *)
From Coq Require Import String.
From Verif Require Import Base Ppr_model.
Local Open Scope Z_scope.

(** Characters without a meaning of their own: no blank, no exclamation mark, semicolon, bar, quote,
    parenthesis, brace or bracket. *)
Definition plain (c : Z) : Prop :=
  (c < 0 \/ 32 < c) /\ ~ In c [33; 59; 124; 34; 40; 41; 123; 125; 91; 93].

(** Words: plain characters and quoted strings. *)
Inductive word : text -> Prop :=
| word_nil : word []
| word_char : forall c w, plain c -> word w -> word (c :: w)
| word_string : forall q w, ~ In 34 q -> ~ In 10 q -> ~ In 13 q -> word w -> word (34 :: q ++ 34 :: w).

(** Labels end with a colon. *)
Definition label_ok (l : text) : Prop := l = [] \/ exists w, l = w ++ [58] /\ word w.

Definition bare_empty_set (r : rs) : Prop := r = Rs Set_ [] [] [] [].

(** Structures that can be read back inside another one: words where words are
    expected; a command, unless no argument is a word; no tail; no label on an empty
    set. *)
Fixpoint fine (r : rs) : Prop :=
  let 'Rs k cmd label tail args := r in
  let all := fold_right (fun a P => fine a /\ P) True args in
  match k with
  | Atom => word cmd /\ cmd <> [] /\ label = [] /\ tail = [] /\ args = []
  | Structure => label_ok label /\ tail = [] /\ word cmd /\ all /\ (cmd = [] -> forall a, In a args -> kind_of a <> Atom)
  | Development => label_ok label /\ tail = [] /\ cmd = [] /\ all
  | Set_ => label_ok label /\ tail = [] /\ cmd = [] /\ all /\ (args = [] -> label = [])
  | _ => False
  end.

(** Tails begin with a colon. *)
Definition tail_ok (t : text) : Prop := t = [] \/ exists u, t = 58 :: u /\ Forall (fun c => 32 < c) u.

(** At the top, a structure may have a tail, and there is no bare empty set. *)
Definition top_fine (r : rs) : Prop :=
  ~ bare_empty_set r /\
  exists k cmd label tail args, r = Rs k cmd label tail args /\ fine (Rs k cmd label [] args) /\
    tail_ok tail /\ (tail <> [] -> k = Structure \/ k = Development).

(** The text [t] is read as the structures [l]. *)
Definition reads (t : text) (l : list rs) : Prop := exists n, forall fuel, (n <= fuel)%nat -> read fuel t = Structures l.
(** The reader never stops on the text [t]. *)
Definition never_read (t : text) : Prop := forall fuel, read fuel t = Unfinished.

(** What may follow a semicolon: no newline, and not two dots at the end, which make the
    next line a comment as well. *)
Definition comment (b : text) : Prop := ~ In 10 b /\ ~ In 13 b /\ forall b', b <> b' ++ [46; 46].
(** Lines of a source: code, a comment, or code and a comment. *)
Inductive line := Code (r : rs) | Remark (b : text) | Noted (r : rs) (b : text).
Definition line_ok (l : line) : Prop :=
  match l with
  | Code r => top_fine r
  | Remark b => comment b
  | Noted r b => top_fine r /\ tail_of r = [] /\ kind_of r <> Atom /\ comment b
  end.
Definition line_text (l : line) : text :=
  match l with
  | Code r => print r ++ [10]
  | Remark b => 59 :: b ++ [10]
  | Noted r b => print r ++ [32; 59] ++ b ++ [10]
  end.
Definition line_code (l : line) : list rs :=
  match l with Code r => [r] | Remark _ => [] | Noted r _ => [r] end.
