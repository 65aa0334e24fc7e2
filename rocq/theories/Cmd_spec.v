(** Vocabulary for the statements about the commands of programs. *)
From Verif Require Import Base Cmd_model.
Local Open Scope nat_scope.

(** * What commands mean *)
(** The object of an argument: the one given, or a new one for that production. *)
Definition described (i : nat) (a : arg) : obj := match a with Existing o => Old o | Described _ => New i end.
(** What the command of production [i] is for; [t]: the times of the fact of a command that
    a device executes. *)
Definition meant (executes : nat -> bool) (t : Z * Z) (i : nat) (c : command) : list effect :=
  match c with
  | Inj a true => [Injected (described i a)]
  | Inj _ false => []
  | Ejt a node => [Ejected (described i a) node]
  | Modify (ViewOf g oid m) v => [Pending true g oid m v]
  | Modify (ObjectAt o m) v => [OnObject true o m v]
  | Modify (GroupAt g m) v => [OnGroup true g m v]
  | Modify Nowhere _ => []
  | Assign (ViewOf g oid m) v => [Pending false g oid m v]
  | Assign (ObjectAt o m) v => [OnObject false o m v]
  | Assign (GroupAt g m) v => [OnGroup false g m v]
  | Assign Nowhere _ => []
  | Probe _ => [Probed]
  | Stop => [Stopped]
  | Device d => Sent d :: (if executes d then [InjectedFact d (fst t) (snd t)] else [])
  | Todo | Unknown | Odd => []
  end.
(** All of them, in order. *)
Fixpoint all_meant (executes : nat -> bool) (t : Z * Z) (i : nat) (l : list production) : list effect :=
  match l with [] => [] | p :: l => meant executes t i (what p) ++ all_meant executes t (S i) l end.
(** Those that are not notifications. *)
Definition not_note (e : effect) : bool := match e with Notified _ => false | _ => true end.
Definition carried_out (l : list effect) : list effect := filter not_note l.
(** Who is notified. *)
Definition notified (l : list effect) : list nat := flat_map (fun e => match e with Notified g => [g] | _ => [] end) l.

Definition known (p : production) : Prop := what p <> Unknown.
Definition no_long_probe (p : production) : Prop := what p <> Probe 255.
(** Nothing new is described. *)
Definition given (p : production) : Prop :=
  match what p with Inj (Described _) _ | Ejt (Described _) _ => False | _ => True end.

(** * Reading a notification *)
(** A command (of that production), the fact (or anti-fact) that a device executed it. *)
Inductive item := Command (i : nat) | FactOf (i : nat) (positive : bool).
(** What a notification says at a word: a pointer to the words of a command, from the first to
    the last, or a reference to a fact. *)
Definition says (sizes : nat -> nat) (n : note) (k : nat) (x : item) : Prop :=
  match x with
  | Command i => exists e, words n k = Some (WI e) /\ forall j, j < sizes i -> words n (e + j) = Some (Part i j)
  | FactOf i b => exists r, words n k = Some (WR r) /\ nth_error (refs n) r = Some (RFact i b)
  end.
(** The elements of the set that word 3 leads to are exactly these. *)
Definition tells (sizes : nat -> nat) (n : note) (l : list item) : Prop :=
  exists a, words n 3 = Some (WI a) /\ words n a = Some (WSet (length l)) /\
    forall k x, nth_error l k = Some x -> says sizes n (a + S k) x.
(** The same for the inputs, from word 2. *)
Definition tells_inputs (n : note) (l : list nat) : Prop :=
  exists a, words n 2 = Some (WI a) /\ words n a = Some (WSet (length l)) /\
    forall k o, nth_error l k = Some o -> exists r, words n (a + S k) = Some (WR r) /\ nth_error (refs n) r = Some (RObj (Old o)).
(** The program, from word 1. *)
Definition tells_program (n : note) (o : nat) : Prop := exists r, words n 1 = Some (WR r) /\ nth_error (refs n) r = Some (RObj (Old o)).

(** What is to be told of a production. *)
Definition news (executes : nat -> bool) (i : nat) (c : command) : list item :=
  match c with
  | Inj _ true | Ejt _ _ => [Command i]
  | Device d => [Command i; FactOf i (executes d)]
  | _ => []
  end.
Fixpoint all_news (executes : nat -> bool) (i : nat) (l : list production) : list item :=
  match l with [] => [] | p :: l => news executes i (what p) ++ all_news executes (S i) l end.
(** The number of words of each command, and of the references: what a notification takes. *)
Definition sizes_of (l : list production) (i : nat) : nat := match nth_error l i with Some p => size p | None => 0 end.
Definition word_total (inputs : list nat) (l : list production) : nat :=
  7 + length inputs + fold_right (fun p n => counted (what p) + size p + n) 0 l.
Definition ref_total (inputs : list nat) (l : list production) : nat :=
  1 + length inputs + fold_right (fun p n => 1 + length (uses p) + n) 0 l.
(** Commands that are carried out and told of, or that are neither. *)
Definition plain (p : production) : Prop :=
  match what p with Todo | Stop | Unknown | Odd => False | _ => True end.

(** * Paths *)
(** Where a word leads: pointers within the same code, references of the object for words of
    the object, references of the view for words of the view. *)
Inductive leads (h : heap) : context -> context -> Prop :=
| leads_in c i d : fetch h c = Some (Ip i) -> leads h (mkc (c_obj c) (c_view c) (in_view c) i) d -> leads h c d
| leads_ref c r b o : fetch h c = Some (Rp r) -> in_view c = false -> objects h (c_obj c) = Some b ->
    nth_error (references b) r = Some o -> leads h c (mkc o None false 0)
| leads_view_ref c r v b o : fetch h c = Some (Rp r) -> in_view c = true -> c_view c = Some v -> views h v = Some b ->
    nth_error (vreferences b) r = Some o -> leads h c (mkc o None false 0)
| leads_head c k n : fetch h c = Some (Head k n) -> leads h c c
| leads_leaf c z : fetch h c = Some (Leaf z) -> leads h c c.
Inductive path_to (h : heap) : context -> list step -> context -> Prop :=
| path_end c : path_to h c [] c
| path_view c v p d : c_view c = Some v -> path_to h (mkc (c_obj c) (c_view c) true 0) p d -> path_to h c (ToView :: p) d
| path_member c i e p d : leads h (member c i) e -> path_to h e p d -> path_to h c (ToMember i :: p) d.
(** Pointers within the same code. *)
Inductive hops (h : heap) : context -> context -> Prop :=
| hops_here c : hops h c c
| hops_in c i d : fetch h c = Some (Ip i) -> hops h (mkc (c_obj c) (c_view c) (in_view c) i) d -> hops h c d.
(** No reference written in a view is followed. *)
Definition stays (h : heap) (c : context) (p : list step) : Prop :=
  forall q i s e d r, p = q ++ ToMember i :: s -> path_to h c q e -> hops h (member e i) d -> in_view d = true -> fetch h d <> Some (Rp r).

(** What member [m] of a structure is: of a view, of a group, of an object (counted from the
    first word of the object). *)
Definition named (h : heap) (c : context) (m : nat) : option place :=
  if in_view c then match c_view c with
                    | Some v => match views h v with Some b => Some (ViewOf (host b) (oid b) m) | None => None end
                    | None => None
                    end
  else match fetch h c with
       | Some (Head KGroup _) => Some (GroupAt (c_obj c) m)
       | Some (Head _ _) => Some (ObjectAt (c_obj c) (at_ c + m))
       | _ => Some Nowhere
       end.

(** * red *)
(** An input fits a pattern if it has its form and the guards are true; it fits an
    anti-pattern if it does not fit the pattern. *)
Definition guards_true (s : section) (x : nat) : bool := forallb (fun g => match g with Gives true => true | _ => false end) (guards s x).
Definition fits (s : section) (x : nat) : bool :=
  if anti s then negb (skeleton s x && guards_true s x)%bool else (skeleton s x && guards_true s x)%bool.
Definition made (s : section) (l : list nat) : list (nat * nat) := flat_map (fun x => map (fun q => (x, q)) (prods s)) l.
Definition defined (l : list (option nat)) : list nat := flat_map (fun x => match x with Some x => [x] | None => [] end) l.
(** The productions of the positive section for the inputs that fit its pattern, and those of
    the negative section for the others that fit its own. *)
Definition reduced (pos neg : section) (l : list (option nat)) : list (nat * nat) :=
  made pos (filter (fits pos) (defined l)) ++ made neg (filter (fun x => negb (fits pos x) && fits neg x)%bool (defined l)).
(** A pattern whose guards fail when they are not true. *)
Definition definite (s : section) : Prop := anti s = false /\ forall x, ~ In (Gives false) (guards s x).
(** First the inputs for the positive section, then those for the negative one. *)
Definition in_order (pos neg : section) (l : list (option nat)) : Prop :=
  exists a b c, l = a ++ b ++ c /\
    (forall x, In (Some x) a -> fits pos x = true) /\
    (forall x, In (Some x) b -> fits pos x = false /\ fits neg x = true) /\
    (forall x, In (Some x) c -> fits pos x = false /\ fits neg x = false).
