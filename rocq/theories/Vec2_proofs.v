(** Lemmas for the operators on vectors (C150 to C155): what the operators write. *)
From Verif Require Import Base Float32 Float32_facts Float32_round Atom_model Atom_proofs Op_model Bp_model Vec_model Vec_spec Vec_proofs.
Local Open Scope nat_scope.
Local Set Default Proof Using "Type".

Lemma pushes_app grown l k m : pushes grown (l ++ k) m = pushes grown k (pushes grown l m).
Proof. apply fold_left_app. Qed.

Section Run.
Context (grown : nat -> nat) (bound : nat -> nat -> option Z) (expr : bool) (here : nat).
Context (vec3 vec2 vec quat : Z) (fuel : nat).
Notation opcode := (opcode vec3 vec2 vec quat).
Notation set_head := (set_head grown expr here).
Notation add_parts := (add_parts grown expr).
Notation pushes := (pushes grown).
Notation patch := (patch expr here).
Notation vector_at := (vector_at bound vec3 vec2 vec quat).

Lemma set_head_eq a s : set_head a s =
  (mks (pushes (if expr then [a; a] else [a]) (patch (ValuePointer (Z.of_nat (length (cells (mem s))))) (mem s))) (results s ++ if expr then [a] else []), length (cells (mem s))).
Proof. unfold Vec_model.set_head. destruct expr; cbn; [reflexivity|]. rewrite app_nil_r. reflexivity. Qed.

(** The memory at the start of the overload. *)
Definition near (m : memory) (s : state) : Prop :=
  le_mem (hide here m) (mem s) /\ cells (mem s) = cells m /\ capacity (mem s) = capacity m /\ address_ (mem s) = address_ m.
Lemma patch_cells a m : cells (patch a m) = cells m /\ capacity (patch a m) = capacity m /\ address_ (patch a m) = address_ m.
Proof. unfold Vec_model.patch. destruct expr; auto. Qed.
Lemma near_grown m s a l : near m s -> le_mem (hide here m) (pushes l (patch a (mem s))) /\
  (length (cells m) + length l <= capacity m -> address_ (pushes l (patch a (mem s))) = address_ m).
Proof.
  intros ((C & _) & A & B & D). destruct (pushes_spec grown l (patch a (mem s))) as (P & Q & R).
  destruct (patch_cells a (mem s)) as (P1 & P2 & P3). rewrite P1, P2, P3 in *. split.
  - split; [|exists l; rewrite P, A; reflexivity]. intros i w H. rewrite Q. specialize (C i w H). unfold hide in H. cbn [code_] in H.
    unfold Vec_model.patch. destruct expr; [exact C|]. cbn [code_]. destruct (i =? here); [discriminate|exact C].
  - intros H. rewrite A, B, D in R. apply R, H.
Qed.
Lemma near_move m s a l k d : near m s -> settled k m d -> length l <= k ->
  move (hide here m) (pushes l (patch a (mem s))) d = d.
Proof.
  clear bound. intros N Hs L. apply move_id. unfold settled in Hs. destruct (inside d); [exact I| |exact I].
  apply (near_grown m s a l N). cbn [hide address_]. lia.
Qed.
Lemma near_here m s k d : near m s -> settled k m d -> move (hide here m) (mem s) d = d.
Proof. intros (_ & _ & _ & A) Hs. apply move_id. cbn [hide address_]. destruct (inside d); auto. Qed.

(** ** What is written *)
Definition head_of (k : kind) (n : nat) : Z := AObject (opcode k) (match k with Any => 1%Z | _ => Z.of_nat n end).
Definition tail_of (k : kind) (v : nat) (vs : list Z) : list Z :=
  match k with Any => IPointer (Z.of_nat (2 + v)) :: ASet (Z.of_nat (length vs)) :: map Float vs | _ => map Float vs end.
Definition written (k : kind) (vs : list Z) (s : state) : state :=
  let v := length (cells (mem s)) in add_parts (tail_of k v vs) (fst (set_head (head_of k (length vs)) s)).
(** Words added to the values. *)
Definition extra (k : kind) (n : nat) : nat := words_for k n + if expr then 1 else 0.

Lemma extra_length k v vs (a : Z) : length (if expr then [a; a] else [a]) + length (tail_of k v vs) = extra k (length vs) :> nat.
Proof. clear grown bound. unfold extra. destruct k, expr; cbn; rewrite map_length; lia. Qed.

(** [f] gives the values [vs] while the result is written. *)
Definition gives (m : memory) (s : state) (k : nat) (f : state -> nat -> option Z) (vs : list Z) : Prop :=
  forall j x, nth_error vs j = Some x -> forall a l r, length l <= k -> f (mks (pushes l (patch a (mem s))) r) (S j) = Some x.

Lemma flat_written m s k f vs : near m s -> gives m s (extra k (length vs)) f vs -> k <> Any ->
  flat grown expr here (opcode k) (length vs) f s = Some (written k vs s).
Proof.
  clear bound. intros N G K. unfold flat, written. replace (AObject (opcode k) (Z.of_nat (length vs))) with (head_of k (length vs)) by (destruct k; [reflexivity..|congruence|reflexivity]).
  rewrite parts_run with (vs := vs).
  - destruct k; [reflexivity..|congruence|reflexivity].
  - intros j x H l L. rewrite set_head_eq, add_parts_eq. cbn [fst mem results]. rewrite <- pushes_app. apply G; [exact H|].
    pose proof (extra_length k 0 vs 0%Z) as E. assert (j < length vs) by (apply nth_error_Some; congruence). rewrite app_length.
    destruct k; [..|congruence|]; cbn [tail_of] in E; rewrite map_length in E; destruct expr; cbn [length] in *; lia.
Qed.
Lemma long_written m s f vs : near m s -> gives m s (extra Any (length vs)) f vs ->
  long grown expr here vec (length vs) f s = Some (written Any vs s).
Proof.
  clear bound. intros N G. unfold long, written. change (AObject vec 1) with (head_of Any (length vs)). rewrite set_head_eq. cbn [fst].
  set (s1 := mks _ _). cbn [tail_of Vec_model.add_parts].
  apply parts_run. intros j x H l L.
  match goal with |- ?g ?t _ = _ => change t with (add_parts (IPointer (Z.of_nat (2 + length (cells (mem s)))) :: ASet (Z.of_nat (length vs)) :: l) s1) end.
  rewrite add_parts_eq. unfold s1. cbn [fst mem results]. rewrite <- pushes_app. apply G; [exact H|].
  pose proof (extra_length Any 0 vs 0%Z) as E. assert (j < length vs) by (apply nth_error_Some; congruence). rewrite app_length. cbn [length tail_of] in *. rewrite map_length in E.
  destruct expr; cbn [length] in *; lia.
Qed.

(** ** Values given by the operands *)
Lemma pairwise_gives m s n d e k f xs ys : near m s -> n < fuel -> settled k m d -> settled k m e ->
  numbers_at bound (hide here m) n d xs -> numbers_at bound (hide here m) n e ys -> length xs = length ys ->
  gives m s k (pairwise bound fuel f d e) (map (fun p => f (fst p) (snd p)) (combine xs ys)).
Proof.
  intros N F Sd Se X Y L j x H a l r B. rewrite nth_error_map in H. destruct (nth_error (combine xs ys) j) as [[u v]|] eqn:E; [|discriminate]. cbn in H. injection H as <-.
  assert (nth_error xs j = Some u /\ nth_error ys j = Some v) as (U & V).
  { clear - E L. revert ys L j E. induction xs as [|x xs IH]; intros [|y ys] L j E; try discriminate; [destruct j; discriminate|]. destruct j as [|j]; cbn in *; [injection E as -> ->; auto|]. apply IH; auto. }
  unfold pairwise. cbn [mem]. destruct (near_grown m s a l N) as (LE & _).
  rewrite (number_le _ _ _ _ _ _ _ _ (X _ _ U) LE F (near_move _ _ _ _ _ _ N Sd B)), (number_le _ _ _ _ _ _ _ _ (Y _ _ V) LE F (near_move _ _ _ _ _ _ N Se B)). reflexivity.
Qed.
Lemma scaled_gives m s n d k f xs : near m s -> n < fuel -> settled k m d ->
  numbers_at bound (hide here m) n d xs -> gives m s k (scaled bound fuel f d) (map f xs).
Proof.
  intros N F Sd X j x H a l r B. rewrite nth_error_map in H. destruct (nth_error xs j) as [u|] eqn:U; [|discriminate]. cbn in H. injection H as <-.
  unfold scaled. cbn [mem]. destruct (near_grown m s a l N) as (LE & _).
  rewrite (number_le _ _ _ _ _ _ _ _ (X _ _ U) LE F (near_move _ _ _ _ _ _ N Sd B)). reflexivity.
Qed.

(** ** Operands *)
Lemma operand_found m s n c e k w : near m s -> n < fuel -> inside c = Code -> leads bound (hide here m) n c e ->
  settled k m e -> fetch bound (hide here m) e = Some w -> dereference bound fuel (mem s) c = Some e /\ fetch bound (mem s) e = Some w.
Proof.
  intros N F C L Hs W. destruct N as (LE & A & B & D). pose proof (near_here m s k e (conj LE (conj A (conj B D))) Hs) as V.
  assert (Vc : move (hide here m) (mem s) c = c) by (apply move_id; rewrite C; exact I).
  split; [|rewrite <- V; apply fetch_le; assumption].
  pose proof (leads_deref _ _ _ _ _ _ L LE fuel F) as E. rewrite Vc, V in E. exact E.
Qed.
(** Without any assumption about where it is: nothing was added yet. *)
Lemma near_stays m s d : near m s -> move (hide here m) (mem s) d = d.
Proof. intros (_ & _ & _ & A). apply move_id. cbn [hide address_]. destruct (inside d); auto. Qed.
Lemma found m s n c e w : near m s -> n < fuel -> leads bound (hide here m) n c e ->
  fetch bound (hide here m) e = Some w -> dereference bound fuel (mem s) c = Some e /\ fetch bound (mem s) e = Some w.
Proof.
  intros N F L W. pose proof (near_stays m s e N) as V. pose proof (near_stays m s c N) as Vc. destruct N as (LE & _).
  split; [|rewrite <- V; apply fetch_le; assumption].
  pose proof (leads_deref _ _ _ _ _ _ L LE fuel F) as E. rewrite Vc, V in E. exact E.
Qed.
Lemma values_found m s n e d u : near m s -> n < fuel -> leads bound (hide here m) n (child e 1) d ->
  fetch bound (hide here m) d = Some u -> values_of bound fuel (mem s) e = Some (d, Z.to_nat (getAtomCount u)).
Proof. intros N F L W. destruct (found _ _ _ _ _ _ N F L W) as (A & B). unfold values_of. rewrite A, B. reflexivity. Qed.

(** ** The distance *)
Lemma number_now m s n d i x : near m s -> n < fuel -> number_at bound (hide here m) n (child d i) x -> number bound fuel (mem s) d i = Some x.
Proof. intros N F X. apply number_le with (m := hide here m) (n := n); auto; [apply N|apply near_stays, N]. Qed.
Lemma squares_run m s n d e : near m s -> n < fuel -> forall xs ys i acc, length xs = length ys ->
  (forall j x, nth_error xs j = Some x -> number_at bound (hide here m) n (child d (i + j)) x) ->
  (forall j y, nth_error ys j = Some y -> number_at bound (hide here m) n (child e (i + j)) y) ->
  squares bound fuel (mem s) d e i (length xs) acc = Some (fold_left (bits2 fadd) (differences xs ys) acc).
Proof.
  clear grown. intros N F. induction xs as [|x xs IH]; intros [|y ys] i acc L X Y; try discriminate; [reflexivity|]. cbn [length squares differences fold_left].
  pose proof (X 0 x eq_refl) as X0. pose proof (Y 0 y eq_refl) as Y0. rewrite Nat.add_0_r in X0, Y0.
  rewrite (number_now _ _ _ _ _ _ N F X0), (number_now _ _ _ _ _ _ N F Y0).
  rewrite IH with (ys := ys); [reflexivity|cbn in L; lia| |].
  - intros j z H. replace (S i + j) with (i + S j) by lia. apply X, H.
  - intros j z H. replace (S i + j) with (i + S j) by lia. apply Y, H.
Qed.
Lemma norm2_run m s n d e x xs y ys : near m s -> n < fuel -> length xs = length ys ->
  numbers_at bound (hide here m) n d (x :: xs) -> numbers_at bound (hide here m) n e (y :: ys) ->
  norm2 bound fuel (mem s) d e (length (x :: xs)) =
  Some (fold_left (bits2 fadd) (differences xs ys) (bits2 fmul (bits2 fsub x y) (bits2 fsub x y))).
Proof.
  clear grown. intros N F L X Y. unfold norm2. rewrite (number_now _ _ _ _ _ _ N F (X 0 x eq_refl)), (number_now _ _ _ _ _ _ N F (Y 0 y eq_refl)).
  cbn [length]. replace (S (length xs) - 1) with (length xs) by lia.
  apply squares_run with (m := m) (n := n); auto; intros j z H; [apply (X (S j) z H)|apply (Y (S j) z H)].
Qed.
End Run.
