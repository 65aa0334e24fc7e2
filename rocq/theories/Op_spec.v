(** Vocabulary of the statements about operators. *)
From Verif Require Import Base Float32 Float32_val Atom_model Utils_model Op_model.

(** ** Operands *)
Inductive kind := KNum | KTime | KDur | KBool | KOther.
Definition kind_of (l : code) : kind :=
  match l with
  | [] => KOther
  | a :: _ =>
      if a <? 0x80000000 then KNum
      else match a / 0x1000000 with 0xC7 => KTime | 0xD0 => KDur | 0x81 => KBool | _ => KOther end
  end.
Inductive value := Num (f : spec_float) | Time (t : Z) | Dur (d : Z).
(** The atoms [l] start with the value [v]. *)
Definition denotes (l : code) (v : value) : Prop :=
  Forall is_u32 l /\
  match v with
  | Num f => kind_of l = KNum /\ exists a rest, l = a :: rest /\ f = f32_of_bits (2 * a)
  | Time t => kind_of l = KTime /\ exists a hi lo rest, l = a :: hi :: lo :: rest /\ t = i64 (hi * 4294967296 + lo)
  | Dur d => kind_of l = KDur /\ exists a hi lo rest, l = a :: hi :: lo :: rest /\ d = i64 (hi * 4294967296 + lo)
  end.

(** ** The documented types *)
Definition is_comparison (o : binary) : bool := match o with Gtr | Lsr | Gte | Lse => true | _ => false end.
Definition result_kind (o : binary) (k1 k2 : kind) : option kind :=
  match o, k1, k2 with
  | (Gtr | Lsr | Gte | Lse), KNum, KNum | (Gtr | Lsr | Gte | Lse), KTime, KTime | (Gtr | Lsr | Gte | Lse), KDur, KDur => Some KBool
  | (Add | Sub | Mul | Div | Dis | Min | Max), KNum, KNum => Some KNum
  | (Add | Sub | Dis | Min | Max), KDur, KDur => Some KDur
  | (Mul | Div), KDur, KDur => Some KNum
  | (Sub | Dis), KTime, KTime => Some KDur
  | (Min | Max), KTime, KTime => Some KTime
  | (Add | Sub), KTime, (KDur | KNum) | Add, (KDur | KNum), KTime => Some KTime
  | (Add | Sub | Mul | Div), KDur, KNum | Add, KNum, KDur => Some KDur
  | (Mul | Div), KNum, KDur => Some KNum
  | _, _, _ => None
  end.
Definition failure (o : binary) : Z := if is_comparison o then 0x81FFFFFF else 0x80000000.

(** ** Outcomes *)
Definition is_true (x : out) : Prop := exists r, x = Some (true, r) /\ store r = [0x81000001].
Definition is_false (x : out) : Prop := exists r, x = Some (true, r) /\ store r = [0x81000000].
Definition gives (x : out) (v : value) : Prop := exists r, x = Some (true, r) /\ denotes (store r) v.
(** The integer part of a number. *)
Definition int_part (f : spec_float) : Z := Z.quot (val f) (2 ^ 1000).
(** The number [f] without the last bit of its pattern (which an atom does not keep). *)
Definition stored (f : spec_float) : spec_float := f32_of_bits (bits_of_f32 f / 2 * 2).
Definition is_number (f : spec_float) : Prop := f <> S754_nan.
(** A word that an atom reader takes for a pointer. *)
Definition looks_like_pointer (a : Z) : Prop :=
  In (a / 0x1000000) [0x84; 0x85; 0x87; 0x88; 0x89; 0x8A; 0x8C; 0x8E; 0x90; 0x91; 0x92; 0x93; 0xC0].
Definition looks_structural (a : Z) : Prop := 0xC0 <= a / 0x1000000 <= 0xD0.
(** The context points to the three atoms of a time (in code, in values, or among the
    members of an object): its head [h], and its value [t]; no word of the value can be
    taken for something else. *)
Definition shows (m : mem) (c : ctx) (h t : Z) : Prop :=
  exists a hi lo, array m (at_ c) = Some a /\ nth_error a (idx c) = Some h /\ nth_error a (idx c + 1) = Some hi /\ nth_error a (idx c + 2) = Some lo /\
  (h / 0x1000000 = 0xC7 \/ h / 0x1000000 = 0xD0) /\ is_u32 h /\
  is_u32 hi /\ is_u32 lo /\ t = i64 (hi * 4294967296 + lo) /\
  ~ looks_like_pointer hi /\ ~ looks_like_pointer lo /\ ~ looks_structural hi /\ ~ looks_structural lo /\
  (at_ c = Stem \/ at_ c = Val \/ (0 < idx c)%nat).
(** The same without the condition on the words. *)
Definition holds_time (m : mem) (c : ctx) (h t : Z) : Prop :=
  exists a hi lo, array m (at_ c) = Some a /\ nth_error a (idx c) = Some h /\ nth_error a (idx c + 1) = Some hi /\ nth_error a (idx c + 2) = Some lo /\
  (h / 0x1000000 = 0xC7 \/ h / 0x1000000 = 0xD0) /\ is_u32 h /\ is_u32 hi /\ is_u32 lo /\ t = i64 (hi * 4294967296 + lo).
(** What the direct evaluation of an expression and its evaluation by the operator give. *)
Definition direct (o : binary) (q0 q1 : Z) : option (list Z) := build_and_evaluate o q0 q1.
Definition by_operator (o : binary) (q0 q1 : Z) : option (list Z) :=
  match eval o [q1] [q0] with Some (_, r) => Some (store r) | None => None end.
