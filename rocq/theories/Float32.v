(** IEEE-754 binary32, the C++ type [float32] (r_code uses [float]).  The
    number type is [spec_float] of the standard library; the operations are
    those of [Coq.Floats.SpecFloat] at precision 24 and emax 128 (round to
    nearest even).  This file adds only the 32-bit interchange format. *)
From Verif Require Import Base.
From Coq Require Export Floats.SpecFloat.

Definition prec := 24.
Definition emax := 128.

(** The number denoted by a 32-bit pattern. *)
Definition f32_of_bits (b : Z) : spec_float :=
  let s := 2147483648 <=? b in
  let e := (b / 8388608) mod 256 in
  let m := b mod 8388608 in
  if e =? 255 then (if m =? 0 then S754_infinity s else S754_nan)
  else if e =? 0 then
    match m with Zpos p => S754_finite s p (-149) | _ => S754_zero s end
  else match m + 8388608 with Zpos p => S754_finite s p (e - 150) | _ => S754_nan end.

(** The low 31 bits of the pattern of a finite non-zero number. *)
Definition magn (m : positive) (e : Z) : Z :=
  if Zpos m <? 8388608 then Zpos m else (e + 150) * 8388608 + (Zpos m - 8388608).

(** The 32-bit pattern of a number (any NaN becomes the default quiet NaN). *)
Definition bits_of_f32 (f : spec_float) : Z :=
  match f with
  | S754_zero s => if s then 2147483648 else 0
  | S754_infinity s => (if s then 2147483648 else 0) + 2139095040
  | S754_nan => 2143289344
  | S754_finite s m e =>
      (if s then 2147483648 else 0) + magn m e
  end.

Definition fadd := SFadd prec emax.
Definition fsub := SFsub prec emax.
Definition fmul := SFmul prec emax.
Definition fdiv := SFdiv prec emax.
Definition flt := SFltb.
Definition fle := SFleb.
Definition feqb := SFeqb.
Definition f32_valid := valid_binary prec emax.

Definition fzero := S754_zero false.
Definition fone := S754_finite false 8388608 (-23).
(** Conversion of an integer to float32. *)
Definition f32_of_Z (z : Z) : spec_float := binary_normalize prec emax z 0 false.

Definition is_finite (f : spec_float) : bool :=
  match f with S754_zero _ | S754_finite _ _ _ => true | _ => false end.
