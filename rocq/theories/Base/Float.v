(** IEEE 754 binary32 and binary64 numbers over the standard library's
    SpecFloat (round to nearest, ties to even). *)
From Coq Require Export ZArith Bool SpecFloat.
From Verif.Base Require Import GoBase.

(** A float32 or a float64 (which of the two is given by the operations). *)
Definition float := spec_float.

Definition prec32 : Z := 24%Z.
Definition emax32 : Z := 128%Z.
Definition prec64 : Z := 53%Z.
Definition emax64 : Z := 1024%Z.

Definition f64add := SFadd prec64 emax64.
Definition f64sub := SFsub prec64 emax64.
Definition f64mul := SFmul prec64 emax64.
Definition f64div := SFdiv prec64 emax64.
Definition f64sqrt := SFsqrt prec64 emax64.
Definition f32add := SFadd prec32 emax32.
Definition f32sub := SFsub prec32 emax32.
Definition f32mul := SFmul prec32 emax32.
Definition f32div := SFdiv prec32 emax32.

(** Conversion of an integer: float32(n), float64(n). *)
Definition f64_of_Z (z : Z) : float := binary_normalize prec64 emax64 z 0 false.
Definition f32_of_Z (z : Z) : float := binary_normalize prec32 emax32 z 0 false.

(** float64(x) for a float32 x is exact: the same number, re-normalised. *)
Definition f64_of_f32 (x : float) : float :=
  match x with
  | S754_finite s m e => binary_normalize prec64 emax64 (cond_Zopp s (Zpos m)) e s
  | _ => x
  end.

(** float32(x) for a float64 x. *)
Definition f32_of_f64 (x : float) : float :=
  match x with
  | S754_finite s m e => binary_normalize prec32 emax32 (cond_Zopp s (Zpos m)) e s
  | _ => x
  end.

(** Comparisons; every one is false if an operand is NaN. *)
Definition fltb := SFltb.
Definition fleb := SFleb.
Definition fgtb (x y : float) : bool := SFltb y x.
Definition fgeb (x y : float) : bool := SFleb y x.
(** a == b in Go (+0 == -0, NaN differs from everything). *)
Definition feqb := SFeqb.

Definition is_nan (x : float) : bool :=
  match x with S754_nan => true | _ => false end.

(** math.MaxFloat64 *)
Definition max_f64 : float := S754_finite false 9007199254740991 971.

(** The integer part (truncation toward zero) of a finite number. *)
Definition f_trunc (x : float) : option Z :=
  match x with
  | S754_zero _ => Some 0%Z
  | S754_finite s m e =>
      let a := if (0 <=? e)%Z then (Zpos m * 2 ^ e)%Z else (Zpos m / 2 ^ (- e))%Z in
      Some (if s then (- a)%Z else a)
  | _ => None
  end.

(** The result of converting NaN, an infinity or an out-of-range number to an
    integer type is implementation-defined in Go; [undef] stands for it. *)
Definition f_to_u64 (undef : N) (x : float) : N :=
  match f_trunc x with
  | Some z => if ((0 <=? z) && (z <? 18446744073709551616))%Z%bool then Z.to_N z else undef
  | None => undef
  end.
Definition f_to_i64 (undef : Z) (x : float) : Z :=
  match f_trunc x with
  | Some z => if ((-9223372036854775808 <=? z) && (z <? 9223372036854775808))%Z%bool then z else undef
  | None => undef
  end.

(** binary32 bit patterns (math.Float32frombits); a NaN payload is dropped. *)
Definition f32_of_bits (b : N) : float :=
  let s := N.testbit b 31 in
  let e := N.land (N.shiftr b 23) 255 in
  let f := N.land b 8388607 in
  if (e =? 255)%N then (if (f =? 0)%N then S754_infinity s else S754_nan)
  else if (e =? 0)%N then
    match f with N0 => S754_zero s | Npos p => S754_finite s p (-149) end
  else match (f + 8388608)%N with
       | N0 => S754_zero s
       | Npos p => S754_finite s p (Z.of_N e - 150)
       end.

Definition f32_to_bits (x : float) : N :=
  match x with
  | S754_zero s => if s then 2147483648 else 0
  | S754_infinity s => (if s then 2147483648 else 0) + 2139095040
  | S754_nan => 2143289344
  | S754_finite s m e =>
      (if s then 2147483648 else 0) +
      (if (Npos m <? 8388608)%N then Npos m
       else (Z.to_N (e + 150) * 8388608 + (Npos m - 8388608)))
  end%N.
