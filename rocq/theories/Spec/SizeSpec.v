(** Sizes of coordinates. *)
From Coq Require Import ZArith.
From Verif.Base Require Import GoBase Float.
Open Scope Z_scope.

(** The float32 number [x] is finite and at most 2^K away from zero (K >= -149). *)
Definition upto (K : Z) (x : float) : Prop :=
  match x with
  | S754_zero _ => True
  | S754_finite _ m e => bounded 24 128 m e = true /\ Zpos m * 2 ^ (e + 149) <= 2 ^ (K + 149)
  | _ => False
  end.

(** It is at least 2^K away from zero. *)
Definition from (K : Z) (x : float) : Prop :=
  match x with
  | S754_finite _ m e => 2 ^ (K + 149) <= Zpos m * 2 ^ (e + 149)
  | _ => False
  end.
