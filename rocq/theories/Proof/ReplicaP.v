(** Quotients of small numbers are not rounded to zero. *)
From Verif.Base Require Import GoBase Float.
From Verif.Model Require Import Vector Sync.
From Verif.Proof Require Import RoundP QuotaP.
From Coq Require Import Lia.
Open Scope Z_scope.

Lemma div_positive : forall d n, 1 <= d <= 1000 -> 1 <= n < 2 ^ 53 ->
  fltb fzero (f64div (f64_of_Z d) (f64_of_Z n)) = true.
Proof.
  intros d n Hd Hn. destruct d as [|pd|pd]; try lia. destruct n as [|pn|pn]; try lia.
  destruct (f64_exact pd) as (m1 & k1 & E1 & K1 & M1 & B1 & DK1); [change (2 ^ 53) with 9007199254740992; lia|].
  destruct (f64_exact pn) as (m2 & k2 & E2 & K2 & M2 & B2 & DK2); [lia|].
  clear DK1 DK2. rewrite E1, E2. unfold f64div, SFdiv, SFdiv_core_binary, prec64, emax64. clear E1 E2.
  rewrite (zdigits_is (Zpos m1) 53) by (try lia; change (53 - 1) with 52; lia).
  rewrite (zdigits_is (Zpos m2) 53) by (try lia; change (53 - 1) with 52; lia).
  set (a := k1 + 53 - k2).
  replace (Z.min (fexp 53 1024 (53 + - k1 - (53 + - k2))) (- k1 - - k2)) with (- a)
    by (unfold fexp, emin, a; lia).
  replace (- k1 - - k2 - - a) with 53 by (unfold a; lia). cbn match.
  rewrite Z.shiftl_mul_pow2 by lia.
  destruct (Z.div_eucl (Zpos m1 * 2 ^ 53) (Zpos m2)) as [q r] eqn:DE.
  assert (DQ : Zpos m1 * 2 ^ 53 = Zpos m2 * q + r /\ 0 <= r < Zpos m2).
  { pose proof (Z_div_mod (Zpos m1 * 2 ^ 53) (Zpos m2) ltac:(lia)) as Z1. rewrite DE in Z1. exact Z1. }
  destruct DQ as [DQ RB].
  assert (Ha : 0 <= a <= 105) by (unfold a; lia).
  assert (Q1 : 2 ^ 52 <= q < 2 ^ 54).
  { change (2 ^ 52) with 4503599627370496 in *. change (2 ^ 53) with 9007199254740992 in *.
    change (2 ^ 54) with 18014398509481984. nia. }
  change (xorb false false) with false.
  destruct (Z.lt_ge_cases q (2 ^ 53)) as [QL|QL].
  - destruct (round53 q (- a) (new_location (Zpos m2) r)) as (m & e' & E & _); [lia|lia|]. rewrite E. reflexivity.
  - destruct (round54 q (- a) (new_location (Zpos m2) r)) as (m & e' & R & E & _); [lia|lia|]. rewrite E. reflexivity.
Qed.
