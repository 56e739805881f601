(** The factor 0.9 by which timeouts are shortened, exactly. *)
From Coq Require Import ZArith Lia SpecFloat.
From Verif.Base Require Import GoBase Float.
From Verif.Model Require Import QueryCache.
From Verif.Proof Require Import MonoP MonoQ TruncP ErrorP.
Open Scope Z_scope.

Lemma nine_tenths_trunc : forall t, 0 < t <= 2 ^ 49 ->
  f_trunc (f64mul (f64_of_Z t) f0_9) = Some (9 * t / 10).
Proof.
  intros t Ht.
  destruct (of_Z_exact t ltac:(lia)) as [U E].
  assert (Q : 0 <= 9 * t / 10 <= t) by (split; [apply Z.div_pos; lia|apply Z.div_le_upper_bound; lia]).
  set (q := 9 * t / 10) in *.
  assert (QT : 10 * q <= 9 * t < 10 * q + 10) by (unfold q; pose proof (Z.div_mod (9 * t) 10); pose proof (Z.mod_pos_bound (9 * t) 10); lia).
  destruct (of_Z_exact q ltac:(lia)) as [UQ _].
  pose proof (of_Z_trunc q ltac:(lia)) as TQ.
  assert (U9 : u53 f0_9) by (cbn; unfold emin, fexp, emin; repeat split; reflexivity || lia).
  pose proof (of_Z_rounds q ltac:(lia)) as RQ.
  pose proof (mul_range (f64_of_Z t) f0_9 U U9) as RG.
  assert (R : rounds 53 1024 1 (-1074) (t * 8106479329266893 * 2 ^ 1021) (f64mul (f64_of_Z t) f0_9)).
  { destruct (f64_of_Z t) as [s|s| |[] m e]; cbn [unsigned] in U; try contradiction; cbn [units] in E.
    - exfalso. assert (0 < 2 ^ 1074) by reflexivity. nia.
    - destruct (bounded_spec 53 1024 ltac:(lia) m e U) as (ML & EM & _ & _). rewrite emin53 in EM.
      assert (EL : -53 < e).
      { destruct (Z.lt_ge_cases (-53) e) as [L|L]; [exact L|]. exfalso.
        assert (P1 : 2 ^ (e - -1074) <= 2 ^ 1021) by (apply Z.pow_le_mono_r; lia).
        assert (P2 : 0 < 2 ^ (e - -1074)) by (apply Z.pow_pos_nonneg; [lia|lia]).
        change (2 ^ 1074) with (2 ^ 53 * 2 ^ 1021) in E. set (x := 2 ^ (e - -1074)) in *. set (y := 2 ^ 1021) in *.
        change (2 ^ 53) with 9007199254740992 in *. clearbody x y. nia. }
      pose proof (rounds_mul 53 1024 ltac:(lia) ltac:(lia) m e 8106479329266893 (-53) (-1074) U U9 ltac:(rewrite emin53; lia) ltac:(lia)) as R.
      replace (Zpos m * 8106479329266893 * 2 ^ (e + -53 - -1074)) with (t * 8106479329266893 * 2 ^ 1021) in R; [exact R|].
      replace (e - -1074) with ((e + -53 - -1074) + 53) in E by lia. rewrite Z.pow_add_r in E by lia.
      change (2 ^ 1074) with (2 ^ 53 * 2 ^ 1021) in E. set (x := 2 ^ (e + -53 - -1074)) in *. set (y := 2 ^ 1021) in *.
      change (2 ^ 53) with 9007199254740992 in *. clearbody x y. lia. }
  set (r := f64mul (f64_of_Z t) f0_9) in *.
  assert (QA : q * 2 ^ 1074 <= t * 8106479329266893 * 2 ^ 1021).
  { change (2 ^ 1074) with (9007199254740992 * 2 ^ 1021). assert (0 < 2 ^ 1021) by reflexivity. set (y := 2 ^ 1021) in *. clearbody y. nia. }
  pose proof (rounds_mono 53 1024 ltac:(lia) 1 (-1074) _ _ _ _ ltac:(lia) QA RQ R) as LE.
  assert (AT : t * 8106479329266893 * 2 ^ 1021 <= t * 2 ^ 1074).
  { change (2 ^ 1074) with (9007199254740992 * 2 ^ 1021). assert (0 < 2 ^ 1021) by reflexivity. set (y := 2 ^ 1021) in *. clearbody y. nia. }
  pose proof (rounds_mono 53 1024 ltac:(lia) 1 (-1074) _ _ _ _ ltac:(lia) AT R (of_Z_rounds t ltac:(lia))) as GE.
  assert (UR : u53 r).
  { destruct RG as [RG|RG]; [exact RG|]. exfalso. rewrite RG in GE.
    destruct (f64_of_Z t) as [s|s| |[] m e]; cbn [unsigned] in U; try contradiction; discriminate GE. }
  rewrite (trunc_units r (-1074) UR ltac:(lia)). f_equal.
  apply (fleb_units 53 1024 ltac:(lia) _ _ (-1074) ltac:(rewrite emin53; lia) UQ UR) in LE.
  rewrite (proj2 (of_Z_exact q ltac:(lia))) in LE.
  pose proof (rounds_relative 53 1024 ltac:(lia) (t * 8106479329266893 * 2 ^ 1021) r
    ltac:(apply Z.mul_nonneg_nonneg; [lia|apply Z.pow_nonneg; lia]) R UR) as ER.
  rewrite emin53 in ER. change (- -1074) with 1074.
  assert (Y0 : 0 < 2 ^ 1021) by reflexivity. change (2 ^ 1074) with (9007199254740992 * 2 ^ 1021) in *.
  set (y := 2 ^ 1021) in *. clearbody y. set (u := units (-1074) r) in *. clearbody u.
  change (2 ^ 53) with 9007199254740992 in ER. change (2 ^ 49) with 562949953421312 in Ht.
  symmetry. apply (Z.div_unique_pos _ _ _ (u - q * (9007199254740992 * y))); [|lia]. split; [lia|].
  assert (ER' : (u - t * 8106479329266893 * y) * 9007199254740992 <= t * 8106479329266893 * y) by lia.
  clear - ER' QT Ht Y0.
  assert (u * 9007199254740992 <= t * 8106479329266893 * 9007199254740993 * y) by lia.
  assert (t * 8106479329266893 * 9007199254740993 < (q + 1) * 9007199254740992 * 9007199254740992) by lia.
  assert (t * 8106479329266893 * 9007199254740993 * y < (q + 1) * 9007199254740992 * 9007199254740992 * y) by (apply Z.mul_lt_mono_pos_r; lia).
  lia.
Qed.

(** Timeouts up to 2^49 milliseconds become nine tenths of themselves, rounded down. *)
Lemma shrink_exact : forall undef t, (t <= 2 ^ 49)%N -> ShrinkTimeout undef t = (9 * t / 10)%N.
Proof.
  intros undef t H. destruct (N.eq_dec t 0) as [->|N0]; [vm_compute; reflexivity|].
  unfold ShrinkTimeout, f_to_u64. change (2 ^ 49)%N with 562949953421312%N in H.
  rewrite nine_tenths_trunc by lia.
  assert (B : 0 <= 9 * Z.of_N t / 10 < 18446744073709551616) by (split; [apply Z.div_pos; lia|apply Z.div_lt_upper_bound; lia]).
  replace ((0 <=? 9 * Z.of_N t / 10) && (9 * Z.of_N t / 10 <? 18446744073709551616))%bool with true
    by (symmetry; apply andb_true_iff; split; [apply Z.leb_le|apply Z.ltb_lt]; lia).
  apply N2Z.inj. rewrite Z2N.id by lia. rewrite N2Z.inj_div, N2Z.inj_mul. reflexivity.
Qed.
