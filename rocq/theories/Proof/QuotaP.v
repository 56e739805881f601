(** The comparison of a quotient of integers with 0.01, in binary64. *)
From Verif.Base Require Import GoBase GoLemmas Float.
From Verif.Model Require Import Vector Sync.
From Verif.Proof Require Import RoundP.
From Coq Require Import Lia ZArith.
Open Scope Z_scope.

Lemma zdigits_is : forall z n, 1 <= n -> 2 ^ (n - 1) <= z < 2 ^ n -> Zdigits2 z = n.
Proof.
  intros z n Hn [A B]. assert (0 < 2 ^ (n - 1)) by (apply Z.pow_pos_nonneg; lia).
  destruct (zdigits_spec z ltac:(lia)) as [[C D] E].
  destruct (Z.lt_trichotomy (Zdigits2 z) n) as [L|[L|L]]; auto.
  - assert (2 ^ Zdigits2 z <= 2 ^ (n - 1)) by (apply Z.pow_le_mono_r; lia). lia.
  - assert (2 ^ n <= 2 ^ (Zdigits2 z - 1)) by (apply Z.pow_le_mono_r; lia). lia.
Qed.

Lemma loc_back : forall m l, loc_of_shr_record (shr_record_of_loc m l) = l.
Proof. intros m [|[]]; reflexivity. Qed.
Lemma m_back : forall m l, shr_m (shr_record_of_loc m l) = m.
Proof. intros m [|[]]; reflexivity. Qed.

(** Rounding a result of 53 bits that need not be shifted. *)
Lemma second_round : forall R e, 2 ^ 52 <= R <= 2 ^ 53 -> -1000 <= e <= 100 ->
  exists m e', (let '(mrs, e2) := shr_fexp 53 1024 R e loc_Exact in
     match shr_m mrs with
     | Z0 => S754_zero false
     | Zpos m => if Zle_bool e2 (1024 - 53) then S754_finite false m e2 else S754_infinity false
     | _ => S754_nan
     end) = S754_finite false m e' /\
    ((R < 2 ^ 53 /\ Zpos m = R /\ e' = e) \/ (R = 2 ^ 53 /\ Zpos m = 2 ^ 52 /\ e' = e + 1)).
Proof.
  intros R e B He. unfold shr_fexp. destruct (Z.eq_dec R (2 ^ 53)) as [->|NE].
  - change (Zdigits2 (2 ^ 53)) with 54.
    replace (fexp 53 1024 (54 + e) - e) with 1 by (unfold fexp, emin; lia).
    change (shr (shr_record_of_loc (2 ^ 53) loc_Exact) e 1)
      with (Build_shr_record 4503599627370496 false false, e + 1). cbn [shr_m].
    replace (Zle_bool (e + 1) (1024 - 53)) with true by (symmetry; apply Z.leb_le; lia).
    exists 4503599627370496%positive, (e + 1). split; [reflexivity|]. right. repeat split; reflexivity.
  - assert (D : Zdigits2 R = 53) by (apply zdigits_is; [lia|]; change (53 - 1) with 52; lia).
    rewrite D. replace (fexp 53 1024 (53 + e) - e) with 0 by (unfold fexp, emin; lia).
    rewrite shr_zero by lia. rewrite m_back.
    assert (0 < R) by (assert (0 < 2 ^ 52) by (apply Z.pow_pos_nonneg; lia); lia).
    destruct R as [|p|p]; try lia.
    replace (Zle_bool e (1024 - 53)) with true by (symmetry; apply Z.leb_le; lia).
    exists p, e. split; [reflexivity|]. left. repeat split; lia.
Qed.

Lemma round53 : forall q e l, 2 ^ 52 <= q < 2 ^ 53 -> -1000 <= e <= 100 ->
  exists m e', binary_round_aux 53 1024 false q e l = S754_finite false m e' /\
    let R := round_nearest_even q l in
    ((R < 2 ^ 53 /\ Zpos m = R /\ e' = e) \/ (R = 2 ^ 53 /\ Zpos m = 2 ^ 52 /\ e' = e + 1)).
Proof.
  intros q e l B He. unfold binary_round_aux. unfold shr_fexp at 1.
  assert (D : Zdigits2 q = 53) by (apply zdigits_is; [lia|]; change (53 - 1) with 52; lia).
  rewrite D. replace (fexp 53 1024 (53 + e) - e) with 0 by (unfold fexp, emin; lia).
  rewrite shr_zero by lia. cbv beta iota. rewrite m_back, loc_back.
  apply second_round; auto. destruct (rne_cases q l) as [-> | ->]; lia.
Qed.

Lemma round54 : forall q e l, 2 ^ 53 <= q < 2 ^ 54 -> -1000 <= e <= 99 ->
  exists m e' R, binary_round_aux 53 1024 false q e l = S754_finite false m e' /\
    q / 2 <= R <= q / 2 + 1 /\ (q mod 2 = 0 -> R = q / 2) /\ (q mod 2 = 1 -> l <> loc_Exact -> R = q / 2 + 1) /\
    ((R < 2 ^ 53 /\ Zpos m = R /\ e' = e + 1) \/ (R = 2 ^ 53 /\ Zpos m = 2 ^ 52 /\ e' = e + 2)).
Proof.
  intros q e l B He. unfold binary_round_aux. unfold shr_fexp at 1.
  assert (D : Zdigits2 q = 54) by (apply zdigits_is; [lia|]; change (54 - 1) with 53; lia).
  rewrite D. replace (fexp 53 1024 (54 + e) - e) with 1 by (unfold fexp, emin; lia).
  assert (P : 0 < q) by (assert (0 < 2 ^ 53) by (apply Z.pow_pos_nonneg; lia); lia).
  assert (DM := Z.div_mod q 2 ltac:(lia)).
  change (2 ^ 54) with (2 * 2 ^ 53) in B. change (2 ^ 53) with (2 * 2 ^ 52) in B at 1.
  set (mrs := fst (shr (shr_record_of_loc q l) e 1)).
  assert (S : shr (shr_record_of_loc q l) e 1 = (mrs, e + 1)) by reflexivity.
  assert (M : shr_m mrs = q / 2).
  { destruct (shr_spec (shr_record_of_loc q l) e 1) as [A _]; [rewrite m_back; lia|].
    unfold mrs. rewrite A, m_back. reflexivity. }
  rewrite S. cbv beta iota. rewrite M.
  set (R := round_nearest_even (q / 2) (loc_of_shr_record mrs)).
  assert (RB : q / 2 <= R <= q / 2 + 1) by (unfold R; destruct (rne_cases (q / 2) (loc_of_shr_record mrs)) as [-> | ->]; lia).
  pose proof (Z.mod_pos_bound q 2 ltac:(lia)) as MB.
  destruct (second_round R (e + 1)) as (m & e' & E & C); [lia|lia|].
  exists m, e', R. split; [exact E|]. split; [exact RB|]. split; [|split].
  - intro Q. unfold R, mrs. destruct q as [|p|p]; try lia.
    destruct p; [exfalso; rewrite Pos2Z.inj_xI in Q; lia| |lia]. destruct l as [|[]]; reflexivity.
  - intros Q NL. unfold R, mrs. destruct q as [|p|p]; try lia.
    destruct p; [|exfalso; rewrite Pos2Z.inj_xO in Q; lia|].
    + destruct l as [|[]]; [congruence| | |]; reflexivity.
    + exfalso. cbn in B. lia.
  - destruct C as [C|C]; [left; lia|right; lia].
Qed.

(** Integers below 2^53 are converted without rounding. *)
Lemma f64_exact : forall p, Zpos p < 2 ^ 53 ->
  exists m k, f64_of_Z (Zpos p) = S754_finite false m (- k) /\ 0 <= k <= 52 /\
    Zpos m = Zpos p * 2 ^ k /\ 2 ^ 52 <= Zpos m < 2 ^ 53 /\ k = 53 - Zdigits2 (Zpos p).
Proof.
  intros p Hp. unfold f64_of_Z, binary_normalize, binary_round, shl_align.
  destruct (digits_pos p) as [D1 D2]. set (d := Zpos (digits2_pos p)) in *.
  assert (Hd : 1 <= d <= 53).
  { split; [lia|]. destruct (Z.le_gt_cases d 53); auto.
    assert (2 ^ 53 <= 2 ^ (d - 1)) by (apply Z.pow_le_mono_r; lia). lia. }
  assert (EF : fexp prec64 emax64 (d + 0) = d - 53) by (unfold fexp, emin, prec64, emax64; lia).
  rewrite EF, Z.sub_0_r. unfold prec64, emax64.
  assert (B : 2 ^ 52 <= Zpos p * 2 ^ (53 - d) < 2 ^ 53).
  { split.
    - replace (2 ^ 52) with (2 ^ (d - 1) * 2 ^ (53 - d)) by (rewrite <- Z.pow_add_r by lia; f_equal; lia).
      apply Z.mul_le_mono_nonneg_r; auto. apply Z.pow_nonneg. lia.
    - replace (2 ^ 53) with (2 ^ d * 2 ^ (53 - d)) by (rewrite <- Z.pow_add_r by lia; f_equal; lia).
      apply Z.mul_lt_mono_pos_r; auto. apply Z.pow_pos_nonneg; lia. }
  assert (X : exists m', (match d - 53 with Zneg q => (shift_pos q p, d - 53) | _ => (p, 0) end) = (m', d - 53) /\
     Zpos m' = Zpos p * 2 ^ (53 - d)).
  { destruct (d - 53) as [|q|q] eqn:Q; try lia.
    - exists p. split; auto. replace (53 - d) with 0 by lia. change (2 ^ 0) with 1. lia.
    - exists (shift_pos q p). split; auto. rewrite shift_pos_correct, Z.mul_comm. f_equal.
      change (Z.pow_pos 2 q) with (2 ^ Zpos q). f_equal. lia. }
  destruct X as (m' & X1 & X2).
  replace (let '(mz, ez) := match d - 53 with Zneg d0 => (shift_pos d0 p, d - 53) | _ => (p, 0) end in
           binary_round_aux 53 1024 false (Zpos mz) ez loc_Exact)
    with (binary_round_aux 53 1024 false (Zpos m') (d - 53) loc_Exact) by (rewrite X1; reflexivity).
  destruct (round53 (Zpos m') (d - 53) loc_Exact) as (m & e' & E & C); [lia|lia|].
  cbn [round_nearest_even] in C. destruct C as [(_ & C1 & C2)|(C1 & _)]; [|lia].
  exists m, (53 - d). rewrite E. replace (- (53 - d)) with e' by lia.
  assert (Zdigits2 (Zpos p) = d) by reflexivity. repeat split; lia.
Qed.

Lemma ltb_finite : forall m e c f, SFltb (S754_finite false m e) (S754_finite false c f) =
  (e <? f) || ((e =? f) && (Zpos m <? Zpos c)).
Proof.
  intros m e c f. unfold SFltb. cbn [SFcompare].
  destruct (Z.compare_spec e f) as [->|L|L].
  - rewrite Z.ltb_irrefl, Z.eqb_refl. cbn [orb andb]. unfold Z.ltb. cbn [Z.compare].
    fold (Pos.compare m c). destruct (Pos.compare m c); reflexivity.
  - apply Z.ltb_lt in L. rewrite L. reflexivity.
  - rewrite (proj2 (Z.ltb_ge e f)) by lia. rewrite (proj2 (Z.eqb_neq e f)) by lia. reflexivity.
Qed.
Lemma ltb_f0_01 : forall m e, fltb (S754_finite false m e) f0_01 =
  (e <? -59) || ((e =? -59) && (Zpos m <? 5764607523034235)).
Proof. intros m e. apply ltb_finite. Qed.

(** d / n < 0.01 in binary64 exactly when 100 d < n. *)
Lemma below_hundredth : forall d n, 1 <= d <= 1000 -> 1 <= n < 2 ^ 53 ->
  fltb (f64div (f64_of_Z d) (f64_of_Z n)) f0_01 = (100 * d <? n).
Proof.
  intros d n Hd Hn. destruct d as [|pd|pd]; try lia. destruct n as [|pn|pn]; try lia.
  destruct (f64_exact pd) as (m1 & k1 & E1 & K1 & M1 & B1 & DK1); [change (2 ^ 53) with 9007199254740992; lia|].
  destruct (f64_exact pn) as (m2 & k2 & E2 & K2 & M2 & B2 & DK2); [lia|].
  assert (K1b : 43 <= k1).
  { rewrite DK1. assert (Zdigits2 (Zpos pd) <= 10); [|lia].
    destruct (zdigits_spec (Zpos pd) ltac:(lia)) as [[A _] _].
    destruct (Z.le_gt_cases (Zdigits2 (Zpos pd)) 10); auto.
    assert (2 ^ 10 <= 2 ^ (Zdigits2 (Zpos pd) - 1)) by (apply Z.pow_le_mono_r; lia).
    change (2 ^ 10) with 1024 in *. lia. }
  clear DK1 DK2. rewrite E1, E2. unfold f64div, SFdiv, SFdiv_core_binary, prec64, emax64. clear E1 E2.
  rewrite (zdigits_is (Zpos m1) 53) by (try lia; change (53 - 1) with 52; lia).
  rewrite (zdigits_is (Zpos m2) 53) by (try lia; change (53 - 1) with 52; lia).
  set (a := k1 + 53 - k2).
  replace (Z.min (fexp 53 1024 (53 + - k1 - (53 + - k2))) (- k1 - - k2)) with (- a)
    by (unfold fexp, emin, a; lia).
  replace (- k1 - - k2 - - a) with 53 by (unfold a; lia). cbn match.
  rewrite Z.shiftl_mul_pow2 by lia.
  destruct (Z.div_eucl (Zpos m1 * 2 ^ 53) (Zpos m2)) as [q r] eqn:DE.
  assert (DQ : Zpos m1 * 2 ^ 53 = Zpos m2 * q + r /\ 0 <= r < Zpos m2).
  { pose proof (Z_div_mod (Zpos m1 * 2 ^ 53) (Zpos m2) ltac:(lia)) as Z1. rewrite DE in Z1. exact Z1. }
  destruct DQ as [DQ RB].
  assert (P2 : 0 < 2 ^ k2) by (apply Z.pow_pos_nonneg; lia).
  assert (Ha : 44 <= a <= 105) by (unfold a; lia).
  assert (Q1 : 2 ^ 52 <= q < 2 ^ 54).
  { change (2 ^ 52) with 4503599627370496 in *. change (2 ^ 53) with 9007199254740992 in *.
    change (2 ^ 54) with 18014398509481984. nia. }
  (* in terms of d and n *)
  assert (EQ : exists t, Zpos pd * 2 ^ a = Zpos pn * q + t /\ 0 <= t < Zpos pn /\ r = 2 ^ k2 * t).
  { exists (Zpos pd * 2 ^ a - Zpos pn * q).
    assert (F : 2 ^ k1 * 2 ^ 53 = 2 ^ a * 2 ^ k2).
    { rewrite <- !Z.pow_add_r by lia. f_equal. unfold a. lia. }
    rewrite M1, M2 in DQ.
    assert (G : Zpos pd * 2 ^ a * 2 ^ k2 = Zpos pn * 2 ^ k2 * q + r).
    { rewrite <- DQ. rewrite <- !Z.mul_assoc. rewrite <- F. ring. }
    assert (G2 : r = 2 ^ k2 * (Zpos pd * 2 ^ a - Zpos pn * q)) by (rewrite Z.mul_sub_distr_l; lia).
    split; [lia|]. split; [|exact G2]. rewrite M2 in RB.
    clear - G2 RB P2. set (t := Zpos pd * 2 ^ a - Zpos pn * q) in *. nia. }
  destruct EQ as (t & EQ & TB & RT). rewrite M2 in *. clear M1 M2 DE DQ B1 B2.
  change (2 ^ 52) with 4503599627370496 in *. change (2 ^ 53) with 9007199254740992 in *.
  change (2 ^ 54) with 18014398509481984 in *.
  set (d := Zpos pd) in *. set (n := Zpos pn) in *. change (xorb false false) with false.
  set (l := new_location (n * 2 ^ k2) r).
  assert (Lx : l = loc_Exact -> t = 0).
  { unfold l, new_location, new_location_even, new_location_odd. intro X.
    assert (r = 0).
    { destruct (Z.even (n * 2 ^ k2)); destruct (Zeq_bool r 0) eqn:Z0; try discriminate X; apply Zeq_bool_eq; exact Z0. }
    nia. }
  assert (Lg : n < 2 * t -> l = loc_Inexact Gt).
  { intro G. assert (n * 2 ^ k2 < 2 * r) by nia. assert (r <> 0) by nia.
    unfold l, new_location, new_location_even, new_location_odd.
    assert (Z0 : Zeq_bool r 0 = false) by (destruct (Zeq_bool r 0) eqn:Z0; auto; apply Zeq_bool_eq in Z0; lia).
    destruct (Z.even (n * 2 ^ k2)); rewrite Z0.
    - rewrite (proj2 (Z.compare_gt_iff (2 * r) (n * 2 ^ k2))) by lia. reflexivity.
    - rewrite (proj2 (Z.compare_gt_iff (2 * r + 1) (n * 2 ^ k2))) by lia. reflexivity. }
  assert (Ll : 2 * t < n -> l = loc_Exact \/ l = loc_Inexact Lt).
  { intro G. assert (2 * r < n * 2 ^ k2) by nia.
    unfold l, new_location, new_location_even, new_location_odd.
    destruct (Z.even (n * 2 ^ k2)); (destruct (Zeq_bool r 0); [auto|]); right.
    - rewrite (proj2 (Z.compare_lt_iff (2 * r) (n * 2 ^ k2))) by lia. reflexivity.
    - destruct (Z.compare_spec (2 * r + 1) (n * 2 ^ k2)); auto. lia. }
  assert (A58 : a <= 58 -> d * 2 ^ a <= d * 288230376151711744).
  { intro A. apply Z.mul_le_mono_nonneg_l; [lia|]. change 288230376151711744 with (2 ^ 58). apply Z.pow_le_mono_r; lia. }
  assert (A59 : a <= 59 -> d * 2 ^ a <= d * 576460752303423488).
  { intro A. apply Z.mul_le_mono_nonneg_l; [lia|]. change 576460752303423488 with (2 ^ 59). apply Z.pow_le_mono_r; lia. }
  assert (A60 : 60 <= a -> d * 1152921504606846976 <= d * 2 ^ a).
  { intro A. apply Z.mul_le_mono_nonneg_l; [lia|]. change 1152921504606846976 with (2 ^ 60). apply Z.pow_le_mono_r; lia. }
  assert (A61 : 61 <= a -> d * 2305843009213693952 <= d * 2 ^ a).
  { intro A. apply Z.mul_le_mono_nonneg_l; [lia|]. change 2305843009213693952 with (2 ^ 61). apply Z.pow_le_mono_r; lia. }
  clearbody l. clear RT RB P2 K1 K1b K2.
  assert (HQ : n * 4503599627370496 <= n * q < n * 18014398509481984) by (split; [apply Z.mul_le_mono_nonneg_l|apply Z.mul_lt_mono_pos_l]; lia).
  destruct (Z.lt_ge_cases q 9007199254740992) as [QL|QL].
  - assert (HQ2 : n * q <= n * 9007199254740991) by (apply Z.mul_le_mono_nonneg_l; lia).
    destruct (round53 q (- a) l) as (m & e' & E & C); [change (2 ^ 52) with 4503599627370496; change (2 ^ 53) with 9007199254740992; lia|lia|].
    rewrite E, ltb_f0_01. cbv zeta in C. set (R := round_nearest_even q l) in *. change (2 ^ 53) with 9007199254740992 in C. change (2 ^ 52) with 4503599627370496 in C.
    assert (a <= 58 \/ a = 59 \/ 60 <= a) as [A|[A|A]] by lia.
    + specialize (A58 A). rewrite (proj2 (Z.ltb_ge e' (-59))) by lia. rewrite (proj2 (Z.eqb_neq e' (-59))) by lia.
      symmetry. apply Z.ltb_ge. lia.
    + rewrite A in EQ. change (2 ^ 59) with 576460752303423488 in EQ.
      destruct (Z.ltb_spec (100 * d) n) as [G|G].
      * assert (QC : 100 * (n * q + t) <= 576460752303423488 * n - 576460752303423488) by lia.
        assert (R < 5764607523034235).
        { unfold R. destruct (Z.lt_trichotomy q 5764607523034234) as [L|[L|L]].
          - destruct (rne_cases q l) as [-> | ->]; lia.
          - subst q. destruct Ll as [-> | ->]; cbn [round_nearest_even]; lia.
          - assert (n * 5764607523034235 <= n * q) by (apply Z.mul_le_mono_nonneg_l; lia). lia. }
        destruct C as [(_ & -> & ->)|(C & _)]; [|lia]. rewrite A.
        change (- (59) <? -59) with false. change (- (59) =? -59) with true. cbn [orb andb]. apply Z.ltb_lt. lia.
      * assert (QC : 100 * (n * q + t) >= 576460752303423488 * n) by lia.
        assert (R >= 5764607523034235).
        { unfold R. destruct (Z.lt_trichotomy q 5764607523034234) as [L|[L|L]].
          - assert (n * q <= n * 5764607523034233) by (apply Z.mul_le_mono_nonneg_l; lia). lia.
          - subst q. rewrite Lg by lia. cbn [round_nearest_even]. lia.
          - destruct (rne_cases q l) as [-> | ->]; lia. }
        destruct C as [(_ & -> & ->)|(_ & _ & ->)]; rewrite A.
        -- change (- (59) <? -59) with false. change (- (59) =? -59) with true. cbn [orb andb]. apply Z.ltb_ge. lia.
        -- reflexivity.
    + specialize (A60 A). rewrite (proj2 (Z.ltb_lt (100 * d) n)) by lia.
      destruct C as [(_ & _ & ->)|(_ & -> & ->)].
      * rewrite (proj2 (Z.ltb_lt (- a) (-59))) by lia. reflexivity.
      * destruct (Z.eq_dec a 60) as [->|]; [reflexivity|]. rewrite (proj2 (Z.ltb_lt (- a + 1) (-59))) by lia. reflexivity.
  - assert (HQ2 : n * 9007199254740992 <= n * q) by (apply Z.mul_le_mono_nonneg_l; lia).
    assert (HQ3 : n * q <= n * 18014398509481983) by (apply Z.mul_le_mono_nonneg_l; lia).
    destruct (round54 q (- a) l) as (m & e' & R & E & RB & Re & Ro & C);
      [change (2 ^ 54) with 18014398509481984; change (2 ^ 53) with 9007199254740992; lia|lia|].
    rewrite E, ltb_f0_01. change (2 ^ 53) with 9007199254740992 in C. change (2 ^ 52) with 4503599627370496 in C.
    pose proof (Z.div_mod q 2 ltac:(lia)) as DM. pose proof (Z.mod_pos_bound q 2 ltac:(lia)) as MB.
    assert (a <= 59 \/ a = 60 \/ 61 <= a) as [A|[A|A]] by lia.
    + specialize (A59 A). rewrite (proj2 (Z.ltb_ge e' (-59))) by lia. rewrite (proj2 (Z.eqb_neq e' (-59))) by lia.
      symmetry. apply Z.ltb_ge. lia.
    + rewrite A in EQ. change (2 ^ 60) with 1152921504606846976 in EQ.
      destruct (Z.ltb_spec (100 * d) n) as [G|G].
      * assert (QC : 100 * (n * q + t) <= 1152921504606846976 * n - 1152921504606846976) by lia.
        assert (q <= 11529215046068468).
        { destruct (Z.le_gt_cases q 11529215046068468) as [L|L]; auto.
          assert (n * 11529215046068469 <= n * q) by (apply Z.mul_le_mono_nonneg_l; lia). lia. }
        assert (R < 5764607523034235).
        { destruct (Z.eq_dec (q mod 2) 0) as [Q0|Q0]; [specialize (Re Q0)|]; lia. }
        destruct C as [(_ & -> & ->)|(C & _)]; [|lia]. rewrite A.
        change (- (60) + 1 <? -59) with false. change (- (60) + 1 =? -59) with true. cbn [orb andb]. apply Z.ltb_lt. lia.
      * assert (QC : 100 * (n * q + t) >= 1152921504606846976 * n) by lia.
        assert (q >= 11529215046068469).
        { destruct (Z.le_gt_cases q 11529215046068468) as [L|L]; [|lia].
          assert (n * q <= n * 11529215046068468) by (apply Z.mul_le_mono_nonneg_l; lia). lia. }
        assert (R >= 5764607523034235).
        { destruct (Z.eq_dec q 11529215046068469) as [->|]; [|lia].
          rewrite Ro; [discriminate|reflexivity|]. intro X. apply Lx in X. lia. }
        destruct C as [(_ & -> & ->)|(_ & _ & ->)]; rewrite A.
        -- change (- (60) + 1 <? -59) with false. change (- (60) + 1 =? -59) with true. cbn [orb andb]. apply Z.ltb_ge. lia.
        -- reflexivity.
    + specialize (A61 A). rewrite (proj2 (Z.ltb_lt (100 * d) n)) by lia.
      destruct C as [(_ & _ & ->)|(_ & -> & ->)].
      * rewrite (proj2 (Z.ltb_lt (- a + 1) (-59))) by lia. reflexivity.
      * destruct (Z.eq_dec a 61) as [->|]; [reflexivity|]. rewrite (proj2 (Z.ltb_lt (- a + 2) (-59))) by lia. reflexivity.
Qed.
