(** Bounds on the rounding of positive binary64 numbers. *)
From Verif.Base Require Import GoBase GoLemmas Float.
From Verif.Model Require Import QueryCache.
From Coq Require Import Lia ZArith.
Open Scope Z_scope.

Lemma shr_1_m : forall mrs, 0 <= shr_m mrs -> shr_m (shr_1 mrs) = shr_m mrs / 2.
Proof.
  intros [m r s] H. cbn in *. destruct m as [|p|p]; try lia; auto.
  destruct p; cbn; try reflexivity.
  - rewrite Pos2Z.inj_xI. rewrite Z.add_comm, Z.mul_comm, Z.div_add by lia. reflexivity.
  - rewrite Pos2Z.inj_xO. rewrite Z.mul_comm, Z.div_mul by lia. reflexivity.
Qed.

Lemma iter_shr_m : forall p mrs, 0 <= shr_m mrs ->
  shr_m (SpecFloat.iter_pos shr_1 p mrs) = shr_m mrs / 2 ^ Zpos p /\ 0 <= shr_m (SpecFloat.iter_pos shr_1 p mrs).
Proof.
  induction p; intros mrs H; cbn [SpecFloat.iter_pos].
  - assert (H1 : 0 <= shr_m (shr_1 mrs)) by (rewrite shr_1_m by lia; apply Z.div_pos; lia).
    destruct (IHp _ H1) as [E1 P1]. destruct (IHp _ P1) as [E2 P2]. split; auto.
    rewrite E2, E1, (shr_1_m mrs H). rewrite !Z.div_div by (try apply Z.pow_pos_nonneg; lia).
    f_equal. replace (Zpos p~1) with (Zpos p + Zpos p + 1) by lia.
    rewrite !Z.pow_add_r by lia. change (2 ^ 1) with 2. lia.
  - destruct (IHp _ H) as [E1 P1]. destruct (IHp _ P1) as [E2 P2]. split; auto.
    rewrite E2, E1. rewrite !Z.div_div by (try apply Z.pow_pos_nonneg; lia).
    f_equal. replace (Zpos p~0) with (Zpos p + Zpos p) by lia.
    rewrite !Z.pow_add_r by lia. lia.
  - split; [apply shr_1_m; auto|]. rewrite shr_1_m by lia. apply Z.div_pos; lia.
Qed.

(** shr by n >= 0 divides and adds n to the exponent. *)
Lemma shr_spec : forall mrs e n, 0 <= shr_m mrs ->
  shr_m (fst (shr mrs e n)) = shr_m mrs / 2 ^ (Z.max 0 n) /\ snd (shr mrs e n) = e + Z.max 0 n.
Proof.
  intros mrs e n H. destruct n as [|p|p]; cbn [shr fst snd].
  - rewrite Z.max_id. change (2 ^ 0) with 1. rewrite Z.div_1_r. split; lia.
  - split; [apply iter_shr_m; auto|lia].
  - replace (Z.max 0 (Zneg p)) with 0 by lia. change (2 ^ 0) with 1. rewrite Z.div_1_r. split; lia.
Qed.

Lemma shr_zero : forall mrs e n, n <= 0 -> shr mrs e n = (mrs, e).
Proof. intros mrs e n H. destruct n; auto. lia. Qed.

Lemma rne_cases : forall m l, round_nearest_even m l = m \/ round_nearest_even m l = m + 1.
Proof. intros m l. destruct l as [|[]]; cbn; auto. destruct (Z.even m); auto. Qed.

Lemma digits_pos : forall p, 2 ^ (Zpos (digits2_pos p) - 1) <= Zpos p < 2 ^ Zpos (digits2_pos p).
Proof.
  induction p; cbn [digits2_pos]; [| |cbn; lia];
    rewrite Pos2Z.inj_succ;
    replace (Z.succ (Zpos (digits2_pos p)) - 1) with (Zpos (digits2_pos p)) by lia;
    rewrite Z.pow_succ_r by lia;
    assert (E : 2 ^ Zpos (digits2_pos p) = 2 * 2 ^ (Zpos (digits2_pos p) - 1))
      by (rewrite <- Z.pow_succ_r by lia; f_equal; lia);
    revert IHp E; generalize (2 ^ Zpos (digits2_pos p)) (2 ^ (Zpos (digits2_pos p) - 1)); intros; lia.
Qed.

Lemma zdigits_spec : forall z, 0 < z -> 2 ^ (Zdigits2 z - 1) <= z < 2 ^ Zdigits2 z /\ 1 <= Zdigits2 z.
Proof.
  intros z H. destruct z as [|p|p]; try lia. cbn [Zdigits2]. split; [apply digits_pos|lia].
Qed.

Lemma zdigits_le : forall z n, 0 <= n -> 0 < z <= 2 ^ n -> Zdigits2 z <= n + 1.
Proof.
  intros z n Hn [H1 H2]. destruct (zdigits_spec z H1) as [[A _] B].
  destruct (Z.le_gt_cases (Zdigits2 z) (n + 1)); auto.
  assert (2 ^ (n + 1) <= 2 ^ (Zdigits2 z - 1)) by (apply Z.pow_le_mono_r; lia).
  rewrite Z.pow_add_r in H0 by lia. change (2 ^ 1) with 2 in H0.
  assert (0 < 2 ^ n) by (apply Z.pow_pos_nonneg; lia). lia.
Qed.

(** Rounding a positive number m * 2^e whose rounding is not subnormal: the
    result m' * 2^e' satisfies e <= e' and m' * 2^(e'-e) <= m + m / 2^52. *)
Lemma round_aux_bound : forall m e,
  -1074 <= Zdigits2 (Zpos m) + e - 53 -> Zdigits2 (Zpos m) + e <= 900 ->
  exists m' e', binary_round_aux 53 1024 false (Zpos m) e loc_Exact = S754_finite false m' e' /\
    e <= e' /\ Zpos m' * 2 ^ (e' - e) * 2 ^ 52 <= Zpos m * (2 ^ 52 + 1) /\
    (Zdigits2 (Zpos m) <= 53 -> Zpos m' = Zpos m /\ e' = e) /\
    Zdigits2 (Zpos m') + e' <= Zdigits2 (Zpos m) + e + 1 /\
    Zdigits2 (Zpos m) + e <= Zdigits2 (Zpos m') + e'.
Proof.
  intros m e Hs Hb. unfold binary_round_aux, shr_fexp.
  set (d := Zdigits2 (Zpos m)) in *.
  destruct (zdigits_spec (Zpos m) ltac:(lia)) as [[D1 D2] D3]. fold d in D1, D2, D3.
  replace (fexp 53 1024 (d + e) - e) with (d - 53) by (unfold fexp, emin; lia).
  cbn [shr_record_of_loc].
  destruct (shr_spec (Build_shr_record (Zpos m) false false) e (d - 53)) as [E1 E2]; [cbn; lia|].
  cbn [shr_m] in E1.
  destruct (shr (Build_shr_record (Zpos m) false false) e (d - 53)) as [mrs1 e1] eqn:S1.
  cbn [fst snd] in E1, E2. set (n1 := Z.max 0 (d - 53)) in *.
  set (M1 := shr_m mrs1) in *. set (R := round_nearest_even M1 (loc_of_shr_record mrs1)).
  assert (P1 : 0 < 2 ^ n1) by (apply Z.pow_pos_nonneg; lia).
  (* size of the shifted mantissa *)
  assert (B1 : 2 ^ (d - 1 - n1) <= M1 < 2 ^ (d - n1)).
  { rewrite E1. split.
    - apply Z.div_le_lower_bound; auto. rewrite <- Z.pow_add_r by lia.
      replace (n1 + (d - 1 - n1)) with (d - 1) by lia. lia.
    - apply Z.div_lt_upper_bound; auto. rewrite <- Z.pow_add_r by lia.
      replace (n1 + (d - n1)) with d by lia. lia. }
  assert (M1 * 2 ^ n1 <= Zpos m).
  { rewrite E1, Z.mul_comm. apply Z.mul_div_le. auto. }
  assert (HR : R = M1 \/ R = M1 + 1) by apply rne_cases.
  assert (Hex : d <= 53 -> R = Zpos m /\ n1 = 0).
  { intro Hd. assert (n1 = 0) by lia. split; auto.
    unfold shr in S1. destruct (d - 53) eqn:Ed; try lia; injection S1 as <- <-; unfold R, M1; reflexivity. }
  assert (PM1 : 0 < M1).
  { eapply Z.lt_le_trans; [|apply B1]. apply Z.pow_pos_nonneg; lia. }
  assert (RB : 0 < R <= 2 ^ (d - n1)) by (destruct HR as [-> | ->]; lia).
  set (d2 := Zdigits2 R).
  assert (Dd2 : d2 <= d - n1 + 1) by (apply zdigits_le; lia).
  destruct (zdigits_spec R ltac:(lia)) as [[F1 F2] F3]. fold d2 in F1, F2, F3.
  assert (Dlow : d - n1 <= d2).
  { destruct (Z.le_gt_cases (d - n1) d2); auto.
    assert (2 ^ d2 <= 2 ^ (d - 1 - n1)) by (apply Z.pow_le_mono_r; lia).
    assert (M1 <= R) by (destruct HR; lia). lia. }
  replace (fexp 53 1024 (d2 + e1) - e1) with (Z.max (d2 - 53) (-1074 - e1)) by (unfold fexp, emin; lia).
  assert (Z.max (d2 - 53) (-1074 - e1) <= 0 \/
          (Z.max (d2 - 53) (-1074 - e1) = 1 /\ d2 = 54 /\ d - n1 = 53)) as [Hn|(Hn & Hd2 & Hdn)] by lia.
  - rewrite shr_zero by auto. cbn [shr_m shr_record_of_loc].
    assert (Hp : R = Zpos (Z.to_pos R)) by (rewrite Z2Pos.id; lia).
    rewrite Hp.
    assert ((e1 <=? 1024 - 53) = true) as -> by (apply Z.leb_le; lia).
    exists (Z.to_pos R), e1. split; [reflexivity|]. rewrite <- Hp.
    split; [lia|]. split; [|split; [|split]].
    + replace (e1 - e) with n1 by lia.
      destruct (Z.le_gt_cases d 53) as [Hd|Hd].
      * destruct (Hex Hd) as [-> ->]. change (2 ^ 0) with 1. lia.
      * assert (2 ^ n1 * 2 ^ 52 <= Zpos m).
        { rewrite <- Z.pow_add_r by lia. replace (n1 + 52) with (d - 1) by lia. auto. }
        destruct HR as [-> | ->]; nia.
    + intro Hd. destruct (Hex Hd) as [-> ?]. split; auto. lia.
    + fold d2. lia.
    + fold d2. lia.
  - (* R = 2^53 *)
    assert (ER : R = 2 ^ 53).
    { rewrite Hd2 in F1. rewrite Hdn in RB. change (54 - 1) with 53 in F1. lia. }
    rewrite Hn, ER. cbn [shr_record_of_loc].
    change (shr (Build_shr_record (2 ^ 53) false false) e1 1)
      with (Build_shr_record 4503599627370496 false false, e1 + 1).
    cbn [shr_m].
    assert ((e1 + 1 <=? 1024 - 53) = true) as -> by (apply Z.leb_le; lia).
    exists 4503599627370496%positive, (e1 + 1). split; [reflexivity|].
    split; [lia|]. split; [|split; [|split]].
    + replace (e1 + 1 - e) with (n1 + 1) by lia. rewrite Z.pow_add_r by lia. change (2 ^ 1) with 2.
      replace (4503599627370496 * (2 ^ n1 * 2) * 2 ^ 52) with (R * 2 ^ n1 * 2 ^ 52) by (rewrite ER; lia).
      destruct (Z.le_gt_cases d 53) as [Hd|Hd].
      * destruct (Hex Hd) as [E _]. exfalso. assert (d2 = d) by (unfold d2, d; rewrite E; auto). lia.
      * assert (2 ^ n1 * 2 ^ 52 <= Zpos m).
        { rewrite <- Z.pow_add_r by lia. replace (n1 + 52) with (d - 1) by lia. auto. }
        destruct HR as [E | E]; rewrite E; nia.
    + intro Hd. exfalso. destruct (Hex Hd) as [E _]. assert (d2 = d) by (unfold d2, d; rewrite E; auto). lia.
    + change (Zdigits2 4503599627370496) with 53. lia.
    + change (Zdigits2 4503599627370496) with 53. lia.
Qed.

(** float64(t) for 1 <= t < 2^64. *)
Lemma f64_of_pos : forall p, Zpos p < 2 ^ 64 ->
  exists m e, f64_of_Z (Zpos p) = S754_finite false m e /\ -52 <= e /\ Zdigits2 (Zpos m) + e <= 65 /\
    Zpos m * 2 ^ (e + 52) * 2 ^ 52 <= Zpos p * 2 ^ 52 * (2 ^ 52 + 1).
Proof.
  intros p Hp. unfold f64_of_Z, binary_normalize, binary_round, shl_align.
  destruct (digits_pos p) as [D1 D2]. set (d := Zpos (digits2_pos p)) in *.
  assert (Hd : 1 <= d <= 64).
  { split; [lia|]. destruct (Z.le_gt_cases d 64); auto.
    assert (2 ^ 64 <= 2 ^ (d - 1)) by (apply Z.pow_le_mono_r; lia). lia. }
  assert (EF : fexp prec64 emax64 (d + 0) = d - 53) by (unfold fexp, emin, prec64, emax64; lia).
  rewrite EF, Z.sub_0_r. unfold prec64, emax64.
  assert (NS : exists m e, binary_round_aux 53 1024 false (Zpos p) 0 loc_Exact = S754_finite false m e /\
                -52 <= e /\ Zdigits2 (Zpos m) + e <= 65 /\
                Zpos m * 2 ^ (e + 52) * 2 ^ 52 <= Zpos p * 2 ^ 52 * (2 ^ 52 + 1)).
  { destruct (round_aux_bound p 0) as (m & e & E & He & B & Ex & L1 & L2);
      cbn [Zdigits2]; fold d; try lia.
    exists m, e. rewrite E. split; auto. cbn [Zdigits2] in *. fold d in Ex, L1, L2.
    split; [lia|]. split; [lia|]. rewrite Z.sub_0_r in B. rewrite Z.pow_add_r by lia. lia. }
  destruct (d - 53) as [|q|q] eqn:Eq; auto.
  (* shifted left to 53 digits *)
  set (p' := shift_pos q p).
  assert (Ep : Zpos p' = Zpos p * 2 ^ (53 - d)).
  { unfold p'. rewrite shift_pos_correct, Z.mul_comm. f_equal. change (Z.pow_pos 2 q) with (2 ^ Zpos q).
    f_equal. lia. }
  assert (Dp : Zdigits2 (Zpos p') = 53).
  { destruct (zdigits_spec (Zpos p') ltac:(lia)) as [[A B] C].
    assert (2 ^ 52 <= Zpos p').
    { rewrite Ep. replace (2 ^ 52) with (2 ^ (d - 1) * 2 ^ (53 - d)) by (rewrite <- Z.pow_add_r by lia; f_equal; lia).
      apply Z.mul_le_mono_nonneg_r; auto. apply Z.pow_nonneg. lia. }
    assert (Zpos p' < 2 ^ 53).
    { rewrite Ep. replace (2 ^ 53) with (2 ^ d * 2 ^ (53 - d)) by (rewrite <- Z.pow_add_r by lia; f_equal; lia).
      apply Z.mul_lt_mono_pos_r; auto. apply Z.pow_pos_nonneg; lia. }
    destruct (Z.lt_trichotomy (Zdigits2 (Zpos p')) 53) as [L|[L|L]]; auto.
    - assert (2 ^ Zdigits2 (Zpos p') <= 2 ^ 52) by (apply Z.pow_le_mono_r; lia). lia.
    - assert (2 ^ 53 <= 2 ^ (Zdigits2 (Zpos p') - 1)) by (apply Z.pow_le_mono_r; lia). lia. }
  destruct (round_aux_bound p' (Zneg q)) as (m & e & E & He & B & Ex & L1 & L2); rewrite ?Dp; try lia.
  destruct (Ex ltac:(lia)) as [E1 E2]. exists m, e. rewrite E. split; auto.
  split; [lia|]. split; [lia|]. rewrite E1, E2, Ep. rewrite <- Eq.
  replace (Zpos p * 2 ^ (53 - d) * 2 ^ (d - 53 + 52)) with (Zpos p * 2 ^ 52).
  2:{ rewrite <- Z.mul_assoc, <- Z.pow_add_r by lia. f_equal. f_equal. lia. }
  apply Z.mul_le_mono_nonneg_l; lia.
Qed.

Lemma times_0_9_trunc : forall p, Zpos p < 2 ^ 64 ->
  exists z, f_trunc (f64mul (f64_of_Z (Zpos p)) f0_9) = Some z /\ 0 <= z < Zpos p.
Proof.
  intros p Hp. destruct (f64_of_pos p Hp) as (m & e & -> & He & Hd & B).
  unfold f64mul, f0_9, SFmul, prec64, emax64. cbn [xorb].
  set (mp := (m * 8106479329266893)%positive).
  assert (Em : Zpos mp = Zpos m * 8106479329266893) by (unfold mp; lia).
  assert (Dm : Zdigits2 (Zpos mp) + (e - 53) <= 200).
  { destruct (zdigits_spec (Zpos m) ltac:(lia)) as [[A1 A2] A3].
    assert (Zdigits2 (Zpos mp) <= Zdigits2 (Zpos m) + 53 + 1); [|lia].
    apply zdigits_le; [lia|]. split; [lia|]. rewrite Z.pow_add_r by lia.
    change (2 ^ 53) with 9007199254740992. rewrite Em. nia. }
  assert (D1 : 1 <= Zdigits2 (Zpos mp)) by (cbn; lia).
  destruct (round_aux_bound mp (e + -53)) as (m2 & e2 & -> & He2 & B2 & _ & _ & _); try lia.
  unfold f_trunc.
  assert (K : Zpos m2 * 2 ^ (e2 + 105) < Zpos p * 2 ^ 105).
  { (* m2 2^(e2+105) 2^52 <= mp 2^(e+52) (2^52+1) *)
    assert (S1 : Zpos m2 * 2 ^ (e2 + 105) * 2 ^ 52 <= Zpos mp * 2 ^ (e + 52) * (2 ^ 52 + 1)).
    { replace (e2 + 105) with ((e2 - (e + -53)) + (e + 52)) by lia. rewrite Z.pow_add_r by lia.
      assert (0 <= 2 ^ (e + 52)) by (apply Z.pow_nonneg; lia). nia. }
    rewrite Em in S1.
    assert (S2 : Zpos m2 * 2 ^ (e2 + 105) * 2 ^ 52 * 2 ^ 52
                 <= Zpos p * 2 ^ 52 * (2 ^ 52 + 1) * 8106479329266893 * (2 ^ 52 + 1)) by nia.
    change (2 ^ 105) with (2 ^ 53 * 2 ^ 52).
    change (2 ^ 52) with 4503599627370496 in *. change (2 ^ 53) with 9007199254740992.
    nia. }
  destruct (0 <=? e2) eqn:Z0.
  - apply Z.leb_le in Z0. eexists. split; [reflexivity|].
    rewrite Z.pow_add_r in K by lia. split; [apply Z.mul_nonneg_nonneg; [lia|apply Z.pow_nonneg; lia]|].
    assert (0 < 2 ^ 105) by reflexivity. nia.
  - apply Z.leb_gt in Z0. eexists. split; [reflexivity|]. split; [apply Z.div_pos; [lia|apply Z.pow_pos_nonneg; lia]|].
    apply Z.div_lt_upper_bound; [apply Z.pow_pos_nonneg; lia|].
    assert (Q : 2 ^ 105 = 2 ^ (e2 + 105) * 2 ^ (- e2)) by (rewrite <- Z.pow_add_r by lia; f_equal; lia).
    rewrite Q in K. assert (0 < 2 ^ (e2 + 105)) by (apply Z.pow_pos_nonneg; lia). nia.
Qed.
