(** Integers, products and integer parts of binary64 numbers keep the order. *)
From Verif.Base Require Import GoBase GoLemmas Float.
From Verif.Spec Require Import VectorSpec.
From Verif.Proof Require Import FloatP RoundP VectorP MonoP MonoQ.
From Coq Require Import Lia ZArith.
Open Scope Z_scope.

Notation u53 := (unsigned 53 1024).
Notation r53 := (in_range 53 1024).

Lemma emin53 : emin 53 1024 = -1074.
Proof. reflexivity. Qed.

(** The integer part in terms of the value. *)
Lemma trunc_units : forall x E, u53 x -> E <= -1074 -> f_trunc x = Some (units E x / 2 ^ (- E)).
Proof.
  intros x E U HE. destruct x as [s|s| |[] m e]; cbn [unsigned] in U; try contradiction; cbn [f_trunc units].
  - rewrite Z.div_0_l; auto. apply Z.pow_nonzero; lia.
  - destruct (bounded_spec 53 1024 ltac:(lia) m e U) as (A & B & _ & _). rewrite emin53 in B. f_equal.
    destruct (Z.leb_spec 0 e).
    + replace (e - E) with (e + - E) by lia. rewrite Z.pow_add_r by lia. rewrite Z.mul_assoc, Z.div_mul; auto.
      apply Z.pow_nonzero; lia.
    + replace (2 ^ - E) with (2 ^ (- e) * 2 ^ (e - E)) by (rewrite <- Z.pow_add_r by lia; f_equal; lia).
      rewrite Z.div_mul_cancel_r; auto; apply Z.pow_nonzero; lia.
Qed.

Lemma trunc_mono : forall x y, u53 x -> u53 y -> fleb x y = true ->
  exists a b, f_trunc x = Some a /\ f_trunc y = Some b /\ 0 <= a <= b.
Proof.
  intros x y X Y L.
  apply (fleb_units 53 1024 ltac:(lia) x y (-1074)) in L; auto; [|rewrite emin53; lia].
  rewrite (trunc_units x (-1074)), (trunc_units y (-1074)) by (auto; lia).
  do 2 eexists. split; [reflexivity|]. split; [reflexivity|].
  assert (0 < 2 ^ (- (-1074))) by (apply Z.pow_pos_nonneg; lia). split.
  - apply Z.div_pos; auto. apply units_nonneg.
  - apply Z.div_le_mono; auto.
Qed.

(** Integers. *)
Lemma of_Z_rounds : forall n, 0 <= n -> rounds 53 1024 1 (-1074) (n * 2 ^ 1074) (f64_of_Z n).
Proof. intros n Hn. apply (rounds_normalize 53 1024 ltac:(lia) n 0 false (-1074)); rewrite ?emin53; lia. Qed.

Lemma of_Z_range : forall n, 0 <= n -> r53 (f64_of_Z n).
Proof. intros n Hn. eapply rounds_range; [lia|]. apply of_Z_rounds; auto. Qed.

Lemma of_Z_mono : forall n n', 0 <= n <= n' -> fleb (f64_of_Z n) (f64_of_Z n') = true.
Proof.
  intros n n' H. apply (rounds_mono 53 1024 ltac:(lia) 1 (-1074) (n * 2 ^ 1074) (n' * 2 ^ 1074)); try lia;
    apply of_Z_rounds; lia.
Qed.

(** A number of at most 53 bits is not rounded. *)
Lemma of_Z_exact : forall n, 0 <= n <= 2 ^ 53 ->
  u53 (f64_of_Z n) /\ units (-1074) (f64_of_Z n) = n * 2 ^ 1074.
Proof.
  intros n H.
  assert (K : exists x, u53 x /\ units (-1074) x = n * 2 ^ 1074).
  { destruct (Z.eq_dec n 0) as [->|N0]; [exists (S754_zero false); split; [exact I|reflexivity]|].
    destruct (Z.eq_dec n (2 ^ 53)) as [->|N1].
    { exists (S754_finite false 4503599627370496 1). split; [reflexivity|].
      cbn [units]. change (1 - -1074) with (1 + 1074). rewrite Z.pow_add_r by lia. change (2 ^ 1) with 2.
      change (2 ^ 53) with (4503599627370496 * 2). ring. }
    destruct (zdigits_spec n ltac:(lia)) as [[A B] C]. set (d := Zdigits2 n) in *.
    assert (Hd : d <= 53).
    { destruct (Z.le_gt_cases d 53); auto. assert (2 ^ 53 <= 2 ^ (d - 1)) by (apply Z.pow_le_mono_r; lia). lia. }
    set (m := n * 2 ^ (53 - d)).
    assert (P : 0 < 2 ^ (53 - d)) by (apply Z.pow_pos_nonneg; lia).
    assert (Hm : 2 ^ 52 <= m < 2 ^ 53).
    { unfold m. split.
      - replace (2 ^ 52) with (2 ^ (d - 1) * 2 ^ (53 - d)) by (rewrite <- Z.pow_add_r by lia; f_equal; lia).
        apply Z.mul_le_mono_nonneg_r; lia.
      - replace (2 ^ 53) with (2 ^ d * 2 ^ (53 - d)) by (rewrite <- Z.pow_add_r by lia; f_equal; lia).
        apply Z.mul_lt_mono_pos_r; lia. }
    exists (S754_finite false (Z.to_pos m) (d - 53)).
    assert (Em : Zpos (Z.to_pos m) = m) by (apply Z2Pos.id; lia).
    split.
    - cbn [unsigned]. unfold bounded. apply andb_true_intro. split; [|apply Z.leb_le; lia].
      unfold canonical_mantissa. apply Zeq_is_eq_bool.
      change (Zpos (digits2_pos (Z.to_pos m))) with (Zdigits2 (Zpos (Z.to_pos m))). rewrite Em.
      destruct (zdigits_spec m ltac:(lia)) as [[X Y] Z].
      assert (Zdigits2 m = 53).
      { assert (52 < Zdigits2 m) by (apply (Z.pow_lt_mono_r_iff 2); lia).
        assert (Zdigits2 m - 1 < 53) by (apply (Z.pow_lt_mono_r_iff 2); lia). lia. }
      unfold fexp. rewrite emin53. lia.
    - cbn [units]. rewrite Em. unfold m. rewrite <- Z.mul_assoc, <- Z.pow_add_r by lia. f_equal. f_equal. lia. }
  destruct K as (x & U & Ex).
  pose proof (of_Z_rounds n ltac:(lia)) as R. rewrite <- Ex in R.
  pose proof (rounds_itself 53 1024 ltac:(lia) x (-1074) ltac:(rewrite emin53; lia) U) as R'.
  pose proof (rounds_mono 53 1024 ltac:(lia) 1 (-1074) _ _ _ _ ltac:(lia) (Z.le_refl _) R R') as L1.
  pose proof (rounds_mono 53 1024 ltac:(lia) 1 (-1074) _ _ _ _ ltac:(lia) (Z.le_refl _) R' R) as L2.
  destruct (rounds_range 53 1024 ltac:(lia) _ _ _ _ R) as [V|V].
  2:{ rewrite V in L1. destruct x as [| | |[]]; try contradiction; discriminate. }
  split; auto. rewrite <- Ex.
  apply (fleb_units 53 1024 ltac:(lia) _ _ (-1074)) in L1; auto; [|rewrite emin53; lia].
  apply (fleb_units 53 1024 ltac:(lia) _ _ (-1074)) in L2; auto; [|rewrite emin53; lia]. lia.
Qed.

Lemma of_Z_trunc : forall n, 0 <= n <= 2 ^ 53 -> f_trunc (f64_of_Z n) = Some n.
Proof.
  intros n H. destruct (of_Z_exact n H) as [U E]. rewrite (trunc_units _ (-1074) U) by lia. rewrite E.
  f_equal. apply Z.div_mul. apply Z.pow_nonzero; lia.
Qed.

(** Products. *)
Lemma mul_range : forall x y, u53 x -> u53 y -> r53 (f64mul x y).
Proof.
  intros x y X Y. unfold f64mul, prec64, emax64.
  destruct x as [s|s| |[] m e], y as [s'|s'| |[] m' e']; cbn [unsigned] in X, Y; try contradiction; try (left; exact I).
  set (E := Z.min (-1074) (e + e')).
  eapply (rounds_range 53 1024 ltac:(lia) 1 E). apply rounds_mul; auto; rewrite ?emin53; unfold E; lia.
Qed.

Lemma mul_mono : forall x y x' y', u53 x -> u53 y -> u53 x' -> u53 y' ->
  fleb x x' = true -> fleb y y' = true -> fleb (f64mul x y) (f64mul x' y') = true.
Proof.
  intros x y x' y' X Y X' Y' Lx Ly.
  pose proof (mul_range x' y' X' Y') as T.
  unfold f64mul, prec64, emax64 in *.
  destruct x as [s|s| |[] m e]; cbn [unsigned] in X; try contradiction.
  { destruct y as [| | |[]]; cbn [unsigned] in Y; try contradiction; apply (range_bottom 53 1024); auto. }
  destruct y as [s|s| |[] n f]; cbn [unsigned] in Y; try contradiction.
  { apply (range_bottom 53 1024); auto. }
  destruct x' as [s'|s'| |[] m' e']; cbn [unsigned] in X'; try contradiction; [discriminate|].
  destruct y' as [s'|s'| |[] n' f']; cbn [unsigned] in Y'; try contradiction; [discriminate|].
  set (F := Z.min (-1074) (Z.min (Z.min e e') (Z.min f f'))).
  apply (fleb_units 53 1024 ltac:(lia) _ _ F) in Lx; auto; [|rewrite emin53; unfold F; lia].
  apply (fleb_units 53 1024 ltac:(lia) _ _ F) in Ly; auto; [|rewrite emin53; unfold F; lia].
  cbn [units] in Lx, Ly.
  apply (rounds_mono 53 1024 ltac:(lia) 1 (F + F) (Zpos m * Zpos n * 2 ^ (e + f - (F + F)))
           (Zpos m' * Zpos n' * 2 ^ (e' + f' - (F + F)))); try lia.
  - replace (e + f - (F + F)) with ((e - F) + (f - F)) by lia.
    replace (e' + f' - (F + F)) with ((e' - F) + (f' - F)) by lia.
    rewrite !Z.pow_add_r by (unfold F; lia).
    set (a := 2 ^ (e - F)) in *. set (b := 2 ^ (f - F)) in *. set (a' := 2 ^ (e' - F)) in *. set (b' := 2 ^ (f' - F)) in *.
    replace (Zpos m * Zpos n * (a * b)) with ((Zpos m * a) * (Zpos n * b)) by ring.
    replace (Zpos m' * Zpos n' * (a' * b')) with ((Zpos m' * a') * (Zpos n' * b')) by ring.
    assert (0 <= a) by (unfold a; lia). assert (0 <= b) by (unfold b; lia).
    apply Z.mul_le_mono_nonneg; auto; apply Z.mul_nonneg_nonneg; lia.
  - apply rounds_mul; auto; rewrite ?emin53; unfold F; lia.
  - apply rounds_mul; auto; rewrite ?emin53; unfold F; lia.
Qed.

(** A number of the format times one is itself. *)
Lemma mul_one : forall x, u53 x -> exists y, f64mul x (f64_of_Z 1) = y /\ u53 y /\ units (-1074) y = units (-1074) x.
Proof.
  intros x X. unfold f64mul, prec64, emax64.
  change (f64_of_Z 1) with (S754_finite false 4503599627370496 (-52)).
  destruct x as [s|s| |[] m e]; cbn [unsigned] in X; try contradiction.
  - eexists. split; [reflexivity|]. split; [exact I|reflexivity].
  - destruct (bounded_spec 53 1024 ltac:(lia) m e X) as (A & B & _ & _). rewrite emin53 in B.
    pose proof (rounds_mul 53 1024 ltac:(lia) ltac:(lia) m e 4503599627370496 (-52) (-1126) X eq_refl
                  ltac:(rewrite emin53; lia) ltac:(lia)) as R.
    assert (Q : Zpos m * Zpos 4503599627370496 * 2 ^ (e + -52 - -1126) = units (-1126) (S754_finite false m e)).
    { cbn [units]. replace (e - -1126) with (52 + (e + -52 - -1126)) by lia. rewrite Z.pow_add_r by lia.
      change (Zpos 4503599627370496) with (2 ^ 52). ring. }
    rewrite Q in R.
    pose proof (rounds_itself 53 1024 ltac:(lia) (S754_finite false m e) (-1126) ltac:(rewrite emin53; lia) X) as R'.
    pose proof (rounds_mono 53 1024 ltac:(lia) 1 (-1126) _ _ _ _ ltac:(lia) (Z.le_refl _) R R') as L1.
    pose proof (rounds_mono 53 1024 ltac:(lia) 1 (-1126) _ _ _ _ ltac:(lia) (Z.le_refl _) R' R) as L2.
    eexists. split; [reflexivity|].
    destruct (rounds_range 53 1024 ltac:(lia) _ _ _ _ R) as [V|V]; [|rewrite V in L1; discriminate].
    split; auto.
    apply (fleb_units 53 1024 ltac:(lia) _ _ (-1074)) in L1; auto; [|rewrite emin53; lia].
    apply (fleb_units 53 1024 ltac:(lia) _ _ (-1074)) in L2; auto; [|rewrite emin53; lia]. lia.
Qed.

Lemma within_unsigned : forall x hi, is_float64 x -> SFleb (S754_zero false) x = true ->
  SFleb x hi = true -> u53 hi -> u53 x.
Proof.
  intros x hi V A B H. unfold is_float64 in V.
  destruct x as [s|s| |[] m e]; unfold SFleb, SFcompare in A, B; try discriminate.
  - exact I.
  - destruct s; try discriminate. destruct hi as [| | |[]]; try contradiction; discriminate.
  - exact V.
Qed.

(** The same number over a larger denominator. *)
Lemma rounds_scale : forall p q b E a r k, (0 < k)%Z -> rounds p q b E a r -> rounds p q (k * b) E (k * a) r.
Proof.
  intros p q b E a r k Hk (m & e & l & HE & [W1 W2] & X).
  exists m, e, l. split; auto. split; [|exact X]. clear X.
  set (u := 2 ^ (e - E)) in *. split.
  - replace (m * (k * b * u)) with (k * (m * (b * u))) by ring.
    replace ((m + 1) * (k * b * u)) with (k * ((m + 1) * (b * u))) by ring. nia.
  - destruct l as [|c].
    + rewrite W2. ring.
    + destruct W2 as [W2 W3]. split.
      * replace (m * (k * b * u)) with (k * (m * (b * u))) by ring. nia.
      * rewrite <- W3.
        replace (2 * (k * a)) with (k * (2 * a)) by ring.
        replace ((2 * m + 1) * (k * b * u)) with (k * ((2 * m + 1) * (b * u))) by ring.
        symmetry. apply Zmult_compare_compat_l. lia.
Qed.

(** A number over itself is one. *)
Lemma div_self : forall m e, bounded 53 1024 m e = true ->
  fleb (f64div (S754_finite false m e) (S754_finite false m e)) (f64_of_Z 1) = true /\
  fleb (f64_of_Z 1) (f64div (S754_finite false m e) (S754_finite false m e)) = true.
Proof.
  intros m e Bd.
  pose proof (rounds_div 53 1024 ltac:(lia) m e m e (-1074) Bd Bd ltac:(rewrite emin53; lia) ltac:(lia)) as R.
  replace (e - e - -1074)%Z with 1074%Z in R by lia.
  pose proof (rounds_scale 53 1024 1 (-1074) (1 * 2 ^ 1074) (f64_of_Z 1) (Zpos m) ltac:(lia) (of_Z_rounds 1 ltac:(lia))) as R'.
  rewrite Z.mul_1_r, Z.mul_1_l in R'.
  split; [apply (rounds_mono 53 1024 ltac:(lia) (Zpos m) (-1074) _ _ _ _ ltac:(lia) (Z.le_refl _) R R')
         |apply (rounds_mono 53 1024 ltac:(lia) (Zpos m) (-1074) _ _ _ _ ltac:(lia) (Z.le_refl _) R' R)].
Qed.

Lemma leb_not_nan : forall x y, SFleb x y = true -> is_nan x = false /\ is_nan y = false.
Proof. intros [] [] H; try discriminate; auto. Qed.

Lemma leb_trans : forall x y z, SFleb x y = true -> SFleb y z = true -> SFleb x z = true.
Proof.
  intros x y z A B. destruct (leb_not_nan _ _ A), (leb_not_nan _ _ B).
  rewrite SFleb_ltb in * by auto. apply negb_true_iff in A, B. apply negb_true_iff.
  eapply SFltb_neg; [| | |exact B|exact A]; auto.
Qed.
