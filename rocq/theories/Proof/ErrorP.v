(** How far the scores are from the true distances. *)
From Coq Require Import ZArith Lia List Bool.
From Verif.Base Require Import GoBase Float.
From Verif.Model Require Import Vector.
From Verif.Spec Require Import AccuracySpec.
From Verif.Proof Require Import RoundP MonoP ExactP SizeP NearP AngleP.
Import ListNotations.
Open Scope Z_scope.

Section Error.
Variables prec emax : Z.
Hypothesis Hprec : 1 < prec.
Hypothesis Hemax : prec < emax.

Notation lo := (emin prec emax).

Lemma value_opp : forall x E, value E (SFopp x) = - value E x.
Proof. intros [s|s| |s m e] E; cbn; try reflexivity. destruct s; cbn [negb cond_Zopp]; lia. Qed.

Lemma abs_value : forall x E, Z.abs (value E x) = units E x.
Proof.
  intros [s|s| |s m e] E; cbn [value units]; try reflexivity.
  assert (0 <= Zpos m * 2 ^ (e - E)) by (apply Z.mul_nonneg_nonneg; [lia|apply Z.pow_nonneg; lia]).
  destruct s; cbn [cond_Zopp]; lia.
Qed.

Lemma signed_abs : forall x, signed prec emax x -> unsigned prec emax (SFabs x).
Proof. intros [s|s| |s m e] H; cbn in *; auto. Qed.
Lemma units_abs : forall x E, units E (SFabs x) = units E x.
Proof. intros [s|s| |s m e] E; reflexivity. Qed.

(** A sum is the exact sum, rounded. *)
Lemma add_abs_rounds : forall x y, signed prec emax x -> signed prec emax y ->
  rounds prec emax 1 lo (Z.abs (value lo x + value lo y)) (SFabs (SFadd prec emax x y)).
Proof.
  intros x y X Y.
  destruct x as [s|s| |s m e], y as [s'|s'| |s' m' e']; cbn [signed] in X, Y; try contradiction.
  - cbn [value SFadd]. destruct (eqb s s'); apply rounds_zero; lia.
  - cbn [SFadd]. replace (value lo (S754_zero s) + value lo (S754_finite s' m' e')) with (value lo (S754_finite s' m' e')) by (cbn; lia).
    rewrite abs_value, <- units_abs. apply rounds_itself; auto; try lia.
  - cbn [SFadd]. replace (value lo (S754_finite s m e) + value lo (S754_zero s')) with (value lo (S754_finite s m e)) by (cbn [value]; lia).
    rewrite abs_value, <- units_abs. apply rounds_itself; auto; try lia.
  - cbn [SFadd]. destruct (bounded_spec prec emax Hprec m e X) as (_ & B1 & _), (bounded_spec prec emax Hprec m' e' Y) as (_ & B2 & _).
    pose proof (shl_align_spec prec Hprec m e (Z.min e e')) as S1. pose proof (shl_align_spec prec Hprec m' e' (Z.min e e')) as S2.
    destruct (shl_align m e (Z.min e e')) as [p1 q1]. destruct (shl_align m' e' (Z.min e e')) as [p2 q2]. cbn [fst].
    destruct S1 as (E1 & P1 & _), S2 as (E2 & P2 & _).
    assert (E1' : q1 = Z.min e e') by lia. assert (E2' : q2 = Z.min e e') by lia. clear E1 E2. subst q1 q2.
    rewrite abs_exact.
    replace (Z.abs (value lo (S754_finite s m e) + value lo (S754_finite s' m' e')))
      with (Z.abs (cond_Zopp s (Zpos p1) + cond_Zopp s' (Zpos p2)) * 2 ^ (Z.min e e' - lo)).
    { apply rounds_normalize; auto; lia. }
    assert (Q1 : Zpos p1 * 2 ^ (Z.min e e' - lo) = Zpos m * 2 ^ (e - lo)).
    { rewrite P1, <- Z.mul_assoc, <- Z.pow_add_r by lia. f_equal. f_equal. lia. }
    assert (Q2 : Zpos p2 * 2 ^ (Z.min e e' - lo) = Zpos m' * 2 ^ (e' - lo)).
    { rewrite P2, <- Z.mul_assoc, <- Z.pow_add_r by lia. f_equal. f_equal. lia. }
    cbn [value]. rewrite <- Q1, <- Q2.
    assert (0 <= 2 ^ (Z.min e e' - lo)) by (apply Z.pow_nonneg; lia).
    rewrite <- (Z.abs_eq (2 ^ (Z.min e e' - lo))) at 1 by assumption. rewrite <- Z.abs_mul. f_equal.
    destruct s, s'; cbn [cond_Zopp]; ring.
Qed.

Lemma sub_abs_rounds : forall x y, signed prec emax x -> signed prec emax y ->
  rounds prec emax 1 lo (Z.abs (value lo x - value lo y)) (SFabs (SFsub prec emax x y)).
Proof.
  intros x y X Y. rewrite sub_add. unfold Z.sub. rewrite <- value_opp. apply add_abs_rounds; auto. apply signed_opp. exact Y.
Qed.

(** The relative error is at most 2^-prec; below the smallest normal number there is none. *)
Lemma rounds_relative : forall a r, 0 <= a -> rounds prec emax 1 lo a r -> unsigned prec emax r ->
  Z.abs (units lo r - a) * 2 ^ prec <= a.
Proof.
  intros a r Ha R U. destruct (Z.le_gt_cases (2 ^ (prec - 1)) a) as [L|L].
  - rewrite <- (Z.mul_1_l (units lo r)). apply (rounds_error prec emax Hprec 1 lo a r); auto; try lia.
    rewrite Z.sub_diag. change (2 ^ 0) with 1. lia.
  - destruct R as (m & e & l & HE & [I1 I2] & M & X & Y & R).
    assert (P0 : 0 < 2 ^ (e - lo)) by (apply Z.pow_pos_nonneg; lia).
    assert (EE : e = lo).
    { destruct Y as [Y|Y]; [exact Y|]. exfalso. assert (m * 1 <= m * (1 * 2 ^ (e - lo))) by (apply Z.mul_le_mono_nonneg_l; lia). lia. }
    subst e. rewrite Z.sub_diag in *. change (2 ^ 0) with 1 in *.
    assert (AM : a = m) by lia. subst m.
    assert (RM : round_nearest_even a l = a) by (destruct l as [|c]; [reflexivity|destruct I2; lia]).
    rewrite RM in R. assert (V : units lo r = a).
    { destruct R as [-> | [Z [s ->]]]; [|subst a; reflexivity].
      rewrite (written_units prec emax Hprec a lo lo); auto; try lia. rewrite Z.sub_diag. change (2 ^ 0) with 1. lia. }
    rewrite V, Z.sub_diag. cbn. lia.
Qed.

Lemma double_bound : forall R S k q, 0 < q -> 0 <= S -> 2 * k <= q -> Z.abs (R - S) * q <= 2 * k * S -> R <= 2 * S.
Proof.
  intros R S k q Hq HS Hk H. destruct (Z.le_gt_cases R (2 * S)) as [L|L]; auto. exfalso.
  assert (2 * k * S <= q * S) by (apply Z.mul_le_mono_nonneg_r; lia).
  assert (S * q < Z.abs (R - S) * q) by (apply Z.mul_lt_mono_pos_r; lia). lia.
Qed.

Lemma sum_step : forall R R' S D k q, 0 < q -> 0 <= S -> 0 <= D -> 0 <= k -> 2 * k <= q ->
  Z.abs (R - S) * q <= 2 * k * S -> Z.abs (R' - (R + D)) * q <= R + D ->
  Z.abs (R' - (S + D)) * q <= 2 * (k + 1) * (S + D).
Proof.
  intros R R' S D k q Hq HS HD Hk HK H1 H2. pose proof (double_bound R S k q Hq HS HK H1) as B.
  assert (A : Z.abs (R' - (S + D)) * q <= (Z.abs (R' - (R + D)) + Z.abs (R - S)) * q) by (apply Z.mul_le_mono_nonneg_r; lia).
  rewrite Z.mul_add_distr_r in A. assert (0 <= k * D) by (apply Z.mul_nonneg_nonneg; lia).
  replace (2 * (k + 1) * (S + D)) with (2 * k * S + 2 * (k * D) + 2 * S + 2 * D) by ring. lia.
Qed.

Definition usum (ds : list float) : Z := fold_right Z.add 0 (map (units lo) ds).

Lemma usum_nonneg : forall ds, 0 <= usum ds.
Proof. induction ds as [|d ds IH]; unfold usum in *; cbn [map fold_right]; [lia|]. pose proof (units_nonneg d lo). lia. Qed.

(** The sum of n numbers that are not negative is off by at most 2n parts in 2^prec. *)
Lemma fold_error : forall z, unsigned prec emax z -> forall ds ret S k,
  unsigned prec emax ret -> Forall (unsigned prec emax) ds -> 0 <= S -> 0 <= k ->
  2 * (k + Z.of_nat (length ds)) <= 2 ^ prec -> 2 * (S + usum ds) <= units lo z ->
  Z.abs (units lo ret - S) * 2 ^ prec <= 2 * k * S ->
  let r := fold_left (SFadd prec emax) ds ret in
  unsigned prec emax r /\
  Z.abs (units lo r - (S + usum ds)) * 2 ^ prec <= 2 * (k + Z.of_nat (length ds)) * (S + usum ds).
Proof.
  intros z Hz ds. induction ds as [|d ds IH]; intros ret S k HR HD HS Hk HK HB HE.
  - cbn. rewrite !Z.add_0_r. auto.
  - assert (Q : 0 < 2 ^ prec) by (apply Z.pow_pos_nonneg; lia).
    inversion HD as [|? ? D1 D2]; subst. cbn [fold_left length] in *.
    change (usum (d :: ds)) with (units lo d + usum ds) in *.
    pose proof (usum_nonneg ds) as US. pose proof (units_nonneg d lo) as UD.
    assert (K2 : 2 * k <= 2 ^ prec) by lia.
    pose proof (double_bound _ _ _ _ Q HS K2 HE) as B.
    pose proof (units_nonneg ret lo) as UR.
    pose proof (rounds_add prec emax Hprec ret d lo (Z.le_refl _) HR D1) as R.
    destruct (rounds_upto prec emax Hprec lo (units lo ret + units lo d) _ z (Z.le_refl _) ltac:(lia) R Hz ltac:(lia)) as (_ & _ & U).
    pose proof (rounds_relative (units lo ret + units lo d) _ ltac:(lia) R U) as E1.
    pose proof (sum_step _ _ _ _ _ _ Q HS UD Hk K2 HE E1) as E2.
    destruct (IH _ (S + units lo d) (k + 1) U D2 ltac:(lia) ltac:(lia) ltac:(lia) ltac:(lia) E2) as [A1 A2].
    split; [exact A1|]. replace (S + (units lo d + usum ds)) with (S + units lo d + usum ds) by ring.
    replace (k + Z.of_nat (Datatypes.S (length ds))) with (k + 1 + Z.of_nat (length ds)) by lia. exact A2.
Qed.

Lemma sum_error : forall z, unsigned prec emax z -> forall ds, Forall (unsigned prec emax) ds ->
  2 * Z.of_nat (length ds) <= 2 ^ prec -> 2 * usum ds <= units lo z ->
  let r := fold_left (SFadd prec emax) ds (S754_zero false) in
  unsigned prec emax r /\ Z.abs (units lo r - usum ds) * 2 ^ prec <= 2 * Z.of_nat (length ds) * usum ds.
Proof.
  intros z Hz ds HD HK HB.
  exact (fold_error z Hz ds (S754_zero false) 0 0 I HD (Z.le_refl _) (Z.le_refl _) HK HB ltac:(cbn; lia)).
Qed.

End Error.

(** ** QuickVectorDistance *)
Lemma finite_signed : forall x, finite32 x -> signed 24 128 x.
Proof. intros [s|s| |s m e]; cbn; auto. Qed.

Lemma gap_rounds : forall x y, finite32 x -> finite32 y -> rounds 24 128 1 (-149) (gap x y) (SFabs (f32sub x y)).
Proof.
  intros x y X Y. change (-149) with (emin 24 128). unfold gap. change (-149) with (emin 24 128).
  apply sub_abs_rounds; [lia|apply finite_signed; auto|apply finite_signed; auto].
Qed.

Lemma gap_nonneg : forall x y, 0 <= gap x y.
Proof. intros. unfold gap. lia. Qed.

(** The power of two 2^c as a float32 and as a float64. *)
Lemma pow32 : forall c, -149 <= c <= 104 -> exists z, unsigned 24 128 z /\ units (-149) z = 2 ^ (c + 149 + 23).
Proof.
  intros c Hc. exists (binary_normalize 24 128 (2 ^ 23) c false).
  destruct (big_units (2 ^ 23) c (-149) ltac:(split; reflexivity) Hc ltac:(lia)) as [A B]. split; [exact A|].
  rewrite B, <- Z.pow_add_r by lia. f_equal. lia.
Qed.

Lemma gap_error : forall x y, finite32 x -> finite32 y -> gap x y <= 2 ^ 276 ->
  let d := SFabs (f32sub x y) in
  unsigned 24 128 d /\ Z.abs (units (-149) d - gap x y) * 2 ^ 24 <= gap x y /\ units (-149) d <= 2 ^ 276.
Proof.
  intros x y X Y L. pose proof (gap_rounds x y X Y) as R. destruct (pow32 104 ltac:(lia)) as (z & U & V).
  change (2 ^ (104 + 149 + 23)) with (2 ^ 276) in V.
  destruct (rounds_upto 24 128 ltac:(lia) (-149) (gap x y) _ z ltac:(rewrite lo32; lia) (gap_nonneg x y) R U ltac:(rewrite V; exact L)) as (A & B & C).
  rewrite V in B. split; [exact C|]. split; [|exact B].
  apply (rounds_relative 24 128 ltac:(lia)); auto. apply gap_nonneg.
Qed.

Lemma widen_units : forall d, unsigned 24 128 d -> unsigned 53 1024 (f64_of_f32 d) /\
  units (-1074) (f64_of_f32 d) = units (-149) d * 2 ^ 925.
Proof.
  intros [s|s| |[] m e] U; cbn [unsigned] in U; try contradiction; [split; [exact I|reflexivity]|].
  destruct (widen_signed false m e U) as (m' & e' & -> & B & L & V).
  destruct (bounded_spec 24 128 ltac:(lia) m e U) as (_ & L1 & _). rewrite lo32 in L1.
  destruct (bounded_spec 53 1024 ltac:(lia) m' e' B) as (_ & L2 & _). change (emin 53 1024) with (-1074) in L2.
  split; [exact B|]. cbn [units]. rewrite V, <- !Z.mul_assoc, <- !Z.pow_add_r by lia. f_equal. f_equal. lia.
Qed.
