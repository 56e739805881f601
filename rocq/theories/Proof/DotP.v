(** Rounding errors of inner products. *)
From Coq Require Import ZArith Lia List Bool.
From Verif.Base Require Import GoBase Float.
From Verif.Model Require Import Vector Annoy.
From Verif.Spec Require Import SizeSpec AccuracySpec.
From Verif.Proof Require Import RoundP VectorP MonoP MonoQ TruncP ExactP SizeP NearP AngleP ErrorP ErrorQ SelfP.
Import ListNotations.
Open Scope Z_scope.

Section AnyFormat.
Context (p q : Z) (Hp : 1 < p).

Lemma aux_value : forall s m e l E,
  value E (binary_round_aux p q s m e l) = cond_Zopp s (units E (binary_round_aux p q false m e l)).
Proof.
  intros s m e l E. unfold binary_round_aux. destruct (shr_fexp p q m e l) as [mrs z].
  destruct (shr_fexp p q (round_nearest_even (shr_m mrs) (loc_of_shr_record mrs)) z loc_Exact) as [mrs2 z2].
  destruct (shr_m mrs2) as [|k|k]; cbn [value units]; try (destruct s; reflexivity).
  destruct (Zle_bool z2 (q - p)); cbn [value units]; destruct s; reflexivity.
Qed.

Lemma aux_units : forall s m e l E,
  units E (binary_round_aux p q s m e l) = units E (binary_round_aux p q false m e l).
Proof. intros. rewrite <- (units_abs _ E), abs_aux, units_abs. reflexivity. Qed.

Lemma norm_value : forall n e s E, value E (binary_normalize p q n e s) = Z.sgn n * units E (binary_normalize p q n e s).
Proof.
  intros n e s E. destruct n as [|m|m]; [reflexivity|..]; cbn [binary_normalize Z.sgn]; unfold binary_round;
    destruct (shl_align m e (fexp p q (Zpos (digits2_pos m) + e))) as [mz ez]; rewrite aux_value.
  - cbn [cond_Zopp]. lia.
  - rewrite (aux_units true). cbn [cond_Zopp]. lia.
Qed.

Lemma signed_unsigned : forall x, signed p q x <-> unsigned p q (SFabs x).
Proof. intros [s|s| |s m e]; cbn; tauto. Qed.

(** The sign of a sum is that of the exact sum. *)
Lemma add_value : forall x y, signed p q x -> signed p q y ->
  value (emin p q) (SFadd p q x y) = Z.sgn (value (emin p q) x + value (emin p q) y) * units (emin p q) (SFadd p q x y).
Proof.
  intros x y X Y. set (lo := emin p q).
  assert (V : forall z, value lo z = Z.sgn (value lo z) * units lo z).
  { intro z. rewrite <- abs_value. rewrite Z.mul_comm. symmetry. apply Z.abs_sgn. }
  destruct x as [s|s| |s m e], y as [s'|s'| |s' m' e']; cbn [signed] in X, Y; try contradiction.
  - cbn [value SFadd]. destruct (eqb s s'); reflexivity.
  - cbn [SFadd]. change (value lo (S754_zero s)) with 0. rewrite Z.add_0_l. apply V.
  - cbn [SFadd]. change (value lo (S754_zero s')) with 0. rewrite Z.add_0_r. apply V.
  - cbn [SFadd]. destruct (bounded_spec p q Hp m e X) as (_ & B1 & _), (bounded_spec p q Hp m' e' Y) as (_ & B2 & _).
    pose proof (shl_align_spec p Hp m e (Z.min e e')) as S1. pose proof (shl_align_spec p Hp m' e' (Z.min e e')) as S2.
    destruct (shl_align m e (Z.min e e')) as [p1 q1]. destruct (shl_align m' e' (Z.min e e')) as [p2 q2]. cbn [fst].
    destruct S1 as (E1 & P1 & _), S2 as (E2 & P2 & _).
    assert (E1' : q1 = Z.min e e') by lia. assert (E2' : q2 = Z.min e e') by lia. clear E1 E2. subst q1 q2.
    rewrite norm_value. f_equal.
    assert (Q1 : Zpos p1 * 2 ^ (Z.min e e' - lo) = Zpos m * 2 ^ (e - lo)).
    { rewrite P1, <- Z.mul_assoc, <- Z.pow_add_r by (unfold lo; lia). f_equal. f_equal. lia. }
    assert (Q2 : Zpos p2 * 2 ^ (Z.min e e' - lo) = Zpos m' * 2 ^ (e' - lo)).
    { rewrite P2, <- Z.mul_assoc, <- Z.pow_add_r by (unfold lo; lia). f_equal. f_equal. lia. }
    cbn [value]. rewrite <- Q1, <- Q2.
    assert (T : 0 < 2 ^ (Z.min e e' - lo)) by (apply Z.pow_pos_nonneg; unfold lo; lia).
    set (t := 2 ^ (Z.min e e' - lo)) in *. clearbody t.
    replace (cond_Zopp s (Zpos p1 * t) + cond_Zopp s' (Zpos p2 * t)) with ((cond_Zopp s (Zpos p1) + cond_Zopp s' (Zpos p2)) * t)
      by (destruct s, s'; cbn [cond_Zopp]; ring).
    rewrite Z.sgn_mul, (Z.sgn_pos t T), Z.mul_1_r. reflexivity.
Qed.

Lemma add_error : forall x y, signed p q x -> signed p q y -> signed p q (SFadd p q x y) ->
  let V := value (emin p q) x + value (emin p q) y in
  Z.abs (value (emin p q) (SFadd p q x y) - V) * 2 ^ p <= Z.abs V.
Proof.
  intros x y X Y S V. pose proof (add_abs_rounds p q Hp x y X Y) as R. fold V in R.
  pose proof (rounds_relative p q Hp _ _ (Z.abs_nonneg V) R (proj1 (signed_unsigned _) S)) as E.
  rewrite units_abs in E. rewrite add_value by auto. fold V. set (u := units (emin p q) (SFadd p q x y)) in *.
  replace (Z.abs (Z.sgn V * u - V)) with (Z.abs (u - Z.abs V)); [exact E|].
  assert (P : 0 < 2 ^ p) by (apply Z.pow_pos_nonneg; lia).
  destruct V as [|v|v]; cbn [Z.sgn Z.abs]; [|f_equal; lia|].
  - rewrite Z.sub_0_r, Z.mul_0_l. change (Z.abs (0 - 0)) with 0. change (Z.abs 0) with 0 in E. rewrite Z.sub_0_r in E.
    assert (Z.abs u <= 0); [|lia]. apply (Z.mul_le_mono_pos_r _ _ (2 ^ p)); [exact P|]. lia.
  - rewrite <- Z.abs_opp. f_equal. lia.
Qed.
End AnyFormat.

(** A product that is neither too small nor too large. *)
Lemma mul_error : forall x y, signed 24 128 x -> signed 24 128 y -> signed 24 128 (f32mul x y) ->
  let V := value (-149) x * value (-149) y in
  V = 0 \/ 2 ^ 172 <= Z.abs V ->
  Z.abs (value (-149) (f32mul x y) * 2 ^ 149 - V) * 2 ^ 24 <= Z.abs V.
Proof.
  intros x y X Y S V H. unfold f32mul in *. change prec32 with 24 in *. change emax32 with 128 in *.
  destruct x as [s|s| |s m e], y as [s'|s'| |s' m' e']; cbn [signed] in X, Y; try contradiction;
    try (unfold V; cbn [value SFmul]; rewrite ?Z.mul_0_r, ?Z.mul_0_l; vm_compute; discriminate).
  destruct (bounded_spec 24 128 ltac:(lia) m e X) as (_ & B1 & _), (bounded_spec 24 128 ltac:(lia) m' e' Y) as (_ & B2 & _).
  rewrite lo32 in B1, B2.
  pose proof (rounds_mul 24 128 ltac:(lia) ltac:(lia) m e m' e' (-298) X Y ltac:(rewrite lo32; lia) ltac:(lia)) as R.
  set (r0 := SFmul 24 128 (S754_finite false m e) (S754_finite false m' e')) in *.
  set (a := Zpos m * Zpos m' * 2 ^ (e + e' - -298)) in *.
  assert (AV : V = cond_Zopp (xorb s s') a).
  { unfold V, a. cbn [value]. replace (e + e' - -298) with ((e - -149) + (e' - -149)) by lia. rewrite Z.pow_add_r by lia.
    destruct s, s'; cbn [cond_Zopp xorb]; ring. }
  assert (A0 : 0 < a) by (unfold a; apply Z.mul_pos_pos; [lia|apply Z.pow_pos_nonneg; lia]).
  assert (AA : Z.abs V = a) by (rewrite AV; destruct (xorb s s'); cbn [cond_Zopp]; lia).
  assert (U : unsigned 24 128 r0).
  { apply signed_unsigned in S. unfold r0. cbn [SFmul] in S |- *. rewrite abs_aux in S. cbn [xorb].
    destruct (binary_round_aux 24 128 false (Z.pos (m * m')) (e + e') loc_Exact) as [b|b| |[] mm ee] eqn:EB; cbn in S |- *; auto.
    exfalso. pose proof (rounds_range 24 128 ltac:(lia) _ _ _ _ R) as [K|K]; unfold r0 in K; cbn [SFmul xorb] in K; rewrite EB in K; [exact K|discriminate K]. }
  assert (RV : value (-149) (SFmul 24 128 (S754_finite s m e) (S754_finite s' m' e')) = cond_Zopp (xorb s s') (units (-149) r0)).
  { unfold r0. cbn [SFmul xorb]. apply aux_value. }
  rewrite RV, AV. replace (cond_Zopp (xorb s s') (units (-149) r0) * 2 ^ 149) with (cond_Zopp (xorb s s') (units (-298) r0)).
  2: { rewrite (units_shift 24 128 ltac:(lia) r0 (-149) (-298) ltac:(lia) ltac:(rewrite lo32; lia) U). change (-149 - -298) with 149.
       destruct (xorb s s'); cbn [cond_Zopp]; lia. }
  replace (Z.abs (cond_Zopp (xorb s s') (units (-298) r0) - cond_Zopp (xorb s s') a)) with (Z.abs (units (-298) r0 - a))
    by (destruct (xorb s s'); cbn [cond_Zopp]; lia).
  replace (Z.abs (cond_Zopp (xorb s s') a)) with a by (destruct (xorb s s'); cbn [cond_Zopp]; lia).
  rewrite <- (Z.mul_1_l (units (-298) r0)). apply (rounds_error 24 128 ltac:(lia) 1 (-298) a r0 ltac:(lia) R U); rewrite lo32; [|lia].
  rewrite AA in H. change (1 * 2 ^ (24 - 1) * 2 ^ (-149 - -298)) with (2 ^ 172).
  destruct H as [H|H]; [rewrite AV in H; destruct (xorb s s'); cbn [cond_Zopp] in H; lia|exact H].
Qed.

Lemma dot_step : forall R S M g pr R' i k, 1 <= k -> 0 <= i -> 3 * i <= k -> 0 <= M ->
  Z.abs (R - S) * k <= 3 * i * M -> Z.abs S <= M -> Z.abs (pr - g) * k <= Z.abs g -> Z.abs (R' - (R + pr)) * k <= Z.abs (R + pr) ->
  Z.abs (R' - (S + g)) * k <= 3 * (i + 1) * (M + Z.abs g).
Proof.
  intros R S M g pr R' i k Hk Hi Hik HM H1 H2 H3 H4.
  assert (A1 : Z.abs (R - S) <= M).
  { apply (Z.mul_le_mono_pos_r _ _ k); [lia|]. eapply Z.le_trans; [exact H1|]. rewrite Z.mul_comm. apply Z.mul_le_mono_nonneg_l; lia. }
  assert (A2 : Z.abs (pr - g) <= Z.abs g).
  { assert (Z.abs (pr - g) * 1 <= Z.abs (pr - g) * k) by (apply Z.mul_le_mono_nonneg_l; lia). lia. }
  assert (A3 : Z.abs (R' - (S + g)) * k <= (Z.abs (R' - (R + pr)) + Z.abs (R - S) + Z.abs (pr - g)) * k) by (apply Z.mul_le_mono_nonneg_r; lia).
  assert (A4 : 0 <= 3 * i * Z.abs g) by (apply Z.mul_nonneg_nonneg; lia).
  replace (3 * (i + 1) * (M + Z.abs g)) with (3 * i * M + 3 * M + 3 * i * Z.abs g + 3 * Z.abs g) by ring.
  rewrite !Z.mul_add_distr_r in A3. lia.
Qed.

Lemma moderate_upto : forall x, moderate x -> upto 50 x /\ signed 24 128 x.
Proof.
  intros [s|s| |s m e] (F & U & _); cbn [finite32 upto signed] in *; try contradiction; auto. split; auto. split; auto.
  cbn [value] in U. replace (e + 149) with (e - -149) by lia.
  assert (0 <= Zpos m * 2 ^ (e - -149)) by (apply Z.mul_nonneg_nonneg; [lia|apply Z.pow_nonneg; lia]).
  destruct s; cbn [cond_Zopp] in U; lia.
Qed.

Lemma moderate_product : forall x y, moderate x -> moderate y ->
  value (-149) x * value (-149) y = 0 \/ 2 ^ 172 <= Z.abs (value (-149) x * value (-149) y).
Proof.
  intros x y (_ & _ & X) (_ & _ & Y). destruct X as [->|X]; [left; lia|]. destruct Y as [->|Y]; [left; lia|]. right.
  rewrite Z.abs_mul. apply Z.le_trans with (2 ^ 109 * 2 ^ 109); [vm_compute; discriminate|].
  apply Z.mul_le_mono_nonneg; auto; vm_compute; discriminate.
Qed.

Lemma mass_nonneg : forall a b, 0 <= mass32 a b.
Proof.
  intros a b. unfold mass32. induction (products a b) as [|d l IH]; cbn [map fold_right]; [lia|]. pose proof (Z.abs_nonneg d). lia.
Qed.

Lemma mul_from_add : forall x y, signed 24 128 (f32add fzero (f32mul x y)) -> signed 24 128 (f32mul x y).
Proof.
  intros x y. destruct (f32mul x y) as [s|s| |s m e]; cbn; auto; try (destruct s; auto).
Qed.

(** The inner product of vectors of moderate size is off by at most 3n parts in 2^24 of the
    sum of the sizes of the products. *)
Lemma dot_error : forall x y s i S M, signed 24 128 s -> 0 <= i -> units (-149) s <= i * 2 ^ 249 ->
  Z.abs (value (-149) s * 2 ^ 149 - S) * 2 ^ 24 <= 3 * i * M -> Z.abs S <= M ->
  Forall moderate x -> Forall moderate y -> 3 * (i + Z.of_nat (length (combine x y))) <= 2 ^ 24 ->
  let r := dot_loop s x y in
  signed 24 128 r /\ units (-149) r <= (i + Z.of_nat (length (combine x y))) * 2 ^ 249 /\
  Z.abs (value (-149) r * 2 ^ 149 - (S + inner32 x y)) * 2 ^ 24 <= 3 * (i + Z.of_nat (length (combine x y))) * (M + mass32 x y).
Proof.
  induction x as [|a x IH]; intros y s i S M HS Hi HU HE HM X Y HN.
  { cbn [dot_loop combine length]. unfold inner32, mass32, products. cbn [combine map fold_right]. rewrite !Z.add_0_r. auto. }
  destruct y as [|b y].
  { cbn [dot_loop combine length]. unfold inner32, mass32, products. cbn [combine map fold_right]. rewrite !Z.add_0_r. auto. }
  inversion X as [|? ? Xa X']; subst. inversion Y as [|? ? Yb Y']; subst. cbn zeta. cbn [dot_loop combine length].
  cbn [combine length] in HN. rewrite Nat2Z.inj_succ in HN |- *.
  destruct (moderate_upto a Xa) as [Ua Sa]. destruct (moderate_upto b Yb) as [Ub Sb].
  assert (PN : 0 < 2 ^ 249) by reflexivity.
  destruct (dot_loop_upto 50 50 100 ltac:(lia) ltac:(lia) ltac:(lia) ltac:(lia) [a] [b] s i HS Hi HU
             (Forall_cons _ Ua (Forall_nil _)) (Forall_cons _ Ub (Forall_nil _))) as [R1 R2].
  { cbn [length]. change (50 + 50 - 100) with 0. rewrite Z.mul_1_r. lia. }
  destruct (dot_loop_upto 50 50 100 ltac:(lia) ltac:(lia) ltac:(lia) ltac:(lia) [a] [b] fzero 0 I ltac:(lia) ltac:(cbn; lia)
             (Forall_cons _ Ua (Forall_nil _)) (Forall_cons _ Ub (Forall_nil _))) as [R3 _].
  { cbn [length]. change (50 + 50 - 100) with 0. rewrite Z.mul_1_r. lia. }
  cbn [dot_loop length] in R1, R2, R3. apply mul_from_add in R3. change (50 + 50 + 149) with 249 in R2.
  pose proof (mul_error a b Sa Sb R3 (moderate_product a b Xa Yb)) as ME.
  pose proof (add_error 24 128 ltac:(lia) s (f32mul a b) HS R3 R1) as AE. cbv zeta in AE. rewrite lo32 in AE.
  fold (f32add s (f32mul a b)) in AE.
  set (g := value (-149) a * value (-149) b) in *. set (s' := f32add s (f32mul a b)) in *.
  assert (Q : 0 <= M) by (pose proof (Z.abs_nonneg S); lia).
  assert (P149 : 0 < 2 ^ 149) by reflexivity.
  pose proof (dot_step (value (-149) s * 2 ^ 149) S M g (value (-149) (f32mul a b) * 2 ^ 149) (value (-149) s' * 2 ^ 149) i (2 ^ 24)
    ltac:(lia) Hi ltac:(lia) Q HE HM ME) as ST.
  assert (AE' : Z.abs (value (-149) s' * 2 ^ 149 - (value (-149) s * 2 ^ 149 + value (-149) (f32mul a b) * 2 ^ 149)) * 2 ^ 24
    <= Z.abs (value (-149) s * 2 ^ 149 + value (-149) (f32mul a b) * 2 ^ 149)).
  { rewrite <- Z.mul_add_distr_r, <- Z.mul_sub_distr_r, !Z.abs_mul, (Z.abs_eq (2 ^ 149)) by lia.
    rewrite <- Z.mul_assoc, (Z.mul_comm (2 ^ 149)), Z.mul_assoc. apply Z.mul_le_mono_nonneg_r; [lia|exact AE]. }
  specialize (ST AE').
  destruct (IH y s' (i + 1) (S + g) (M + Z.abs g) R1 ltac:(lia) R2 ST ltac:(lia) X' Y' ltac:(lia)) as (F1 & F2 & F3).
  split; [exact F1|]. split; [replace (i + Z.succ (Z.of_nat (length (combine x y)))) with (i + 1 + Z.of_nat (length (combine x y))) by lia; exact F2|].
  replace (i + Z.succ (Z.of_nat (length (combine x y)))) with (i + 1 + Z.of_nat (length (combine x y))) by lia.
  replace (inner32 (a :: x) (b :: y)) with (g + inner32 x y) by reflexivity.
  replace (mass32 (a :: x) (b :: y)) with (Z.abs g + mass32 x y) by reflexivity.
  rewrite !Z.add_assoc. exact F3.
Qed.
