(** The error of CosineSimilarity. *)
From Coq Require Import ZArith Lia List Bool.
From Verif.Base Require Import GoBase Float.
From Verif.Model Require Import Vector Annoy.
From Verif.Spec Require Import SizeSpec AccuracySpec.
From Verif.Proof Require Import RoundP VectorP MonoP MonoQ TruncP ExactP SizeP NearP AngleP ErrorP ErrorQ SelfP DotP CosineP.
Import ListNotations.
Open Scope Z_scope.

Lemma near_root : forall U ss A q j, 8 * 2 ^ 21 = q -> 0 <= A -> 0 <= j <= q ->
  Z.abs (ss - A) * q <= j * A -> Z.abs (U * U - 4 * ss) * 2 ^ 21 <= 4 * ss ->
  Z.abs (U * U - 4 * A) * q <= (j + 16) * (4 * A).
Proof.
  intros U ss A q j Hq HA Hj H1 H2. set (UU := U * U) in *. clearbody UU.
  assert (Q : 0 < q) by (rewrite <- Hq; reflexivity).
  assert (S : ss <= 2 * A).
  { assert (Z.abs (ss - A) <= A); [|lia]. apply (Z.mul_le_mono_pos_r _ _ q); [exact Q|]. eapply Z.le_trans; [exact H1|].
    rewrite Z.mul_comm. apply Z.mul_le_mono_nonneg_l; lia. }
  assert (X : Z.abs (UU - 4 * A) * q <= (Z.abs (UU - 4 * ss) + 4 * Z.abs (ss - A)) * q) by (apply Z.mul_le_mono_nonneg_r; lia).
  rewrite Z.mul_add_distr_r in X.
  assert (Y : Z.abs (UU - 4 * ss) * q <= 8 * (4 * ss)) by (rewrite <- Hq; lia).
  replace ((j + 16) * (4 * A)) with (4 * (j * A) + 64 * A) by ring.
  replace (4 * Z.abs (ss - A) * q) with (4 * (Z.abs (ss - A) * q)) in X by ring. lia.
Qed.

Lemma near_mul : forall X Y X' Y' k q, 0 < q -> 0 <= k <= q -> 0 <= X -> 0 <= Y -> 0 <= Y' ->
  Z.abs (X - Y) * q <= k * Y -> Z.abs (X' - Y') * q <= k * Y' ->
  Z.abs (X * X' - Y * Y') * q <= 3 * k * (Y * Y').
Proof.
  intros X Y X' Y' k q Q K HX HY HY' H1 H2.
  assert (S : X <= 2 * Y).
  { assert (Z.abs (X - Y) <= Y); [|lia]. apply (Z.mul_le_mono_pos_r _ _ q); [exact Q|]. eapply Z.le_trans; [exact H1|].
    rewrite Z.mul_comm. apply Z.mul_le_mono_nonneg_l; lia. }
  replace (X * X' - Y * Y') with (X * (X' - Y') + Y' * (X - Y)) by ring.
  assert (T : Z.abs (X * (X' - Y') + Y' * (X - Y)) <= X * Z.abs (X' - Y') + Y' * Z.abs (X - Y)).
  { eapply Z.le_trans; [apply Z.abs_triangle|]. rewrite !Z.abs_mul, (Z.abs_eq X), (Z.abs_eq Y') by lia. lia. }
  eapply Z.le_trans; [apply Z.mul_le_mono_nonneg_r; [lia|exact T]|].
  rewrite Z.mul_add_distr_r, <- !Z.mul_assoc.
  assert (A1 : X * (Z.abs (X' - Y') * q) <= X * (k * Y')) by (apply Z.mul_le_mono_nonneg_l; lia).
  assert (A2 : Y' * (Z.abs (X - Y) * q) <= Y' * (k * Y)) by (apply Z.mul_le_mono_nonneg_l; lia).
  assert (A3 : X * (k * Y') <= 2 * Y * (k * Y')) by (apply Z.mul_le_mono_nonneg_r; [apply Z.mul_nonneg_nonneg; lia|exact S]).
  replace (3 * (k * (Y * Y'))) with (2 * Y * (k * Y') + Y' * (k * Y)) by ring. lia.
Qed.

Lemma near_square : forall V v Q16 k q, 0 < q -> 1 <= q -> 0 <= v -> 0 <= V -> 0 <= k <= q -> 0 <= Q16 ->
  Z.abs (V - v) * q <= v -> Z.abs (v * v - Q16) * q <= k * Q16 ->
  Z.abs (V * V - Q16) * q <= (k + 6) * Q16.
Proof.
  intros V v Q16 k q Q Q1 Hv HV K HQ H1 H2.
  assert (S : V <= 2 * v).
  { assert (Z.abs (V - v) * 1 <= Z.abs (V - v) * q) by (apply Z.mul_le_mono_nonneg_l; lia). lia. }
  assert (S2 : v * v <= 2 * Q16).
  { assert (Z.abs (v * v - Q16) <= Q16); [|lia]. apply (Z.mul_le_mono_pos_r _ _ q); [exact Q|]. eapply Z.le_trans; [exact H2|].
    rewrite Z.mul_comm. apply Z.mul_le_mono_nonneg_l; lia. }
  assert (T : Z.abs (V * V - v * v) * q <= 3 * (v * v)).
  { replace (V * V - v * v) with ((V - v) * (V + v)) by ring. rewrite Z.abs_mul, (Z.abs_eq (V + v)) by lia.
    replace (Z.abs (V - v) * (V + v) * q) with (Z.abs (V - v) * q * (V + v)) by ring.
    replace (3 * (v * v)) with (v * (3 * v)) by ring.
    apply Z.mul_le_mono_nonneg; [apply Z.mul_nonneg_nonneg; lia|exact H1|lia|lia]. }
  assert (X : Z.abs (V * V - Q16) * q <= (Z.abs (V * V - v * v) + Z.abs (v * v - Q16)) * q) by (apply Z.mul_le_mono_nonneg_r; lia).
  rewrite Z.mul_add_distr_r in X. replace ((k + 6) * Q16) with (k * Q16 + 6 * Q16) by ring. lia.
Qed.

Lemma near_sqrt : forall w P r k q, 0 < q -> 0 <= w -> 0 <= k <= q -> r * r <= P <= r * r + 2 * r -> 4 * q <= r ->
  Z.abs (w * w - P) * q <= k * P -> Z.abs (w - r) * q <= (k + 1) * r.
Proof.
  intros w P r k q Q W K [R1 R2] R H.
  assert (E : Z.abs (w * w - r * r) * q <= k * (r * r + 2 * r) + 2 * r * q).
  { assert (A1 : Z.abs (w * w - r * r) * q <= (Z.abs (w * w - P) + 2 * r) * q) by (apply Z.mul_le_mono_nonneg_r; lia).
    rewrite Z.mul_add_distr_r in A1. assert (k * P <= k * (r * r + 2 * r)) by (apply Z.mul_le_mono_nonneg_l; lia). lia. }
  assert (F : Z.abs (w - r) * q * r <= (k + 1) * r * r).
  { assert (A1 : Z.abs (w - r) * q * r <= Z.abs (w - r) * q * (w + r)).
    { apply Z.mul_le_mono_nonneg_l; [apply Z.mul_nonneg_nonneg; lia|lia]. }
    replace (Z.abs (w - r) * q * (w + r)) with (Z.abs (w * w - r * r) * q) in A1.
    2: { replace (w * w - r * r) with ((w - r) * (w + r)) by ring. rewrite Z.abs_mul, (Z.abs_eq (w + r)) by lia. ring. }
    assert (A2 : 4 * q * r <= r * r) by (apply Z.mul_le_mono_nonneg_r; lia).
    assert (A3 : 2 * k * r <= 2 * q * r) by (apply Z.mul_le_mono_nonneg_r; lia).
    replace ((k + 1) * r * r) with (k * (r * r) + r * r) by ring.
    replace (k * (r * r + 2 * r)) with (k * (r * r) + 2 * k * r) in E by ring. lia. }
  apply (Z.mul_le_mono_pos_r _ _ r); [lia|exact F].
Qed.

Lemma cos_high : forall C T ww dd D r k j q, 0 < T -> 0 < q -> 0 <= ww -> 0 <= r ->
  Z.abs (C * ww - dd * T) * q <= (Z.abs dd + ww) * T -> Z.abs (dd - D) * q <= j * r -> Z.abs (ww - r) * q <= k * r ->
  Z.abs D <= r -> Z.abs dd <= 2 * r -> ww <= 2 * r -> T <= C ->
  Z.abs (T * r - D * T) * q <= (k + j + 4) * r * T.
Proof.
  intros C T ww dd D r k j q HT HQ HW HR H1 H2 H3 HD Hdd Hww HC.
  assert (L1 : T * ww <= C * ww) by (apply Z.mul_le_mono_nonneg_r; lia).
  rewrite Z.abs_eq.
  2: { replace (T * r - D * T) with ((r - D) * T) by ring. apply Z.mul_nonneg_nonneg; lia. }
  assert (L2 : (T * ww - dd * T) * q <= 4 * r * T).
  { assert (A : (C * ww - dd * T) * q <= (Z.abs dd + ww) * T).
    { eapply Z.le_trans; [|exact H1]. apply Z.mul_le_mono_nonneg_r; lia. }
    assert (B : (Z.abs dd + ww) * T <= 4 * r * T) by (apply Z.mul_le_mono_nonneg_r; lia).
    assert (D1 : (T * ww - dd * T) * q <= (C * ww - dd * T) * q) by (apply Z.mul_le_mono_nonneg_r; lia). lia. }
  assert (L3 : (dd - D) * q * T <= j * r * T) by (apply Z.mul_le_mono_nonneg_r; [lia|]; eapply Z.le_trans; [|exact H2]; apply Z.mul_le_mono_nonneg_r; lia).
  assert (L4 : (r - ww) * q * T <= k * r * T) by (apply Z.mul_le_mono_nonneg_r; [lia|]; eapply Z.le_trans; [|exact H3]; apply Z.mul_le_mono_nonneg_r; lia).
  replace ((T * r - D * T) * q) with ((T * ww - dd * T) * q + (dd - D) * q * T + (r - ww) * q * T) by ring.
  replace ((k + j + 4) * r * T) with (k * r * T + j * r * T + 4 * r * T) by ring. lia.
Qed.

Lemma cos_arith : forall C T ww dd D r k j q, 0 < T -> 0 < q -> 0 <= ww -> 0 <= r ->
  Z.abs (C * ww - dd * T) * q <= (Z.abs dd + ww) * T -> Z.abs (dd - D) * q <= j * r -> Z.abs (ww - r) * q <= k * r ->
  Z.abs D <= r -> k <= q -> j <= q ->
  Z.abs (Z.max (- T) (Z.min T C) * r - D * T) * q <= (k + j + 4) * r * T.
Proof.
  intros C T ww dd D r k j q HT HQ HW HR H1 H2 H3 HD Hk Hj.
  assert (Hww : ww <= 2 * r).
  { assert (Z.abs (ww - r) <= r); [|lia]. apply (Z.mul_le_mono_pos_r _ _ q); [exact HQ|]. eapply Z.le_trans; [exact H3|].
    rewrite Z.mul_comm. apply Z.mul_le_mono_nonneg_l; lia. }
  assert (Hdd : Z.abs dd <= 2 * r).
  { assert (Z.abs (dd - D) <= r); [|lia]. apply (Z.mul_le_mono_pos_r _ _ q); [exact HQ|]. eapply Z.le_trans; [exact H2|].
    rewrite Z.mul_comm. apply Z.mul_le_mono_nonneg_l; lia. }
  destruct (Z.le_gt_cases T C) as [G|G].
  { rewrite Z.min_l, Z.max_r by lia. apply (cos_high C T ww dd D r k j q); auto. }
  rewrite Z.min_r by lia.
  destruct (Z.le_gt_cases C (- T)) as [G'|G'].
  { rewrite Z.max_l by lia. replace (Z.abs (- T * r - D * T)) with (Z.abs (T * r - (- D) * T)) by (rewrite <- Z.abs_opp; f_equal; ring).
    apply (cos_high (- C) T ww (- dd) (- D) r k j q); auto; try lia.
    - replace (- C * ww - - dd * T) with (- (C * ww - dd * T)) by ring. rewrite !Z.abs_opp. exact H1.
    - replace (- dd - - D) with (- (dd - D)) by ring. rewrite Z.abs_opp. exact H2. }
  rewrite Z.max_r by lia.
  assert (X : Z.abs (C * r - D * T) * q <= (Z.abs C * Z.abs (r - ww) + Z.abs (C * ww - dd * T) + Z.abs (dd - D) * T) * q).
  { apply Z.mul_le_mono_nonneg_r; [lia|]. replace (C * r - D * T) with (C * (r - ww) + (C * ww - dd * T) + (dd - D) * T) by ring.
    rewrite <- Z.abs_mul. assert (EQ : Z.abs ((dd - D) * T) = Z.abs (dd - D) * T) by (rewrite Z.abs_mul, (Z.abs_eq T) by lia; reflexivity).
    pose proof (Z.abs_triangle (C * (r - ww) + (C * ww - dd * T)) ((dd - D) * T)).
    pose proof (Z.abs_triangle (C * (r - ww)) (C * ww - dd * T)). lia. }
  rewrite !Z.mul_add_distr_r in X.
  assert (A1 : Z.abs C * Z.abs (r - ww) * q <= T * (k * r)).
  { rewrite <- Z.mul_assoc. apply Z.mul_le_mono_nonneg; [lia|lia|apply Z.mul_nonneg_nonneg; lia|].
    replace (Z.abs (r - ww)) with (Z.abs (ww - r)) by lia. exact H3. }
  assert (A2 : (Z.abs dd + ww) * T <= 4 * r * T) by (apply Z.mul_le_mono_nonneg_r; lia).
  assert (A3 : Z.abs (dd - D) * T * q <= j * r * T).
  { replace (Z.abs (dd - D) * T * q) with (Z.abs (dd - D) * q * T) by ring. apply Z.mul_le_mono_nonneg_r; lia. }
  replace ((k + j + 4) * r * T) with (T * (k * r) + j * r * T + 4 * r * T) by ring. lia.
Qed.

(** The limits -1 and 1. *)
Definition clamp (d : float) : float :=
  if fgtb d f64_one then f64_one else if fltb d f64_mone then f64_mone else d.

Lemma neg_ltb : forall m e m' e',
  SFltb (S754_finite true m e) (S754_finite true m' e') = SFltb (S754_finite false m' e') (S754_finite false m e).
Proof.
  intros. unfold SFltb, SFcompare. rewrite (Z.compare_antisym e' e). destruct (e' ?= e); cbn [CompOpp]; try reflexivity.
  rewrite Pos.compare_cont_antisym. reflexivity.
Qed.

Lemma clamp_value : forall d, signed 53 1024 d ->
  value (-1074) (clamp d) = Z.max (- 2 ^ 1074) (Z.min (2 ^ 1074) (value (-1074) d)).
Proof.
  assert (O : f64_one = S754_finite false 4503599627370496 (-52)) by reflexivity.
  assert (N : f64_mone = S754_finite true 4503599627370496 (-52)) by reflexivity.
  assert (V1 : units (-1074) (S754_finite false 4503599627370496 (-52)) = 2 ^ 1074) by reflexivity.
  assert (U1 : unsigned 53 1024 (S754_finite false 4503599627370496 (-52))) by reflexivity.
  assert (PT : 0 < 2 ^ 1074) by reflexivity.
  assert (C : forall m e, bounded 53 1024 m e = true ->
    (SFltb (S754_finite false 4503599627370496 (-52)) (S754_finite false m e) = true -> 2 ^ 1074 <= units (-1074) (S754_finite false m e)) /\
    (SFltb (S754_finite false 4503599627370496 (-52)) (S754_finite false m e) = false -> units (-1074) (S754_finite false m e) <= 2 ^ 1074)).
  { intros m e B. split; intro L.
    - rewrite <- V1. apply (fleb_units 53 1024 ltac:(lia) _ (S754_finite false m e) (-1074) ltac:(apply Z.le_refl) U1 B).
      assert (K : SFleb (S754_finite false 4503599627370496 (-52)) (S754_finite false m e) = true); [|exact K].
      unfold SFltb, SFleb in *. destruct (SFcompare _ _) as [[]|]; try discriminate; reflexivity.
    - rewrite <- V1. apply (fleb_units 53 1024 ltac:(lia) (S754_finite false m e) _ (-1074) ltac:(apply Z.le_refl) B U1).
      assert (K : SFleb (S754_finite false m e) (S754_finite false 4503599627370496 (-52)) = true); [|exact K].
      rewrite SFleb_ltb by reflexivity. rewrite L. reflexivity. }
  set (T := 2 ^ 1074) in *.
  intros [s|s| |s m e] S; cbn [signed] in S; try contradiction.
  - assert (E : clamp (S754_zero s) = S754_zero s) by (destruct s; reflexivity). rewrite E. cbn [value]. lia.
  - destruct (C m e S) as [C1 C2]. pose proof (units_nonneg (S754_finite false m e) (-1074)) as U0.
    destruct s.
    + assert (E : fgtb (S754_finite true m e) f64_one = false) by (rewrite O; reflexivity).
      assert (E2 : fltb (S754_finite true m e) f64_mone = SFltb (S754_finite false 4503599627370496 (-52)) (S754_finite false m e)).
      { rewrite N. apply neg_ltb. }
      unfold clamp. rewrite E, E2. destruct (SFltb _ _) eqn:L.
      * specialize (C1 eq_refl). rewrite N. change (value (-1074) (S754_finite true 4503599627370496 (-52))) with (- T).
        change (value (-1074) (S754_finite true m e)) with (- units (-1074) (S754_finite false m e)). lia.
      * specialize (C2 eq_refl). change (value (-1074) (S754_finite true m e)) with (- units (-1074) (S754_finite false m e)). lia.
    + assert (E : fgtb (S754_finite false m e) f64_one = SFltb (S754_finite false 4503599627370496 (-52)) (S754_finite false m e)) by (rewrite O; reflexivity).
      assert (E2 : fltb (S754_finite false m e) f64_mone = false) by (rewrite N; reflexivity).
      unfold clamp. rewrite E, E2. destruct (SFltb _ _) eqn:L.
      * specialize (C1 eq_refl). rewrite O. change (value (-1074) (S754_finite false 4503599627370496 (-52))) with T.
        change (value (-1074) (S754_finite false m e)) with (units (-1074) (S754_finite false m e)). lia.
      * specialize (C2 eq_refl). change (value (-1074) (S754_finite false m e)) with (units (-1074) (S754_finite false m e)). lia.
Qed.

Lemma widen_value : forall d, signed 24 128 d -> signed 53 1024 (f64_of_f32 d) /\
  value (-1074) (f64_of_f32 d) = value (-149) d * 2 ^ 925.
Proof.
  intros [s|s| |s m e] U; cbn [signed] in U; try contradiction; [split; [exact I|reflexivity]|].
  destruct (widen_signed s m e U) as (m' & e' & -> & B & L & V).
  destruct (bounded_spec 24 128 ltac:(lia) m e U) as (_ & L1 & _). rewrite lo32 in L1.
  destruct (bounded_spec 53 1024 ltac:(lia) m' e' B) as (_ & L2 & _). change (emin 53 1024) with (-1074) in L2.
  split; [exact B|]. cbn [value].
  assert (E : Zpos m' * 2 ^ (e' - -1074) = Zpos m * 2 ^ (e - -149) * 2 ^ 925).
  { rewrite V, <- !Z.mul_assoc, <- !Z.pow_add_r by lia. f_equal. f_equal. lia. }
  rewrite E. destruct s; cbn [cond_Zopp]; ring.
Qed.

Lemma value_shift : forall x E F, F <= E -> E <= -149 -> signed 24 128 x -> value F x = value E x * 2 ^ (E - F).
Proof.
  intros [s|s| |s m e] E F H1 H2 U; cbn [signed value] in *; try contradiction; [reflexivity|].
  destruct (bounded_spec 24 128 ltac:(lia) m e U) as (_ & B & _). rewrite lo32 in B.
  replace (2 ^ (e - F)) with (2 ^ (e - E) * 2 ^ (E - F)) by (rewrite <- Z.pow_add_r by lia; f_equal; lia).
  destruct s; cbn [cond_Zopp]; ring.
Qed.

(** The square of the length of a vector that is not zero, and its float32 value. *)
Lemma inner_large : forall a, Forall moderate a -> Exists (fun x => value (-149) x <> 0) a -> 2 ^ 218 <= inner32 a a.
Proof.
  intros a F X. induction X as [x a N|x a X IH]; inversion F as [|? ? Fx Fa]; subst.
  - replace (inner32 (x :: a) (x :: a)) with (value (-149) x * value (-149) x + inner32 a a) by reflexivity.
    pose proof (inner_self a) as [I0 _]. destruct Fx as (_ & _ & [K|K]); [contradiction|].
    rewrite <- Z.abs_square. change (2 ^ 218) with (2 ^ (-40 + 149) * 2 ^ (-40 + 149)).
    assert (2 ^ (-40 + 149) * 2 ^ (-40 + 149) <= Z.abs (value (-149) x) * Z.abs (value (-149) x)) by (apply Z.mul_le_mono_nonneg; auto; vm_compute; discriminate).
    lia.
  - replace (inner32 (x :: a) (x :: a)) with (value (-149) x * value (-149) x + inner32 a a) by reflexivity.
    pose proof (Z.square_nonneg (value (-149) x)). specialize (IH Fa). lia.
Qed.

Lemma combine_self : forall (a : list float), length (combine a a) = length a.
Proof. intro a. rewrite combine_length. apply Nat.min_id. Qed.

Lemma length_near : forall a n, Forall moderate a -> Exists (fun x => value (-149) x <> 0) a -> Z.of_nat (length a) <= n -> n <= 2 ^ 19 ->
  let s := dot_loop fzero a a in
  unsigned 24 128 s /\ 2 ^ 60 <= units (-149) s <= 2 ^ 270 /\
  Z.abs (units (-149) s * 2 ^ 149 - inner32 a a) * 2 ^ 24 <= 3 * n * inner32 a a.
Proof.
  intros a n F X L N. cbn zeta.
  assert (N' : n <= 524288) by exact N.
  destruct (dot_error a a fzero 0 0 0 I ltac:(lia) ltac:(cbn; lia) ltac:(vm_compute; discriminate) ltac:(cbn; lia) F F) as (S & U & E).
  { rewrite combine_self. change (2 ^ 24) with 16777216. lia. }
  rewrite combine_self in U, E. rewrite !Z.add_0_l in U, E. rewrite (proj2 (inner_self a)) in E.
  assert (SG : Forall (signed 24 128) a) by (eapply Forall_impl; [|exact F]; intros x Hx; apply moderate_upto, Hx).
  assert (DU : unsigned 24 128 (dot_loop fzero a a)).
  { apply in_range_signed; auto. apply dot_self_range; auto. left. exact I. }
  pose proof (inner_large a F X) as IL. pose proof (inner_self a) as [I0 _].
  assert (V : value (-149) (dot_loop fzero a a) = units (-149) (dot_loop fzero a a)).
  { clear -DU. destruct (dot_loop fzero a a) as [b|b| |[] m e]; cbn in *; try contradiction; reflexivity. }
  rewrite V in E. set (u := units (-149) (dot_loop fzero a a)) in *. clearbody u. set (A := inner32 a a) in *. clearbody A.
  assert (E' : Z.abs (u * 2 ^ 149 - A) * 2 ^ 24 <= 3 * n * A).
  { eapply Z.le_trans; [exact E|]. apply Z.mul_le_mono_nonneg_r; lia. }
  split; [exact DU|]. split; [split|exact E'].
  - assert (K : Z.abs (u * 2 ^ 149 - A) * 2 ^ 24 <= 1572864 * A).
    { eapply Z.le_trans; [exact E'|]. apply Z.mul_le_mono_nonneg_r; lia. }
    apply (Z.mul_le_mono_pos_r _ _ (2 ^ 149)); [reflexivity|].
    change (2 ^ 60 * 2 ^ 149) with (2 ^ 209). change (2 ^ 218) with (512 * 2 ^ 209) in IL. change (2 ^ 24) with 16777216 in K.
    set (t := 2 ^ 209) in *. assert (0 < t) by reflexivity. clearbody t. set (v := u * 2 ^ 149) in *. clearbody v. clear -K IL H. lia.
  - eapply Z.le_trans; [exact U|]. change (2 ^ 270) with (2 ^ 21 * 2 ^ 249). apply Z.mul_le_mono_nonneg_r; [apply Z.pow_nonneg; lia|].
    change (2 ^ 21) with 2097152. lia.
Qed.

Lemma shrink : forall x y c, 0 < c -> Z.abs (x * c) <= y * c -> Z.abs x <= y.
Proof. intros x y c Hc H. rewrite Z.abs_mul, (Z.abs_eq c) in H by lia. apply (Z.mul_le_mono_pos_r _ _ c); assumption. Qed.

Theorem cosine_error : forall a b n, Forall moderate a -> Forall moderate b ->
  Exists (fun x => value (-149) x <> 0) a -> Exists (fun x => value (-149) x <> 0) b ->
  Z.of_nat (length a) <= n -> Z.of_nat (length b) <= n -> n <= 2 ^ 19 ->
  let r := Z.sqrt (inner32 a a * inner32 b b) in
  2 ^ 218 <= r /\ signed 53 1024 (CosineSimilarity a b) /\
  Z.abs (value (-1074) (CosineSimilarity a b) * r - inner32 a b * 2 ^ 1074) * 2 ^ 24 <= (12 * n + 59) * r * 2 ^ 1074.
Proof.
  intros a b n FA FB XA XB LA LB N. cbn zeta.
  assert (N' : n <= 524288) by exact N. assert (N0 : 0 <= n) by lia.
  destruct (length_near a n FA XA LA N) as (U1 & B1 & E1). destruct (length_near b n FB XB LB N) as (U2 & B2 & E2).
  pose proof (inner_large a FA XA) as IA. pose proof (inner_large b FB XB) as IB.
  pose proof (cauchy_schwarz a b) as CS. pose proof (mass_nonneg a b) as M0. pose proof (inner_mass a b) as DM.
  set (A := inner32 a a) in *. set (B := inner32 b b) in *. set (D := inner32 a b) in *.
  set (r := Z.sqrt (A * B)).
  assert (A0 : 0 < A) by (eapply Z.lt_le_trans; [|exact IA]; reflexivity).
  assert (B0 : 0 < B) by (eapply Z.lt_le_trans; [|exact IB]; reflexivity).
  assert (P0 : 0 < A * B) by (apply Z.mul_pos_pos; assumption).
  assert (RB : 2 ^ 218 <= r).
  { unfold r. change (2 ^ 218) with (Z.sqrt (2 ^ 218 * 2 ^ 218)). apply Z.sqrt_le_mono. apply Z.mul_le_mono_nonneg; auto; vm_compute; discriminate. }
  assert (RS : r * r <= A * B <= r * r + 2 * r).
  { unfold r. pose proof (Z.sqrt_spec (A * B) ltac:(lia)) as [S1 S2]. split; [exact S1|].
    replace (Z.succ (Z.sqrt (A * B)) * Z.succ (Z.sqrt (A * B))) with (Z.sqrt (A * B) * Z.sqrt (A * B) + 2 * Z.sqrt (A * B) + 1) in S2 by ring. lia. }
  assert (MR : mass32 a b <= r).
  { unfold r. rewrite <- (Z.sqrt_square (mass32 a b)) by exact M0. apply Z.sqrt_le_mono. exact CS. }
  clear CS. clearbody r.
  (* the inner product *)
  destruct (dot_error a b fzero 0 0 0 I ltac:(lia) ltac:(cbn; lia) ltac:(vm_compute; discriminate) ltac:(cbn; lia) FA FB) as (SD & _ & ED).
  { pose proof (combine_length a b). change (2 ^ 24) with 16777216. lia. }
  rewrite !Z.add_0_l in ED. fold D in ED.
  assert (ED' : Z.abs (value (-149) (dot_loop fzero a b) * 2 ^ 149 - D) * 2 ^ 24 <= 3 * n * r).
  { eapply Z.le_trans; [exact ED|]. pose proof (combine_length a b). apply Z.mul_le_mono_nonneg; lia. }
  clear ED. clearbody A B D.
  (* the roots *)
  unfold CosineSimilarity. rewrite cos_loop_dots.
  set (s1 := dot_loop fzero a a) in *. set (s2 := dot_loop fzero b b) in *. set (d := dot_loop fzero a b) in *. clearbody s1 s2 d.
  assert (Z1 : forall s, unsigned 24 128 s -> 2 ^ 60 <= units (-149) s <= 2 ^ 270 -> feqb s fzero = false).
  { intros [t|t| |[] m e] U [L _]; cbn [unsigned units] in *; try contradiction; reflexivity. }
  rewrite (Z1 s1 U1 B1), (Z1 s2 U2 B2). cbn [orb]. clear Z1.
  destruct (root_near s1 U1 B1) as [V1 Q1]. destruct (root_near s2 U2 B2) as [V2 Q2].
  set (r1 := f32sqrt s1) in *. set (r2 := f32sqrt s2) in *. clearbody r1 r2.
  assert (K1 : Z.abs (units (-150) r1 * units (-150) r1 - 4 * A) * 2 ^ 24 <= (3 * n + 16) * (4 * A)).
  { apply (near_root _ (units (-149) s1 * 2 ^ 149)); [reflexivity|lia|change (2 ^ 24) with 16777216; lia|exact E1|].
    replace (4 * (units (-149) s1 * 2 ^ 149)) with (units (-149) s1 * 2 ^ 151) by (change (2 ^ 151) with (4 * 2 ^ 149); ring). exact Q1. }
  assert (K2 : Z.abs (units (-150) r2 * units (-150) r2 - 4 * B) * 2 ^ 24 <= (3 * n + 16) * (4 * B)).
  { apply (near_root _ (units (-149) s2 * 2 ^ 149)); [reflexivity|lia|change (2 ^ 24) with 16777216; lia|exact E2|].
    replace (4 * (units (-149) s2 * 2 ^ 149)) with (units (-149) s2 * 2 ^ 151) by (change (2 ^ 151) with (4 * 2 ^ 149); ring). exact Q2. }
  clear E1 E2.
  pose proof (units_nonneg r1 (-150)) as P1. pose proof (units_nonneg r2 (-150)) as P2.
  assert (SZ : forall u A0 s, 2 ^ 218 <= A0 -> 0 <= s <= 2 ^ 270 -> 0 <= u -> Z.abs (u * u - 4 * A0) * 2 ^ 24 <= (3 * n + 16) * (4 * A0) ->
    Z.abs (u * u - s * 2 ^ 151) * 2 ^ 21 <= s * 2 ^ 151 -> 2 ^ 109 <= u <= 2 ^ 212).
  { clear -N' N0. intros u A s HA [Hs0 Hs] Hu H1 H2. change (2 ^ 218) with (2 ^ 109 * 2 ^ 109) in HA.
    assert (H1' : Z.abs (u * u - 4 * A) * 2 ^ 24 <= 1572880 * (4 * A)).
    { eapply Z.le_trans; [exact H1|]. apply Z.mul_le_mono_nonneg_r; [|lia]. assert (0 <= 2 ^ 109 * 2 ^ 109) by (vm_compute; discriminate). lia. }
    change (2 ^ 24) with 16777216 in H1'.
    assert (0 <= 2 ^ 109 * 2 ^ 109) by (vm_compute; discriminate).
    split.
    - apply Z.square_le_simpl_nonneg; [exact Hu|]. set (t := 2 ^ 109 * 2 ^ 109) in *. clearbody t. lia.
    - apply Z.square_le_simpl_nonneg; [vm_compute; discriminate|]. change (2 ^ 212 * 2 ^ 212) with (8 * (2 ^ 270 * 2 ^ 151)).
      assert (s * 2 ^ 151 <= 2 ^ 270 * 2 ^ 151) by (apply Z.mul_le_mono_nonneg_r; [apply Z.pow_nonneg; lia|exact Hs]).
      assert (0 <= s * 2 ^ 151) by (apply Z.mul_nonneg_nonneg; [lia|apply Z.pow_nonneg; lia]).
      set (t := s * 2 ^ 151) in *. clearbody t. set (v := 2 ^ 270 * 2 ^ 151) in *. clearbody v. change (2 ^ 21) with 2097152 in H2. lia. }
  assert (S1 : 2 ^ 109 <= units (-150) r1 <= 2 ^ 212).
  { apply (SZ _ A (units (-149) s1)); auto. split; [apply units_nonneg|apply B1]. }
  assert (S2 : 2 ^ 109 <= units (-150) r2 <= 2 ^ 212).
  { apply (SZ _ B (units (-149) s2)); auto. split; [apply units_nonneg|apply B2]. }
  clear SZ Q1 Q2 B1 B2.
  (* their product *)
  destruct (product_near r1 r2 V1 V2) as [WU WE].
  { split.
    - apply Z.le_trans with (2 ^ 109 * 2 ^ 109); [vm_compute; discriminate|]. apply Z.mul_le_mono_nonneg; try apply S1; try apply S2; vm_compute; discriminate.
    - apply Z.le_trans with (2 ^ 212 * 2 ^ 212); [|vm_compute; discriminate]. apply Z.mul_le_mono_nonneg; auto; try apply S1; apply S2. }
  set (w := f32mul r1 r2) in *. clearbody w.
  set (u1 := units (-150) r1) in *. set (u2 := units (-150) r2) in *. clearbody u1 u2. clear S1 S2.
  assert (KV : Z.abs ((u1 * u2) * (u1 * u2) - 16 * (A * B)) * 2 ^ 24 <= (9 * n + 48) * (16 * (A * B))).
  { replace ((u1 * u2) * (u1 * u2)) with ((u1 * u1) * (u2 * u2)) by ring. replace (16 * (A * B)) with ((4 * A) * (4 * B)) by ring.
    replace (9 * n + 48) with (3 * (3 * n + 16)) by ring.
    change (2 ^ 24) with 16777216 in *. apply near_mul; auto; try lia. }
  pose proof (near_square (units (-300) w) (u1 * u2) (16 * (A * B)) (9 * n + 48) (2 ^ 24) ltac:(reflexivity) ltac:(vm_compute; discriminate)
    ltac:(apply Z.mul_nonneg_nonneg; assumption) (units_nonneg _ _) ltac:(change (2 ^ 24) with 16777216; lia) ltac:(lia) WE KV) as KW.
  replace (units (-300) w) with (4 * (units (-149) w * 2 ^ 149)) in KW.
  2: { rewrite (units_shift 24 128 ltac:(lia) w (-149) (-300) ltac:(lia) ltac:(rewrite lo32; lia) WU). change (-149 - -300) with 151.
       change (2 ^ 151) with (4 * 2 ^ 149). ring. }
  set (ww := units (-149) w * 2 ^ 149) in *.
  assert (W0 : 0 <= ww) by (apply Z.mul_nonneg_nonneg; [apply units_nonneg|apply Z.pow_nonneg; lia]).
  assert (KW' : Z.abs (ww * ww - A * B) * 2 ^ 24 <= (9 * n + 54) * (A * B)).
  { replace (4 * ww * (4 * ww) - 16 * (A * B)) with ((ww * ww - A * B) * 16) in KW by ring.
    rewrite Z.abs_mul, (Z.abs_eq 16) in KW by lia. replace (9 * n + 48 + 6) with (9 * n + 54) in KW by ring.
    apply (Z.mul_le_mono_pos_r _ _ 16); [lia|].
    replace ((9 * n + 54) * (A * B) * 16) with ((9 * n + 54) * (16 * (A * B))) by ring.
    replace (Z.abs (ww * ww - A * B) * 2 ^ 24 * 16) with (Z.abs (ww * ww - A * B) * 16 * 2 ^ 24) by ring. exact KW. }
  clear KW KV WE K1 K2.
  assert (R4 : 4 * 2 ^ 24 <= r) by (eapply Z.le_trans; [|exact RB]; vm_compute; discriminate).
  pose proof (near_sqrt ww (A * B) r (9 * n + 54) (2 ^ 24) ltac:(reflexivity) W0 ltac:(change (2 ^ 24) with 16777216; lia) RS R4 KW') as KR.
  replace (9 * n + 54 + 1) with (9 * n + 55) in KR by ring. clear KW' RS R4.
  (* the quotient *)
  assert (R0 : 0 < r) by (eapply Z.lt_le_trans; [|exact RB]; reflexivity).
  assert (WL : r <= 2 * ww).
  { assert (K : Z.abs (ww - r) * 2 ^ 24 <= 4718647 * r) by (eapply Z.le_trans; [exact KR|]; apply Z.mul_le_mono_nonneg_r; lia).
    change (2 ^ 24) with 16777216 in K. clear -K R0. lia. }
  assert (P149 : 0 < 2 ^ 149) by reflexivity.
  assert (WP : 0 < units (-149) w).
  { pose proof (units_nonneg w (-149)). destruct (Z.eq_dec (units (-149) w) 0) as [E|]; [|lia]. exfalso. unfold ww in WL. rewrite E in WL. lia. }
  assert (DL : Z.abs (value (-149) d * 2 ^ 149) <= 2 * r).
  { assert (K : Z.abs (value (-149) d * 2 ^ 149 - D) * 2 ^ 24 <= 1572864 * r) by (eapply Z.le_trans; [exact ED'|]; apply Z.mul_le_mono_nonneg_r; lia).
    change (2 ^ 24) with 16777216 in K. assert (Z.abs D <= r) by lia. clear -K R0 H. set (x := value (-149) d * 2 ^ 149) in *. clearbody x. lia. }
  destruct (quotient_near d w SD WU WP) as [CS CE].
  { rewrite <- abs_value. apply (shrink _ _ (2 ^ 149)); [exact P149|].
    replace (2 ^ 20 * units (-149) w * 2 ^ 149) with (2 ^ 20 * ww) by (unfold ww; ring). change (2 ^ 20) with 1048576. lia. }
  set (c := f32div d w) in *. clearbody c.
  destruct (widen_value c CS) as [CS' CV].
  change (if fgtb (f64_of_f32 c) f64_one then f64_one else if fltb (f64_of_f32 c) f64_mone then f64_mone else f64_of_f32 c) with (clamp (f64_of_f32 c)).
  split; [exact RB|]. split.
  { unfold clamp. destruct (fgtb _ _); [reflexivity|]. destruct (fltb _ _); [reflexivity|exact CS']. }
  rewrite (clamp_value _ CS'), CV.
  rewrite (value_shift c (-149) (-400) ltac:(lia) ltac:(lia) CS) in CE. change (-149 - -400) with 251 in CE.
  replace (12 * n + 59) with ((9 * n + 55) + 3 * n + 4) by ring.
  apply (cos_arith (value (-149) c * 2 ^ 925) (2 ^ 1074) ww (value (-149) d * 2 ^ 149) D r (9 * n + 55) (3 * n) (2 ^ 24));
    try (change (2 ^ 24) with 16777216); try lia; try reflexivity; try exact KR; try exact ED'.
Qed.
