(** The distances of the approximate index. *)
From Coq Require Import ZArith Lia List Bool.
From Verif.Base Require Import GoBase Float.
From Verif.Model Require Import Vector Annoy.
From Verif.Spec Require Import SizeSpec.
From Verif.Proof Require Import MonoP TruncP ExactP SizeP NearP.
Import ListNotations.
Open Scope Z_scope.

Notation sg32 := (signed 24 128).
Notation u32 := (units (-149)).

Lemma lo32 : emin 24 128 = -149.
Proof. reflexivity. Qed.

Lemma upto_signed : forall K x, upto K x -> sg32 x.
Proof. intros K [s|s| |s m e]; cbn; tauto. Qed.
Lemma upto_units : forall K x, upto K x -> u32 x <= 2 ^ (K + 149).
Proof.
  intros K [s|s| |s m e] H; cbn [upto units] in *; try contradiction.
  - apply Z.pow_nonneg. lia.
  - replace (e - -149) with (e + 149) by lia. apply H.
Qed.

(** n * 2^c. *)
Lemma big_units : forall n c E, 0 < n < 2 ^ 24 -> -149 <= c <= 104 -> E <= -149 ->
  unsigned 24 128 (binary_normalize 24 128 n c false) /\
  units E (binary_normalize 24 128 n c false) = n * 2 ^ (c - E).
Proof.
  intros n c E Hn Hc HE. destruct (norm_pos 24 128 ltac:(lia) n c Hn ltac:(rewrite lo32; lia)) as (m & e & -> & B & L & V).
  destruct (bounded_spec 24 128 ltac:(lia) m e B) as (_ & L1 & _). rewrite lo32 in L1.
  split; [exact B|]. cbn [units]. rewrite V, <- Z.mul_assoc, <- Z.pow_add_r by lia. do 2 f_equal. lia.
Qed.

(** The dot product of two vectors whose coordinates are at most 2^K and 2^L. *)
Lemma dot_loop_upto : forall K L c, -149 <= K -> -149 <= L -> -149 <= c <= 104 -> c <= K + L ->
  forall x y s i, sg32 s -> 0 <= i ->
  u32 s <= i * 2 ^ (K + L + 149) -> Forall (upto K) x -> Forall (upto L) y ->
  (i + Z.of_nat (length x)) * 2 ^ (K + L - c) < 2 ^ 24 ->
  sg32 (dot_loop s x y) /\ u32 (dot_loop s x y) <= (i + Z.of_nat (length x)) * 2 ^ (K + L + 149).
Proof.
  intros K L c HK HL Hc HT.
  assert (PT : 0 <= 2 ^ (K + L + 149)) by (apply Z.pow_nonneg; lia).
  induction x as [|a x IH]; intros y s i S I0 U X Y H.
  { cbn [dot_loop length]. split; auto. rewrite Z.add_0_r. exact U. }
  destruct y as [|b y].
  { cbn [dot_loop]. split; auto. eapply Z.le_trans; [exact U|]. apply Z.mul_le_mono_nonneg_r; lia. }
  cbn [dot_loop]. inversion X as [|? ? Xa X']; subst. inversion Y as [|? ? Yb Y']; subst.
  cbn [length] in *. rewrite Nat2Z.inj_succ in *.
  assert (T0 : 0 < 2 ^ (K + L - c)) by (apply Z.pow_pos_nonneg; lia).
  assert (B : (i + 1) * 2 ^ (K + L - c) < 2 ^ 24).
  { set (t := 2 ^ (K + L - c)) in *.
    assert ((i + 1) * t <= (i + Z.succ (Z.of_nat (length x))) * t) by (apply Z.mul_le_mono_nonneg_r; lia). lia. }
  assert (B1 : 2 ^ (K + L - c) < 2 ^ 24).
  { assert (1 * 2 ^ (K + L - c) <= (i + 1) * 2 ^ (K + L - c)) by (apply Z.mul_le_mono_nonneg_r; lia). lia. }
  destruct (big_units (2 ^ (K + L - c)) c (-149) ltac:(lia) Hc ltac:(lia)) as [Z1 Z2].
  destruct (big_units (2 ^ (K + L - c)) c (2 * -149) ltac:(lia) Hc ltac:(lia)) as [_ Z3].
  destruct (big_units ((i + 1) * 2 ^ (K + L - c)) c (-149) ltac:(split; [apply Z.mul_pos_pos; lia|lia]) Hc ltac:(lia)) as [W1 W2].
  destruct (mul_upto 24 128 ltac:(lia) ltac:(lia) a b _ ltac:(rewrite lo32; lia) (upto_signed _ _ Xa) (upto_signed _ _ Yb) Z1) as [M1 M2].
  { rewrite lo32, Z3, <- Z.pow_add_r by lia.
    replace (K + L - c + (c - 2 * -149)) with ((K + 149) + (L + 149)) by lia. rewrite Z.pow_add_r by lia.
    apply Z.mul_le_mono_nonneg; try apply units_nonneg; apply upto_units; auto. }
  rewrite lo32, Z2, <- Z.pow_add_r in M2 by lia. replace (K + L - c + (c - -149)) with (K + L + 149) in M2 by lia.
  assert (W3 : (i + 1) * 2 ^ (K + L - c) * 2 ^ (c - -149) = (i + 1) * 2 ^ (K + L + 149)).
  { rewrite <- Z.mul_assoc, <- Z.pow_add_r by lia. do 2 f_equal. lia. }
  rewrite W3 in W2.
  destruct (add_upto 24 128 ltac:(lia) s (SFmul 24 128 a b) _ S M1 W1) as [A1 A2].
  { rewrite lo32, W2, Z.mul_add_distr_r. lia. }
  rewrite lo32, W2 in A2.
  replace (i + Z.succ (Z.of_nat (length x))) with (i + 1 + Z.of_nat (length x)) in * by lia.
  apply (IH y (f32add s (f32mul a b)) (i + 1)); auto. lia.
Qed.

(** Sums of squares are not negative (they may be infinite). *)
Lemma square_range : forall x, sg32 x -> in_range 24 128 (f32mul x x).
Proof.
  intros [s|s| |s m e] H; cbn [signed] in H; try contradiction; [left; exact I|].
  destruct (bounded_spec 24 128 ltac:(lia) m e H) as (_ & L & _). rewrite lo32 in L.
  pose proof (rounds_mul 24 128 ltac:(lia) ltac:(lia) m e m e (-298) H H ltac:(rewrite lo32; lia) ltac:(lia)) as R.
  unfold f32mul. change prec32 with 24. change emax32 with 128.
  replace (SFmul 24 128 (S754_finite s m e) (S754_finite s m e)) with (SFmul 24 128 (S754_finite false m e) (S754_finite false m e))
    by (destruct s; reflexivity).
  exact (rounds_range 24 128 ltac:(lia) _ _ _ _ R).
Qed.
Lemma add_range : forall x y, in_range 24 128 x -> in_range 24 128 y -> in_range 24 128 (f32add x y).
Proof.
  intros x y [X| ->] [Y| ->]; unfold f32add; change prec32 with 24; change emax32 with 128.
  - exact (rounds_range 24 128 ltac:(lia) _ _ _ _ (rounds_add 24 128 ltac:(lia) x y (-149) ltac:(rewrite lo32; lia) X Y)).
  - right. destruct x as [s|s| |[] m e]; cbn in X; try contradiction; reflexivity.
  - right. destruct y as [s|s| |[] m e]; cbn in Y; try contradiction; reflexivity.
  - right. reflexivity.
Qed.
Lemma dot_self_range : forall x s, Forall sg32 x -> in_range 24 128 s -> in_range 24 128 (dot_loop s x x).
Proof.
  induction x as [|a x IH]; intros s X S; [exact S|]. cbn [dot_loop]. inversion X; subst.
  apply IH; auto. apply add_range; auto. apply square_range; auto.
Qed.

Lemma mul_range : forall x y, in_range 24 128 x -> in_range 24 128 y -> in_range 24 128 (f32mul x y) \/ f32mul x y = S754_nan.
Proof.
  intros x y X Y. unfold f32mul. change prec32 with 24. change emax32 with 128.
  destruct X as [X| ->].
  - destruct Y as [Y| ->].
    + left. destruct x as [s|s| |[] m e], y as [s'|s'| |[] m' e']; cbn [unsigned] in X, Y; try contradiction; try (left; exact I).
      destruct (bounded_spec 24 128 ltac:(lia) m e X) as (_ & L & _). destruct (bounded_spec 24 128 ltac:(lia) m' e' Y) as (_ & L' & _).
      rewrite lo32 in L, L'.
      exact (rounds_range 24 128 ltac:(lia) _ _ _ _ (rounds_mul 24 128 ltac:(lia) ltac:(lia) m e m' e' (-298) X Y ltac:(rewrite lo32; lia) ltac:(lia))).
    + destruct x as [s|s| |[] m e]; cbn [unsigned] in X; try contradiction; [right; reflexivity|left; right; reflexivity].
  - destruct Y as [Y| ->]; [|left; right; reflexivity].
    destruct y as [s|s| |[] m e]; cbn [unsigned] in Y; try contradiction; [right; reflexivity|left; right; reflexivity].
Qed.

Lemma widen_signed : forall s m e, bounded 24 128 m e = true ->
  exists m' e', f64_of_f32 (S754_finite s m e) = S754_finite s m' e' /\ bounded 53 1024 m' e' = true /\
    e' <= e /\ Zpos m' = Zpos m * 2 ^ (e - e').
Proof.
  intros s m e B. destruct (bounded_spec 24 128 ltac:(lia) m e B) as (L0 & L & _). rewrite lo32 in L.
  destruct (norm_pos 53 1024 ltac:(lia) (Zpos m) e ltac:(split; [lia|apply Z.lt_trans with (2 ^ 24); [exact L0|reflexivity]]) ltac:(unfold emin; lia))
    as (m' & e' & N & B' & L1 & V).
  exists m', e'. split; [|auto]. unfold f64_of_f32. change prec64 with 53. change emax64 with 1024.
  destruct s; cbn [cond_Zopp]; [|exact N].
  transitivity (binary_normalize 53 1024 (- Zpos m) e false); [reflexivity|].
  rewrite norm_opp, N by lia. reflexivity.
Qed.

(** A number minus a number or infinity. *)
Lemma minus_number : forall m e q, is_nan q = false -> is_nan (f64sub (S754_finite false m e) q) = false.
Proof.
  intros m e q H. destruct q as [s|s| |s m' e']; try discriminate H; try reflexivity.
  unfold f64sub. change prec64 with 53. change emax64 with 1024. cbn [SFsub]. apply norm_number; lia.
Qed.

Theorem adist_number : forall K L x y, -149 <= K -> -149 <= L -> 104 <= K + L ->
  Forall (upto K) x -> Forall (upto L) y -> Z.of_nat (length x) * 2 ^ (K + L) < 2 ^ 128 ->
  is_nan (adist x y) = false.
Proof.
  intros K L x y HK HL HT X Y H. unfold adist.
  assert (PQ : sg32 (dot x y)).
  { apply (dot_loop_upto K L 104 HK HL ltac:(lia) HT x y fzero 0); auto; try lia; [exact I|cbn; lia|].
    replace (2 ^ (K + L)) with (2 ^ (K + L - 104) * 2 ^ 104) in H by (rewrite <- Z.pow_add_r by lia; f_equal; lia).
    change (2 ^ 128) with (2 ^ 24 * 2 ^ 104) in H. rewrite Z.mul_assoc in H. rewrite Z.add_0_l.
    apply Z.mul_lt_mono_pos_r in H; [exact H|reflexivity]. }
  assert (PP : in_range 24 128 (dot x x)).
  { apply dot_self_range; [|left; exact I]. eapply Forall_impl; [|exact X]. apply upto_signed. }
  assert (QQ : in_range 24 128 (dot y y)).
  { apply dot_self_range; [|left; exact I]. eapply Forall_impl; [|exact Y]. apply upto_signed. }
  destruct (mul_range _ _ PP QQ) as [R|R]; [|rewrite R; reflexivity].
  set (ppqq := f32mul (dot x x) (dot y y)) in *. set (pq := dot x y) in *. clearbody ppqq pq.
  destruct (fgtb ppqq fzero) eqn:G; [|reflexivity].
  set (num := f64mul (f64_of_Z 2) (f64_of_f32 pq)).
  assert (NUM : signed 53 1024 num).
  { unfold num. destruct pq as [s|s| |s m e]; cbn [signed] in PQ; try contradiction; [exact I|].
    destruct (widen_signed s m e PQ) as (m' & e' & -> & B & Le & V).
    destruct (bounded_spec 24 128 ltac:(lia) m e PQ) as (Lm & Ll & _). rewrite lo32 in Ll.
    destruct (bounded_spec 53 1024 ltac:(lia) m' e' B) as (_ & L1 & _). change (emin 53 1024) with (-1074) in L1.
    destruct (norm_pos 53 1024 ltac:(lia) 1 200 ltac:(split; reflexivity) ltac:(unfold emin; lia)) as (mz & ez & _ & BZ & LZ & VZ).
    destruct (bounded_spec 53 1024 ltac:(lia) mz ez BZ) as (_ & LZ1 & _). change (emin 53 1024) with (-1074) in LZ1.
    apply (mul_upto 53 1024 ltac:(lia) ltac:(lia) (f64_of_Z 2) (S754_finite s m' e') (S754_finite false mz ez)); auto.
    - change (emin 53 1024) with (-1074). lia.
    - reflexivity.
    - change (emin 53 1024) with (-1074). change (units (-1074) (f64_of_Z 2)) with (2 ^ 1075).
      assert (A : units (-1074) (S754_finite s m' e') = Zpos m * 2 ^ (e + 1074)).
      { cbn [units]. rewrite V, <- Z.mul_assoc, <- Z.pow_add_r by lia. do 2 f_equal. lia. }
      assert (Q : units (2 * -1074) (S754_finite false mz ez) = 2 ^ 2348).
      { cbn [units]. rewrite VZ, Z.mul_1_l, <- Z.pow_add_r by lia. f_equal. lia. }
      rewrite A, Q. apply Z.le_trans with (2 ^ 1075 * (2 ^ 24 * 2 ^ 1178)).
      + apply Z.mul_le_mono_nonneg_l; [apply Z.pow_nonneg, Z.le_0_2|].
        apply Z.mul_le_mono_nonneg; [apply Pos2Z.is_nonneg|apply Z.lt_le_incl, Lm|apply Z.pow_nonneg, Z.le_0_2|apply Z.pow_le_mono_r; [reflexivity|clear - Ll; lia]].
      + clear. vm_compute. discriminate. }
  clearbody num.
  assert (DEN : (exists m e, f64_of_f32 (f32sqrt ppqq) = S754_finite false m e /\ bounded 53 1024 m e = true) \/
                f64_of_f32 (f32sqrt ppqq) = S754_infinity false).
  { destruct R as [R| ->]; [|right; reflexivity].
    destruct ppqq as [s|s| |[] m e]; cbn [unsigned] in R; try contradiction; [destruct s; discriminate G|].
    destruct (bounded_spec 24 128 ltac:(lia) m e R) as (_ & L1 & _). rewrite lo32 in L1.
    pose proof (rounds_sqrt 24 128 ltac:(lia) m e (-298) R ltac:(rewrite lo32; lia) ltac:(lia)) as RS.
    unfold f32sqrt. change prec32 with 24. change emax32 with 128.
    destruct (rounds_range 24 128 ltac:(lia) _ _ _ _ RS) as [U|U]; [|right; rewrite U; reflexivity].
    left. destruct (SFsqrt 24 128 (S754_finite false m e)) as [s|s| |[] m' e'] eqn:Q; cbn [unsigned] in U; try contradiction.
    - exfalso.
      (* the root of a positive number is not zero *)
      destruct (norm_pos 24 128 ltac:(lia) 1 (-149) ltac:(split; reflexivity) ltac:(rewrite lo32; lia)) as (mz & ez & _ & BZ & LZ & VZ).
      pose proof (rounds_itself 24 128 ltac:(lia) (S754_finite false mz ez) (-298) ltac:(rewrite lo32; lia) BZ) as RI.
      apply rounds_twice in RI; [|lia].
      destruct (bounded_spec 24 128 ltac:(lia) mz ez BZ) as (_ & L2 & _). rewrite lo32 in L2.
      assert (ez = -149) by lia. subst ez. cbn [units] in RI. rewrite VZ in RI.
      assert (LE : fleb (S754_finite false mz (-149)) (S754_zero s) = true).
      { eapply (rounds_mono 24 128); [lia| | |exact RI|exact RS]; [lia|].
        replace (2 * (1 * 2 ^ (-149 - -149) * 2 ^ (-149 - -298))) with (root2 ((2 ^ 149) * (2 ^ 149))).
        2: { rewrite root_square by (apply Z.pow_nonneg; lia). reflexivity. }
        apply root2_mono. split; [apply Z.square_nonneg|].
        replace (2 ^ 149 * 2 ^ 149) with (1 * 2 ^ 298) by reflexivity.
        apply Z.mul_le_mono_nonneg; try lia. apply Z.pow_le_mono_r; lia. }
      destruct s; discriminate LE.
    - destruct (widen_signed false m' e' U) as (m2 & e2 & -> & B2 & _). eauto. }
  assert (QUO : is_nan (f64div num (f64_of_f32 (f32sqrt ppqq))) = false).
  { unfold f64div. change prec64 with 53. change emax64 with 1024.
    destruct DEN as [(m & e & -> & B)| ->].
    - destruct num as [s|s| |s m' e']; cbn [signed] in NUM; try contradiction; [reflexivity|].
      apply div_number; auto; lia.
    - destruct num as [s|s| |s m' e']; cbn [signed] in NUM; try contradiction; reflexivity. }
  assert (SUB : is_nan (f64sub (f64_of_Z 2) (f64div num (f64_of_f32 (f32sqrt ppqq)))) = false)
    by (apply minus_number; exact QUO).
  destruct (f64sub (f64_of_Z 2) _) as [s|s| |s m e]; try discriminate SUB; try reflexivity.
  unfold f32_of_f64. change prec32 with 24. change emax32 with 128. apply norm_number; lia.
Qed.

(** ** The distance of a vector to itself *)

Lemma add_grows : forall x y, unsigned 24 128 x -> unsigned 24 128 y -> unsigned 24 128 (f32add x y) ->
  u32 x <= u32 (f32add x y) /\ u32 y <= u32 (f32add x y).
Proof.
  intros x y X Y S. unfold f32add in *. change prec32 with 24 in *. change emax32 with 128 in *.
  pose proof (rounds_add 24 128 ltac:(lia) x y (-149) ltac:(rewrite lo32; lia) X Y) as R.
  pose proof (units_nonneg x (-149)). pose proof (units_nonneg y (-149)).
  split; apply (fleb_units 24 128 ltac:(lia) _ _ (-149) ltac:(rewrite lo32; lia)); auto;
    eapply (rounds_mono 24 128 ltac:(lia) 1 (-149)); try exact R; try lia; try (apply rounds_itself; auto; try lia; rewrite lo32; lia); lia.
Qed.

Lemma square_from : forall k x, -74 <= k <= 52 -> sg32 x -> from k x -> unsigned 24 128 (f32mul x x) ->
  2 ^ (2 * k + 149) <= u32 (f32mul x x).
Proof.
  intros k x Hk S F U. destruct x as [s|s| |s m e]; cbn [from] in F; try contradiction. cbn [signed] in S.
  destruct (bounded_spec 24 128 ltac:(lia) m e S) as (_ & L & _). rewrite lo32 in L.
  pose proof (rounds_mul 24 128 ltac:(lia) ltac:(lia) m e m e (-298) S S ltac:(rewrite lo32; lia) ltac:(lia)) as R.
  assert (Q : f32mul (S754_finite s m e) (S754_finite s m e) = SFmul 24 128 (S754_finite false m e) (S754_finite false m e))
    by (destruct s; reflexivity).
  rewrite Q in *. destruct (big_units 1 (2 * k) (-298) ltac:(split; reflexivity) ltac:(lia) ltac:(lia)) as [Z1 Z2].
  destruct (big_units 1 (2 * k) (-149) ltac:(split; reflexivity) ltac:(lia) ltac:(lia)) as [_ Z3].
  pose proof (rounds_itself 24 128 ltac:(lia) _ (-298) ltac:(rewrite lo32; lia) Z1) as RZ. rewrite Z2 in RZ.
  replace (2 ^ (2 * k + 149)) with (1 * 2 ^ (2 * k - -149)) by (rewrite Z.mul_1_l; f_equal; lia). rewrite <- Z3.
  apply (fleb_units 24 128 ltac:(lia) _ _ (-149) ltac:(rewrite lo32; lia) Z1 U).
  eapply (rounds_mono 24 128 ltac:(lia) 1 (-298) _ _ _ _ Z.lt_0_1); [|exact RZ|exact R].
  rewrite Z.mul_1_l. replace (2 * k - -298) with ((k + 149) + (k + 149)) by lia. rewrite Z.pow_add_r by lia.
  replace (Zpos m * Zpos m * 2 ^ (e + e - -298)) with ((Zpos m * 2 ^ (e + 149)) * (Zpos m * 2 ^ (e + 149))).
  2: { replace (e + e - -298) with ((e + 149) + (e + 149)) by lia. rewrite (Z.pow_add_r 2 (e + 149) (e + 149)) by lia. ring. }
  apply Z.mul_le_mono_nonneg; auto; apply Z.pow_nonneg; lia.
Qed.

Lemma in_range_signed : forall x, in_range 24 128 x -> sg32 x -> unsigned 24 128 x.
Proof. intros x [U| ->] S; [exact U|destruct S]. Qed.

(** A sum of squares is at least each of them, if it is not infinite. *)
Lemma dot_self_from : forall k x s, -74 <= k <= 52 -> Forall sg32 x -> unsigned 24 128 s ->
  unsigned 24 128 (dot_loop s x x) ->
  u32 s <= u32 (dot_loop s x x) /\ (Exists (from k) x -> 2 ^ (2 * k + 149) <= u32 (dot_loop s x x)).
Proof.
  intros k x. induction x as [|a x IH]; intros s Hk X S D.
  { cbn [dot_loop]. split; [lia|]. intro H. inversion H. }
  cbn [dot_loop] in *. inversion X as [|? ? Xa X']; subst.
  pose proof (square_range a Xa) as SQ. pose proof (add_range s (f32mul a a) (or_introl S) SQ) as AD.
  assert (AU : unsigned 24 128 (f32add s (f32mul a a))).
  { destruct AD as [AU|AI]; [exact AU|]. exfalso. rewrite AI in D.
    assert (G : forall y, Forall sg32 y -> dot_loop (S754_infinity false) y y = S754_infinity false).
    { clear. induction y as [|b y IH]; intros Y; [reflexivity|]. cbn [dot_loop]. inversion Y; subst.
      destruct (square_range b) as [U|U]; auto.
      - replace (f32add (S754_infinity false) (f32mul b b)) with (S754_infinity false); [auto|].
        destruct (f32mul b b) as [t|t| |[] m e]; cbn in U; try contradiction; reflexivity.
      - rewrite U. change (f32add (S754_infinity false) (S754_infinity false)) with (S754_infinity false). auto. }
    rewrite G in D by auto. exact D. }
  assert (SU : unsigned 24 128 (f32mul a a)).
  { destruct SQ as [U|U]; [exact U|]. exfalso. rewrite U in AU. destruct s as [t|t| |[] m e]; cbn in S, AU; contradiction. }
  destruct (add_grows s (f32mul a a) S SU AU) as [G1 G2].
  destruct (IH (f32add s (f32mul a a)) Hk X' AU D) as [I1 I2].
  split; [lia|]. intro H. inversion H as [? ? F|? ? F]; subst; [|auto].
  pose proof (square_from k a Hk Xa F SU). lia.
Qed.

(** Twice a number over the number. *)
Lemma double_quotient : forall m e, bounded 24 128 m e = true ->
  f64div (f64mul (f64_of_Z 2) (f64_of_f32 (S754_finite false m e))) (f64_of_f32 (S754_finite false m e)) = f64_of_Z 2.
Proof.
  intros m e B. destruct (bounded_spec 24 128 ltac:(lia) m e B) as (L0 & L & _). rewrite lo32 in L.
  assert (M53 : 0 < Zpos m < 2 ^ 53) by (split; [lia|apply Z.lt_trans with (2 ^ 24); [exact L0|reflexivity]]).
  change (f64_of_f32 (S754_finite false m e)) with (binary_normalize 53 1024 (Zpos m) e false).
  change (f64_of_Z 2) with (binary_normalize 53 1024 1 1 false) at 1.
  unfold f64mul, f64div. change prec64 with 53. change emax64 with 1024.
  destruct (mul_exact 53 1024 ltac:(lia) ltac:(lia) 1 (Zpos m) 1 e) as [Q|[Q _]]; try (unfold emin; lia); try (rewrite Z.mul_1_l; lia); try reflexivity;
    try (rewrite Z.abs_eq by lia; lia).
  rewrite Q, Z.mul_1_l.
  destruct (norm_pos 53 1024 ltac:(lia) (Zpos m) (1 + e) M53 ltac:(unfold emin; lia)) as (m1 & e1 & -> & B1 & L1 & V1).
  destruct (norm_pos 53 1024 ltac:(lia) (Zpos m) e M53 ltac:(unfold emin; lia)) as (m2 & e2 & -> & B2 & L2 & V2).
  destruct (bounded_spec 53 1024 ltac:(lia) m1 e1 B1) as (_ & X1 & _). destruct (bounded_spec 53 1024 ltac:(lia) m2 e2 B2) as (_ & X2 & _).
  change (emin 53 1024) with (-1074) in X1, X2.
  pose proof (rounds_div 53 1024 ltac:(lia) m1 e1 m2 e2 (-3000) B1 B2 ltac:(unfold emin; lia) ltac:(lia)) as R.
  assert (T : unsigned 53 1024 (f64_of_Z 2)) by reflexivity.
  pose proof (rounds_itself 53 1024 ltac:(lia) (f64_of_Z 2) (-3000) ltac:(unfold emin; lia) T) as R2.
  apply (rounds_scale 53 1024 1 (-3000) _ _ (Zpos m2) ltac:(lia)) in R2.
  rewrite Z.mul_1_r in R2.
  assert (U : units (-3000) (f64_of_Z 2) = 2 ^ 3001) by reflexivity. rewrite U in R2.
  assert (V : Zpos m1 * 2 ^ (e1 - e2 - -3000) = Zpos m2 * 2 ^ 3001).
  { rewrite V1, V2, <- !Z.mul_assoc, <- !Z.pow_add_r by lia. do 2 f_equal. lia. }
  rewrite V in R.
  destruct (same_rounds 53 1024 ltac:(lia) (Zpos m2) (-3000) _ _ _ ltac:(lia) R R2) as [S|[_ [t S]]]; [exact S|].
  vm_compute in S. discriminate S.
Qed.

Theorem adist_itself : forall x, Forall (upto 20) x -> Z.of_nat (length x) < 2 ^ 23 -> Exists (from (-31)) x ->
  adist x x = S754_zero false.
Proof.
  intros x X Hn F.
  assert (XS : Forall sg32 x) by (eapply Forall_impl; [|exact X]; apply upto_signed).
  destruct (dot_loop_upto 20 20 40 ltac:(lia) ltac:(lia) ltac:(lia) ltac:(lia) x x fzero 0 I ltac:(lia) ltac:(cbn; lia) X X) as [D1 D2].
  { change (20 + 20 - 40) with 0. rewrite Z.mul_1_r. change (2 ^ 24) with (2 * 2 ^ 23). lia. }
  fold (dot x x) in *.
  assert (DU : unsigned 24 128 (dot x x)).
  { apply in_range_signed; auto. apply dot_self_range; auto. left. exact I. }
  destruct (dot_self_from (-31) x fzero ltac:(lia) XS I DU) as [_ D3]. specialize (D3 F). fold (dot x x) in D3.
  unfold adist. set (P := dot x x) in *. clearbody P.
  destruct P as [s|s| |[] m e]; cbn [unsigned] in DU; try contradiction.
  destruct (bounded_spec 24 128 ltac:(lia) m e DU) as (L0 & L & Y & _). rewrite lo32 in L, Y. cbn [units] in D2, D3.
  replace (e - -149) with (e + 149) in * by lia.
  assert (U1 : Zpos m * 2 ^ (e + 149) < 2 ^ 212).
  { eapply Z.le_lt_trans; [exact D2|]. change (20 + 20 + 149) with 189. change (2 ^ 212) with (2 ^ 23 * 2 ^ 189).
    rewrite Z.add_0_l. apply Z.mul_lt_mono_pos_r; [reflexivity|exact Hn]. }
  change (2 * -31 + 149) with 87 in D3.
  assert (NM : 2 ^ 23 <= Zpos m).
  { destruct Y as [Y|Y]; [|exact Y]. subst e. change (-149 + 149) with 0 in D3. rewrite Z.mul_1_r in D3.
    assert (2 ^ 24 < 2 ^ 87) by reflexivity. lia. }
  assert (E1 : -86 <= e).
  { destruct (Z.le_gt_cases (-86) e) as [G|G]; auto. exfalso.
    assert (2 ^ (e + 149) <= 2 ^ 62) by (apply Z.pow_le_mono_r; lia).
    assert (Zpos m * 2 ^ (e + 149) <= 2 ^ 24 * 2 ^ 62) by (apply Z.mul_le_mono_nonneg; try lia; apply Z.pow_nonneg; lia).
    assert (2 ^ 24 * 2 ^ 62 < 2 ^ 87) by reflexivity. lia. }
  assert (E2 : e <= 40).
  { destruct (Z.le_gt_cases e 40) as [G|G]; auto. exfalso.
    assert (2 ^ 190 <= 2 ^ (e + 149)) by (apply Z.pow_le_mono_r; lia).
    assert (2 ^ 23 * 2 ^ 190 <= Zpos m * 2 ^ (e + 149)) by (apply Z.mul_le_mono_nonneg; try lia; apply Z.pow_nonneg; lia).
    assert (2 ^ 212 < 2 ^ 23 * 2 ^ 190) by reflexivity. lia. }
  pose proof (sqrt_of_square 24 128 ltac:(lia) ltac:(lia) m e DU NM ltac:(lia) ltac:(rewrite lo32; lia) ltac:(rewrite lo32; lia) ltac:(lia)) as SQ.
  fold prec32 emax32 in SQ. unfold f32mul, f32sqrt. change prec32 with 24 in *. change emax32 with 128 in *.
  destruct (mul_range (S754_finite false m e) (S754_finite false m e) (or_introl DU) (or_introl DU)) as [[R|R]|R];
    unfold f32mul in R; change prec32 with 24 in R; change emax32 with 128 in R.
  2: { rewrite R in SQ. discriminate SQ. }
  2: { rewrite R in SQ. discriminate SQ. }
  assert (G : fgtb (SFmul 24 128 (S754_finite false m e) (S754_finite false m e)) fzero = true).
  { destruct (SFmul 24 128 (S754_finite false m e) (S754_finite false m e)) as [s|s| |[] m' e']; cbn [unsigned] in R; try contradiction;
      [destruct s; discriminate SQ|reflexivity]. }
  rewrite G, SQ, double_quotient by exact DU. vm_compute. reflexivity.
Qed.
