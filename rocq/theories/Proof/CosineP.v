(** Rounding errors of the cosine similarity. *)
From Coq Require Import ZArith Lia List Bool.
From Verif.Base Require Import GoBase Float.
From Verif.Model Require Import Vector Annoy.
From Verif.Spec Require Import SizeSpec AccuracySpec.
From Verif.Proof Require Import RoundP VectorP MonoP MonoQ TruncP ExactP SizeP NearP AngleP ErrorP ErrorQ SelfP DotP.
Import ListNotations.
Open Scope Z_scope.

Lemma cos_loop_dots : forall a b s s1 s2, cos_loop s s1 s2 a b = (dot_loop s a b, dot_loop s1 a a, dot_loop s2 b b).
Proof.
  induction a as [|x a IH]; intros [|y b] s s1 s2.
  - reflexivity.
  - cbn [dot_loop]. revert y s2. induction b as [|z b IHb]; intros y s2; [reflexivity|].
    specialize (IHb z (f32add s2 (f32mul y y))). cbn [cos_loop dot_loop] in IHb |- *. exact IHb.
  - cbn [cos_loop dot_loop]. rewrite IH. destruct a; reflexivity.
  - cbn [cos_loop dot_loop]. apply IH.
Qed.

(** Cauchy-Schwarz. *)
Lemma cs_step : forall m A B x y, 0 <= m -> 0 <= A -> 0 <= B -> m * m <= A * B ->
  (m + Z.abs (x * y)) * (m + Z.abs (x * y)) <= (A + x * x) * (B + y * y).
Proof.
  intros m A B x y Hm HA HB H. rewrite Z.abs_mul. rewrite <- (Z.abs_square x), <- (Z.abs_square y).
  pose proof (Z.abs_nonneg x) as X. pose proof (Z.abs_nonneg y) as Y. set (u := Z.abs x) in *. set (v := Z.abs y) in *. clearbody u v.
  assert (K : 2 * m * (u * v) <= A * (v * v) + B * (u * u)).
  { assert (N1 : 0 <= A * (v * v)) by (apply Z.mul_nonneg_nonneg; [lia|apply Z.square_nonneg]).
    assert (N2 : 0 <= B * (u * u)) by (apply Z.mul_nonneg_nonneg; [lia|apply Z.square_nonneg]).
    assert (N3 : 0 <= m * (u * v)) by (apply Z.mul_nonneg_nonneg; [lia|apply Z.mul_nonneg_nonneg; lia]).
    apply Z.square_le_simpl_nonneg; [lia|].
    assert (S1 : 4 * ((A * (v * v)) * (B * (u * u))) <= (A * (v * v) + B * (u * u)) * (A * (v * v) + B * (u * u))).
    { pose proof (Z.square_nonneg (A * (v * v) - B * (u * u))).
      replace ((A * (v * v) + B * (u * u)) * (A * (v * v) + B * (u * u))) with
        ((A * (v * v) - B * (u * u)) * (A * (v * v) - B * (u * u)) + 4 * ((A * (v * v)) * (B * (u * u)))) by ring. lia. }
    eapply Z.le_trans; [|exact S1].
    replace (2 * m * (u * v) * (2 * m * (u * v))) with (4 * ((m * m) * ((u * v) * (u * v)))) by ring.
    replace (A * (v * v) * (B * (u * u))) with ((A * B) * ((u * v) * (u * v))) by ring.
    assert ((m * m) * ((u * v) * (u * v)) <= (A * B) * ((u * v) * (u * v))) by (apply Z.mul_le_mono_nonneg_r; [apply Z.square_nonneg|exact H]). lia. }
  replace ((m + u * v) * (m + u * v)) with (m * m + 2 * m * (u * v) + (u * v) * (u * v)) by ring.
  replace ((A + u * u) * (B + v * v)) with (A * B + (A * (v * v) + B * (u * u)) + (u * v) * (u * v)) by ring. lia.
Qed.

Lemma inner_self : forall a, 0 <= inner32 a a /\ mass32 a a = inner32 a a.
Proof.
  induction a as [|x a [I1 I2]]; [split; [unfold inner32; cbn; lia|reflexivity]|].
  replace (inner32 (x :: a) (x :: a)) with (value (-149) x * value (-149) x + inner32 a a) by reflexivity.
  replace (mass32 (x :: a) (x :: a)) with (Z.abs (value (-149) x * value (-149) x) + mass32 a a) by reflexivity.
  pose proof (Z.square_nonneg (value (-149) x)). rewrite Z.abs_eq by lia. lia.
Qed.

Lemma cauchy_schwarz : forall a b, mass32 a b * mass32 a b <= inner32 a a * inner32 b b.
Proof.
  induction a as [|x a IH]; intro b.
  { change (mass32 [] b) with 0. change (inner32 [] []) with 0. lia. }
  destruct b as [|y b].
  { change (mass32 (x :: a) []) with 0. change (inner32 [] []) with 0. lia. }
  replace (mass32 (x :: a) (y :: b)) with (mass32 a b + Z.abs (value (-149) x * value (-149) y)) by (rewrite Z.add_comm; reflexivity).
  replace (inner32 (x :: a) (x :: a)) with (inner32 a a + value (-149) x * value (-149) x) by (rewrite Z.add_comm; reflexivity).
  replace (inner32 (y :: b) (y :: b)) with (inner32 b b + value (-149) y * value (-149) y) by (rewrite Z.add_comm; reflexivity).
  apply cs_step; [apply mass_nonneg|apply inner_self|apply inner_self|apply IH].
Qed.

Lemma inner_mass : forall a b, Z.abs (inner32 a b) <= mass32 a b.
Proof.
  intros a b. unfold inner32, mass32. induction (products a b) as [|d l IH]; cbn [map fold_right]; lia.
Qed.

(** A root in float32. *)
Lemma root_near : forall s, unsigned 24 128 s -> 2 ^ 60 <= units (-149) s <= 2 ^ 270 ->
  let A := units (-149) s * 2 ^ 151 in let u := units (-150) (f32sqrt s) in
  unsigned 24 128 (f32sqrt s) /\ Z.abs (u * u - A) * 2 ^ 21 <= A.
Proof.
  intros s U [L1 L2]. cbn zeta.
  destruct (unsigned_pos s (-149) U ltac:(lia)) as (m & e & -> & B).
  destruct (bounded_spec 24 128 ltac:(lia) m e B) as (_ & BE & _). rewrite lo32 in BE.
  destruct (pow32 104 ltac:(lia)) as (z & ZU & ZV). change (2 ^ (104 + 149 + 23)) with (2 ^ 276) in ZV.
  unfold f32sqrt. change prec32 with 24. change emax32 with 128.
  pose proof (rounds_sqrt 24 128 ltac:(lia) m e (-150) B ltac:(rewrite lo32; lia) ltac:(lia)) as R1.
  set (A := Zpos m * 2 ^ (e - 2 * -150)) in *.
  assert (AV : A = units (-149) (S754_finite false m e) * 2 ^ 151).
  { unfold A. cbn [units]. rewrite <- Z.mul_assoc, <- Z.pow_add_r by lia. f_equal. f_equal. lia. }
  assert (A1 : 2 ^ 211 <= A).
  { rewrite AV. change (2 ^ 211) with (2 ^ 60 * 2 ^ 151). apply Z.mul_le_mono_nonneg_r; [apply Z.pow_nonneg; lia|exact L1]. }
  assert (A2 : A <= 2 ^ 421).
  { rewrite AV. change (2 ^ 421) with (2 ^ 270 * 2 ^ 151). apply Z.mul_le_mono_nonneg_r; [apply Z.pow_nonneg; lia|exact L2]. }
  set (r := SFsqrt 24 128 (S754_finite false m e)) in *. clearbody r.
  assert (RU : unsigned 24 128 r).
  { apply (not_infinite 2 (-150) (root2 A) r z); auto; try lia.
    rewrite (units_shift 24 128 ltac:(lia) z (-149) (-150) ltac:(lia) ltac:(rewrite lo32; lia) ZU), ZV.
    apply Z.le_trans with (root2 (2 ^ 421)); [|vm_compute; discriminate].
    apply root2_mono. split; [eapply Z.le_trans; [|exact A1]; vm_compute; discriminate|exact A2]. }
  pose proof (rounds_error 24 128 ltac:(lia) 2 (-150) _ r ltac:(lia) R1 RU) as E1.
  assert (RB : 2 ^ 100 <= root2 A).
  { apply Z.le_trans with (root2 (2 ^ 211)); [vm_compute; discriminate|]. apply root2_mono. split; [vm_compute; discriminate|exact A1]. }
  assert (E1' : Z.abs (2 * units (-150) r - root2 A) * 2 ^ 24 <= root2 A).
  { apply E1; [|rewrite lo32; lia]. eapply Z.le_trans; [|exact RB]. vm_compute. discriminate. }
  split; [exact RU|]. rewrite <- AV.
  apply (root_error24 A (units (-150) r)); [eapply Z.le_trans; [|exact A1]; vm_compute; discriminate|exact E1'|apply units_nonneg].
Qed.

(** A product of two positive numbers. *)
Lemma product_near : forall x y, unsigned 24 128 x -> unsigned 24 128 y ->
  2 ^ 180 <= units (-150) x * units (-150) y <= 2 ^ 426 ->
  unsigned 24 128 (f32mul x y) /\
  Z.abs (units (-300) (f32mul x y) - units (-150) x * units (-150) y) * 2 ^ 24 <= units (-150) x * units (-150) y.
Proof.
  intros x y X Y [L1 L2].
  pose proof (units_nonneg x (-150)) as N1. pose proof (units_nonneg y (-150)) as N2.
  assert (P0 : 0 < 2 ^ 180) by reflexivity.
  assert (P1 : 0 < units (-150) x) by (destruct (Z.eq_dec (units (-150) x) 0) as [E|]; [rewrite E in L1; lia|lia]).
  assert (P2 : 0 < units (-150) y) by (destruct (Z.eq_dec (units (-150) y) 0) as [E|]; [rewrite E in L1; lia|lia]).
  destruct (unsigned_pos x (-150) X P1) as (m & e & -> & B). destruct (unsigned_pos y (-150) Y P2) as (m' & e' & -> & B').
  destruct (bounded_spec 24 128 ltac:(lia) m e B) as (_ & BE & _). destruct (bounded_spec 24 128 ltac:(lia) m' e' B') as (_ & BE' & _).
  rewrite lo32 in BE, BE'.
  pose proof (rounds_mul 24 128 ltac:(lia) ltac:(lia) m e m' e' (-300) B B' ltac:(rewrite lo32; lia) ltac:(lia)) as R.
  assert (SQ : Zpos m * Zpos m' * 2 ^ (e + e' - -300) = units (-150) (S754_finite false m e) * units (-150) (S754_finite false m' e')).
  { cbn [units]. replace (e + e' - -300) with ((e - -150) + (e' - -150)) by lia. rewrite Z.pow_add_r by lia. ring. }
  rewrite SQ in R. unfold f32mul. change prec32 with 24. change emax32 with 128.
  set (a := units (-150) (S754_finite false m e) * units (-150) (S754_finite false m' e')) in *. clearbody a.
  set (w := SFmul 24 128 (S754_finite false m e) (S754_finite false m' e')) in *. clearbody w.
  destruct (pow32 104 ltac:(lia)) as (z & ZU & ZV). change (2 ^ (104 + 149 + 23)) with (2 ^ 276) in ZV.
  assert (WU : unsigned 24 128 w).
  { apply (not_infinite 1 (-300) a w z); auto; try lia.
    rewrite (units_shift 24 128 ltac:(lia) z (-149) (-300) ltac:(lia) ltac:(rewrite lo32; lia) ZU), ZV, Z.mul_1_l.
    eapply Z.le_trans; [exact L2|]. vm_compute. discriminate. }
  split; [exact WU|]. rewrite <- (Z.mul_1_l (units (-300) w)).
  apply (rounds_error 24 128 ltac:(lia) 1 (-300) a w ltac:(lia) R WU); rewrite lo32; [|lia].
  eapply Z.le_trans; [|exact L1]. vm_compute. discriminate.
Qed.

(** A quotient. *)
Lemma quotient_near : forall d w, signed 24 128 d -> unsigned 24 128 w -> 0 < units (-149) w -> units (-149) d <= 2 ^ 20 * units (-149) w ->
  let c := f32div d w in
  signed 24 128 c /\
  Z.abs (value (-400) c * units (-149) w - value (-149) d * 2 ^ 400) * 2 ^ 24 <= (Z.abs (value (-149) d) + units (-149) w) * 2 ^ 400.
Proof.
  intros d w D W PW LD. cbn zeta. destruct (unsigned_pos w (-149) W PW) as (m2 & e2 & -> & B2).
  assert (PT : 0 < 2 ^ 400) by reflexivity.
  destruct d as [s|s| |s m e]; cbn [signed] in D; try contradiction.
  { unfold f32div. cbn [SFdiv signed value]. split; [exact I|]. rewrite !Z.mul_0_l. change (Z.abs (0 - 0) * 2 ^ 24) with 0.
    apply Z.mul_nonneg_nonneg; lia. }
  destruct (bounded_spec 24 128 ltac:(lia) m e D) as (_ & BE & _). destruct (bounded_spec 24 128 ltac:(lia) m2 e2 B2) as (_ & BE2 & _).
  rewrite lo32 in BE, BE2.
  pose proof (rounds_div 24 128 ltac:(lia) m e m2 e2 (-400) D B2 ltac:(rewrite lo32; lia) ltac:(lia)) as R.
  set (r0 := SFdiv 24 128 (S754_finite false m e) (S754_finite false m2 e2)) in *.
  set (W0 := units (-149) (S754_finite false m2 e2)) in *. set (a := Zpos m * 2 ^ (e - e2 - -400)) in *.
  assert (PK : 0 < 2 ^ (e2 + 149)) by (apply Z.pow_pos_nonneg; lia).
  assert (WV : W0 = Zpos m2 * 2 ^ (e2 + 149)) by (unfold W0; cbn [units]; do 2 f_equal; lia).
  assert (AV : a * 2 ^ (e2 + 149) = units (-149) (S754_finite s m e) * 2 ^ 400).
  { unfold a. cbn [units]. rewrite <- !Z.mul_assoc, <- !Z.pow_add_r by lia. do 2 f_equal. lia. }
  assert (A0 : 0 < a) by (unfold a; apply Z.mul_pos_pos; [lia|apply Z.pow_pos_nonneg; lia]).
  destruct (pow32 (-3) ltac:(lia)) as (z & ZU & ZV). change (2 ^ (-3 + 149 + 23)) with (2 ^ 169) in ZV.
  assert (ZV' : units (-400) z = 2 ^ 420).
  { rewrite (units_shift 24 128 ltac:(lia) z (-149) (-400) ltac:(lia) ltac:(rewrite lo32; lia) ZU), ZV. reflexivity. }
  assert (U : unsigned 24 128 r0).
  { apply (not_infinite (Zpos m2) (-400) a r0 z); auto; try lia. rewrite ZV'.
    apply (Z.mul_le_mono_pos_r _ _ (2 ^ (e2 + 149))); [exact PK|]. rewrite AV.
    replace (Zpos m2 * 2 ^ 420 * 2 ^ (e2 + 149)) with (2 ^ 20 * W0 * 2 ^ 400) by (rewrite WV; change (2 ^ 420) with (2 ^ 20 * 2 ^ 400); ring).
    apply Z.mul_le_mono_nonneg_r; [lia|]. exact LD. }
  assert (CV : f32div (S754_finite s m e) (S754_finite false m2 e2) = SFdiv 24 128 (S754_finite s m e) (S754_finite false m2 e2)) by reflexivity.
  rewrite CV.
  assert (RV : forall E, value E (SFdiv 24 128 (S754_finite s m e) (S754_finite false m2 e2)) = cond_Zopp s (units E r0)).
  { intro E. unfold r0. cbn [SFdiv]. destruct (SFdiv_core_binary 24 128 (Zpos m) e (Zpos m2) e2) as [[mz ez] lz].
    rewrite xorb_false_r. cbn [xorb]. apply aux_value. }
  split.
  { apply signed_unsigned. assert (E : SFabs (SFdiv 24 128 (S754_finite s m e) (S754_finite false m2 e2)) = SFabs r0).
    { unfold r0. cbn [SFdiv]. destruct (SFdiv_core_binary 24 128 (Zpos m) e (Zpos m2) e2) as [[mz ez] lz].
      rewrite abs_aux. symmetry. rewrite abs_aux. reflexivity. }
    rewrite E. clear -U. destruct r0 as [b|b| |[] mm ee]; cbn in *; auto. }
  rewrite RV.
  assert (MAIN : Z.abs (units (-400) r0 * W0 - units (-149) (S754_finite s m e) * 2 ^ 400) * 2 ^ 24 <= (units (-149) (S754_finite s m e) + W0) * 2 ^ 400).
  { pose proof (rounds_error 24 128 ltac:(lia) (Zpos m2) (-400) a r0 ltac:(lia) R U) as E. rewrite lo32 in E.
    rewrite <- AV, WV.
    replace (units (-400) r0 * (Zpos m2 * 2 ^ (e2 + 149)) - a * 2 ^ (e2 + 149)) with ((Zpos m2 * units (-400) r0 - a) * 2 ^ (e2 + 149)) by ring.
    rewrite Z.abs_mul, (Z.abs_eq (2 ^ (e2 + 149))) by lia.
    replace ((units (-149) (S754_finite s m e) + Zpos m2 * 2 ^ (e2 + 149)) * 2 ^ 400) with ((a + Zpos m2 * 2 ^ 400) * 2 ^ (e2 + 149)).
    2: { rewrite !Z.mul_add_distr_r, AV. ring. }
    rewrite <- Z.mul_assoc, (Z.mul_comm (2 ^ (e2 + 149))), Z.mul_assoc. apply Z.mul_le_mono_nonneg_r; [lia|].
    assert (PM : 0 <= Zpos m2 * 2 ^ 400) by (apply Z.mul_nonneg_nonneg; lia).
    change (2 ^ (24 - 1)) with (2 ^ 23) in E. change (2 ^ (-149 - -400)) with (2 ^ 251) in E.
    destruct (Z.le_gt_cases (Zpos m2 * 2 ^ 23 * 2 ^ 251) a) as [L|L]; [specialize (E L ltac:(lia)); lia|].
    (* a tiny quotient *)
    assert (RZ : rounds 24 128 (Zpos m2) (-400) (Zpos m2 * 2 ^ 274) (S754_finite false (2 ^ 23) (-149))).
    { pose proof (rounds_scale 24 128 1 (-400) _ _ (Zpos m2) ltac:(lia)
        (rounds_itself 24 128 ltac:(lia) (S754_finite false (2 ^ 23) (-149)) (-400) ltac:(rewrite lo32; lia) eq_refl)) as RI.
      rewrite Z.mul_1_r in RI. exact RI. }
    assert (L' : a <= Zpos m2 * 2 ^ 274) by (change (2 ^ 274) with (2 ^ 23 * 2 ^ 251); lia).
    pose proof (rounds_mono 24 128 ltac:(lia) (Zpos m2) (-400) _ _ _ _ ltac:(lia) L' R RZ) as M.
    apply (fleb_units 24 128 ltac:(lia) r0 (S754_finite false (2 ^ 23) (-149)) (-400) ltac:(rewrite lo32; lia) U eq_refl) in M.
    change (units (-400) (S754_finite false (2 ^ 23) (-149))) with (2 ^ 274) in M.
    pose proof (units_nonneg r0 (-400)) as UN.
    assert (M' : Zpos m2 * units (-400) r0 <= Zpos m2 * 2 ^ 274) by (apply Z.mul_le_mono_nonneg_l; lia).
    assert (M0 : 0 <= Zpos m2 * units (-400) r0) by (apply Z.mul_nonneg_nonneg; lia).
    change (2 ^ 400) with (2 ^ 274 * 2 ^ 126). rewrite Z.mul_assoc. set (t := Zpos m2 * 2 ^ 274) in *. set (v := Zpos m2 * units (-400) r0) in *.
    clearbody t v. clear -L' M' M0 A0. lia. }
  cbn [value]. change (Zpos m * 2 ^ (e - -149)) with (units (-149) (S754_finite s m e)).
  assert (UN : 0 <= units (-149) (S754_finite s m e)) by apply units_nonneg.
  set (v := units (-149) (S754_finite s m e)) in *. clearbody v.
  replace (Z.abs (cond_Zopp s (units (-400) r0) * W0 - cond_Zopp s v * 2 ^ 400)) with (Z.abs (units (-400) r0 * W0 - v * 2 ^ 400)).
  2: { destruct s; cbn [cond_Zopp]; [|reflexivity]. rewrite <- Z.abs_opp. f_equal. ring. }
  replace (Z.abs (cond_Zopp s v)) with v by (destruct s; cbn [cond_Zopp]; lia). exact MAIN.
Qed.
