(** Rounding errors of sums of quotients with a small integer. *)
From Coq Require Import ZArith Lia List Bool.
From Verif.Base Require Import GoBase Float.
From Verif.Model Require Import Vector.
From Verif.Spec Require Import SizeSpec AccuracySpec.
From Verif.Proof Require Import RoundP VectorP MonoP MonoQ TruncP ExactP SizeP NearP AngleP ErrorP ErrorQ SelfP DotP CosineP CosineQ.
Import ListNotations.
Open Scope Z_scope.

Lemma count_float : forall c, 1 <= c < 2 ^ 24 -> exists m e, f32_of_Z c = S754_finite false m e /\ bounded 24 128 m e = true /\
  units (-149) (f32_of_Z c) = c * 2 ^ 149.
Proof.
  intros c H. destruct (norm_pos 24 128 ltac:(lia) c 0 ltac:(lia) ltac:(rewrite lo32; lia)) as (m & e & E & B & L & V).
  destruct (bounded_spec 24 128 ltac:(lia) m e B) as (_ & BE & _). rewrite lo32 in BE.
  exists m, e. assert (E' : f32_of_Z c = S754_finite false m e) by exact E. split; [exact E'|]. split; [exact B|].
  rewrite E'. cbn [units]. rewrite V, <- Z.mul_assoc, <- Z.pow_add_r by lia. do 2 f_equal. lia.
Qed.

Lemma div_error : forall d c, moderate d -> 1 <= c < 2 ^ 24 ->
  let t := f32div d (f32_of_Z c) in
  signed 24 128 t /\ Z.abs (value (-149) t * c - value (-149) d) * 2 ^ 24 <= Z.abs (value (-149) d).
Proof.
  intros d c MD C. cbn zeta. destruct (count_float c C) as (m2 & e2 & EC & B2 & WC). rewrite EC in *.
  destruct MD as (F & UB & LB).
  destruct d as [s|s| |s m e]; cbn [finite32] in F; try contradiction.
  { unfold f32div. cbn [SFdiv signed value]. split; [exact I|]. vm_compute. discriminate. }
  assert (D := F). destruct (bounded_spec 24 128 ltac:(lia) m e D) as (_ & BE & _). destruct (bounded_spec 24 128 ltac:(lia) m2 e2 B2) as (_ & BE2 & _).
  rewrite lo32 in BE, BE2.
  pose proof (rounds_div 24 128 ltac:(lia) m e m2 e2 (-400) D B2 ltac:(rewrite lo32; lia) ltac:(lia)) as R.
  set (r0 := SFdiv 24 128 (S754_finite false m e) (S754_finite false m2 e2)) in *.
  set (a := Zpos m * 2 ^ (e - e2 - -400)) in *.
  assert (PK : 0 < 2 ^ (e2 + 149)) by (apply Z.pow_pos_nonneg; lia).
  assert (WV : c * 2 ^ 149 = Zpos m2 * 2 ^ (e2 + 149)) by (rewrite <- WC; cbn [units]; do 2 f_equal; lia).
  set (v := units (-149) (S754_finite s m e)).
  assert (AV : a * 2 ^ (e2 + 149) = v * 2 ^ 400).
  { unfold a, v. cbn [units]. rewrite <- !Z.mul_assoc, <- !Z.pow_add_r by lia. do 2 f_equal. lia. }
  assert (V0 : 0 < v) by (unfold v; cbn [units]; apply Z.mul_pos_pos; [lia|apply Z.pow_pos_nonneg; lia]).
  assert (VV : value (-149) (S754_finite s m e) = cond_Zopp s v) by reflexivity.
  assert (VA : Z.abs (cond_Zopp s v) = v) by (destruct s; cbn [cond_Zopp]; lia).
  rewrite VV, VA in *. change (50 + 149) with 199 in UB. change (-40 + 149) with 109 in LB.
  assert (LB' : 2 ^ 109 <= v) by (destruct LB as [LB|LB]; [destruct s; cbn [cond_Zopp] in LB; lia|exact LB]). clear LB.
  assert (A0 : 0 < a) by (unfold a; apply Z.mul_pos_pos; [lia|apply Z.pow_pos_nonneg; lia]).
  destruct (pow32 37 ltac:(lia)) as (z & ZU & ZV). change (2 ^ (37 + 149 + 23)) with (2 ^ 209) in ZV.
  assert (ZV' : units (-400) z = 2 ^ 460).
  { rewrite (units_shift 24 128 ltac:(lia) z (-149) (-400) ltac:(lia) ltac:(rewrite lo32; lia) ZU), ZV. reflexivity. }
  assert (P149 : 0 < 2 ^ 149) by reflexivity.
  assert (U : unsigned 24 128 r0).
  { apply (not_infinite (Zpos m2) (-400) a r0 z); auto; try lia. rewrite ZV'.
    apply (Z.mul_le_mono_pos_r _ _ (2 ^ (e2 + 149))); [exact PK|]. rewrite AV.
    replace (Zpos m2 * 2 ^ 460 * 2 ^ (e2 + 149)) with (c * 2 ^ 149 * 2 ^ 60 * 2 ^ 400) by (rewrite WV; change (2 ^ 460) with (2 ^ 60 * 2 ^ 400); ring).
    apply Z.mul_le_mono_nonneg_r; [vm_compute; discriminate|]. apply Z.le_trans with (1 * 2 ^ 149 * 2 ^ 60).
    - eapply Z.le_trans; [exact UB|]. vm_compute. discriminate.
    - apply Z.mul_le_mono_nonneg_r; [vm_compute; discriminate|]. apply Z.mul_le_mono_nonneg_r; lia. }
  assert (CV : f32div (S754_finite s m e) (S754_finite false m2 e2) = SFdiv 24 128 (S754_finite s m e) (S754_finite false m2 e2)) by reflexivity.
  rewrite CV.
  assert (RV : forall E, value E (SFdiv 24 128 (S754_finite s m e) (S754_finite false m2 e2)) = cond_Zopp s (units E r0)).
  { intro E. unfold r0. cbn [SFdiv]. destruct (SFdiv_core_binary 24 128 (Zpos m) e (Zpos m2) e2) as [[mz ez] lz].
    rewrite xorb_false_r. cbn [xorb]. apply aux_value. }
  split.
  { apply signed_unsigned. assert (E : SFabs (SFdiv 24 128 (S754_finite s m e) (S754_finite false m2 e2)) = SFabs r0).
    { unfold r0. cbn [SFdiv]. destruct (SFdiv_core_binary 24 128 (Zpos m) e (Zpos m2) e2) as [[mz ez] lz].
      rewrite abs_aux. symmetry. rewrite abs_aux. reflexivity. }
    rewrite E. clear -U. destruct r0 as [b|b| |[] mm ee]; cbn in *; auto. }
  rewrite RV.
  replace (Z.abs (cond_Zopp s (units (-149) r0) * c - cond_Zopp s v)) with (Z.abs (units (-149) r0 * c - v)).
  2: { destruct s; cbn [cond_Zopp]; [|reflexivity]. rewrite <- Z.abs_opp. f_equal. ring. }
  pose proof (rounds_error 24 128 ltac:(lia) (Zpos m2) (-400) a r0 ltac:(lia) R U) as E. rewrite lo32 in E.
  change (2 ^ (24 - 1)) with (2 ^ 23) in E. change (2 ^ (-149 - -400)) with (2 ^ 251) in E.
  assert (L : Zpos m2 * 2 ^ 23 * 2 ^ 251 <= a).
  { apply (Z.mul_le_mono_pos_r _ _ (2 ^ (e2 + 149))); [exact PK|]. rewrite AV.
    replace (Zpos m2 * 2 ^ 23 * 2 ^ 251 * 2 ^ (e2 + 149)) with (c * 2 ^ 149 * 2 ^ 274) by (rewrite WV; change (2 ^ 274) with (2 ^ 23 * 2 ^ 251); ring).
    apply Z.le_trans with (2 ^ 24 * 2 ^ 149 * 2 ^ 274).
    - apply Z.mul_le_mono_nonneg_r; [vm_compute; discriminate|]. apply Z.mul_le_mono_nonneg_r; lia.
    - apply Z.le_trans with (2 ^ 109 * 2 ^ 400); [vm_compute; discriminate|]. apply Z.mul_le_mono_nonneg_r; [vm_compute; discriminate|exact LB']. }
  specialize (E L ltac:(lia)).
  rewrite (units_shift 24 128 ltac:(lia) r0 (-149) (-400) ltac:(lia) ltac:(rewrite lo32; lia) U) in E. change (-149 - -400) with 251 in E.
  apply (Z.mul_le_mono_pos_r _ _ (2 ^ 400)); [reflexivity|]. rewrite <- AV.
  assert (E' : Z.abs (Zpos m2 * (units (-149) r0 * 2 ^ 251) - a) * 2 ^ 24 * 2 ^ (e2 + 149) <= a * 2 ^ (e2 + 149)) by (apply Z.mul_le_mono_nonneg_r; lia).
  eapply Z.le_trans; [|exact E']. apply Z.eq_le_incl.
  assert (X : (units (-149) r0 * c - v) * 2 ^ 400 = (Zpos m2 * (units (-149) r0 * 2 ^ 251) - a) * 2 ^ (e2 + 149)).
  { rewrite !Z.mul_sub_distr_r, AV. f_equal.
    replace (Zpos m2 * (units (-149) r0 * 2 ^ 251) * 2 ^ (e2 + 149)) with (units (-149) r0 * 2 ^ 251 * (Zpos m2 * 2 ^ (e2 + 149))) by ring.
    rewrite <- WV. change (2 ^ 400) with (2 ^ 251 * 2 ^ 149). ring. }
  assert (P400 : 0 <= 2 ^ 400) by (vm_compute; discriminate).
  replace (Z.abs (units (-149) r0 * c - v) * 2 ^ 24 * 2 ^ 400) with (Z.abs ((units (-149) r0 * c - v) * 2 ^ 400) * 2 ^ 24).
  2: { rewrite Z.abs_mul, (Z.abs_eq (2 ^ 400)) by exact P400. ring. }
  rewrite X, Z.abs_mul, (Z.abs_eq (2 ^ (e2 + 149))) by lia. ring.
Qed.

Lemma add_signed : forall x y, signed 24 128 x -> signed 24 128 y -> Z.abs (value (-149) x + value (-149) y) <= 2 ^ 270 ->
  signed 24 128 (f32add x y).
Proof.
  intros x y X Y L. pose proof (add_abs_rounds 24 128 ltac:(lia) x y X Y) as R. rewrite lo32 in R.
  apply signed_unsigned. destruct (pow32 98 ltac:(lia)) as (z & ZU & ZV). change (2 ^ (98 + 149 + 23)) with (2 ^ 270) in ZV.
  eapply (not_infinite 1 (-149)); [lia|lia|exact R|exact ZU|]. rewrite ZV. lia.
Qed.

Lemma sum_error : forall c xs s i S M, 1 <= c < 2 ^ 24 -> signed 24 128 s -> 0 <= i ->
  Z.abs (value (-149) s * c - S) * 2 ^ 24 <= 3 * i * M -> Z.abs S <= M -> M <= i * 2 ^ 199 ->
  Forall moderate xs -> 3 * (i + Z.of_nat (length xs)) <= 2 ^ 24 ->
  let r := fold_left (fun a x => f32add a (f32div x (f32_of_Z c))) xs s in
  signed 24 128 r /\
  Z.abs (value (-149) r * c - (S + sum32 xs)) * 2 ^ 24 <= 3 * (i + Z.of_nat (length xs)) * (M + weight32 xs).
Proof.
  intros c. induction xs as [|x xs IH]; intros s i S M C HS Hi HE HM MB F HN.
  { cbn zeta. cbn [fold_left length]. unfold sum32, weight32. cbn [map fold_right]. rewrite !Z.add_0_r. auto. }
  inversion F as [|? ? Fx F']; subst. cbn zeta. cbn [fold_left length] in *. rewrite Nat2Z.inj_succ in *.
  destruct (div_error x c Fx C) as [TS TE]. set (t := f32div x (f32_of_Z c)) in *.
  set (g := value (-149) x) in *.
  assert (Q : 0 <= M) by (pose proof (Z.abs_nonneg S); lia).
  assert (UB : Z.abs g <= 2 ^ 199) by apply Fx.
  assert (B1 : Z.abs (value (-149) s * c - S) <= M).
  { apply (Z.mul_le_mono_pos_r _ _ (2 ^ 24)); [reflexivity|]. eapply Z.le_trans; [exact HE|]. rewrite (Z.mul_comm M). apply Z.mul_le_mono_nonneg_r; lia. }
  assert (B2 : Z.abs (value (-149) t * c - g) <= Z.abs g).
  { assert (Z.abs (value (-149) t * c - g) * 1 <= Z.abs (value (-149) t * c - g) * 2 ^ 24) by (apply Z.mul_le_mono_nonneg_l; lia). lia. }
  assert (SV : forall v, Z.abs v <= Z.abs (v * c)).
  { intro v. rewrite Z.abs_mul, (Z.abs_eq c) by lia. rewrite <- (Z.mul_1_r (Z.abs v)) at 1. apply Z.mul_le_mono_nonneg_l; lia. }
  assert (AS : signed 24 128 (f32add s t)).
  { apply add_signed; auto. pose proof (SV (value (-149) s)). pose proof (SV (value (-149) t)).
    assert (i * 2 ^ 199 <= 2 ^ 24 * 2 ^ 199) by (apply Z.mul_le_mono_nonneg_r; [apply Z.pow_nonneg; lia|lia]).
    assert (2 * (2 ^ 24 * 2 ^ 199) + 2 * 2 ^ 199 <= 2 ^ 270) by (vm_compute; discriminate). lia. }
  pose proof (add_error 24 128 ltac:(lia) s t HS TS AS) as AE. cbv zeta in AE. rewrite lo32 in AE. fold (f32add s t) in AE.
  set (s' := f32add s t) in *.
  assert (AE' : Z.abs (value (-149) s' * c - (value (-149) s * c + value (-149) t * c)) * 2 ^ 24 <= Z.abs (value (-149) s * c + value (-149) t * c)).
  { rewrite <- Z.mul_add_distr_r, <- Z.mul_sub_distr_r, !Z.abs_mul, (Z.abs_eq c) by lia.
    rewrite <- Z.mul_assoc, (Z.mul_comm c), Z.mul_assoc. apply Z.mul_le_mono_nonneg_r; [lia|exact AE]. }
  pose proof (dot_step (value (-149) s * c) S M g (value (-149) t * c) (value (-149) s' * c) i (2 ^ 24)
    ltac:(lia) Hi ltac:(lia) Q HE HM TE AE') as ST.
  destruct (IH s' (i + 1) (S + g) (M + Z.abs g) C AS ltac:(lia) ST ltac:(lia) ltac:(lia) F' ltac:(lia)) as (F1 & F2).
  split; [exact F1|].
  replace (i + Z.succ (Z.of_nat (length xs))) with (i + 1 + Z.of_nat (length xs)) by lia.
  replace (sum32 (x :: xs)) with (g + sum32 xs) by reflexivity.
  replace (weight32 (x :: xs)) with (Z.abs g + weight32 xs) by reflexivity.
  rewrite (Z.add_assoc S), (Z.add_assoc M). exact F2.
Qed.
