(** When the distances are zero. *)
From Coq Require Import ZArith Lia List Bool.
From Verif.Base Require Import GoBase Float.
From Verif.Model Require Import Vector.
From Verif.Spec Require Import AccuracySpec.
From Verif.Proof Require Import RoundP VectorP MonoP MonoQ TruncP SizeP NearP AngleP ErrorP ErrorQ SelfP.
Import ListNotations.
Open Scope Z_scope.

Definition nought (x : float) : Prop := exists s, x = S754_zero s.

Section AnyFormat.
Context (p q : Z) (Hp : 1 < p) (Hq : p < q).

Lemma nought_units : forall x, unsigned p q x -> (nought x <-> units (emin p q) x = 0).
Proof.
  intros [s|s| |[] m e] U; cbn [unsigned units] in *; try contradiction.
  - split; [reflexivity|]. intros _. exists s. reflexivity.
  - split; [intros [s E]; discriminate E|]. intro E. exfalso.
    destruct (bounded_spec p q Hp m e U) as (_ & B & _).
    assert (0 < 2 ^ (e - emin p q)) by (apply Z.pow_pos_nonneg; lia). lia.
Qed.

Lemma nought_rounds : forall a r, 0 <= a -> rounds p q 1 (emin p q) a r -> (nought r <-> a = 0).
Proof.
  intros a r Ha R. destruct (rounds_range p q Hp _ _ _ _ R) as [U|I].
  - pose proof (rounds_relative p q Hp a r Ha R U) as Q. rewrite (nought_units r U).
    assert (P : 0 < 2 ^ p) by (apply Z.pow_pos_nonneg; lia).
    pose proof (units_nonneg r (emin p q)) as N. split; intro E.
    + rewrite E in Q. rewrite Z.sub_0_l, Z.abs_opp, (Z.abs_eq a Ha) in Q.
      assert (T : 2 * a <= a * 2 ^ p).
      { rewrite Z.mul_comm. apply Z.mul_le_mono_nonneg_l; [exact Ha|]. change 2 with (2 ^ 1) at 1. apply Z.pow_le_mono_r; lia. }
      lia.
    + subst a. rewrite Z.sub_0_r, (Z.abs_eq _ N) in Q.
      apply Z.le_antisymm; [|exact N]. apply (Z.mul_le_mono_pos_r _ _ (2 ^ p)); [exact P|]. lia.
  - split; intro E.
    + destruct E as [s E]. congruence.
    + exfalso. subst a r.
      pose proof (rounds_mono p q Hp 1 (emin p q) 0 0 _ _ ltac:(lia) (Z.le_refl 0) R (rounds_zero p q Hp 1 (emin p q) false ltac:(lia) (Z.le_refl _))) as L.
      discriminate L.
Qed.

Lemma nought_add : forall x y, in_range p q x -> in_range p q y -> (nought (SFadd p q x y) <-> nought x /\ nought y).
Proof.
  assert (TOP : forall s, ~ nought (S754_infinity s)) by (intros s [s' E]; discriminate E).
  intros x y [X| ->] [Y| ->].
  - pose proof (rounds_add p q Hp x y (emin p q) (Z.le_refl _) X Y) as R.
    pose proof (units_nonneg x (emin p q)). pose proof (units_nonneg y (emin p q)).
    assert (S : 0 <= units (emin p q) x + units (emin p q) y) by lia.
    rewrite (nought_rounds _ _ S R), (nought_units x X), (nought_units y Y). lia.
  - assert (E : SFadd p q x (S754_infinity false) = S754_infinity false) by (destruct x as [s|s| |[] m e]; cbn in X; try contradiction; reflexivity).
    rewrite E. split; [intro N; destruct (TOP _ N)|intros [_ N]; destruct (TOP _ N)].
  - assert (E : SFadd p q (S754_infinity false) y = S754_infinity false) by (destruct y as [s|s| |[] m e]; cbn in Y; try contradiction; reflexivity).
    rewrite E. split; [intro N; destruct (TOP _ N)|intros [N _]; destruct (TOP _ N)].
  - split; [intro N; destruct (TOP _ N)|intros [N _]; destruct (TOP _ N)].
Qed.
End AnyFormat.

Lemma nought_widen : forall x, in_range 24 128 x -> (nought (f64_of_f32 x) <-> nought x).
Proof.
  intros x [U| ->].
  - destruct (widen_units x U) as [W V].
    rewrite (nought_units 53 1024 ltac:(lia) _ W), (nought_units 24 128 ltac:(lia) _ U).
    change (emin 53 1024) with (-1074). change (emin 24 128) with (-149). rewrite V.
    assert (0 < 2 ^ 925) by (apply Z.pow_pos_nonneg; lia). split; intro E; [|rewrite E; reflexivity].
    apply Z.mul_eq_0 in E as [E|E]; [exact E|lia].
  - split; intros [s E]; discriminate E.
Qed.

Lemma gap_range : forall x y, finite32 x -> finite32 y ->
  in_range 24 128 (SFabs (f32sub x y)) /\ (nought (SFabs (f32sub x y)) <-> gap x y = 0).
Proof.
  intros x y X Y. pose proof (gap_rounds x y X Y) as R. split; [exact (rounds_range 24 128 ltac:(lia) _ _ _ _ R)|].
  apply (nought_rounds 24 128 ltac:(lia)); [apply gap_nonneg|exact R].
Qed.

Lemma quick_nought : forall a b ret, Forall finite32 a -> Forall finite32 b -> in_range 53 1024 ret ->
  in_range 53 1024 (quick_loop ret a b) /\
  (nought (quick_loop ret a b) <-> nought ret /\ Forall (fun d => d = 0) (gaps a b)).
Proof.
  induction a as [|x a IH]; intros [|y b] ret A B R.
  1-3: cbn [quick_loop]; split; [exact R|]; split; [intro N; split; [exact N|constructor]|intros [N _]; exact N].
  inversion A as [|? ? A1 A2]; subst. inversion B as [|? ? B1 B2]; subst. cbn [quick_loop].
  destruct (gap_range x y A1 B1) as [G1 G2].
  set (d := f64_of_f32 (SFabs (f32sub x y))).
  assert (D : in_range 53 1024 d) by (apply widen_range; exact G1).
  assert (D0 : nought d <-> gap x y = 0) by (unfold d; rewrite (nought_widen _ G1); exact G2).
  destruct (IH b (f64add ret d) A2 B2 (MonoQ.add_range 53 1024 ltac:(lia) _ _ R D)) as [I1 I2].
  split; [exact I1|]. rewrite I2. unfold f64add. change prec64 with 53. change emax64 with 1024.
  rewrite (nought_add 53 1024 ltac:(lia) _ _ R D), D0. unfold gaps. cbn [combine map fst snd]. fold (gaps a b).
  split; [intros [[N1 N2] N3]; split; [exact N1|constructor; assumption]|intros [N1 N2]; inversion N2; subst; auto].
Qed.

(** A difference of at least 2^-74 has a square that is not zero. *)
Lemma square_nought : forall x y, finite32 x -> finite32 y -> tellable (gap x y) ->
  let s := f32mul (f32sub x y) (f32sub x y) in in_range 24 128 s /\ (nought s <-> gap x y = 0).
Proof.
  intros x y X Y T. cbn zeta. rewrite mul_abs. destruct (gap_range x y X Y) as [G1 G2].
  pose proof (gap_rounds x y X Y) as R. set (d := SFabs (f32sub x y)) in *. clearbody d.
  destruct G1 as [U| ->].
  2: { split; [right; reflexivity|]. rewrite <- G2. split; intros [s E]; discriminate E. }
  destruct d as [s|s| |[] m e]; cbn [unsigned] in U; try contradiction.
  - split; [left; exact I|]. rewrite <- G2. split; intros _; [exists s; reflexivity|]. cbn. eexists. reflexivity.
  - destruct (bounded_spec 24 128 ltac:(lia) m e U) as (_ & BE & _). rewrite lo32 in BE.
    pose proof (rounds_mul 24 128 ltac:(lia) ltac:(lia) m e m e (-298) U U ltac:(rewrite lo32; lia) ltac:(lia)) as RM.
    unfold f32mul. change prec32 with 24. change emax32 with 128.
    split; [exact (rounds_range 24 128 ltac:(lia) _ _ _ _ RM)|]. rewrite <- G2.
    assert (NF : ~ nought (S754_finite false m e)) by (intros [s E]; discriminate E).
    split; [intro N|intro N; contradiction]. exfalso.
    destruct T as [T|T]; [apply NF, G2, T|].
    (* d is at least 2^-74 *)
    assert (RZ : rounds 24 128 1 (-149) (2 ^ 75) (S754_finite false (2 ^ 23) (-97))).
    { pose proof (rounds_itself 24 128 ltac:(lia) (S754_finite false (2 ^ 23) (-97)) (-149) ltac:(rewrite lo32; lia) eq_refl) as RI. exact RI. }
    pose proof (rounds_mono 24 128 ltac:(lia) 1 (-149) _ _ _ _ ltac:(lia) T RZ R) as L.
    apply (fleb_units 24 128 ltac:(lia) (S754_finite false (2 ^ 23) (-97)) (S754_finite false m e) (-149) ltac:(rewrite lo32; lia) eq_refl U) in L.
    assert (L' : 2 ^ 75 <= Zpos m * 2 ^ (e + 149)).
    { replace (e + 149) with (e - -149) by lia. exact L. }
    assert (V : Zpos m * Zpos m * 2 ^ (e + e - -298) = (Zpos m * 2 ^ (e + 149)) * (Zpos m * 2 ^ (e + 149))).
    { replace (e + e - -298) with ((e + 149) + (e + 149)) by lia. rewrite Z.pow_add_r by lia. ring. }
    rewrite V in RM.
    assert (L2 : 2 ^ 150 <= (Zpos m * 2 ^ (e + 149)) * (Zpos m * 2 ^ (e + 149))).
    { change (2 ^ 150) with (2 ^ 75 * 2 ^ 75). apply Z.mul_le_mono_nonneg; try exact L'; apply Z.pow_nonneg; lia. }
    assert (RW : rounds 24 128 1 (-298) (2 ^ 150) (S754_finite false 2 (-149))).
    { pose proof (rounds_itself 24 128 ltac:(lia) (S754_finite false 2 (-149)) (-298) ltac:(rewrite lo32; lia) eq_refl) as RI. exact RI. }
    pose proof (rounds_mono 24 128 ltac:(lia) 1 (-298) _ _ _ _ ltac:(lia) L2 RW RM) as L3.
    destruct N as [s N]. rewrite N in L3. discriminate L3.
Qed.

Lemma nought_sqrt : forall x, in_range 53 1024 x -> in_range 53 1024 (f64sqrt x) /\ (nought (f64sqrt x) <-> nought x).
Proof.
  intros x X. split; [apply (sqrt_range 53 1024 ltac:(lia)); exact X|].
  destruct X as [U| ->]; [|split; intros [s E]; discriminate E].
  destruct x as [s|s| |[] m e]; cbn [unsigned] in U; try contradiction.
  - split; intros _; [exists s; reflexivity|]. exists s. reflexivity.
  - split; intros [s E]; [|discriminate E]. exfalso.
    destruct (bounded_spec 53 1024 ltac:(lia) m e U) as (_ & BE & _). change (emin 53 1024) with (-1074) in BE.
    assert (L : fleb (S754_finite false 1 (-1074)) (S754_finite false m e) = true).
    { apply (fleb_units 53 1024 ltac:(lia) (S754_finite false 1 (-1074)) (S754_finite false m e) (-1074) (Z.le_refl _) eq_refl U). cbn [units].
      assert (0 < 2 ^ (e - -1074)) by (apply Z.pow_pos_nonneg; lia). change (2 ^ (-1074 - -1074)) with 1.
      assert (1 * 1 <= Zpos m * 2 ^ (e - -1074)) by (apply Z.mul_le_mono_nonneg; lia). lia. }
    pose proof (sqrt_mono 53 1024 ltac:(lia) (S754_finite false 1 (-1074)) (S754_finite false m e) (or_introl (eq_refl : unsigned 53 1024 (S754_finite false 1 (-1074)))) (or_introl U) L) as S.
    unfold f64sqrt in E. change prec64 with 53 in E. change emax64 with 1024 in E. rewrite E in S. vm_compute in S. discriminate S.
Qed.

Lemma euclid_nought : forall M, squares M -> forall a b ret, Forall finite32 a -> Forall finite32 b -> Forall tellable (gaps a b) ->
  in_range 24 128 ret ->
  in_range 24 128 (euclid_loop M ret a b) /\
  (nought (euclid_loop M ret a b) <-> nought ret /\ Forall (fun d => d = 0) (gaps a b)).
Proof.
  intros M HM. induction a as [|x a IH]; intros [|y b] ret A B T R.
  1-3: cbn [euclid_loop]; split; [exact R|]; split; [intro N; split; [exact N|constructor]|intros [N _]; exact N].
  inversion A as [|? ? A1 A2]; subst. inversion B as [|? ? B1 B2]; subst. cbn [euclid_loop]. rewrite HM.
  unfold gaps in T. cbn [combine map fst snd] in T. fold (gaps a b) in T. inversion T as [|? ? T1 T2]; subst.
  destruct (square_nought x y A1 B1 T1) as [D D0]. set (d := f32mul (f32sub x y) (f32sub x y)) in *. clearbody d.
  destruct (IH b (f32add ret d) A2 B2 T2 (MonoQ.add_range 24 128 ltac:(lia) _ _ R D)) as [I1 I2].
  split; [exact I1|]. rewrite I2. unfold f32add. change prec32 with 24. change emax32 with 128.
  rewrite (nought_add 24 128 ltac:(lia) _ _ R D), D0. unfold gaps. cbn [combine map fst snd]. fold (gaps a b).
  split; [intros [[N1 N2] N3]; split; [exact N1|constructor; assumption]|intros [N1 N2]; inversion N2; subst; auto].
Qed.

Lemma range_number : forall p q x, in_range p q x -> is_nan x = false.
Proof. intros p q x [U| ->]; [|reflexivity]. destruct x; cbn in U; try contradiction; reflexivity. Qed.

(** Distances of finite vectors are numbers, or plus infinity, and zero for the same vector only. *)
Lemma quick_zero : forall a b, Forall finite32 a -> Forall finite32 b ->
  in_range 53 1024 (QuickVectorDistance a b) /\
  (nought (QuickVectorDistance a b) <-> Forall (fun d => d = 0) (gaps a b)).
Proof.
  intros a b A B. destruct (quick_nought a b fzero A B (or_introl I)) as [R N]. split; [exact R|].
  unfold QuickVectorDistance. rewrite N. split; [intros [_ F]; exact F|intro F; split; [exists false; reflexivity|exact F]].
Qed.

Lemma distance_zero : forall M a b, squares M -> Forall finite32 a -> Forall finite32 b -> Forall tellable (gaps a b) ->
  in_range 53 1024 (VectorDistance M a b) /\
  (nought (VectorDistance M a b) <-> Forall (fun d => d = 0) (gaps a b)).
Proof.
  intros M a b HM A B T. destruct (euclid_nought M HM a b fzero A B T (or_introl I)) as [R N].
  unfold VectorDistance. destruct (nought_sqrt _ (widen_range _ R)) as [S1 S2]. split; [exact S1|].
  rewrite S2, (nought_widen _ R), N. split; [intros [_ F]; exact F|intro F; split; [exists false; reflexivity|exact F]].
Qed.

(** Nothing but zero is below zero. *)
Lemma nought_least : forall p q x y, in_range p q x -> nought y -> SFleb x y = true -> nought x.
Proof.
  intros p q x y [U| ->] [s ->] L; [|discriminate L].
  destruct x as [s'|s'| |[] m e]; cbn in U; try contradiction; [exists s'; reflexivity|discriminate L].
Qed.
