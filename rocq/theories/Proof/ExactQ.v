(** The vector functions on multiples of one power of two. *)
From Verif.Base Require Import GoBase GoLemmas Float.
From Verif.Model Require Import Vector.
From Verif.Spec Require Import VectorSpec FixedSpec.
From Verif.Proof Require Import FloatP RoundP VectorP MonoP MonoQ TruncP ExactP.
From Coq Require Import Lia ZArith.
Open Scope Z_scope.

Lemma lo24 : emin 24 128 = -149.
Proof. reflexivity. Qed.

(** ** The sums *)
Lemma sum_cons : forall f x y a b, sum_of f (x :: a) (y :: b) = f x y + sum_of f a b.
Proof. reflexivity. Qed.

Lemma sum_nonneg : forall f, (forall x y, 0 <= f x y) -> forall a b, 0 <= sum_of f a b.
Proof.
  intros f H. induction a as [|x a IH]; intros b; [unfold sum_of; cbn; lia|].
  destruct b as [|y b]; [unfold sum_of; cbn; lia|]. rewrite sum_cons. specialize (H x y). specialize (IH b). lia.
Qed.

Lemma mass_nonneg : forall a b, 0 <= mass a b.
Proof. apply sum_nonneg. intros; lia. Qed.
Lemma dist2_nonneg : forall a b, 0 <= dist2 a b.
Proof. apply sum_nonneg. intros x y. apply Z.square_nonneg. Qed.
Lemma taxi_nonneg : forall a b, 0 <= taxi a b.
Proof. apply sum_nonneg. intros; lia. Qed.

(** ** Widening *)
Lemma widen_exact : forall k n, -149 <= k <= 104 -> Z.abs n < 2 ^ 24 -> f64_of_f32 (fixed32 k n) = fixed64 k n.
Proof.
  intros k n Hk Hn. unfold fixed32, fixed64. destruct (Z.eq_dec n 0) as [->|N0]; [reflexivity|].
  destruct (norm_signed 24 128 ltac:(lia) n k N0 Hn ltac:(rewrite lo24; lia)) as (m & e & -> & B & L & V).
  destruct (bounded_spec 24 128 ltac:(lia) m e B) as (_ & L1 & _). rewrite lo24 in L1.
  cbn [f64_of_f32]. rewrite V.
  assert (P : 0 < 2 ^ (k - e)) by (apply Z.pow_pos_nonneg; lia).
  assert (N1 : n * 2 ^ (k - e) <> 0) by nia.
  assert (X : forall s, binary_normalize prec64 emax64 (n * 2 ^ (k - e)) e s =
                        binary_normalize prec64 emax64 (n * 2 ^ (k - e)) e false).
  { intro s. destruct (n * 2 ^ (k - e)); [lia|reflexivity|reflexivity]. }
  rewrite X. apply (norm_same 53 1024 ltac:(lia)); auto; unfold emin.
  - lia.
  - assert (2 ^ 24 < 2 ^ 53) by (apply Z.pow_lt_mono_r; lia). lia.
  - lia.
  - rewrite <- Z.mul_assoc, <- Z.pow_add_r by lia. f_equal. f_equal. lia.
Qed.

(** ** The loops *)
Lemma mult_exact : forall k a b r, scale k -> small a -> small b -> Z.abs r + mass a b < 2 ^ 24 ->
  mult_loop (fixed32 (2 * k) r) (fixed_vec k a) (fixed_vec k b) = fixed32 (2 * k) (r + inner a b).
Proof.
  intros k a b r Hk. revert b r. induction a as [|x a IH]; intros b r Ha Hb H.
  { destruct b; cbn; f_equal; lia. }
  destruct b as [|y b]; [cbn; f_equal; lia|].
  inversion Ha as [|? ? Hx Ha']; subst. inversion Hb as [|? ? Hy Hb']; subst.
  unfold mass in H. rewrite sum_cons in H. fold mass in H. pose proof (mass_nonneg a b) as Hm.
  unfold inner. rewrite sum_cons. fold inner. cbn [fixed_vec map mult_loop]. fold (fixed_vec k a) (fixed_vec k b).
  assert (E : f32add (fixed32 (2 * k) r) (f32mul (fixed32 k x) (fixed32 k y)) = fixed32 (2 * k) (r + x * y)).
  { unfold scale in Hk. unfold fixed32, f32add, f32mul, prec32, emax32.
    destruct (mul_exact 24 128 ltac:(lia) ltac:(lia) x y k k) as [->|[Z [s ->]]]; auto; rewrite ?lo24; try lia.
    - replace (k + k) with (2 * k) by lia. apply add_exact; auto; rewrite ?lo24; lia.
    - rewrite Z, Z.add_0_r. destruct (Z.eq_dec r 0) as [->|R0]; [destruct s; reflexivity|].
      destruct (norm_signed 24 128 ltac:(lia) r (2 * k) R0 ltac:(lia) ltac:(rewrite lo24; lia)) as (m & e & -> & _). reflexivity. }
  rewrite E, IH; auto; [f_equal; lia|lia].
Qed.

Lemma small_diff : forall x y, (x - y) * (x - y) < 2 ^ 24 -> Z.abs (x - y) < 2 ^ 24.
Proof. intros x y H. rewrite <- Z.abs_square in H. set (d := Z.abs (x - y)) in *. assert (0 <= d) by (unfold d; lia). nia. Qed.

Lemma euclid_exact : forall M k a b r, pow2_exact M -> scale k -> small a -> small b -> 0 <= r -> r + dist2 a b < 2 ^ 24 ->
  euclid_loop M (fixed32 (2 * k) r) (fixed_vec k a) (fixed_vec k b) = fixed32 (2 * k) (r + dist2 a b).
Proof.
  intros M k a b r HM Hk. revert b r. induction a as [|x a IH]; intros b r Ha Hb Hr H.
  { destruct b; cbn; f_equal; lia. }
  destruct b as [|y b]; [cbn; f_equal; lia|].
  inversion Ha as [|? ? Hx Ha']; subst. inversion Hb as [|? ? Hy Hb']; subst.
  unfold dist2 in *. rewrite sum_cons in *. fold dist2 in *. pose proof (dist2_nonneg a b) as Hm.
  assert (S0 : 0 <= (x - y) * (x - y)) by apply Z.square_nonneg.
  pose proof (small_diff x y ltac:(lia)) as Hd.
  cbn [fixed_vec map euclid_loop]. fold (fixed_vec k a) (fixed_vec k b).
  assert (E : f32add (fixed32 (2 * k) r) (pow2 M (f32sub (fixed32 k x) (fixed32 k y))) = fixed32 (2 * k) (r + (x - y) * (x - y))).
  { assert (E1 : f32sub (fixed32 k x) (fixed32 k y) = fixed32 k (x - y)).
    { unfold fixed32, f32sub, prec32, emax32. unfold scale in Hk. apply sub_exact; rewrite ?lo24; lia. }
    rewrite E1, HM by (auto; lia). unfold scale in Hk. unfold fixed32, f32add, prec32, emax32.
    apply add_exact; rewrite ?lo24; lia. }
  rewrite E, IH; auto; [f_equal; lia|lia|lia].
Qed.

Lemma quick_exact : forall k a b r, -149 <= k <= 104 -> small a -> small b ->
  Forall (fun p => Z.abs (fst p - snd p) < 2 ^ 24) (combine a b) -> 0 <= r -> r + taxi a b < 2 ^ 53 ->
  quick_loop (fixed64 k r) (fixed_vec k a) (fixed_vec k b) = fixed64 k (r + taxi a b).
Proof.
  intros k a b r Hk. revert b r. induction a as [|x a IH]; intros b r Ha Hb Hc Hr H.
  { destruct b; cbn; f_equal; lia. }
  destruct b as [|y b]; [cbn; f_equal; lia|].
  inversion Ha as [|? ? Hx Ha']; subst. inversion Hb as [|? ? Hy Hb']; subst.
  cbn [combine] in Hc. inversion Hc as [|? ? Hd Hc']; subst. cbn [fst snd] in Hd.
  unfold taxi in *. rewrite sum_cons in *. fold taxi in *. pose proof (taxi_nonneg a b) as Hm.
  cbn [fixed_vec map quick_loop]. fold (fixed_vec k a) (fixed_vec k b).
  assert (E : f64add (fixed64 k r) (f64_of_f32 (SFabs (f32sub (fixed32 k x) (fixed32 k y)))) = fixed64 k (r + Z.abs (x - y))).
  { assert (E1 : f32sub (fixed32 k x) (fixed32 k y) = fixed32 k (x - y)).
    { unfold fixed32, f32sub, prec32, emax32. apply sub_exact; rewrite ?lo24; lia. }
    rewrite E1. unfold fixed32 at 1. rewrite abs_exact by lia. fold (fixed32 k (Z.abs (x - y))).
    rewrite widen_exact by lia. unfold fixed64, f64add, prec64, emax64. apply add_exact; unfold emin; lia. }
  rewrite E, IH; auto; [f_equal; lia|lia|lia].
Qed.

(** ** The root *)
Lemma root_rounds : forall k n, scale k -> 0 <= n < 2 ^ 24 ->
  rounds 53 1024 2 (-1200) (root2 (n * 2 ^ (2 * (k - -1200)))) (f64sqrt (fixed64 (2 * k) n)).
Proof.
  intros k n Hk Hn. unfold scale in Hk. destruct (Z.eq_dec n 0) as [->|N0].
  - rewrite Z.mul_0_l. change (root2 0) with 0. apply (rounds_zero 53 1024 ltac:(lia) 2 (-1200) false); [lia|unfold emin; lia].
  - apply (sqrt_rounds 53 1024 ltac:(lia)); unfold emin; lia.
Qed.

Lemma root_exact : forall k r, scale k -> 0 <= r -> r * r < 2 ^ 24 -> f64sqrt (fixed64 (2 * k) (r * r)) = fixed64 k r.
Proof.
  intros k r Hk Hr H. destruct (Z.eq_dec r 0) as [->|R0]; [reflexivity|].
  pose proof (root_rounds k (r * r) Hk ltac:(nia)) as R.
  replace (r * r * 2 ^ (2 * (k - -1200))) with ((r * 2 ^ (k - -1200)) * (r * 2 ^ (k - -1200))) in R.
  2:{ unfold scale in Hk. replace (2 * (k - -1200)) with ((k - -1200) + (k - -1200)) by lia. rewrite Z.pow_add_r by lia. ring. }
  rewrite root_square in R by (apply Z.mul_nonneg_nonneg; lia).
  assert (r < 2 ^ 53) by (assert (r <= r * r) by nia; assert (2 ^ 24 < 2 ^ 53) by (apply Z.pow_lt_mono_r; lia); lia).
  unfold scale in Hk.
  pose proof (rounds_normalize 53 1024 ltac:(lia) r k false (-1200) Hr ltac:(lia) ltac:(unfold emin; lia)) as R'.
  apply (rounds_twice 53 1024 ltac:(lia)) in R'.
  destruct (same_rounds 53 1024 ltac:(lia) 2 _ _ _ _ ltac:(lia) R R') as [X|(_ & s & X)]; [exact X|].
  destruct (norm_pos 53 1024 ltac:(lia) r k ltac:(lia) ltac:(unfold emin; lia)) as (m & e & Y & _). rewrite Y in X. discriminate X.
Qed.

Lemma root_order : forall k n n', scale k -> 0 <= n < 2 ^ 24 -> 0 <= n' < 2 ^ 24 ->
  (SFleb (f64sqrt (fixed64 (2 * k) n)) (f64sqrt (fixed64 (2 * k) n')) = true <-> n <= n').
Proof.
  intros k n n' Hk Hn Hn'.
  pose proof (root_rounds k n Hk Hn) as R. pose proof (root_rounds k n' Hk Hn') as R'.
  unfold scale in Hk. set (j := k - -1200) in *.
  assert (Pj : 0 < 2 ^ (2 * j)) by (apply Z.pow_pos_nonneg; lia).
  split.
  - intro L. destruct (Z.le_gt_cases n n') as [|G]; auto. exfalso.
    set (a := Z.sqrt (n' * 2 ^ 40)). set (b := Z.sqrt (n * 2 ^ 40)).
    destruct (Z.sqrt_spec (n' * 2 ^ 40) ltac:(lia)) as [A1 A2]. fold a in A1, A2.
    destruct (Z.sqrt_spec (n * 2 ^ 40) ltac:(lia)) as [B1 B2]. fold b in B1, B2.
    assert (A0 : 0 <= a) by apply Z.sqrt_nonneg. assert (B0 : 0 <= b) by apply Z.sqrt_nonneg.
    change (2 ^ 40) with 1099511627776 in *. change (2 ^ 24) with 16777216 in *.
    assert (Ha : a < 4294967296) by nia. assert (Hb : b < 4294967296) by nia.
    assert (Hab : a + 1 < b) by nia.
    set (c := 2 ^ (j - 20)). assert (Pc : 0 < c) by (apply Z.pow_pos_nonneg; unfold j; lia).
    assert (J : 2 ^ (2 * j) = 1099511627776 * (c * c)).
    { unfold c. change 1099511627776 with (2 ^ 40). rewrite <- !Z.pow_add_r by (unfold j; lia). f_equal. lia. }
    assert (F : 4294967296 < 2 ^ 53) by reflexivity.
    pose proof (rounds_normalize 53 1024 ltac:(lia) (a + 1) (k - 20) false (-1200) ltac:(lia) ltac:(lia) ltac:(unfold emin; lia)) as Ra.
    pose proof (rounds_normalize 53 1024 ltac:(lia) b (k - 20) false (-1200) ltac:(lia) ltac:(lia) ltac:(unfold emin; lia)) as Rb.
    replace (k - 20 - -1200) with (j - 20) in Ra, Rb by (unfold j; lia). fold c in Ra, Rb.
    apply (rounds_twice 53 1024 ltac:(lia)) in Ra. apply (rounds_twice 53 1024 ltac:(lia)) in Rb.
    destruct (norm_pos 53 1024 ltac:(lia) (a + 1) (k - 20) ltac:(lia) ltac:(unfold emin; lia)) as (ma & ea & Ya & Ba & La & Va).
    destruct (norm_pos 53 1024 ltac:(lia) b (k - 20) ltac:(lia) ltac:(unfold emin; lia)) as (mb & eb & Yb & Bb & Lb & Vb).
    rewrite Ya in Ra. rewrite Yb in Rb.
    assert (U : fleb (f64sqrt (fixed64 (2 * k) n')) (S754_finite false ma ea) = true).
    { eapply (rounds_mono 53 1024 ltac:(lia) 2 (-1200)); [lia| |exact R'|exact Ra].
      unfold root2. rewrite J.
      assert (Z.sqrt (n' * (1099511627776 * (c * c))) < (a + 1) * c).
      { apply Z.sqrt_lt_square; nia. }
      destruct (_ =? _); lia. }
    assert (V : fleb (S754_finite false mb eb) (f64sqrt (fixed64 (2 * k) n)) = true).
    { eapply (rounds_mono 53 1024 ltac:(lia) 2 (-1200)); [lia| |exact Rb|exact R].
      unfold root2. rewrite J.
      assert (b * c <= Z.sqrt (n * (1099511627776 * (c * c)))).
      { apply Z.sqrt_le_square; nia. }
      destruct (_ =? _); lia. }
    assert (T : fleb (S754_finite false mb eb) (S754_finite false ma ea) = true).
    { eapply leb_trans; [exact V|]. eapply leb_trans; [exact L|exact U]. }
    destruct (bounded_spec 53 1024 ltac:(lia) ma ea Ba) as (_ & Ga & _), (bounded_spec 53 1024 ltac:(lia) mb eb Bb) as (_ & Gb & _).
    apply (fleb_units 53 1024 ltac:(lia) _ _ (-1200)) in T; [|unfold emin; lia|exact Bb|exact Ba].
    cbn [units] in T. rewrite Va, Vb in T. unfold emin in Ga, Gb.
    rewrite <- !Z.mul_assoc, <- !Z.pow_add_r in T by lia.
    replace (k - 20 - ea + (ea - -1200)) with (j - 20) in T by (unfold j; lia).
    replace (k - 20 - eb + (eb - -1200)) with (j - 20) in T by (unfold j; lia). fold c in T. nia.
  - intro L. eapply (rounds_mono 53 1024 ltac:(lia) 2 (-1200)); [lia| |exact R|exact R'].
    apply root2_mono. split; [apply Z.mul_nonneg_nonneg; lia|apply Z.mul_le_mono_nonneg_r; lia].
Qed.
