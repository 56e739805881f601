(** The cosine similarity on multiples of one power of two. *)
From Verif.Base Require Import GoBase GoLemmas Float.
From Verif.Model Require Import Vector.
From Verif.Spec Require Import VectorSpec FixedSpec.
From Verif.Proof Require Import FloatP RoundP VectorP MonoP MonoQ TruncP ExactP ExactQ.
From Coq Require Import Lia ZArith.
Open Scope Z_scope.

Lemma inner_cons : forall x y a b, inner (x :: a) (y :: b) = x * y + inner a b.
Proof. reflexivity. Qed.
Lemma mass_cons : forall x y a b, mass (x :: a) (y :: b) = Z.abs (x * y) + mass a b.
Proof. reflexivity. Qed.

Lemma inner_nonneg : forall a, 0 <= inner a a.
Proof.
  induction a as [|x a IH]; [reflexivity|]. unfold inner in *. rewrite sum_cons.
  pose proof (Z.square_nonneg x). lia.
Qed.

Lemma mass_le : forall a b, 2 * mass a b <= inner a a + inner b b.
Proof.
  induction a as [|x a IH]; intro b.
  - unfold mass, sum_of. cbn [combine map fold_right]. pose proof (inner_nonneg b).
    change (inner [] []) with 0. lia.
  - destruct b as [|y b].
    + unfold mass, sum_of. cbn [combine map fold_right]. pose proof (inner_nonneg (x :: a)).
      change (inner [] []) with 0. lia.
    + specialize (IH b). unfold mass, inner in *. rewrite !sum_cons.
      assert (2 * Z.abs (x * y) <= x * x + y * y); [|lia].
      rewrite Z.abs_mul, <- (Z.abs_square x), <- (Z.abs_square y).
      pose proof (Z.square_nonneg (Z.abs x - Z.abs y)). lia.
Qed.

Lemma inner_small : forall a, inner a a < 2 ^ 24 -> small a.
Proof.
  induction a as [|x a IH]; intro H; constructor.
  - unfold inner in H. rewrite sum_cons in H. fold inner in H. pose proof (inner_nonneg a).
    rewrite <- Z.abs_square in H. set (d := Z.abs x) in *. assert (0 <= d) by (unfold d; lia). nia.
  - apply IH. unfold inner in *. rewrite sum_cons in H. pose proof (Z.square_nonneg x). lia.
Qed.

Lemma step_exact : forall k r x y, scale k -> Z.abs x < 2 ^ 24 -> Z.abs y < 2 ^ 24 -> Z.abs r + Z.abs (x * y) < 2 ^ 24 ->
  f32add (fixed32 (2 * k) r) (f32mul (fixed32 k x) (fixed32 k y)) = fixed32 (2 * k) (r + x * y).
Proof.
  intros k r x y Hk Hx Hy H.
  pose proof (mult_exact k [x] [y] r Hk ltac:(repeat constructor; auto) ltac:(repeat constructor; auto)) as E.
  unfold mass, inner, sum_of in E. cbn [combine map fold_right fst snd mult_loop fixed_vec] in E.
  rewrite !Z.add_0_r in E. apply E. exact H.
Qed.

Lemma cos_exact : forall k a b r s t, scale k -> small a -> small b -> 0 <= s -> 0 <= t ->
  Z.abs r + mass a b < 2 ^ 24 -> s + inner a a < 2 ^ 24 -> t + inner b b < 2 ^ 24 ->
  cos_loop (fixed32 (2 * k) r) (fixed32 (2 * k) s) (fixed32 (2 * k) t) (fixed_vec k a) (fixed_vec k b) =
  (fixed32 (2 * k) (r + inner a b), fixed32 (2 * k) (s + inner a a), fixed32 (2 * k) (t + inner b b)).
Proof.
  intros k a b r s t Hk. revert b r s t. induction a as [|x a IH]; intros b r s t Ha Hb Hs Ht Hr Hsa Htb.
  - change (inner [] b) with 0. change (inner [] []) with 0 in *. rewrite !Z.add_0_r. clear Hr Hsa.
    revert t Ht Htb. induction b as [|y b IHb]; intros t Ht Htb.
    + change (inner [] []) with 0. rewrite Z.add_0_r. reflexivity.
    + inversion Hb as [|? ? Hy Hb']; subst. rewrite inner_cons in *.
      pose proof (inner_nonneg b). pose proof (Z.square_nonneg y).
      specialize (IHb Hb' (t + y * y) ltac:(lia) ltac:(lia)).
      rewrite Z.add_assoc, <- IHb, <- (step_exact k t y y) by (auto; lia).
      destruct b; reflexivity.
  - inversion Ha as [|? ? Hx Ha']; subst. rewrite (inner_cons x x) in *.
    pose proof (inner_nonneg a). pose proof (Z.square_nonneg x).
    destruct b as [|y b].
    + change (inner (x :: a) []) with 0. change (inner [] []) with 0 in *. change (mass (x :: a) []) with 0 in Hr.
      cbn [fixed_vec map cos_loop]. fold (fixed_vec k a). rewrite step_exact by (auto; lia).
      specialize (IH [] r (s + x * x) t Ha' Hb ltac:(lia) Ht).
      replace (mass a []) with 0 in IH by (destruct a; reflexivity).
      replace (inner a []) with 0 in IH by (destruct a; reflexivity).
      change (fixed_vec k []) with (@nil float) in IH. change (inner [] []) with 0 in IH.
      rewrite IH by lia. rewrite Z.add_assoc. reflexivity.
    + inversion Hb as [|? ? Hy Hb']; subst. rewrite !inner_cons in *. rewrite mass_cons in Hr.
      pose proof (inner_nonneg b). pose proof (Z.square_nonneg y). pose proof (mass_nonneg a b).
      cbn [fixed_vec map cos_loop]. fold (fixed_vec k a) (fixed_vec k b).
      rewrite !step_exact by (auto; lia). rewrite IH by (auto; lia). rewrite !Z.add_assoc. reflexivity.
Qed.

(** ** Bounds of the root, of the product of two roots and of the quotient *)
Definition sized (E l h : Z) (x : float) : Prop :=
  exists m e, x = S754_finite false m e /\ bounded 24 128 m e = true /\
    2 ^ (l - E) <= Zpos m * 2 ^ (e - E) <= 2 ^ (h - E).

Lemma pow_norm : forall j, -149 <= j <= 127 ->
  exists m e, bounded 24 128 m e = true /\ forall E, E <= -149 ->
    Zpos m * 2 ^ (e - E) = 2 ^ (j - E) /\ rounds 24 128 1 E (2 ^ (j - E)) (S754_finite false m e).
Proof.
  intros j Hj.
  assert (K : exists n k, 0 < n < 2 ^ 24 /\ -149 <= k <= 104 /\ forall E, E <= -149 -> n * 2 ^ (k - E) = 2 ^ (j - E)).
  { destruct (Z.le_gt_cases j 104) as [L|L].
    - exists 1, j. split; [lia|]. split; [lia|]. intros E HE. lia.
    - exists (2 ^ (j - 104)), 104. split.
      + split; [apply Z.pow_pos_nonneg; lia|apply Z.pow_lt_mono_r; lia].
      + split; [lia|]. intros E HE. rewrite <- Z.pow_add_r by lia. f_equal. lia. }
  destruct K as (n & k & Hn & Hk & HE).
  destruct (norm_pos 24 128 ltac:(lia) n k Hn ltac:(rewrite lo24; lia)) as (m & e & X & B & L & V).
  destruct (bounded_spec 24 128 ltac:(lia) m e B) as (_ & L1 & _). rewrite lo24 in L1.
  exists m, e. split; auto. intros E Hl. rewrite <- (HE E Hl).
  assert (U : Zpos m * 2 ^ (e - E) = n * 2 ^ (k - E)).
  { rewrite V, <- Z.mul_assoc, <- Z.pow_add_r by lia. f_equal. f_equal. lia. }
  split; auto. rewrite <- X. apply (rounds_normalize 24 128 ltac:(lia)); rewrite ?lo24; lia.
Qed.

Lemma sized_rounds : forall E l h b a x, E <= -149 -> -149 <= l <= 127 -> -149 <= h <= 127 -> 0 < b ->
  rounds 24 128 b E a x -> b * 2 ^ (l - E) <= a <= b * 2 ^ (h - E) -> sized E l h x.
Proof.
  intros E l h b a x HE Hl Hh Hb R [A1 A2].
  destruct (pow_norm l Hl) as (ml & el & Bl & Pl). destruct (Pl E HE) as [Vl Rl].
  destruct (pow_norm h Hh) as (mh & eh & Bh & Ph). destruct (Ph E HE) as [Vh Rh].
  apply (rounds_scale 24 128 1 E _ _ b Hb) in Rl. apply (rounds_scale 24 128 1 E _ _ b Hb) in Rh.
  rewrite Z.mul_1_r in Rl, Rh.
  pose proof (rounds_mono 24 128 ltac:(lia) b E _ _ _ _ Hb A1 Rl R) as L1.
  pose proof (rounds_mono 24 128 ltac:(lia) b E _ _ _ _ Hb A2 R Rh) as L2.
  destruct (rounds_range 24 128 ltac:(lia) _ _ _ _ R) as [U|U].
  2:{ rewrite U in L2. discriminate L2. }
  apply (fleb_units 24 128 ltac:(lia) _ _ E) in L1; [|rewrite lo24; lia|exact Bl|exact U].
  apply (fleb_units 24 128 ltac:(lia) _ _ E) in L2; [|rewrite lo24; lia|exact U|exact Bh].
  assert (0 < 2 ^ (l - E)) by (apply Z.pow_pos_nonneg; lia).
  destruct x as [s|s| |[] m e]; cbn [unsigned] in U; try contradiction.
  - cbn [units] in L1. lia.
  - exists m, e. split; [auto|]. split; [auto|]. cbn [units] in L1, L2. lia.
Qed.

Lemma sized_scale : forall E E' l h x, E' <= E <= -149 -> E <= l -> E <= h -> sized E l h x -> sized E' l h x.
Proof.
  intros E E' l h x HE Hl Hh (m & e & X & B & L & H). exists m, e. split; auto. split; auto.
  destruct (bounded_spec 24 128 ltac:(lia) m e B) as (_ & L1 & _). rewrite lo24 in L1.
  assert (P : 0 < 2 ^ (E - E')) by (apply Z.pow_pos_nonneg; lia).
  replace (l - E') with ((l - E) + (E - E')) by lia. replace (h - E') with ((h - E) + (E - E')) by lia.
  replace (e - E') with ((e - E) + (E - E')) by lia. rewrite !Z.pow_add_r by lia. rewrite Z.mul_assoc.
  split; apply Z.mul_le_mono_nonneg_r; lia.
Qed.

Lemma root_sized : forall k n, scale k -> 0 < n < 2 ^ 24 -> sized (-300) k (k + 12) (f32sqrt (fixed32 (2 * k) n)).
Proof.
  intros k n Hk Hn. unfold scale in Hk.
  pose proof (sqrt_rounds 24 128 ltac:(lia) n k (-300) Hn ltac:(rewrite lo24; lia) ltac:(rewrite lo24; lia) ltac:(lia) ltac:(rewrite lo24; lia)) as R.
  eapply (sized_rounds (-300) k (k + 12) 2); [lia|lia|lia|lia|exact R|].
  set (j := k - -300). assert (Pj : 0 < 2 ^ j) by (apply Z.pow_pos_nonneg; unfold j; lia).
  replace (2 ^ (2 * j)) with (2 ^ j * 2 ^ j) by (rewrite <- Z.pow_add_r by (unfold j; lia); f_equal; lia).
  replace (k + 12 - -300) with (12 + j) by (unfold j; lia). rewrite Z.pow_add_r by (unfold j; lia).
  split.
  - rewrite <- root_square by lia. apply root2_mono. nia.
  - rewrite <- root_square by lia. apply root2_mono. change (2 ^ 24) with (2 ^ 12 * 2 ^ 12) in Hn. nia.
Qed.

Lemma product_sized : forall E l h l' h' x y, sized E l h x -> sized E l' h' y -> E <= -149 ->
  E <= l -> E <= l' -> E <= h -> E <= h' -> -149 <= l + l' <= 127 -> -149 <= h + h' <= 127 ->
  sized (2 * E) (l + l') (h + h') (f32mul x y).
Proof.
  intros E l h l' h' x y (m & e & -> & B & L & H) (m' & e' & -> & B' & L' & H') HE Hl Hl' Hh Hh' Hs Ht.
  destruct (bounded_spec 24 128 ltac:(lia) m e B) as (_ & L1 & _). rewrite lo24 in L1.
  destruct (bounded_spec 24 128 ltac:(lia) m' e' B') as (_ & L2 & _). rewrite lo24 in L2.
  pose proof (rounds_mul 24 128 ltac:(lia) ltac:(lia) m e m' e' (2 * E) B B' ltac:(rewrite lo24; lia) ltac:(lia)) as R.
  eapply (sized_rounds (2 * E) (l + l') (h + h') 1); [lia|lia|lia|lia|exact R|].
  replace (e + e' - 2 * E) with ((e - E) + (e' - E)) by lia.
  replace (l + l' - 2 * E) with ((l - E) + (l' - E)) by lia.
  replace (h + h' - 2 * E) with ((h - E) + (h' - E)) by lia.
  rewrite !Z.pow_add_r by lia.
  assert (0 < 2 ^ (l - E)) by (apply Z.pow_pos_nonneg; lia). assert (0 < 2 ^ (l' - E)) by (apply Z.pow_pos_nonneg; lia).
  replace (Zpos m * Zpos m' * (2 ^ (e - E) * 2 ^ (e' - E))) with ((Zpos m * 2 ^ (e - E)) * (Zpos m' * 2 ^ (e' - E))) by ring.
  split; rewrite Z.mul_1_l; apply Z.mul_le_mono_nonneg; lia.
Qed.

Lemma quotient_sized : forall E j x y, sized E j (j + 24) x -> sized E j (j + 24) y -> E <= -300 -> E <= j ->
  sized E (-24) 24 (f32div x y).
Proof.
  intros E j x y (m & e & -> & B & L & H) (m' & e' & -> & B' & L' & H') HE Hj.
  destruct (bounded_spec 24 128 ltac:(lia) m e B) as (_ & L1 & _). rewrite lo24 in L1.
  destruct (bounded_spec 24 128 ltac:(lia) m' e' B') as (_ & L2 & _). rewrite lo24 in L2.
  pose proof (rounds_div 24 128 ltac:(lia) m e m' e' E B B' ltac:(rewrite lo24; lia) ltac:(lia)) as R.
  eapply (sized_rounds E (-24) 24 (Zpos m')); [lia|lia|lia|lia|exact R|].
  assert (P : 0 < 2 ^ (e' - E)) by (apply Z.pow_pos_nonneg; lia).
  assert (P0 : 0 < 2 ^ (- 24 - E)) by (apply Z.pow_pos_nonneg; lia).
  assert (P1 : 0 < 2 ^ (j - E)) by (apply Z.pow_pos_nonneg; lia).
  assert (K : Zpos m * 2 ^ (e - e' - E) * 2 ^ (e' - E) = (Zpos m * 2 ^ (e - E)) * (2 ^ (-24 - E) * 2 ^ 24)).
  { rewrite <- Z.pow_add_r by lia. rewrite <- !Z.mul_assoc, <- !Z.pow_add_r by lia. f_equal. f_equal. lia. }
  replace (j + 24 - E) with ((j - E) + 24) in H, H' by lia. rewrite Z.pow_add_r in H, H' by lia.
  replace (24 - E) with ((-24 - E) + 24 + 24) by lia. rewrite !(Z.pow_add_r 2 _ 24) by lia.
  change (2 ^ 24) with 16777216 in *.
  set (a := Zpos m * 2 ^ (e - e' - E)) in *. set (u := 2 ^ (e' - E)) in *. set (v := 2 ^ (-24 - E)) in *.
  set (w := 2 ^ (j - E)) in *. set (M := Zpos m * 2 ^ (e - E)) in *.
  split; apply (Z.mul_le_mono_pos_r _ _ u P); rewrite K.
  - replace (Zpos m' * v * u) with ((Zpos m' * u) * v) by ring. nia.
  - replace (Zpos m' * (v * 16777216 * 16777216) * u) with ((Zpos m' * u) * (v * 16777216 * 16777216)) by ring. nia.
Qed.

Lemma fixed_sized : forall k n, -149 <= k <= 104 -> 0 < n < 2 ^ 24 -> sized (-300) k (k + 24) (fixed32 k n).
Proof.
  intros k n Hk Hn. unfold fixed32.
  destruct (norm_pos 24 128 ltac:(lia) n k Hn ltac:(rewrite lo24; lia)) as (m & e & -> & B & L & V).
  destruct (bounded_spec 24 128 ltac:(lia) m e B) as (_ & L1 & _). rewrite lo24 in L1.
  exists m, e. split; auto. split; auto. rewrite V, <- Z.mul_assoc, <- Z.pow_add_r by lia.
  replace (k - e + (e - -300)) with (k - -300) by lia. replace (k + 24 - -300) with (24 + (k - -300)) by lia.
  rewrite (Z.pow_add_r 2 24) by lia. assert (0 < 2 ^ (k - -300)) by (apply Z.pow_pos_nonneg; lia). nia.
Qed.

Lemma div_opp : forall m e m' e', f32div (S754_finite true m e) (S754_finite false m' e') =
  SFopp (f32div (S754_finite false m e) (S754_finite false m' e')).
Proof.
  intros. unfold f32div, prec32, emax32. cbn [SFdiv xorb].
  destruct (SFdiv_core_binary 24 128 (Zpos m) e (Zpos m') e') as [[mz ez] lz]. apply opp_aux.
Qed.

Lemma widen_sign : forall s m e, bounded 24 128 m e = true ->
  exists m' e', f64_of_f32 (S754_finite s m e) = S754_finite s m' e'.
Proof.
  intros s m e B. destruct (bounded_spec 24 128 ltac:(lia) m e B) as (A & L1 & _). rewrite lo24 in L1.
  set (n := cond_Zopp s (Zpos m)).
  assert (N : n <> 0) by (unfold n; destruct s; cbn [cond_Zopp]; lia).
  assert (2 ^ 24 < 2 ^ 53) by (apply Z.pow_lt_mono_r; lia).
  assert (A' : Z.abs n < 2 ^ 53) by (unfold n; destruct s; cbn [cond_Zopp]; lia).
  destruct (norm_signed 53 1024 ltac:(lia) n e N A' ltac:(unfold emin; lia)) as (m' & e' & X & _).
  exists m', e'. cbn [f64_of_f32]. fold n.
  replace (binary_normalize prec64 emax64 n e s) with (binary_normalize 53 1024 n e false) by (destruct n; [lia|reflexivity|reflexivity]).
  rewrite X. f_equal. unfold n. destruct s; reflexivity.
Qed.

Lemma cosine_sign : forall k a b, scale k -> inner a a < 2 ^ 24 -> inner b b < 2 ^ 24 ->
  inner a a <> 0 -> inner b b <> 0 ->
  SFcompare (CosineSimilarity (fixed_vec k a) (fixed_vec k b)) (S754_zero false) = Some (inner a b ?= 0).
Proof.
  intros k a b Hk Ha Hb Na Nb.
  pose proof (inner_nonneg a) as Pa. pose proof (inner_nonneg b) as Pb. pose proof (mass_le a b) as Hm.
  unfold CosineSimilarity.
  change fzero with (fixed32 (2 * k) 0) at 1 2 3.
  rewrite cos_exact by (auto using inner_small; lia). rewrite !Z.add_0_l.
  assert (Hab : Z.abs (inner a b) < 2 ^ 24).
  { assert (Z.abs (inner a b) <= mass a b); [|lia]. clear. revert b. induction a as [|x a IH]; intro b; [reflexivity|].
    destruct b as [|y b]; [reflexivity|]. unfold inner, mass in *. rewrite !sum_cons. specialize (IH b). lia. }
  pose proof Hk as Hk'. unfold scale in Hk'.
  destruct (fixed_sized (2 * k) (inner a a) ltac:(lia) ltac:(lia)) as (ma & ea & Xa & _).
  destruct (fixed_sized (2 * k) (inner b b) ltac:(lia) ltac:(lia)) as (mb & eb & Xb & _).
  assert (Z1 : feqb (fixed32 (2 * k) (inner a a)) fzero || feqb (fixed32 (2 * k) (inner b b)) fzero = false).
  { rewrite Xa, Xb. reflexivity. }
  rewrite Z1. clear Z1 ma ea mb eb Xa Xb.
  pose proof (product_sized (-300) k (k + 12) k (k + 12) _ _ (root_sized k (inner a a) Hk ltac:(lia))
    (root_sized k (inner b b) Hk ltac:(lia)) ltac:(lia) ltac:(lia) ltac:(lia) ltac:(lia) ltac:(lia) ltac:(lia) ltac:(lia)) as D.
  set (den := f32mul (f32sqrt (fixed32 (2 * k) (inner a a))) (f32sqrt (fixed32 (2 * k) (inner b b)))) in *.
  replace (k + k) with (2 * k) in D by lia. replace (k + 12 + (k + 12)) with (2 * k + 24) in D by lia.
  change (2 * -300) with (-600) in D.
  assert (Q : inner a b <> 0 -> exists m e, f32div (fixed32 (2 * k) (inner a b)) den = S754_finite (inner a b <? 0) m e /\ bounded 24 128 m e = true).
  { intro N0. set (n := inner a b) in *.
    pose proof (fixed_sized (2 * k) (Z.abs n) ltac:(lia) ltac:(lia)) as F.
    apply (sized_scale (-300) (-600)) in F; try lia.
    pose proof (quotient_sized (-600) (2 * k) _ _ F D ltac:(lia) ltac:(lia)) as (m & e & X & B & _).
    exists m, e. split; auto. destruct (Z.ltb_spec n 0) as [L|L].
    - unfold fixed32. replace n with (- Z.abs n) by lia. rewrite norm_opp by lia. fold (fixed32 (2 * k) (Z.abs n)).
      destruct F as (mf & ef & EF & _). destruct D as (md & ed & ED & _). rewrite EF, ED in X |- *. cbn [SFopp negb].
      rewrite div_opp, X. reflexivity.
    - replace n with (Z.abs n) by lia. exact X. }
  destruct (Z.eq_dec (inner a b) 0) as [Z0|N0].
  - rewrite Z0. change (fixed32 (2 * k) 0) with fzero. destruct D as (md & ed & -> & _). reflexivity.
  - destruct (Q N0) as (m & e & X & B). rewrite X. destruct (widen_sign (inner a b <? 0) m e B) as (m' & e' & Y). rewrite Y.
    destruct (Z.ltb_spec (inner a b) 0) as [L|L].
    + replace (inner a b ?= 0) with Lt by (symmetry; apply Z.compare_lt_iff; lia).
      change (fgtb (S754_finite true m' e') f64_one) with false.
      destruct (fltb (S754_finite true m' e') f64_mone); reflexivity.
    + replace (inner a b ?= 0) with Gt by (symmetry; apply Z.compare_gt_iff; lia).
      destruct (fgtb (S754_finite false m' e') f64_one); [reflexivity|].
      change (fltb (S754_finite false m' e') f64_mone) with false. reflexivity.
Qed.
