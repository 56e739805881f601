(** The score functions keep the order. *)
From Verif.Base Require Import GoBase GoLemmas Float.
From Verif.Model Require Import Vector.
From Verif.Spec Require Import VectorSpec.
From Verif.Proof Require Import FloatP RoundP MonoP VectorP.
From Coq Require Import Lia ZArith.
Open Scope Z_scope.

Section Order.
Variables prec emax : Z.
Hypothesis Hprec : 1 < prec.

Notation rng := (in_range prec emax).

Lemma range_top : forall x, rng x -> fleb x (S754_infinity false) = true.
Proof. intros x [H| ->]; [|reflexivity]. destruct x as [| | |[]]; cbn in H; try contradiction; reflexivity. Qed.

Lemma range_bottom : forall x s, rng x -> fleb (S754_zero s) x = true.
Proof. intros x s [H| ->]; [|reflexivity]. destruct x as [| | |[]]; cbn in H; try contradiction; reflexivity. Qed.

Lemma top_only : forall x, rng x -> fleb (S754_infinity false) x = true -> x = S754_infinity false.
Proof. intros x [H| ->]; auto. destruct x as [| | |[]]; cbn in H; try contradiction; discriminate. Qed.

(** Addition of numbers that are not negative. *)
Lemma add_range : forall x y, rng x -> rng y -> rng (SFadd prec emax x y).
Proof.
  intros x y [X| ->] [Y| ->].
  - apply (rounds_range prec emax Hprec 1 (emin prec emax) (units (emin prec emax) x + units (emin prec emax) y)).
    apply rounds_add; auto; lia.
  - right. destruct x as [| | |[]]; cbn in X; try contradiction; reflexivity.
  - right. destruct y as [| | |[]]; cbn in Y; try contradiction; reflexivity.
  - right. reflexivity.
Qed.

Lemma add_mono : forall x y x' y', rng x -> rng y -> rng x' -> rng y' ->
  fleb x x' = true -> fleb y y' = true ->
  fleb (SFadd prec emax x y) (SFadd prec emax x' y') = true.
Proof.
  intros x y x' y' X Y X' Y' Lx Ly.
  assert (T : rng (SFadd prec emax x y)) by (apply add_range; auto).
  destruct X' as [X'|E].
  2:{ assert (SFadd prec emax x' y' = S754_infinity false) as ->; [|apply range_top; auto].
      rewrite E. destruct Y' as [Y'| ->]; [|reflexivity].
      destruct y' as [| | |[]]; cbn in Y'; try contradiction; reflexivity. }
  destruct Y' as [Y'|E].
  2:{ assert (SFadd prec emax x' y' = S754_infinity false) as ->; [|apply range_top; auto].
      rewrite E. destruct x' as [| | |[]]; cbn in X'; try contradiction; reflexivity. }
  destruct X as [X| ->].
  2:{ apply top_only in Lx; [subst x'; contradiction|left; auto]. }
  destruct Y as [Y| ->].
  2:{ apply top_only in Ly; [subst y'; contradiction|left; auto]. }
  assert (exists E, E <= emin prec emax) as [E HE] by (exists (emin prec emax); lia).
  apply (fleb_units prec emax Hprec x x' E) in Lx; auto.
  apply (fleb_units prec emax Hprec y y' E) in Ly; auto.
  apply (rounds_mono prec emax Hprec 1 E (units E x + units E y) (units E x' + units E y')); try lia.
  - apply rounds_add; auto.
  - apply rounds_add; auto.
Qed.

(** Division by a positive number. *)
Lemma div_range : forall x m e, unsigned prec emax x -> bounded prec emax m e = true ->
  rng (SFdiv prec emax x (S754_finite false m e)).
Proof.
  intros x m e X Y. destruct x as [s|s| |[] m1 e1]; cbn in X; try contradiction.
  - left. exact I.
  - set (E := Z.min (emin prec emax) (e1 - e)).
    eapply (rounds_range prec emax Hprec (Zpos m) E).
    apply rounds_div; auto; unfold E; lia.
Qed.

Lemma div_mono : forall x x' m e, unsigned prec emax x -> unsigned prec emax x' -> bounded prec emax m e = true ->
  fleb x x' = true ->
  fleb (SFdiv prec emax x (S754_finite false m e)) (SFdiv prec emax x' (S754_finite false m e)) = true.
Proof.
  intros x x' m e X X' Y L.
  destruct x as [s|s| |[] m1 e1]; cbn [unsigned] in X; try contradiction.
  { cbn [SFdiv]. apply range_bottom, div_range; auto. }
  destruct x' as [s'|s'| |[] m2 e2]; cbn [unsigned] in X'; try contradiction; [discriminate|].
  set (E := Z.min (emin prec emax) (Z.min (e1 - e) (e2 - e))).
  set (F := Z.min (emin prec emax) (E + e)).
  apply (fleb_units prec emax Hprec (S754_finite false m1 e1) (S754_finite false m2 e2) F) in L;
    [|unfold F; lia|exact X|exact X']. cbn [units] in L.
  apply (rounds_mono prec emax Hprec (Zpos m) E (Zpos m1 * 2 ^ (e1 - e - E)) (Zpos m2 * 2 ^ (e2 - e - E))); try lia.
  - replace (e1 - F) with ((e1 - e - E) + (e + E - F)) in L by lia.
    replace (e2 - F) with ((e2 - e - E) + (e + E - F)) in L by lia.
    rewrite !Z.pow_add_r in L by (unfold E, F; lia).
    assert (0 < 2 ^ (e + E - F)) by (apply Z.pow_pos_nonneg; unfold F; lia).
    rewrite !Z.mul_assoc in L. apply Z.mul_le_mono_pos_r in L; auto.
  - apply rounds_div; auto; unfold E; lia.
  - apply rounds_div; auto; unfold E; lia.
Qed.

(** Subtraction from a positive number. *)
Lemma sub_range : forall m e y, bounded prec emax m e = true -> unsigned prec emax y ->
  fleb y (S754_finite false m e) = true ->
  rng (SFsub prec emax (S754_finite false m e) y).
Proof.
  intros m e y X Y L. set (E := emin prec emax).
  apply (fleb_units prec emax Hprec y (S754_finite false m e) E) in L; [|unfold E; lia|exact Y|exact X].
  eapply (rounds_range prec emax Hprec 1 E). apply rounds_sub; [exact Hprec|unfold E; lia|exact X|exact Y|exact L|intros s H; discriminate].
Qed.

Lemma sub_anti : forall m e y y', bounded prec emax m e = true -> unsigned prec emax y -> unsigned prec emax y' ->
  fleb y y' = true -> fleb y' (S754_finite false m e) = true ->
  fleb (SFsub prec emax (S754_finite false m e) y') (SFsub prec emax (S754_finite false m e) y) = true.
Proof.
  intros m e y y' X Y Y' L L'. set (E := emin prec emax).
  apply (fleb_units prec emax Hprec y y' E) in L; [|unfold E; lia|exact Y|exact Y'].
  apply (fleb_units prec emax Hprec y' (S754_finite false m e) E) in L'; [|unfold E; lia|exact Y'|exact X].
  apply (rounds_mono prec emax Hprec 1 E (units E (S754_finite false m e) - units E y')
           (units E (S754_finite false m e) - units E y)); try lia.
  - apply rounds_sub; [exact Hprec|unfold E; lia|exact X|exact Y'|exact L'|intros s H; discriminate].
  - apply rounds_sub; [exact Hprec|unfold E; lia|exact X|exact Y|lia|intros s H; discriminate].
Qed.

(** The square root. *)
Lemma sqrt_range : forall x, rng x -> rng (SFsqrt prec emax x).
Proof.
  intros x [X| ->]; [|right; reflexivity]. destruct x as [s|s| |[] m e]; cbn [unsigned] in X; try contradiction.
  - left. exact I.
  - set (E := Z.min (emin prec emax - 1) (Z.div2 (e - 2))).
    assert (2 * Z.div2 (e - 2) <= e - 2) by (rewrite Z.div2_div; pose proof (Z.mul_div_le (e - 2) 2); lia).
    eapply (rounds_range prec emax Hprec 2 E). apply rounds_sqrt; auto; unfold E; lia.
Qed.

Lemma sqrt_mono : forall x x', rng x -> rng x' -> fleb x x' = true ->
  fleb (SFsqrt prec emax x) (SFsqrt prec emax x') = true.
Proof.
  intros x x' X X' L.
  assert (T : rng (SFsqrt prec emax x)) by (apply sqrt_range; auto).
  assert (T' : rng (SFsqrt prec emax x')) by (apply sqrt_range; auto).
  destruct X' as [X'| ->]; [|apply range_top; auto].
  destruct X as [X| ->]; [|apply top_only in L; [subst x'; contradiction|left; auto]].
  destruct x as [s|s| |[] m e]; cbn [unsigned] in X; try contradiction.
  { cbn [SFsqrt]. apply range_bottom; auto. }
  destruct x' as [s'|s'| |[] m' e']; cbn [unsigned] in X'; try contradiction; [discriminate|].
  set (E := Z.min (emin prec emax - 1) (Z.min (Z.div2 (e - 2)) (Z.div2 (e' - 2)))).
  assert (2 * Z.div2 (e - 2) <= e - 2) by (rewrite Z.div2_div; pose proof (Z.mul_div_le (e - 2) 2); lia).
  assert (2 * Z.div2 (e' - 2) <= e' - 2) by (rewrite Z.div2_div; pose proof (Z.mul_div_le (e' - 2) 2); lia).
  set (F := Z.min (emin prec emax) (2 * E)).
  apply (fleb_units prec emax Hprec (S754_finite false m e) (S754_finite false m' e') F) in L;
    [|unfold F; lia|exact X|exact X']. cbn [units] in L.
  apply (rounds_mono prec emax Hprec 2 E (root2 (Zpos m * 2 ^ (e - 2 * E))) (root2 (Zpos m' * 2 ^ (e' - 2 * E))));
    try lia.
  - apply root2_mono. split; [lia|].
    replace (e - F) with ((e - 2 * E) + (2 * E - F)) in L by lia.
    replace (e' - F) with ((e' - 2 * E) + (2 * E - F)) in L by lia.
    rewrite !Z.pow_add_r in L by (unfold E, F; lia).
    assert (0 < 2 ^ (2 * E - F)) by (apply Z.pow_pos_nonneg; unfold F; lia).
    rewrite !Z.mul_assoc in L. apply Z.mul_le_mono_pos_r in L; auto.
  - apply rounds_sqrt; auto; unfold E; lia.
  - apply rounds_sqrt; auto; unfold E; lia.
Qed.

(** The size of a difference. *)
Lemma abs_aux : forall s m e l,
  SFabs (binary_round_aux prec emax s m e l) = SFabs (binary_round_aux prec emax false m e l).
Proof.
  intros s m e l. unfold binary_round_aux. destruct (shr_fexp prec emax m e l) as [mrs z].
  destruct (shr_fexp prec emax (round_nearest_even (shr_m mrs) (loc_of_shr_record mrs)) z loc_Exact) as [mrs2 z2].
  destruct (shr_m mrs2); auto. destruct (Zle_bool z2 (emax - prec)); auto.
Qed.

Lemma abs_normalize : forall n e s,
  SFabs (binary_normalize prec emax n e s) = SFabs (binary_normalize prec emax (Z.abs n) e s).
Proof.
  intros n e s. destruct n as [|p|p]; auto. cbn [binary_normalize Z.abs]. unfold binary_round.
  destruct (shl_align p e (fexp prec emax (Zpos (digits2_pos p) + e))) as [mz ez]. apply abs_aux.
Qed.

Lemma abs_range : forall x, rng x -> SFabs x = x \/ (exists s, x = S754_zero s).
Proof. intros x [X| ->]; auto. destruct x as [s|s| |[]]; cbn in X; try contradiction; eauto. Qed.

Lemma abs_range_ok : forall x, rng x -> rng (SFabs x).
Proof.
  intros x H. destruct (abs_range x H) as [-> |[s ->]]; auto. left. exact I.
Qed.

Lemma abs_valid : forall x, valid_binary prec emax x = true -> is_nan x = false -> rng (SFabs x).
Proof. intros [s|s| |s m e] V N; try discriminate; [left; exact I|right; auto|left; exact V]. Qed.

Lemma diff_range : forall x y, valid_binary prec emax x = true -> valid_binary prec emax y = true ->
  finite x -> finite y -> rng (SFabs (SFsub prec emax x y)).
Proof.
  intros x y X Y Fx Fy.
  destruct x as [s|s| |s m e], y as [s'|s'| |s' m' e']; cbn [finite] in Fx, Fy; try contradiction; cbn [SFsub].
  - destruct (Bool.eqb s (negb s')); left; exact I.
  - apply abs_valid; auto.
  - apply abs_valid; auto.
  - rewrite abs_normalize. apply abs_range_ok.
    cbn [valid_binary] in X, Y.
    destruct (bounded_spec prec emax Hprec m e X) as (A & B & C & D).
    destruct (bounded_spec prec emax Hprec m' e' Y) as (A' & B' & C' & D').
    eapply (rounds_range prec emax Hprec 1 (emin prec emax)). apply rounds_normalize; lia.
Qed.

End Order.

(** float64 of a float32. *)
Lemma widen_range : forall x, in_range 24 128 x -> in_range 53 1024 (f64_of_f32 x).
Proof.
  intros x [X| ->]; [|right; reflexivity]. destruct x as [s|s| |[] m e]; cbn [unsigned] in X; try contradiction.
  - left. exact I.
  - destruct (bounded_spec 24 128 ltac:(lia) m e X) as (A & B & C & D). unfold emin in B.
    cbn [f64_of_f32 cond_Zopp]. eapply (rounds_range 53 1024 ltac:(lia) 1 (-1074)).
    apply rounds_normalize; unfold emin, prec64, emax64; lia.
Qed.

Lemma widen_mono : forall x y, in_range 24 128 x -> in_range 24 128 y -> fleb x y = true ->
  fleb (f64_of_f32 x) (f64_of_f32 y) = true.
Proof.
  intros x y X Y L.
  pose proof (widen_range x X) as T. pose proof (widen_range y Y) as T'.
  destruct Y as [Y| ->]; [|apply (range_top 53 1024); auto].
  destruct X as [X| ->]; [|apply (top_only 24 128) in L; [subst y; contradiction|left; auto]].
  destruct x as [s|s| |[] m e]; cbn [unsigned] in X; try contradiction.
  { apply (range_bottom 53 1024); auto. }
  destruct y as [s'|s'| |[] m' e']; cbn [unsigned] in Y; try contradiction; [discriminate|].
  destruct (bounded_spec 24 128 ltac:(lia) m e X) as (A & B & C & D). unfold emin in B.
  destruct (bounded_spec 24 128 ltac:(lia) m' e' Y) as (A' & B' & C' & D'). unfold emin in B'.
  apply (fleb_units 24 128 ltac:(lia) (S754_finite false m e) (S754_finite false m' e') (-1074)) in L;
    [|unfold emin; lia|exact X|exact Y]. cbn [units] in L.
  cbn [f64_of_f32 cond_Zopp].
  apply (rounds_mono 53 1024 ltac:(lia) 1 (-1074) _ _ _ _ ltac:(lia) L);
    apply rounds_normalize; unfold emin, prec64, emax64; lia.
Qed.

(** The angular score. *)
Lemma pi_digits : f64_pi = decimal_pi.
Proof. vm_compute. reflexivity. Qed.

Lemma pi_is : f64_pi = S754_finite false 7074237752028440 (-51).
Proof. vm_compute. reflexivity. Qed.
Lemma one_is : f64_one = S754_finite false 4503599627370496 (-52).
Proof. vm_compute. reflexivity. Qed.

Lemma angle_nonneg : forall x, is_float64 x -> within (S754_zero false) decimal_pi x -> unsigned 53 1024 x.
Proof.
  intros x V [A B]. rewrite <- pi_digits, pi_is in B.
  unfold is_float64 in V.
  destruct x as [s|s| |[] m e]; unfold SFleb, SFcompare in A, B; try discriminate.
  - exact I.
  - destruct s; discriminate.
  - exact V.
Qed.

(** The angle as a part of pi. *)
Definition part (x : float) : float := f64div x f64_pi.

Lemma part_ok : forall x, unsigned 53 1024 x -> fleb x f64_pi = true ->
  unsigned 53 1024 (part x) /\ fleb (part x) f64_one = true.
Proof.
  intros x N L. unfold part, f64div, prec64, emax64. rewrite pi_is in *.
  assert (B : bounded 53 1024 7074237752028440 (-51) = true) by reflexivity.
  assert (L1 : fleb (SFdiv 53 1024 x (S754_finite false 7074237752028440 (-51))) f64_one = true).
  { replace f64_one with (SFdiv 53 1024 (S754_finite false 7074237752028440 (-51)) (S754_finite false 7074237752028440 (-51)))
      by (vm_compute; reflexivity).
    apply div_mono; auto; try lia. }
  split; auto.
  destruct (div_range 53 1024 ltac:(lia) x 7074237752028440 (-51) N B) as [R|R]; auto.
  rewrite R, one_is in L1. discriminate.
Qed.

Lemma part_mono : forall x y, unsigned 53 1024 x -> unsigned 53 1024 y -> fleb x y = true ->
  fleb (part x) (part y) = true.
Proof.
  intros x y X Y L. unfold part, f64div, prec64, emax64. rewrite pi_is. apply div_mono; auto; lia.
Qed.
