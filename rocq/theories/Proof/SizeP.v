(** Sizes of sums and products: what bounds the operands bounds the result. *)
From Coq Require Import ZArith Lia List Bool.
From Verif.Base Require Import GoBase Float.
From Verif.Proof Require Import MonoP ExactP.
Import ListNotations.
Open Scope Z_scope.

Section Size.
Variables prec emax : Z.
Hypothesis Hprec : 1 < prec.
Hypothesis Hemax : prec < emax.

Notation lo := (emin prec emax).

(** A number of the format, of either sign, not infinite. *)
Definition signed (x : float) : Prop :=
  match x with
  | S754_zero _ => True
  | S754_finite _ m e => bounded prec emax m e = true
  | _ => False
  end.

Lemma signed_opp : forall x, signed (SFopp x) <-> signed x.
Proof. intros [s|s| |s m e]; cbn; tauto. Qed.
Lemma units_opp : forall x E, units E (SFopp x) = units E x.
Proof. intros [s|s| |s m e] E; reflexivity. Qed.

Lemma rounds_upto : forall E a r z, E <= lo -> 0 <= a -> rounds prec emax 1 E a r -> unsigned prec emax z ->
  a <= units E z -> signed r /\ units E r <= units E z /\ unsigned prec emax r.
Proof.
  intros E a r z HE Ha R Z L. pose proof (rounds_itself prec emax Hprec z E HE Z) as RZ.
  pose proof (rounds_mono prec emax Hprec 1 E a (units E z) r z ltac:(lia) L R RZ) as M.
  destruct (rounds_range prec emax Hprec 1 E a r R) as [U|I].
  - split; [|split; auto].
    + destruct r as [s|s| |[] m e]; cbn in *; auto.
    + apply (fleb_units prec emax Hprec r z E HE U Z); exact M.
  - subst r. destruct z as [s|s| |[] m e]; cbn in Z, M; try contradiction; discriminate.
Qed.

Lemma norm_upto : forall n e s z, lo <= e -> unsigned prec emax z -> Z.abs n * 2 ^ (e - lo) <= units lo z ->
  signed (binary_normalize prec emax n e s) /\ units lo (binary_normalize prec emax n e s) <= units lo z.
Proof.
  intros n e s z He Z L. destruct (Z.ltb_spec n 0) as [N0|N0].
  - assert (Q : binary_normalize prec emax n e s = SFopp (binary_normalize prec emax (- n) e false)).
    { rewrite norm_opp by lia. destruct n as [|p|p]; try lia. cbn [binary_normalize].
      destruct (binary_round prec emax true p e); cbn; rewrite ?negb_involutive; reflexivity. }
    rewrite Q, signed_opp, units_opp.
    destruct (rounds_upto lo (- n * 2 ^ (e - lo)) (binary_normalize prec emax (- n) e false) z (Z.le_refl _)) as (A & B & _); auto.
    + apply Z.mul_nonneg_nonneg; [lia|apply Z.pow_nonneg; lia].
    + apply rounds_normalize; auto; lia.
    + rewrite Z.abs_neq in L by lia. exact L.
  - destruct (rounds_upto lo (n * 2 ^ (e - lo)) (binary_normalize prec emax n e s) z (Z.le_refl _)) as (A & B & _); auto.
    + apply Z.mul_nonneg_nonneg; [lia|apply Z.pow_nonneg; lia].
    + apply rounds_normalize; auto; lia.
    + rewrite Z.abs_eq in L by lia. exact L.
Qed.

Lemma add_upto : forall x y z, signed x -> signed y -> unsigned prec emax z ->
  units lo x + units lo y <= units lo z ->
  signed (SFadd prec emax x y) /\ units lo (SFadd prec emax x y) <= units lo z.
Proof.
  intros x y z X Y Z L.
  destruct x as [s|s| |s m e], y as [s'|s'| |s' m' e']; cbn [signed] in X, Y; try contradiction.
  - cbn. destruct (eqb s s'); cbn; split; auto; apply units_nonneg.
  - cbn [SFadd]. split; [exact Y|cbn [units] in *; lia].
  - cbn [SFadd]. split; [exact X|cbn [units] in *; lia].
  - cbn [SFadd]. destruct (bounded_spec prec emax Hprec m e X) as (_ & B1 & _), (bounded_spec prec emax Hprec m' e' Y) as (_ & B2 & _).
    pose proof (shl_align_spec prec Hprec m e (Z.min e e')) as S1. pose proof (shl_align_spec prec Hprec m' e' (Z.min e e')) as S2.
    destruct (shl_align m e (Z.min e e')) as [p1 q1]. destruct (shl_align m' e' (Z.min e e')) as [p2 q2]. cbn [fst].
    destruct S1 as (E1 & P1 & _), S2 as (E2 & P2 & _).
    assert (E1' : q1 = Z.min e e') by lia. assert (E2' : q2 = Z.min e e') by lia. clear E1 E2. subst q1 q2.
    apply norm_upto; auto; [lia|]. cbn [units] in L.
    assert (Q1 : Zpos p1 * 2 ^ (Z.min e e' - lo) = Zpos m * 2 ^ (e - lo)).
    { rewrite P1, <- Z.mul_assoc, <- Z.pow_add_r by lia. f_equal. f_equal. lia. }
    assert (Q2 : Zpos p2 * 2 ^ (Z.min e e' - lo) = Zpos m' * 2 ^ (e' - lo)).
    { rewrite P2, <- Z.mul_assoc, <- Z.pow_add_r by lia. f_equal. f_equal. lia. }
    assert (0 < 2 ^ (Z.min e e' - lo)) by (apply Z.pow_pos_nonneg; lia).
    assert (A : Z.abs (cond_Zopp s (Zpos p1) + cond_Zopp s' (Zpos p2)) <= Zpos p1 + Zpos p2)
      by (destruct s, s'; cbn [cond_Zopp]; lia).
    apply Z.le_trans with ((Zpos p1 + Zpos p2) * 2 ^ (Z.min e e' - lo)); [apply Z.mul_le_mono_nonneg_r; lia|].
    rewrite Z.mul_add_distr_r. lia.
Qed.

(** A product of two numbers bounded by powers of two. *)
Lemma mul_upto : forall x y z, lo <= 0 -> signed x -> signed y -> unsigned prec emax z ->
  units lo x * units lo y <= units (2 * lo) z ->
  signed (SFmul prec emax x y) /\ units lo (SFmul prec emax x y) <= units lo z.
Proof.
  intros x y z H0 X Y Z L.
  destruct x as [s|s| |s m e], y as [s'|s'| |s' m' e']; cbn [signed] in X, Y; try contradiction;
    try (cbn; split; auto; apply units_nonneg).
  destruct (bounded_spec prec emax Hprec m e X) as (_ & B1 & _), (bounded_spec prec emax Hprec m' e' Y) as (_ & B2 & _).
  assert (R : rounds prec emax 1 (2 * lo) (Zpos m * Zpos m' * 2 ^ (e + e' - 2 * lo))
                (SFmul prec emax (S754_finite false m e) (S754_finite false m' e')))
    by (apply rounds_mul; auto; lia).
  cbn [units] in L.
  assert (Q : Zpos m * 2 ^ (e - lo) * (Zpos m' * 2 ^ (e' - lo)) = Zpos m * Zpos m' * 2 ^ (e + e' - 2 * lo)).
  { replace (e + e' - 2 * lo) with ((e - lo) + (e' - lo)) by lia. rewrite Z.pow_add_r by lia. ring. }
  rewrite Q in L.
  assert (P0 : 0 <= Zpos m * Zpos m' * 2 ^ (e + e' - 2 * lo)) by (apply Z.mul_nonneg_nonneg; [lia|apply Z.pow_nonneg; lia]).
  destruct (rounds_upto (2 * lo) _ _ z ltac:(lia) P0 R Z L) as (A & B & U).
  assert (F : SFmul prec emax (S754_finite s m e) (S754_finite s' m' e') =
              (if xorb s s' then SFopp else (fun r => r)) (SFmul prec emax (S754_finite false m e) (S754_finite false m' e'))).
  { cbn [SFmul xorb]. destruct (xorb s s'); [apply opp_aux|reflexivity]. }
  assert (L' : units lo (SFmul prec emax (S754_finite false m e) (S754_finite false m' e')) <= units lo z).
  { apply (fleb_units prec emax Hprec _ z lo (Z.le_refl _) U Z). apply (fleb_units prec emax Hprec _ z (2 * lo) ltac:(lia) U Z). exact B. }
  rewrite F. destruct (xorb s s'); [rewrite signed_opp, units_opp|]; auto.
Qed.

(** What comes out of rounding is a number or infinite. *)
Lemma aux_number : forall s E a r m e l, rounds prec emax 1 E a r -> r = binary_round_aux prec emax false m e l ->
  is_nan (binary_round_aux prec emax s m e l) = false.
Proof.
  intros s E a r m e l R ->. destruct (rounds_range prec emax Hprec 1 E a _ R) as [U|I]; destruct s; rewrite ?opp_aux.
  - destruct (binary_round_aux prec emax false m e l); cbn in *; auto; contradiction.
  - destruct (binary_round_aux prec emax false m e l); cbn in *; auto; contradiction.
  - rewrite I. reflexivity.
  - rewrite I. reflexivity.
Qed.

Lemma norm_number : forall n e s, is_nan (binary_normalize prec emax n e s) = false.
Proof.
  assert (P : forall p e, is_nan (binary_normalize prec emax (Zpos p) e false) = false).
  { intros p e. pose proof (rounds_normalize prec emax Hprec (Zpos p) e false (Z.min e lo) ltac:(lia) ltac:(lia) ltac:(lia)) as R.
    destruct (rounds_range prec emax Hprec _ _ _ _ R) as [U|I]; [|rewrite I; reflexivity].
    destruct (binary_normalize prec emax (Zpos p) e false); cbn in *; auto; contradiction. }
  intros [|p|p] e s; [reflexivity|exact (P p e)|].
  change (is_nan (binary_normalize prec emax (- Zpos p) e false) = false).
  rewrite norm_opp by lia. specialize (P p e). destruct (binary_normalize prec emax (Zpos p) e false); cbn in *; auto.
Qed.

Lemma div_number : forall s m e s' m' e', bounded prec emax m e = true -> bounded prec emax m' e' = true ->
  is_nan (SFdiv prec emax (S754_finite s m e) (S754_finite s' m' e')) = false.
Proof.
  intros s m e s' m' e' X Y.
  pose proof (rounds_div prec emax Hprec m e m' e' (Z.min lo (e - e')) X Y ltac:(lia) ltac:(lia)) as R.
  cbn [SFdiv xorb] in *. destruct (SFdiv_core_binary prec emax (Zpos m) e (Zpos m') e') as [[q e''] l].
  destruct (rounds_range prec emax Hprec _ _ _ _ R) as [U|I]; destruct (xorb s s'); rewrite ?opp_aux;
    try (rewrite I; reflexivity);
    destruct (binary_round_aux prec emax false q e'' l); cbn in *; auto; contradiction.
Qed.

End Size.
