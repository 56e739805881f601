(** Rounding to nearest, ties to even, never reverses the order of two
    numbers that are not negative. *)
From Verif.Base Require Import GoBase GoLemmas Float.
From Verif.Proof Require Import FloatP RoundP.
From Coq Require Import Lia ZArith.
Open Scope Z_scope.

(** The number [a] in units of [u]: [m] whole units and the rest at [l]. *)
Definition inside (a u m : Z) (l : location) : Prop :=
  m * u <= a < (m + 1) * u /\
  match l with
  | loc_Exact => a = m * u
  | loc_Inexact c => m * u < a /\ (2 * a ?= (2 * m + 1) * u) = c
  end.

Lemma inside_shr_1 : forall a u mrs, 0 < u -> 0 <= shr_m mrs ->
  inside a u (shr_m mrs) (loc_of_shr_record mrs) ->
  inside a (u * 2) (shr_m (shr_1 mrs)) (loc_of_shr_record (shr_1 mrs)).
Proof.
  intros a u [m r s] Hu Hm [[A B] C]. cbn [shr_m] in *.
  assert (K : exists k b, m = 2 * k + Z.b2z b /\ 0 <= k /\
            shr_1 (Build_shr_record m r s) = Build_shr_record k b (r || s)).
  { destruct m as [|p|p]; try lia.
    - exists 0, false. repeat split; auto; lia.
    - destruct p as [p|p|].
      + exists (Zpos p), true. cbn. repeat split; auto; lia.
      + exists (Zpos p), false. cbn. repeat split; auto; lia.
      + exists 0, true. cbn. repeat split; auto; lia. }
  destruct K as (k & b & -> & Hk & ->). cbn [shr_m].
  unfold inside. destruct r, s, b; cbn [loc_of_shr_record orb Z.b2z] in *.
  all: try (match type of C with _ /\ _ => destruct C as [C1 C2] end;
       first [rewrite Z.compare_eq_iff in C2 | rewrite Z.compare_lt_iff in C2 | rewrite Z.compare_gt_iff in C2]).
  all: split; [lia|].
  all: try (split; [lia|]).
  all: first [lia | rewrite Z.compare_eq_iff; lia | rewrite Z.compare_lt_iff; lia | rewrite Z.compare_gt_iff; lia].
Qed.

Lemma inside_iter : forall p a u mrs, 0 < u -> 0 <= shr_m mrs ->
  inside a u (shr_m mrs) (loc_of_shr_record mrs) ->
  let mrs' := SpecFloat.iter_pos shr_1 p mrs in
  inside a (u * 2 ^ Zpos p) (shr_m mrs') (loc_of_shr_record mrs') /\ 0 <= shr_m mrs'.
Proof.
  induction p; intros a u mrs Hu Hm H; cbn [SpecFloat.iter_pos]; cbv zeta.
  - assert (H1 : 0 <= shr_m (shr_1 mrs)) by (rewrite shr_1_m by lia; apply Z.div_pos; lia).
    destruct (IHp a (u * 2) _ ltac:(lia) H1 (inside_shr_1 _ _ _ Hu Hm H)) as [I1 P1].
    assert (0 < 2 ^ Zpos p) by (apply Z.pow_pos_nonneg; lia).
    destruct (IHp a (u * 2 * 2 ^ Zpos p) _ ltac:(nia) P1 I1) as [I2 P2]. split; auto.
    replace (u * 2 ^ Zpos p~1) with (u * 2 * 2 ^ Zpos p * 2 ^ Zpos p); auto.
    replace (Zpos p~1) with (1 + Zpos p + Zpos p) by lia. rewrite !Z.pow_add_r by lia. change (2 ^ 1) with 2. ring.
  - destruct (IHp a u _ Hu Hm H) as [I1 P1].
    assert (0 < 2 ^ Zpos p) by (apply Z.pow_pos_nonneg; lia).
    destruct (IHp a (u * 2 ^ Zpos p) _ ltac:(nia) P1 I1) as [I2 P2]. split; auto.
    replace (u * 2 ^ Zpos p~0) with (u * 2 ^ Zpos p * 2 ^ Zpos p); auto.
    replace (Zpos p~0) with (Zpos p + Zpos p) by lia. rewrite !Z.pow_add_r by lia. ring.
  - split; [|rewrite shr_1_m by lia; apply Z.div_pos; lia].
    change (2 ^ 1) with 2. apply inside_shr_1; auto.
Qed.

Lemma inside_of_loc : forall a u m l, inside a u m l ->
  inside a u (shr_m (shr_record_of_loc m l)) (loc_of_shr_record (shr_record_of_loc m l)).
Proof. intros a u m [|[]] H; exact H. Qed.

Lemma shr_m_of_loc : forall m l, shr_m (shr_record_of_loc m l) = m.
Proof. intros m [|[]]; auto. Qed.

Section Round.
Variables prec emax : Z.
Hypothesis Hprec : 1 < prec.
Hypothesis Hemax : prec < emax.

(** [m] times 2^[e] in the format, the mantissa possibly one too large. *)
Definition in_format (m e : Z) : Prop :=
  0 <= m <= 2 ^ prec /\ emin prec emax <= e /\ (e = emin prec emax \/ 2 ^ (prec - 1) <= m).

(** The number written out. *)
Definition written (m e : Z) : float :=
  match m with
  | Z0 => S754_zero false
  | Zpos p =>
      if (m =? 2 ^ prec)
      then (if (e + 1 <=? emax - prec) then S754_finite false (Z.to_pos (2 ^ (prec - 1))) (e + 1) else S754_infinity false)
      else (if (e <=? emax - prec) then S754_finite false p e else S754_infinity false)
  | Zneg _ => S754_nan
  end.

Lemma round_written : forall a b E m e l, 0 < b -> E <= e -> 0 <= m ->
  e <= fexp prec emax (Zdigits2 m + e) -> inside a (b * 2 ^ (e - E)) m l ->
  exists m1 e1 l1,
    binary_round_aux prec emax false m e l = written (round_nearest_even m1 l1) e1 /\
    inside a (b * 2 ^ (e1 - E)) m1 l1 /\ e <= e1 /\
    0 <= m1 < 2 ^ prec /\ emin prec emax <= e1 /\ (e1 = emin prec emax \/ 2 ^ (prec - 1) <= m1).
Proof.
  intros a b E m e l Hb HE Hm Hf HI.
  set (d := Zdigits2 m) in *. set (e1 := fexp prec emax (d + e)) in *.
  set (mrs := shr_record_of_loc m l).
  assert (U : 0 < b * 2 ^ (e - E)) by (assert (0 < 2 ^ (e - E)) by (apply Z.pow_pos_nonneg; lia); nia).
  assert (S : exists mrs1, shr mrs e (e1 - e) = (mrs1, e1) /\
            inside a (b * 2 ^ (e1 - E)) (shr_m mrs1) (loc_of_shr_record mrs1) /\
            0 <= shr_m mrs1 /\ shr_m mrs1 = m / 2 ^ (e1 - e)).
  { assert (I0 : inside a (b * 2 ^ (e - E)) (shr_m mrs) (loc_of_shr_record mrs)) by (apply inside_of_loc; auto).
    assert (M0 : shr_m mrs = m) by apply shr_m_of_loc.
    destruct (e1 - e) as [|p|p] eqn:D; try lia.
    - exists mrs. cbn [shr]. rewrite M0 in *. replace e1 with e by lia.
      change (2 ^ 0) with 1. rewrite Z.div_1_r. auto.
    - destruct (inside_iter p a (b * 2 ^ (e - E)) mrs U ltac:(lia) I0) as [I1 P1].
      exists (SpecFloat.iter_pos shr_1 p mrs). cbn [shr]. split; [f_equal; lia|].
      split; [|split; auto].
      + replace (e1 - E) with (e - E + Zpos p) by lia. rewrite Z.pow_add_r by lia. rewrite Z.mul_assoc. auto.
      + rewrite <- M0. apply iter_shr_m. lia. }
  destruct S as (mrs1 & S1 & I1 & P1 & D1).
  unfold binary_round_aux, shr_fexp. fold d. fold e1. fold mrs. rewrite S1.
  set (m1 := shr_m mrs1) in *. set (l1 := loc_of_shr_record mrs1) in *.
  assert (Q : 0 < 2 ^ (e1 - e)) by (apply Z.pow_pos_nonneg; lia).
  assert (PP : 2 ^ prec = 2 * 2 ^ (prec - 1)) by (rewrite <- Z.pow_succ_r by lia; f_equal; lia).
  assert (P0 : 0 < 2 ^ (prec - 1)) by (apply Z.pow_pos_nonneg; lia).
  assert (HE1 : emin prec emax <= e1) by (unfold e1, fexp; lia).
  assert (B1 : m1 < 2 ^ prec).
  { rewrite D1. apply Z.div_lt_upper_bound; auto. rewrite <- Z.pow_add_r by lia.
    destruct (Z.eq_dec m 0) as [->|Hn]; [apply Z.pow_pos_nonneg; lia|].
    destruct (zdigits_spec m ltac:(lia)) as [[_ X] _]. fold d in X.
    eapply Z.lt_le_trans; [exact X|]. apply Z.pow_le_mono_r; [lia|]. unfold e1, fexp. lia. }
  assert (L1 : e1 = emin prec emax \/ 2 ^ (prec - 1) <= m1).
  { destruct (Z.eq_dec e1 (emin prec emax)) as [|N]; [auto|right].
    assert (Ee : e1 = d + e - prec) by (unfold e1, fexp in *; lia).
    destruct (Z.eq_dec m 0) as [Hz|Hn].
    - exfalso. assert (d = 0) by (unfold d; rewrite Hz; reflexivity). lia.
    - destruct (zdigits_spec m ltac:(lia)) as [[X _] _]. fold d in X.
      rewrite D1. apply Z.div_le_lower_bound; auto. rewrite <- Z.pow_add_r by lia.
      replace (e1 - e + (prec - 1)) with (d - 1) by lia. auto. }
  exists m1, e1, l1. split; [|split; [exact I1|]; lia].
  set (R := round_nearest_even m1 l1).
  assert (HR : 0 <= R <= 2 ^ prec) by (unfold R; destruct (rne_cases m1 l1) as [-> | ->]; lia).
  unfold written. destruct (Z.eq_dec R (2 ^ prec)) as [Hc|Hc].
  - assert (DR : Zdigits2 R = prec + 1).
    { destruct (zdigits_spec R ltac:(lia)) as [[X Y] Z].
      assert (~ Zdigits2 R - 1 > prec).
      { intro. assert (2 ^ prec < 2 ^ (Zdigits2 R - 1)) by (apply Z.pow_lt_mono_r; lia). lia. }
      assert (~ Zdigits2 R <= prec).
      { intro. assert (2 ^ Zdigits2 R <= 2 ^ prec) by (apply Z.pow_le_mono_r; lia). lia. }
      lia. }
    rewrite DR. replace (fexp prec emax (prec + 1 + e1) - e1) with 1 by (unfold fexp; lia).
    cbn [shr SpecFloat.iter_pos shr_record_of_loc].
    assert (SM : shr_m (shr_1 (Build_shr_record R false false)) = 2 ^ (prec - 1)).
    { rewrite shr_1_m by (cbn; lia). cbn [shr_m]. rewrite Hc, PP, Z.mul_comm. apply Z.div_mul. lia. }
    rewrite SM. rewrite Hc. rewrite Z.eqb_refl.
    destruct (2 ^ prec) eqn:W; try lia. destruct (2 ^ (prec - 1)) eqn:V; try lia. reflexivity.
  - assert (DR : Zdigits2 R <= prec).
    { destruct (Z.eq_dec R 0) as [->|Hn]; [cbn; lia|].
      destruct (zdigits_spec R ltac:(lia)) as [[X Y] Z].
      destruct (Z.le_gt_cases (Zdigits2 R) prec); auto.
      assert (2 ^ prec <= 2 ^ (Zdigits2 R - 1)) by (apply Z.pow_le_mono_r; lia). lia. }
    rewrite shr_zero by (unfold fexp; lia). cbn [shr_record_of_loc shr_m].
    destruct (Z.eqb_spec R (2 ^ prec)); [contradiction|].
    destruct R; auto.
Qed.

(** The order of two rounded numbers. *)
Lemma rounded_order : forall b E a a' m e l m' e' l', 0 < b -> a <= a' -> E <= e -> E <= e' ->
  inside a (b * 2 ^ (e - E)) m l -> inside a' (b * 2 ^ (e' - E)) m' l' ->
  0 <= m < 2 ^ prec -> 0 <= m' < 2 ^ prec ->
  emin prec emax <= e -> emin prec emax <= e' ->
  (e = emin prec emax \/ 2 ^ (prec - 1) <= m) -> (e' = emin prec emax \/ 2 ^ (prec - 1) <= m') ->
  e < e' \/ (e = e' /\ round_nearest_even m l <= round_nearest_even m' l').
Proof.
  intros b E a a' m e l m' e' l' Hb Ha HE HE' [[A1 A2] A3] [[B1 B2] B3] Hm Hm' F F' G G'.
  destruct (Z.lt_trichotomy e e') as [L|[L|L]]; auto.
  - right. split; auto. subst e'.
    assert (U : 0 < b * 2 ^ (e - E)) by (assert (0 < 2 ^ (e - E)) by (apply Z.pow_pos_nonneg; lia); nia).
    set (u := b * 2 ^ (e - E)) in *.
    assert (m <= m') by nia.
    destruct (Z.eq_dec m m') as [<-|N].
    + unfold round_nearest_even.
      destruct l as [|c], l' as [|c'].
      * lia.
      * destruct c'; try destruct (Z.even m); lia.
      * destruct A3 as [A3 A4]. lia.
      * destruct A3 as [A3 A4], B3 as [B3 B4].
        destruct c, c'; try (destruct (Z.even m)); try lia;
          rewrite ?Z.compare_eq_iff, ?Z.compare_lt_iff, ?Z.compare_gt_iff in *; lia.
    + destruct (rne_cases m l), (rne_cases m' l'); lia.
  - exfalso. destruct G as [G|G]; [lia|].
    assert (PP : 2 ^ prec = 2 * 2 ^ (prec - 1)) by (rewrite <- Z.pow_succ_r by lia; f_equal; lia).
    assert (P0 : 0 < 2 ^ (prec - 1)) by (apply Z.pow_pos_nonneg; lia).
    replace (e - E) with ((e - e' - 1) + 1 + (e' - E)) in A1 by lia.
    rewrite !Z.pow_add_r in A1 by lia. change (2 ^ 1) with 2 in A1.
    assert (X1 : 0 < 2 ^ (e' - E)) by (apply Z.pow_pos_nonneg; lia).
    assert (X2 : 1 <= 2 ^ (e - e' - 1)) by (apply (Z.pow_le_mono_r 2 0); lia).
    set (x := 2 ^ (e' - E)) in *. set (y := 2 ^ (e - e' - 1)) in *.
    assert (2 ^ (prec - 1) * (b * (y * 2 * x)) <= a) by nia.
    assert (a' < 2 ^ prec * (b * x)) by nia.
    assert (2 ^ (prec - 1) * (b * x) * 2 <= 2 ^ (prec - 1) * (b * x) * 2 * y) by nia.
    nia.
Qed.

Lemma written_order : forall m e m' e',
  in_format m e -> in_format m' e' -> e < e' \/ (e = e' /\ m <= m') ->
  fleb (written m e) (written m' e') = true.
Proof.
  intros m e m' e' (A & B & C) (A' & B' & C') H.
  assert (PP : 2 ^ prec = 2 * 2 ^ (prec - 1)) by (rewrite <- Z.pow_succ_r by lia; f_equal; lia).
  assert (P0 : 0 < 2 ^ (prec - 1)) by (apply Z.pow_pos_nonneg; lia).
  unfold written. destruct m as [|p|p]; try lia.
  - destruct m' as [|p'|p']; try lia; [reflexivity|].
    destruct (Zpos p' =? 2 ^ prec), (e' + 1 <=? emax - prec), (e' <=? emax - prec); reflexivity.
  - destruct m' as [|p'|p']; try lia.
    destruct (Z.eqb_spec (Zpos p) (2 ^ prec)) as [K|K], (Z.eqb_spec (Zpos p') (2 ^ prec)) as [K'|K'];
    repeat match goal with |- context [?x <=? ?y] => destruct (Z.leb_spec x y) end; try lia; try reflexivity.
    all: unfold fleb, SFleb, SFcompare.
    all: match goal with |- context [?x ?= ?y] => destruct (Z.compare_spec x y) end; try lia; try reflexivity.
    all: change (Pos.compare_cont Eq) with Pos.compare.
    all: match goal with |- context [(?x ?= ?y)%positive] => destruct (Pos.compare_spec x y) end; try reflexivity; try lia.
Qed.

Lemma rounded_format : forall m e l, 0 <= m < 2 ^ prec -> emin prec emax <= e ->
  (e = emin prec emax \/ 2 ^ (prec - 1) <= m) -> in_format (round_nearest_even m l) e.
Proof. intros m e l A B C. unfold in_format. destruct (rne_cases m l) as [-> | ->]; lia. Qed.

(** Rounding never reverses the order. *)
Lemma round_mono : forall b E a a' m e l m' e' l', 0 < b -> a <= a' -> E <= e -> E <= e' -> 0 <= m -> 0 <= m' ->
  e <= fexp prec emax (Zdigits2 m + e) -> e' <= fexp prec emax (Zdigits2 m' + e') ->
  inside a (b * 2 ^ (e - E)) m l -> inside a' (b * 2 ^ (e' - E)) m' l' ->
  fleb (binary_round_aux prec emax false m e l) (binary_round_aux prec emax false m' e' l') = true.
Proof.
  intros b E a a' m e l m' e' l' Hb Ha HE HE' Hm Hm' F F' I I'.
  destruct (round_written a b E m e l Hb HE Hm F I) as (m1 & e1 & l1 & -> & I1 & X1 & X2 & X3 & X4).
  destruct (round_written a' b E m' e' l' Hb HE' Hm' F' I') as (m2 & e2 & l2 & -> & I2 & Y1 & Y2 & Y3 & Y4).
  apply written_order; try (apply rounded_format; auto).
  apply (rounded_order b E a a'); auto; lia.
Qed.

(** [r] is the number a / b * 2^E, which is not negative, rounded. *)
Definition rounds (b E a : Z) (r : float) : Prop :=
  exists m e l, E <= e /\ inside a (b * 2 ^ (e - E)) m l /\
    0 <= m < 2 ^ prec /\ emin prec emax <= e /\ (e = emin prec emax \/ 2 ^ (prec - 1) <= m) /\
    (r = written (round_nearest_even m l) e \/
     (round_nearest_even m l = 0 /\ exists s, r = S754_zero s)).

Lemma fleb_zero_l : forall s x y, fleb (S754_zero s) x = fleb (S754_zero y) x.
Proof. intros s x y. destruct x; reflexivity. Qed.
Lemma fleb_zero_r : forall s x y, fleb x (S754_zero s) = fleb x (S754_zero y).
Proof. intros s x y. destruct x; reflexivity. Qed.

Lemma rounds_mono : forall b E a a' r r', 0 < b -> a <= a' ->
  rounds b E a r -> rounds b E a' r' -> fleb r r' = true.
Proof.
  intros b E a a' r r' Hb Ha (m & e & l & HE & I & M & X & Y & R) (m' & e' & l' & HE' & I' & M' & X' & Y' & R').
  assert (G : fleb (written (round_nearest_even m l) e) (written (round_nearest_even m' l') e') = true).
  { apply written_order; try (apply rounded_format; auto). apply (rounded_order b E a a'); auto; lia. }
  assert (exists s, written 0 e = S754_zero s) as [s W] by (eexists; reflexivity).
  assert (exists s, written 0 e' = S754_zero s) as [s' W'] by (eexists; reflexivity).
  destruct R as [-> | [Z [z ->]]], R' as [-> | [Z' [z' ->]]]; auto.
  - rewrite Z', W' in G. rewrite (fleb_zero_r _ _ s'). exact G.
  - rewrite Z, W in G. rewrite (fleb_zero_l _ _ s). exact G.
Qed.

Lemma rounds_aux : forall a b E m e l, 0 < b -> E <= e -> 0 <= m ->
  e <= fexp prec emax (Zdigits2 m + e) -> inside a (b * 2 ^ (e - E)) m l ->
  rounds b E a (binary_round_aux prec emax false m e l).
Proof.
  intros a b E m e l Hb HE Hm Hf HI.
  destruct (round_written a b E m e l Hb HE Hm Hf HI) as (m1 & e1 & l1 & -> & I1 & X1 & X2 & X3 & X4).
  exists m1, e1, l1. split; [lia|]. repeat (split; [assumption|]). auto.
Qed.

Lemma rounds_zero : forall b E s, 0 < b -> E <= emin prec emax -> rounds b E 0 (S754_zero s).
Proof.
  intros b E s Hb HE. exists 0, (emin prec emax), loc_Exact. split; [lia|].
  assert (0 < 2 ^ (emin prec emax - E)) by (apply Z.pow_pos_nonneg; lia).
  assert (0 < 2 ^ prec) by (apply Z.pow_pos_nonneg; lia).
  split; [split; [nia|lia]|]. split; [lia|]. split; [lia|]. split; [lia|].
  right. split; [reflexivity|]. eauto.
Qed.

Lemma digits_shift : forall p q, Zdigits2 (Zpos (shift_pos q p)) = Zdigits2 (Zpos p) + Zpos q.
Proof.
  intros p q.
  assert (E : Zpos (shift_pos q p) = Zpos p * 2 ^ Zpos q)
    by (rewrite shift_pos_correct, Z.mul_comm; reflexivity).
  destruct (zdigits_spec (Zpos p) ltac:(lia)) as [[A B] C].
  destruct (zdigits_spec (Zpos (shift_pos q p)) ltac:(lia)) as [[A' B'] C'].
  rewrite E in A' at 2. rewrite E in B' at 1.
  set (d := Zdigits2 (Zpos p)) in *. set (d' := Zdigits2 (Zpos (shift_pos q p))) in *.
  assert (0 < 2 ^ Zpos q) by (apply Z.pow_pos_nonneg; lia).
  assert (2 ^ (d - 1 + Zpos q) < 2 ^ d').
  { rewrite Z.pow_add_r by lia. nia. }
  assert (2 ^ (d' - 1) < 2 ^ (d + Zpos q)).
  { rewrite Z.pow_add_r by lia. nia. }
  apply Z.pow_lt_mono_r_iff in H0; try lia. apply Z.pow_lt_mono_r_iff in H1; lia.
Qed.

Lemma shl_align_spec : forall p e f, let '(p', e') := shl_align p e f in
  e' = Z.min e f /\ Zpos p' = Zpos p * 2 ^ (e - e') /\ Zdigits2 (Zpos p') + e' = Zdigits2 (Zpos p) + e.
Proof.
  intros p e f. unfold shl_align. destruct (f - e) as [|q|q] eqn:D.
  - replace (e - e) with 0 by lia. change (2 ^ 0) with 1. lia.
  - replace (e - e) with 0 by lia. change (2 ^ 0) with 1. lia.
  - rewrite digits_shift. replace (e - f) with (Zpos q) by lia.
    split; [lia|]. split; [|lia]. rewrite shift_pos_correct, Z.mul_comm. reflexivity.
Qed.

Lemma pow_split : forall a b c, c <= b <= a -> 2 ^ (a - c) = 2 ^ (a - b) * 2 ^ (b - c).
Proof. intros a b c H. rewrite <- Z.pow_add_r by lia. f_equal. lia. Qed.

Lemma rounds_normalize : forall n e s E, 0 <= n -> E <= e -> E <= emin prec emax ->
  rounds 1 E (n * 2 ^ (e - E)) (binary_normalize prec emax n e s).
Proof.
  intros n e s E Hn HE HM. destruct n as [|p|p]; try lia; cbn [binary_normalize].
  - apply rounds_zero; lia.
  - unfold binary_round.
    pose proof (shl_align_spec p e (fexp prec emax (Zpos (digits2_pos p) + e))) as K.
    destruct (shl_align p e (fexp prec emax (Zpos (digits2_pos p) + e))) as [p' e'].
    destruct K as (Ee & Ep & Ed). cbn [Zdigits2] in Ed.
    assert (emin prec emax <= fexp prec emax (Zpos (digits2_pos p) + e)) by (unfold fexp; lia).
    apply rounds_aux; try lia.
    + cbn [Zdigits2]. rewrite Ed. lia.
    + rewrite Z.mul_1_l. rewrite Ep, (pow_split e e' E) by lia.
      assert (0 < 2 ^ (e' - E)) by (apply Z.pow_pos_nonneg; lia).
      split; [nia|]. ring.
Qed.

Lemma bounded_spec : forall m e, bounded prec emax m e = true ->
  Zpos m < 2 ^ prec /\ emin prec emax <= e <= emax - prec /\ (e = emin prec emax \/ 2 ^ (prec - 1) <= Zpos m) /\
  fexp prec emax (Zdigits2 (Zpos m) + e) = e.
Proof.
  intros m e H. unfold bounded in H. apply andb_prop in H as [H1 H2].
  unfold canonical_mantissa in H1. apply Zeq_bool_eq in H1. apply Z.leb_le in H2.
  destruct (digits_pos m) as [A B].
  change (Zpos (digits2_pos m)) with (Zdigits2 (Zpos m)) in *. set (d := Zdigits2 (Zpos m)) in *.
  split; [|split; [|split; auto]].
  - eapply Z.lt_le_trans; [exact B|]. apply Z.pow_le_mono_r; [lia|]. unfold fexp in H1. lia.
  - split; auto. unfold fexp in H1. lia.
  - unfold fexp in H1. assert (e = emin prec emax \/ d = prec) as [|E] by lia; [auto|].
    right. rewrite <- E. auto.
Qed.

Lemma normalize_id : forall m e s, bounded prec emax m e = true ->
  binary_normalize prec emax (Zpos m) e s = S754_finite false m e.
Proof.
  intros m e s H. destruct (bounded_spec m e H) as (A & B & C & D). cbn [binary_normalize].
  unfold binary_round. cbn [Zdigits2] in D. rewrite D. unfold shl_align. rewrite Z.sub_diag.
  unfold binary_round_aux, shr_fexp. cbn [Zdigits2]. rewrite D, Z.sub_diag.
  cbn [shr shr_record_of_loc shr_m loc_of_shr_record round_nearest_even Zdigits2].
  rewrite D, Z.sub_diag. cbn [shr shr_m].
  destruct (Zle_bool e (emax - prec)) eqn:L; auto. apply Z.leb_gt in L. lia.
Qed.

(** A number of the format that is not negative and finite, and its value in
    units of 2^E. *)
Definition unsigned (x : float) : Prop :=
  match x with
  | S754_zero _ => True
  | S754_finite false m e => bounded prec emax m e = true
  | _ => False
  end.
Definition units (E : Z) (x : float) : Z :=
  match x with S754_finite _ m e => Zpos m * 2 ^ (e - E) | _ => 0 end.

Lemma rounds_itself : forall x E, E <= emin prec emax -> unsigned x -> rounds 1 E (units E x) x.
Proof.
  intros x E HE H. destruct x as [s|s| |[] m e]; cbn [unsigned units] in *; try contradiction.
  - apply rounds_zero; lia.
  - destruct (bounded_spec m e H) as (A & B & C & D).
    rewrite <- (normalize_id m e false H). apply rounds_normalize; lia.
Qed.

Lemma units_nonneg : forall x E, 0 <= units E x.
Proof. intros [] E; cbn [units]; try lia. Qed.

(** The order of two numbers is that of their values. *)
Lemma fleb_units : forall x y E, E <= emin prec emax -> unsigned x -> unsigned y ->
  (fleb x y = true <-> units E x <= units E y).
Proof.
  intros x y E HE X Y. split.
  - intro H. destruct x as [s|s| |[] m e], y as [s'|s'| |[] m' e']; cbn [unsigned units] in *; try contradiction; try lia.
    + discriminate.
    + destruct (bounded_spec m e X) as (A & B & C & D), (bounded_spec m' e' Y) as (A' & B' & C' & D').
      unfold fleb, SFleb, SFcompare in H.
      assert (P0 : 0 < 2 ^ (e - E)) by (apply Z.pow_pos_nonneg; lia).
      destruct (Z.compare_spec e e') as [->|L|L]; [| |discriminate].
      * change (Pcompare m m' Eq) with (m ?= m')%positive in H.
        destruct (Pos.compare_spec m m'); try discriminate; subst; nia.
      * assert (Q : 2 ^ (e' - E) = 2 ^ (e' - e - 1) * 2 * 2 ^ (e - E)).
        { change 2 with (2 ^ 1) at 3. rewrite <- !Z.pow_add_r by lia. f_equal. lia. }
        assert (1 <= 2 ^ (e' - e - 1)) by (apply (Z.pow_le_mono_r 2 0); lia).
        assert (PP : 2 ^ prec = 2 * 2 ^ (prec - 1)) by (rewrite <- Z.pow_succ_r by lia; f_equal; lia).
        destruct C' as [C'|C']; [lia|].
        set (y := 2 ^ (e' - e - 1)) in *. set (z := 2 ^ (e - E)) in *. set (w := 2 ^ (prec - 1)) in *.
        rewrite Q. assert (Zpos m <= 2 * Zpos m') by lia. assert (Zpos m * z <= 2 * Zpos m' * z) by nia.
        assert (2 * Zpos m' * z <= 2 * Zpos m' * z * y) by nia. lia.
  - intro H. apply (rounds_mono 1 E (units E x) (units E y)); [lia|auto| |];
      apply rounds_itself; auto.
Qed.

(** What is rounded is again a number of the format, if it is finite. *)
Definition in_range (x : float) : Prop := unsigned x \/ x = S754_infinity false.

Lemma written_range : forall m e, in_format m e -> in_range (written m e).
Proof.
  intros m e (A & B & C). unfold written, in_range.
  assert (PP : 2 ^ prec = 2 * 2 ^ (prec - 1)) by (rewrite <- Z.pow_succ_r by lia; f_equal; lia).
  assert (P0 : 0 < 2 ^ (prec - 1)) by (apply Z.pow_pos_nonneg; lia).
  assert (K : forall p e, Zpos p < 2 ^ prec -> emin prec emax <= e -> e <= emax - prec ->
            (e = emin prec emax \/ 2 ^ (prec - 1) <= Zpos p) -> bounded prec emax p e = true).
  { clear. intros p e A B C D. unfold bounded. apply andb_true_intro. split; [|apply Z.leb_le; lia].
    unfold canonical_mantissa. apply Zeq_is_eq_bool.
    change (Zpos (digits2_pos p)) with (Zdigits2 (Zpos p)).
    destruct (zdigits_spec (Zpos p) ltac:(lia)) as [[X Y] Z].
    assert (Zdigits2 (Zpos p) <= prec).
    { destruct (Z.le_gt_cases (Zdigits2 (Zpos p)) prec); auto.
      assert (2 ^ prec <= 2 ^ (Zdigits2 (Zpos p) - 1)) by (apply Z.pow_le_mono_r; lia). lia. }
    unfold fexp. destruct D as [D|D]; [lia|].
    assert (prec - 1 < Zdigits2 (Zpos p)).
    { apply (Z.pow_lt_mono_r_iff 2); lia. }
    lia. }
  destruct m as [|p|p]; try lia; [left; exact I|].
  destruct (Z.eqb_spec (Zpos p) (2 ^ prec)).
  - destruct (Z.leb_spec (e + 1) (emax - prec)); auto. left. cbn [unsigned]. apply K; try lia;
      rewrite Z2Pos.id by lia; lia.
  - destruct (Z.leb_spec e (emax - prec)); auto. left. cbn [unsigned]. apply K; auto; lia.
Qed.

Lemma rounds_range : forall b E a r, rounds b E a r -> in_range r.
Proof.
  intros b E a r (m & e & l & HE & I0 & M & X & Y & [-> | [_ [s ->]]]).
  - apply written_range, rounded_format; auto.
  - left. exact I.
Qed.

(** The operations. *)
Lemma rounds_add : forall x y E, E <= emin prec emax -> unsigned x -> unsigned y ->
  rounds 1 E (units E x + units E y) (SFadd prec emax x y).
Proof.
  intros x y E HE X Y.
  destruct x as [s|s| |[] m e], y as [s'|s'| |[] m' e']; cbn [unsigned] in X, Y; try contradiction; cbn [SFadd].
  - cbn [units]. destruct (Bool.eqb s s'); apply rounds_zero; lia.
  - change (units E (S754_zero s)) with 0. rewrite Z.add_0_l. apply rounds_itself; auto.
  - change (units E (S754_zero s')) with 0. rewrite Z.add_0_r. apply rounds_itself; auto.
  - destruct (bounded_spec m e X) as (A & B & C & D), (bounded_spec m' e' Y) as (A' & B' & C' & D').
    cbn [cond_Zopp units].
    pose proof (shl_align_spec m e (Z.min e e')) as K. destruct (shl_align m e (Z.min e e')) as [p z].
    pose proof (shl_align_spec m' e' (Z.min e e')) as K'. destruct (shl_align m' e' (Z.min e e')) as [p' z'].
    cbn [fst]. destruct K as (Ez & Ep & _), K' as (Ez' & Ep' & _).
    replace (Zpos m * 2 ^ (e - E) + Zpos m' * 2 ^ (e' - E)) with ((Zpos p + Zpos p') * 2 ^ (Z.min e e' - E)).
    + apply rounds_normalize; lia.
    + replace z with (Z.min e e') in * by lia. replace z' with (Z.min e e') in * by lia.
      rewrite Ep, Ep', (pow_split e (Z.min e e') E), (pow_split e' (Z.min e e') E) by lia. ring.
Qed.

Lemma rounds_sub : forall x y E, E <= emin prec emax -> unsigned x -> unsigned y -> units E y <= units E x ->
  (forall s, x <> S754_zero s) ->
  rounds 1 E (units E x - units E y) (SFsub prec emax x y).
Proof.
  intros x y E HE X Y L N.
  destruct x as [s|s| |[] m e], y as [s'|s'| |[] m' e']; cbn [unsigned] in X, Y; try contradiction; cbn [SFsub].
  - exfalso. apply (N s). reflexivity.
  - exfalso. apply (N s). reflexivity.
  - change (units E (S754_zero s')) with 0. rewrite Z.sub_0_r. apply rounds_itself; auto.
  - destruct (bounded_spec m e X) as (A & B & C & D), (bounded_spec m' e' Y) as (A' & B' & C' & D').
    cbn [cond_Zopp units] in *.
    pose proof (shl_align_spec m e (Z.min e e')) as K. destruct (shl_align m e (Z.min e e')) as [p z].
    pose proof (shl_align_spec m' e' (Z.min e e')) as K'. destruct (shl_align m' e' (Z.min e e')) as [p' z'].
    cbn [fst]. destruct K as (Ez & Ep & _), K' as (Ez' & Ep' & _).
    assert (Q : Zpos m * 2 ^ (e - E) - Zpos m' * 2 ^ (e' - E) = (Zpos p - Zpos p') * 2 ^ (Z.min e e' - E)).
    { replace z with (Z.min e e') in * by lia. replace z' with (Z.min e e') in * by lia.
      rewrite Ep, Ep', (pow_split e (Z.min e e') E), (pow_split e' (Z.min e e') E) by lia. ring. }
    rewrite Q. apply rounds_normalize; try lia.
    assert (P : 0 < 2 ^ (Z.min e e' - E)) by (apply Z.pow_pos_nonneg; lia).
    apply (Z.mul_nonneg_cancel_r _ _ P). rewrite <- Q. lia.
Qed.

Lemma rounds_mul : forall m e m' e' E, bounded prec emax m e = true -> bounded prec emax m' e' = true ->
  E <= emin prec emax -> E <= e + e' ->
  rounds 1 E (Zpos m * Zpos m' * 2 ^ (e + e' - E))
    (SFmul prec emax (S754_finite false m e) (S754_finite false m' e')).
Proof.
  intros m e m' e' E X Y HE HE2.
  destruct (bounded_spec m e X) as (A & B & C & D), (bounded_spec m' e' Y) as (A' & B' & C' & D').
  cbn [SFmul xorb]. apply rounds_aux; try lia.
  - destruct (zdigits_spec (Zpos m) ltac:(lia)) as [[F1 F2] F3].
    destruct (zdigits_spec (Zpos m') ltac:(lia)) as [[G1 G2] G3].
    destruct (zdigits_spec (Zpos (m * m')) ltac:(lia)) as [[H1 H2] H3].
    set (d := Zdigits2 (Zpos m)) in *. set (d' := Zdigits2 (Zpos m')) in *. set (dd := Zdigits2 (Zpos (m * m'))) in *.
    assert (2 ^ (d - 1 + (d' - 1)) < 2 ^ dd).
    { rewrite Z.pow_add_r by lia. rewrite Pos2Z.inj_mul in H2.
      assert (0 < 2 ^ (d - 1)) by (apply Z.pow_pos_nonneg; lia).
      assert (0 < 2 ^ (d' - 1)) by (apply Z.pow_pos_nonneg; lia).
      eapply Z.le_lt_trans; [apply Z.mul_le_mono_nonneg; [lia|exact F1|lia|exact G1]|]. exact H2. }
    apply Z.pow_lt_mono_r_iff in H; try lia.
    unfold fexp, emin in *. lia.
  - rewrite Z.mul_1_l, Pos2Z.inj_mul.
    assert (0 < 2 ^ (e + e' - E)) by (apply Z.pow_pos_nonneg; lia).
    split; [nia|]. reflexivity.
Qed.

Lemma new_location_inside : forall n r q k K, 0 < n -> 0 <= r < n -> 0 < K -> k = q * n + r ->
  inside (k * K) (n * K) q (new_location n r).
Proof.
  intros n r q k K Hn Hr HK ->. assert (HnK : 0 < n * K) by nia.
  assert (W : q * (n * K) <= (q * n + r) * K < (q + 1) * (n * K)) by nia.
  split; auto. unfold new_location, new_location_even, new_location_odd.
  assert (Ev : forall c, Z.even n = false -> (2 * r + 1 ?= n) = c -> (2 * r <> n)).
  { intros c He _ E. rewrite <- E, Z.even_mul in He. discriminate. }
  destruct (Z.even n) eqn:He; destruct (Zeq_bool r 0) eqn:Z.
  - apply Zeq_bool_eq in Z. subst r. lia.
  - apply Zeq_bool_neq in Z. split; [nia|].
    destruct (Z.compare_spec (2 * r) n) as [E|E|E].
    + apply Z.compare_eq_iff. nia.
    + apply Z.compare_lt_iff. nia.
    + apply Z.compare_gt_iff. nia.
  - apply Zeq_bool_eq in Z. subst r. lia.
  - apply Zeq_bool_neq in Z. split; [nia|]. specialize (Ev _ eq_refl eq_refl).
    destruct (Z.compare_spec (2 * r + 1) n) as [E|E|E].
    + apply Z.compare_lt_iff. nia.
    + apply Z.compare_lt_iff. nia.
    + apply Z.compare_gt_iff. assert (n < 2 * r) by lia. nia.
Qed.

Lemma rounds_div : forall m e m' e' E, bounded prec emax m e = true -> bounded prec emax m' e' = true ->
  E <= emin prec emax -> E <= e - e' ->
  rounds (Zpos m') E (Zpos m * 2 ^ (e - e' - E))
    (SFdiv prec emax (S754_finite false m e) (S754_finite false m' e')).
Proof.
  intros m e m' e' E X Y HE HE2. unfold SFdiv, SFdiv_core_binary.
  set (d := Zdigits2 (Zpos m)). set (d' := Zdigits2 (Zpos m')).
  set (z := Z.min (fexp prec emax (d + e - (d' + e'))) (e - e')).
  assert (emin prec emax <= fexp prec emax (d + e - (d' + e'))) by (unfold fexp; lia).
  assert (HM : match e - e' - z with Z0 => Zpos m | Zpos _ => Z.shiftl (Zpos m) (e - e' - z) | Zneg _ => 0 end
               = Zpos m * 2 ^ (e - e' - z)).
  { destruct (e - e' - z) eqn:S; try lia. rewrite Z.shiftl_mul_pow2 by lia. reflexivity. }
  rewrite HM. set (M := Zpos m * 2 ^ (e - e' - z)).
  pose proof (Z_div_mod M (Zpos m') ltac:(lia)) as DM.
  destruct (Z.div_eucl M (Zpos m')) as [q r]. destruct DM as [D1 D2].
  assert (PZ : 0 < 2 ^ (e - e' - z)) by (apply Z.pow_pos_nonneg; lia).
  assert (Hq : 0 <= q) by (unfold M in D1; nia).
  cbn [xorb]. apply rounds_aux; try lia.
  - destruct (zdigits_spec (Zpos m) ltac:(lia)) as [[F1 F2] F3].
    destruct (zdigits_spec (Zpos m') ltac:(lia)) as [[G1 G2] G3]. fold d in F1, F2, F3. fold d' in G1, G2, G3.
    assert (d + e - (d' + e') <= Zdigits2 q + z).
    { destruct (Z.eq_dec q 0) as [->|Hn].
      - cbn [Zdigits2]. destruct (Z.le_gt_cases (d + e - (d' + e')) z); [lia|exfalso].
        assert (2 ^ d' <= M); [|lia]. unfold M.
        assert (2 ^ d' <= 2 ^ (d - 1) * 2 ^ (e - e' - z)); [|nia].
        rewrite <- Z.pow_add_r by lia. apply Z.pow_le_mono_r; lia.
      - destruct (zdigits_spec q ltac:(lia)) as [[H1 H2] H3].
        set (dq := Zdigits2 q) in *.
        assert (2 ^ (d - 1 + (e - e' - z)) < 2 ^ (dq + d')).
        { rewrite !Z.pow_add_r by lia. unfold M in D1.
          assert (0 < 2 ^ d') by (apply Z.pow_pos_nonneg; lia).
          assert (q + 1 <= 2 ^ dq) by lia.
          assert (Zpos m * 2 ^ (e - e' - z) < (q + 1) * Zpos m') by nia.
          assert ((q + 1) * Zpos m' <= 2 ^ dq * 2 ^ d') by nia. nia. }
        apply Z.pow_lt_mono_r_iff in H0; lia. }
    unfold fexp in *. lia.
  - replace (Zpos m * 2 ^ (e - e' - E)) with (M * 2 ^ (z - E)).
    + apply new_location_inside; lia.
    + unfold M. rewrite (pow_split (e - e') z E) by lia. ring.
Qed.

(** The square root; the exact root between [f] and [f + 1] is put half way. *)
Definition root2 (A : Z) : Z := 2 * Z.sqrt A + (if Z.sqrt A * Z.sqrt A =? A then 0 else 1).

Lemma root2_mono : forall A B, 0 <= A <= B -> root2 A <= root2 B.
Proof.
  intros A B H. unfold root2. pose proof (Z.sqrt_le_mono A B ltac:(lia)).
  destruct (Z.eqb_spec (Z.sqrt A * Z.sqrt A) A) as [P|P], (Z.eqb_spec (Z.sqrt B * Z.sqrt B) B) as [Q|Q]; try lia.
  destruct (Z.eq_dec (Z.sqrt A) (Z.sqrt B)) as [E|E]; [|lia].
  exfalso. pose proof (Z.sqrt_spec A ltac:(lia)) as [R _]. rewrite <- E in Q. lia.
Qed.

Lemma sqrt_inside : forall A q r h K, A = q * q + r -> 0 <= r <= 2 * q -> 0 <= q -> K = 2 * h -> 0 < h ->
  inside (root2 (A * (K * K))) (2 * K) q
    (if Zeq_bool r 0 then loc_Exact else loc_Inexact (if Zle_bool r q then Lt else Gt)).
Proof.
  intros A q r h K S1 S2 Hq HK Hh.
  assert (HH : 0 < h * h) by (apply Z.mul_pos_pos; auto).
  assert (HB : 0 <= A * (K * K)) by (apply Z.mul_nonneg_nonneg; [nia|apply Z.square_nonneg]).
  assert (EB : A * (K * K) = 4 * A * (h * h)) by (rewrite HK; ring).
  assert (HqK : 0 <= q * K) by nia.
  unfold root2. set (B := A * (K * K)) in *.
  assert (Q1 : q * K <= Z.sqrt B).
  { apply Z.sqrt_le_square; auto. rewrite EB, HK. replace (q * (2 * h) * (q * (2 * h))) with (4 * (q * q) * (h * h)) by ring.
    apply Z.mul_le_mono_nonneg_r; lia. }
  assert (Q2 : Z.sqrt B < (q + 1) * K).
  { apply Z.sqrt_lt_square; auto; [nia|]. rewrite EB, HK.
    replace ((q + 1) * (2 * h) * ((q + 1) * (2 * h))) with (4 * (q * q + 2 * q + 1) * (h * h)) by ring.
    apply Z.mul_lt_mono_pos_r; lia. }
  destruct (Zeq_bool r 0) eqn:Rz.
  - apply Zeq_bool_eq in Rz. subst r.
    assert (Ef : Z.sqrt B = q * K).
    { rewrite <- (Z.sqrt_square (q * K)) by auto. f_equal. rewrite EB, HK, S1. ring. }
    rewrite Ef.
    assert ((q * K * (q * K) =? B) = true) as -> by (apply Z.eqb_eq; rewrite EB, HK, S1; ring).
    split; [clear - HK Hh Hq; nia|ring].
  - apply Zeq_bool_neq in Rz.
    set (x := if Z.sqrt B * Z.sqrt B =? B then 0 else 1).
    assert (Hx : 0 <= x <= 1 /\ (x = 0 -> Z.sqrt B * Z.sqrt B = B)).
    { unfold x. destruct (Z.eqb_spec (Z.sqrt B * Z.sqrt B) B); lia. }
    destruct Hx as [Hx0 Hx].
    assert (NB : q * K = Z.sqrt B -> x = 1).
    { intro Ef. destruct (Z.eq_dec x 0) as [x0|]; [|lia]. exfalso. specialize (Hx x0).
      rewrite <- Ef in Hx. rewrite EB, HK, S1 in Hx.
      assert (4 * r * (h * h) = 0) by lia. apply Z.mul_eq_0 in H. lia. }
    assert (W : q * (2 * K) <= 2 * Z.sqrt B + x < (q + 1) * (2 * K)) by lia.
    assert (W2 : q * (2 * K) < 2 * Z.sqrt B + x).
    { destruct (Z.eq_dec (q * K) (Z.sqrt B)) as [E|E]; [rewrite (NB E)|]; lia. }
    split; auto. split; auto.
    assert (Hqh : 0 <= (2 * q + 1) * h) by (apply Z.mul_nonneg_nonneg; lia).
    destruct (Zle_bool r q) eqn:Lq.
    + apply Z.leb_le in Lq. apply Z.compare_lt_iff.
      assert (H5 : Z.sqrt B < (2 * q + 1) * h).
      { apply Z.sqrt_lt_square; auto. rewrite EB.
        replace ((2 * q + 1) * h * ((2 * q + 1) * h)) with ((4 * (q * q) + 4 * q + 1) * (h * h)) by ring.
        apply Z.mul_lt_mono_pos_r; lia. }
      rewrite HK. lia.
    + apply Z.leb_gt in Lq. apply Z.compare_gt_iff.
      assert (H4 : (2 * q + 1) * h * ((2 * q + 1) * h) < B).
      { rewrite EB. replace ((2 * q + 1) * h * ((2 * q + 1) * h)) with ((4 * (q * q) + 4 * q + 1) * (h * h)) by ring.
        apply Z.mul_lt_mono_pos_r; lia. }
      assert (H5 : (2 * q + 1) * h <= Z.sqrt B) by (apply Z.sqrt_le_square; auto; lia).
      assert (H6 : Z.sqrt B = (2 * q + 1) * h -> x = 1).
      { intro Ef. destruct (Z.eq_dec x 0) as [x0|]; [|lia]. exfalso. specialize (Hx x0).
        rewrite Ef in Hx. lia. }
      rewrite HK. destruct (Z.eq_dec (Z.sqrt B) ((2 * q + 1) * h)) as [E|E]; [rewrite (H6 E)|]; lia.
Qed.

Lemma rounds_sqrt : forall m e E, bounded prec emax m e = true -> E < emin prec emax -> 2 * E + 2 <= e ->
  rounds 2 E (root2 (Zpos m * 2 ^ (e - 2 * E))) (SFsqrt prec emax (S754_finite false m e)).
Proof.
  intros m e E X HE HE2. unfold SFsqrt, SFsqrt_core_binary.
  set (d := Zdigits2 (Zpos m)). set (z := Z.min (fexp prec emax (Z.div2 (d + e + 1))) (Z.div2 e)).
  assert (emin prec emax <= fexp prec emax (Z.div2 (d + e + 1))) by (unfold fexp; lia).
  assert (D2 : 2 * Z.div2 e <= e) by (rewrite Z.div2_div; pose proof (Z.mul_div_le e 2); lia).
  assert (D3 : E + 1 <= Z.div2 e) by (rewrite Z.div2_div; apply Z.div_le_lower_bound; lia).
  assert (HM : match e - 2 * z with Z0 => Zpos m | Zpos _ => Z.shiftl (Zpos m) (e - 2 * z) | Zneg _ => 0 end
               = Zpos m * 2 ^ (e - 2 * z)).
  { destruct (e - 2 * z) eqn:S; try lia. rewrite Z.shiftl_mul_pow2 by lia. reflexivity. }
  rewrite HM. set (A := Zpos m * 2 ^ (e - 2 * z)).
  assert (PA : 0 < 2 ^ (e - 2 * z)) by (apply Z.pow_pos_nonneg; lia).
  assert (HA : 0 < A) by (unfold A; nia).
  pose proof (Z.sqrtrem_spec A ltac:(lia)) as SR. destruct (Z.sqrtrem A) as [q r]. destruct SR as [S1 S2].
  assert (Hq : 0 <= q) by lia.
  apply rounds_aux; try lia.
  - destruct (zdigits_spec (Zpos m) ltac:(lia)) as [[F1 F2] F3]. fold d in F1, F2, F3.
    assert (Z.div2 (d + e + 1) <= Zdigits2 q + z).
    { assert (q <> 0) by (intros ->; lia).
      destruct (zdigits_spec q ltac:(lia)) as [[H1 H2] H3]. set (dq := Zdigits2 q) in *.
      assert (2 ^ (d - 1 + (e - 2 * z)) < 2 ^ (dq + dq)).
      { rewrite !Z.pow_add_r by lia. assert (A < (q + 1) * (q + 1)) by nia.
        assert (q + 1 <= 2 ^ dq) by lia. unfold A in *. nia. }
      apply Z.pow_lt_mono_r_iff in H4; lia. }
    unfold fexp in *. lia.
  - set (K := 2 ^ (z - E)).
    assert (HK : exists H, K = 2 * H /\ 0 < H).
    { exists (2 ^ (z - E - 1)). split; [|apply Z.pow_pos_nonneg; lia].
      unfold K. rewrite <- Z.pow_succ_r by lia. f_equal. lia. }
    destruct HK as (h & HK & Hh).
    assert (EA : Zpos m * 2 ^ (e - 2 * E) = A * (K * K)).
    { unfold A, K. rewrite <- Z.mul_assoc. f_equal. rewrite <- !Z.pow_add_r by lia. f_equal. lia. }
    rewrite EA. apply (sqrt_inside A q r h K); auto.
Qed.

End Round.
