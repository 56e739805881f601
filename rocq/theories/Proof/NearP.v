(** How far rounding moves a number, and which number is the nearest. *)
From Coq Require Import ZArith Lia List Bool.
From Verif.Base Require Import GoBase Float.
From Verif.Proof Require Import RoundP MonoP ExactP SizeP.
Import ListNotations.
Open Scope Z_scope.

Lemma root_arith : forall M q u V, 8 < M -> M <= q - 1 -> 0 < u ->
  Z.abs (V - (2 * M * u) * (2 * M * u)) * q <= (2 * M * u) * (2 * M * u) ->
  ((2 * M - 1) * u) * ((2 * M - 1) * u) < V < ((2 * M + 1) * u) * ((2 * M + 1) * u).
Proof.
  intros M q u V HM Hq Hu H.
  replace ((2 * M * u) * (2 * M * u)) with (4 * M * M * (u * u)) in H by ring.
  replace (((2 * M - 1) * u) * ((2 * M - 1) * u)) with (4 * M * M * (u * u) - (4 * M - 1) * (u * u)) by ring.
  replace (((2 * M + 1) * u) * ((2 * M + 1) * u)) with (4 * M * M * (u * u) + (4 * M + 1) * (u * u)) by ring.
  assert (W : 0 < u * u) by (apply Z.mul_pos_pos; lia). set (w := u * u) in *. clearbody w. clear Hu.
  assert (K : 4 * M * M < (4 * M - 1) * q).
  { apply Z.lt_le_trans with ((4 * M - 1) * (M + 1)); [ring_simplify; lia|apply Z.mul_le_mono_nonneg_l; lia]. }
  assert (D : Z.abs (V - 4 * M * M * w) < (4 * M - 1) * w).
  { destruct (Z.lt_ge_cases (Z.abs (V - 4 * M * M * w)) ((4 * M - 1) * w)) as [L|L]; auto. exfalso.
    assert ((4 * M - 1) * w * q <= Z.abs (V - 4 * M * M * w) * q) by (apply Z.mul_le_mono_nonneg_r; lia).
    assert (4 * M * M * w < (4 * M - 1) * q * w) by (apply Z.mul_lt_mono_pos_r; lia).
    replace ((4 * M - 1) * q * w) with ((4 * M - 1) * w * q) in * by ring. lia. }
  lia.
Qed.

Section Near.
Variables prec emax : Z.
Hypothesis Hprec : 1 < prec.
Hypothesis Hemax : prec < emax.

Notation lo := (emin prec emax).

Lemma written_units : forall m e E, E <= e -> 0 <= m <= 2 ^ prec -> unsigned prec emax (written prec emax m e) ->
  units E (written prec emax m e) = m * 2 ^ (e - E).
Proof.
  intros m e E HE Hm U. destruct m as [|p|p]; try lia; [reflexivity|]. unfold written in *.
  destruct (Z.eqb_spec (Zpos p) (2 ^ prec)) as [Q|Q].
  - destruct (e + 1 <=? emax - prec); cbn [unsigned] in U; [|contradiction]. cbn [units].
    assert (0 < 2 ^ (prec - 1)) by (apply Z.pow_pos_nonneg; lia).
    rewrite Z2Pos.id, Q by lia.
    replace (2 ^ prec) with (2 ^ (prec - 1) * 2) by (rewrite Z.mul_comm, <- Z.pow_succ_r by lia; f_equal; lia).
    replace (e + 1 - E) with (Z.succ (e - E)) by lia. rewrite Z.pow_succ_r by lia. ring.
  - destruct (e <=? emax - prec); cbn [unsigned] in U; [|contradiction]. reflexivity.
Qed.

(** A number that is rounded moves by at most half a unit: relative to its size by at
    most 2^-prec, if it is not too small. *)
Lemma rounds_error : forall b E a r, 0 < b -> rounds prec emax b E a r -> unsigned prec emax r ->
  b * 2 ^ (prec - 1) * 2 ^ (lo - E) <= a -> E <= lo ->
  Z.abs (b * units E r - a) * 2 ^ prec <= a.
Proof.
  intros b E a r Hb (m & e & l & HE & [I1 I2] & M & X & Y & R) U T HL.
  assert (P0 : 0 < 2 ^ (e - E)) by (apply Z.pow_pos_nonneg; lia).
  assert (PL : 0 < 2 ^ (lo - E)) by (apply Z.pow_pos_nonneg; lia).
  assert (PQ : 0 < 2 ^ (prec - 1)) by (apply Z.pow_pos_nonneg; lia).
  assert (PP : 2 ^ prec = 2 * 2 ^ (prec - 1)) by (rewrite <- Z.pow_succ_r by lia; f_equal; lia).
  assert (N : 2 ^ (prec - 1) <= m).
  { destruct Y as [Y|Y]; [|exact Y]. subst e.
    assert (2 ^ (prec - 1) * (b * 2 ^ (lo - E)) < (m + 1) * (b * 2 ^ (lo - E))) by lia.
    assert (2 ^ (prec - 1) < m + 1) by (apply (Z.mul_lt_mono_pos_r (b * 2 ^ (lo - E))); [nia|lia]). lia. }
  assert (RM : 0 <= round_nearest_even m l <= 2 ^ prec) by (destruct (rne_cases m l) as [-> | ->]; lia).
  assert (V : units E r = round_nearest_even m l * 2 ^ (e - E)).
  { destruct R as [-> | [Z [s ->]]].
    - apply written_units; auto.
    - rewrite Z. reflexivity. }
  rewrite V. set (u := 2 ^ (e - E)) in *. set (w := b * u) in *.
  assert (W0 : 0 < w) by (unfold w; nia).
  replace (b * (round_nearest_even m l * u)) with (round_nearest_even m l * w) by (unfold w; ring).
  assert (H : 2 * Z.abs (round_nearest_even m l * w - a) <= w).
  { destruct l as [|c]; cbn [round_nearest_even].
    - rewrite I2. replace (m * w - m * w) with 0 by ring. lia.
    - destruct I2 as [I2 I3]. destruct c.
      + apply Z.compare_eq in I3. destruct (Z.even m); [rewrite Z.abs_neq by lia|rewrite Z.abs_eq by lia]; lia.
      + change (2 * a < (2 * m + 1) * w) in I3. rewrite Z.abs_neq by lia. lia.
      + apply Z.compare_gt_iff in I3. rewrite Z.abs_eq by lia. lia. }
  rewrite PP. set (d := Z.abs _) in *. assert (2 ^ (prec - 1) * w <= a) by nia.
  assert (0 <= d) by (unfold d; lia).
  apply Z.le_trans with (2 ^ (prec - 1) * w); [|assumption].
  replace (d * (2 * 2 ^ (prec - 1))) with (2 ^ (prec - 1) * (2 * d)) by ring. apply Z.mul_le_mono_nonneg_l; lia.
Qed.

(** A number less than half a unit away is rounded to it. *)
Lemma rounds_nearest : forall E a r m e, E <= lo -> bounded prec emax m e = true -> 2 ^ (prec - 1) < Zpos m ->
  rounds prec emax 2 E a r -> (2 * Zpos m - 1) * 2 ^ (e - E) < a < (2 * Zpos m + 1) * 2 ^ (e - E) ->
  r = S754_finite false m e.
Proof.
  intros E a r m e HL B N (m1 & e1 & l1 & HE & [I1 I2] & M & X & Y & R) [L1 L2].
  destruct (bounded_spec prec emax Hprec m e B) as (B1 & B2 & _).
  assert (PP : 2 ^ prec = 2 * 2 ^ (prec - 1)) by (rewrite <- Z.pow_succ_r by lia; f_equal; lia).
  assert (P0 : 0 < 2 ^ (e - E)) by (apply Z.pow_pos_nonneg; lia).
  assert (P1 : 0 < 2 ^ (e1 - E)) by (apply Z.pow_pos_nonneg; lia).
  assert (EE : e1 = e).
  { destruct (Z.lt_trichotomy e1 e) as [L|[L|L]]; auto; exfalso.
    - assert (2 * 2 ^ (e1 - E) <= 2 ^ (e - E)).
      { rewrite <- Z.pow_succ_r by lia. apply Z.pow_le_mono_r; lia. }
      set (u := 2 ^ (e - E)) in *. set (u1 := 2 ^ (e1 - E)) in *. set (q := 2 ^ (prec - 1)) in *.
      assert (a < 2 * q * (2 * u1)) by nia. assert (2 * q * (2 * u1) <= 2 * q * u) by nia. nia.
    - destruct Y as [Y|Y]; [lia|].
      assert (2 * 2 ^ (e - E) <= 2 ^ (e1 - E)).
      { rewrite <- Z.pow_succ_r by lia. apply Z.pow_le_mono_r; lia. }
      set (u := 2 ^ (e - E)) in *. set (u1 := 2 ^ (e1 - E)) in *. set (q := 2 ^ (prec - 1)) in *.
      assert (2 * q * u1 <= a) by nia. nia. }
  subst e1. set (u := 2 ^ (e - E)) in *.
  assert (C : m1 = Zpos m \/ m1 = Zpos m - 1) by nia.
  assert (F : round_nearest_even m1 l1 = Zpos m).
  { destruct C as [-> | ->].
    - destruct l1 as [|c]; [reflexivity|]. destruct I2 as [_ I2].
      assert ((2 * a ?= (2 * Zpos m + 1) * (2 * u)) = Lt) by (apply Z.compare_lt_iff; lia). 
      rewrite H in I2. subst c. reflexivity.
    - destruct l1 as [|c]; [lia|]. destruct I2 as [_ I2].
      assert ((2 * a ?= (2 * (Zpos m - 1) + 1) * (2 * u)) = Gt) by (apply Z.compare_gt_iff; lia).
      rewrite H in I2. subst c. cbn [round_nearest_even]. lia. }
  destruct R as [-> | [Z [s ->]]]; [|lia]. rewrite F. unfold written.
  destruct (Z.eqb_spec (Zpos m) (2 ^ prec)); [lia|]. destruct (Z.leb_spec e (emax - prec)); [reflexivity|lia].
Qed.

(** The square root of the rounded square of a number is the number, if the square
    is in the range of the format. *)
Lemma sqrt_of_square : forall m e, bounded prec emax m e = true -> 2 ^ (prec - 1) <= Zpos m -> 4 <= prec -> lo < -2 ->
  lo <= 2 * e + prec - 1 -> 2 * e + 2 * prec <= emax ->
  SFsqrt prec emax (SFmul prec emax (S754_finite false m e) (S754_finite false m e)) = S754_finite false m e.
Proof.
  intros m e B N H4 HL R1 R2. destruct (bounded_spec prec emax Hprec m e B) as (B1 & B2 & _).
  assert (PP : 2 ^ prec = 2 * 2 ^ (prec - 1)) by (rewrite <- Z.pow_succ_r by lia; f_equal; lia).
  assert (PQ : 8 <= 2 ^ (prec - 1)) by (change 8 with (2 ^ 3); apply Z.pow_le_mono_r; lia).
  destruct (Z.eq_dec (Zpos m) (2 ^ (prec - 1))) as [Q|Q].
  - set (E := 2 * lo).
    assert (RM : rounds prec emax 1 (2 * E) (Zpos m * Zpos m * 2 ^ (e + e - 2 * E))
        (SFmul prec emax (S754_finite false m e) (S754_finite false m e)))
      by (apply rounds_mul; auto; unfold E; lia).
    destruct (norm_pos prec emax Hprec (2 ^ (prec - 1)) (2 * e + prec - 1) ltac:(lia) ltac:(lia)) as (mz & ez & _ & BZ & LZ & VZ).
    destruct (bounded_spec prec emax Hprec mz ez BZ) as (_ & LZ2 & _).
    pose proof (rounds_itself prec emax Hprec (S754_finite false mz ez) (2 * E) ltac:(unfold E; lia) BZ) as RZ. cbn [units] in RZ.
    assert (VV : Zpos mz * 2 ^ (ez - 2 * E) = Zpos m * Zpos m * 2 ^ (e + e - 2 * E)).
    { rewrite VZ, Q, <- !Z.mul_assoc, <- !Z.pow_add_r by (unfold E; lia). f_equal. lia. }
    rewrite VV in RZ.
    destruct (same_rounds prec emax Hprec 1 (2 * E) _ _ _ ltac:(lia) RM RZ) as [S|[[s S] [s' S']]]; [|discriminate S'].
    rewrite S. pose proof (rounds_sqrt prec emax Hprec mz ez E BZ ltac:(unfold E; lia) ltac:(unfold E; lia)) as R.
    rewrite VV in R.
    replace (Zpos m * Zpos m * 2 ^ (e + e - 2 * E)) with ((Zpos m * 2 ^ (e - E)) * (Zpos m * 2 ^ (e - E))) in R.
    2: { replace (e + e - 2 * E) with ((e - E) + (e - E)) by lia. rewrite Z.pow_add_r by (unfold E; lia). ring. }
    rewrite root_square in R by (apply Z.mul_nonneg_nonneg; [lia|apply Z.pow_nonneg; lia]).
    pose proof (rounds_itself prec emax Hprec (S754_finite false m e) E ltac:(unfold E; lia) B) as RI.
    apply rounds_twice in RI; auto. cbn [units] in RI.
    destruct (same_rounds prec emax Hprec 2 E _ _ _ ltac:(lia) R RI) as [S2|[[s S2] [s' S']]]; [exact S2|discriminate S'].
  - set (E := 2 * lo).
    assert (RM : rounds prec emax 1 (2 * E) (Zpos m * Zpos m * 2 ^ (e + e - 2 * E))
        (SFmul prec emax (S754_finite false m e) (S754_finite false m e)))
      by (apply rounds_mul; auto; unfold E; lia).
    set (p := Zpos m * 2 ^ (e - E)).
    assert (VP : Zpos m * Zpos m * 2 ^ (e + e - 2 * E) = p * p).
    { unfold p. replace (e + e - 2 * E) with ((e - E) + (e - E)) by lia. rewrite Z.pow_add_r by (unfold E; lia). ring. }
    rewrite VP in RM.
    assert (U4 : exists u', 2 ^ (e - E) = 2 * u' /\ 0 < u').
    { exists (2 ^ (e - E - 1)). split; [|apply Z.pow_pos_nonneg; unfold E; lia].
      rewrite <- Z.pow_succ_r by (unfold E; lia). f_equal. lia. }
    destruct U4 as (u' & U4 & U0).
    assert (FIN : exists mr er, SFmul prec emax (S754_finite false m e) (S754_finite false m e) = S754_finite false mr er /\
              bounded prec emax mr er = true /\ Z.abs (Zpos mr * 2 ^ (er - 2 * E) - p * p) * 2 ^ prec <= p * p).
    { set (r := SFmul prec emax (S754_finite false m e) (S754_finite false m e)) in *.
      assert (ZP : unsigned prec emax (binary_normalize prec emax (2 ^ prec - 1) (2 * e + prec) false) /\
                   units (2 * E) (binary_normalize prec emax (2 ^ prec - 1) (2 * e + prec) false) =
                   (2 ^ prec - 1) * 2 ^ (2 * e + prec - 2 * E)).
      { destruct (norm_pos prec emax Hprec (2 ^ prec - 1) (2 * e + prec) ltac:(lia) ltac:(lia)) as (mz & ez & -> & BZ & LZ & VZ).
        split; [exact BZ|]. cbn [units]. destruct (bounded_spec prec emax Hprec mz ez BZ) as (_ & LZ2 & _).
        rewrite VZ, <- Z.mul_assoc, <- Z.pow_add_r by (unfold E; lia). do 2 f_equal. lia. }
      destruct ZP as [ZU ZV].
      assert (BD : p * p <= (2 ^ prec - 1) * 2 ^ (2 * e + prec - 2 * E)).
      { rewrite <- VP. replace (2 * e + prec - 2 * E) with (prec + (e + e - 2 * E)) by lia.
        rewrite Z.pow_add_r by (unfold E; lia). rewrite Z.mul_assoc.
        apply Z.mul_le_mono_nonneg_r; [apply Z.pow_nonneg; lia|]. nia. }
      assert (P0 : 0 <= p * p) by apply Z.square_nonneg.
      destruct (rounds_upto prec emax Hprec (2 * E) (p * p) r _ ltac:(unfold E; lia) P0 RM ZU ltac:(rewrite ZV; exact BD)) as (S & L & U).
      assert (T : 1 * 2 ^ (prec - 1) * 2 ^ (lo - 2 * E) <= p * p).
      { rewrite Z.mul_1_l, <- VP. apply Z.le_trans with (2 ^ (prec - 1) * 2 ^ (prec - 1) * 2 ^ (e + e - 2 * E)).
        - rewrite <- !Z.pow_add_r by (unfold E; lia). apply Z.pow_le_mono_r; unfold E; lia.
        - apply Z.mul_le_mono_nonneg_r; [apply Z.pow_nonneg; lia|]. nia. }
      pose proof (rounds_error 1 (2 * E) (p * p) r ltac:(lia) RM U T ltac:(unfold E; lia)) as ER.
      rewrite Z.mul_1_l in ER.
      destruct r as [s|s| |[] mr er]; cbn [unsigned units] in *; try contradiction.
      - exfalso. assert (0 < p * p) by (rewrite <- VP; apply Z.mul_pos_pos; [lia|apply Z.pow_pos_nonneg; unfold E; lia]).
        rewrite Z.abs_neq in ER by lia. replace (- (0 - p * p)) with (p * p) in ER by ring.
        assert (p * p * 2 <= p * p * 2 ^ prec) by (apply Z.mul_le_mono_nonneg_l; lia). lia.
      - exists mr, er. auto. }
    destruct FIN as (mr & er & -> & BR & ER).
    destruct (bounded_spec prec emax Hprec mr er BR) as (_ & BR2 & _).
    pose proof (rounds_sqrt prec emax Hprec mr er E BR ltac:(unfold E; lia) ltac:(unfold E; lia)) as RS.
    set (V := Zpos mr * 2 ^ (er - 2 * E)) in *.
    assert (V0 : 0 < V) by (unfold V; apply Z.mul_pos_pos; [lia|apply Z.pow_pos_nonneg; unfold E; lia]).
    apply (rounds_nearest E (root2 V)); auto; [unfold E; lia|lia|].
    assert (Pu : p = 2 * Zpos m * u') by (unfold p; rewrite U4; ring).
    rewrite U4. set (M := Zpos m) in *. set (q := 2 ^ prec) in *.
    assert (Mq : M <= q - 1) by lia. assert (M8 : 8 < M) by lia. assert (q2 : q <= 2 * M) by lia.
    rewrite Pu in ER. destruct (root_arith M q u' V M8 Mq U0 ER) as [H2 H1]. clear ER.
    assert (G1 : 0 < (2 * M + 1) * u') by (apply Z.mul_pos_pos; lia).
    assert (G2 : 0 < (2 * M - 1) * u') by (apply Z.mul_pos_pos; lia).
    assert (S1 : Z.sqrt V < (2 * M + 1) * u') by (apply Z.sqrt_lt_square; lia).
    assert (S2 : (2 * M - 1) * u' <= Z.sqrt V) by (apply Z.sqrt_le_square; lia).
    unfold root2. destruct (Z.eqb_spec (Z.sqrt V * Z.sqrt V) V) as [SQ|SQ].
    + assert (Z.sqrt V <> (2 * M - 1) * u') by (intro X; rewrite X in SQ; lia). lia.
    + lia.
Qed.

End Near.
