(** Numbers n * 2^k with n of at most as many digits as the format has are not
    rounded, and neither are their sums, differences, products and roots that
    are such numbers again. *)
From Verif.Base Require Import GoBase GoLemmas Float.
From Verif.Proof Require Import FloatP RoundP MonoP TruncP.
From Coq Require Import Lia ZArith.
Open Scope Z_scope.

Section Exact.
Variables prec emax : Z.
Hypothesis Hprec : 1 < prec.
Hypothesis Hemax : prec < emax.

Notation norm n k := (binary_normalize prec emax n k false).
Notation lo := (emin prec emax).

Lemma leb_eq : forall x y, in_range prec emax x -> in_range prec emax y ->
  fleb x y = true -> fleb y x = true ->
  x = y \/ ((exists s, x = S754_zero s) /\ exists s, y = S754_zero s).
Proof.
  intros x y X Y A B.
  destruct x as [s|[]| |[] m e], y as [s'|[]| |[] m' e']; try discriminate A; try discriminate B;
    destruct X as [X|X]; cbn [unsigned] in X; try contradiction; try discriminate X;
    destruct Y as [Y|Y]; cbn [unsigned] in Y; try contradiction; try discriminate Y; eauto.
  left. unfold fleb, SFleb, SFcompare in A, B.
    destruct (Z.compare_spec e e') as [->|L|L]; try discriminate A.
    + rewrite Z.compare_refl in B. change (Pcompare m m' Eq) with (m ?= m')%positive in A.
      change (Pcompare m' m Eq) with (m' ?= m)%positive in B.
      destruct (Pos.compare_spec m m') as [->|L|L]; try discriminate A; auto.
      rewrite (proj2 (Pos.compare_gt_iff m' m)) in B by auto. discriminate.
    + rewrite (proj2 (Z.compare_gt_iff e' e)) in B by auto. discriminate.
Qed.

Lemma same_rounds : forall b E a r r', 0 < b ->
  rounds prec emax b E a r -> rounds prec emax b E a r' ->
  r = r' \/ ((exists s, r = S754_zero s) /\ exists s, r' = S754_zero s).
Proof.
  intros b E a r r' Hb R R'. apply leb_eq; try (eapply rounds_range; eauto);
    eapply rounds_mono; eauto; lia.
Qed.

(** The digits of n * 2^k are those of n. *)
Lemma norm_pos : forall n k, 0 < n < 2 ^ prec -> lo <= k <= emax - prec ->
  exists m e, norm n k = S754_finite false m e /\ bounded prec emax m e = true /\ e <= k /\
    Zpos m = n * 2 ^ (k - e).
Proof.
  intros n k Hn Hk.
  destruct (zdigits_spec n ltac:(lia)) as [[A B] C]. set (d := Zdigits2 n) in *.
  assert (Hd : d <= prec).
  { destruct (Z.le_gt_cases d prec); auto. assert (2 ^ prec <= 2 ^ (d - 1)) by (apply Z.pow_le_mono_r; lia). lia. }
  set (e := Z.max (d + k - prec) lo).
  assert (He : lo <= e <= k) by (unfold e; lia).
  set (m := n * 2 ^ (k - e)).
  assert (P : 0 < 2 ^ (k - e)) by (apply Z.pow_pos_nonneg; lia).
  assert (Hm : 2 ^ (d - 1 + (k - e)) <= m < 2 ^ (d + (k - e))).
  { unfold m. rewrite !Z.pow_add_r by lia. split; [apply Z.mul_le_mono_nonneg_r|apply Z.mul_lt_mono_pos_r]; lia. }
  assert (Pm : 0 < m) by (unfold m; apply Z.mul_pos_pos; lia).
  assert (Em : Zpos (Z.to_pos m) = m) by (apply Z2Pos.id; lia).
  assert (Dm : Zdigits2 m = d + (k - e)).
  { destruct (zdigits_spec m ltac:(lia)) as [[X Y] Z].
    assert (d - 1 + (k - e) < Zdigits2 m) by (apply (Z.pow_lt_mono_r_iff 2); lia).
    assert (Zdigits2 m - 1 < d + (k - e)) by (apply (Z.pow_lt_mono_r_iff 2); lia). lia. }
  assert (Bd : bounded prec emax (Z.to_pos m) e = true).
  { unfold bounded. apply andb_true_intro. split; [|apply Z.leb_le; lia].
    unfold canonical_mantissa. apply Zeq_is_eq_bool.
    change (Zpos (digits2_pos (Z.to_pos m))) with (Zdigits2 (Zpos (Z.to_pos m))). rewrite Em, Dm.
    unfold fexp. fold lo. unfold e in *. lia. }
  exists (Z.to_pos m), e. split; [|split; [auto|split; [lia|rewrite Em; reflexivity]]].
  set (E := Z.min lo e).
  pose proof (rounds_normalize prec emax Hprec n k false E ltac:(lia) ltac:(unfold E; lia) ltac:(unfold E; lia)) as R.
  pose proof (rounds_itself prec emax Hprec (S754_finite false (Z.to_pos m) e) E ltac:(unfold E; lia) Bd) as R'.
  cbn [units] in R'. rewrite Em in R'. unfold m in R' at 1.
  rewrite <- Z.mul_assoc, <- Z.pow_add_r in R' by (unfold E; lia).
  replace (k - e + (e - E)) with (k - E) in R' by lia.
  destruct (same_rounds _ _ _ _ _ Z.lt_0_1 R R') as [X|(_ & s & X)]; [exact X|discriminate X].
Qed.

Lemma opp_aux : forall m e l, binary_round_aux prec emax true m e l = SFopp (binary_round_aux prec emax false m e l).
Proof.
  intros m e l. unfold binary_round_aux. destruct (shr_fexp prec emax m e l) as [mrs e'].
  destruct (shr_fexp prec emax _ e' loc_Exact) as [mrs' e'']. destruct (shr_m mrs'); try reflexivity.
  destruct (Zle_bool e'' (emax - prec)); reflexivity.
Qed.

Lemma norm_opp : forall n k, n <> 0 -> norm (- n) k = SFopp (norm n k).
Proof.
  assert (P : forall p k, norm (Zneg p) k = SFopp (norm (Zpos p) k)).
  { intros p k. cbn [binary_normalize]. unfold binary_round.
    destruct (shl_align p k _) as [m e]. apply opp_aux. }
  intros n k Hn. destruct n as [|p|p]; [lia| |].
  - apply P.
  - change (- Zneg p) with (Zpos p). rewrite P.
    destruct (norm (Zpos p) k) as [[]|[]| |[]]; reflexivity.
Qed.

Lemma norm_zero : forall k, norm 0 k = S754_zero false.
Proof. reflexivity. Qed.

(** n * 2^k as a signed number. *)
Lemma norm_signed : forall n k, n <> 0 -> Z.abs n < 2 ^ prec -> lo <= k <= emax - prec ->
  exists m e, norm n k = S754_finite (n <? 0) m e /\ bounded prec emax m e = true /\ e <= k /\
    cond_Zopp (n <? 0) (Zpos m) = n * 2 ^ (k - e).
Proof.
  intros n k N0 Hn Hk. destruct (Z.ltb_spec n 0) as [L|L].
  - destruct (norm_pos (- n) k ltac:(lia) Hk) as (m & e & A & B & C & D). exists m, e.
    replace n with (- - n) at 1 by lia. rewrite norm_opp by lia. rewrite A. cbn [SFopp negb cond_Zopp].
    repeat split; auto. rewrite D. lia.
  - destruct (norm_pos n k ltac:(lia) Hk) as (m & e & A & B & C & D). exists m, e. auto.
Qed.

(** Two ways to write the same number. *)
Lemma norm_same : forall N e n k, lo <= e -> n <> 0 -> Z.abs n < 2 ^ prec -> lo <= k <= emax - prec ->
  N * 2 ^ (e - lo) = n * 2 ^ (k - lo) -> norm N e = norm n k.
Proof.
  assert (P : forall N e n k, lo <= e -> 0 < n < 2 ^ prec -> lo <= k <= emax - prec ->
            N * 2 ^ (e - lo) = n * 2 ^ (k - lo) -> norm N e = norm n k).
  { intros N e n k He Hn Hk H.
    assert (0 < 2 ^ (e - lo)) by (apply Z.pow_pos_nonneg; lia).
    assert (0 < 2 ^ (k - lo)) by (apply Z.pow_pos_nonneg; lia).
    assert (0 < n * 2 ^ (k - lo)) by (apply Z.mul_pos_pos; lia).
    assert (HN : 0 < N) by nia.
    destruct (norm_pos n k Hn Hk) as (m & e' & X & _).
    pose proof (rounds_normalize prec emax Hprec N e false lo ltac:(lia) ltac:(lia) ltac:(lia)) as R.
    pose proof (rounds_normalize prec emax Hprec n k false lo ltac:(lia) ltac:(lia) ltac:(lia)) as R'.
    rewrite H in R. destruct (same_rounds _ _ _ _ _ Z.lt_0_1 R R') as [Y|(_ & s & Y)]; auto.
    rewrite X in Y. discriminate Y. }
  intros N e n k He N0 Hn Hk H. destruct (Z.lt_ge_cases n 0) as [L|L].
  - assert (N <> 0).
    { intros ->. assert (0 < 2 ^ (k - lo)) by (apply Z.pow_pos_nonneg; lia). nia. }
    rewrite <- (Z.opp_involutive N), <- (Z.opp_involutive n).
    rewrite (norm_opp (- N)), (norm_opp (- n)) by lia. f_equal. apply P; auto; lia.
  - apply P; auto; lia.
Qed.

Lemma align_units : forall m e z n k, z <= e <= k -> cond_Zopp (n <? 0) (Zpos m) = n * 2 ^ (k - e) ->
  cond_Zopp (n <? 0) (Zpos (fst (shl_align m e z))) = n * 2 ^ (k - z).
Proof.
  intros m e z n k He H. pose proof (shl_align_spec prec Hprec m e z) as S. destruct (shl_align m e z) as [m' e'].
  cbn [fst]. destruct S as (E & S & _). rewrite Z.min_r in E by lia. subst e'.
  replace (2 ^ (k - z)) with (2 ^ (k - e) * 2 ^ (e - z)) by (rewrite <- Z.pow_add_r by lia; f_equal; lia).
  rewrite Z.mul_assoc, <- H, S. destruct (n <? 0); cbn [cond_Zopp]; lia.
Qed.

Lemma add_exact : forall n m k, Z.abs n < 2 ^ prec -> Z.abs m < 2 ^ prec -> Z.abs (n + m) < 2 ^ prec ->
  lo <= k <= emax - prec -> SFadd prec emax (norm n k) (norm m k) = norm (n + m) k.
Proof.
  intros n m k Hn Hm Hs Hk.
  destruct (Z.eq_dec n 0) as [->|N0].
  { rewrite norm_zero, Z.add_0_l. destruct (Z.eq_dec m 0) as [->|M0]; [reflexivity|].
    destruct (norm_signed m k M0 Hm Hk) as (p & e & -> & _). reflexivity. }
  destruct (norm_signed n k N0 Hn Hk) as (p & e & En & Bn & Le & Vn).
  destruct (Z.eq_dec m 0) as [->|M0].
  { rewrite norm_zero, Z.add_0_r, En. reflexivity. }
  destruct (norm_signed m k M0 Hm Hk) as (p' & e' & Em & Bm & Le' & Vm).
  destruct (bounded_spec prec emax Hprec p e Bn) as (_ & L1 & _), (bounded_spec prec emax Hprec p' e' Bm) as (_ & L2 & _).
  rewrite En, Em. cbn [SFadd].
  rewrite (align_units p e (Z.min e e') n k), (align_units p' e' (Z.min e e') m k) by (auto; lia).
  rewrite <- Z.mul_add_distr_r.
  destruct (Z.eq_dec (n + m) 0) as [->|S0]; [reflexivity|].
  apply norm_same; auto; [lia|]. rewrite <- Z.mul_assoc, <- Z.pow_add_r by lia. f_equal. f_equal. lia.
Qed.

Lemma sub_add : forall x y, SFsub prec emax x y = SFadd prec emax x (SFopp y).
Proof.
  intros [s|s| |s m e] [s'|s'| |s' m' e']; try reflexivity. cbn [SFsub SFadd SFopp]. f_equal.
  unfold Z.sub. f_equal. destruct s'; cbn [cond_Zopp negb]; lia.
Qed.

Lemma sub_exact : forall n m k, Z.abs n < 2 ^ prec -> Z.abs m < 2 ^ prec -> Z.abs (n - m) < 2 ^ prec ->
  lo <= k <= emax - prec -> SFsub prec emax (norm n k) (norm m k) = norm (n - m) k.
Proof.
  intros n m k Hn Hm Hs Hk. destruct (Z.eq_dec m 0) as [->|M0].
  - rewrite norm_zero, Z.sub_0_r. destruct (Z.eq_dec n 0) as [->|N0]; [reflexivity|].
    destruct (norm_signed n k N0 Hn Hk) as (p & e & -> & _). reflexivity.
  - rewrite sub_add, <- norm_opp by auto. rewrite add_exact; auto; lia.
Qed.

Lemma abs_exact : forall n k, SFabs (norm n k) = norm (Z.abs n) k.
Proof.
  intros n k. destruct (Z.abs_spec n) as [[A ->]|[A ->]].
  - destruct n as [|p|p]; [reflexivity| |lia]. cbn [binary_normalize]. unfold binary_round.
    destruct (shl_align p k _) as [m e]. unfold binary_round_aux.
    destruct (shr_fexp prec emax (Zpos m) e loc_Exact) as [mrs e'].
    destruct (shr_fexp prec emax _ e' loc_Exact) as [mrs' e'']. destruct (shr_m mrs'); try reflexivity.
    destruct (Zle_bool e'' (emax - prec)); reflexivity.
  - destruct n as [|p|p]; try lia. change (- Zneg p) with (Zpos p).
    change (Zneg p) with (- Zpos p). rewrite norm_opp by lia.
    cbn [binary_normalize]. unfold binary_round.
    destruct (shl_align p k _) as [m e]. unfold binary_round_aux.
    destruct (shr_fexp prec emax (Zpos m) e loc_Exact) as [mrs e'].
    destruct (shr_fexp prec emax _ e' loc_Exact) as [mrs' e'']. destruct (shr_m mrs'); try reflexivity.
    destruct (Zle_bool e'' (emax - prec)); reflexivity.
Qed.

Lemma mul_exact : forall n m k l, Z.abs n < 2 ^ prec -> Z.abs m < 2 ^ prec -> Z.abs (n * m) < 2 ^ prec ->
  lo <= k <= emax - prec -> lo <= l <= emax - prec -> lo <= k + l <= emax - prec ->
  SFmul prec emax (norm n k) (norm m l) = norm (n * m) (k + l) \/
  (n * m = 0 /\ exists s, SFmul prec emax (norm n k) (norm m l) = S754_zero s).
Proof.
  intros n m k l Hn Hm Hs Hk Hl Hkl.
  destruct (Z.eq_dec n 0) as [->|N0].
  { right. split; [lia|]. rewrite norm_zero. destruct (Z.eq_dec m 0) as [->|M0]; [eexists; reflexivity|].
    destruct (norm_signed m l M0 Hm Hl) as (p & e & -> & _). eexists. reflexivity. }
  destruct (norm_signed n k N0 Hn Hk) as (p & e & En & Bn & Le & Vn).
  destruct (Z.eq_dec m 0) as [->|M0].
  { right. split; [lia|]. rewrite norm_zero, En. eexists. reflexivity. }
  destruct (norm_signed m l M0 Hm Hl) as (p' & e' & Em & Bm & Le' & Vm).
  left. rewrite En, Em.
  assert (K : SFmul prec emax (S754_finite false p e) (S754_finite false p' e') = norm (Z.abs (n * m)) (k + l)).
  { destruct (norm_pos (Z.abs (n * m)) (k + l) ltac:(lia) Hkl) as (q & f & X & _).
    set (E := Z.min lo (e + e')).
    pose proof (rounds_mul prec emax Hprec Hemax p e p' e' E Bn Bm ltac:(unfold E; lia) ltac:(unfold E; lia)) as R.
    pose proof (rounds_normalize prec emax Hprec (Z.abs (n * m)) (k + l) false E ltac:(lia) ltac:(unfold E; lia) ltac:(unfold E; lia)) as R'.
    replace (Zpos p * Zpos p' * 2 ^ (e + e' - E)) with (Z.abs (n * m) * 2 ^ (k + l - E)) in R.
    { destruct (same_rounds _ _ _ _ _ Z.lt_0_1 R R') as [Y|(_ & s & Y)]; auto.
      rewrite X in Y. discriminate Y. }
    assert (V : Zpos p = Z.abs n * 2 ^ (k - e)).
    { destruct (n <? 0) eqn:S; [apply Z.ltb_lt in S|apply Z.ltb_ge in S]; cbn [cond_Zopp] in Vn; nia. }
    assert (V' : Zpos p' = Z.abs m * 2 ^ (l - e')).
    { destruct (m <? 0) eqn:S; [apply Z.ltb_lt in S|apply Z.ltb_ge in S]; cbn [cond_Zopp] in Vm; nia. }
    rewrite V, V', Z.abs_mul.
    replace (k + l - E) with ((k - e) + ((l - e') + (e + e' - E))) by lia.
    rewrite !Z.pow_add_r by (unfold E; lia). ring. }
  cbn [SFmul] in K |- *.
  replace (xorb (n <? 0) (m <? 0)) with (n * m <? 0).
  2:{ destruct (Z.ltb_spec n 0), (Z.ltb_spec m 0), (Z.ltb_spec (n * m) 0); try reflexivity; nia. }
  destruct (Z.ltb_spec (n * m) 0) as [L|L].
  - rewrite opp_aux. change (xorb false false) with false in K. rewrite K, <- norm_opp by lia. f_equal. lia.
  - change (xorb false false) with false in K. rewrite K. f_equal. lia.
Qed.

(** A product with itself is never a negative zero. *)
Lemma square_exact : forall n k, Z.abs n < 2 ^ prec -> n * n < 2 ^ prec ->
  lo <= k <= emax - prec -> lo <= 2 * k <= emax - prec ->
  SFmul prec emax (norm n k) (norm n k) = norm (n * n) (2 * k).
Proof.
  intros n k Hn Hs Hk H2. destruct (Z.eq_dec n 0) as [->|N0]; [reflexivity|].
  replace (2 * k) with (k + k) in * by lia.
  destruct (mul_exact n n k k Hn Hn ltac:(rewrite Z.abs_mul; nia) Hk Hk H2) as [E|[Z _]]; auto. nia.
Qed.

(** Roots of squares. *)
Lemma rounds_twice : forall E a r, rounds prec emax 1 E a r -> rounds prec emax 2 E (2 * a) r.
Proof.
  intros E a r (m & e & l & HE & [I1 I2] & M & X & Y & R). exists m, e, l. split; auto. split; [|split; [auto|split; [auto|split; [auto|]]]].
  - split; [lia|]. destruct l as [|c]; [lia|]. destruct I2 as [I2 I3]. split; [lia|].
    rewrite <- I3. set (u := 2 ^ (e - E)).
    destruct (Z.compare_spec (2 * a) ((2 * m + 1) * (1 * u))) as [Q|Q|Q];
      [apply Z.compare_eq_iff|apply Z.compare_lt_iff|apply Z.compare_gt_iff]; lia.
  - destruct R as [R|[R Z]]; [left; auto|right; split; auto; lia].
Qed.

Lemma root_square : forall r, 0 <= r -> root2 (r * r) = 2 * r.
Proof. intros r H. unfold root2. rewrite Z.sqrt_square by lia. rewrite Z.eqb_refl. lia. Qed.

Lemma sqrt_rounds : forall n k E, 0 < n < 2 ^ prec -> lo <= 2 * k <= emax - prec -> E < lo -> E < k -> 2 * E + 2 <= lo ->
  rounds prec emax 2 E (root2 (n * 2 ^ (2 * (k - E)))) (SFsqrt prec emax (norm n (2 * k))).
Proof.
  intros n k E Hn Hk HE HE' H2. destruct (norm_pos n (2 * k) Hn Hk) as (m & e & -> & B & L & V).
  destruct (bounded_spec prec emax Hprec m e B) as (_ & L1 & _).
  pose proof (rounds_sqrt prec emax Hprec m e E B HE ltac:(lia)) as R. rewrite V in R.
  rewrite <- Z.mul_assoc, <- Z.pow_add_r in R by lia.
  replace (2 * (k - E)) with (2 * k - e + (e - 2 * E)) by lia. exact R.
Qed.

End Exact.
