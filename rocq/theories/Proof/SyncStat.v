(** The statistics computed by Process. *)
From Verif.Base Require Import GoBase GoLemmas Assoc Float.
From Verif.Model Require Import Codec Store Data Insert Vector Search Dataset Sync.
From Verif.Spec Require Import SyncSpec.
From Verif.Proof Require Import FloatP RoundP SyncP SyncQ.
Open Scope N_scope.

(** ** float32(n) is not zero *)

Section NonZero.
Open Scope Z_scope.

Lemma round32_nonzero : forall m e, -149 <= Zdigits2 (Zpos m) + e - 24 ->
  forall s, binary_round_aux 24 128 false (Zpos m) e loc_Exact <> S754_zero s /\
            binary_round_aux 24 128 false (Zpos m) e loc_Exact <> S754_nan.
Proof.
  intros m e Hs s. unfold binary_round_aux, shr_fexp.
  set (d := Zdigits2 (Zpos m)) in *.
  destruct (zdigits_spec (Zpos m) ltac:(lia)) as [[D1 D2] D3]. fold d in D1, D2, D3.
  replace (fexp 24 128 (d + e) - e) with (d - 24) by (unfold fexp, emin; lia).
  cbn [shr_record_of_loc].
  destruct (shr_spec (Build_shr_record (Zpos m) false false) e (d - 24)) as [E1 E2]; [cbn; lia|].
  cbn [shr_m] in E1.
  destruct (shr (Build_shr_record (Zpos m) false false) e (d - 24)) as [mrs1 e1] eqn:S1.
  cbn [fst snd] in E1, E2. set (n1 := Z.max 0 (d - 24)) in *.
  set (M1 := shr_m mrs1) in *. set (R := round_nearest_even M1 (loc_of_shr_record mrs1)).
  assert (P1 : 0 < 2 ^ n1) by (apply Z.pow_pos_nonneg; lia).
  assert (B1 : 2 ^ (d - 1 - n1) <= M1 < 2 ^ (d - n1)).
  { rewrite E1. split.
    - apply Z.div_le_lower_bound; auto. rewrite <- Z.pow_add_r by lia.
      replace (n1 + (d - 1 - n1)) with (d - 1) by lia. lia.
    - apply Z.div_lt_upper_bound; auto. rewrite <- Z.pow_add_r by lia.
      replace (n1 + (d - n1)) with d by lia. lia. }
  assert (HR : R = M1 \/ R = M1 + 1) by apply rne_cases.
  assert (PM1 : 0 < M1).
  { eapply Z.lt_le_trans; [|apply B1]. apply Z.pow_pos_nonneg; lia. }
  assert (RB : 0 < R <= 2 ^ (d - n1)) by (destruct HR as [-> | ->]; lia).
  set (d2 := Zdigits2 R).
  assert (Dd2 : d2 <= d - n1 + 1) by (apply zdigits_le; lia).
  destruct (zdigits_spec R ltac:(lia)) as [[F1 F2] F3]. fold d2 in F1, F2, F3.
  assert (Dlow : d - n1 <= d2).
  { destruct (Z.le_gt_cases (d - n1) d2); auto.
    assert (2 ^ d2 <= 2 ^ (d - 1 - n1)) by (apply Z.pow_le_mono_r; lia).
    assert (M1 <= R) by (destruct HR; lia). lia. }
  destruct (shr_spec (Build_shr_record R false false) e1 (fexp 24 128 (d2 + e1) - e1)) as [G1 G2]; [cbn; lia|].
  cbn [shr_m] in G1.
  destruct (shr (Build_shr_record R false false) e1 (fexp 24 128 (d2 + e1) - e1)) as [mrs2 e2].
  cbn [fst snd] in G1, G2.
  assert (NN : Z.max 0 (fexp 24 128 (d2 + e1) - e1) <= d2 - 1).
  { clear - Hs Dd2 Dlow D3 F3 E2. unfold fexp, emin. lia. }
  assert (P2 : 0 < shr_m mrs2).
  { rewrite G1. set (n2 := Z.max 0 (fexp 24 128 (d2 + e1) - e1)) in *.
    assert (0 < 2 ^ n2) by (apply Z.pow_pos_nonneg; [reflexivity|apply Z.le_max_l]).
    assert (2 ^ n2 <= R). { eapply Z.le_trans; [|exact F1]. apply Z.pow_le_mono_r; lia. }
    apply Z.div_str_pos. lia. }
  destruct (shr_m mrs2) as [|q|q]; try lia.
  destruct (e2 <=? 128 - 24); split; intro C; discriminate C.
Qed.

Lemma f32_of_pos_nonzero : forall p, feqb (f32_of_Z (Zpos p)) fzero = false.
Proof.
  intro p. unfold f32_of_Z, binary_normalize, binary_round, shl_align.
  destruct (digits_pos p) as [D1 D2]. set (d := Zpos (digits2_pos p)) in *.
  assert (EF : fexp prec32 emax32 (d + 0) = Z.max (d - 24) (-149)) by (unfold fexp, emin, prec32, emax32; lia).
  rewrite EF, Z.sub_0_r. unfold prec32, emax32.
  assert (NZ : forall x : float, (forall s, x <> S754_zero s /\ x <> S754_nan) -> feqb x fzero = false).
  { intros x H. destruct x as [s| | |s m e]; try reflexivity.
    - destruct (H s) as [A _]. congruence.
    - destruct s; reflexivity.
    - destruct s; reflexivity. }
  assert (A : 1 <= d) by lia.
  destruct (Z.max (d - 24) (-149)) as [|q|q] eqn:Eq.
  - apply NZ. apply (round32_nonzero p 0). cbn [Zdigits2]. fold d. lia.
  - apply NZ. apply (round32_nonzero p 0). cbn [Zdigits2]. fold d. lia.
  - apply NZ. apply round32_nonzero.
    assert (Ep : Zpos (shift_pos q p) = Zpos p * 2 ^ Zpos q).
    { rewrite shift_pos_correct, Z.mul_comm. f_equal. }
    destruct (zdigits_spec (Zpos (shift_pos q p)) ltac:(lia)) as [[B1 B2] B3].
    destruct (Z.le_gt_cases 24 (Zdigits2 (Zpos (shift_pos q p)))); [lia|].
    exfalso.
    assert (2 ^ 23 <= Zpos (shift_pos q p)).
    { rewrite Ep. replace (2 ^ 23) with (2 ^ (d - 1) * 2 ^ (24 - d)) by (rewrite <- Z.pow_add_r by lia; f_equal; lia).
      replace (Zpos q) with (24 - d) by lia. apply Z.mul_le_mono_nonneg_r; auto. apply Z.pow_nonneg. lia. }
    assert (2 ^ Zdigits2 (Zpos (shift_pos q p)) <= 2 ^ 23) by (apply Z.pow_le_mono_r; lia). lia.
Qed.
End NonZero.

(** ** Field by field *)

Definition dist (M : mathlib) (E : senv) (p : bytes * entry) : float :=
  VectorDistance M (eAvg E) (features (edatum (snd p))).

Lemma scan_fields : forall M E s e, let s' := fst (scan_entry M E s e) in
  let d := VectorDistance M (eAvg E) (features (edatum e)) in
  sAvg s' = CalculateAverage (sAvg s) (features (edatum e)) (eNFloat E) /\
  sMax s' = (if fgtb d (sMax s) then d else sMax s) /\
  sHist s' = (if feqb (eMax E) fzero then sHist s
              else bump (sHist s) (bucket (eUndef E) d (eMax E)) (f32div (f32_of_Z 1) (eNFloat E))).
Proof.
  intros. unfold s', scan_entry. cbv zeta.
  destruct (negb (eAlive E) || _); [destruct (10 <? _)|]; repeat split; reflexivity.
Qed.

(** ** The largest distance *)

Lemma max_fold : forall M E l s, is_nan (sMax s) = false ->
  let b := sMax (scan_fold M E l s) in
  is_nan b = false /\ (b = sMax s \/ In b (map (dist M E) l)) /\ fgtb (sMax s) b = false /\
  (forall x, In x (map (dist M E) l) -> fgtb x b = false).
Proof.
  intros M E. induction l as [|p l IH]; intros s NN; cbv zeta.
  - cbn. split; [exact NN|]. split; [auto|]. split; [apply SFltb_irr|intros x []].
  - unfold scan_fold in *. cbn [fold_left map].
    destruct (scan_fields M E s (snd p)) as (_ & EM & _). cbv zeta in EM. fold (dist M E p) in EM.
    assert (N1 : is_nan (sMax (fst (scan_entry M E s (snd p)))) = false).
    { rewrite EM. destruct (fgtb (dist M E p) (sMax s)) eqn:G; [|exact NN].
      unfold fgtb in G. apply SFltb_nan in G. apply G. }
    destruct (IH (fst (scan_entry M E s (snd p))) N1) as (B0 & B1 & B2 & B3).
    set (b := sMax (fold_left _ _ _)) in *. rewrite EM in B1, B2.
    split; [exact B0|].
    destruct (fgtb (dist M E p) (sMax s)) eqn:G.
    + split; [destruct B1 as [B1|B1]; right; [left; auto|right; exact B1]|].
      split.
      * destruct (fgtb (sMax s) b) eqn:C; [|reflexivity]. unfold fgtb in *.
        pose proof (SFltb_trans _ _ _ C G). congruence.
      * intros x [<-|IN]; [exact B2|apply B3; exact IN].
    + split; [destruct B1 as [B1|B1]; [left; exact B1|right; right; exact B1]|].
      split; [exact B2|]. intros x [<-|IN]; [|apply B3; exact IN].
      destruct (fgtb (dist M E p) b) eqn:C; [|reflexivity]. unfold fgtb in *.
      destruct (SFltb_nan _ _ C) as [_ ND].
      rewrite <- C. eapply SFltb_neg; [exact B0|exact NN|exact ND|exact B2|exact G].
Qed.

(** ** The histogram *)

Lemma bucket_lt : forall u d m, (bucket u d m < 64)%nat.
Proof.
  intros. unfold bucket. cbv zeta. set (i := f_to_i64 _ _). clearbody i.
  destruct (Z.leb_spec 64 i).
  - replace (63 <=? 0)%Z with false by reflexivity. lia.
  - destruct (Z.leb_spec i 0); lia.
Qed.

Lemma bucket_right : forall u d m, right_bucket d m (bucket u d m).
Proof.
  intros u d m. split; [apply bucket_lt|]. intros z T R. unfold bucket. cbv zeta.
  unfold f_to_i64. rewrite T.
  replace ((-9223372036854775808 <=? z) && (z <? 9223372036854775808))%Z with true by lia.
  destruct (Z.leb_spec 64 z).
  - replace (63 <=? 0)%Z with false by lia. lia.
  - destruct (Z.leb_spec z 0); lia.
Qed.

Lemma bump_length : forall h i u, length (bump h i u) = length h.
Proof. induction h as [|x h IH]; intros [|i] u; cbn; auto. Qed.

Lemma bump_nth : forall h i u j, (i < length h)%nat ->
  nth j (bump h i u) fzero = if Nat.eqb i j then f32add (nth i h fzero) u else nth j h fzero.
Proof.
  induction h as [|x h IH]; intros i u j L; [cbn in L; lia|].
  destruct i as [|i]; destruct j as [|j]; cbn; auto. apply IH. cbn in L. lia.
Qed.

Lemma hist_fold : forall M E l s, feqb (eMax E) fzero = false ->
  length (sHist s) = 64%nat ->
  let h := sHist (scan_fold M E l s) in
  length h = 64%nat /\
  forall c, (forall i, (i < 64)%nat -> nth i (sHist s) fzero = pile (f32div (f32_of_Z 1) (eNFloat E)) (c i)) ->
  forall i, (i < 64)%nat -> nth i h fzero = pile (f32div (f32_of_Z 1) (eNFloat E))
      (in_bucket (fun p => bucket (eUndef E) (dist M E p) (eMax E)) i l + c i).
Proof.
  intros M E. induction l as [|p l IH]; intros s NZ L; cbv zeta.
  - cbn. auto.
  - unfold scan_fold in *. cbn [fold_left].
    destruct (scan_fields M E s (snd p)) as (_ & _ & EH). cbv zeta in EH. rewrite NZ in EH.
    fold (dist M E p) in EH.
    assert (L1 : length (sHist (fst (scan_entry M E s (snd p)))) = 64%nat) by (rewrite EH, bump_length; exact L).
    destruct (IH _ NZ L1) as [A B]. split; [exact A|]. intros c C i LI.
    rewrite (B (fun i => if Nat.eqb (bucket (eUndef E) (dist M E p) (eMax E)) i then S (c i) else c i)).
    + unfold in_bucket. cbn [filter]. destruct (Nat.eqb _ i); cbn [length]; f_equal; lia.
    + intros j LJ. rewrite EH, bump_nth by (rewrite L; apply bucket_lt).
      destruct (Nat.eqb_spec (bucket (eUndef E) (dist M E p) (eMax E)) j) as [<-|NE]; [|apply C; exact LJ].
      rewrite C by exact LJ. reflexivity.
    + exact LI.
Qed.

Lemma hist_fold_zero : forall M E l s, feqb (eMax E) fzero = true ->
  sHist (scan_fold M E l s) = sHist s.
Proof.
  intros M E. induction l as [|p l IH]; intros s Z; [reflexivity|].
  unfold scan_fold in *. cbn [fold_left]. rewrite IH by exact Z.
  destruct (scan_fields M E s (snd p)) as (_ & _ & EH). cbv zeta in EH. rewrite Z in EH. exact EH.
Qed.

(** ** The average *)

Lemma add_scaled_nth : forall avg p n j, length avg = length p ->
  nth j (add_scaled avg p n) fzero =
  if (j <? length p)%nat then f32add (nth j avg fzero) (f32div (nth j p fzero) n) else fzero.
Proof.
  induction avg as [|a avg IH]; intros [|x p] n j L; cbn in L; try lia.
  - cbn. destruct j; reflexivity.
  - destruct j as [|j]; [reflexivity|]. cbn [add_scaled nth length].
    rewrite IH by lia. destruct (Nat.ltb_spec j (length p)); destruct (Nat.ltb_spec (S j) (S (length p))); auto; lia.
Qed.

Lemma add_scaled_length : forall avg p n, length (add_scaled avg p n) = length avg.
Proof. induction avg as [|a avg IH]; intros [|x p] n; cbn; auto. Qed.

Lemma average_nth : forall avg p n j, feqb n fzero = false ->
  (length avg = length p \/ avg = []) ->
  length (CalculateAverage avg p n) = length p /\
  ((j < length p)%nat -> nth j (CalculateAverage avg p n) fzero = f32add (nth j avg fzero) (f32div (nth j p fzero) n)).
Proof.
  intros avg p n j NZ L. unfold CalculateAverage. rewrite NZ.
  destruct (Nat.ltb_spec (length avg) (length p)) as [LT|GE].
  - destruct L as [L|L]; [lia|]. subst avg. rewrite add_scaled_length, repeat_length.
    split; [reflexivity|]. intro LJ. rewrite add_scaled_nth by (apply repeat_length).
    destruct (Nat.ltb_spec j (length p)); [|lia]. f_equal. rewrite nth_repeat. destruct j; reflexivity.
  - assert (L' : length avg = length p) by (destruct L as [L|L]; [exact L|subst avg; cbn in *; lia]).
    rewrite add_scaled_length. split; [exact L'|]. intro LJ. rewrite add_scaled_nth by exact L'.
    destruct (Nat.ltb_spec j (length p)); [reflexivity|lia].
Qed.

Lemma avg_fold : forall M E dim l s, feqb (eNFloat E) fzero = false ->
  Forall (fun p => length (features (edatum (snd p))) = dim) l ->
  (length (sAvg s) = dim \/ sAvg s = []) ->
  let a := sAvg (scan_fold M E l s) in
  (length a = dim \/ a = []) /\ (l <> [] -> length a = dim) /\
  forall j, (j < dim)%nat ->
    nth j a fzero = fold_left (fun a x => f32add a (f32div x (eNFloat E)))
                      (map (fun p => nth j (features (edatum (snd p))) fzero) l) (nth j (sAvg s) fzero).
Proof.
  intros M E dim. induction l as [|p l IH]; intros s NZ F L; cbv zeta.
  - cbn. split; [exact L|]. split; [congruence|reflexivity].
  - unfold scan_fold in *. cbn [fold_left map]. inversion F; subst.
    destruct (scan_fields M E s (snd p)) as (EA & _ & _).
    assert (LL : length (sAvg (fst (scan_entry M E s (snd p)))) = length (features (edatum (snd p)))).
    { rewrite EA. apply (average_nth _ _ _ 0%nat NZ L). }
    destruct (IH _ NZ H2 (or_introl LL)) as (A & B & C).
    split; [exact A|]. split.
    { intros _. destruct l as [|q l]; [exact LL|]. apply B. discriminate. }
    intros j LJ. rewrite C by exact LJ. f_equal. rewrite EA.
    destruct (average_nth (sAvg s) (features (edatum (snd p))) (eNFloat E) j NZ L) as [_ X]. apply X. exact LJ.
Qed.
