(** The accuracy of QuickVectorDistance and of VectorDistance. *)
From Coq Require Import ZArith Lia List Bool.
From Verif.Base Require Import GoBase Float.
From Verif.Model Require Import Vector.
From Verif.Spec Require Import AccuracySpec.
From Verif.Proof Require Import RoundP MonoP ExactP SizeP NearP AngleP ErrorP.
Import ListNotations.
Open Scope Z_scope.

Definition zsum (l : list Z) : Z := fold_right Z.add 0 l.

Lemma zsum_error : forall (A : Type) (f g : A -> Z) c q l,
  (forall x, In x l -> Z.abs (f x - g x) * q <= c * g x) -> 0 <= q ->
  Z.abs (zsum (map f l) - zsum (map g l)) * q <= c * zsum (map g l).
Proof.
  intros A f g c q l H Hq. induction l as [|x l IH]; cbn [map zsum fold_right]; [cbn; lia|].
  fold (zsum (map f l)). fold (zsum (map g l)).
  pose proof (H x (or_introl eq_refl)) as H1. specialize (IH (fun y Y => H y (or_intror Y))).
  apply Z.le_trans with ((Z.abs (f x - g x) + Z.abs (zsum (map f l) - zsum (map g l))) * q).
  - apply Z.mul_le_mono_nonneg_r; lia.
  - rewrite Z.mul_add_distr_r, Z.mul_add_distr_l. lia.
Qed.

Lemma zsum_scale : forall (A : Type) (f g : A -> Z) c l, (forall x, In x l -> f x = g x * c) ->
  zsum (map f l) = zsum (map g l) * c.
Proof.
  intros A f g c l H. induction l as [|x l IH]; cbn [map zsum fold_right]; [reflexivity|].
  fold (zsum (map f l)). fold (zsum (map g l)). rewrite (H x (or_introl eq_refl)), (IH (fun y Y => H y (or_intror Y))). ring.
Qed.

Lemma zsum_bound : forall (A : Type) (f : A -> Z) B l, (forall x, In x l -> f x <= B) ->
  zsum (map f l) <= Z.of_nat (length l) * B.
Proof.
  intros A f B l H. induction l as [|x l IH]; cbn [map zsum fold_right length]; [lia|].
  fold (zsum (map f l)). pose proof (H x (or_introl eq_refl)). specialize (IH (fun y Y => H y (or_intror Y))). lia.
Qed.

Lemma zsum_nonneg : forall (A : Type) (f : A -> Z) l, (forall y, In y l -> 0 <= f y) -> 0 <= zsum (map f l).
Proof.
  intros A f l H. induction l as [|x l IH]; cbn [map zsum fold_right]; [lia|].
  fold (zsum (map f l)). pose proof (H x (or_introl eq_refl)). specialize (IH (fun y Y => H y (or_intror Y))). lia.
Qed.

Lemma zsum_member : forall (A : Type) (f : A -> Z) l x, (forall y, In y l -> 0 <= f y) -> In x l -> f x <= zsum (map f l).
Proof.
  intros A f l. induction l as [|a l IH]; intros x H []; cbn [map zsum fold_right]; fold (zsum (map f l)).
  - subst. pose proof (zsum_nonneg A f l (fun y Y => H y (or_intror Y))). lia.
  - pose proof (H a (or_introl eq_refl)). specialize (IH x (fun y Y => H y (or_intror Y)) H0). lia.
Qed.

Definition quick_term (p : float * float) : float := f64_of_f32 (SFabs (f32sub (fst p) (snd p))).

Lemma quick_fold : forall a b r, quick_loop r a b = fold_left f64add (map quick_term (combine a b)) r.
Proof. induction a as [|x a IH]; intros [|y b] r; try reflexivity. cbn [quick_loop combine map fold_left]. apply IH. Qed.

Definition both (P : float -> Prop) (p : float * float) : Prop := P (fst p) /\ P (snd p).

Lemma combine_both : forall P a b, Forall P a -> Forall P b -> Forall (both P) (combine a b).
Proof.
  intros P a. induction a as [|x a IH]; intros [|y b] A B; cbn; try constructor; inversion A; inversion B; subst.
  - split; auto.
  - apply IH; auto.
Qed.

Lemma quick_arith : forall V T S n c, 0 < c -> 0 <= T -> 0 <= n <= 2 ^ 27 ->
  Z.abs (V - S * c) * 2 ^ 53 <= 2 * n * (S * c) -> Z.abs (S - T) * 2 ^ 24 <= 1 * T -> 0 <= S ->
  Z.abs (V - T * c) * 2 ^ 23 <= T * c.
Proof.
  intros V T S n c Hc HT Hn H1 H2 HS.
  assert (S2 : S * 2 ^ 24 <= T * (2 ^ 24 + 1)) by lia.
  assert (A1 : 2 * n * (S * c) <= 2 ^ 28 * (S * c)).
  { apply Z.mul_le_mono_nonneg_r; [apply Z.mul_nonneg_nonneg; lia|]. change (2 ^ 28) with (2 * 2 ^ 27). lia. }
  assert (A2 : Z.abs (S * c - T * c) = Z.abs (S - T) * c).
  { rewrite <- Z.mul_sub_distr_r, Z.abs_mul, (Z.abs_eq c) by lia. reflexivity. }
  assert (A3 : Z.abs (S - T) * c * 2 ^ 24 <= T * c).
  { replace (Z.abs (S - T) * c * 2 ^ 24) with (Z.abs (S - T) * 2 ^ 24 * c) by ring. apply Z.mul_le_mono_nonneg_r; lia. }
  assert (A4 : S * c * 2 ^ 24 <= T * c * (2 ^ 24 + 1)).
  { replace (S * c * 2 ^ 24) with (S * 2 ^ 24 * c) by ring. replace (T * c * (2 ^ 24 + 1)) with (T * (2 ^ 24 + 1) * c) by ring.
    apply Z.mul_le_mono_nonneg_r; lia. }
  assert (0 <= T * c) by (apply Z.mul_nonneg_nonneg; lia).
  assert (0 <= S * c) by (apply Z.mul_nonneg_nonneg; lia).
  set (sc := S * c) in *. set (tc := T * c) in *. clearbody sc tc. lia.
Qed.

Lemma top64 : exists z, unsigned 53 1024 z /\ units (-1074) z = 2 ^ 2097.
Proof.
  exists (S754_finite false (2 ^ 52) 971). split; [reflexivity|]. cbn [units]. change (Zpos (2 ^ 52)) with (2 ^ 52).
  rewrite <- Z.pow_add_r by lia. f_equal.
Qed.

Lemma in_gap : forall a b p, Forall finite32 a -> Forall finite32 b -> In p (combine a b) ->
  finite32 (fst p) /\ finite32 (snd p).
Proof.
  intros a b p A B H. pose proof (combine_both finite32 a b A B) as C. rewrite Forall_forall in C. apply C. exact H.
Qed.

Theorem quick_error : forall a b, Forall finite32 a -> Forall finite32 b ->
  Forall (fun d => d <= 2 ^ 276) (gaps a b) -> Z.of_nat (length (combine a b)) <= 2 ^ 27 ->
  unsigned 53 1024 (QuickVectorDistance a b) /\
  Z.abs (units (-1074) (QuickVectorDistance a b) - taxi32 a b * 2 ^ 925) * 2 ^ 23 <= taxi32 a b * 2 ^ 925.
Proof.
  intros a b A B G Hn. unfold QuickVectorDistance. rewrite quick_fold. set (l := combine a b) in *.
  assert (GE : forall p, In p l -> let d := SFabs (f32sub (fst p) (snd p)) in
     unsigned 24 128 d /\ Z.abs (units (-149) d - gap (fst p) (snd p)) * 2 ^ 24 <= gap (fst p) (snd p) /\ units (-149) d <= 2 ^ 276).
  { intros p Hp. destruct (in_gap a b p A B Hp) as [P1 P2]. apply gap_error; auto.
    rewrite Forall_forall in G. apply G. unfold gaps. apply in_map_iff. exists p. auto. }
  assert (U : Forall (unsigned 53 1024) (map quick_term l)).
  { rewrite Forall_forall. intros x Hx. apply in_map_iff in Hx as (p & <- & Hp). apply widen_units. apply GE; auto. }
  set (S := zsum (map (fun p => units (-149) (SFabs (f32sub (fst p) (snd p)))) l)).
  assert (US : usum 53 1024 (map quick_term l) = S * 2 ^ 925).
  { unfold usum. rewrite map_map. apply zsum_scale. intros p Hp. apply widen_units. apply GE; auto. }
  assert (SB : S <= Z.of_nat (length l) * 2 ^ 276) by (apply zsum_bound; intros p Hp; apply GE; auto).
  assert (S0 : 0 <= S).
  { apply zsum_nonneg. intros p _. apply units_nonneg. }
  assert (SE : Z.abs (S - taxi32 a b) * 2 ^ 24 <= 1 * taxi32 a b).
  { unfold S, taxi32, gaps. fold (zsum (map (fun p => gap (fst p) (snd p)) (combine a b))). fold l. apply zsum_error; [|lia].
    intros p Hp. rewrite Z.mul_1_l. apply GE; auto. }
  destruct top64 as (z & Z1 & Z2).
  destruct (sum_error 53 1024 ltac:(lia) z Z1 (map quick_term l) U) as [R1 R2].
  { rewrite map_length. eapply Z.le_trans; [apply Z.mul_le_mono_nonneg_l; [lia|exact Hn]|]. vm_compute. discriminate. }
  { change (emin 53 1024) with (-1074). rewrite US, Z2.
    apply Z.le_trans with (2 * (2 ^ 27 * 2 ^ 276 * 2 ^ 925)).
    - apply Z.mul_le_mono_nonneg_l; [lia|]. apply Z.mul_le_mono_nonneg_r; [apply Z.pow_nonneg; lia|].
      eapply Z.le_trans; [exact SB|]. apply Z.mul_le_mono_nonneg_r; [apply Z.pow_nonneg; lia|exact Hn].
    - vm_compute. discriminate. }
  rewrite US, map_length in R2.
  split; [exact R1|]. apply (quick_arith _ _ S (Z.of_nat (length l))); auto.
  - apply Z.pow_pos_nonneg; lia.
  - apply zsum_nonneg. intros p _. apply gap_nonneg.
  - lia.
Qed.

(** ** VectorDistance *)
Definition euclid_term (p : float * float) : float := f32mul (f32sub (fst p) (snd p)) (f32sub (fst p) (snd p)).

Lemma euclid_fold : forall M, squares M -> forall a b r,
  euclid_loop M r a b = fold_left f32add (map euclid_term (combine a b)) r.
Proof.
  intros M HM. induction a as [|x a IH]; intros [|y b] r; try reflexivity.
  cbn [euclid_loop combine map fold_left]. rewrite HM. apply IH.
Qed.

Lemma mul_abs : forall x, f32mul x x = f32mul (SFabs x) (SFabs x).
Proof. intros [s|s| |s m e]; cbn; try reflexivity; destruct s; reflexivity. Qed.

Lemma square_arith : forall P u g q, 8 <= q -> 0 <= u -> 0 <= g ->
  Z.abs (u - g) * q <= g -> Z.abs (P - u * u) * q <= u * u -> Z.abs (P - g * g) * q <= 4 * (g * g).
Proof.
  intros P u g q Hq Hu Hg H1 H2.
  assert (U : u * q <= g * (q + 1)) by lia.
  assert (U2 : (u * u) * (q * q) <= (g * g) * ((q + 1) * (q + 1))).
  { replace (u * u * (q * q)) with ((u * q) * (u * q)) by ring. replace (g * g * ((q + 1) * (q + 1))) with ((g * (q + 1)) * (g * (q + 1))) by ring.
    assert (0 <= u * q) by (apply Z.mul_nonneg_nonneg; lia). apply Z.mul_le_mono_nonneg; lia. }
  assert (D : Z.abs (u * u - g * g) = Z.abs (u - g) * (u + g)).
  { replace (u * u - g * g) with ((u - g) * (u + g)) by ring. rewrite Z.abs_mul, (Z.abs_eq (u + g)) by lia. reflexivity. }
  assert (D2 : Z.abs (u * u - g * g) * (q * q) <= (g * g) * (2 * q + 1)).
  { rewrite D. replace (Z.abs (u - g) * (u + g) * (q * q)) with ((Z.abs (u - g) * q) * ((u + g) * q)) by ring.
    replace (g * g * (2 * q + 1)) with (g * (g * (2 * q + 1))) by ring.
    assert (0 <= Z.abs (u - g) * q) by (apply Z.mul_nonneg_nonneg; lia).
    assert (0 <= (u + g) * q) by (apply Z.mul_nonneg_nonneg; lia).
    apply Z.mul_le_mono_nonneg; lia. }
  assert (E : Z.abs (P - u * u) * q * (q * q) <= u * u * (q * q)).
  { apply Z.mul_le_mono_nonneg_r; [apply Z.mul_nonneg_nonneg; lia|exact H2]. }
  assert (F : Z.abs (P - g * g) * q * (q * q) <= 4 * (g * g) * (q * q)).
  { apply Z.le_trans with ((Z.abs (P - u * u) + Z.abs (u * u - g * g)) * q * (q * q)).
    - apply Z.mul_le_mono_nonneg_r; [apply Z.mul_nonneg_nonneg; lia|]. apply Z.mul_le_mono_nonneg_r; lia.
    - rewrite !Z.mul_add_distr_r.
      assert (Z.abs (u * u - g * g) * q * (q * q) <= g * g * (2 * q + 1) * q).
      { replace (Z.abs (u * u - g * g) * q * (q * q)) with (Z.abs (u * u - g * g) * (q * q) * q) by ring.
        apply Z.mul_le_mono_nonneg_r; lia. }
      apply Z.le_trans with (g * g * ((q + 1) * (q + 1)) + g * g * (2 * q + 1) * q); [lia|].
      replace (g * g * ((q + 1) * (q + 1)) + g * g * (2 * q + 1) * q) with (g * g * (3 * q * q + 3 * q + 1)) by ring.
      replace (4 * (g * g) * (q * q)) with (g * g * (4 * q * q)) by ring.
      apply Z.mul_le_mono_nonneg_l; [apply Z.mul_nonneg_nonneg; lia|]. assert (8 * q <= q * q) by (apply Z.mul_le_mono_nonneg_r; lia). lia. }
  apply (Z.mul_le_mono_pos_r _ _ (q * q)); [apply Z.mul_pos_pos; lia|exact F].
Qed.

(** The square of a difference of at least 2^-62 is off by at most 4 parts in 2^24. *)
Lemma square_error : forall x y, finite32 x -> finite32 y -> gap x y = 0 \/ 2 ^ 87 <= gap x y -> gap x y * gap x y <= 2 ^ 423 ->
  let p := euclid_term (x, y) in
  unsigned 24 128 p /\
  Z.abs (units (-149) p * 2 ^ 149 - gap x y * gap x y) * 2 ^ 24 <= 4 * (gap x y * gap x y).
Proof.
  intros x y X Y L T. unfold euclid_term. cbn [fst snd]. rewrite mul_abs.
  assert (G : gap x y < 2 ^ 212).
  { destruct (Z.lt_ge_cases (gap x y) (2 ^ 212)) as [?|N]; auto. exfalso.
    assert (2 ^ 212 * 2 ^ 212 <= gap x y * gap x y) by (apply Z.mul_le_mono_nonneg; auto; vm_compute; discriminate).
    assert (2 ^ 423 < 2 ^ 212 * 2 ^ 212) by reflexivity. apply (Z.lt_irrefl (2 ^ 423)). eapply Z.lt_le_trans; [exact H0|]. eapply Z.le_trans; eauto. }
  destruct (gap_error x y X Y) as (U & E & _).
  { apply Z.lt_le_incl. eapply Z.lt_trans; [exact G|reflexivity]. }
  pose proof (gap_nonneg x y) as G0. set (g := gap x y) in *. clearbody g. set (d := SFabs (f32sub x y)) in *. clearbody d. clear X Y.
  pose proof (units_nonneg d (-149)) as D0.
  destruct L as [L|L].
  { subst g. assert (Z0 : units (-149) d = 0) by lia. destruct d as [s|s| |[] m e]; cbn [unsigned] in U; try contradiction.
    - split; [exact I|]. cbn. lia.
    - exfalso. cbn [units] in Z0. destruct (bounded_spec 24 128 ltac:(lia) m e U) as (_ & B & _). rewrite lo32 in B.
      assert (0 < Zpos m * 2 ^ (e - -149)); [|lia]. apply Z.mul_pos_pos; [lia|apply Z.pow_pos_nonneg; lia]. }
  assert (D1 : 2 ^ 86 <= units (-149) d) by lia.
  assert (D2 : units (-149) d <= 2 * g) by lia.
  destruct d as [s|s| |[] m e]; cbn [unsigned] in U; try contradiction.
  destruct (bounded_spec 24 128 ltac:(lia) m e U) as (_ & B & _). rewrite lo32 in B.
  pose proof (rounds_mul 24 128 ltac:(lia) ltac:(lia) m e m e (-298) U U ltac:(rewrite lo32; lia) ltac:(lia)) as R.
  assert (Q : Zpos m * Zpos m * 2 ^ (e + e - -298) = units (-149) (S754_finite false m e) * units (-149) (S754_finite false m e)).
  { cbn [units]. replace (e + e - -298) with ((e - -149) + (e - -149)) by lia. rewrite Z.pow_add_r by lia. ring. }
  rewrite Q in R. set (u := units (-149) (S754_finite false m e)) in *. clearbody u. clear Q.
  cbn [SFabs]. unfold f32mul. change prec32 with 24. change emax32 with 128.
  set (p := SFmul 24 128 (S754_finite false m e) (S754_finite false m e)) in *. clearbody p.
  destruct (pow32 104 ltac:(lia)) as (z & ZU & ZV). change (2 ^ (104 + 149 + 23)) with (2 ^ 276) in ZV.
  assert (SH : forall t, unsigned 24 128 t -> units (-298) t = units (-149) t * 2 ^ 149).
  { intros [s|s| |[] m1 e1] H; cbn [unsigned] in H; try contradiction; [reflexivity|]. cbn [units].
    destruct (bounded_spec 24 128 ltac:(lia) m1 e1 H) as (_ & B' & _). rewrite lo32 in B'.
    rewrite <- Z.mul_assoc, <- Z.pow_add_r by lia. f_equal. f_equal. lia. }
  assert (UU : u * u <= 2 ^ 425).
  { apply Z.le_trans with ((2 * g) * (2 * g)); [apply Z.mul_le_mono_nonneg; lia|].
    replace (2 * g * (2 * g)) with (4 * (g * g)) by ring. apply Z.le_trans with (4 * 2 ^ 423); [lia|vm_compute; discriminate]. }
  destruct (rounds_upto 24 128 ltac:(lia) (-298) (u * u) p z ltac:(rewrite lo32; lia) ltac:(apply Z.mul_nonneg_nonneg; lia) R ZU) as (_ & _ & PU).
  { rewrite (SH z ZU), ZV. eapply Z.le_trans; [exact UU|]. vm_compute. discriminate. }
  split; [exact PU|]. rewrite <- (SH p PU). apply (square_arith _ u g); auto; [vm_compute; discriminate|].
  pose proof (rounds_error 24 128 ltac:(lia) 1 (-298) (u * u) p ltac:(lia) R PU) as RE. rewrite !Z.mul_1_l in RE. apply RE.
  - rewrite lo32. apply Z.le_trans with (2 ^ 86 * 2 ^ 86); [vm_compute; discriminate|]. apply Z.mul_le_mono_nonneg; auto; vm_compute; discriminate.
  - rewrite lo32. lia.
Qed.

Lemma euclid_arith : forall R S T n c q, 0 < c -> 0 < q -> 0 <= T -> 0 <= S -> 0 <= n -> 8 * n <= q ->
  Z.abs (R - S) * q <= 2 * n * S -> Z.abs (S * c - T) * q <= 4 * T ->
  Z.abs (R * c - T) * q <= (2 * n + 5) * T.
Proof.
  intros R S T n c q Hc Hq HT HS Hn Hk H1 H2.
  assert (A1 : Z.abs (R * c - S * c) * q <= 2 * n * (S * c)).
  { rewrite <- Z.mul_sub_distr_r, Z.abs_mul, (Z.abs_eq c) by lia.
    replace (Z.abs (R - S) * c * q) with (Z.abs (R - S) * q * c) by ring.
    replace (2 * n * (S * c)) with (2 * n * S * c) by ring. apply Z.mul_le_mono_nonneg_r; lia. }
  assert (A2 : S * c * q <= T * (q + 4)) by lia.
  assert (0 <= S * c) by (apply Z.mul_nonneg_nonneg; lia). set (sc := S * c) in *. clearbody sc.
  assert (A3 : 2 * n * sc <= 2 * n * T + T).
  { apply (Z.mul_le_mono_pos_r _ _ q); [lia|].
    assert (2 * n * (sc * q) <= 2 * n * (T * (q + 4))) by (apply Z.mul_le_mono_nonneg_l; lia).
    assert (8 * n * T <= q * T) by (apply Z.mul_le_mono_nonneg_r; lia).
    replace (2 * n * sc * q) with (2 * n * (sc * q)) by ring.
    replace ((2 * n * T + T) * q) with (2 * n * (T * (q + 4)) - 8 * n * T + q * T) by ring. lia. }
  apply Z.le_trans with ((Z.abs (R * c - sc) + Z.abs (sc - T)) * q); [apply Z.mul_le_mono_nonneg_r; lia|].
  rewrite Z.mul_add_distr_r. replace ((2 * n + 5) * T) with (2 * n * T + T + 4 * T) by ring. lia.
Qed.

Lemma euclid_nonneg : forall a b, 0 <= euclid32 a b.
Proof. intros a b. apply zsum_nonneg. intros d _. apply Z.square_nonneg. Qed.

Theorem loop_error : forall M a b, squares M -> Forall finite32 a -> Forall finite32 b ->
  Forall apart (gaps a b) -> euclid32 a b <= 2 ^ 423 -> Z.of_nat (length (combine a b)) <= 2 ^ 21 ->
  let r := euclid_loop M fzero a b in
  unsigned 24 128 r /\
  Z.abs (units (-149) r * 2 ^ 149 - euclid32 a b) * 2 ^ 24 <= (2 * Z.of_nat (length (combine a b)) + 5) * euclid32 a b.
Proof.
  intros M a b HM A B G HT Hn r. unfold r. clear r. rewrite (euclid_fold M HM). set (l := combine a b) in *.
  assert (GE : forall p, In p l -> unsigned 24 128 (euclid_term p) /\
     Z.abs (units (-149) (euclid_term p) * 2 ^ 149 - gap (fst p) (snd p) * gap (fst p) (snd p)) * 2 ^ 24 <= 4 * (gap (fst p) (snd p) * gap (fst p) (snd p))).
  { intros [x y] Hp. destruct (in_gap a b (x, y) A B Hp) as [P1 P2]. cbn [fst snd] in *. apply square_error; auto.
    - rewrite Forall_forall in G. apply G. unfold gaps. apply in_map_iff. exists (x, y). auto.
    - eapply Z.le_trans; [|exact HT]. unfold euclid32. apply (zsum_member Z (fun d => d * d) (gaps a b) (gap x y)).
      + intros d _. apply Z.square_nonneg.
      + unfold gaps. apply in_map_iff. exists (x, y). auto. }
  assert (U : Forall (unsigned 24 128) (map euclid_term l)).
  { rewrite Forall_forall. intros x Hx. apply in_map_iff in Hx as (p & <- & Hp). apply GE; auto. }
  assert (US : usum 24 128 (map euclid_term l) * 2 ^ 149 = zsum (map (fun p => units (-149) (euclid_term p) * 2 ^ 149) l)).
  { unfold usum. rewrite map_map. symmetry. apply zsum_scale. intros p _. reflexivity. }
  pose proof (usum_nonneg 24 128 (map euclid_term l)) as S0.
  assert (SE : Z.abs (usum 24 128 (map euclid_term l) * 2 ^ 149 - euclid32 a b) * 2 ^ 24 <= 4 * euclid32 a b).
  { rewrite US. unfold euclid32, gaps. rewrite map_map. apply zsum_error; [|lia]. intros p Hp. apply GE; auto. }
  pose proof (euclid_nonneg a b) as T0.
  set (S := usum 24 128 (map euclid_term l)) in *. set (T := euclid32 a b) in *.
  destruct (pow32 104 ltac:(lia)) as (z & ZU & ZV). change (2 ^ (104 + 149 + 23)) with (2 ^ 276) in ZV.
  destruct (sum_error 24 128 ltac:(lia) z ZU (map euclid_term l) U) as [R1 R2].
  { rewrite map_length. lia. }
  { change (emin 24 128) with (-149). rewrite ZV. fold S. clear - SE HT T0 S0. clearbody S T.
    assert (S * 2 ^ 149 <= 2 * T) by lia. assert (S * 2 ^ 149 <= 2 * 2 ^ 423) by (eapply Z.le_trans; [exact H|apply Z.mul_le_mono_nonneg_l; lia]).
    change (2 * 2 ^ 423) with (2 ^ 275 * 2 ^ 149) in H0. change (2 ^ 276) with (2 * 2 ^ 275).
    apply Z.mul_le_mono_nonneg_l; [lia|]. apply (Z.mul_le_mono_pos_r _ _ (2 ^ 149)); [reflexivity|exact H0]. }
  fold S in R2. rewrite map_length in R2. split; [exact R1|].
  apply (euclid_arith _ S T (Z.of_nat (length l)) (2 ^ 149) (2 ^ 24)); auto; lia.
Qed.

(** The square of the rounded root. *)
Lemma root_error : forall A u, 2 ^ 200 <= A -> Z.abs (2 * u - root2 A) * 2 ^ 53 <= root2 A -> 0 <= u ->
  Z.abs (u * u - A) * 2 ^ 50 <= A.
Proof.
  intros A u HA H Hu.
  assert (S : Z.abs (root2 A * root2 A - 4 * A) <= 2 * root2 A + 1 /\ 2 ^ 100 <= root2 A).
  { unfold root2. pose proof (Z.sqrt_spec A ltac:(lia)) as [L1 L2].
    assert (K : 2 ^ 100 <= Z.sqrt A) by (change (2 ^ 100) with (Z.sqrt (2 ^ 200)); apply Z.sqrt_le_mono; exact HA).
    set (s := Z.sqrt A) in *. clearbody s. destruct (Z.eqb_spec (s * s) A) as [E|E].
    - split; [|lia]. replace (2 * s * (2 * s)) with (4 * (s * s)) by ring. lia.
    - split; [|lia]. replace ((2 * s + 1) * (2 * s + 1)) with (4 * (s * s) + 4 * s + 1) by ring.
      replace (Z.succ s * Z.succ s) with (s * s + 2 * s + 1) in L2 by ring. lia. }
  destruct S as [S1 S2]. set (q := root2 A) in *. clearbody q.
  assert (U : 2 * u <= 2 * q) by lia.
  assert (D : Z.abs ((2 * u) * (2 * u) - q * q) * 2 ^ 53 <= q * (3 * q)).
  { replace (2 * u * (2 * u) - q * q) with ((2 * u - q) * (2 * u + q)) by ring. rewrite Z.abs_mul, (Z.abs_eq (2 * u + q)) by lia.
    replace (Z.abs (2 * u - q) * (2 * u + q) * 2 ^ 53) with (Z.abs (2 * u - q) * 2 ^ 53 * (2 * u + q)) by ring.
    apply Z.mul_le_mono_nonneg; lia. }
  assert (Q : 2 ^ 100 * q <= q * q) by (apply Z.mul_le_mono_nonneg_r; lia).
  replace (2 * u * (2 * u)) with (4 * (u * u)) in D by ring. replace (q * (3 * q)) with (3 * (q * q)) in D by ring.
  set (uu := u * u) in *. set (qq := q * q) in *. clearbody uu qq. clear H U Hu. lia.
Qed.

Lemma units_max : forall r, unsigned 24 128 r -> units (-149) r <= 2 ^ 277.
Proof.
  intros [s|s| |[] m e] U; cbn [unsigned units] in *; try contradiction; [apply Z.pow_nonneg; lia|].
  destruct (bounded_spec 24 128 ltac:(lia) m e U) as (A & B & _). rewrite lo32 in B.
  change (2 ^ 277) with (2 ^ 24 * 2 ^ 253). apply Z.mul_le_mono_nonneg; try lia.
  apply Z.pow_le_mono_r; lia.
Qed.

Lemma final_arith : forall V R T n c, 0 < c -> 0 <= T -> 0 <= n <= 2 ^ 21 ->
  Z.abs (R - T) * 2 ^ 24 <= (2 * n + 5) * T -> Z.abs (V - R * c) * 2 ^ 50 <= R * c ->
  Z.abs (V - T * c) * 2 ^ 24 <= (2 * n + 6) * (T * c).
Proof.
  intros V R T n c Hc HT Hn H1 H2.
  assert (K : (2 * n + 5) * T <= 2 ^ 24 * T) by (apply Z.mul_le_mono_nonneg_r; lia).
  assert (R2 : R <= 2 * T) by lia.
  assert (R2c : R * c <= 2 * (T * c)) by (replace (2 * (T * c)) with (2 * T * c) by ring; apply Z.mul_le_mono_nonneg_r; lia).
  assert (A : Z.abs (R * c - T * c) * 2 ^ 24 <= (2 * n + 5) * (T * c)).
  { rewrite <- Z.mul_sub_distr_r, Z.abs_mul, (Z.abs_eq c) by lia.
    replace (Z.abs (R - T) * c * 2 ^ 24) with (Z.abs (R - T) * 2 ^ 24 * c) by ring.
    replace ((2 * n + 5) * (T * c)) with ((2 * n + 5) * T * c) by ring. apply Z.mul_le_mono_nonneg_r; lia. }
  assert (0 <= T * c) by (apply Z.mul_nonneg_nonneg; lia).
  replace ((2 * n + 6) * (T * c)) with ((2 * n + 5) * (T * c) + T * c) by ring.
  set (x := (2 * n + 5) * (T * c)) in *. set (rc := R * c) in *. set (tc := T * c) in *. clearbody x rc tc. lia.
Qed.

Theorem distance_error : forall M a b, squares M -> Forall finite32 a -> Forall finite32 b ->
  Forall apart (gaps a b) -> euclid32 a b <= 2 ^ 423 -> Z.of_nat (length (combine a b)) <= 2 ^ 21 ->
  let D := VectorDistance M a b in
  unsigned 53 1024 D /\
  Z.abs (units (-1074) D * units (-1074) D - euclid32 a b * 2 ^ 1850) * 2 ^ 24 <=
    (2 * Z.of_nat (length (combine a b)) + 6) * (euclid32 a b * 2 ^ 1850).
Proof.
  intros M a b HM A B G HT Hn D. destruct (loop_error M a b HM A B G HT Hn) as [R1 R2].
  unfold D, VectorDistance. clear D. set (r := euclid_loop M fzero a b) in *. clearbody r.
  destruct (widen_units r R1) as [W1 W2].
  pose proof (euclid_nonneg a b) as T0. set (T := euclid32 a b) in *. clearbody T.
  set (n := Z.of_nat (length (combine a b))) in *. assert (N0 : 0 <= n) by (unfold n; lia). clearbody n.
  assert (F : unsigned 53 1024 (f64sqrt (f64_of_f32 r)) /\
    Z.abs (units (-1074) (f64sqrt (f64_of_f32 r)) * units (-1074) (f64sqrt (f64_of_f32 r)) - (units (-149) r * 2 ^ 149) * 2 ^ 1850) * 2 ^ 50
      <= (units (-149) r * 2 ^ 149) * 2 ^ 1850).
  { assert (RR : r = S754_zero false \/ r = S754_zero true \/ 1 <= units (-149) r).
    { destruct r as [[]|s| |[] m e]; cbn [unsigned] in R1; try contradiction; auto. right. right. cbn [units].
      destruct (bounded_spec 24 128 ltac:(lia) m e R1) as (_ & B' & _). rewrite lo32 in B'.
      assert (0 < Zpos m * 2 ^ (e - -149)); [|lia]. apply Z.mul_pos_pos; [lia|apply Z.pow_pos_nonneg; lia]. }
    destruct RR as [->|[->|RR]]; [split; [exact I|cbn; lia]|split; [exact I|cbn; lia]|].
    destruct (f64_of_f32 r) as [s|s| |[] m e]; cbn [unsigned] in W1; try contradiction.
    { exfalso. cbn [units] in W2. assert (0 < units (-149) r * 2 ^ 925); [|lia]. apply Z.mul_pos_pos; [lia|reflexivity]. }
    destruct (bounded_spec 53 1024 ltac:(lia) m e W1) as (_ & B' & _). change (emin 53 1024) with (-1074) in B'.
    pose proof (rounds_sqrt 53 1024 ltac:(lia) m e (-1075) W1 ltac:(unfold emin; lia) ltac:(lia)) as R.
    assert (AE : Zpos m * 2 ^ (e - 2 * -1075) = units (-149) r * 2 ^ 2001).
    { cbn [units] in W2. change (2 ^ 2001) with (2 ^ 925 * 2 ^ 1076). rewrite Z.mul_assoc, <- W2, <- Z.mul_assoc, <- Z.pow_add_r by lia.
      f_equal. f_equal. lia. }
    rewrite AE in R. unfold f64sqrt. change prec64 with 53. change emax64 with 1024.
    set (D := SFsqrt 53 1024 (S754_finite false m e)) in *. clearbody D.
    assert (AB : 2 ^ 200 <= units (-149) r * 2 ^ 2001).
    { apply Z.le_trans with (1 * 2 ^ 2001); [vm_compute; discriminate|]. apply Z.mul_le_mono_nonneg_r; [apply Z.pow_nonneg; lia|exact RR]. }
    destruct (rounds_range 53 1024 ltac:(lia) _ _ _ _ R) as [U|I0].
    - split; [exact U|]. pose proof (rounds_error 53 1024 ltac:(lia) 2 (-1075) _ D ltac:(lia) R U) as RE.
      assert (RB : 2 ^ 90 <= root2 (units (-149) r * 2 ^ 2001)).
      { apply Z.le_trans with (root2 (2 ^ 200)); [vm_compute; discriminate|]. apply root2_mono. split; [vm_compute; discriminate|exact AB]. }
      assert (RE' : Z.abs (2 * units (-1075) D - root2 (units (-149) r * 2 ^ 2001)) * 2 ^ 53 <= root2 (units (-149) r * 2 ^ 2001)).
      { apply RE; [|unfold emin; lia]. eapply Z.le_trans; [|exact RB]. vm_compute. discriminate. }
      pose proof (root_error _ _ AB RE' (units_nonneg D (-1075))) as Q.
      assert (DD : units (-1075) D = 2 * units (-1074) D).
      { destruct D as [s|s| |[] m1 e1]; cbn [unsigned] in U; try contradiction; [reflexivity|]. cbn [units].
        destruct (bounded_spec 53 1024 ltac:(lia) m1 e1 U) as (_ & B1 & _). change (emin 53 1024) with (-1074) in B1.
        replace (e1 - -1075) with (Z.succ (e1 - -1074)) by lia. rewrite Z.pow_succ_r by lia. ring. }
      rewrite DD in Q. change (2 ^ 2001) with (4 * (2 ^ 149 * 2 ^ 1850)) in Q.
      replace (2 * units (-1074) D * (2 * units (-1074) D)) with (4 * (units (-1074) D * units (-1074) D)) in Q by ring.
      replace (units (-149) r * (4 * (2 ^ 149 * 2 ^ 1850))) with (4 * (units (-149) r * 2 ^ 149 * 2 ^ 1850)) in Q by ring.
      set (vv := units (-1074) D * units (-1074) D) in *. set (rr := units (-149) r * 2 ^ 149 * 2 ^ 1850) in *. clearbody vv rr.
      clear - Q. lia.
    - exfalso. subst D. destruct top64 as (z & Z1 & Z2).
      pose proof (rounds_itself 53 1024 ltac:(lia) z (-1075) ltac:(unfold emin; lia) Z1) as RZ.
      apply (rounds_twice 53 1024 ltac:(lia)) in RZ.
      assert (ML : root2 (units (-149) r * 2 ^ 2001) <= 2 * units (-1075) z).
      { apply Z.le_trans with (root2 (2 ^ 2278)).
        - apply root2_mono. split; [apply Z.mul_nonneg_nonneg; [lia|apply Z.pow_nonneg; lia]|].
          change (2 ^ 2278) with (2 ^ 277 * 2 ^ 2001). apply Z.mul_le_mono_nonneg_r; [apply Z.pow_nonneg; lia|]. apply units_max. exact R1.
        - assert (ZZ : units (-1075) z = 2 * units (-1074) z).
          { destruct z as [s|s| |[] m1 e1]; cbn [unsigned] in Z1; try contradiction; [reflexivity|]. cbn [units].
            destruct (bounded_spec 53 1024 ltac:(lia) m1 e1 Z1) as (_ & B1 & _). change (emin 53 1024) with (-1074) in B1.
            replace (e1 - -1075) with (Z.succ (e1 - -1074)) by lia. rewrite Z.pow_succ_r by lia. ring. }
          rewrite ZZ, Z2. vm_compute. discriminate. }
      pose proof (rounds_mono 53 1024 ltac:(lia) 2 (-1075) _ _ _ _ ltac:(lia) ML R RZ) as LE.
      destruct z as [s|s| |[] m1 e1]; cbn [unsigned] in Z1; try contradiction; discriminate. }
  destruct F as [F1 F2]. split; [exact F1|].
  apply (final_arith _ (units (-149) r * 2 ^ 149)); auto; lia.
Qed.
