(** C142, C143: the angular score and the distances keep the order. *)
From Verif.Base Require Import GoBase GoLemmas Float.
From Verif.Model Require Import Vector.
From Verif.Spec Require Import VectorSpec.
From Verif.Proof Require Import FloatP RoundP VectorP MonoP MonoQ ExactP SizeP.
From Coq Require Import Lia ZArith.
Open Scope Z_scope.

(** ** Library functions that meet the assumptions *)
Definition steps (x : float) : float :=
  if fltb x fzero then decimal_pi else if feqb x fzero then f64div decimal_pi (f64_of_Z 2) else fzero.
Definition rank_lib : mathlib := mkMath (fun x => f32mul x x) steps.

Lemma steps_cases : forall x, is_nan x = false ->
  (fltb x fzero = true /\ steps x = decimal_pi) \/
  (feqb x fzero = true /\ fltb x fzero = false /\ steps x = f64div decimal_pi (f64_of_Z 2)) \/
  (fltb fzero x = true /\ steps x = fzero).
Proof.
  intros x N. unfold steps. destruct (fltb x fzero) eqn:A; [auto|]. destruct (feqb x fzero) eqn:B; [auto|].
  right; right. split; auto. destruct x as [s|s| |s m e]; try discriminate; destruct s; try discriminate; reflexivity.
Qed.

Lemma rank_acos : acos_ok rank_lib.
Proof.
  split.
  - intros x _ [A B]. cbn [acos rank_lib].
    assert (N : is_nan x = false) by (destruct x; auto; discriminate).
    destruct (steps_cases x N) as [(_ & ->)|[(_ & _ & ->)|(_ & ->)]]; vm_compute; auto.
  - intros x y _ _ A L B. cbn [acos rank_lib].
    assert (Nx : is_nan x = false) by (destruct x; auto; discriminate).
    assert (Ny : is_nan y = false) by (destruct y; auto; discriminate).
    rewrite SFleb_ltb in L by auto. apply negb_true_iff in L.
    destruct (steps_cases x Nx) as [(X & ->)|[(X & X' & ->)|(X & ->)]],
             (steps_cases y Ny) as [(Y & ->)|[(Y & Y' & ->)|(Y & ->)]]; try (vm_compute; reflexivity); exfalso.
    + unfold fltb, feqb in *. destruct x as [s|s| |s m e], y as [s'|s'| |s' m' e']; try discriminate;
        destruct s, s'; discriminate.
    + assert (SFltb y x = true) by (eapply SFltb_trans; [exact Y|exact X]). congruence.
    + unfold fltb, feqb in *. destruct x as [s|s| |s m e], y as [s'|s'| |s' m' e']; try discriminate;
        destruct s, s'; discriminate.
Qed.

(** The square of a number depends on its size only. *)
Lemma square_abs : forall x, f32mul x x = f32mul (SFabs x) (SFabs x).
Proof. intros [s|s| |s m e]; unfold f32mul; cbn; rewrite ?xorb_nilpotent; reflexivity. Qed.

Lemma square_range : forall x, in_range 24 128 x -> in_range 24 128 (f32mul x x).
Proof.
  intros x [X| ->]; [|right; reflexivity].
  destruct x as [s|s| |[] m e]; cbn [unsigned] in X; try contradiction.
  - left. exact I.
  - set (E := Z.min (emin 24 128) (e + e)).
    eapply (rounds_range 24 128 ltac:(lia) 1 E). apply rounds_mul; auto; unfold E, prec32, emax32; lia.
Qed.

Lemma square_mono : forall x y, in_range 24 128 x -> in_range 24 128 y -> fleb x y = true ->
  fleb (f32mul x x) (f32mul y y) = true.
Proof.
  intros x y X Y L.
  pose proof (square_range x X) as T. pose proof (square_range y Y) as T'.
  destruct Y as [Y| ->]; [|apply (range_top 24 128); auto].
  destruct X as [X| ->]; [|apply (top_only 24 128) in L; [subst y; contradiction|left; auto]].
  destruct x as [s|s| |[] m e]; cbn [unsigned] in X; try contradiction.
  { unfold f32mul at 1. cbn [SFmul]. apply (range_bottom 24 128); auto. }
  destruct y as [s'|s'| |[] m' e']; cbn [unsigned] in Y; try contradiction; [discriminate|].
  set (F := Z.min (emin 24 128) (Z.min e e')).
  apply (fleb_units 24 128 ltac:(lia) (S754_finite false m e) (S754_finite false m' e') F) in L;
    [|unfold F; lia|exact X|exact Y]. cbn [units] in L.
  destruct (bounded_spec 24 128 ltac:(lia) m e X) as (A & B & C & D).
  destruct (bounded_spec 24 128 ltac:(lia) m' e' Y) as (A' & B' & C' & D').
  assert (EM : emin 24 128 = -149) by reflexivity.
  apply (rounds_mono 24 128 ltac:(lia) 1 (F + F) (Zpos m * Zpos m * 2 ^ (e + e - (F + F)))
           (Zpos m' * Zpos m' * 2 ^ (e' + e' - (F + F)))); try lia.
  - replace (e + e - (F + F)) with ((e - F) + (e - F)) by lia.
    replace (e' + e' - (F + F)) with ((e' - F) + (e' - F)) by lia.
    rewrite !Z.pow_add_r by (unfold F; lia).
    set (a := 2 ^ (e - F)) in *. set (b := 2 ^ (e' - F)) in *.
    replace (Zpos m * Zpos m * (a * a)) with ((Zpos m * a) * (Zpos m * a)) by ring.
    replace (Zpos m' * Zpos m' * (b * b)) with ((Zpos m' * b) * (Zpos m' * b)) by ring.
    apply Z.square_le_mono_nonneg; auto. unfold a. lia.
  - apply rounds_mul; auto; unfold prec32, emax32, F; lia.
  - apply rounds_mul; auto; unfold prec32, emax32, F; lia.
Qed.

Lemma range_parts : forall x, in_range 24 128 x -> is_float32 x /\ SFleb (S754_zero false) x = true.
Proof.
  intros x H. split; [|apply (range_bottom 24 128 x false H)].
  destruct H as [H| ->]; [|reflexivity].
  destruct x as [| | |[]]; cbn [unsigned] in H; try contradiction; auto. reflexivity.
Qed.

Lemma parts_range : forall x, is_float32 x -> SFleb (S754_zero false) x = true -> in_range 24 128 x.
Proof.
  intros x V L. destruct x as [s|s| |[] m e]; try discriminate; [left; exact I|destruct s|left; exact V].
  - discriminate.
  - right. reflexivity.
Qed.

Lemma rank_pow2 : pow2_grows rank_lib.
Proof.
  split.
  - intros x V N. cbn [pow2 rank_lib]. rewrite square_abs. apply range_parts, square_range.
    apply (abs_valid 24 128); auto.
  - intros x y V W L. cbn [pow2 rank_lib]. rewrite (square_abs x), (square_abs y).
    assert (is_nan x = false) by (destruct x; auto; discriminate).
    assert (is_nan y = false) by (destruct y; auto; destruct x; discriminate).
    apply square_mono; auto; apply (abs_valid 24 128); auto.
Qed.

(** ** C142 *)
Lemma angular_is : forall M a b, AngularDistance M a b = f64sub f64_one (part (acos M (CosineSimilarity a b))).
Proof. reflexivity. Qed.

Lemma cos_within : forall a b, is_nan (CosineSimilarity a b) = false ->
  within (f64_of_Z (-1)) (f64_of_Z 1) (CosineSimilarity a b).
Proof. intros a b N. destruct (cos_range a b) as [H|H]; [congruence|exact H]. Qed.

Lemma norm_valid : forall p q, 1 < p -> forall n e s, valid_binary p q (binary_normalize p q n e s) = true.
Proof.
  intros p q Hp. assert (P : forall m e, valid_binary p q (binary_normalize p q (Zpos m) e false) = true).
  { intros m e. pose proof (rounds_normalize p q Hp (Zpos m) e false (Z.min e (emin p q)) ltac:(lia) ltac:(lia) ltac:(lia)) as R.
    destruct (rounds_range p q Hp _ _ _ _ R) as [U|I]; [|rewrite I; reflexivity].
    destruct (binary_normalize p q (Zpos m) e false) as [s|s| |[] m' e']; cbn in *; auto; contradiction. }
  intros [|m|m] e s; [reflexivity|exact (P m e)|].
  change (valid_binary p q (binary_normalize p q (- Zpos m) e false) = true).
  rewrite norm_opp by lia. specialize (P m e). destruct (binary_normalize p q (Zpos m) e false); cbn in *; auto.
Qed.

Lemma cos_valid : forall a b, is_float64 (CosineSimilarity a b).
Proof.
  intros a b. unfold CosineSimilarity. destruct (cos_loop fzero fzero fzero a b) as [[x y] z].
  destruct (feqb y fzero || feqb z fzero); [reflexivity|].
  destruct (fgtb _ f64_one); [reflexivity|]. destruct (fltb _ f64_mone); [reflexivity|].
  destruct (f32div x _) as [s|s| |s m e]; try reflexivity. apply norm_valid. reflexivity.
Qed.

Lemma angle_ok : forall M a b, acos_ok M -> is_nan (CosineSimilarity a b) = false ->
  unsigned 53 1024 (acos M (CosineSimilarity a b)) /\ fleb (acos M (CosineSimilarity a b)) f64_pi = true.
Proof.
  intros M a b [H _] N. destruct (H _ (cos_valid a b) (cos_within a b N)) as [V W]. split.
  - apply angle_nonneg; auto.
  - rewrite pi_digits. apply W.
Qed.

(** C142 The angular score lies between 0 and 1. *)
Theorem C142_range : forall M a b, acos_ok M -> is_nan (CosineSimilarity a b) = false ->
  within (f64_of_Z 0) (f64_of_Z 1) (AngularDistance M a b) /\ is_float64 (AngularDistance M a b).
Proof.
  intros M a b H N. destruct (angle_ok M a b H N) as [U L].
  destruct (part_ok _ U L) as [P1 P2]. rewrite angular_is, one_is in *. unfold f64sub, prec64, emax64.
  assert (B : bounded 53 1024 4503599627370496 (-52) = true) by reflexivity.
  assert (L1 : fleb (SFsub 53 1024 (S754_finite false 4503599627370496 (-52)) (part (acos M (CosineSimilarity a b))))
                 (S754_finite false 4503599627370496 (-52)) = true).
  { change (S754_finite false 4503599627370496 (-52)) with
      (SFsub 53 1024 (S754_finite false 4503599627370496 (-52)) (S754_zero false)) at 2.
    apply sub_anti; auto; try lia; [exact I|]. apply (range_bottom 53 1024). left. auto. }
  pose proof (sub_range 53 1024 ltac:(lia) _ _ _ B P1 P2) as R.
  split; [split|].
  - apply (range_bottom 53 1024 _ false R).
  - exact L1.
  - unfold is_float64. destruct R as [R|R]; [|rewrite R; reflexivity].
    destruct (SFsub 53 1024 (S754_finite false 4503599627370496 (-52)) (part (acos M (CosineSimilarity a b)))) as [| | |[]];
      cbn [unsigned] in R; try contradiction; auto.
Qed.
Print Assumptions C142_range.

(** It ranks as the cosine does. *)
Theorem C142_order : forall M a b c d, acos_ok M ->
  SFleb (CosineSimilarity a b) (CosineSimilarity c d) = true ->
  SFleb (AngularDistance M a b) (AngularDistance M c d) = true.
Proof.
  intros M a b c d H L.
  assert (N : is_nan (CosineSimilarity a b) = false) by (destruct (CosineSimilarity a b); auto; discriminate).
  assert (N' : is_nan (CosineSimilarity c d) = false).
  { destruct (CosineSimilarity c d); auto; destruct (CosineSimilarity a b); discriminate. }
  destruct (angle_ok M a b H N) as [U1 L1], (angle_ok M c d H N') as [U2 L2].
  destruct (part_ok _ U1 L1) as [P1 Q1], (part_ok _ U2 L2) as [P2 Q2].
  destruct (cos_within a b N) as [W1 _], (cos_within c d N') as [_ W2].
  destruct H as [_ H]. specialize (H _ _ (cos_valid a b) (cos_valid c d) W1 L W2).
  rewrite !angular_is, one_is in *. unfold f64sub, prec64, emax64.
  apply sub_anti; [lia|reflexivity|exact P2|exact P1|apply part_mono; auto|exact Q1].
Qed.
Print Assumptions C142_order.

(** Vectors in the same direction score 1, opposite ones 0 and orthogonal ones
    a half. *)
Theorem C142_ends : forall M a b,
  (CosineSimilarity a b = f64_of_Z 1 -> acos M (f64_of_Z 1) = f64_of_Z 0 ->
   AngularDistance M a b = f64_of_Z 1) /\
  (CosineSimilarity a b = f64_of_Z (-1) -> acos M (f64_of_Z (-1)) = decimal_pi ->
   AngularDistance M a b = f64_of_Z 0) /\
  (forall s, CosineSimilarity a b = S754_zero s -> acos M (S754_zero s) = f64div decimal_pi (f64_of_Z 2) ->
   AngularDistance M a b = f64div (f64_of_Z 1) (f64_of_Z 2)).
Proof.
  intros M a b. rewrite angular_is. repeat split; intros; rewrite ?H, ?H0; vm_compute; reflexivity.
Qed.
Print Assumptions C142_ends.

Definition v1 (l : list Z) : list float := map f32_of_Z l.

Example C142_instance :
  acos_ok rank_lib /\
  acos rank_lib (f64_of_Z 1) = f64_of_Z 0 /\ acos rank_lib (f64_of_Z (-1)) = decimal_pi /\
  acos rank_lib (S754_zero false) = f64div decimal_pi (f64_of_Z 2) /\
  CosineSimilarity (v1 [3; 4]) (v1 [6; 8]) = f64_of_Z 1 /\
  CosineSimilarity (v1 [3; 4]) (v1 [-3; -4]) = f64_of_Z (-1) /\
  CosineSimilarity (v1 [3; 4]) (v1 [-4; 3]) = S754_zero false /\
  AngularDistance rank_lib (v1 [3; 4]) (v1 [6; 8]) = f64_of_Z 1 /\
  AngularDistance rank_lib (v1 [3; 4]) (v1 [-3; -4]) = f64_of_Z 0 /\
  SFltb (CosineSimilarity (v1 [3; 4]) (v1 [-4; 3])) (CosineSimilarity (v1 [3; 4]) (v1 [0; 1])) = true /\
  SFleb (AngularDistance rank_lib (v1 [3; 4]) (v1 [-4; 3])) (AngularDistance rank_lib (v1 [3; 4]) (v1 [0; 1])) = true.
Proof. split; [exact rank_acos|]. vm_compute. repeat split. Qed.

(** ** C143 *)
Definition plain32 (x : float) : Prop := is_float32 x /\ finite x.

Lemma quick_nearer : forall a b q, nearer a b q -> Forall plain32 a -> Forall plain32 b -> Forall plain32 q ->
  forall r r', in_range 53 1024 r -> in_range 53 1024 r' -> fleb r r' = true ->
  fleb (quick_loop r a q) (quick_loop r' b q) = true.
Proof.
  induction 1 as [|x y z a b q L H IH]; intros A B Q r r' R R' LR; [exact LR|].
  cbn [quick_loop].
  destruct (Forall_inv A) as [A1 A2], (Forall_inv B) as [B1 B2], (Forall_inv Q) as [Q1 Q2].
  assert (D1 : in_range 24 128 (SFabs (f32sub x z))) by (apply diff_range; auto; unfold prec32; lia).
  assert (D2 : in_range 24 128 (SFabs (f32sub y z))) by (apply diff_range; auto; unfold prec32; lia).
  apply Forall_inv_tail in A, B, Q.
  apply IH; auto.
  - apply add_range; auto using widen_range; unfold prec64; lia.
  - apply add_range; auto using widen_range; unfold prec64; lia.
  - apply add_mono; auto using widen_range, widen_mono; unfold prec64; lia.
Qed.

Lemma pow2_range : forall M x, pow2_grows M -> is_float32 x -> is_nan x = false -> in_range 24 128 (pow2 M x).
Proof. intros M x [H _] V N. destruct (H x V N). apply parts_range; auto. Qed.

Lemma abs_back : forall x, in_range 24 128 (SFabs x) -> is_float32 x /\ is_nan x = false.
Proof.
  intros [s|s| |s m e] [H|H]; try discriminate; try contradiction; split; try reflexivity. exact H.
Qed.

Lemma euclid_nearer : forall M a b q, pow2_grows M -> nearer a b q ->
  Forall plain32 a -> Forall plain32 b -> Forall plain32 q ->
  forall r r', in_range 24 128 r -> in_range 24 128 r' -> fleb r r' = true ->
  in_range 24 128 (euclid_loop M r a q) /\ in_range 24 128 (euclid_loop M r' b q) /\
  fleb (euclid_loop M r a q) (euclid_loop M r' b q) = true.
Proof.
  intros M a b q G. induction 1 as [|x y z a b q L H IH]; intros A B Q r r' R R' LR; [auto|].
  cbn [euclid_loop].
  destruct (Forall_inv A) as [A1 A2], (Forall_inv B) as [B1 B2], (Forall_inv Q) as [Q1 Q2].
  assert (D1 : in_range 24 128 (SFabs (f32sub x z))) by (apply diff_range; auto; unfold prec32; lia).
  assert (D2 : in_range 24 128 (SFabs (f32sub y z))) by (apply diff_range; auto; unfold prec32; lia).
  destruct (abs_back _ D1) as [V1 N1], (abs_back _ D2) as [V2 N2].
  apply Forall_inv_tail in A, B, Q.
  pose proof (pow2_range M _ G V1 N1). pose proof (pow2_range M _ G V2 N2).
  apply IH; auto.
  - apply add_range; auto; unfold prec32; lia.
  - apply add_range; auto; unfold prec32; lia.
  - apply add_mono; auto; try (unfold prec32; lia). apply G; auto.
Qed.

(** C143 A vector that is in every coordinate at most as far from the query has
    at most the distance of the other. *)
Theorem C143_nearer : forall M a b q, pow2_grows M ->
  Forall is_float32 a -> Forall is_float32 b -> Forall is_float32 q ->
  Forall finite a -> Forall finite b -> Forall finite q ->
  nearer a b q ->
  SFleb (VectorDistance M a q) (VectorDistance M b q) = true /\
  SFleb (QuickVectorDistance a q) (QuickVectorDistance b q) = true.
Proof.
  intros M a b q G Va Vb Vq Fa Fb Fq H.
  assert (J : forall l, Forall is_float32 l -> Forall finite l -> Forall plain32 l).
  { induction l as [|x l IH]; intros P Q; constructor;
      [split; eapply Forall_inv; eauto|apply IH; eapply Forall_inv_tail; eauto]. }
  assert (Z : forall p e, in_range p e fzero) by (left; exact I).
  split.
  - destruct (euclid_nearer M a b q G H (J _ Va Fa) (J _ Vb Fb) (J _ Vq Fq) fzero fzero) as (R1 & R2 & L); auto.
    unfold VectorDistance. apply sqrt_mono; auto using widen_range, widen_mono. unfold prec64; lia.
  - apply quick_nearer; auto.
Qed.
Print Assumptions C143_nearer.

(** Further coordinates never reduce a distance. *)
Lemma range_not_nan : forall p e x, in_range p e x -> is_nan x = false.
Proof. intros p e x [H| ->]; [|reflexivity]. destruct x as [| | |[]]; try contradiction; reflexivity. Qed.

Lemma range_trans : forall x y z, is_nan x = false -> is_nan y = false -> is_nan z = false ->
  fleb x y = true -> fleb y z = true -> fleb x z = true.
Proof.
  intros x y z X Y Z A B. unfold fleb in *. rewrite SFleb_ltb in * by auto.
  apply negb_true_iff in A, B. apply negb_true_iff. eapply SFltb_neg; [| | |exact B|exact A]; auto.
Qed.

Lemma range_refl : forall x, is_nan x = false -> fleb x x = true.
Proof. intros x N. unfold fleb. rewrite SFleb_ltb by auto. rewrite SFltb_irr. reflexivity. Qed.

Lemma add_more : forall p e x y, 1 < p -> in_range p e x -> in_range p e y -> fleb x (SFadd p e x y) = true.
Proof.
  intros p e x y Hp X Y.
  assert (Z : in_range p e fzero) by (left; exact I).
  assert (Q : fleb (SFadd p e x fzero) (SFadd p e x y) = true).
  { apply add_mono; auto; [apply range_refl; eapply range_not_nan; eauto|apply (range_bottom p e); auto]. }
  destruct x as [s|s| |s m f]; try exact Q.
  - apply (range_bottom p e). apply add_range; auto.
Qed.

Lemma quick_more : forall a b, Forall plain32 a -> Forall plain32 b ->
  forall r, in_range 53 1024 r -> in_range 53 1024 (quick_loop r a b) /\ fleb r (quick_loop r a b) = true.
Proof.
  induction a as [|x a IH]; intros [|y b] A B r R; cbn [quick_loop];
    try (split; auto; apply range_refl; eapply range_not_nan; eauto).
  destruct (Forall_inv A) as [A1 A2], (Forall_inv B) as [B1 B2].
  assert (D : in_range 24 128 (SFabs (f32sub x y))) by (apply diff_range; auto; unfold prec32; lia).
  apply Forall_inv_tail in A, B.
  assert (R1 : in_range 53 1024 (f64add r (f64_of_f32 (SFabs (f32sub x y))))).
  { apply add_range; auto using widen_range; unfold prec64; lia. }
  destruct (IH b A B _ R1) as [R2 L2]. split; auto.
  eapply range_trans; [| | |apply add_more|exact L2]; eauto using range_not_nan, widen_range. unfold prec64; lia.
Qed.

Lemma euclid_more : forall M a b, pow2_grows M -> Forall plain32 a -> Forall plain32 b ->
  forall r, in_range 24 128 r -> in_range 24 128 (euclid_loop M r a b) /\ fleb r (euclid_loop M r a b) = true.
Proof.
  intros M a b G. revert b. induction a as [|x a IH]; intros [|y b] A B r R; cbn [euclid_loop];
    try (split; auto; apply range_refl; eapply range_not_nan; eauto).
  destruct (Forall_inv A) as [A1 A2], (Forall_inv B) as [B1 B2].
  assert (D : in_range 24 128 (SFabs (f32sub x y))) by (apply diff_range; auto; unfold prec32; lia).
  destruct (abs_back _ D) as [V N]. pose proof (pow2_range M _ G V N) as P.
  apply Forall_inv_tail in A, B.
  assert (R1 : in_range 24 128 (f32add r (pow2 M (f32sub x y)))) by (apply add_range; auto; unfold prec32; lia).
  destruct (IH b A B _ R1) as [R2 L2]. split; auto.
  eapply range_trans; [| | |apply add_more|exact L2]; eauto using range_not_nan. unfold prec32; lia.
Qed.

Lemma quick_app : forall a b c d r, length a = length b ->
  quick_loop r (a ++ c) (b ++ d) = quick_loop (quick_loop r a b) c d.
Proof. induction a as [|x a IH]; intros [|y b] c d r E; try discriminate; cbn; auto. Qed.
Lemma euclid_app : forall M a b c d r, length a = length b ->
  euclid_loop M r (a ++ c) (b ++ d) = euclid_loop M (euclid_loop M r a b) c d.
Proof. induction a as [|x a IH]; intros [|y b] c d r E; try discriminate; cbn; auto. Qed.

Lemma plain_both : forall l, Forall is_float32 l -> Forall finite l -> Forall plain32 l.
Proof.
  induction l as [|x l IH]; intros P Q; constructor;
    [split; eapply Forall_inv; eauto|apply IH; eapply Forall_inv_tail; eauto].
Qed.

Theorem C143_longer : forall M a b c d, pow2_grows M -> length a = length b ->
  Forall is_float32 (a ++ c) -> Forall is_float32 (b ++ d) ->
  Forall finite (a ++ c) -> Forall finite (b ++ d) ->
  SFleb (VectorDistance M a b) (VectorDistance M (a ++ c) (b ++ d)) = true /\
  SFleb (QuickVectorDistance a b) (QuickVectorDistance (a ++ c) (b ++ d)) = true.
Proof.
  intros M a b c d G E V W F F'.
  pose proof (plain_both _ V F) as P. pose proof (plain_both _ W F') as Q.
  apply Forall_app in P as [P1 P2]. apply Forall_app in Q as [Q1 Q2].
  assert (Z : forall p e, in_range p e fzero) by (left; exact I).
  split.
  - unfold VectorDistance. rewrite euclid_app by auto.
    destruct (euclid_more M a b G P1 Q1 fzero (Z _ _)) as [R1 _].
    destruct (euclid_more M c d G P2 Q2 _ R1) as [R2 L2].
    apply sqrt_mono; auto using widen_range, widen_mono. unfold prec64; lia.
  - unfold QuickVectorDistance. rewrite quick_app by auto.
    destruct (quick_more a b P1 Q1 fzero (Z _ _)) as [R1 _].
    apply (quick_more c d P2 Q2 _ R1).
Qed.
Print Assumptions C143_longer.

(** (4,5) is nearer to (3,4) than (1,6); a third coordinate adds to the distance. *)
Example C143_instance :
  pow2_grows rank_lib /\
  nearer (v1 [4; 5]) (v1 [1; 6]) (v1 [3; 4]) /\
  Forall is_float32 (v1 [4; 5; 7]) /\ Forall finite (v1 [4; 5; 7]) /\
  Forall is_float32 (v1 [3; 4; 2]) /\ Forall finite (v1 [3; 4; 2]) /\
  SFltb (VectorDistance rank_lib (v1 [4; 5]) (v1 [3; 4])) (VectorDistance rank_lib (v1 [1; 6]) (v1 [3; 4])) = true /\
  QuickVectorDistance (v1 [4; 5]) (v1 [3; 4]) = f64_of_Z 2 /\
  QuickVectorDistance (v1 [1; 6]) (v1 [3; 4]) = f64_of_Z 4 /\
  QuickVectorDistance (v1 [4; 5; 7]) (v1 [3; 4; 2]) = f64_of_Z 7 /\
  SFltb (VectorDistance rank_lib (v1 [4; 5]) (v1 [3; 4])) (VectorDistance rank_lib (v1 [4; 5; 7]) (v1 [3; 4; 2])) = true.
Proof.
  split; [exact rank_pow2|]. split; [repeat (constructor; [vm_compute; reflexivity|]); constructor|].
  repeat split; try (vm_compute; reflexivity); repeat constructor.
Qed.
