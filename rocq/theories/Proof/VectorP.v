(** Score functions: symmetry, range, distance to itself. *)
From Verif.Base Require Import GoBase GoLemmas Float.
From Verif.Model Require Import Vector.
From Verif.Spec Require Import VectorSpec.
From Verif.Proof Require Import FloatP.
From Coq Require Import Lia.

(** ** Float arithmetic *)

Lemma round_aux_opp : forall p e s m x l,
  binary_round_aux p e (negb s) m x l = SFopp (binary_round_aux p e s m x l).
Proof.
  intros. unfold binary_round_aux. destruct (shr_fexp p e m x l) as [r e1].
  destruct (shr_fexp p e (round_nearest_even (shr_m r) (loc_of_shr_record r)) e1 loc_Exact) as [r2 e2].
  destruct (shr_m r2); auto. destruct (Zle_bool e2 (e - p)); reflexivity.
Qed.

Lemma round_opp : forall p e s m x,
  binary_round p e (negb s) m x = SFopp (binary_round p e s m x).
Proof.
  intros. unfold binary_round. destruct (shl_align m x (fexp p e (Zpos (digits2_pos m) + x))).
  apply round_aux_opp.
Qed.

Lemma normalize_opp : forall p e m x, m <> 0%Z ->
  binary_normalize p e (- m) x false = SFopp (binary_normalize p e m x false).
Proof.
  intros p e [|m|m] x H; [congruence| |]; cbn [Z.opp binary_normalize].
  - apply (round_opp p e false).
  - apply (round_opp p e true).
Qed.

Lemma sub_anti : forall p e x y,
  SFsub p e x y = SFsub p e y x \/ SFsub p e x y = SFopp (SFsub p e y x).
Proof.
  intros p e [sx|sx| |sx mx ex] [sy|sy| |sy my ey]; cbn [SFsub]; auto;
    try (destruct sx, sy; cbn; auto; fail); try (destruct sx; cbn; auto; fail);
    try (destruct sy; cbn; auto; fail).
  rewrite (Z.min_comm ey ex). set (ez := Z.min ex ey).
  set (a := cond_Zopp sx (Zpos (fst (shl_align mx ex ez)))).
  set (b := cond_Zopp sy (Zpos (fst (shl_align my ey ez)))).
  destruct (Z.eq_dec (b - a) 0) as [E|E].
  - left. replace (a - b)%Z with 0%Z by lia. rewrite E. reflexivity.
  - right. replace (a - b)%Z with (- (b - a))%Z by lia. apply normalize_opp. auto.
Qed.

Lemma abs_opp : forall x, SFabs (SFopp x) = SFabs x.
Proof. intros []; reflexivity. Qed.

Lemma mul_comm : forall p e x y, SFmul p e x y = SFmul p e y x.
Proof.
  intros p e [sx|sx| |sx mx ex] [sy|sy| |sy my ey]; cbn [SFmul]; auto;
    try (rewrite xorb_comm; reflexivity).
  rewrite xorb_comm, Pos.mul_comm, Z.add_comm. reflexivity.
Qed.

Lemma sub_self : forall p e x, finite x -> SFsub p e x x = S754_zero false.
Proof.
  intros p e [s|s| |s m x] H; try destruct H; cbn [SFsub].
  - destruct s; reflexivity.
  - rewrite Z.sub_diag. reflexivity.
Qed.

(** Not below zero (or NaN). *)
Definition nonneg (x : float) : Prop :=
  match x with
  | S754_zero _ | S754_nan => True
  | S754_infinity s | S754_finite s _ _ => s = false
  end.

Lemma nonneg_ltb : forall x, nonneg x <-> SFltb x (S754_zero false) = false.
Proof. intros [s|s| |s m e]; cbn; try tauto; destruct s; cbn; split; congruence. Qed.

Lemma round_aux_nonneg : forall p e m x l, nonneg (binary_round_aux p e false m x l).
Proof.
  intros. unfold binary_round_aux. destruct (shr_fexp p e m x l) as [r e1].
  destruct (shr_fexp p e (round_nearest_even (shr_m r) (loc_of_shr_record r)) e1 loc_Exact) as [r2 e2].
  destruct (shr_m r2); cbn; auto. destruct (Zle_bool e2 (e - p)); cbn; auto.
Qed.

Lemma round_nonneg : forall p e m x, nonneg (binary_round p e false m x).
Proof.
  intros. unfold binary_round. destruct (shl_align m x (fexp p e (Zpos (digits2_pos m) + x))).
  apply round_aux_nonneg.
Qed.

Lemma add_nonneg : forall p e x y, nonneg x -> nonneg y -> nonneg (SFadd p e x y).
Proof.
  intros p e [sx|sx| |sx mx ex] [sy|sy| |sy my ey] Hx Hy; cbn [SFadd nonneg] in *; subst; auto;
    try (destruct sx, sy; cbn; auto; fail); try (destruct (Bool.eqb _ _); cbn; auto; fail);
    try reflexivity.
  cbn [cond_Zopp]. rewrite <- Pos2Z.inj_add. cbn [binary_normalize]. apply round_nonneg.
Qed.

Lemma of_f32_nonneg : forall x, nonneg x -> nonneg (f64_of_f32 x).
Proof.
  intros [s|s| |s m e] H; cbn in *; auto. subst. cbn [cond_Zopp binary_normalize]. apply round_nonneg.
Qed.

Lemma abs_nonneg : forall x, nonneg (SFabs x).
Proof. intros [s|s| |s m e]; cbn; auto. Qed.

Lemma sqrt_nonneg : forall p e x, nonneg (SFsqrt p e x).
Proof.
  intros p e [s|s| |s m x]; cbn [SFsqrt]; try exact I; try (destruct s; exact I || reflexivity).
  destruct s; [exact I|]. destruct (SFsqrt_core_binary p e (Zpos m) x) as [[a b] c].
  apply round_aux_nonneg.
Qed.

Lemma add_zero : forall p e, SFadd p e (S754_zero false) (S754_zero false) = S754_zero false.
Proof. reflexivity. Qed.

(** ** The loops *)

Lemma quick_sym : forall a b r, quick_loop r a b = quick_loop r b a.
Proof.
  induction a as [|x a IH]; intros [|y b] r; cbn; auto.
  rewrite IH. f_equal. f_equal. f_equal. unfold f32sub.
  destruct (sub_anti prec32 emax32 x y) as [->| ->]; auto. apply abs_opp.
Qed.

Lemma euclid_sym : forall M, pow2_ok M -> forall a b r, euclid_loop M r a b = euclid_loop M r b a.
Proof.
  intros M (Ev & _). induction a as [|x a IH]; intros [|y b] r; cbn; auto.
  rewrite IH. f_equal. f_equal. unfold f32sub.
  destruct (sub_anti prec32 emax32 x y) as [->| ->]; auto.
Qed.

Lemma mult_sym : forall a b r, mult_loop r a b = mult_loop r b a.
Proof.
  induction a as [|x a IH]; intros [|y b] r; cbn; auto.
  rewrite IH. f_equal. f_equal. apply mul_comm.
Qed.

Fixpoint sumsq (s : float) (b : list float) : float :=
  match b with [] => s | y :: b' => sumsq (f32add s (f32mul y y)) b' end.

Lemma cos_nil_r : forall a sA s1 s2, cos_loop sA s1 s2 a [] = (sA, sumsq s1 a, s2).
Proof. induction a as [|x a IH]; intros; cbn; auto. Qed.

Lemma cos_nil_l : forall b sA s1 s2, cos_loop sA s1 s2 [] b = (sA, s1, sumsq s2 b).
Proof.
  intros b sA s1 s2. destruct b as [|y b]; [reflexivity|].
  cbn [cos_loop sumsq]. generalize (f32add s2 (f32mul y y)). clear.
  induction b as [|z b IH]; intros s; [reflexivity|]. cbn. apply IH.
Qed.

Lemma cos_sym : forall a b sA s1 s2,
  cos_loop sA s1 s2 a b = let '(x, y, z) := cos_loop sA s2 s1 b a in (x, z, y).
Proof.
  induction a as [|x a IH]; intros b sA s1 s2.
  - rewrite cos_nil_l, cos_nil_r. reflexivity.
  - destruct b as [|y b]; [rewrite cos_nil_l, cos_nil_r; reflexivity|].
    cbn [cos_loop]. rewrite IH. replace (f32mul y x) with (f32mul x y) by apply mul_comm. reflexivity.
Qed.

Theorem quick_symmetric : forall a b, QuickVectorDistance a b = QuickVectorDistance b a.
Proof. intros. apply quick_sym. Qed.

Theorem distance_symmetric : forall M, pow2_ok M -> forall a b, VectorDistance M a b = VectorDistance M b a.
Proof. intros M H a b. unfold VectorDistance. rewrite (euclid_sym M H). reflexivity. Qed.

Theorem mult_symmetric : forall a b, VectorMultiplication a b = VectorMultiplication b a.
Proof. intros. unfold VectorMultiplication. rewrite mult_sym. reflexivity. Qed.

Theorem cos_symmetric : forall a b, CosineSimilarity a b = CosineSimilarity b a.
Proof.
  intros a b. unfold CosineSimilarity. rewrite cos_sym.
  destruct (cos_loop fzero fzero fzero b a) as [[x y] z].
  rewrite orb_comm. unfold f32mul. rewrite mul_comm. reflexivity.
Qed.

Theorem angular_symmetric : forall M a b, AngularDistance M a b = AngularDistance M b a.
Proof. intros. unfold AngularDistance. rewrite cos_symmetric. reflexivity. Qed.

(** ** Range *)

Lemma SFleb_ltb : forall x y, is_nan x = false -> is_nan y = false ->
  SFleb x y = negb (SFltb y x).
Proof.
  intros x y Hx Hy. unfold SFleb, SFltb.
  destruct x as [sx|sx| |sx mx ex], y as [sy|sy| |sy my ey]; try discriminate;
  destruct sx; try destruct sy; cbn [SFcompare negb]; auto.
  all: rewrite (Z.compare_antisym ex ey); destruct (ex ?= ey)%Z; cbn [CompOpp negb]; auto.
  all: change (Pcompare mx my Eq) with (mx ?= my)%positive; change (Pcompare my mx Eq) with (my ?= mx)%positive;
       rewrite (Pos.compare_antisym mx my); destruct (mx ?= my)%positive; reflexivity.
Qed.

Theorem cos_range : forall a b, is_nan (CosineSimilarity a b) = true \/
  (SFleb f64_mone (CosineSimilarity a b) = true /\ SFleb (CosineSimilarity a b) f64_one = true).
Proof.
  intros a b. unfold CosineSimilarity.
  destruct (cos_loop fzero fzero fzero a b) as [[x y] z].
  destruct (feqb y fzero || feqb z fzero)%bool; [right; split; reflexivity|].
  set (s := f64_of_f32 (f32div x (f32mul (f32sqrt y) (f32sqrt z)))).
  destruct (fgtb s f64_one) eqn:A; [right; split; reflexivity|].
  destruct (fltb s f64_mone) eqn:B; [right; split; reflexivity|].
  destruct (is_nan s) eqn:N; [auto|]. right.
  rewrite !SFleb_ltb by (auto; reflexivity). unfold fgtb, fltb in *. rewrite A, B. auto.
Qed.

Lemma quick_loop_nonneg : forall a b r, nonneg r -> nonneg (quick_loop r a b).
Proof.
  induction a as [|x a IH]; intros [|y b] r H; cbn; auto.
  apply IH. apply add_nonneg; auto. apply of_f32_nonneg, abs_nonneg.
Qed.

Theorem quick_not_negative : forall a b, SFltb (QuickVectorDistance a b) (S754_zero false) = false.
Proof. intros. apply nonneg_ltb. apply quick_loop_nonneg. exact I. Qed.

Theorem distance_not_negative : forall M a b, SFltb (VectorDistance M a b) (S754_zero false) = false.
Proof. intros. apply nonneg_ltb. apply sqrt_nonneg. Qed.

(** ** Distance to itself *)

Theorem quick_self : forall a, Forall finite a -> QuickVectorDistance a a = S754_zero false.
Proof.
  intros a H. unfold QuickVectorDistance, fzero. induction H as [|x a Hx Ha IH]; auto.
  cbn [quick_loop]. unfold f32sub. rewrite sub_self by auto. exact IH.
Qed.

Theorem distance_self : forall M, pow2_ok M -> forall a, Forall finite a ->
  VectorDistance M a a = S754_zero false.
Proof.
  intros M (_ & Z0 & _) a H. unfold VectorDistance.
  assert (E : euclid_loop M fzero a a = S754_zero false).
  { unfold fzero. induction H as [|x a Hx Ha IH]; auto.
    cbn [euclid_loop]. unfold f32sub. rewrite sub_self by auto. rewrite Z0. exact IH. }
  rewrite E. reflexivity.
Qed.

(** ** A library that satisfies the contract *)
Definition mathlib_ex : mathlib := mkMath (fun x => f32mul x x) (fun _ => fzero).

Lemma mathlib_ex_ok : pow2_ok mathlib_ex.
Proof.
  split; [|split].
  - intros [s|s| |s m e]; cbn; auto; destruct s; reflexivity.
  - intros []; reflexivity.
  - intro x. apply nonneg_ltb. destruct x as [s|s| |s m e]; cbn [mathlib_ex pow2]; unfold f32mul;
      cbn [SFmul]; try exact I; try (destruct s; reflexivity).
    rewrite xorb_nilpotent. apply round_aux_nonneg.
Qed.
