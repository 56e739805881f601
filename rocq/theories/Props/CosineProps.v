(** C85: the unclamped cosine functions. *)
From Verif.Base Require Import GoBase Float.
From Verif.Model Require Import Vector Cosine.
From Verif.Spec Require Import VectorSpec.
From Verif.Proof Require Import VectorP.
Open Scope N_scope.

Lemma sumsq64_nil : forall sq a sA s1 s2, cos64_loop sq sA s1 s2 a [] = (sA, sumsq64 sq s1 a, s2).
Proof. intros sq [|x a]; reflexivity. Qed.

Lemma cos64_sym : forall sq a b sA s1 s2,
  cos64_loop sq sA s1 s2 a b = let '(x, y, z) := cos64_loop sq sA s2 s1 b a in (x, z, y).
Proof.
  intros sq. induction a as [|x a IH]; intros [|y b] sA s1 s2; try reflexivity.
  cbn [cos64_loop]. rewrite IH.
  replace (f64mul y x) with (f64mul x y) by apply mul_comm. reflexivity.
Qed.

(** C85 Every cosine similarity lies between -1 and 1, is symmetric, and is
    zero for a zero vector.  The range is false for CosineSimilarity64 and
    CosineSimilarity32 (see the refutations); the rest holds. *)
Theorem C85_symmetric_partial : forall sq a b,
  CosineSimilarity64 sq a b = CosineSimilarity64 sq b a /\
  CosineSimilarity32 a b = CosineSimilarity32 b a.
Proof.
  intros sq a b. split.
  - unfold CosineSimilarity64. rewrite cos64_sym.
    destruct (cos64_loop sq fzero fzero fzero b a) as [[x y] z].
    rewrite orb_comm. unfold f64mul. rewrite mul_comm. reflexivity.
  - unfold CosineSimilarity32. rewrite cos_sym.
    destruct (cos_loop fzero fzero fzero b a) as [[x y] z].
    rewrite orb_comm. unfold f64mul. rewrite mul_comm. reflexivity.
Qed.
Print Assumptions C85_symmetric_partial.

Definition is_zero (x : float) : Prop := exists s, x = S754_zero s.

Lemma cos64_zero : forall sq b, (forall s, sq (S754_zero s) = S754_zero false) ->
  forall a sA s2, Forall is_zero a ->
  exists x z, cos64_loop sq sA fzero s2 a b = (x, fzero, z).
Proof.
  intros sq b Hsq a. revert b.
  assert (Z : forall a, Forall is_zero a -> sumsq64 sq fzero a = fzero).
  { clear a. induction a as [|x a IH]; intros F; [reflexivity|].
    inversion F as [|? ? [s ->] F']; subst. cbn [sumsq64]. rewrite Hsq. apply IH, F'. }
  induction a as [|x a IH]; intros [|y b] sA s2 F.
  - cbn. eauto.
  - cbn. eauto.
  - rewrite sumsq64_nil, Z by exact F. eauto.
  - inversion F as [|? ? [s ->] F']; subst. cbn [cos64_loop]. rewrite Hsq. apply IH, F'.
Qed.

Lemma cos32_zero : forall a b sA s2, Forall is_zero a ->
  exists x z, cos_loop sA fzero s2 a b = (x, fzero, z).
Proof.
  assert (Z : forall a, Forall is_zero a -> sumsq fzero a = fzero).
  { induction a as [|x a IH]; intros F; [reflexivity|].
    inversion F as [|? ? [s ->] F']; subst. cbn [sumsq].
    replace (f32add fzero (f32mul (S754_zero s) (S754_zero s))) with fzero
      by (destruct s; reflexivity). apply IH, F'. }
  induction a as [|x a IH]; intros b sA s2 F.
  - rewrite cos_nil_l. eauto.
  - destruct b as [|y b].
    + rewrite cos_nil_r, Z by exact F. eauto.
    + inversion F as [|? ? [s ->] F']; subst. cbn [cos_loop].
      replace (f32add fzero (f32mul (S754_zero s) (S754_zero s))) with fzero
        by (destruct s; reflexivity). apply IH, F'.
Qed.

(** The similarity with a zero vector (also the empty one) is zero, never NaN;
    [sq] is math.Pow(_, 2). *)
Theorem C85_zero_vector_partial : forall sq a b,
  (forall s, sq (S754_zero s) = S754_zero false) ->
  Forall is_zero a ->
  CosineSimilarity64 sq a b = S754_zero false /\ CosineSimilarity64 sq b a = S754_zero false /\
  CosineSimilarity32 a b = S754_zero false /\ CosineSimilarity32 b a = S754_zero false.
Proof.
  intros sq a b Hsq F.
  assert (A : CosineSimilarity64 sq a b = S754_zero false).
  { unfold CosineSimilarity64. destruct (cos64_zero sq b Hsq a fzero fzero F) as (x & z & ->). reflexivity. }
  assert (B : CosineSimilarity32 a b = S754_zero false).
  { unfold CosineSimilarity32. destruct (cos32_zero a b fzero fzero F) as (x & z & ->). reflexivity. }
  destruct (C85_symmetric_partial sq b a) as (S1 & S2). rewrite S1, S2. auto.
Qed.
Print Assumptions C85_zero_vector_partial.

(** Refuted for float64: (1,1,1) with itself gives more than 1. *)
Theorem C85_range64_refuted : forall sq, sq (f64_of_Z 1) = f64_of_Z 1 ->
  exists a, Forall finite a /\ SFltb (f64_of_Z 1) (CosineSimilarity64 sq a a) = true.
Proof.
  intros sq H. exists [f64_of_Z 1; f64_of_Z 1; f64_of_Z 1]. split.
  - repeat constructor.
  - unfold CosineSimilarity64. cbn [cos64_loop]. rewrite H. vm_compute. reflexivity.
Qed.
Print Assumptions C85_range64_refuted.

(** Refuted for float32: (1,3) with (1/11,3/11). *)
Theorem C85_range32_refuted : exists a b, Forall finite a /\ Forall finite b /\
  SFltb (f32_of_Z 1) (CosineSimilarity32 a b) = true.
Proof.
  exists [f32_of_Z 1; f32_of_Z 3],
    [f32div (f32_of_Z 1) (f32_of_Z 11); f32div (f32_of_Z 3) (f32_of_Z 11)].
  split; [|split]; [repeat constructor|vm_compute; repeat constructor|vm_compute; reflexivity].
Qed.
Print Assumptions C85_range32_refuted.

Example C85_instance :
  let sq := fun x => f64mul x x in
  let a := map f64_of_Z [3; 4]%Z in
  (forall s, sq (S754_zero s) = S754_zero false) /\
  sq (f64_of_Z 1) = f64_of_Z 1 /\
  CosineSimilarity64 sq a a = f64_of_Z 1 /\
  CosineSimilarity64 sq a (map f64_of_Z [-4; 3]%Z) = S754_zero false /\
  (* a longer vector: its surplus counts in its own length only *)
  CosineSimilarity64 sq (map f64_of_Z [3; 4; 12]%Z) a = f64div (f64_of_Z 25) (f64_of_Z 65) /\
  CosineSimilarity32 (map f32_of_Z [3; 4; 12]%Z) (map f32_of_Z [3; 4]%Z)
    = f32div (f32_of_Z 25) (f32_of_Z 65) /\
  CosineSimilarity32 (map f32_of_Z [3; 4]%Z) (map f32_of_Z [0; 0; 0]%Z) = S754_zero false.
Proof. cbv zeta. split; [intros []; reflexivity|]. vm_compute. repeat split. Qed.
