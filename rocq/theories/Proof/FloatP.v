(** Order of floating point numbers. *)
From Verif.Base Require Import GoBase Float.
From Coq Require Import Lia.
Open Scope Z_scope.

(** The position of a number other than NaN, compared lexicographically. *)
Definition fpos (x : float) : Z * (Z * Z) :=
  match x with
  | S754_infinity true => (-2, (0, 0))
  | S754_finite true m e => (-1, (- e, Zneg m))
  | S754_zero _ => (0, (0, 0))
  | S754_finite false m e => (1, (e, Zpos m))
  | S754_infinity false => (2, (0, 0))
  | S754_nan => (0, (0, 0))
  end.

Definition lexlt (p q : Z * (Z * Z)) : Prop :=
  fst p < fst q \/
  (fst p = fst q /\ (fst (snd p) < fst (snd q) \/
    (fst (snd p) = fst (snd q) /\ snd (snd p) < snd (snd q)))).

Lemma SFltb_lex : forall x y, is_nan x = false -> is_nan y = false ->
  (SFltb x y = true <-> lexlt (fpos x) (fpos y)).
Proof.
  intros x y Hx Hy. unfold SFltb, SFcompare, lexlt.
  destruct x as [sx|sx| |sx mx ex], y as [sy|sy| |sy my ey]; try discriminate;
  destruct sx; try destruct sy; cbn [fpos fst snd];
  try (split; [intro H; try discriminate; lia | intro H; try reflexivity; lia]).
  all: destruct (ex ?= ey) eqn:E;
    [apply Z.compare_eq in E; subst | rewrite Z.compare_lt_iff in E | rewrite Z.compare_gt_iff in E].
  all: cbn [CompOpp]; try (split; [intro H; try discriminate; lia | intro H; try reflexivity; lia]).
  all: change (Pcompare mx my Eq) with (mx ?= my)%positive;
    destruct (mx ?= my)%positive eqn:M;
    [apply Pos.compare_eq in M; subst | rewrite Pos.compare_lt_iff in M | rewrite Pos.compare_gt_iff in M];
    cbn [CompOpp];
    (split; [intro H; try discriminate; lia | intro H; try reflexivity; lia]).
Qed.

Lemma SFltb_nan : forall x y, SFltb x y = true -> is_nan x = false /\ is_nan y = false.
Proof. intros [] []; cbn; intros; try discriminate; auto. Qed.

Lemma SFltb_irr : forall x, SFltb x x = false.
Proof.
  intro x. destruct (is_nan x) eqn:N; [destruct x; try discriminate; reflexivity|].
  destruct (SFltb x x) eqn:E; auto. apply SFltb_lex in E; auto. unfold lexlt in E. lia.
Qed.

Lemma SFltb_trans : forall x y z, SFltb x y = true -> SFltb y z = true -> SFltb x z = true.
Proof.
  intros x y z A B. destruct (SFltb_nan _ _ A), (SFltb_nan _ _ B).
  apply SFltb_lex in A; auto. apply SFltb_lex in B; auto. apply SFltb_lex; auto.
  unfold lexlt in *. lia.
Qed.

Lemma SFltb_neg : forall x y z, is_nan x = false -> is_nan y = false -> is_nan z = false ->
  SFltb x y = false -> SFltb y z = false -> SFltb x z = false.
Proof.
  intros x y z Hx Hy Hz A B. destruct (SFltb x z) eqn:E; auto.
  assert (C : ~ lexlt (fpos x) (fpos y)) by (rewrite <- SFltb_lex; auto; congruence).
  assert (D : ~ lexlt (fpos y) (fpos z)) by (rewrite <- SFltb_lex; auto; congruence).
  apply SFltb_lex in E; auto. unfold lexlt in *. lia.
Qed.
