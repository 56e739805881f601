(** General lemmas about the base definitions. *)
From Verif.Base Require Import GoBase.

Lemma bytes_eqb_spec : forall a b, bytes_eqb a b = true <-> a = b.
Proof.
  induction a as [|x a IH]; destruct b as [|y b]; simpl; split; intro H;
    try congruence.
  - apply andb_true_iff in H. destruct H as [H1 H2].
    apply N.eqb_eq in H1. apply IH in H2. congruence.
  - inversion H; subst. rewrite N.eqb_refl. simpl. apply IH. reflexivity.
Qed.

Lemma bytes_eqb_refl : forall a, bytes_eqb a a = true.
Proof. intro a. apply bytes_eqb_spec. reflexivity. Qed.

Lemma bytes_eqb_neq : forall a b, bytes_eqb a b = false <-> a <> b.
Proof.
  intros a b. split; intro H.
  - intro E. apply bytes_eqb_spec in E. congruence.
  - destruct (bytes_eqb a b) eqn:E; auto. apply bytes_eqb_spec in E. contradiction.
Qed.

Lemma bytes_eqb_sym : forall a b, bytes_eqb a b = bytes_eqb b a.
Proof.
  intros a b. destruct (bytes_eqb b a) eqn:E.
  - apply bytes_eqb_spec in E. subst. apply bytes_eqb_refl.
  - apply bytes_eqb_neq in E. apply bytes_eqb_neq. auto.
Qed.

Lemma bytes_eq_dec : forall a b : bytes, {a = b} + {a <> b}.
Proof. apply list_eq_dec. apply N.eq_dec. Qed.

Lemma blen_app : forall A (a b : list A), blen (a ++ b) = blen a + blen b.
Proof. intros. unfold blen. rewrite app_length. lia. Qed.

Lemma blen_cons : forall A (x : A) l, blen (x :: l) = 1 + blen l.
Proof. intros. unfold blen. simpl length. lia. Qed.

Lemma blen_nil : forall A, blen (@nil A) = 0.
Proof. reflexivity. Qed.

Lemma u64_small : forall n, n < M64 -> u64 n = n.
Proof. intros. unfold u64. apply N.mod_small. assumption. Qed.

Lemma i64_id : forall z, is_i64 z -> i64 z = z.
Proof.
  unfold is_i64, i64. intros z H. rewrite Z.mod_small; lia.
Qed.

Lemma i64_range : forall z, is_i64 (i64 z).
Proof.
  unfold is_i64, i64. intro z.
  pose proof (Z.mod_pos_bound (z + 9223372036854775808) 18446744073709551616).
  lia.
Qed.

Lemma list_set_length : forall A (l : list A) i x l',
  list_set l i x = Some l' -> length l' = length l.
Proof.
  induction l as [|y l IH]; simpl; intros i x l' H.
  - discriminate.
  - destruct i.
    + inversion H. reflexivity.
    + destruct (list_set l i x) eqn:E; inversion H. simpl. f_equal. eauto.
Qed.

Lemma list_set_app : forall A (p : list A) y s x,
  list_set (p ++ y :: s) (length p) x = Some (p ++ x :: s).
Proof.
  induction p as [|z p IH]; simpl; intros.
  - reflexivity.
  - rewrite IH. reflexivity.
Qed.

Lemma skipn_skipn : forall A n m (l : list A), skipn n (skipn m l) = skipn (m + n) l.
Proof.
  intros A n m. induction m; intros l; simpl; auto.
  destruct l; simpl; auto. destruct n; reflexivity.
Qed.

From Coq Require Import Permutation.
Lemma perm_filter : forall A (f : A -> bool) l l',
  Permutation l l' -> Permutation (filter f l) (filter f l').
Proof.
  intros A f l l' P. induction P; simpl.
  - constructor.
  - destruct (f x); auto.
  - destruct (f x), (f y); auto. constructor.
  - eapply Permutation_trans; eauto.
Qed.

Lemma NoDup_app_l : forall A (a b : list A), NoDup (a ++ b) -> NoDup a.
Proof.
  induction a as [|x a IH]; intros b H; [constructor|].
  cbn in H. inversion H; subst. constructor; eauto. intro C. apply H2. apply in_or_app. auto.
Qed.

Lemma NoDup_app_r : forall A (a b : list A), NoDup (a ++ b) -> NoDup b.
Proof.
  induction a as [|x a IH]; intros b H; [exact H|].
  cbn in H. inversion H; subst. eauto.
Qed.
