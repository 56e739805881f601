(** Finite maps from byte strings, as association lists without duplicate keys.
    They stand for Go maps and sync.Map contents. *)
From Coq Require Export Permutation.
From Verif.Base Require Export GoBase.
From Verif.Base Require Import GoLemmas.

Definition amap (V : Type) := list (bytes * V).

Section Assoc.
Context {V : Type}.
Implicit Types m : amap V.

(** m.Load(k) *)
Fixpoint mload (m : amap V) (k : bytes) : option V :=
  match m with
  | [] => None
  | (k', v) :: m' => if bytes_eqb k' k then Some v else mload m' k
  end.

(** m.Delete(k) *)
Fixpoint mdelete (m : amap V) (k : bytes) : amap V :=
  match m with
  | [] => []
  | (k', v) :: m' => if bytes_eqb k' k then mdelete m' k else (k', v) :: mdelete m' k
  end.

(** m.Store(k, v) *)
Definition mstore (m : amap V) (k : bytes) (v : V) : amap V :=
  (k, v) :: mdelete m k.

Definition mkeys (m : amap V) : list bytes := map fst m.

(** No key occurs twice. *)
Definition mwf (m : amap V) : Prop := NoDup (mkeys m).

Lemma mload_mdelete_same : forall m k, mload (mdelete m k) k = None.
Proof.
  induction m as [|[k' v] m IH]; intro k; simpl; auto.
  destruct (bytes_eqb k' k) eqn:E; auto. simpl. rewrite E. apply IH.
Qed.

Lemma mload_mdelete_other : forall m k k', k <> k' -> mload (mdelete m k) k' = mload m k'.
Proof.
  induction m as [|[k0 v] m IH]; intros k k' H; simpl; auto.
  destruct (bytes_eqb k0 k) eqn:E.
  - apply bytes_eqb_spec in E. subst.
    assert (E : bytes_eqb k k' = false) by (apply bytes_eqb_neq; auto).
    rewrite E. apply IH. auto.
  - simpl. destruct (bytes_eqb k0 k'); auto.
Qed.

Lemma mload_mstore_same : forall m k v, mload (mstore m k v) k = Some v.
Proof. intros. unfold mstore. simpl. rewrite bytes_eqb_refl. reflexivity. Qed.

Lemma mload_mstore_other : forall m k k' v, k <> k' -> mload (mstore m k v) k' = mload m k'.
Proof.
  intros. unfold mstore. simpl.
  assert (E : bytes_eqb k k' = false) by (apply bytes_eqb_neq; auto).
  rewrite E. apply mload_mdelete_other. auto.
Qed.

Lemma mload_mdelete : forall m k k',
  mload (mdelete m k) k' = if bytes_eqb k k' then None else mload m k'.
Proof.
  intros. destruct (bytes_eqb k k') eqn:E.
  - apply bytes_eqb_spec in E. subst. apply mload_mdelete_same.
  - apply bytes_eqb_neq in E. apply mload_mdelete_other. auto.
Qed.

Lemma mload_mstore : forall m k v k',
  mload (mstore m k v) k' = if bytes_eqb k k' then Some v else mload m k'.
Proof.
  intros. destruct (bytes_eqb k k') eqn:E.
  - apply bytes_eqb_spec in E. subst. apply mload_mstore_same.
  - apply bytes_eqb_neq in E. apply mload_mstore_other. auto.
Qed.

Lemma mdelete_incl : forall m k p, In p (mdelete m k) -> In p m.
Proof.
  induction m as [|[k0 v] m IH]; simpl; intros k p H; auto.
  destruct (bytes_eqb k0 k); simpl in *; [right; eauto|].
  destruct H; auto. right; eauto.
Qed.

Lemma mdelete_keys_notin : forall m k, ~ In k (mkeys (mdelete m k)).
Proof.
  induction m as [|[k0 v] m IH]; simpl; intros k H; auto.
  destruct (bytes_eqb k0 k) eqn:E; [eapply IH; eauto|].
  simpl in H. destruct H as [H|H]; [|eapply IH; eauto].
  apply bytes_eqb_neq in E. congruence.
Qed.

Lemma mdelete_keys_incl : forall m k k', In k' (mkeys (mdelete m k)) -> In k' (mkeys m).
Proof.
  intros m k k' H. apply in_map_iff in H. destruct H as (p & <- & H).
  apply in_map. eapply mdelete_incl; eauto.
Qed.

Lemma mdelete_wf : forall m k, mwf m -> mwf (mdelete m k).
Proof.
  unfold mwf. induction m as [|[k0 v] m IH]; simpl; intros k H; auto.
  inversion H; subst. destruct (bytes_eqb k0 k); auto.
  simpl. constructor; auto. intro C. apply mdelete_keys_incl in C. contradiction.
Qed.

Lemma mstore_wf : forall m k v, mwf m -> mwf (mstore m k v).
Proof.
  intros. unfold mstore, mwf. simpl. constructor.
  - apply mdelete_keys_notin.
  - apply mdelete_wf. auto.
Qed.

Lemma mload_in : forall m k v, mload m k = Some v -> In (k, v) m.
Proof.
  induction m as [|[k0 v0] m IH]; simpl; intros k v H; [discriminate|].
  destruct (bytes_eqb k0 k) eqn:E; auto.
  apply bytes_eqb_spec in E. inversion H. subst. auto.
Qed.

Lemma in_mload : forall m k v, mwf m -> In (k, v) m -> mload m k = Some v.
Proof.
  induction m as [|[k0 v0] m IH]; simpl; intros k v W H; [contradiction|].
  inversion W; subst. destruct H as [H|H].
  - inversion H; subst. rewrite bytes_eqb_refl. reflexivity.
  - destruct (bytes_eqb k0 k) eqn:E; auto.
    apply bytes_eqb_spec in E. subst. exfalso. apply H2.
    change k with (fst (k, v)). apply in_map. auto.
Qed.

Lemma mload_none : forall m k, mload m k = None <-> ~ In k (mkeys m).
Proof.
  induction m as [|[k0 v0] m IH]; simpl; intros k; split; intro H; auto.
  - destruct (bytes_eqb k0 k) eqn:E; [discriminate|].
    apply bytes_eqb_neq in E. apply IH in H. intros [C|C]; auto.
  - destruct (bytes_eqb k0 k) eqn:E.
    + apply bytes_eqb_spec in E. exfalso. auto.
    + apply IH. auto.
Qed.

Lemma perm_mload : forall m m' k, mwf m -> Permutation m m' -> mload m k = mload m' k.
Proof.
  intros m m' k W P.
  assert (W' : mwf m').
  { unfold mwf in *. eapply Permutation_NoDup; [|eauto]. apply Permutation_map. auto. }
  destruct (mload m k) as [v|] eqn:E.
  - symmetry. apply in_mload; auto. apply mload_in in E.
    eapply Permutation_in; eauto.
  - symmetry. apply mload_none. apply mload_none in E. intro C. apply E.
    eapply Permutation_in; [|eauto]. apply Permutation_map. apply Permutation_sym. auto.
Qed.

Lemma perm_wf : forall m m', mwf m -> Permutation m m' -> mwf m'.
Proof.
  unfold mwf. intros. eapply Permutation_NoDup; [|eauto]. apply Permutation_map. auto.
Qed.

Lemma mdelete_notin : forall m k, ~ In k (mkeys m) -> mdelete m k = m.
Proof.
  induction m as [|[k0 v0] m IH]; simpl; intros k H; auto.
  assert (E : bytes_eqb k0 k = false) by (apply bytes_eqb_neq; auto).
  rewrite E. f_equal. apply IH. auto.
Qed.

Lemma mdelete_length_in : forall m k v, mwf m -> mload m k = Some v ->
  S (length (mdelete m k)) = length m.
Proof.
  induction m as [|[k0 v0] m IH]; simpl; intros k v W H; [discriminate|].
  inversion W; subst. destruct (bytes_eqb k0 k) eqn:E.
  - apply bytes_eqb_spec in E. subst. rewrite mdelete_notin; auto.
  - simpl. f_equal. eapply IH; eauto.
Qed.

End Assoc.
