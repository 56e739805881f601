(** C93: the temporary index files are deleted. *)
From Coq Require Import Permutation.
From Verif.Base Require Import GoBase.
From Verif.Model Require Import TempFiles.
Open Scope nat_scope.

(** The files the dataset still knows of. *)
Definition known (s : tfiles) : list nat :=
  flat_map (fun o => match o with Some x => [x] | None => [] end) (tfCurrent s :: tfBuilding s).

Definition tinv (disk0 : list nat) (s : tfiles) : Prop :=
  NoDup (known s) /\
  (forall x, In x (known s) -> ~ In x disk0) /\
  (forall x, In x (tfDisk s) <-> In x disk0 \/ In x (known s)).

Local Notation "'names' l" := (flat_map (fun o : option nat => match o with Some x => [x] | None => [] end) l) (at level 10).

Lemma tinv_step : forall disk0 s t, tinv disk0 s -> tf_step s t -> tinv disk0 t.
Proof.
  intros disk0 s t (N & O & D) St. destruct St; unfold tinv, known in *;
    cbn [tfDisk tfBuilding tfCurrent tfAlive] in *.
  - assert (P : Permutation (names (cur :: Some x :: bs)) (x :: names (cur :: bs))).
    { cbn. destruct cur; cbn; [apply perm_swap|reflexivity]. }
    assert (NK : ~ In x (names (cur :: bs))) by (intro H1; apply H, D; right; exact H1).
    repeat split.
    + apply (Permutation_NoDup (Permutation_sym P)). constructor; auto.
    + intros y Hy Hy0. apply (Permutation_in y P) in Hy. destruct Hy as [<-|Hy].
      * apply H, D. left. exact Hy0.
      * exact (O y Hy Hy0).
    + intros [<-|Hy].
      * right. apply (Permutation_in x (Permutation_sym P)). left. reflexivity.
      * apply D in Hy. destruct Hy as [Hy|Hy]; [left; exact Hy|].
        right. apply (Permutation_in _ (Permutation_sym P)). right. exact Hy.
    + intros [Hy|Hy]; [right; apply D; left; exact Hy|].
      apply (Permutation_in _ P) in Hy. destruct Hy as [<-|Hy]; [left; reflexivity|].
      right. apply D. right. exact Hy.
  - assert (E : names (cur :: None :: bs) = names (cur :: bs)) by reflexivity.
    rewrite E. repeat split; auto; apply D.
  - assert (P : Permutation (names (cur :: bs1 ++ f :: bs2)) (names [cur] ++ names (f :: bs1 ++ bs2))).
    { change (names (cur :: bs1 ++ f :: bs2)) with (names ([cur] ++ (bs1 ++ f :: bs2))).
      rewrite flat_map_app. apply Permutation_app_head. cbn. rewrite !flat_map_app. cbn.
      rewrite app_assoc, app_assoc. apply Permutation_app_tail, Permutation_app_comm. }
    assert (NP := Permutation_NoDup P N).
    assert (DI : forall y, In y (tf_remove cur disk) <-> In y disk /\ cur <> Some y).
    { intro y. destruct cur as [c|]; cbn; [|intuition discriminate].
      rewrite filter_In. destruct (y =? c) eqn:E; [apply Nat.eqb_eq in E|apply Nat.eqb_neq in E]; cbn;
        intuition (congruence || auto). }
    repeat split.
    + destruct cur as [c|]; cbn [flat_map app] in NP; [inversion NP|]; assumption.
    + intros y Hy. apply O. apply (Permutation_in y (Permutation_sym P)), in_or_app. right. exact Hy.
    + intro Hy. apply DI in Hy. destruct Hy as (Hy & Hc). apply D in Hy. destruct Hy as [Hy|Hy]; [left; exact Hy|].
      apply (Permutation_in _ P), in_app_or in Hy. destruct Hy as [Hy|Hy]; [|right; exact Hy].
      exfalso. destruct cur as [c|]; cbn in Hy; [|tauto]. destruct Hy as [->|[]]. congruence.
    + intros [Hy|Hy]; apply DI.
      * split; [apply D; left; exact Hy|]. intros ->. apply (O x); [left; reflexivity|exact Hy].
      * split; [apply D; right; apply (Permutation_in x (Permutation_sym P)), in_or_app; right; exact Hy|].
        intros ->. cbn [flat_map app] in NP. inversion NP; subst. contradiction.
  - auto.
Qed.

Lemma tinv_runs : forall disk0 s, tf_runs (tf_new disk0) s -> tinv disk0 s.
Proof.
  intros disk0 s R. remember (tf_new disk0) as s0 eqn:E. induction R as [s|s t u R IH St]; subst.
  - unfold tinv, known, tf_new. cbn. split; [constructor|split]; [tauto|intro; tauto].
  - apply (tinv_step _ t); auto.
Qed.

(** C93 The temporary files of the index are deleted: when no index is being
    built, the dataset has at most one, the one in use; and none once it is closed.

    First half, for any number of builds, also overlapping and with failures of
    TempFile: no file of others is touched, and at most one is added. *)
Theorem C93_at_most_one_partial : forall disk0 s, tf_runs (tf_new disk0) s -> tfBuilding s = [] ->
  forall x, In x (tfDisk s) <-> (In x disk0 \/ tfCurrent s = Some x).
Proof.
  intros disk0 s R B x. destruct (tinv_runs _ _ R) as (_ & _ & D). rewrite D. unfold known. rewrite B.
  destruct (tfCurrent s) as [c|]; cbn; split; intros [H|H]; try tauto.
  - destruct H as [->|[]]. auto.
  - injection H as ->. auto.
  - discriminate.
Qed.
Print Assumptions C93_at_most_one_partial.

(** Second half refuted: the file of the last index stays, whatever happens after
    the dataset is closed. *)
Theorem C93_none_after_close_refuted : exists s x,
  tf_runs (tf_new []) s /\ tfAlive s = false /\ tfBuilding s = [] /\
  forall t, tf_runs s t -> In x (tfDisk t).
Proof.
  exists (mkTF [7] [] (Some 7) false), 7. split; [|split; [|split]]; [|reflexivity..|].
  - eapply tr_step; [|apply (tf_close _ _ _ true)].
    eapply tr_step; [|apply (tf_swap [7] [] (Some 7) [] None)].
    eapply tr_step; [apply tr_here|]. apply tf_make. intros [].
  - intros t R. assert (K : t = mkTF [7] [] (Some 7) false); [|subst; left; reflexivity].
    remember (mkTF [7] [] (Some 7) false) as s0 eqn:E. induction R as [s|s t u R IH St]; auto.
    specialize (IH E). subst. inversion St; subst; auto.
    destruct bs1; discriminate.
Qed.
Print Assumptions C93_none_after_close_refuted.

(** Two overlapping builds and a third: one file is left beside the foreign one. *)
Example C93_instance :
  tf_runs (tf_new [100]) (mkTF [3; 100] [] (Some 3) true) /\ In 3 [3; 100].
Proof.
  split; [|left; reflexivity].
  eapply tr_step; [|apply (tf_swap [3; 1; 100] [] (Some 3) [] (Some 1))].
  eapply tr_step; [|apply tf_make; cbn; intuition lia].
  eapply tr_step; [|apply (tf_swap [2; 1; 100] [] (Some 1) [] (Some 2))].
  eapply tr_step; [|apply (tf_swap [2; 1; 100] [] (Some 2) [Some 1] None)].
  eapply tr_step; [|apply tf_make; cbn; intuition lia].
  eapply tr_step; [|apply tf_make; cbn; intuition lia].
  apply tr_here.
Qed.
