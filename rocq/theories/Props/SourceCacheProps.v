(** C86: a connected peer stays a source. *)
From Coq Require Import Sorted.
From Verif.Base Require Import GoBase GoLemmas Assoc.
From Verif.Model Require Import SourceCache.
Open Scope Z_scope.

(** The history is in order of time. *)
Definition in_order (l : list (Z * sev)) : Prop := StronglySorted (fun a b => fst a <= fst b) l.

(** From [from] to [upto] the source is added at least once in every period. *)
Definition added_regularly (l : list (Z * sev)) (id : bytes) (period from upto : Z) : Prop :=
  forall u, from <= u <= upto -> exists v, In (v, SAdd id) l /\ u - period <= v <= u.

Lemma mload_clean : forall now m id e, mload m id = Some e -> now <= e ->
  mload (clean now m) id = Some e.
Proof.
  intros now m id e. unfold clean. induction m as [|[k x] m IH]; cbn; [discriminate|].
  destruct (bytes_eqb k id) eqn:E; intros H L.
  - injection H as ->. replace (now <=? e) with true by lia. cbn. rewrite E. reflexivity.
  - destruct (now <=? x); cbn; [rewrite E|]; auto.
Qed.

Lemma sstep_keeps : forall m ev id e, mload m id = Some e -> fst ev <= e ->
  mload (sstep m ev) id = Some e.
Proof.
  intros m [t [id'|]] id e H L; cbn [fst] in L; unfold sstep; cbn [fst snd].
  - unfold AddSource. destruct (seen m t id') eqn:S; auto.
    destruct (bytes_eqb id' id) eqn:E.
    + apply bytes_eqb_spec in E. subst. unfold seen in S. rewrite H in S. lia.
    + apply bytes_eqb_neq in E. rewrite mload_mstore_other; auto.
  - apply mload_clean; auto.
Qed.

Lemma run_keeps : forall l m id e, mload m id = Some e -> Forall (fun ev => fst ev <= e) l ->
  mload (fold_left sstep l m) id = Some e.
Proof.
  induction l as [|ev l IH]; intros m id e H F; cbn; auto.
  inversion F; subst. apply IH; auto. apply sstep_keeps; auto.
Qed.

Lemma add_seen : forall m t id, exists e, mload (sstep m (t, SAdd id)) id = Some e /\ t <= e.
Proof.
  intros m t id. unfold sstep; cbn [fst snd]. unfold AddSource, seen.
  destruct (mload m id) as [e|] eqn:E.
  - destruct (t <=? e) eqn:L.
    + exists e. split; auto. lia.
    + rewrite mload_mstore_same. eexists. split; eauto. unfold source_life. lia.
  - rewrite mload_mstore_same. eexists. split; eauto. unfold source_life. lia.
Qed.

Lemma filter_le : forall (l : list (Z * sev)) u, Forall (fun ev => fst ev <= u) (filter (fun e => fst e <=? u) l).
Proof. intros l u. apply Forall_forall. intros x H. apply filter_In in H. lia. Qed.

Lemma filter_all : forall (l : list (Z * sev)) u, Forall (fun ev => fst ev <= u) l ->
  filter (fun e => fst e <=? u) l = l.
Proof.
  induction l as [|x l IH]; intros u F; cbn; auto. inversion F; subst.
  replace (fst x <=? u) with true by lia. f_equal. auto.
Qed.

Lemma in_order_split : forall a x b, in_order (a ++ x :: b) -> Forall (fun ev => fst ev <= fst x) a.
Proof.
  induction a as [|y a IH]; intros x b H; constructor; inversion H; subst.
  - rewrite Forall_forall in *. match goal with F : forall z, In z _ -> _ |- _ => apply F end.
    apply in_or_app. right. left. reflexivity.
  - eapply IH; eauto.
Qed.

(** C86 A connected peer stays a source: if AddSource is called for a peer at
    least once in every period, the peer is a source at every moment.

    Refuted (below): adding a source that is there does not renew it, so it is
    missing from its expiry until the next call.  What holds: it is never missing
    for a whole period ... *)
Theorem C86_gap_partial : forall l id period from upto, in_order l ->
  added_regularly l id period from upto ->
  forall u, from <= u <= upto -> exists v, u - period <= v <= u /\ seen_at l v id = true.
Proof.
  intros l id period from upto O R u U. destruct (R u U) as (v & I & V).
  exists v. split; auto. apply in_split in I as (a & b & ->).
  pose proof (in_order_split _ _ _ O) as F. cbn [fst] in F.
  unfold seen_at, srun. rewrite filter_app. cbn [filter fst].
  rewrite Z.leb_refl, filter_all by exact F. rewrite fold_left_app. cbn [fold_left].
  destruct (add_seen (fold_left sstep a []) v id) as (e & E & L).
  unfold seen. rewrite (run_keeps _ _ _ _ E).
  - lia.
  - eapply Forall_impl; [|apply filter_le]. intros; cbn in *; lia.
Qed.
Print Assumptions C86_gap_partial.

(** ... and once it is added it is there for ten minutes, whatever happens. *)
Theorem C86_ten_minutes_partial : forall a b id v, in_order (a ++ (v, SAdd id) :: b) ->
  seen (srun a) v id = false ->
  forall u, v <= u <= v + 600 * 1000000000 -> seen_at (a ++ (v, SAdd id) :: b) u id = true.
Proof.
  intros a b id v O N u U. pose proof (in_order_split _ _ _ O) as F. cbn [fst] in F.
  unfold seen_at, srun. rewrite filter_app. cbn [filter fst].
  replace (v <=? u) with true by lia.
  rewrite filter_all by (eapply Forall_impl; [|exact F]; intros; cbn in *; lia).
  rewrite fold_left_app. cbn [fold_left].
  assert (E : mload (sstep (fold_left sstep a []) (v, SAdd id)) id = Some (v + source_life)).
  { fold (srun a). generalize dependent (srun a). intros m N. unfold sstep; cbn [fst snd].
    unfold AddSource. rewrite N. apply mload_mstore_same. }
  unfold seen. rewrite (run_keeps _ _ _ _ E).
  - unfold source_life. lia.
  - eapply Forall_impl; [|apply filter_le]. intros; cbn in *. unfold source_life. lia.
Qed.
Print Assumptions C86_ten_minutes_partial.

(** A peer for which AddSource is called every minute, for twenty minutes. *)
Definition every_minute : list (Z * sev) :=
  map (fun k => (Z.of_nat k * sync_period, SAdd (bs "b"))) (seq 0 21).

Lemma every_minute_regular :
  added_regularly every_minute (bs "b") sync_period 0 (20 * sync_period).
Proof.
  intros u U. exists (u / sync_period * sync_period). unfold sync_period in *.
  pose proof (Z.div_mod u 60000000000 ltac:(lia)) as D.
  pose proof (Z.mod_pos_bound u 60000000000 ltac:(lia)) as B.
  split; [|lia]. unfold every_minute. apply in_map_iff. exists (Z.to_nat (u / 60000000000)).
  split; [rewrite Z2Nat.id by lia; unfold sync_period; reflexivity|]. apply in_seq. lia.
Qed.

Lemma every_minute_in_order : in_order every_minute.
Proof.
  unfold every_minute, in_order, sync_period. cbn [seq map].
  repeat first [apply SSorted_nil | apply SSorted_cons | apply Forall_nil | apply Forall_cons | (cbn; lia)].
Qed.

Theorem C86_stays_refuted : exists l id from upto, in_order l /\
  added_regularly l id sync_period from upto /\
  exists u, from <= u <= upto /\ seen_at l u id = false.
Proof.
  exists every_minute, (bs "b"), 0, (20 * sync_period).
  split; [exact every_minute_in_order|]. split; [exact every_minute_regular|].
  (* half a minute after the expiry *)
  exists (10 * sync_period + 30000000000). split; [unfold sync_period; lia|]. vm_compute. reflexivity.
Qed.
Print Assumptions C86_stays_refuted.

Example C86_instance :
  in_order every_minute /\ added_regularly every_minute (bs "b") sync_period 0 (20 * sync_period) /\
  (* there until the expiry, gone for a minute, there again *)
  map (fun t => seen_at every_minute (t * 1000000000) (bs "b")) [0; 599; 600; 601; 659; 660; 1200]
    = [true; true; true; false; false; true; true] /\
  (* the janitor and other sources make no difference *)
  seen_at [(0, SAdd (bs "b")); (30, SAdd (bs "c")); (40, SClean)] 50 (bs "b") = true.
Proof.
  split; [exact every_minute_in_order|]. split; [exact every_minute_regular|].
  vm_compute. split; reflexivity.
Qed.
