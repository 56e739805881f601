(** Properties C28, C29 and C35: the goroutines of a search and of DataStream. *)
From Verif.Base Require Import GoBase GoLemmas Float GoSort.
From Verif.Model Require Import Codec Store Data Vector Search Aggregator CallTree Flow.
From Verif.Spec Require Import FlowSpec TopK TreeSpec.
From Verif.Proof Require Import FlowP.
From Coq Require Import Permutation Lia.

(** C28 Search fan-in delivers everything exactly once.  [work] lists the
    results of each source. *)
Theorem C28_fan_in : forall X (work : list (list X)) s,
  flow_runs (flow_init work) s ->
  (* no send on a closed channel, no second close, no negative counter *)
  ~ flow_step s Crash /\
  (fCons s = CEnd AllFinished ->
     interleaving work (fMerged s) /\ Permutation (fMerged s) (concat work) /\
     fOpen s = false /\ all_finished s) /\
  (exists rest, Permutation (concat work) (fMerged s ++ rest)) /\
  (forall s', flow_runs s s' -> forall e, fCons s = CEnd e -> fMerged s' = fMerged s /\ fCons s' = fCons s).
Proof.
  intros X work s R. assert (I := flow_inv_runs work _ _ R (flow_inv_init work)).
  split; [eapply flow_no_crash; eauto|]. split; [|split].
  - intro E. destruct (inv_finished work s I E) as (A & B & C). split; auto. split; auto.
    apply interleaving_perm. auto.
  - eapply inv_part; eauto.
  - intros s' R' e E. clear I R. induction R' as [|s s1 s2 St R' IH]; auto.
    assert (fMerged s1 = fMerged s /\ fCons s1 = fCons s) as [E1 E2].
    { remember (Next s1) as o eqn:Eo. destruct St; cbn in E; try discriminate;
        try (injection Eo as <-); cbn; auto; try discriminate.
      destruct (w - 1 <? 0)%Z; [discriminate|]. injection Eo as <-. cbn. auto. }
    destruct IH as [E3 E4]; [congruence|]. split; congruence.
Qed.
Print Assumptions C28_fan_in.

(** ... so in a search without timeout a node merges exactly what the call tree
    model of C23 says. *)
Theorem C28_fan_in_answers : forall G M ex config q m tick order children m' local answers s r1 ord out,
  HasPrefix (scScoreFuncName config) (bs "Annoy") = false ->
  Search G ex (GetVectorComparisonFunction M (scScoreFuncName config)) tick order m (Some q) config
    = (m', Ok local) ->
  answer_all G M ex config q children answers ->
  flow_runs (flow_init (local :: answers)) s -> fCons s = CEnd AllFinished ->
  Merge G (aggOf M config None) (fMerged s) = Ok r1 ->
  forall s2, flow_runs (flow_init [r1]) s2 -> fCons s2 = CEnd AllFinished ->
  (forall gs, Permutation (ord gs) gs) ->
  MultiMerge G (aggOf M config None) ord (fMerged s2) = Ok out ->
  answer G M ex config q (CNode m tick order children) out.
Proof.
  intros G M ex config q m tick order children m' local answers s r1 ord out HP ES AA R E EM s2 R2 E2 PO EO.
  destruct (C28_fan_in _ _ _ R) as (_ & F & _). destruct (F E) as (_ & P1 & _).
  destruct (C28_fan_in _ _ _ R2) as (_ & F2 & _). destruct (F2 E2) as (_ & P2 & _).
  cbn in P2. rewrite app_nil_r in P2.
  eapply answer_node; eauto.
Qed.
Print Assumptions C28_fan_in_answers.

(** The goroutine of a search always reaches its end: whatever happens, some
    goroutine can move until it has, and runs are finite. *)
Theorem C28_search_ends : forall X (work : list (list X)) s,
  flow_runs (flow_init work) s ->
  (stuck s -> exists e, fCons s = CEnd e) /\
  no_infinite_run s.
Proof.
  intros X work s R. assert (I := flow_inv_runs work _ _ R (flow_inv_init work)). split.
  - intro St. destruct (stuck_shape work s I St) as [E _]. exact E.
  - apply flow_terminates.
Qed.
Print Assumptions C28_search_ends.

Lemma ex_run : flow_runs (flow_init [[1]; [2; 3]]%nat)
  (mkFlow [mkProd [] true; mkProd [] true] [] false 0 WClosed (CEnd AllFinished) [2; 1; 3]%nat false).
Proof.
  eapply fr_step; [apply f_spawn|]. eapply fr_step; [apply f_spawn|]. cbn [app].
  eapply fr_step; [apply (f_send [mkProd [1]%nat false] 2%nat [3]%nat []); cbn; unfold chan_cap; lia|]. cbn [app].
  eapply fr_step; [apply (f_send [] 1%nat [] [mkProd [3]%nat false]); cbn; unfold chan_cap; lia|]. cbn [app].
  eapply fr_step; [apply f_start_waiter|].
  eapply fr_step; [apply f_recv|]. cbn [app].
  eapply fr_step; [apply (f_send [mkProd [] false] 3%nat [] []); cbn; unfold chan_cap; lia|]. cbn [app].
  eapply fr_step; [exact (f_done [] [mkProd [] false] [1; 3]%nat true 2 WWaiting CLoop [2]%nat false)|]. cbn [app].
  eapply fr_step; [exact (f_done [mkProd [] true] [] [1; 3]%nat true 1 WWaiting CLoop [2]%nat false)|]. cbn [app].
  eapply fr_step; [apply f_wait|].
  eapply fr_step; [exact (f_finish _ _ true _ _ _)|]. eapply fr_step; [apply f_drain|]. eapply fr_step; [apply f_drain|].
  eapply fr_step; [apply f_drained|]. constructor.
Qed.

Example C28_instance : exists s, flow_runs (flow_init [[1]; [2; 3]]%nat) s /\
  fCons s = CEnd AllFinished /\ fMerged s = [2; 1; 3]%nat.
Proof. eexists. split; [apply ex_run|]. split; reflexivity. Qed.

(** C29 No goroutine outlives its query forever.  False: *)
Theorem C29_leak_refuted : forall X (x : X), exists (work : list (list X)) (s : flow X),
  flow_runs (flow_init work) s /\ fCons s = CEnd TimedOut /\
  forall s', flow_runs s s' -> ~ all_finished s'.
Proof.
  intros X x. exists [repeat x (S chan_cap)], (leaked x).
  split; [apply leak_reached|]. split; [reflexivity|].
  intros s' R. inversion R; subst.
  - intros (F & _). cbn in F. inversion F; subst. discriminate.
  - exfalso. eapply leak_stuck; eauto.
Qed.
Print Assumptions C29_leak_refuted.

(** It holds when the search ended because all sources finished, and after a
    timeout when the sources together have no more results than the channel
    holds: every run is finite and stops only with all goroutines finished. *)
Theorem C29_no_leak_partial : forall X (work : list (list X)) s,
  flow_runs (flow_init work) s ->
  (fCons s = CEnd AllFinished -> all_finished s) /\
  ((length (concat work) <= 100)%nat ->
     (stuck s -> all_finished s) /\
     no_infinite_run s).
Proof.
  intros X work s R. assert (I := flow_inv_runs work _ _ R (flow_inv_init work)). split.
  - intro E. apply (inv_finished work s I E).
  - intro H. split; [|apply flow_terminates]. intro St. eapply stuck_small; eauto.
Qed.
Print Assumptions C29_no_leak_partial.

(** A query over the dataset and all six sources that RunOnRandomSources visits
    leaks nothing as long as limit is at most 14. *)
Corollary C29_small_limit_partial : forall X (work : list (list X)) s limit,
  (length work <= 7)%nat -> (limit <= 14)%nat -> Forall (fun l => (length l <= limit)%nat) work ->
  flow_runs (flow_init work) s -> stuck s -> all_finished s.
Proof.
  intros X work s limit L7 L14 F R.
  apply (C29_no_leak_partial X work s R).
  assert (H : (length (concat work) <= length work * limit)%nat).
  { clear -F. induction F; cbn; auto. rewrite app_length. lia. }
  assert (length work * limit <= 7 * 14)%nat by (apply Nat.mul_le_mono; auto). lia.
Qed.
Print Assumptions C29_small_limit_partial.

Example C29_instance : exists s : flow nat,
  flow_runs (flow_init [[1]; [2; 3]]%nat) s /\ fCons s = CEnd AllFinished /\ all_finished s.
Proof.
  eexists. split; [apply ex_run|]. split; [reflexivity|]. split; [repeat constructor|].
  split; [reflexivity|]. eexists. reflexivity.
Qed.

(** C35 DataStream sends every datum.  False: the handler may return while the
    background goroutine still holds a datum. *)
Theorem C35_datastream_refuted : forall X (x : X), exists s : dstream X,
  ds_runs (ds_init [x]) s /\ dHandler s = HReturned /\ dSent s = [] /\
  forall s', ds_runs s s' -> dSent s' = [].
Proof.
  intros X x. exists (mkDS [] false HReturned (SSending x) []). split; [|split; [|split]]; auto.
  - eapply dr_step; [apply d_push; cbn; unfold chan_cap; lia|].
    eapply dr_step; [apply d_back_recv|]. eapply dr_step; [apply d_close|].
    eapply dr_step; [apply d_return|]. constructor.
  - assert (G : forall s1 s2 : dstream X, ds_runs s1 s2 -> dHandler s1 = HReturned -> dSent s2 = dSent s1).
    { induction 1 as [|s1 s2 s3 St R IH]; auto. intro H.
      destruct St; cbn in *; try discriminate; try congruence; apply IH; auto. }
    intros s' R. apply G in R; auto.
Qed.
Print Assumptions C35_datastream_refuted.

(** Also, two goroutines may be inside stream.Send of the same stream at the
    same time, which gRPC forbids. *)
Theorem C35_concurrent_send_refuted : forall X (x y : X), exists s : dstream X,
  ds_runs (ds_init [x; y]) s /\ dHandler s = HFlush (SSending y) /\ dBack s = SSending x.
Proof.
  intros X x y. exists (mkDS [] false (HFlush (SSending y)) (SSending x) []). split; [|split]; auto.
  eapply dr_step; [apply d_push; cbn; unfold chan_cap; lia|].
  eapply dr_step; [apply d_push; cbn; unfold chan_cap; lia|].
  eapply dr_step; [apply d_back_recv|]. eapply dr_step; [apply d_close|].
  eapply dr_step; [apply d_flush_recv|]. constructor.
Qed.
Print Assumptions C35_concurrent_send_refuted.

(** What holds: nothing is sent twice, nothing else is sent, at most one datum
    is missing when the call returns, and none if the background goroutine is
    not inside Send at that moment. *)
Theorem C35_at_most_one_missing_partial : forall X (data : list X) s,
  ds_runs (ds_init data) s ->
  (exists rest, Permutation data (dSent s ++ rest)) /\
  (dHandler s = HReturned -> exists lost, Permutation data (dSent s ++ lost) /\ (length lost <= 1)%nat) /\
  (forall s', ds_step s s' -> dHandler s <> HReturned -> dHandler s' = HReturned ->
     (forall x, dBack s <> SSending x) -> Permutation data (dSent s')).
Proof.
  intros X data s R. assert (I := ds_inv_runs data _ _ R (ds_inv_init data)).
  split; [|split].
  - destruct I as (lost & P & _). eexists. exact P.
  - intro H. destruct I as (lost & P & L & _ & B & _).
    rewrite H, (B H) in P. cbn in P. rewrite !app_nil_r in P.
    eexists. split; [exact P|exact L].
  - intros s' St H H' NB. eapply ds_return_clean; eauto.
Qed.
Print Assumptions C35_at_most_one_missing_partial.

Example C35_instance : exists s, ds_runs (ds_init [1; 2]%nat) s /\ dHandler s = HReturned /\ dSent s = [1; 2]%nat.
Proof.
  eexists. split.
  - eapply dr_step; [apply d_push; cbn; unfold chan_cap; lia|]. cbn [app].
    eapply dr_step; [apply d_back_recv|]. eapply dr_step; [apply d_back_sent; discriminate|]. cbn [app].
    eapply dr_step; [apply d_push; cbn; unfold chan_cap; lia|]. cbn [app].
    eapply dr_step; [apply d_close|]. eapply dr_step; [apply d_flush_recv|].
    eapply dr_step; [apply d_flush_sent|]. eapply dr_step; [apply d_return|]. apply dr_here.
  - split; reflexivity.
Qed.
