(** C124: exactly when a search leaves goroutines behind. *)
From Verif.Base Require Import GoBase.
From Verif.Model Require Import Flow.
From Verif.Spec Require Import FlowSpec.
From Verif.Proof Require Import FlowP.
From Verif.Props Require Import FlowProps.
From Coq Require Import Permutation Lia.
Open Scope nat_scope.

Lemma ended_stays : forall X (s s' : flow X), flow_runs s s' -> forall e, fCons s = CEnd e ->
  fMerged s' = fMerged s /\ fCons s' = fCons s.
Proof.
  induction 1 as [|s s1 s2 St R IH]; auto. intros e E.
  assert (fMerged s1 = fMerged s /\ fCons s1 = fCons s) as [E1 E2].
  { remember (Next s1) as o eqn:Eo. destruct St; cbn in E; try discriminate;
      try (injection Eo as <-); cbn; auto; try discriminate.
    destruct (w - 1 <? 0)%Z; [discriminate|]. injection Eo as <-. cbn. auto. }
  destruct (IH e) as [E3 E4]; [congruence|]. split; congruence.
Qed.

Lemma ended_total : forall X (work : list (list X)) s e, flow_inv work s -> fCons s = CEnd e ->
  length (concat work) =
  length (fMerged s) + length (fBuf s) + length (concat (map pRest (fProds s))).
Proof.
  intros X work s e [(started & Ew & C) _ _ _ _ _ _ _ _ _] E.
  rewrite E in Ew. cbn [todo_of] in Ew. rewrite app_nil_r in Ew. subst started.
  apply consumed_perm in C. apply Permutation_length in C. rewrite !app_length in C. lia.
Qed.

Lemma all_done_rest : forall X (ps : list (producer X)),
  Forall (fun p => pDone p = true -> pRest p = []) ps ->
  Forall (fun p => pDone p = true) ps -> concat (map pRest ps) = [].
Proof.
  induction ps as [|p ps IH]; intros A B; [reflexivity|].
  inversion A; subst. inversion B; subst. cbn. rewrite H1 by auto. apply IH; auto.
Qed.

(** A search that has ended after taking some of the results its sources found
    leaves no goroutine behind exactly if at most 100 results were not taken.
    If there are more, it leaves the goroutine that waits for the sources and at
    least one source; all but the first 100 of the results not taken stay with
    sources that wait for ever. *)
Theorem C124_left_behind : forall X (work : list (list X)) s e s',
  flow_runs (flow_init work) s -> fCons s = CEnd e ->
  flow_runs s s' -> stuck s' ->
  (all_finished s' <-> length (concat work) <= length (fMerged s) + 100) /\
  (~ all_finished s' ->
     fWaiter s' = WWaiting /\
     (exists p, In p (fProds s') /\ pDone p = false) /\
     (forall p, In p (fProds s') -> pDone p = false -> pRest p <> []) /\
     length (fMerged s) + 100 + length (concat (map pRest (fProds s'))) = length (concat work)).
Proof.
  intros X work s e s' R E R' St.
  assert (I' : flow_inv work s').
  { eapply flow_inv_runs; [|apply flow_inv_init]. eapply runs_trans; eauto. }
  destruct (ended_stays X s s' R' e E) as [M C].
  pose proof (ended_total X work s' e I' (eq_trans C E)) as T. rewrite M in T.
  pose proof (iv_cap _ _ I') as Cap. change (chan_cap) with 100 in Cap.
  destruct (stuck_shape work s' I' St) as [_ [A|(B & ps1 & x & l & ps2 & Ep)]].
  - split; [|contradiction]. split; [intros _|auto].
    destruct A as (A & _). rewrite (all_done_rest X (fProds s')) in T; auto.
    + cbn in T. lia.
    + exact (iv_done _ _ I').
  - change chan_cap with 100 in B.
    assert (NF : ~ all_finished s').
    { intros (F & _). rewrite Ep in F. apply Forall_app in F. destruct F as [_ F].
      inversion F; subst. discriminate. }
    assert (L : 1 <= length (concat (map pRest (fProds s')))).
    { rewrite Ep, map_app, concat_app, app_length. cbn. lia. }
    split; [split; [contradiction|lia]|]. intros _.
    assert (LV : live (fProds s') <> 0).
    { rewrite Ep, live_mid. unfold live at 2. cbn. lia. }
    split; [|split; [|split]].
    + destruct (fWaiter s') eqn:W; auto.
      * apply (iv_wait _ _ I') in W. destruct W as [t W]. congruence.
      * exfalso. apply LV. apply (iv_closed _ _ I'). auto.
    + exists (mkProd (x :: l) false). split; [|reflexivity]. rewrite Ep. apply in_or_app. right. left. auto.
    + intros p Hp Hd Hr. apply in_split in Hp. destruct Hp as (q1 & q2 & Q).
      destruct p as [pr pd]. cbn in Hd, Hr. subst pr pd.
      destruct s' as [ps b o w wt c m t]. cbn [fProds] in Q. subst ps.
      pose proof (f_done q1 q2 b o w wt c m t) as D.
      destruct (w - 1 <? 0)%Z.
      * apply (flow_no_crash _ _ I'). exact D.
      * destruct (St _ D) as (s2 & Q2 & T1 & T2). injection Q2 as <-. cbn in T1, T2. congruence.
    + lia.
Qed.
Print Assumptions C124_left_behind.

(** The search of C29_leak_refuted: one source with 101 results, timed out before
    any was taken. *)
Example C124_instance : exists s s' : flow nat,
  flow_runs (flow_init [repeat 7 101]) s /\ fCons s = CEnd TimedOut /\ fMerged s = [] /\
  flow_runs s s' /\ stuck s' /\ ~ all_finished s'.
Proof.
  exists (leaked 7), (leaked 7). split; [apply leak_reached|].
  split; [reflexivity|]. split; [reflexivity|]. split; [constructor|]. split.
  - intros o H. exfalso. eapply leak_stuck; eauto.
  - intros (F & _). cbn in F. inversion F; subst. discriminate.
Qed.
