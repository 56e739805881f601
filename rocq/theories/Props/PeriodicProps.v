(** C91: the periodic task can be stopped. *)
From Verif.Base Require Import GoBase.
From Verif.Model Require Import Periodic.
Open Scope nat_scope.

(** The loop ends exactly when a call returns, and only one does; a waiting or
    returned call has stopped the ticker. *)
Definition pinv (s : pstate) : Prop :=
  (pReturned s <= 1) /\ (pLoop s = PGone <-> pReturned s = 1) /\
  (0 < pWaiting s + pReturned s -> pTicker s = false).

Lemma pinv_steps : forall s, psteps pinit s -> pinv s.
Proof.
  intros s R. remember pinit as s0 eqn:E. induction R as [s|s t u R IH St].
  - subst. unfold pinv. cbn. intuition (lia || discriminate).
  - specialize (IH E). unfold pinv in *.
    destruct St; cbn [pLoop pReturned pWaiting pTicker] in *; intuition (try discriminate; try lia).
    all: try (destruct r as [|[|r]]; [lia|intuition discriminate|lia]).
    all: destruct r; [reflexivity|lia].
Qed.

(** What is left to do once the ticker is stopped: at most one tick that already
    waits. *)
Lemma stopped_runs : forall s u, psteps s u -> pTicker s = false ->
  pTicker u = false /\ pRuns u + (if pTick u then 1 else 0) <= pRuns s + (if pTick s then 1 else 0).
Proof.
  intros s u R. induction R as [s|s t u R IH St]; intro T; [split; auto|].
  destruct (IH T) as (A & B). destruct St; cbn [pTicker pTick pRuns] in *; try discriminate; split; auto; lia.
Qed.

(** C91 The periodic task can be stopped: every call of StopPeriodicTask returns,
    and afterwards no periodic work starts.

    The first call does: in every state with a waiting call in which the loop
    has not ended, it ends after at most two further steps of the loop, and at
    most one run of Periodic starts from the call on. *)
Theorem C91_first_stop_partial : forall s, psteps pinit s -> 0 < pWaiting s ->
  (forall u, psteps s u -> pRuns u <= pRuns s + 1) /\
  (pReturned s = 0 ->
     exists u, pReturned u = 1 /\ pLoop u = PGone /\ pRuns u = pRuns s /\
       (pstep s u \/ exists t, pstep s t /\ pstep t u)).
Proof.
  intros s R W. assert (I := pinv_steps s R). destruct I as (I1 & I2 & I3). split.
  - intros u Q. destruct (stopped_runs s u Q) as (_ & B); [apply I3; lia|].
    destruct (pTick u), (pTick s); lia.
  - intro Z. destruct s as [l tk tick w r n]. cbn in *. subst r. destruct w as [|w]; [lia|].
    destruct l.
    + eexists. split; [|split; [|split; [|left; apply ps_done]]]; reflexivity.
    + eexists. split; [|split; [|split; [|right; eexists; split; [apply ps_back|apply ps_done]]]]; reflexivity.
    + destruct I2 as [I2 _]. specialize (I2 eq_refl). discriminate.
Qed.
Print Assumptions C91_first_stop_partial.

(** After a call has returned nothing runs any more. *)
Theorem C91_nothing_after : forall s, psteps pinit s -> 0 < pReturned s ->
  forall u, psteps s u -> pRuns u = pRuns s /\ pLoop u = PGone.
Proof.
  intros s R Z u Q. assert (I := pinv_steps s R). destruct I as (I1 & I2 & _).
  assert (G : pLoop s = PGone) by (apply I2; lia). clear - G Q.
  induction Q as [s|s t u Q IH St]; [auto|]. destruct (IH G) as (A & B).
  destruct St; cbn in *; try discriminate; auto.
Qed.
Print Assumptions C91_nothing_after.

(** Refuted for further calls: once a call has returned, a waiting call waits
    for ever (StopPeriodicTask sends on a channel nobody receives from). *)
Theorem C91_second_stop_refuted :
  (exists s, psteps pinit s /\ pReturned s = 1 /\ pWaiting s = 1) /\
  forall s, psteps pinit s -> pReturned s = 1 ->
    forall u, psteps s u -> pReturned u = 1 /\ pWaiting s <= pWaiting u.
Proof.
  split.
  - exists (mkP PGone false false 1 1 0). split; [|split; reflexivity].
    eapply pss_more; [eapply pss_more; [eapply pss_more; [apply pss_here|apply ps_stop]|apply ps_done]|apply ps_stop].
  - intros s R Z u Q.
    assert (G : pLoop s = PGone) by (apply (pinv_steps s R); auto).
    assert (K : pLoop u = PGone /\ pReturned u = 1 /\ pWaiting s <= pWaiting u); [|tauto].
    clear R. induction Q as [s|s t u Q IH St]; [auto|]. destruct (IH Z G) as (A & B & C).
    destruct St; cbn in *; try discriminate; split; auto; split; auto; lia.
Qed.
Print Assumptions C91_second_stop_refuted.

(** A tick is pending when the task is stopped: it may still be worked on. *)
Example C91_instance : exists s u, psteps pinit s /\ 0 < pWaiting s /\ pReturned s = 0 /\
  psteps s u /\ pRuns u = pRuns s + 1 /\ pReturned u = 1.
Proof.
  exists (mkP PWork false true 1 0 1), (mkP PGone false false 0 1 2).
  split; [|repeat (split; [cbn; lia || reflexivity|])].
  - eapply pss_more; [eapply pss_more; [eapply pss_more; [eapply pss_more; [apply pss_here|apply (ps_tick PSelect 0 0 0 false)]|apply ps_work]|apply (ps_tick PWork 0 0 1 false)]|apply ps_stop].
  - split; [|split; reflexivity].
    eapply pss_more; [eapply pss_more; [eapply pss_more; [eapply pss_more; [apply pss_here|apply ps_back]|apply ps_work]|apply ps_back]|apply ps_done].
Qed.
