(** C92: a statistics run comes to an end. *)
From Coq Require Import Wellfounded.
From Verif.Base Require Import GoBase.
From Verif.Model Require Import ScanChan.
Open Scope nat_scope.

(** No step is possible. *)
Definition stuck (s : chanstate) : Prop := forall t, ~ chan_step s t.

(** The capacity does not change, the channel is never overfull, the sender stays;
    while the dataset is alive no more than limit data were sent. *)
Definition cinv (lim : nat) (present : bool) (s : chanstate) : Prop :=
  chLimit s = lim /\ chQueued s <= lim /\
  (chConsumer s = Absent <-> present = false).

Lemma cinv_runs : forall cl lim counted todo s, chan_runs cl (chan_start lim counted todo) s ->
  cinv lim counted s.
Proof.
  intros cl lim counted todo s R. remember (chan_start lim counted todo) as s0 eqn:E.
  induction R as [s|s t u R IH St|s t u R IH C St].
  - subst. unfold cinv, chan_start. cbn. destruct counted; cbn; intuition (lia || discriminate).
  - specialize (IH E). unfold cinv in *. destruct St; cbn in *; intuition (lia || discriminate || congruence).
  - specialize (IH E). unfold cinv in *. destruct St; cbn in *; intuition.
Qed.

(** While alive: data in the channel have been counted, and a datum waits to be
    sent only if the counter is below the limit. *)
Lemma alive_runs : forall lim todo s, chan_runs false (chan_start lim false todo) s ->
  chAlive s = true /\ chQueued s = chCounter s /\ (chPc s = Sending -> chCounter s < lim) /\ chCounter s <= lim /\
  chLimit s = lim /\ chConsumer s = Absent.
Proof.
  intros lim todo s R. remember (chan_start lim false todo) as s0 eqn:E.
  induction R as [s|s t u R IH St|s t u R IH C St].
  - subst. cbn. intuition (lia || discriminate).
  - destruct (IH E) as (A & B & C & D & F & G). destruct St; cbn in *; subst; try discriminate;
      repeat split; auto; try discriminate; try lia.
    + intros _. unfold sends in H. cbn [chAlive chCounter chLimit negb orb] in H.
      destruct (Nat.ltb_spec n lim) as [L|L]; [lia|]. discriminate H.
  - discriminate.
Qed.

(** ** Every run is finite *)
(** Each step makes the pair (data still to be sent or in the channel, work of
    the sender) smaller: entries count three, a datum to be sent two, a queued
    one one; the sender's work counts within that. *)
Definition weight (s : chanstate) : nat :=
  3 * length (chTodo s) + (match chPc s with Sending => 2 | Scanning => 0 end) + chQueued s.
Definition effort (s : chanstate) : nat :=
  match chConsumer s with Offering k => S k | _ => 0 end.
Lemma step_smaller : forall s t, chan_step s t ->
  weight t < weight s \/ (weight t = weight s /\ effort t < effort s).
Proof. intros s t St. destruct St; unfold weight, effort; cbn; lia. Qed.

Lemma steps_wf : well_founded (fun t s => chan_step s t).
Proof.
  intro s. remember (weight s) as w eqn:Ew. revert s Ew.
  induction w as [w IHw] using (well_founded_induction lt_wf). intros s Ew.
  remember (effort s) as e eqn:Ee. revert s Ew Ee.
  induction e as [e IHe] using (well_founded_induction lt_wf). intros s Ew Ee.
  constructor. intros t St. destruct (step_smaller s t St) as [L|(Q & L)].
  - apply (IHw (weight t)); auto. subst w. exact L.
  - apply (IHe (effort t)); auto. subst e. exact L. rewrite Q. exact Ew.
Qed.

(** C92 A statistics run comes to an end: whatever the random draws and whenever
    the dataset is closed, the scan is never blocked for good.

    It holds if the reported count is not zero (there is a sender), closing at
    any time; or if the dataset is not closed during the scan. *)
Theorem C92_ends_partial : forall closing lim counted todo s,
  chan_runs closing (chan_start lim counted todo) s ->
  counted = true \/ closing = false ->
  (stuck s -> scan_over s) /\ Acc (fun t s => chan_step s t) s.
Proof.
  intros closing lim counted todo s R H. split; [|apply steps_wf].
  intro St. destruct (cinv_runs _ _ _ _ _ R) as (A & B & C).
  destruct s as [lim' al pc td n q c]. cbn in *. subst lim'. destruct pc.
  - split; [reflexivity|]. cbn. destruct td as [|v td]; auto. exfalso.
    destruct (sends (mkChan lim al Scanning (v :: td) n q c) v) eqn:S.
    + eapply St. apply cs_want. exact S.
    + eapply St. apply cs_pass. exact S.
  - exfalso. destruct c as [| |[|k]].
    + destruct C as [C _]. specialize (C eq_refl). subst counted. destruct H as [H| ->]; [discriminate|].
      destruct (alive_runs _ _ _ R) as (_ & Q & L & _). cbn in *. subst q.
      eapply St. apply cs_buffer. apply L. reflexivity.
    + destruct q as [|q]; eapply St; [apply (cs_direct _ _ _ _ 0)|apply (cs_take _ _ _ _ _ _ 0)].
    + eapply St. apply cs_back.
    + eapply St. apply cs_work.
Qed.
Print Assumptions C92_ends_partial.

(** Refuted: with a reported count of zero there is no sender; closing the dataset
    makes the scan send everything, and it is blocked for good as soon as the
    channel is full.  For every capacity. *)
Theorem C92_ends_refuted : forall lim, exists todo s,
  chan_runs true (chan_start lim false todo) s /\ stuck s /\ ~ scan_over s /\
  (forall t, chan_close s t -> stuck t).
Proof.
  intro lim. exists (repeat (mkVisit false true) (S lim)), (mkChan lim false Sending [] lim lim Absent).
  assert (K : forall n q todo, n + q = lim ->
    chan_runs true (chan_start lim false (repeat (mkVisit false true) (S lim)))
      (mkChan lim false Scanning (repeat (mkVisit false true) n ++ todo) q q Absent) ->
    chan_runs true (chan_start lim false (repeat (mkVisit false true) (S lim)))
      (mkChan lim false Scanning todo lim lim Absent)).
  { induction n as [|n IH]; intros q todo E R; cbn in *.
    - subst q. exact R.
    - apply (IH (S q)); [lia|]. eapply cr_step; [eapply cr_step; [exact R|apply cs_want; reflexivity]|].
      apply cs_buffer. lia. }
  split; [|split; [|split]].
  - eapply cr_step; [apply (K lim 0 [mkVisit false true]); [lia|]|apply cs_want; reflexivity].
    eapply cr_close; [apply cr_here|reflexivity|]. unfold chan_start.
    rewrite <- repeat_cons. cbn [repeat]. apply cs_close.
  - intros t St. inversion St; subst. lia.
  - intros (H & _). discriminate.
  - intros t C. inversion C; subst. intros u St. inversion St; subst. lia.
Qed.
Print Assumptions C92_ends_refuted.

(** Without closing, the data sent so far (with the one waiting to be sent) are the
    first of those drawn with a TTL over ten seconds among the entries visited,
    up to the limit of the run. *)
Theorem C92_sent_partial : forall lim counted todo s,
  chan_runs false (chan_start lim counted todo) s ->
  exists seen, todo = seen ++ chTodo s /\
    chCounter s + (match chPc s with Sending => 1 | Scanning => 0 end) =
    Nat.min lim (length (filter (fun v => vChosen v && vLong v) seen)).
Proof.
  intros lim counted todo s R. remember (chan_start lim counted todo) as s0 eqn:E0.
  assert (G : chAlive s = true /\ chLimit s = lim /\ exists seen, todo = seen ++ chTodo s /\
    chCounter s + (match chPc s with Sending => 1 | Scanning => 0 end) =
    Nat.min lim (length (filter (fun v => vChosen v && vLong v) seen))); [|tauto].
  induction R as [s|s t u R IH St|s t u R IH C St]; [| |discriminate].
  - subst s. split; [reflexivity|]. split; [reflexivity|]. exists []. split; [reflexivity|].
    cbn. rewrite Nat.min_0_r. reflexivity.
  - destruct (IH E0) as (A & L & seen & E & Q). clear IH R.
    destruct St; cbn in *; subst al lim0; (split; [reflexivity|]); (split; [reflexivity|]);
      try (exists seen; split; [exact E|lia]).
    + exists (seen ++ [v]). split; [rewrite <- app_assoc; exact E|].
      rewrite filter_app, app_length. unfold sends in H. cbn in H. cbn.
      destruct (vChosen v), (vLong v); cbn in *; try lia.
      rewrite andb_true_r, andb_true_r in H. apply Nat.ltb_ge in H. lia.
    + exists (seen ++ [v]). split; [rewrite <- app_assoc; exact E|].
      rewrite filter_app, app_length. unfold sends in H. cbn in H. cbn.
      destruct (vChosen v), (vLong v); cbn in *; rewrite ?andb_true_r, ?andb_false_r in H;
        try discriminate. apply Nat.ltb_lt in H. lia.
Qed.
Print Assumptions C92_sent_partial.

(** Three entries, capacity 1, closed after the first: with a sender the scan ends. *)
Example C92_instance :
  let todo := [mkVisit true true; mkVisit false true; mkVisit false false] in
  exists s, chan_runs true (chan_start 1 true todo) s /\ scan_over s /\ chCounter s = 2.
Proof.
  exists (mkChan 1 false Scanning [] 2 1 Receiving). split; [|split; [split|]; reflexivity].
  eapply cr_step; [|apply (cs_pass 1 false (mkVisit false false)); reflexivity].
  eapply cr_step; [|apply (cs_buffer 1 false _ 1 0); lia].
  eapply cr_step; [|apply cs_back].
  eapply cr_step; [|apply (cs_take 1 false Sending _ 1 0 0)].
  eapply cr_step; [|apply (cs_want 1 false (mkVisit false true)); reflexivity].
  eapply cr_close; [|reflexivity|apply (cs_close 1 true)].
  eapply cr_step; [|apply (cs_buffer 1 true _ 0 0); lia].
  eapply cr_step; [|apply (cs_want 1 true (mkVisit true true)); reflexivity].
  apply cr_here.
Qed.
