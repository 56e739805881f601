(** C137: exactly when closing a dataset blocks the scan of a statistics run for good. *)
From Verif.Base Require Import GoBase.
From Verif.Model Require Import ScanChan.
From Verif.Props Require Import ScanChanProps.
Open Scope nat_scope.

(** How many of these entries have a TTL over ten seconds. *)
Definition long_ones (todo : list visit) : nat := length (filter vLong todo).
(** A datum waits to be put in the channel. *)
Definition waiting (s : chanstate) : nat := match chPc s with Sending => 1 | Scanning => 0 end.
(** What has been sent or is to be sent if the dataset is closed now. *)
Definition in_all (s : chanstate) : nat := chCounter s + waiting s + long_ones (chTodo s).

Lemma long_ones_cons : forall v todo,
  long_ones (v :: todo) = (if vLong v then 1 else 0) + long_ones todo.
Proof. intros v todo. unfold long_ones. cbn. destruct (vLong v); reflexivity. Qed.

(** Without a sender what was sent is in the channel; no step adds to in_all. *)
Lemma absent_runs : forall cl lim todo s, chan_runs cl (chan_start lim false todo) s ->
  chLimit s = lim /\ chQueued s = chCounter s /\ chCounter s <= lim /\ chConsumer s = Absent /\
  in_all s <= long_ones todo.
Proof.
  intros cl lim todo s R. remember (chan_start lim false todo) as s0 eqn:E.
  induction R as [s|s t u R IH St|s t u R IH C St].
  - subst. unfold in_all, waiting, chan_start. cbn. repeat split; auto; lia.
  - destruct (IH E) as (A & B & C & D & F). unfold in_all, waiting in *.
    destruct St; cbn [chLimit chQueued chCounter chConsumer chTodo chPc chAlive] in *; subst;
      try discriminate; rewrite ?long_ones_cons in F;
      repeat split; auto; try lia.
    unfold sends in H. cbn [chAlive chCounter chLimit] in H. apply andb_true_iff in H.
    destruct H as [_ H]. rewrite H in F. lia.
  - destruct (IH E) as (A & B & C' & D & F). unfold in_all, waiting in *. destruct St; cbn in *. auto.
Qed.

(** Once closed, no step changes in_all. *)
Lemma closed_step : forall s t, chan_step s t -> chAlive s = false ->
  chAlive t = false /\ in_all t = in_all s.
Proof.
  intros s t St A. unfold in_all, waiting.
  destruct St; cbn [chLimit chQueued chCounter chConsumer chTodo chPc chAlive] in *; subst;
    (split; [reflexivity|]); rewrite ?long_ones_cons; try lia;
    unfold sends in H; cbn in H; rewrite H; reflexivity || lia.
Qed.
Lemma closed_runs : forall cl s u, chan_runs cl s u -> chAlive s = false ->
  chAlive u = false /\ in_all u = in_all s.
Proof.
  intros cl s u R A. induction R as [s|s t u R IH St|s t u R IH C St]; auto.
  - destruct (IH A) as (B & D). destruct (closed_step _ _ St B) as (F & G). split; congruence.
  - destruct (IH A) as (B & D). destruct St; cbn in *. auto.
Qed.

Lemma runs_trans : forall cl s t u, chan_runs cl s t -> chan_runs cl t u -> chan_runs cl s u.
Proof.
  intros cl s t u R1 R2. induction R2 as [s'|s' t' u' R IH St|s' t' u' R IH C St]; auto.
  - exact (cr_step _ _ _ _ (IH R1) St).
  - exact (cr_close _ _ _ _ (IH R1) C St).
Qed.

(** Every state has a run to one where no step is possible; it has the steps
    decided by the state. *)
Lemma step_or_stuck : forall s, stuck s \/ exists t, chan_step s t.
Proof.
  intros [lim al pc todo n q c]. destruct pc.
  - destruct todo as [|v todo].
    + destruct c as [| |[|k]].
      * left. intros t St. inversion St.
      * destruct q as [|q]; [left; intros t St; inversion St|right].
        exists (mkChan lim al Scanning [] n q (Offering 0)). apply cs_take.
      * right. exists (mkChan lim al Scanning [] n q Receiving). apply cs_back.
      * right. exists (mkChan lim al Scanning [] n q (Offering k)). apply cs_work.
    + right. destruct (sends (mkChan lim al Scanning (v :: todo) n q c) v) eqn:S.
      * exists (mkChan lim al Sending todo n q c). apply cs_want. exact S.
      * exists (mkChan lim al Scanning todo n q c). apply cs_pass. exact S.
  - destruct (Nat.lt_ge_cases q lim) as [L|L].
    + right. exists (mkChan lim al Scanning todo (S n) (S q) c). apply cs_buffer. exact L.
    + destruct c as [| |[|k]].
      * left. intros t St. inversion St; subst. lia.
      * right. destruct q as [|q].
        -- exists (mkChan lim al Scanning todo (S n) 0 (Offering 0)). apply cs_direct.
        -- exists (mkChan lim al Sending todo n q (Offering 0)). apply cs_take.
      * right. exists (mkChan lim al Sending todo n q Receiving). apply cs_back.
      * right. exists (mkChan lim al Sending todo n q (Offering k)). apply cs_work.
Qed.
Lemma comes_to_rest : forall s, exists t, chan_runs true s t /\ stuck t.
Proof.
  intro s. induction (steps_wf s) as [s _ IH].
  destruct (step_or_stuck s) as [S|(t & St)].
  - exists s. split; [apply cr_here|exact S].
  - destruct (IH t St) as (u & R & S). exists u. split; [|exact S].
    refine (runs_trans _ _ t _ _ R). exact (cr_step _ _ _ _ (cr_here _ _) St).
Qed.

(** C137 Exactly when the scan hangs.  The moment of closing decides: with a count
    of zero, if the dataset is closed in state s, every way the run can come to
    rest is the end of the scan if what was sent and what is long-lived among
    the rest fits the channel, and is a scan blocked for good if it does not. *)
Theorem C137_moment : forall lim todo s s' u,
  chan_runs true (chan_start lim false todo) s -> chan_close s s' ->
  chan_runs true s' u -> stuck u ->
  (in_all s <= lim -> scan_over u) /\
  (lim < in_all s -> ~ scan_over u /\ forall v, chan_close u v -> stuck v).
Proof.
  intros lim todo s s' u R C R' St.
  assert (A : chAlive s' = false) by (destruct C; reflexivity).
  assert (Q : in_all s' = in_all s) by (destruct C; reflexivity).
  destruct (closed_runs _ _ _ R' A) as (A' & Q'). rewrite Q in Q'.
  assert (RU : chan_runs true (chan_start lim false todo) u).
  { refine (runs_trans _ _ _ _ _ R'). exact (cr_close _ _ _ _ R eq_refl C). }
  destruct (absent_runs _ _ _ _ RU) as (L & B & D & F & _).
  remember (in_all s) as a eqn:Ea. clear Ea Q.
  destruct u as [lim' al pc td n q c]. unfold in_all, waiting in Q'.
  cbn [chLimit chQueued chCounter chConsumer chTodo chPc chAlive] in *. subst lim' q c al. split.
  - intro H. destruct pc.
    + split; [reflexivity|]. cbn. destruct td as [|v td]; auto. exfalso.
      destruct (sends (mkChan lim false Scanning (v :: td) n n Absent) v) eqn:S.
      * exact (St _ (cs_want _ _ _ _ _ _ _ S)).
      * exact (St _ (cs_pass _ _ _ _ _ _ _ S)).
    + exfalso. refine (St _ (cs_buffer lim false td n n Absent _)). lia.
  - intro H. split.
    + intros (P & T). cbn in P, T. subst pc td. unfold long_ones in Q'. cbn in Q'. lia.
    + intros v CV. inversion CV; subst. exact St.
Qed.
Print Assumptions C137_moment.

(** A run of the scan can hang exactly if the reported count is zero and more data
    with a TTL over ten seconds are stored than the channel takes.  Whatever the
    random draws. *)
Theorem C137_exact : forall lim counted todo,
  (exists s, chan_runs true (chan_start lim counted todo) s /\ stuck s /\ ~ scan_over s) <->
  counted = false /\ lim < length (filter vLong todo).
Proof.
  intros lim counted todo. split.
  - intros (s & R & St & O). destruct counted.
    + destruct O. exact (proj1 (C92_ends_partial _ _ _ _ _ R (or_introl eq_refl)) St).
    + split; [reflexivity|]. destruct (absent_runs _ _ _ _ R) as (L & B & D & F & G).
      destruct s as [lim' al pc td n q c]. cbn in *. subst lim' q c.
      unfold in_all, waiting, long_ones in G. cbn in G. destruct pc.
      * destruct O. split; [reflexivity|]. cbn. destruct td as [|v td]; auto. exfalso.
        destruct (sends (mkChan lim al Scanning (v :: td) n n Absent) v) eqn:S.
        -- exact (St _ (cs_want _ _ _ _ _ _ _ S)).
        -- exact (St _ (cs_pass _ _ _ _ _ _ _ S)).
      * destruct (Nat.lt_ge_cases n lim) as [H|H]; [|lia].
        destruct (St _ (cs_buffer lim al td n n Absent H)).
  - intros (-> & H). set (s := chan_start lim false todo).
    set (s' := mkChan lim false Scanning todo 0 0 Absent).
    assert (C : chan_close s s') by apply cs_close.
    destruct (comes_to_rest s') as (u & R & St). exists u.
    split; [|split; [exact St|]].
    + refine (runs_trans _ _ s' _ _ R). exact (cr_close _ _ _ _ (cr_here _ _) eq_refl C).
    + exact (proj1 (proj2 (C137_moment lim todo s s' u (cr_here _ _) C R St) H)).
Qed.
Print Assumptions C137_exact.

(** Four data, three of them long-lived, a channel for two: closed at once the scan
    hangs; closed after the first two were passed over, it ends. *)
Example C137_instance :
  let todo := [mkVisit false true; mkVisit false false; mkVisit true true; mkVisit false true] in
  (exists s, chan_runs true (chan_start 2 false todo) s /\ stuck s /\ ~ scan_over s) /\
  ~ (exists s, chan_runs true (chan_start 3 false todo) s /\ stuck s /\ ~ scan_over s) /\
  exists s s' u, chan_runs true (chan_start 2 false todo) s /\ chan_close s s' /\
    chan_runs true s' u /\ stuck u /\ scan_over u.
Proof.
  split; [|split].
  - apply C137_exact. cbn. split; [reflexivity|lia].
  - intro H. apply C137_exact in H. cbn in H. lia.
  - set (rest := [mkVisit true true; mkVisit false true]).
    set (s := mkChan 2 true Scanning rest 0 0 Absent).
    set (s' := mkChan 2 false Scanning rest 0 0 Absent).
    assert (R : chan_runs true (chan_start 2 false
      (mkVisit false true :: mkVisit false false :: rest)) s).
    { eapply cr_step; [eapply cr_step; [apply cr_here|apply cs_pass; reflexivity]|].
      apply cs_pass. reflexivity. }
    assert (C : chan_close s s') by apply cs_close.
    destruct (comes_to_rest s') as (u & RU & St). exists s, s', u.
    split; [exact R|]. split; [exact C|]. split; [exact RU|]. split; [exact St|].
    refine (proj1 (C137_moment _ _ _ _ _ R C RU St) _). unfold in_all, waiting. cbn. lia.
Qed.
