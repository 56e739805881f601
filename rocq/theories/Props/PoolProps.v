(** Properties C58, C59 and C72: connection pools. *)
From Verif.Base Require Import GoBase GoLemmas Assoc.
From Verif.Model Require Import Pool.
From Verif.Spec Require Import PoolSpec.
From Verif.Proof Require Import SyncP PoolP.
Open Scope nat_scope.

(** An execution: two callers share a connection, which becomes ready; the first
    hands it back and a third caller gets it. *)
Definition steps (i n : nat) : list plev := repeat (EStep i 0 true) n.
Definition demo : list plev :=
  EGet :: EGet :: steps 0 5 ++ [EState 0 Ready] ++ steps 1 5 ++ [EPut 0] ++ steps 0 2 ++ EGet :: steps 2 5.

(** ** C58 *)

(** A connection that Get hands out was checked by that Get and found not shut
    down. *)
Theorem C58_usable : forall es i c,
  nth_error (lThreads (plrun pools0 es)) i = Some (THeld c) ->
  c < length (lConns (plrun pools0 es)) /\
  exists es1 es2 p n, es = es1 ++ es2 /\
    nth_error (lThreads (plrun pools0 es1)) i = Some (TGot p n c) /\
    state_of (lConns (plrun pools0 es1)) c <> Shutdown.
Proof.
  intros es i c N. split; [|eapply chosen_checked; eauto; cbn; apply Nat.eqb_refl].
  destruct (Nat.lt_ge_cases c (length (lConns (plrun pools0 es)))) as [L|GE]; [auto|].
  pose proof (Pinv_run es _ _ Pinv0) as [F _ _ _]. destruct (F c GE) as [Z _].
  pose proof (cnt_pos _ (wM c) _ _ _ N) as X. unfold wM, b2n in X. cbn in X. rewrite Nat.eqb_refl in X.
  unfold wM in Z. unfold b2n in Z. lia.
Qed.
Print Assumptions C58_usable.
Example C58_usable_instance :
  nth_error (lThreads (plrun pools0 demo)) 2 = Some (THeld 0) /\
  nth_error (lThreads (plrun pools0 demo)) 1 = Some (THeld 0).
Proof. vm_compute. auto. Qed.

(** A call of Get looks into the pool at most four times, and after twelve of its
    own steps it has returned, whatever the other goroutines do. *)
Theorem C58_attempts : forall es1 es2,
  let s := plrun pools0 es1 in
  let i := length (lThreads s) in
  attempts i s (EGet :: es2) <= 4 /\
  (12 <= steps_of i es2 ->
   exists t, nth_error (lThreads (plrun s (EGet :: es2))) i = Some t /\
     match t with THeld _ | TNil | TDec _ _ | THealth _ _ | TDone => True | _ => False end).
Proof.
  intros es1 es2 s i.
  assert (N : nth_error (lThreads (plstep s EGet)) i = Some (TTry (lCur s) 0)) by (cbn; apply nth_app_last).
  destruct (run_getting es2 (plstep s EGet) i _ N) as (t & N' & _ & W & A); [cbn; lia|].
  split; [exact A|]. intro H. exists t. split; [exact N'|]. apply W. exact H.
Qed.
Print Assumptions C58_attempts.
(** With failing dials the fourth attempt is the last. *)
Example C58_attempts_instance :
  lThreads (plrun pools0 (EGet :: repeat (EStep 0 0 false) 5)) = [TNil] /\
  attempts 0 pools0 (EGet :: repeat (EStep 0 0 false) 12) = 4.
Proof. vm_compute. auto. Qed.

(** At any time the counter of a connection is the number of its users. *)
Theorem C58_counter : forall es c,
  counter_of (lConns (plrun pools0 es)) c = Z.of_nat (users (plrun pools0 es) c).
Proof.
  intros es c. pose proof (Pinv_run es _ _ Pinv0) as [_ B _ _]. rewrite B. unfold users. rewrite cnt_filter. reflexivity.
Qed.
Print Assumptions C58_counter.
Example C58_counter_instance :
  users (plrun pools0 demo) 0 = 2 /\ counter_of (lConns (plrun pools0 demo)) 0 = 2%Z.
Proof. vm_compute. auto. Qed.

(** ** C59 *)

(** A connection has at most 21 users plus the number of times it was handed
    back; in particular at most 21 before it is handed back for the first time. *)
Theorem C59_sharing_partial : forall es c,
  users (plrun pools0 es) c <= 21 + releases c pools0 es.
Proof.
  intros es c. pose proof (Pinv_run es _ _ Pinv0) as [_ _ _ D]. specialize (D c). cbn [Nat.add] in D.
  unfold users. rewrite cnt_filter. unfold wU in D. lia.
Qed.
Print Assumptions C59_sharing_partial.
(** The bound is reached: 21 callers, and no twenty-second. *)
Fixpoint crowd (n i : nat) : list plev :=
  match n with O => [] | S n' => EGet :: (if Nat.eqb i 0 then EStep 0 0 true :: EState 0 Ready :: steps 0 4 else steps i 5) ++ crowd n' (S i) end.
Example C59_sharing_instance :
  holders (plrun pools0 (crowd 21 0)) 0 = 21 /\ releases 0 pools0 (crowd 21 0) = 0 /\
  holders (plrun pools0 (crowd 22 0)) 0 = 21 /\ holders (plrun pools0 (crowd 22 0)) 1 = 1.
Proof. vm_compute. auto. Qed.

(** C59 refuted: every hand-back stores the connection once more, so for every n
    there is an execution in which n callers hold one connection. *)
Theorem C59_sharing_refuted : forall n, exists es, n <= holders (plrun pools0 es) 0.
Proof.
  intro n. destruct (many_entries n) as (es1 & l & E1).
  destruct (many_gets n l 0 (S n)) as (es2 & m' & E2); [lia|lia|].
  exists (es1 ++ es2). rewrite plrun_app, E1, E2. unfold holders, st_of. cbn [lThreads].
  rewrite filter_app, app_length. rewrite cnt_filter. rewrite cnt_filter.
  assert (X : forall k, cnt (fun x => b2n (holds 0 x)) (repeat (THeld 0) k) = k) by (induction k; cbn in *; lia).
  rewrite X. lia.
Qed.
Print Assumptions C59_sharing_refuted.

(** If connections are ready whenever they are handed back and no pool is evicted,
    no connection is ever closed. *)
Theorem C59_not_closed_partial : forall es c,
  calm pools0 es -> c < length (lConns (plrun pools0 es)) ->
  state_of (lConns (plrun pools0 es)) c <> Shutdown.
Proof.
  intros es c K L. destruct (Iopen_run es pools0) as [O _]; auto.
  split; [cbn; intros; lia|constructor].
Qed.
Print Assumptions C59_not_closed_partial.
Example C59_not_closed_instance : calm pools0 demo /\ length (lConns (plrun pools0 demo)) = 1.
Proof. split; [vm_compute; auto 30|vm_compute; reflexivity]. Qed.

(** C59 refuted: a caller that hands a connection back while it is not ready closes
    it for the caller that still uses it. *)
Theorem C59_closed_in_use_refuted : exists es c,
  holders (plrun pools0 es) c = 1 /\ state_of (lConns (plrun pools0 es)) c = Shutdown /\
  Forall undisturbed es.
Proof.
  exists (EGet :: EGet :: steps 0 5 ++ steps 1 5 ++ [EState 0 Ready; EState 0 TransientFailure; EPut 0] ++ steps 0 2), 0.
  split; [vm_compute; reflexivity|]. split; [vm_compute; reflexivity|]. repeat constructor.
Qed.
Print Assumptions C59_closed_in_use_refuted.

(** C59 refuted: an evicted pool closes ready connections in use. *)
Theorem C59_evicted_refuted : exists es c,
  holders (plrun pools0 es) c = 1 /\ state_of (lConns (plrun pools0 es)) c = Shutdown /\
  forall i, ~ In (EPut i) es.
Proof.
  exists (EGet :: steps 0 5 ++ [EState 0 Ready; EEvict] ++ steps 1 3), 0.
  split; [vm_compute; reflexivity|]. split; [vm_compute; reflexivity|].
  intros i H. cbn in H. repeat (destruct H as [H|H]; [discriminate H|]). exact H.
Qed.
Print Assumptions C59_evicted_refuted.

(** ** C72 *)

(** Without evictions and garbage collection no open connection is lost: it is in
    a pool or in the hands of a goroutine. *)
Theorem C72_not_lost_partial : forall es c,
  Forall undisturbed es -> c < length (lConns (plrun pools0 es)) ->
  state_of (lConns (plrun pools0 es)) c <> Shutdown -> reachable (plrun pools0 es) c.
Proof.
  intros es c U L S. apply weight_reachable.
  apply (K_kept _ (Kinv_run es pools0 ltac:(constructor; cbn; auto; intros; lia) U) c L S).
Qed.
Print Assumptions C72_not_lost_partial.
Example C72_instance : Forall undisturbed demo /\ state_of (lConns (plrun pools0 demo)) 0 = Ready.
Proof. split; [repeat constructor|vm_compute; reflexivity]. Qed.

(** In every interleaving: a connection that is neither closed nor in a pool nor in the hands
    of a goroutine was in a pool and was dropped from it by the garbage collector. *)
Theorem C72_dropped_partial : forall es c,
  c < length (lConns (plrun pools0 es)) -> state_of (lConns (plrun pools0 es)) c <> Shutdown ->
  reachable (plrun pools0 es) c \/
  exists es1 p k es2 ps, es = es1 ++ EDrop p k :: es2 /\ pool_take (lPools (plrun pools0 es1)) p k = Some (c, ps).
Proof.
  intros es c L S.
  destruct (Jinv_run es (fun _ => 0) pools0) with (c := c) as [X|X]; auto.
  - constructor; cbn; auto. intros; lia.
  - left. apply weight_reachable, X.
Qed.
Print Assumptions C72_dropped_partial.
(** An interleaving with an eviction and a drop: connection 0 is dropped, connection 1 is not. *)
Example C72_instance_dropped :
  let es := EGet :: EGet :: steps 0 5 ++ [EState 0 Ready] ++ [EDrop 0 0; EEvict] ++ steps 1 5 ++ [EState 1 Ready; EPut 0; EPut 1] ++ steps 0 2 ++ steps 1 2 ++ [EDrop 1 1] in
  map kState (lConns (plrun pools0 es)) = [Ready; Ready] /\ ~ reachable (plrun pools0 es) 0 /\ reachable (plrun pools0 es) 1.
Proof.
  cbv zeta. match goal with |- context [plrun pools0 ?es] => let s := eval vm_compute in (plrun pools0 es) in change (plrun pools0 es) with s end.
  split; [reflexivity|]. split.
  - intros [(p & q & N & IN)|(t & IN & M)].
    + destruct p as [|[|p]]; cbn in N; [|injection N as <-|destruct p; discriminate N]; try (injection N as <-); cbn in IN; intuition discriminate.
    + cbn in IN. intuition (subst; discriminate).
  - left. exists 0. eexists. split; [reflexivity|]. cbn. auto.
Qed.

(** C72 refuted: the garbage collector empties pools without closing connections. *)
Theorem C72_refuted : exists es c,
  c < length (lConns (plrun pools0 es)) /\ state_of (lConns (plrun pools0 es)) c = Ready /\
  ~ reachable (plrun pools0 es) c.
Proof.
  exists (EGet :: steps 0 5 ++ [EState 0 Ready; EPut 0] ++ steps 0 2 ++ [EDrop 0 0; EDrop 0 0]), 0.
  split; [vm_compute; auto|]. split; [vm_compute; reflexivity|].
  assert (E : plrun pools0 (EGet :: steps 0 5 ++ [EState 0 Ready; EPut 0] ++ steps 0 2 ++ [EDrop 0 0; EDrop 0 0]) =
    mkPools [mkConn 0 Ready] [mkPool [] false] 0 [TDone]) by reflexivity.
  rewrite E. intros [(p & q & N & IN)|(t & IN & M)].
  - destruct p as [|[|p]]; cbn in N; try discriminate N. injection N as <-. exact IN.
  - cbn in IN. destruct IN as [<-|[]]. discriminate M.
Qed.
Print Assumptions C72_refuted.

(** C72 refuted without any garbage collection: 21 callers share a connection (more than
    20, so the pool does not have it); all give it back, each having looked the pool up
    before the pool is evicted and emptied.  The open connection ends up in the evicted pool:
    all goroutines are done, and the pool in use does not have it. *)
Definition late_puts : list plev :=
  repeat EGet 21 ++ steps 0 5 ++ [EState 0 Ready] ++ flat_map (fun i => steps i 5) (seq 1 20) ++
  flat_map (fun i => EPut i :: steps i 1) (seq 0 21) ++
  EEvict :: steps 21 1002 ++ flat_map (fun i => steps i 1) (seq 0 21).
Theorem C72_late_refuted : exists es c,
  (forall p k, ~ In (EDrop p k) es) /\
  c < length (lConns (plrun pools0 es)) /\ state_of (lConns (plrun pools0 es)) c = Ready /\
  Forall (eq TDone) (lThreads (plrun pools0 es)) /\
  exists q, nth_error (lPools (plrun pools0 es)) (lCur (plrun pools0 es)) = Some q /\ ~ In c (plItems q).
Proof.
  exists late_puts, 0. split.
  - intros p k I. assert (X : existsb (fun e => match e with EDrop _ _ => true | _ => false end) late_puts = true).
    { apply existsb_exists. eauto. }
    vm_compute in X. discriminate X.
  - assert (E : plrun pools0 late_puts = mkPools [mkConn 0 Ready] [mkPool (repeat 0 21) true; mkPool [] false] 1 (repeat TDone 22)).
    { vm_compute. reflexivity. }
    rewrite E. split; [cbn; lia|]. split; [reflexivity|]. split; [cbn; repeat constructor|].
    eexists. split; [reflexivity|]. intros [].
Qed.
Print Assumptions C72_late_refuted.
