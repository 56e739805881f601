(** Copies of one key without a time to live stay as they are. *)
From Verif.Base Require Import GoBase GoLemmas Assoc Float.
From Verif.Model Require Import Codec Store Data Insert Vector Dataset Sync Cluster.
From Verif.Spec Require Import SyncSpec ClusterSpec AgreeSpec.
From Verif.Proof Require Import SyncP SyncQ SyncR ClusterP LifetimeP.
From Coq Require Import Lia.
Open Scope N_scope.

Definition still (k : bytes) (o : option entry) (s : sync) : Prop :=
  mwf (store s) /\ keyed (store s) /\ mload (store s) k = o /\ (forall e, o = Some e -> exprireAt e = 0%Z) /\
  forall i r d, nth_error (ySenders s) i = Some r -> sender_data r d -> ~ has_key d k.

Definition leaves_local (k : bytes) (s : sync) (e : yev) : Prop :=
  match e with
  | YProcess P _ => Permutation (pOrder P) (store s)
  | YInsert _ (Some d) _ => ~ has_key d k
  | YDelete d => GetKeyAsBytes d <> Ok k
  | _ => True
  end.

Lemma keyed_fold_delete : forall ks m, keyed m -> keyed (fold_left mdelete ks m).
Proof. induction ks as [|k ks IH]; intros m K; [exact K|]. cbn [fold_left]. apply IH, keyed_delete, K. Qed.

Lemma still_step : forall M undef k o s e s', still k o s -> leaves_local k s e ->
  sync_step M undef s e = Some s' -> still k o s'.
Proof.
  intros M undef k o s e s' (W & K & L & Z & SD) LA H.
  pose proof (step_wf _ _ _ _ _ H W) as W'. split; [exact W'|]. unfold store in *.
  destruct e as [P force|i e|now d0 c|d0|l|]; cbn [sync_step leaves_local] in *.
  - destruct (Process M P (yData s) force) as [[dt r]| |] eqn:PR; try discriminate H.
    destruct (process_spec _ _ _ _ _ _ PR) as (li & cf & limit & dm & _ & _ & _ & _ & _ & _ & C).
    assert (ST : yData s' = dt) by (destruct r; injection H as <-; reflexivity). rewrite ST.
    split; [|split; [|split; [exact Z|]]].
    + destruct C as [(_ & E1 & _)|(_ & E1 & _)]; rewrite E1; [apply keyed_fold_delete; exact K|exact K].
    + destruct C as [(_ & E1 & _)|(_ & E1 & _)]; rewrite E1; [|exact L].
      destruct (mload_fold_delete_cases (map fst (filter (fun p => expired (pTick P (fst p)) (snd p)) (pOrder P))) (dDBMap (yData s)) k) as [E2|[_ E2]];
        [congruence|exfalso].
      apply in_map_iff in E2. destruct E2 as ([k' e'] & E3 & IN). cbn in E3. subst k'.
      apply filter_In in IN. destruct IN as [IN EX]. cbn [fst snd] in EX.
      assert (IN2 : In (k, e') (dDBMap (yData s))) by (eapply Permutation_in; eauto).
      apply in_mload in IN2; auto. unfold expired in EX. rewrite (Z e') in EX by congruence. discriminate EX.
    + intros i r0 d N0.
      destruct r as [r|]; injection H as <-; cbn [ySenders] in N0; [|apply (SD i); exact N0].
      destruct (Nat.lt_ge_cases i (length (ySenders s))) as [LT|GE].
      { rewrite nth_error_app1 in N0 by auto. apply (SD i); exact N0. }
      rewrite nth_error_app2 in N0 by auto.
      destruct (i - length (ySenders s))%nat as [|j]; [|destruct j; discriminate N0].
      cbn in N0. injection N0 as <-.
      destruct C as [(_ & C)|(_ & _ & C & _)]; [|discriminate C].
      cbv zeta in C. destruct C as (_ & _ & _ & _ & _ & C).
      destruct (0 <? dN (yData s)); [|discriminate C]. injection C as ->.
      intros [(c & IN)|[]] HK. cbn [rQueue] in IN.
      apply fold_out in IN. destruct IN as [[]|(k' & e0 & IN & -> & TT & n & ->)].
      unfold live_of in IN. apply filter_In in IN. destruct IN as [IN _].
      assert (IN2 : In (k', e0) (dDBMap (yData s))) by (eapply Permutation_in; eauto).
      apply in_mload in IN2; auto. pose proof (K _ _ IN2) as HK'. unfold has_key in HK, HK'. rewrite HK' in HK. injection HK as ->.
      rewrite (Z e0) in TT by congruence. rewrite ttl_zero in TT. lia.
  - destruct (nth_error (ySenders s) i) as [r|] eqn:N; [|discriminate H].
    destruct (sender_step undef (yData s) r e) as [[dt r']|] eqn:SS; [|discriminate H].
    destruct (list_set (ySenders s) i r') as [l|] eqn:LS; [|discriminate H]. injection H as <-. cbn [yData ySenders] in *.
    assert (SD' : forall j r0 d, nth_error l j = Some r0 -> sender_data r0 d -> ~ has_key d k).
    { intros j r0 d N0 X. rewrite (nth_set _ _ _ _ _ j LS) in N0.
      destruct (Nat.eqb_spec i j) as [<-|NE]; [injection N0 as <-|apply (SD j r0 d N0 X)].
      apply (SD i r d N). eapply sender_data_step; eauto. }
    destruct (sender_store _ _ _ _ _ _ SS) as [->|(d1 & c & id & ids & k1 & PC & _ & HK & ->)]; [auto|].
    cbn [set_map dDBMap]. split; [apply keyed_delete; exact K|]. split; [|auto].
    rewrite mload_mdelete. destruct (bytes_eqb k1 k) eqn:B; [|exact L]. exfalso. apply bytes_eqb_spec in B. subst k1.
    apply (SD i r d1 N); [|exact HK]. right. rewrite PC. reflexivity.
  - destruct (InsertLocal now (yData s) d0 c) as [[dt o']| |] eqn:IL; try discriminate H. injection H as <-.
    cbn [yData ySenders]. destruct (insert_shape _ _ _ _ _ _ IL) as [E|(d1 & k0 & -> & HK & E)]; rewrite E; [auto|].
    split; [apply keyed_store; [exact K|exact HK]|]. split; [|auto].
    rewrite mload_mstore. destruct (bytes_eqb k0 k) eqn:B; [|exact L]. exfalso. apply bytes_eqb_spec in B. subst k0. auto.
  - destruct (DeleteBDMap (dDBMap (yData s)) d0) as [m| |] eqn:DB; try discriminate H. injection H as <-.
    unfold DeleteBDMap in DB. destruct (GetKeyAsBytes d0) as [k0| |]; try discriminate DB. injection DB as <-.
    cbn [yData ySenders set_map dDBMap]. split; [apply keyed_delete; exact K|]. split; [|auto].
    rewrite mload_mdelete. destruct (bytes_eqb k0 k) eqn:B; [|exact L]. exfalso. apply bytes_eqb_spec in B. subst k0. auto.
  - injection H as <-. auto.
  - injection H as <-. auto.
Qed.

Lemma still_receive : forall k o now s d c, still k o s -> ~ has_key d k -> still k o (fst (receive now s d c)).
Proof.
  intros k o now s d c SI NK. unfold receive.
  assert (X : forall dt o', InsertLocal now (yData s) (Some d) (Some c) = Ok (dt, o') -> still k o (mkSync dt (ySenders s))).
  { intros dt o' IL. apply (still_step (mkMath (fun x => x) (fun x => x)) 0 k o s (YInsert now (Some d) (Some c)) _ SI NK).
    cbn [sync_step]. rewrite IL. reflexivity. }
  destruct (InsertLocal now (yData s) (Some d) (Some c)) as [[dt [o'|]]| |]; cbn [fst]; eauto.
Qed.

Lemma still_cluster : forall M undef resolve k f w e w', (forall i, still k (f i) (w i)) -> leaves_alone k w e ->
  cluster_step M undef resolve w e = Some w' -> forall i, still k (f i) (w' i).
Proof.
  intros M undef resolve k f w e w' A LA H. destruct e as [i e|i j now l]; cbn [cluster_step] in H.
  - assert (LOC : match sync_step M undef (w i) e with Some s => Some (set_sync w i s) | None => None end = Some w').
    { destruct e as [P fo|jj se|? ? ?|?|?|]; try exact H. destruct se; try exact H; discriminate H. }
    destruct (sync_step M undef (w i) e) as [s'|] eqn:SS; [|discriminate LOC]. injection LOC as <-.
    intro n. unfold set_sync. destruct (Nat.eqb_spec n i) as [->|NE]; [|apply A].
    eapply still_step; [apply A| |exact SS]. destruct e as [P fo|? ?|now [d|] c|?|?|]; exact LA || exact I.
  - destruct (nth_error (ySenders (w i)) j) as [r|] eqn:NE; [|discriminate H].
    destruct (rPc r) as [|d c [|id ids]|] eqn:PC; try discriminate H.
    assert (ND : ~ has_key d k).
    { destruct (A i) as (_ & _ & _ & _ & SD). apply (SD j r d NE). right. rewrite PC. reflexivity. }
    assert (STEP : forall w1 ok, (forall n, still k (f n) (w1 n)) ->
      match sync_step M undef (w1 i) (YSend j (SOffer ok)) with Some s => Some (set_sync w1 i s) | None => None end = Some w' ->
      forall n, still k (f n) (w' n)).
    { intros w1 ok A1 S1. destruct (sync_step M undef (w1 i) (YSend j (SOffer ok))) as [s|] eqn:SS; [|discriminate S1].
      injection S1 as <-. intro n. unfold set_sync. destruct (Nat.eqb_spec n i) as [->|NI]; [|apply A1].
      eapply still_step; [apply A1| |exact SS]. exact I. }
    destruct (resolve id) as [t|]; [|eapply STEP; eauto].
    pose proof (still_receive k (f t) now (w t) d c (A t) ND) as RO.
    destruct (receive now (w t) d c) as [s ok]. cbn [fst] in RO.
    assert (SET : forall n, still k (f n) (set_sync w t s n)).
    { intro n. unfold set_sync. destruct (Nat.eqb_spec n t) as [->|NI]; [exact RO|apply A]. }
    destruct l; (eapply STEP; [|exact H]); auto.
Qed.

Lemma still_run : forall M undef resolve k f es w w', (forall i, still k (f i) (w i)) ->
  always M undef resolve (leaves_alone k) w es -> cluster_run M undef resolve w es = Some w' -> forall i, still k (f i) (w' i).
Proof.
  intros M undef resolve k f. induction es as [|e es IH]; intros w w' A V R; cbn in *.
  - injection R as <-. exact A.
  - destruct V as (V1 & V2). destruct (cluster_step M undef resolve w e) as [w1|] eqn:E; [|discriminate R].
    eapply IH; [|exact V2|exact R]. eapply still_cluster; eauto.
Qed.
