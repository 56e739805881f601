(** C173: replicas that are left to themselves. *)
From Verif.Base Require Import GoBase GoLemmas Assoc Float.
From Verif.Model Require Import Codec Store Data Insert Vector Search Dataset Sync Cluster.
From Verif.Spec Require Import StoreSpec VectorSpec SyncSpec SettleSpec ClusterSpec ReplicaSpec.
From Verif.Proof Require Import StoreP VectorP SyncP SyncQ SyncR ClusterP LifetimeP.
From Verif.Props Require Import StoreProps SyncProps SettleProps AgreeProps.
From Coq Require Import Lia.
Open Scope N_scope.

(** ** Data with the same vector *)
Definition unit_bits : N := 1065353216.
Definition unit_vec : list float := [f32_of_bits unit_bits].
Definition blob (a b : N) : Datum := kv (mkKey [unit_bits] [a; b] 1 1 1 1) va.
Definition fill (a : N) (l : list nat) : dbmap :=
  fold_left (fun m j => mstore m (keyof (blob a (N.of_nat j))) (mkEntry 1000000000000 (blob a (N.of_nat j)))) l [].
Definition stock_of (i : nat) : dbmap := fill (N.of_nat (Nat.min i 2)) (seq 0 128).

Lemma fill_inv : forall a (Q : dbmap -> Prop), Q [] ->
  (forall m j, Q m -> Q (mstore m (keyof (blob a (N.of_nat j))) (mkEntry 1000000000000 (blob a (N.of_nat j))))) ->
  forall l, Q (fill a l).
Proof.
  intros a Q Q0 QS l. unfold fill. assert (G : forall m, Q m -> Q (fold_left (fun m j => mstore m (keyof (blob a (N.of_nat j))) (mkEntry 1000000000000 (blob a (N.of_nat j)))) l m)).
  { induction l as [|j l IH]; intros m H; [exact H|]. cbn [fold_left]. apply IH, QS, H. }
  apply G, Q0.
Qed.

Lemma stock_mwf : forall i, mwf (stock_of i).
Proof. intro i. apply (fill_inv _ (fun m => mwf m)); [constructor|]. intros m j H. apply mstore_wf, H. Qed.

Lemma blob_key : forall a b, has_key (blob a b) (keyof (blob a b)).
Proof. intros a b. reflexivity. Qed.

Lemma stock_keyed : forall i, keyed (stock_of i).
Proof. intro i. apply (fill_inv _ keyed); [intros k e H; discriminate H|]. intros m j H. apply keyed_store; [exact H|apply blob_key]. Qed.

Definition same_vector (l : list (bytes * entry)) : Prop := Forall (fun p => features (edatum (snd p)) = unit_vec) l.
Lemma stock_vector : forall i, same_vector (stock_of i).
Proof.
  intro i. apply (fill_inv _ same_vector); [constructor|]. intros m j H. unfold mstore. constructor; [reflexivity|].
  unfold same_vector in *. rewrite Forall_forall in *. intros p IN. apply H. eapply mdelete_incl. exact IN.
Qed.
Lemma stock_length : forall i, length (stock_of i) = 128%nat.
Proof.
  intro i. unfold stock_of. assert (M : Nat.min i 2 = 0%nat \/ Nat.min i 2 = 1%nat \/ Nat.min i 2 = 2%nat) by lia.
  destruct M as [E|[E|E]]; rewrite E; vm_compute; reflexivity.
Qed.

(** ** One scan *)
Definition scan_unit (s : scan) : scan :=
  let d := VectorDistance mathlib_ex unit_vec unit_vec in
  mkScan (u64 (sN s + 1)) (CalculateAverage (sAvg s) unit_vec (f32_of_Z 128))
    (if fgtb d (sMax s) then d else sMax s) (sHist s) (sCounter s) (sOut s).

Lemma scan_same : forall E l s, same_vector l -> eAvg E = unit_vec -> eMax E = fzero -> eNFloat E = f32_of_Z 128 -> eAlive E = true -> eLimit E = 0 ->
  fold_left (fun s p => fst (scan_entry mathlib_ex E s (snd p))) l s = fold_left (fun s _ => scan_unit s) (repeat tt (length l)) s.
Proof.
  intros E l. induction l as [|p l IH]; intros s U A B C D F; [reflexivity|]. inversion U as [|? ? U1 U2]; subst.
  cbn [fold_left length repeat]. rewrite IH by assumption. f_equal. unfold scan_entry. rewrite U1, A, B, C, D, F.
  cbn [negb orb]. replace (sCounter s <? 0) with false by (symmetry; apply N.ltb_ge; lia).
  replace (feqb fzero fzero) with true by reflexivity. reflexivity.
Qed.

Lemma scan_128 : fold_left (fun s _ => scan_unit s) (repeat tt 128) scan0 = mkScan 128 unit_vec fzero (repeat fzero 64) 0 [].
Proof. vm_compute. reflexivity. Qed.

(** ** The nodes *)
Definition settled (i : nat) (s : sync) : Prop :=
  dAlive (yData s) = true /\ dN (yData s) = 128 /\ dAvg (yData s) = unit_vec /\ dMaxDistance (yData s) = fzero /\
  dHist (yData s) = repeat fzero 64 /\ store s = stock_of i /\ Forall nothing (ySenders s).

Lemma settled_sensible : forall i s, settled i s -> sensible (yData s).
Proof.
  intros i s (_ & _ & A & M0 & H & _). unfold sensible. rewrite A, M0, H. split; [|split; [|reflexivity]].
  - constructor; [vm_compute; exact Logic.I|constructor].
  - apply Forall_forall. intros x IN. apply repeat_spec in IN. subst x. exact Logic.I.
Qed.

Lemma none_expired : forall (tick : bytes -> Z) (l : list (bytes * entry)), (forall k e, In (k, e) l -> expired (tick k) e = false) ->
  filter (fun p => expired (tick (fst p)) (snd p)) l = [] /\ live_of tick l = l.
Proof.
  intros tick l. unfold live_of. induction l as [|[k e] l IH]; intro H; [auto|]. cbn [filter fst snd]. rewrite (H k e) by (left; reflexivity).
  cbn [negb]. destruct IH as (A & B); [intros k0 e0 I; apply H; right; exact I|]. rewrite A, B. auto.
Qed.

Lemma settled_process : forall (resolve : bytes -> option nat) (w : cluster) i P force s', (forall n, settled n (w n)) ->
  left_alone resolve w (CLocal i (YProcess P force)) -> sync_step mathlib_ex 0 (w i) (YProcess P force) = Some s' -> settled i s'.
Proof.
  intros resolve w i P force s' A (PO & ND & EX & HO) H. cbn [sync_step] in H.
  destruct (Process mathlib_ex P (yData (w i)) force) as [[dt r]| |] eqn:PR; try discriminate H.
  pose proof (A i) as (AL & DN & AV & MX & HI & ST & NO). pose proof (settled_sensible _ _ (A i)) as SE.
  assert (AGR : all_agree 100 (mkSync (yData (w i)) []) (YProcess P force)).
  { cbn [all_agree yData]. split; [exact AL|]. rewrite DN. split; [lia|]. split; [exact SE|]. split; [exact ND|].
    intros id info IN. destruct (HO id info IN) as (t & _ & G). destruct (A t) as (_ & DN' & AV' & _ & HI' & _).
    unfold GetDataInfo in G. destruct (dConfig (yData (w t))); [|discriminate G]. injection G as <-. unfold agrees. cbn [iN iAvg iHist].
    rewrite DN, DN', AV, AV', HI, HI'. auto. }
  assert (NR : forall r0, r = Some r0 -> nothing r0).
  { intros r0 ->. eapply process_nothing; [exact mathlib_ex_ok|exact AGR|exact PR]. }
  assert (SEN : yData s' = dt /\ Forall nothing (ySenders s')).
  { destruct r as [r0|]; injection H as <-; cbn [yData ySenders]; [|auto]. split; [reflexivity|].
    apply Forall_app. split; [exact NO|]. constructor; [apply NR; reflexivity|constructor]. }
  destruct SEN as (YD & SEN). unfold settled, store. rewrite YD. clear H YD.
  assert (LIM : forall li dm limit, GetDataInfo (yData (w i)) = Ok li -> DataSourceDiffMap mathlib_ex (pItems P) (pInfo P) li = (dm, limit) -> limit = 0).
  { intros li dm limit GI DM. assert (IN : iN li = dN (yData (w i))) by (eapply info_N; eauto).
    destruct AGR as (_ & _ & _ & _ & AG). cbn [yData] in AG.
    assert (INF' : forall id i, pInfo P id = Some i -> iN i < M64).
    { intros id0 i0 I0. destruct (AG _ _ I0) as (-> & _). rewrite DN. unfold M64. lia. }
    destruct (diffmap_spec mathlib_ex (pItems P) (pInfo P) li dm limit ltac:(rewrite IN, DN; unfold M64; lia) INF' ND DM) as (W & S1 & _ & _ & S4).
    rewrite S1. apply total_zero; [exact W|]. intros id q L. destruct (S4 id q L) as (_ & info & I & ->).
    pose proof (AG _ _ I) as Q. rewrite quota_exact by (destruct Q as (Q & _); lia).
    rewrite (agree_alike mathlib_ex _ li info mathlib_ex_ok GI SE Q). destruct Q as (Q & _). rewrite Q, IN, DN. reflexivity. }
  unfold Process in PR. destruct (GetDataInfo (yData (w i))) as [li| |] eqn:GI; try discriminate PR.
  destruct (dConfig (yData (w i))) as [config|] eqn:CF; try discriminate PR.
  destruct (dSources (yData (w i))) as [src|] eqn:SR; try discriminate PR.
  destruct (DataSourceDiffMap mathlib_ex (pItems P) (pInfo P) li) as [dm limit] eqn:DM. pose proof (LIM _ _ _ eq_refl DM) as ->.
  destruct (process_due (yData (w i)) (pNow P) 0 force).
  - rewrite loop_scan in PR.
    assert (EX' : forall k e, In (k, e) (pOrder P) -> expired (pTick P k) e = false).
    { intros k e IN. apply EX. eapply Permutation_in; [exact PO|exact IN]. }
    destruct (none_expired _ _ EX') as (F1 & F2). rewrite F1, F2 in PR. cbn [map fold_left] in PR.
    rewrite scan_same in PR.
    2: { unfold same_vector. eapply Permutation_Forall; [apply Permutation_sym; exact PO|]. rewrite ST. apply stock_vector. }
    2: { cbn [senv_of eAvg]. exact AV. }
    2: { cbn [senv_of eMax]. exact MX. }
    2: { cbn [senv_of eNFloat]. rewrite DN. reflexivity. }
    2: { cbn [senv_of eAlive]. exact AL. }
    2: { reflexivity. }
    rewrite (Permutation_length PO), ST, stock_length, scan_128 in PR. injection PR as <- _. cbn [dAlive dN dAvg dMaxDistance dHist dDBMap sN sAvg sMax sHist].
    repeat (split; [first [exact AL|reflexivity|exact ST]|]). exact SEN.
  - injection PR as <- _. cbn [dAlive dN dAvg dMaxDistance dHist dDBMap]. auto 10.
Qed.

Lemma settled_step : forall resolve (w : cluster) e w', (forall n, settled n (w n)) -> left_alone resolve w e ->
  cluster_step mathlib_ex 0 resolve w e = Some w' -> forall n, settled n (w' n).
Proof.
  intros resolve w e w' A LA H. destruct e as [i e|i j now l]; cbn [cluster_step] in H.
  - assert (LOC : match sync_step mathlib_ex 0 (w i) e with Some s => Some (set_sync w i s) | None => None end = Some w').
    { destruct e as [P fo|jj se|? ? ?|?|?|]; try exact H. destruct se; try exact H; discriminate H. }
    destruct (sync_step mathlib_ex 0 (w i) e) as [s'|] eqn:SS; [|discriminate LOC]. injection LOC as <-.
    intro n. unfold set_sync. destruct (Nat.eqb_spec n i) as [->|NE]; [|apply A].
    destruct e as [P fo|jj se|? ? ?|?|l|]; try (destruct LA; fail).
    + eapply settled_process; eauto.
    + exfalso. cbn [sync_step] in SS. destruct (nth_error (ySenders (w i)) jj) as [r|] eqn:N1; [|discriminate SS].
      destruct (A i) as (_ & _ & _ & _ & _ & _ & NO). rewrite Forall_forall in NO. destruct (NO r (nth_error_In _ _ N1)) as (Q1 & Q2).
      unfold sender_step in SS. rewrite Q1, Q2 in SS. destruct se; discriminate SS.
    + cbn [sync_step] in SS. injection SS as <-. exact (A i).
  - exfalso. destruct (nth_error (ySenders (w i)) j) as [r|] eqn:N1; [|discriminate H].
    destruct (A i) as (_ & _ & _ & _ & _ & _ & NO). rewrite Forall_forall in NO. destruct (NO r (nth_error_In _ _ N1)) as (Q1 & Q2).
    rewrite Q2 in H. discriminate H.
Qed.

Lemma settled_run : forall resolve es (w w' : cluster), (forall n, settled n (w n)) -> always mathlib_ex 0 resolve (left_alone resolve) w es ->
  cluster_run mathlib_ex 0 resolve w es = Some w' -> forall n, settled n (w' n).
Proof.
  intro resolve. induction es as [|e es IH]; intros w w' A V R; cbn in *.
  - injection R as <-. exact A.
  - destruct V as (V1 & V2). destruct (cluster_step mathlib_ex 0 resolve w e) as [w1|] eqn:E; [|discriminate R].
    eapply IH; [|exact V2|exact R]. eapply settled_step; eauto.
Qed.

(** ** What does hold *)
Definition roomy (s : sync) : Prop :=
  dAlive (yData s) = true /\ (exists c, dConfig (yData s) = Some c /\ cNoTarget c = true) /\
  Forall (fun r => cNoTarget (rConf r) = true) (ySenders s).

Lemma insert_config : forall now dt d c dt' e, InsertLocal now dt d c = Ok (dt', e) -> dConfig dt' = dConfig dt.
Proof.
  intros now dt d c dt' e H. unfold InsertLocal in H.
  destruct (match dConfig dt with Some c => _ | None => false end); [injection H as <- _; auto|].
  assert (A0 : dConfig (if dInitialized dt then dt else InitData dt) = dConfig dt)
    by (unfold InitData; destruct (dInitialized dt) eqn:I; reflexivity).
  destruct (InsertBDMap _ _ _ _) as [[m f]|e0|]; [| injection H as <- _; exact A0 | discriminate H].
  destruct f; injection H as <- _; exact A0.
Qed.

Lemma sender_roomy : forall undef dt r e dt' r', dAlive dt = true -> cNoTarget (rConf r) = true ->
  sender_step undef dt r e = Some (dt', r') -> dt' = dt /\ cNoTarget (rConf r') = true.
Proof.
  intros undef dt r e dt' r' AL NT SS. unfold sender_step in SS.
  destruct e as [order| |ok|]; destruct (rPc r) as [|d c [|id ids]|d c id ids] eqn:PC; try discriminate SS.
  - destruct (rQueue r) as [|[d c] q]; [discriminate SS|]. injection SS as <- <-. auto.
  - injection SS as <- <-. auto.
  - destruct (serves dt r id); [discriminate SS|]. injection SS as <- <-. auto.
  - destruct (serves dt r id); [|discriminate SS]. injection SS as <- <-. auto.
  - rewrite AL in SS. unfold isEvictionOn in SS. rewrite NT in SS. cbn [negb orb andb] in SS. injection SS as <- <-. auto.
Qed.

Lemma roomy_receive : forall now s d c k, roomy s -> roomy (fst (receive now s d c)) /\
  (mload (store s) k <> None -> mload (store (fst (receive now s d c))) k <> None).
Proof.
  intros now s d c k (AL & (cf & CF & NT) & SE). unfold receive, store.
  destruct (InsertLocal now (yData s) (Some d) (Some c)) as [[dt o]| |] eqn:IL.
  2,3: cbn [fst]; split; [split; [exact AL|split; [exists cf; auto|exact SE]]|auto].
  assert (X : roomy (mkSync dt (ySenders s)) /\ (mload (dDBMap (yData s)) k <> None -> mload (dDBMap dt) k <> None)).
  { split; [|eapply insert_keeps; exact IL]. split; [eapply insert_alive; [exact IL|exact AL]|].
    split; [exists cf; cbn [yData]; rewrite (insert_config _ _ _ _ _ _ IL); auto|exact SE]. }
  destruct o; exact X.
Qed.

Lemma roomy_step : forall M undef resolve k w e w', (forall n, roomy (w n)) -> left_alone resolve w e ->
  cluster_step M undef resolve w e = Some w' ->
  (forall n, roomy (w' n)) /\ forall n, mload (store (w n)) k <> None -> mload (store (w' n)) k <> None.
Proof.
  intros M undef resolve k w e w' A LA H. destruct e as [i e|i j now l]; cbn [cluster_step] in H.
  - assert (LOC : match sync_step M undef (w i) e with Some s => Some (set_sync w i s) | None => None end = Some w').
    { destruct e as [P fo|jj se|? ? ?|?|?|]; try exact H. destruct se; try exact H; discriminate H. }
    destruct (sync_step M undef (w i) e) as [s'|] eqn:SS; [|discriminate LOC]. injection LOC as <-.
    assert (X : roomy s' /\ (mload (store (w i)) k <> None -> mload (store s') k <> None)).
    { pose proof (A i) as (AL & (cf & CF & NT) & SE). unfold store.
      destruct e as [P fo|jj se|? ? ?|?|l|]; try (destruct LA; fail); cbn [sync_step] in SS.
      - destruct (Process M P (yData (w i)) fo) as [[dt r]| |] eqn:PR; try discriminate SS.
        destruct (process_spec _ _ _ _ _ _ PR) as (li & cf' & limit & dm & _ & CF' & _ & C1 & C2 & _ & C).
        assert (YD : yData s' = dt) by (destruct r; injection SS as <-; reflexivity). unfold roomy. rewrite YD. split.
        + split; [congruence|]. split; [exists cf; split; congruence|].
          destruct r as [r|]; injection SS as <-; cbn [ySenders]; [|exact SE]. apply Forall_app. split; [exact SE|].
          constructor; [|constructor]. destruct C as [(_ & C)|(_ & _ & C & _)]; [|discriminate C]. cbv zeta in C. destruct C as (_ & _ & _ & _ & _ & C).
          destruct (0 <? dN (yData (w i))); [|discriminate C]. injection C as ->. cbn [rConf]. congruence.
        + destruct LA as (PO & _ & EX & _). destruct C as [(_ & E1 & _)|(_ & E1 & _)]; rewrite E1; [|auto].
          replace (filter (fun p => expired (pTick P (fst p)) (snd p)) (pOrder P)) with (@nil (bytes * entry)); [auto|].
          symmetry. apply none_expired. intros k0 e0 IN. apply EX. eapply Permutation_in; [exact PO|exact IN].
      - destruct (nth_error (ySenders (w i)) jj) as [r|] eqn:N1; [|discriminate SS].
        destruct (sender_step undef (yData (w i)) r se) as [[dt r']|] eqn:S1; [|discriminate SS].
        destruct (list_set (ySenders (w i)) jj r') as [l|] eqn:LS; [|discriminate SS]. injection SS as <-.
        pose proof SE as SE'. rewrite Forall_forall in SE'.
        destruct (sender_roomy _ _ _ _ _ _ AL (SE' r (nth_error_In _ _ N1)) S1) as (-> & NT'). cbn [yData]. split; [|auto].
        split; [exact AL|]. split; [exists cf; auto|]. cbn [ySenders]. apply Forall_forall. intros x IN.
        apply In_nth_error in IN. destruct IN as (m & IN). rewrite (nth_set _ _ _ _ _ m LS) in IN.
        destruct (Nat.eqb jj m); [injection IN as <-; exact NT'|]. apply SE'. eapply nth_error_In. exact IN.
      - injection SS as <-. split; [|auto]. split; [exact AL|]. split; [exists cf; auto|exact SE]. }
    destruct X as (X1 & X2). split; intro n; unfold set_sync; destruct (Nat.eqb_spec n i) as [->|NE]; auto.
  - destruct (nth_error (ySenders (w i)) j) as [r|] eqn:N1; [|discriminate H].
    destruct (rPc r) as [|d c [|id ids]|] eqn:PC; try discriminate H.
    assert (STEP : forall w1 ok, (forall n, roomy (w1 n)) -> (forall n, mload (store (w n)) k <> None -> mload (store (w1 n)) k <> None) ->
      match sync_step M undef (w1 i) (YSend j (SOffer ok)) with Some s => Some (set_sync w1 i s) | None => None end = Some w' ->
      (forall n, roomy (w' n)) /\ forall n, mload (store (w n)) k <> None -> mload (store (w' n)) k <> None).
    { intros w1 ok A1 K1' S1. cbn [sync_step] in S1. destruct (nth_error (ySenders (w1 i)) j) as [r1|] eqn:N2; [|discriminate S1].
      destruct (sender_step undef (yData (w1 i)) r1 (SOffer ok)) as [[dt r']|] eqn:S2; [|discriminate S1].
      destruct (list_set (ySenders (w1 i)) j r') as [l0|] eqn:LS; [|discriminate S1]. injection S1 as <-.
      pose proof (A1 i) as (AL & (cf & CF & NT) & SE). pose proof SE as SE'. rewrite Forall_forall in SE'.
      destruct (sender_roomy _ _ _ _ _ _ AL (SE' r1 (nth_error_In _ _ N2)) S2) as (-> & NT').
      assert (RO : roomy (mkSync (yData (w1 i)) l0)).
      { split; [exact AL|]. split; [exists cf; auto|]. cbn [ySenders]. apply Forall_forall. intros x IN.
        apply In_nth_error in IN. destruct IN as (m & IN). rewrite (nth_set _ _ _ _ _ m LS) in IN.
        destruct (Nat.eqb j m); [injection IN as <-; exact NT'|]. apply SE'. eapply nth_error_In. exact IN. }
      split; intro n; unfold set_sync; destruct (Nat.eqb_spec n i) as [->|NE]; auto. intro X. apply (K1' i X). }
    destruct (resolve id) as [t|]; [|eapply STEP; eauto].
    pose proof (roomy_receive now (w t) d c k (A t)) as RO. destruct (receive now (w t) d c) as [s ok]. cbn [fst] in RO. destruct RO as (RO1 & RO2).
    assert (SET1 : forall n, roomy (set_sync w t s n)).
    { intro n. unfold set_sync. destruct (Nat.eqb_spec n t) as [->|NI]; [exact RO1|apply A]. }
    assert (SET2 : forall n, mload (store (w n)) k <> None -> mload (store (set_sync w t s n)) k <> None).
    { intros n X. unfold set_sync. destruct (Nat.eqb_spec n t) as [->|NI]; auto. }
    destruct l; (eapply STEP; [| |exact H]); auto.
Qed.

(** C173 Without a target, replicas only grow towards each other: no node loses a key, as
    long as no client deletes it and it has not expired.
    Missing: that they come to hold the same data, refuted below. *)
Theorem C173_kept_partial : forall M undef resolve k es w w',
  (forall i, dAlive (yData (w i)) = true /\ (exists c, dConfig (yData (w i)) = Some c /\ cNoTarget c = true) /\ ySenders (w i) = []) ->
  always M undef resolve (left_alone resolve) w es -> cluster_run M undef resolve w es = Some w' ->
  forall i, mload (store (w i)) k <> None -> mload (store (w' i)) k <> None.
Proof.
  intros M undef resolve k es w w' A V R.
  assert (A' : forall i, roomy (w i)). { intro i. destruct (A i) as (X & Y & Z). split; [exact X|]. split; [exact Y|]. rewrite Z. constructor. }
  clear A. revert w A' V R. induction es as [|e es IH]; intros w A' V R i H; cbn in *.
  - injection R as <-. exact H.
  - destruct V as (V1 & V2). destruct (cluster_step M undef resolve w e) as [w1|] eqn:E; [|discriminate R].
    destruct (roomy_step M undef resolve k w e w1 A' V1 E) as (A1 & K1'). eapply IH; [exact A1|exact V2|exact R|]. apply K1', H.
Qed.
Print Assumptions C173_kept_partial.

(** C173 refuted: two nodes that are each other's source hold 128 data each and have none in
    common.  All data have the same vector, so that the nodes report the same statistics, and
    nothing is sent from one to the other, ever. *)
Definition strangers : cluster := fun i =>
  mkSync (mkData (Some (cfg_s 0 true)) unit_vec 128 fzero (repeat fzero 64) 0 0 false
            (Some [if Nat.eqb i 0 then B1 else A1]) true true 0 (stock_of i) 0) [].

Theorem C173_strangers_refuted : exists w,
  (forall i, mwf (store (w i)) /\ keyed (store (w i)) /\ ySenders (w i) = [] /\ dAlive (yData (w i)) = true /\
     exists c, dConfig (yData (w i)) = Some c /\ cNoTarget c = true) /\
  dSources (yData (w 0%nat)) = Some [B1] /\ dSources (yData (w 1%nat)) = Some [A1] /\
  who B1 = Some 1%nat /\ who A1 = Some 0%nat /\
  length (store (w 0%nat)) = 128%nat /\ length (store (w 1%nat)) = 128%nat /\
  (forall k e, In (k, e) (store (w 0%nat)) -> mload (store (w 1%nat)) k = None /\ exprireAt e = 1000000000000%Z) /\
  forall es w', always mathlib_ex 0 who (left_alone who) w es -> cluster_run mathlib_ex 0 who w es = Some w' ->
    forall i, store (w' i) = store (w i).
Proof.
  exists strangers.
  split. { intro i. split; [apply stock_mwf|]. split; [apply stock_keyed|]. split; [reflexivity|]. split; [reflexivity|]. eexists. split; reflexivity. }
  do 4 (split; [reflexivity|]). split; [apply stock_length|]. split; [apply (stock_length 1)|]. split.
  { assert (X : forallb (fun p => match mload (stock_of 1) (fst p) with None => (exprireAt (snd p) =? 1000000000000)%Z | _ => false end) (stock_of 0) = true)
      by (vm_compute; reflexivity).
    rewrite forallb_forall in X. intros k e IN. specialize (X (k, e) IN). cbn [fst snd] in X. unfold store. cbn [strangers yData dDBMap].
    destruct (mload (stock_of 1) k); [discriminate X|]. split; [reflexivity|]. apply Z.eqb_eq. exact X. }
  intros es w' V R i. assert (A : forall n, settled n (strangers n)).
  { intro n. unfold settled. cbn [strangers yData ySenders dAlive dN dAvg dMaxDistance dHist]. repeat (split; [reflexivity|]). constructor. }
  destruct (settled_run who es strangers w' A V R i) as (_ & _ & _ & _ & _ & E & _). rewrite E. reflexivity.
Qed.
Print Assumptions C173_strangers_refuted.

(** Both nodes compute their statistics again and again. *)
Definition strangers_info (i : nat) : DataInfo := match GetDataInfo (yData (strangers i)) with Ok x => x | _ => info_s 0 end.
Definition strangers_env (src : bytes) (t i : nat) : penv :=
  mkPenv 1000 1000 0 [src] (fun id => if bytes_eqb id src then Some (strangers_info t) else None) (stock_of i) (fun _ => 1000%Z) (fun _ => 1000) (fun _ => fzero) 0.

Definition strangers_try (i : nat) (P : penv) : option (nat * res DataInfo) :=
  match sync_step mathlib_ex 0 (strangers i) (YProcess P true) with
  | Some s => Some (length (ySenders s), GetDataInfo (yData s))
  | None => None
  end.
Lemma strangers_0 : strangers_try 0 (strangers_env B1 1 0) = Some (1%nat, Ok (strangers_info 0)).
Proof. vm_compute. reflexivity. Qed.
Lemma strangers_1 : strangers_try 1 (strangers_env A1 0 1) = Some (1%nat, Ok (strangers_info 1)).
Proof. vm_compute. reflexivity. Qed.

Local Strategy 1000 [stock_of].
Example C173_instance_strangers : exists w',
  always mathlib_ex 0 who (left_alone who) strangers
    [CLocal 0 (YProcess (strangers_env B1 1 0) true); CLocal 1 (YProcess (strangers_env A1 0 1) true); CLocal 0 (YSources [B1])] /\
  cluster_run mathlib_ex 0 who strangers
    [CLocal 0 (YProcess (strangers_env B1 1 0) true); CLocal 1 (YProcess (strangers_env A1 0 1) true); CLocal 0 (YSources [B1])] = Some w' /\
  length (ySenders (w' 0%nat)) = 1%nat /\ length (ySenders (w' 1%nat)) = 1%nat.
Proof.
  assert (EXP : forall n k e, In (k, e) (stock_of n) -> expired 1000 e = false).
  { intros n k e. revert k e. unfold stock_of.
    apply (fill_inv _ (fun m => forall k e, In (k, e) m -> expired 1000 e = false)); [intros k e []|].
    intros m j H k e [Q|Q]; [injection Q as _ <-; reflexivity|]. eapply H. eapply mdelete_incl. exact Q. }
  assert (HON : forall src t id info, who src = Some t -> pInfo (strangers_env src t 0) id = Some info ->
    exists t0, who id = Some t0 /\ GetDataInfo (yData (strangers t0)) = Ok info).
  { intros src t id info W Q. cbn [strangers_env pInfo] in Q. destruct (bytes_eqb id src) eqn:B; [|discriminate Q].
    apply bytes_eqb_spec in B. subst id. injection Q as <-. exists t. split; [exact W|reflexivity]. }
  destruct (cluster_step mathlib_ex 0 who strangers (CLocal 0 (YProcess (strangers_env B1 1 0) true))) as [w1|] eqn:E1;
    pose proof E1 as F1; cbn [cluster_step] in F1; pose proof strangers_0 as S1; unfold strangers_try in S1; destruct (sync_step _ _ _ _) as [s1|] in F1, S1; try discriminate F1; [|discriminate S1].
  injection F1 as F1. injection S1 as S1 S1'.
  assert (I1 : GetDataInfo (yData (w1 0%nat)) = Ok (strangers_info 0) /\ store (w1 1%nat) = stock_of 1 /\ length (ySenders (w1 0%nat)) = 1%nat /\ w1 1%nat = strangers 1%nat).
  { rewrite <- F1, set_sync_same. split; [exact S1'|]. split; [reflexivity|]. split; [exact S1|reflexivity]. }
  destruct I1 as (I1 & I2 & I3 & I4).
  destruct (cluster_step mathlib_ex 0 who w1 (CLocal 1 (YProcess (strangers_env A1 0 1) true))) as [w2|] eqn:E2;
    pose proof E2 as F2; cbn [cluster_step] in F2; rewrite I4 in F2; pose proof strangers_1 as S2; unfold strangers_try in S2; destruct (sync_step _ _ _ _) as [s2|] in F2, S2; try discriminate F2; [|discriminate S2].
  injection F2 as F2. injection S2 as S2 S2'.
  assert (J : length (ySenders (w2 0%nat)) = 1%nat /\ length (ySenders (w2 1%nat)) = 1%nat).
  { rewrite <- F2, set_sync_same. split; [exact I3|exact S2]. }
  exists (set_sync w2 0 (mkSync (set_sources (yData (w2 0%nat)) (Some [B1])) (ySenders (w2 0%nat)))). split; [|split].
  - cbn [always]. split.
    { cbn [left_alone strangers_env pOrder pItems pTick]. split; [apply Permutation_refl|]. split; [constructor; [intros []|constructor]|].
      split; [intros k e IN; eapply (EXP 0%nat); exact IN|]. intros id info Q. eapply (HON B1 1%nat); [reflexivity|exact Q]. }
    rewrite E1. split.
    { cbn [left_alone strangers_env pOrder pItems pTick]. rewrite I2. split; [apply Permutation_refl|]. split; [constructor; [intros []|constructor]|].
      split; [intros k e IN; eapply (EXP 1%nat); exact IN|]. intros id info Q. exists 0%nat. cbn [strangers_env pInfo] in Q.
      destruct (bytes_eqb id A1) eqn:B; [|discriminate Q]. apply bytes_eqb_spec in B. subst id. injection Q as <-. split; [reflexivity|exact I1]. }
    rewrite E2. split; [exact Logic.I|]. cbn [cluster_step sync_step]. exact Logic.I.
  - cbn [cluster_run]. rewrite E1, E2. reflexivity.
  - rewrite set_sync_same. exact J.
Qed.

(** A node with one datum brings it to an empty one, whose report is honest. *)
Definition empty_info : DataInfo := match GetDataInfo (yData (sole 1%nat)) with Ok x => x | _ => info_s 0 end.
Definition bring : list cev :=
  [CLocal 0 (YProcess (mkPenv 1000 1000 1000 [B1] (fun id => if bytes_eqb id B1 then Some empty_info else None) [(K1, mkEntry 100000 D1)] (fun _ => 1000%Z) (fun _ => 1000) (fun _ => fzero) 0) true);
   CLocal 0 (YSend 0 (STake [B1])); COffer 0 0 1000 Deliver; CLocal 0 (YSend 0 SDecide)].

Example C173_instance_kept : exists w',
  (forall i, dAlive (yData (sole i)) = true /\ (exists c, dConfig (yData (sole i)) = Some c /\ cNoTarget c = true) /\ ySenders (sole i) = []) /\
  always mathlib_ex 0 who (left_alone who) sole bring /\ cluster_run mathlib_ex 0 who sole bring = Some w' /\
  mload (store (sole 0%nat)) K1 <> None /\ mload (store (sole 1%nat)) K1 = None /\
  mload (store (w' 0%nat)) K1 <> None /\ mload (store (w' 1%nat)) K1 <> None.
Proof.
  assert (E0 : forall (x : option cluster), x = None \/ exists w, x = Some w) by (intros [w|]; eauto).
  destruct (E0 (cluster_run mathlib_ex 0 who sole bring)) as [E|[w' E]].
  { exfalso. vm_compute in E. discriminate E. }
  exists w'.
  assert (R : forall i, dAlive (yData (sole i)) = true /\ (exists c, dConfig (yData (sole i)) = Some c /\ cNoTarget c = true) /\ ySenders (sole i) = []).
  { intros [|i]; (split; [reflexivity|split; [exists (cfg_s 0 true); split; reflexivity|reflexivity]]). }
  assert (AL : always mathlib_ex 0 who (left_alone who) sole bring).
  { unfold bring. cbn [always]. split.
    { split; [apply Permutation_refl|]. split; [constructor; [intros []|constructor]|]. split.
      - intros k e [H|[]]. injection H as _ <-. reflexivity.
      - intros id info Q. cbn [pInfo] in Q. destruct (bytes_eqb id B1) eqn:B; [|discriminate Q].
        apply bytes_eqb_spec in B. subst id. injection Q as <-. exists 1%nat. split; reflexivity. }
    repeat match goal with
    | |- match ?x with _ => _ end => destruct x eqn:S1; [|exact Logic.I]; vm_compute in S1; injection S1 as <-
    | |- left_alone _ _ _ /\ _ => split; [exact Logic.I|]
    end. exact Logic.I. }
  assert (K : mload (store (sole 0%nat)) K1 <> None) by (vm_compute; discriminate).
  split; [exact R|]. split; [exact AL|]. split; [exact E|]. split; [exact K|]. split; [reflexivity|].
  split; [eapply C173_kept_partial; eauto|]. vm_compute in E. injection E as <-. vm_compute. discriminate.
Qed.
