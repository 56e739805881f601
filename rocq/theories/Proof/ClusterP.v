(** Lemmas about nodes that synchronise with each other. *)
From Verif.Base Require Import GoBase GoLemmas Assoc Float.
From Verif.Model Require Import Codec Store Data Insert Vector Dataset Sync Cluster.
From Verif.Spec Require Import SyncSpec ClusterSpec.
From Verif.Proof Require Import StoreP InsertP DatasetP SyncP SyncQ.
Open Scope N_scope.

(** After an acknowledged insert the receiver holds the key. *)
Lemma insert_present : forall now dt d c dt' k, InsertLocal now dt (Some d) c = Ok (dt', None) ->
  has_key d k -> mload (dDBMap dt') k <> None.
Proof.
  intros now dt d c dt' k H K. unfold InsertLocal in H.
  destruct (match dConfig dt with Some c => _ | None => false end); [discriminate H|].
  set (dt0 := if dInitialized dt then dt else InitData dt) in *.
  unfold InsertBDMap in H. unfold has_key in K. rewrite K in H. cbn [bind] in H. unfold EncodeToString in H.
  destruct (mload (dDBMap dt0) k) as [old|] eqn:L; cbn [bind] in H.
  - destruct (GetValueAsBytes (Some d)) as [v1| |]; cbn [bind] in H; try discriminate H.
    destruct (GetValueAsBytes (Some (edatum old))) as [v2| |]; cbn [bind] in H; try discriminate H.
    destruct (negb (bytes_eqb v1 v2 && CloseEnough (expireAtOf now c) (exprireAt old))); injection H as <-; cbn [set_dirty set_recent set_map dDBMap].
    + rewrite mload_mstore_same. discriminate.
    + rewrite L. discriminate.
  - injection H as <-. cbn [set_dirty set_recent set_map dDBMap]. rewrite mload_mstore_same. discriminate.
Qed.

Lemma insert_keeps : forall now dt d c dt' e k, InsertLocal now dt d c = Ok (dt', e) ->
  mload (dDBMap dt) k <> None -> mload (dDBMap dt') k <> None.
Proof.
  intros now dt d c dt' e k H L. destruct (insert_shape _ _ _ _ _ _ H) as [E|(d0 & k0 & _ & _ & E)]; rewrite E; [exact L|].
  rewrite mload_mstore. destruct (bytes_eqb k0 k); [discriminate|exact L].
Qed.

Lemma set_sync_same : forall w i s, set_sync w i s i = s.
Proof. intros. unfold set_sync. rewrite Nat.eqb_refl. reflexivity. Qed.
Lemma set_sync_other : forall w i s j, j <> i -> set_sync w i s j = w j.
Proof. intros. unfold set_sync. destruct (Nat.eqb_spec j i); [contradiction|reflexivity]. Qed.

(** A sender cannot be at a decision after a step that is no acknowledged offer,
    unless it was there before. *)
Definition at_decision (s : sync) (k : bytes) (j : nat) : Prop :=
  exists r d c id ids, nth_error (ySenders s) j = Some r /\ rPc r = Acked d c id ids /\ has_key d k.

Lemma decision_before : forall M undef s e s' k j,
  sync_step M undef s e = Some s' -> at_decision s' k j ->
  at_decision s k j \/
  (e = YSend j (SOffer true) /\ exists r d c id ids, nth_error (ySenders s) j = Some r /\
     rPc r = Visit d c (id :: ids) /\ has_key d k).
Proof.
  intros M undef s e s' k j H (r & d & c & id & ids & N & PC & HK).
  destruct e as [P force|i e|now d0 c0|d0|l|]; cbn [sync_step] in H.
  - left. destruct (Process M P (yData s) force) as [[dt r0]| |] eqn:PR; try discriminate H.
    destruct (process_spec _ _ _ _ _ _ PR) as (li & cf & limit & dm & _ & _ & _ & _ & _ & _ & C).
    destruct r0 as [r0|]; injection H as <-; cbn [ySenders] in N.
    + destruct (Nat.lt_ge_cases j (length (ySenders s))) as [LT|GE].
      { rewrite nth_error_app1 in N by auto. exists r, d, c, id, ids. auto. }
      rewrite nth_error_app2 in N by auto.
      destruct (j - length (ySenders s))%nat as [|j']; [|destruct j'; discriminate N].
      cbn in N. injection N as <-.
      destruct C as [(_ & C)|(_ & _ & C & _)]; [|discriminate C].
      cbv zeta in C. destruct C as (_ & _ & _ & _ & _ & C).
      destruct (0 <? dN (yData s)); [|discriminate C]. injection C as ->. discriminate PC.
    + exists r, d, c, id, ids. auto.
  - destruct (nth_error (ySenders s) i) as [r0|] eqn:N0; [|discriminate H].
    destruct (sender_step undef (yData s) r0 e) as [[dt r']|] eqn:SS; [|discriminate H].
    destruct (list_set (ySenders s) i r') as [l|] eqn:LS; [|discriminate H]. injection H as <-. cbn [ySenders] in N.
    rewrite (nth_set _ _ _ _ _ j LS) in N. destruct (Nat.eqb_spec i j) as [<-|NE].
    2:{ left. exists r, d, c, id, ids. auto. }
    injection N as <-. unfold sender_step in SS.
    destruct e as [order| |ok|]; destruct (rPc r0) as [|d0 c0 [|id0 ids0]|d0 c0 id0 ids0] eqn:PC0; try discriminate SS.
    + destruct (rQueue r0) as [|[d1 c1] q]; [discriminate SS|]. injection SS as <- <-. discriminate PC.
    + injection SS as <- <-. discriminate PC.
    + destruct (serves (yData s) r0 id0); [discriminate SS|]. injection SS as <- <-. discriminate PC.
    + destruct (serves (yData s) r0 id0); [|discriminate SS]. injection SS as <- <-.
      destruct ok; [|discriminate PC]. cbn [set_pc rPc] in PC. injection PC as <- <- <- <-.
      right. split; [reflexivity|]. exists r0, d0, c0, id0, ids0. auto.
    + destruct (negb (dAlive (yData s)) || _).
      * destruct (DeleteBDMap (dDBMap (yData s)) (Some d0)); try discriminate SS.
        injection SS as <- <-. discriminate PC.
      * injection SS as <- <-. discriminate PC.
  - left. destruct (InsertLocal now (yData s) d0 c0) as [[dt o]| |]; try discriminate H. injection H as <-.
    exists r, d, c, id, ids. auto.
  - left. destruct (DeleteBDMap (dDBMap (yData s)) d0); try discriminate H. injection H as <-.
    exists r, d, c, id, ids. auto.
  - left. injection H as <-. exists r, d, c, id, ids. auto.
  - left. injection H as <-. exists r, d, c, id, ids. auto.
Qed.

(** A step that makes a key disappear in peaceful conditions is a decision. *)
Lemma disappears : forall M undef s e s' k, mwf (store s) ->
  sync_step M undef s e = Some s' ->
  match e with
  | YProcess P _ => Permutation (pOrder P) (store s) /\
      forall e0, mload (store s) k = Some e0 -> expired (pTick P k) e0 = false
  | YDelete d' => GetKeyAsBytes d' <> Ok k
  | _ => True
  end ->
  mload (store s) k <> None -> mload (store s') k = None ->
  exists j, e = YSend j SDecide /\ at_decision s k j.
Proof.
  intros M undef s e s' k W H OK L1 L2. unfold store in *.
  destruct e as [P force|i e|now d0 c0|d0|l|]; cbn [sync_step] in H.
  - exfalso. destruct (Process M P (yData s) force) as [[dt r]| |] eqn:PR; try discriminate H.
    destruct (process_spec _ _ _ _ _ _ PR) as (li & cf & limit & dm & _ & _ & _ & _ & _ & _ & C).
    assert (ST : yData s' = dt) by (destruct r; injection H as <-; reflexivity). rewrite ST in L2.
    destruct C as [(_ & E1 & _)|(_ & E1 & _)]; rewrite E1 in L2; [|congruence].
    destruct (mload_fold_delete_cases (map fst (filter (fun p => expired (pTick P (fst p)) (snd p)) (pOrder P))) (dDBMap (yData s)) k) as [E2|[_ E2]]; [congruence|].
    apply in_map_iff in E2. destruct E2 as ([k' e'] & E3 & IN). cbn in E3. subst k'.
    apply filter_In in IN. destruct IN as [IN X]. cbn [fst snd] in X. destruct OK as [PM NX].
    assert (IN2 : In (k, e') (dDBMap (yData s))) by (eapply Permutation_in; eauto).
    apply in_mload in IN2; auto. rewrite (NX _ IN2) in X. discriminate X.
  - destruct (nth_error (ySenders s) i) as [r|] eqn:N; [|discriminate H].
    destruct (sender_step undef (yData s) r e) as [[dt r']|] eqn:SS; [|discriminate H].
    destruct (list_set (ySenders s) i r') as [l|] eqn:LS; [|discriminate H]. injection H as <-. cbn [yData] in L2.
    destruct (sender_store _ _ _ _ _ _ SS) as [->|(d1 & c & id & ids & k1 & PC & -> & HK & ->)]; [congruence|].
    cbn [set_map dDBMap] in L2. rewrite mload_mdelete in L2. destruct (bytes_eqb k1 k) eqn:B; [|congruence].
    apply bytes_eqb_spec in B. subst k1. exists i. split; [reflexivity|]. exists r, d1, c, id, ids. auto.
  - exfalso. destruct (InsertLocal now (yData s) d0 c0) as [[dt o]| |] eqn:IL; try discriminate H. injection H as <-.
    exact (insert_keeps _ _ _ _ _ _ k IL L1 L2).
  - exfalso. destruct (DeleteBDMap (dDBMap (yData s)) d0) as [m| |] eqn:DB; try discriminate H. injection H as <-.
    unfold DeleteBDMap in DB. destruct (GetKeyAsBytes d0) as [k0| |]; try discriminate DB. injection DB as <-.
    cbn [yData set_map dDBMap] in L2. rewrite mload_mdelete in L2. destruct (bytes_eqb k0 k) eqn:B; [|congruence].
    apply bytes_eqb_spec in B. subst k0. congruence.
  - injection H as <-. exfalso. apply L1. exact L2.
  - injection H as <-. exfalso. apply L1. exact L2.
Qed.

Definition Qd (k : bytes) (D : Datum) (d : Datum) : Prop := has_key d k -> d = D.

Definition JC (k : bytes) (D : Datum) (w : cluster) : Prop :=
  (forall i, exists t, J46 (Qd k D) (w i) t) /\
  (exists i, mload (store (w i)) k <> None) /\
  (forall i j, deciding w k i j -> exists t, t <> i /\ mload (store (w t)) k <> None).

(** One node makes a step. *)
Lemma JC_local : forall M undef k D w i e s',
  JC k D w -> alone w k ->
  sync_step M undef (w i) e = Some s' ->
  (forall t, J46 (Qd k D) (w i) t -> exists t', J46 (Qd k D) s' t') ->
  (match e with
   | YProcess P _ => Permutation (pOrder P) (store (w i)) /\
       forall e0, mload (store (w i)) k = Some e0 -> expired (pTick P k) e0 = false
   | YDelete d' => GetKeyAsBytes d' <> Ok k
   | _ => True
   end) ->
  (forall j, e = YSend j (SOffer true) -> at_decision s' k j ->
     exists t, t <> i /\ mload (store (w t)) k <> None) ->
  JC k D (set_sync w i s').
Proof.
  intros M undef k D w i e s' (A & B & C) AL H SH OK NEW.
  assert (W : mwf (store (w i))) by (destruct (A i) as [t J]; apply J).
  (* a key that disappears at i was acknowledged by a holder other than i *)
  assert (KEEP : forall n, mload (store (w n)) k <> None ->
            mload (store (set_sync w i s' n)) k <> None \/
            (n = i /\ exists j, deciding w k i j /\ e = YSend j SDecide)).
  { intros n L. destruct (Nat.eq_dec n i) as [->|NE]; [|left; rewrite set_sync_other by auto; exact L].
    rewrite set_sync_same. destruct (mload (store s') k) as [e1|] eqn:L2; [left; discriminate|right].
    split; [reflexivity|]. destruct (disappears _ _ _ _ _ k W H OK L L2) as (j & E & AD). exists j. auto. }
  split; [|split].
  - intro n. destruct (Nat.eq_dec n i) as [->|NE].
    + rewrite set_sync_same. destruct (A i) as [t J]. eapply SH; eauto.
    + rewrite set_sync_other by auto. apply A.
  - destruct B as [n L]. destruct (KEEP n L) as [L'|(-> & j & DE & _)]; [eauto|].
    destruct (C i j DE) as (t & NE & L'). exists t. rewrite set_sync_other by auto. exact L'.
  - intros n j DE. unfold deciding in DE.
    assert (CASES : deciding w k n j \/ (n = i /\ e = YSend j (SOffer true))).
    { destruct (Nat.eq_dec n i) as [->|NE]; [|left; rewrite set_sync_other in DE by auto; exact DE].
      rewrite set_sync_same in DE. destruct (decision_before _ _ _ _ _ k j H DE) as [X|[X _]]; [left; exact X|right; auto]. }
    destruct CASES as [DE0|[-> E]].
    + destruct (C n j DE0) as (t & NE & L). destruct (KEEP t L) as [L'|(-> & j' & DE1 & E)]; [eauto|].
      destruct (AL _ _ _ _ DE0 DE1) as [X _]. congruence.
    + rewrite set_sync_same in DE. destruct (NEW j E DE) as (t & NE & L). exists t. split; [exact NE|].
      rewrite set_sync_other by auto. exact L.
Qed.

Lemma J46_any : forall Q s t t', J46 Q s t -> exists t'', J46 Q s (t' ++ t'').
Proof.
  intros Q s t t' (W & K & A & B). exists t. split; [exact W|]. split; [exact K|]. split; [exact A|].
  intros i r N. destruct (B i r N) as [B1 B2]. split; [exact B1|].
  unfold acked_ok in *. destruct (rPc r); auto. destruct B2 as (i0 & id0 & IN). exists i0, id0.
  apply in_app_iff. auto.
Qed.

Lemma JC_step : forall M undef resolve k D w e w', has_key D k ->
  JC k D w -> alone w k -> peaceful resolve k D w e ->
  cluster_step M undef resolve w e = Some w' -> JC k D w'.
Proof.
  intros M undef resolve k D w e w' HD J AL PE H.
  destruct e as [i e|i j now l]; cbn [cluster_step] in H.
  - assert (LOC : match sync_step M undef (w i) e with Some s => Some (set_sync w i s) | None => None end = Some w' /\
                  forall jj, e <> YSend jj (SOffer true)).
    { destruct e as [P f|jj se|? ? ?|?|?|]; try (split; [exact H|discriminate]).
      destruct se as [o| |ok|]; try discriminate H; (split; [exact H|discriminate]). }
    destruct LOC as [H' NO]. destruct (sync_step M undef (w i) e) as [s'|] eqn:SS; [|discriminate H'].
    injection H' as <-. eapply JC_local; eauto.
    + intros t J0. eexists. eapply J46_step; [exact J0| |exact SS]. split.
      * destruct e as [P f|jj se|? ? ?|?|?|]; cbn [range_ok]; auto. apply PE.
      * intros now d c E. subst e. exact PE.
    + destruct e as [P f|jj se|? ? ?|?|?|]; auto; exact PE.
    + intros j E. exfalso. exact (NO j E).
  - destruct (nth_error (ySenders (w i)) j) as [r|] eqn:N; [|discriminate H].
    destruct (rPc r) as [|d c [|id ids]|] eqn:PC; try discriminate H.
    (* the receiver's part *)
    assert (QDD : forall t0, J46 (Qd k D) (w i) t0 -> Qd k D d).
    { intros t0 (_ & _ & _ & SD). apply (SD j r N). right. rewrite PC. reflexivity. }
    assert (HQ : Qd k D d) by (destruct J as (A & _); destruct (A i) as [t0 J0]; eauto).
    assert (RCV : forall t, resolve id = Some t ->
       JC k D (set_sync w t (fst (receive now (w t) d c))) /\ alone (set_sync w t (fst (receive now (w t) d c))) k /\
       (snd (receive now (w t) d c) = true -> has_key d k ->
          mload (store (set_sync w t (fst (receive now (w t) d c)) t)) k <> None) /\
       ySenders (set_sync w t (fst (receive now (w t) d c)) i) = ySenders (w i)).
    { intros t RT. unfold receive.
      destruct (InsertLocal now (yData (w t)) (Some d) (Some c)) as [[dt o]| |] eqn:IL.
      - assert (SS : sync_step M undef (w t) (YInsert now (Some d) (Some c)) = Some (mkSync dt (ySenders (w t)))).
        { cbn [sync_step]. rewrite IL. reflexivity. }
        assert (EQ : (match o with None => (mkSync dt (ySenders (w t)), true) | Some _ => (mkSync dt (ySenders (w t)), false) end)
                     = (mkSync dt (ySenders (w t)), match o with None => true | Some _ => false end)) by (destruct o; reflexivity).
        rewrite EQ. cbn [fst snd]. clear EQ.
        assert (SND : forall n, ySenders (set_sync w t (mkSync dt (ySenders (w t))) n) = ySenders (w n)).
        { intro n. destruct (Nat.eq_dec n t) as [->|NE]; [rewrite set_sync_same|rewrite set_sync_other by auto]; reflexivity. }
        split; [|split; [|split]].
        + eapply JC_local; [exact J|exact AL|exact SS| |exact I|].
          * intros t0 J0. eexists. eapply J46_step; [exact J0| |exact SS]. split; [exact I|].
            intros now0 d0 c0 E. injection E as _ <- _. exact HQ.
          * intros j0 E. discriminate E.
        + intros a b a' b' (r1 & d1 & c1 & id1 & ids1 & N1 & X1) (r2 & d2 & c2 & id2 & ids2 & N2 & X2).
          rewrite SND in N1, N2. apply AL; [exists r1, d1, c1, id1, ids1|exists r2, d2, c2, id2, ids2]; auto.
        + intros OKK HK. rewrite set_sync_same. destruct o; [discriminate OKK|]. unfold store. cbn [yData].
          eapply insert_present; eauto.
        + apply SND.
      - cbn [fst snd].
        assert (SND : forall n, set_sync w t (w t) n = w n).
        { intro n. destruct (Nat.eq_dec n t) as [->|NE]; [rewrite set_sync_same|rewrite set_sync_other by auto]; reflexivity. }
        assert (JJ : JC k D (set_sync w t (w t)) /\ alone (set_sync w t (w t)) k).
        { destruct J as (J1 & J2 & J3). split; [split; [|split]|].
          - intro n. rewrite SND. apply J1.
          - destruct J2 as [n L]. exists n. rewrite SND. exact L.
          - intros a b DE. unfold deciding in DE. rewrite SND in DE. destruct (J3 a b DE) as (x & X1 & X2).
            exists x. rewrite SND. auto.
          - intros a b a' b' D1 D2. unfold deciding in D1, D2. rewrite SND in D1, D2. apply AL; auto. }
        destruct JJ. split; [auto|]. split; [auto|]. split; [discriminate|]. rewrite SND. reflexivity.
      - cbn [fst snd].
        assert (SND : forall n, set_sync w t (w t) n = w n).
        { intro n. destruct (Nat.eq_dec n t) as [->|NE]; [rewrite set_sync_same|rewrite set_sync_other by auto]; reflexivity. }
        assert (JJ : JC k D (set_sync w t (w t)) /\ alone (set_sync w t (w t)) k).
        { destruct J as (J1 & J2 & J3). split; [split; [|split]|].
          - intro n. rewrite SND. apply J1.
          - destruct J2 as [n L]. exists n. rewrite SND. exact L.
          - intros a b DE. unfold deciding in DE. rewrite SND in DE. destruct (J3 a b DE) as (x & X1 & X2).
            exists x. rewrite SND. auto.
          - intros a b a' b' D1 D2. unfold deciding in D1, D2. rewrite SND in D1, D2. apply AL; auto. }
        destruct JJ. split; [auto|]. split; [auto|]. split; [discriminate|]. rewrite SND. reflexivity. }
    (* the sender's part, from any state reached by the receiver's part *)
    assert (FIN : forall w1 ok, JC k D w1 -> alone w1 k -> ySenders (w1 i) = ySenders (w i) ->
       (ok = true -> has_key d k -> exists t, t <> i /\ mload (store (w1 t)) k <> None) ->
       match sync_step M undef (w1 i) (YSend j (SOffer ok)) with
       | Some s => Some (set_sync w1 i s) | None => None end = Some w' -> JC k D w').
    { intros w1 ok J1 AL1 SE HOLD H1. destruct (sync_step M undef (w1 i) (YSend j (SOffer ok))) as [s'|] eqn:SS; [|discriminate H1].
      injection H1 as <-. eapply JC_local; [exact J1|exact AL1|exact SS| |exact I|].
      - intros t0 J0. eexists. eapply J46_step; [exact J0| |exact SS]. split; [exact I|]. intros ? ? ? E. discriminate E.
      - intros j0 E AD. injection E as <- EO. destruct (HOLD EO) as (t & NE & L); [|eauto].
        destruct (decision_before _ _ _ _ _ k j SS AD) as [(r1 & d1 & c1 & id1 & ids1 & N1 & P1 & _)|(_ & r1 & d1 & c1 & id1 & ids1 & N1 & P1 & HK)];
          rewrite SE, N in N1; injection N1 as <-; rewrite PC in P1; [discriminate P1|].
        injection P1 as <- <- <- <-. exact HK. }
    destruct (resolve id) as [t|] eqn:RT.
    + assert (NE : t <> i). { intro E. subst t. apply (PE r d c id ids N PC). exact RT. }
      destruct (RCV t eq_refl) as (R1 & R2 & R3 & R4).
      destruct (receive now (w t) d c) as [s ok]. cbn [fst snd] in *.
      destruct l.
      * eapply FIN; [exact R1|exact R2|exact R4| |exact H]. intros E HK. exists t. split; [exact NE|apply R3; auto].
      * eapply (FIN w false); [exact J|exact AL|reflexivity| |exact H]. intro E. discriminate E.
      * eapply (FIN _ false); [exact R1|exact R2|exact R4| |exact H]. intro E. discriminate E.
    + assert (H' : match sync_step M undef (w i) (YSend j (SOffer false)) with
                   | Some s => Some (set_sync w i s) | None => None end = Some w') by (destruct l; exact H).
      eapply (FIN w false); [exact J|exact AL|reflexivity| |exact H']. intro E. discriminate E.
Qed.

Lemma JC_run : forall M undef resolve k D es w w', has_key D k -> JC k D w ->
  always M undef resolve (fun w e => alone w k /\ peaceful resolve k D w e) w es ->
  cluster_run M undef resolve w es = Some w' -> JC k D w'.
Proof.
  induction es as [|e es IH]; intros w w' HD J V R; cbn in R.
  - injection R as <-. exact J.
  - cbn [always] in V. destruct V as [[V1 V2] V3].
    destruct (cluster_step M undef resolve w e) as [w1|] eqn:E; [|discriminate R].
    eapply IH; [exact HD| |exact V3|exact R]. eapply JC_step; eauto.
Qed.
