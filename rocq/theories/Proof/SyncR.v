(** Never-expiring data, Close, and the statistics. *)
From Verif.Base Require Import GoBase GoLemmas Assoc Float.
From Verif.Model Require Import Codec Store Data Insert Vector Search Dataset Sync.
From Verif.Spec Require Import Wire StoreSpec InsertSpec SyncSpec.
From Verif.Proof Require Import CodecP CodecTop StoreP StoreQ InsertP DatasetP FloatP RoundP SyncP SyncQ.
Open Scope N_scope.

(** ** Data without expiry *)

Lemma ttl_zero : forall now, TTL (InsertConfigFromExpireAt now (u64_of_i64 0)) = 0.
Proof. reflexivity. Qed.

Definition J50 (d : Datum) (s : sync) (t : list obs) : Prop :=
  mwf (store s) /\
  (forall k e, mload (store s) k = Some e -> edatum e = d -> exprireAt e = 0%Z) /\
  (forall i r, nth_error (ySenders s) i = Some r -> ~ sender_data r d) /\
  forall i id ok, ~ In (Offered i id d ok) t.

Definition ok50 (d : Datum) (s : sync) (e : yev) : Prop :=
  range_ok s e /\ (forall now c, e = YInsert now (Some d) c -> ttl_of c = 0).

(** A sender never gets a datum that it did not have. *)
Lemma sender_data_step : forall undef dt r e dt' r' d,
  sender_step undef dt r e = Some (dt', r') -> sender_data r' d -> sender_data r d.
Proof.
  intros undef dt r e dt' r' x SS. unfold sender_step in SS. unfold sender_data.
  destruct e as [order| |ok|]; destruct (rPc r) as [|d c [|id ids]|d c id ids] eqn:PC; try discriminate SS.
  - destruct (rQueue r) as [|[d c] q] eqn:QE; [discriminate SS|]. injection SS as <- <-. cbn [rQueue rPc].
    intros [(c' & IN)|E]; left; [exists c'; right; exact IN|subst x; exists c; left; reflexivity].
  - injection SS as <- <-. cbn [set_pc rQueue rPc]. intros [X|[]]; auto.
  - destruct (serves dt r id); [discriminate SS|]. injection SS as <- <-.
    cbn [set_pc rQueue rPc]. intros [X|X]; auto.
  - destruct (serves dt r id); [|discriminate SS]. injection SS as <- <-.
    destruct ok; cbn [set_pc rQueue rPc]; intros [X|X]; auto.
  - destruct (negb (dAlive dt) || _).
    + destruct (DeleteBDMap (dDBMap dt) (Some d)); try discriminate SS. injection SS as <- <-.
      cbn [rQueue rPc]. intros [X|X]; auto.
    + injection SS as <- <-. cbn [set_pc rQueue rPc]. intros [X|X]; auto.
Qed.

Lemma J50_step : forall M undef d s t e s',
  J50 d s t -> ok50 d s e -> sync_step M undef s e = Some s' -> J50 d s' (t ++ observe s e).
Proof.
  intros M undef d s t e s' (W & Z & SD & NO) (RO & IO) H.
  pose proof (step_wf _ _ _ _ _ H W) as W'.
  assert (NO' : forall i id ok, ~ In (Offered i id d ok) (t ++ observe s e)).
  { intros i id ok C. apply in_app_iff in C. destruct C as [C|C]; [exact (NO _ _ _ C)|].
    destruct e as [P force|j e|now d0 c|d0|l|]; cbn [observe] in C; try contradiction.
    destruct e as [order| |ok'|]; try contradiction.
    destruct (nth_error (ySenders s) j) as [r|] eqn:N; [|contradiction].
    destruct (rPc r) as [|d0 c [|id0 ids]|d0 c id0 ids] eqn:PC; try contradiction.
    destruct C as [C|[]]. injection C as -> -> -> ->. apply (SD i r N). right. rewrite PC. reflexivity. }
  split; [exact W'|]. unfold store in *.
  destruct e as [P force|i e|now d0 c|d0|l|]; cbn [sync_step] in H.
  - destruct (Process M P (yData s) force) as [[dt r]| |] eqn:PR; try discriminate H.
    destruct (process_spec _ _ _ _ _ _ PR) as (li & cf & limit & dm & _ & _ & _ & _ & _ & _ & C).
    assert (ST : yData s' = dt) by (destruct r; injection H as <-; reflexivity). rewrite ST.
    split.
    { intros k e0 L. destruct C as [(_ & E1 & _)|(_ & E1 & _)]; rewrite E1 in L; [|eauto].
      destruct (mload_fold_delete_cases (map fst (filter (fun p => expired (pTick P (fst p)) (snd p)) (pOrder P))) (dDBMap (yData s)) k) as [E2|[E2 _]];
          rewrite E2 in L; [eauto|discriminate L]. }
    split; [|exact NO']. intros i r0 N0.
    destruct r as [r|]; injection H as <-; cbn [ySenders] in N0; [|apply (SD i); exact N0].
    destruct (Nat.lt_ge_cases i (length (ySenders s))) as [LT|GE].
    { rewrite nth_error_app1 in N0 by auto. apply (SD i); exact N0. }
    rewrite nth_error_app2 in N0 by auto.
    destruct (i - length (ySenders s))%nat as [|j]; [|destruct j; discriminate N0].
    cbn in N0. injection N0 as <-.
    destruct C as [(_ & C)|(_ & _ & C & _)]; [|discriminate C].
    cbv zeta in C. destruct C as (_ & _ & _ & _ & _ & C).
    destruct (0 <? dN (yData s)); [|discriminate C]. injection C as ->.
    intros [(c & IN)|[]]. cbn [rQueue] in IN.
    apply fold_out in IN. destruct IN as [[]|(k & e0 & IN & -> & TT & n & ->)].
    unfold live_of in IN. apply filter_In in IN. destruct IN as [IN _]. cbn [range_ok] in RO.
    assert (IN2 : In (k, e0) (dDBMap (yData s))) by (eapply Permutation_in; eauto).
    apply in_mload in IN2; auto. rewrite (Z k e0 IN2 eq_refl) in TT. rewrite ttl_zero in TT. lia.
  - destruct (nth_error (ySenders s) i) as [r|] eqn:N; [|discriminate H].
    destruct (sender_step undef (yData s) r e) as [[dt r']|] eqn:SS; [|discriminate H].
    destruct (list_set (ySenders s) i r') as [l|] eqn:LS; [|discriminate H]. injection H as <-.
    cbn [yData ySenders] in *. split; [|split; [|exact NO']].
    + intros k e0 L. destruct (sender_store _ _ _ _ _ _ SS) as [->|(d1 & c & id & ids & k1 & _ & _ & _ & ->)]; [eauto|].
      cbn [set_map dDBMap] in L. rewrite mload_mdelete in L. destruct (bytes_eqb k1 k); [discriminate L|eauto].
    + intros j r0 N0. rewrite (nth_set _ _ _ _ _ j LS) in N0.
      destruct (Nat.eqb_spec i j) as [<-|NE]; [injection N0 as <-|apply (SD j); exact N0].
      intro C. apply (SD i r N). eapply sender_data_step; eauto.
  - destruct (InsertLocal now (yData s) d0 c) as [[dt o]| |] eqn:IL; try discriminate H. injection H as <-.
    cbn [yData ySenders]. split; [|split; [exact SD|exact NO']].
    destruct (insert_shape _ _ _ _ _ _ IL) as [E|(d1 & k0 & -> & HK & E)]; rewrite E; [exact Z|].
    intros k e0 L D. rewrite mload_mstore in L. destruct (bytes_eqb k0 k); [|eauto].
    injection L as <-. cbn [edatum exprireAt] in *. subst d1.
    specialize (IO now c eq_refl). destruct c as [c|]; [|reflexivity].
    unfold ttl_of in IO. cbn [expireAtOf]. rewrite IO. reflexivity.
  - destruct (DeleteBDMap (dDBMap (yData s)) d0) as [m| |] eqn:DB; try discriminate H. injection H as <-.
    unfold DeleteBDMap in DB. destruct (GetKeyAsBytes d0) as [k0| |]; try discriminate DB. injection DB as <-.
    cbn [yData ySenders set_map dDBMap]. split; [|split; [exact SD|exact NO']].
    intros k e0 L. rewrite mload_mdelete in L. destruct (bytes_eqb k0 k); [discriminate L|eauto].
  - injection H as <-. split; [exact Z|split; [exact SD|exact NO']].
  - injection H as <-. split; [exact Z|split; [exact SD|exact NO']].
Qed.

(** ** Close *)

Lemma fold_delete_len : forall V (ks : list bytes) (m : amap V),
  (length (fold_left mdelete ks m) <= length m)%nat.
Proof.
  induction ks as [|k ks IH]; intro m; [auto|]. cbn [fold_left].
  eapply Nat.le_trans; [apply IH|apply mdelete_le].
Qed.

(** Background steps only shrink the store. *)
Lemma background_shrinks : forall M undef s e s', background e -> sync_step M undef s e = Some s' ->
  (length (store s') <= length (store s))%nat /\
  forall k e0, mload (store s') k = Some e0 -> mload (store s) k = Some e0.
Proof.
  intros M undef s e s' BG H. unfold store.
  destruct e as [P force|i e|now d0 c|d0|l|]; try (destruct BG; fail); cbn [sync_step] in H.
  - destruct (Process M P (yData s) force) as [[dt r]| |] eqn:PR; try discriminate H.
    destruct (process_spec _ _ _ _ _ _ PR) as (li & cf & limit & dm & _ & _ & _ & _ & _ & _ & C).
    assert (ST : yData s' = dt) by (destruct r; injection H as <-; reflexivity). rewrite ST.
    destruct C as [(_ & E1 & _)|(_ & E1 & _)]; rewrite E1; [|auto].
    split; [apply fold_delete_len|]. intros k e0 L.
    destruct (mload_fold_delete_cases (map fst (filter (fun p => expired (pTick P (fst p)) (snd p)) (pOrder P))) (dDBMap (yData s)) k) as [E2|[E2 _]];
      rewrite E2 in L; [exact L|discriminate L].
  - destruct (nth_error (ySenders s) i) as [r|] eqn:N; [|discriminate H].
    destruct (sender_step undef (yData s) r e) as [[dt r']|] eqn:SS; [|discriminate H].
    destruct (list_set (ySenders s) i r') as [l|] eqn:LS; [|discriminate H]. injection H as <-. cbn [yData].
    destruct (sender_store _ _ _ _ _ _ SS) as [->|(d1 & c & id & ids & k1 & _ & _ & _ & ->)]; [auto|].
    cbn [set_map dDBMap]. split; [apply mdelete_le|]. intros k e0 L. rewrite mload_mdelete in L.
    destruct (bytes_eqb k1 k); [discriminate L|exact L].
Qed.

(** The count after a step: unchanged, or the number of entries seen live. *)
Lemma background_dN : forall M undef s e s', background e -> sync_step M undef s e = Some s' ->
  dN (yData s') = dN (yData s) \/
  exists P force, e = YProcess P force /\
    dN (yData s') = u64 (blen (live_of (pTick P) (pOrder P))) /\
    store s' = fold_left mdelete (map fst (filter (fun p => expired (pTick P (fst p)) (snd p)) (pOrder P))) (store s).
Proof.
  intros M undef s e s' BG H. unfold store.
  destruct e as [P force|i e|now d0 c|d0|l|]; try (destruct BG; fail); cbn [sync_step] in H.
  - destruct (Process M P (yData s) force) as [[dt r]| |] eqn:PR; try discriminate H.
    destruct (process_spec _ _ _ _ _ _ PR) as (li & cf & limit & dm & _ & _ & _ & _ & _ & _ & C).
    assert (ST : yData s' = dt) by (destruct r; injection H as <-; reflexivity). rewrite ST.
    destruct C as [(_ & C)|(_ & _ & _ & C)]; [|left; exact C].
    cbv zeta in C. destruct C as (C1 & C2 & _). right. exists P, force. split; [reflexivity|]. split; [|exact C1].
    rewrite C2. fold (scan_fold M (senv_of P (yData s) limit) (live_of (pTick P) (pOrder P)) scan0).
    rewrite scan_fold_n by reflexivity. reflexivity.
  - left. destruct (nth_error (ySenders s) i) as [r|] eqn:N; [|discriminate H].
    destruct (sender_step undef (yData s) r e) as [[dt r']|] eqn:SS; [|discriminate H].
    destruct (list_set (ySenders s) i r') as [l|] eqn:LS; [|discriminate H]. injection H as <-. cbn [yData].
    destruct (sender_store _ _ _ _ _ _ SS) as [->|(d1 & c & id & ids & k1 & _ & _ & _ & ->)]; reflexivity.
Qed.

(** An entry that never expires keeps the loop of Close going. *)
Definition Jstay (k : bytes) (e0 : entry) (s : sync) (t : list obs) : Prop :=
  mload (store s) k = Some e0 /\ 0 < dN (yData s) /\ blen (store s) < M64 /\ J50 (edatum e0) s t /\ keyed (store s) /\
  forall i r d, nth_error (ySenders s) i = Some r -> sender_data r d -> ~ has_key d k.

Lemma Jstay_step : forall M undef k e0 s t e s', exprireAt e0 = 0%Z ->
  Jstay k e0 s t -> range_ok s e -> background e -> sync_step M undef s e = Some s' ->
  Jstay k e0 s' (t ++ observe s e).
Proof.
  intros M undef k e0 s t e s' X0 (L & DN & BL & J & K & SD) RO BG H.
  destruct (background_shrinks _ _ _ _ _ BG H) as [SH1 SH2].
  assert (J' : J50 (edatum e0) s' (t ++ observe s e)).
  { eapply J50_step; eauto. split; [exact RO|]. intros now c E. subst e. destruct BG. }
  assert (W : mwf (store s)) by apply J.
  assert (STAY : mload (store s') k = Some e0).
  { destruct (mload (store s') k) as [e1|] eqn:L1; [apply SH2 in L1; congruence|]. exfalso.
    unfold store in *. destruct e as [P force|i e|now d0 c|d0|l|]; try (destruct BG; fail); cbn [sync_step] in H.
    - destruct (Process M P (yData s) force) as [[dt r]| |] eqn:PR; try discriminate H.
      destruct (process_spec _ _ _ _ _ _ PR) as (li & cf & limit & dm & _ & _ & _ & _ & _ & _ & C).
      assert (ST : yData s' = dt) by (destruct r; injection H as <-; reflexivity). rewrite ST in L1.
      destruct C as [(_ & E1 & _)|(_ & E1 & _)]; rewrite E1 in L1; [|congruence].
      destruct (mload_fold_delete_cases (map fst (filter (fun p => expired (pTick P (fst p)) (snd p)) (pOrder P))) (dDBMap (yData s)) k) as [E2|[_ E2]]; [congruence|].
      apply in_map_iff in E2. destruct E2 as ([k' e'] & E3 & IN). cbn in E3. subst k'.
      apply filter_In in IN. destruct IN as [IN EX]. cbn [fst snd] in EX. cbn [range_ok] in RO.
      assert (IN2 : In (k, e') (dDBMap (yData s))) by (eapply Permutation_in; eauto).
      apply in_mload in IN2; auto. assert (e' = e0) by congruence. subst e'.
      unfold expired in EX. rewrite X0 in EX. discriminate EX.
    - destruct (nth_error (ySenders s) i) as [r|] eqn:N; [|discriminate H].
      destruct (sender_step undef (yData s) r e) as [[dt r']|] eqn:SS; [|discriminate H].
      destruct (list_set (ySenders s) i r') as [l|] eqn:LS; [|discriminate H]. injection H as <-. cbn [yData] in *.
      destruct (sender_store _ _ _ _ _ _ SS) as [->|(d1 & c & id & ids & k1 & PC & _ & HK & ->)]; [congruence|].
      cbn [set_map dDBMap] in L1. rewrite mload_mdelete in L1.
      destruct (bytes_eqb k1 k) eqn:B; [|congruence]. apply bytes_eqb_spec in B. subst k1.
      apply (SD i r d1 N); [|exact HK]. right. rewrite PC. reflexivity. }
  split; [exact STAY|]. split.
  { destruct (background_dN _ _ _ _ _ BG H) as [E|(P & force & -> & E & _)]; [lia|]. rewrite E.
    cbn [range_ok] in RO.
    assert (IN : In (k, e0) (live_of (pTick P) (pOrder P))).
    { apply filter_In. split; [eapply Permutation_in; [apply Permutation_sym; exact RO|apply mload_in; exact L]|].
      cbn [fst snd]. unfold expired. rewrite X0. reflexivity. }
    assert (LE : (length (live_of (pTick P) (pOrder P)) <= length (store s))%nat).
    { rewrite <- (Permutation_length RO). unfold live_of. clear.
      induction (pOrder P) as [|p l IH]; [auto|]. cbn [filter]. destruct (negb _); cbn [length]; lia. }
    destruct (live_of (pTick P) (pOrder P)) as [|p l]; [destruct IN|].
    unfold u64, blen in *. rewrite N.mod_small by lia. cbn [length]. lia. }
  split; [unfold blen in *; lia|]. split; [exact J'|].
  split; [intros k1 e1 L1; apply K; apply SH2; exact L1|].
  intros i r d N0 SDD HK.
  destruct e as [P force|j e|now d0 c|d0|l|]; try (destruct BG; fail); cbn [sync_step] in H.
  - destruct (Process M P (yData s) force) as [[dt r0]| |] eqn:PR; try discriminate H.
    destruct (process_spec _ _ _ _ _ _ PR) as (li & cf & limit & dm & _ & _ & _ & _ & _ & _ & C).
    destruct r0 as [r0|]; injection H as <-; cbn [ySenders] in N0; [|exact (SD i r d N0 SDD HK)].
    destruct (Nat.lt_ge_cases i (length (ySenders s))) as [LT|GE].
    { rewrite nth_error_app1 in N0 by auto. exact (SD i r d N0 SDD HK). }
    rewrite nth_error_app2 in N0 by auto.
    destruct (i - length (ySenders s))%nat as [|j]; [|destruct j; discriminate N0].
    cbn in N0. injection N0 as <-.
    destruct C as [(_ & C)|(_ & _ & C & _)]; [|discriminate C].
    cbv zeta in C. destruct C as (_ & _ & _ & _ & _ & C).
    destruct (0 <? dN (yData s)); [|discriminate C]. injection C as ->.
    destruct SDD as [(c & IN)|[]]. cbn [rQueue] in IN.
    apply fold_out in IN. destruct IN as [[]|(k1 & e1 & IN & -> & TT & n & ->)].
    unfold live_of in IN. apply filter_In in IN. destruct IN as [IN _]. cbn [range_ok] in RO.
    assert (IN2 : In (k1, e1) (store s)) by (eapply Permutation_in; eauto).
    apply in_mload in IN2; auto. pose proof (K _ _ IN2) as K1. unfold has_key in *.
    assert (k1 = k) by congruence. subst k1. assert (e1 = e0) by congruence. subst e1.
    rewrite X0, ttl_zero in TT. lia.
  - destruct (nth_error (ySenders s) j) as [r0|] eqn:N; [|discriminate H].
    destruct (sender_step undef (yData s) r0 e) as [[dt r']|] eqn:SS; [|discriminate H].
    destruct (list_set (ySenders s) j r') as [l|] eqn:LS; [|discriminate H]. injection H as <-. cbn [ySenders] in *.
    rewrite (nth_set _ _ _ _ _ i LS) in N0. destruct (Nat.eqb_spec j i) as [<-|NE].
    + injection N0 as <-. apply (SD j r0 d N); [eapply sender_data_step; eauto|exact HK].
    + exact (SD i r d N0 SDD HK).
Qed.

(** What happened to an entry that was there when Close began. *)
Definition Jfate (k : bytes) (e0 : entry) (past : list yev) (s : sync) (t : list obs) : Prop :=
  J46 (fun d => has_key d k -> d = edatum e0) s t /\ blen (store s) < M64 /\
  (forall e1, mload (store s) k = Some e1 -> e1 = e0) /\
  (dN (yData s) = 0 -> store s = []) /\
  (mload (store s) k = Some e0 \/ acknowledged (edatum e0) t \/
   exists P force, In (YProcess P force) past /\ expired (pTick P k) e0 = true).

Lemma mload_none_fold : forall (ks : list bytes) (m : dbmap) k, In k ks ->
  mload (fold_left mdelete ks m) k = None.
Proof.
  induction ks as [|x ks IH]; intros m k H; [destruct H|]. cbn [fold_left].
  destruct H as [->|H]; [|apply IH; exact H].
  destruct (mload_fold_delete_cases ks (mdelete m k) k) as [E|[E _]]; rewrite E; [|reflexivity].
  apply mload_mdelete_same.
Qed.

Lemma fold_delete_all : forall (ks : list bytes) (m : dbmap), mwf m ->
  (forall k, In k (mkeys m) -> In k ks) -> fold_left mdelete ks m = [].
Proof.
  intros ks m W H. destruct (fold_left mdelete ks m) as [|[k e] m'] eqn:E; [reflexivity|]. exfalso.
  assert (W' : mwf (fold_left mdelete ks m)) by (apply wf_fold_delete; exact W).
  assert (L : mload (fold_left mdelete ks m) k = Some e).
  { rewrite E. cbn. rewrite bytes_eqb_refl. reflexivity. }
  assert (INM : In k (mkeys m)).
  { destruct (mload_fold_delete_cases ks m k) as [E2|[E2 _]]; [|congruence].
    rewrite E2 in L. apply mload_in in L. unfold mkeys. apply (in_map fst) in L. exact L. }
  apply H in INM. rewrite (mload_none_fold ks m k INM) in L. discriminate L.
Qed.

Lemma Jfate_step : forall M undef k e0 past s t e s',
  Jfate k e0 past s t -> range_ok s e -> background e -> sync_step M undef s e = Some s' ->
  Jfate k e0 (past ++ [e]) s' (t ++ observe s e).
Proof.
  intros M undef k e0 past s t e s' (J & BL & U & Z & F) RO BG H.
  destruct (background_shrinks _ _ _ _ _ BG H) as [SH1 SH2].
  assert (W : mwf (store s)) by apply J.
  split. { eapply J46_step; eauto. split; [exact RO|]. intros now d c E. subst e. destruct BG. }
  split; [unfold blen in *; lia|]. split; [intros e1 L; apply U, SH2, L|]. split.
  - intro D. destruct (background_dN _ _ _ _ _ BG H) as [E|(P & force & -> & E & ST)].
    + rewrite E in D. specialize (Z D). destruct (store s') as [|[k1 e1] m] eqn:SS; [reflexivity|].
      assert (L : mload (store s') k1 = Some e1) by (rewrite SS; cbn; rewrite bytes_eqb_refl; reflexivity).
      rewrite SS in L. apply SH2 in L. rewrite Z in L. discriminate L.
    + rewrite E in D. cbn [range_ok] in RO.
      assert (LE : (length (live_of (pTick P) (pOrder P)) <= length (store s))%nat).
      { rewrite <- (Permutation_length RO). unfold live_of. clear.
        induction (pOrder P) as [|p l IH]; [auto|]. cbn [filter]. destruct (negb _); cbn [length]; lia. }
      unfold u64, blen in *. rewrite N.mod_small in D by lia.
      assert (NL : live_of (pTick P) (pOrder P) = []) by (destruct (live_of (pTick P) (pOrder P)); [reflexivity|cbn [length] in D; lia]).
      rewrite ST. apply fold_delete_all; [exact W|]. intros k1 IN.
      unfold mkeys in IN. apply in_map_iff in IN. destruct IN as ([k2 e2] & E2 & IN). cbn in E2. subst k2.
      assert (IN2 : In (k1, e2) (pOrder P)) by (eapply Permutation_in; [apply Permutation_sym; exact RO|exact IN]).
      apply in_map_iff. exists (k1, e2). split; [reflexivity|]. apply filter_In. split; [exact IN2|].
      cbn [fst snd]. destruct (expired (pTick P k1) e2) eqn:EX; [reflexivity|]. exfalso.
      assert (C : In (k1, e2) (live_of (pTick P) (pOrder P))).
      { apply filter_In. split; [exact IN2|]. cbn [fst snd]. rewrite EX. reflexivity. }
      rewrite NL in C. destruct C.
  - destruct F as [F|[F|(P & force & IN & EX)]].
    + destruct (mload (store s') k) as [e1|] eqn:L1.
      * left. apply SH2 in L1. congruence.
      * right. destruct (removal_cases _ _ _ _ _ _ _ k e0 J RO H BG (conj F L1)) as [(P & force & -> & EX)|(_ & d & HK & Q & A)].
        -- right. exists P, force. split; [apply in_app_iff; right; left; reflexivity|exact EX].
        -- left. rewrite (Q HK) in A. apply acknowledged_app. exact A.
    + right. left. apply acknowledged_app. exact F.
    + right. right. exists P, force. split; [apply in_app_iff; left; exact IN|exact EX].
Qed.

Lemma Jfate_run : forall M undef k e0 es past s t s',
  Jfate k e0 past s t -> every M undef range_ok s es -> Forall background es ->
  sync_run M undef s es = Some s' -> Jfate k e0 (past ++ es) s' (t ++ messages M undef s es).
Proof.
  induction es as [|e es IH]; intros past s t s' J V F R; cbn in R.
  - injection R as <-. cbn. rewrite !app_nil_r. exact J.
  - cbn [every] in V. destruct V as [V1 V2]. inversion F; subst.
    destruct (sync_step M undef s e) as [s1|] eqn:E; [|discriminate R].
    cbn [messages]. rewrite E, app_assoc. replace (past ++ e :: es) with ((past ++ [e]) ++ es) by (rewrite <- app_assoc; reflexivity).
    apply IH; auto. eapply Jfate_step; eauto.
Qed.

Lemma Jstay_run : forall M undef k e0 es s t s', exprireAt e0 = 0%Z ->
  Jstay k e0 s t -> every M undef range_ok s es -> Forall background es ->
  sync_run M undef s es = Some s' -> Jstay k e0 s' (t ++ messages M undef s es).
Proof.
  induction es as [|e es IH]; intros s t s' X J V F R; cbn in R.
  - injection R as <-. cbn. rewrite !app_nil_r. exact J.
  - cbn [every] in V. destruct V as [V1 V2]. inversion F; subst.
    destruct (sync_step M undef s e) as [s1|] eqn:E; [|discriminate R].
    cbn [messages]. rewrite E, app_assoc. apply IH; auto. eapply Jstay_step; eauto.
Qed.
