(** Lemmas about the background synchronisation. *)
From Verif.Base Require Import GoBase GoLemmas Assoc Float.
From Verif.Model Require Import Codec Store Data Insert Vector Dataset Sync.
From Verif.Spec Require Import Wire StoreSpec InsertSpec SyncSpec.
From Verif.Proof Require Import CodecP CodecTop StoreP StoreQ InsertP DatasetP.
Open Scope N_scope.

(** ** Lists *)

Lemma nth_set : forall A (l l' : list A) i x j, list_set l i x = Some l' ->
  nth_error l' j = if Nat.eqb i j then Some x else nth_error l j.
Proof.
  induction l as [|y l IH]; intros l' i x j H; [destruct i; discriminate H|].
  destruct i as [|i]; cbn in H.
  - injection H as <-. destruct j; reflexivity.
  - destruct (list_set l i x) as [l2|] eqn:E; [|discriminate H]. injection H as <-.
    destruct j as [|j]; [reflexivity|]. cbn. eapply IH; eauto.
Qed.

Lemma set_some : forall A (l : list A) i x y, nth_error l i = Some y ->
  exists l', list_set l i x = Some l'.
Proof.
  induction l as [|z l IH]; intros i x y H; [destruct i; discriminate H|].
  destruct i; cbn; [eauto|]. destruct (IH _ x _ H) as [l' ->]. eauto.
Qed.

(** ** The scan *)

(** The entries that are not expired when visited. *)
Definition live_of (tick : bytes -> Z) (order : list (bytes * entry)) : list (bytes * entry) :=
  filter (fun p => negb (expired (tick (fst p)) (snd p))) order.

Lemma scan_ok : forall M E s e, snd (scan_entry M E s e) = None.
Proof.
  intros. unfold scan_entry. cbv zeta.
  destruct (negb (eAlive E) || _); [destruct (10 <? _)|]; reflexivity.
Qed.

Lemma loop_scan : forall M E tick order m s,
  LoopDBMap tick (scan_entry M E) order m s =
  (fold_left mdelete (map fst (filter (fun p => expired (tick (fst p)) (snd p)) order)) m,
   fold_left (fun s p => fst (scan_entry M E s (snd p))) (live_of tick order) s, None).
Proof.
  intros M E tick. induction order as [|[k e] order IH]; intros m s; [reflexivity|].
  cbn [LoopDBMap live_of filter fst snd]. destruct (expired (tick k) e) eqn:X; cbn [negb].
  - cbn [map fold_left fst]. apply IH.
  - pose proof (scan_ok M E s e) as Z. destruct (scan_entry M E s e) as [s1 o] eqn:F. cbn in Z. subst o.
    rewrite IH. cbn [fold_left snd]. rewrite F. reflexivity.
Qed.

(** What Process does to the dataset, by cases. *)
Lemma process_spec : forall M P dt force dt' r,
  Process M P dt force = Ok (dt', r) ->
  exists li config limit dm,
    GetDataInfo dt = Ok li /\ dConfig dt = Some config /\
    DataSourceDiffMap M (pItems P) (pInfo P) li = (dm, limit) /\
    dConfig dt' = dConfig dt /\ dAlive dt' = dAlive dt /\ dSources dt' = dSources dt /\
    ((process_due dt (pNow P) limit force = true /\
      let E := senv_of P dt limit in
      let s := fold_left (fun s p => fst (scan_entry M E s (snd p))) (live_of (pTick P) (pOrder P)) scan0 in
      dDBMap dt' = fold_left mdelete (map fst (filter (fun p => expired (pTick P (fst p)) (snd p)) (pOrder P))) (dDBMap dt) /\
      dN dt' = sN s /\ dAvg dt' = sAvg s /\ dMaxDistance dt' = sMax s /\ dHist dt' = sHist s /\
      r = if 0 <? dN dt then Some (mkSender li config dm (sOut s) Idle [] 0) else None) \/
     (process_due dt (pNow P) limit force = false /\ dDBMap dt' = dDBMap dt /\ r = None /\
      dN dt' = dN dt)).
Proof.
  intros M P dt force dt' r H. unfold Process in H.
  destruct (GetDataInfo dt) as [li| |] eqn:G; try discriminate H.
  destruct (dConfig dt) as [config|] eqn:C; try discriminate H.
  destruct (dSources dt) as [src|] eqn:S0; try discriminate H.
  destruct (DataSourceDiffMap M (pItems P) (pInfo P) li) as [dm limit] eqn:D.
  exists li, config, limit, dm.
  destruct (process_due dt (pNow P) limit force) eqn:PD.
  - rewrite loop_scan in H. injection H as <- <-. cbn.
    repeat (split; [auto; fail|]). left. repeat split; auto.
  - injection H as <- <-. cbn. repeat (split; [auto; fail|]). right. auto.
Qed.

(** Membership in what is streamed. *)
Lemma fold_out : forall M E (l : list (bytes * entry)) s d c,
  In (d, c) (sOut (fold_left (fun s p => fst (scan_entry M E s (snd p))) l s)) ->
  In (d, c) (sOut s) \/ exists k e, In (k, e) l /\ d = edatum e /\ 10 < TTL c /\
    exists n, c = InsertConfigFromExpireAt (eClock E n) (u64_of_i64 (exprireAt e)).
Proof.
  intros M E. induction l as [|[k e] l IH]; intros s d c H; [auto|].
  cbn [fold_left snd] in H. apply IH in H. destruct H as [H|(k' & e' & A & B)].
  - unfold scan_entry in H. cbv zeta in H.
    destruct (negb (eAlive E) || _); [destruct (10 <? _) eqn:T|]; cbn [fst sOut] in H; auto.
    apply in_app_iff in H. destruct H as [H|[H|[]]]; auto.
    injection H as <- <-. right. exists k, e. apply N.ltb_lt in T.
    split; [left; reflexivity|]. split; [reflexivity|]. split; [exact T|]. eauto.
  - right. exists k', e'. destruct B as (B1 & B2). split; [right; exact A|]. auto.
Qed.

Lemma mload_fold_delete_cases : forall (ks : list bytes) (m : dbmap) k,
  mload (fold_left mdelete ks m) k = mload m k \/
  (mload (fold_left mdelete ks m) k = None /\ In k ks).
Proof.
  induction ks as [|x ks IH]; intros m k; [left; reflexivity|]. cbn [fold_left].
  destruct (IH (mdelete m x) k) as [E|[E1 E2]].
  - rewrite E, mload_mdelete. destruct (bytes_eqb x k) eqn:B; [|left; reflexivity].
    apply bytes_eqb_spec in B. subst x. right. split; [reflexivity|left; reflexivity].
  - right. split; [exact E1|right; exact E2].
Qed.

(** Removing from the store a well-keyed datum. *)
Lemma delete_key : forall m d k, has_key d k -> DeleteBDMap m (Some d) = Ok (mdelete m k).
Proof. intros m d k H. unfold DeleteBDMap. rewrite H. reflexivity. Qed.

Lemma delete_inv : forall m d m', DeleteBDMap m (Some d) = Ok m' ->
  exists k, has_key d k /\ m' = mdelete m k.
Proof.
  intros m d m' H. unfold DeleteBDMap, has_key in *.
  destruct (GetKeyAsBytes (Some d)) as [k| |]; try discriminate H.
  injection H as <-. eauto.
Qed.

(** An insert leaves the store keyed; it changes one slot. *)
Lemma insert_shape : forall now dt d c dt' e, InsertLocal now dt d c = Ok (dt', e) ->
  dDBMap dt' = dDBMap dt \/
  exists d0 k, d = Some d0 /\ has_key d0 k /\
    dDBMap dt' = mstore (dDBMap dt) k (mkEntry (expireAtOf now c) d0).
Proof.
  intros now dt d c dt' e H. unfold InsertLocal in H.
  destruct (match dConfig dt with Some c => _ | None => false end); [injection H as <- _; auto|].
  assert (E0 : dDBMap (if dInitialized dt then dt else InitData dt) = dDBMap dt)
    by (unfold InitData; destruct (dInitialized dt); reflexivity).
  set (dt0 := if dInitialized dt then dt else InitData dt) in *. rewrite E0 in H.
  unfold InsertBDMap in H. destruct d as [d|]; [|discriminate H].
  destruct (GetKeyAsBytes (Some d)) as [kb| |] eqn:K; cbn [bind] in H;
    [| injection H as <- _; auto | discriminate H].
  destruct (match mload (dDBMap dt) (EncodeToString kb) with None => _ | Some _ => _ end) as [b| |];
    cbn [bind] in H; [| injection H as <- _; auto | discriminate H].
  destruct b; injection H as <- _.
  - right. exists d, kb. split; [reflexivity|]. split; [exact K|]. reflexivity.
  - left. reflexivity.
Qed.

(** A local insert does not touch Alive except to set it. *)
Lemma insert_alive : forall now dt d c dt' e, InsertLocal now dt d c = Ok (dt', e) ->
  dAlive dt = true -> dAlive dt' = true.
Proof.
  intros now dt d c dt' e H A. unfold InsertLocal in H.
  destruct (match dConfig dt with Some c => _ | None => false end); [injection H as <- _; auto|].
  assert (A0 : dAlive (if dInitialized dt then dt else InitData dt) = true)
    by (unfold InitData; destruct (dInitialized dt) eqn:I; [exact A|reflexivity]).
  destruct (InsertBDMap _ _ _ _) as [[m f]|e0|]; [| injection H as <- _; exact A0 | discriminate H].
  destruct f; injection H as <- _; exact A0.
Qed.

(** ** Invariants along executions *)

Lemma run_inv : forall M undef (J : sync -> list obs -> Prop) (ok : sync -> yev -> Prop),
  (forall s t e s', J s t -> ok s e -> sync_step M undef s e = Some s' -> J s' (t ++ observe s e)) ->
  forall es s t s', J s t -> every M undef ok s es -> sync_run M undef s es = Some s' ->
  J s' (t ++ messages M undef s es).
Proof.
  intros M undef J ok ST. induction es as [|e es IH]; intros s t s' I V R; cbn in R.
  - injection R as <-. cbn. rewrite app_nil_r. exact I.
  - cbn [every] in V. destruct V as [V1 V2].
    destruct (sync_step M undef s e) as [s1|] eqn:E; [|discriminate R].
    cbn [messages]. rewrite E, app_assoc. apply IH; [eapply ST; eauto|exact V2|exact R].
Qed.

Lemma every_and : forall M undef (p q : sync -> yev -> Prop) es s,
  every M undef p s es -> every M undef q s es ->
  every M undef (fun s e => p s e /\ q s e) s es.
Proof.
  induction es as [|e es IH]; intros s P Q; [exact I|]. cbn [every] in *.
  destruct P as [P1 P2], Q as [Q1 Q2]. split; [auto|].
  destruct (sync_step M undef s e); auto.
Qed.

Lemma every_of : forall M undef (p : yev -> Prop) es s,
  (forall e, In e es -> p e) -> every M undef (fun _ e => p e) s es.
Proof.
  induction es as [|e es IH]; intros s H; [exact I|]. cbn [every]. split; [apply H; left; auto|].
  destruct (sync_step M undef s e); auto. apply IH. intros. apply H. right. auto.
Qed.

Lemma run_app : forall M undef es1 es2 s s2,
  sync_run M undef s (es1 ++ es2) = Some s2 <->
  exists s1, sync_run M undef s es1 = Some s1 /\ sync_run M undef s1 es2 = Some s2.
Proof.
  induction es1 as [|e es1 IH]; intros es2 s s2; cbn.
  - split; [intro H; exists s; auto|]. intros (s1 & H & R). injection H as <-. exact R.
  - destruct (sync_step M undef s e) as [s'|]; [apply IH|].
    split; [discriminate|]. intros (s1 & H & _). discriminate H.
Qed.

(** ** Acknowledgements precede removals *)

(** The data that a sender works on. *)
Definition sender_data (r : sender) (d : Datum) : Prop :=
  (exists c, In (d, c) (rQueue r)) \/
  match rPc r with Idle => False | Visit d' _ _ => d = d' | Acked d' _ _ _ => d = d' end.

Definition acked_ok (r : sender) (t : list obs) : Prop :=
  match rPc r with Acked d _ _ _ => acknowledged d t | _ => True end.

(** Everything stored or on its way satisfies Q, and what is about to be removed
    has been acknowledged. *)
Definition J46 (Q : Datum -> Prop) (s : sync) (t : list obs) : Prop :=
  mwf (store s) /\ keyed (store s) /\
  (forall k e, mload (store s) k = Some e -> Q (edatum e)) /\
  (forall i r, nth_error (ySenders s) i = Some r ->
     (forall d, sender_data r d -> Q d) /\ acked_ok r t).

Definition ok46 (Q : Datum -> Prop) (s : sync) (e : yev) : Prop :=
  range_ok s e /\ (forall now d c, e = YInsert now (Some d) c -> Q d).

Lemma acknowledged_app : forall d t t', acknowledged d t -> acknowledged d (t ++ t').
Proof. intros d t t' (i & id & H). exists i, id. apply in_app_iff. auto. Qed.

Lemma acked_ok_app : forall r t t', acked_ok r t -> acked_ok r (t ++ t').
Proof. intros r t t'. unfold acked_ok. destruct (rPc r); auto. apply acknowledged_app. Qed.

Lemma keyed_delete : forall m k, keyed m -> keyed (mdelete m k).
Proof.
  intros m k K k' e H. rewrite mload_mdelete in H. destruct (bytes_eqb k k'); [discriminate H|].
  apply K. exact H.
Qed.

Lemma J46_step : forall M undef Q s t e s',
  J46 Q s t -> ok46 Q s e -> sync_step M undef s e = Some s' -> J46 Q s' (t ++ observe s e).
Proof.
  intros M undef Q s t e s' (W & K & QS & SD) (RO & QI) H.
  assert (SD' : forall i r, nth_error (ySenders s) i = Some r ->
            (forall d, sender_data r d -> Q d) /\ acked_ok r (t ++ observe s e)).
  { intros i r N. destruct (SD i r N). split; auto. apply acked_ok_app. auto. }
  destruct e as [P force|i e|now d c|d|l|]; cbn [sync_step] in H.
  - destruct (Process M P (yData s) force) as [[dt r]| |] eqn:PR; try discriminate H.
    destruct (process_spec _ _ _ _ _ _ PR) as (li & cf & limit & dm & _ & _ & _ & _ & _ & _ & C).
    assert (ST : store s' = dDBMap dt) by (destruct r; injection H as <-; reflexivity).
    assert (SUB : forall k e, mload (store s') k = Some e -> mload (store s) k = Some e).
    { rewrite ST. intros k e0 L. destruct C as [(_ & E1 & _)|(_ & E1 & _)]; rewrite E1 in L.
      - destruct (mload_fold_delete_cases (map fst (filter (fun p => expired (pTick P (fst p)) (snd p)) (pOrder P))) (dDBMap (yData s)) k) as [E2|[E2 _]];
          rewrite E2 in L; [exact L|discriminate L].
      - exact L. }
    split.
    { rewrite ST. destruct C as [(_ & E1 & _)|(_ & E1 & _)]; rewrite E1; [apply wf_fold_delete|]; exact W. }
    split; [intros k e0 L; apply K; auto|]. split; [intros k e0 L; eauto|].
    intros i r0 N0. destruct r as [r|]; injection H as <-; cbn [ySenders] in N0; [|apply (SD' i); exact N0].
    destruct (Nat.lt_ge_cases i (length (ySenders s))) as [LT|GE].
    { rewrite nth_error_app1 in N0 by auto. apply (SD' i); exact N0. }
    rewrite nth_error_app2 in N0 by auto.
    destruct (i - length (ySenders s))%nat as [|j]; [|destruct j; discriminate N0].
    cbn in N0. injection N0 as <-.
    destruct C as [(_ & C)|(_ & _ & C & _)]; [|discriminate C].
    cbv zeta in C. destruct C as (_ & _ & _ & _ & _ & C).
    destruct (0 <? dN (yData s)); [|discriminate C]. injection C as ->. split; [|exact I].
    intros d [(c & IN)|[]]. cbn [rQueue] in IN.
    apply fold_out in IN. destruct IN as [[]|(k & e0 & IN & -> & _)].
    unfold live_of in IN. apply filter_In in IN. destruct IN as [IN _].
    cbn [range_ok] in RO.
    assert (IN2 : In (k, e0) (store s)) by (eapply Permutation_in; eauto).
    apply (QS k e0). apply in_mload; auto.
  - destruct (nth_error (ySenders s) i) as [r|] eqn:N; [|discriminate H].
    destruct (sender_step undef (yData s) r e) as [[dt r']|] eqn:SS; [|discriminate H].
    destruct (list_set (ySenders s) i r') as [l|] eqn:LS; [|discriminate H]. injection H as <-.
    destruct (SD i r N) as [SD1 SD2].
    assert (SHAPE : (dt = yData s \/ exists d k, sender_data r d /\ has_key d k /\
                       dt = set_map (yData s) (mdelete (store s) k)) /\
                    (forall d, sender_data r' d -> sender_data r d) /\
                    acked_ok r' (t ++ observe s (YSend i e))).
    { unfold sender_step in SS. unfold sender_data, acked_ok in *.
      destruct e as [order| |ok|]; destruct (rPc r) as [|d c [|id ids]|d c id ids] eqn:PC; try discriminate SS.
      - destruct (rQueue r) as [|[d c] q] eqn:QE; [discriminate SS|]. injection SS as <- <-.
        split; [auto|]. cbn [rQueue rPc]. split; [|exact I].
        intros d' [(c' & IN)|E]; left; [exists c'; right; exact IN|subst d'; exists c; left; reflexivity].
      - injection SS as <- <-. cbn [set_pc rQueue rPc]. split; [auto|]. split; [|exact I].
        intros d' [X|[]]; auto.
      - destruct (serves (yData s) r id); [discriminate SS|]. injection SS as <- <-.
        cbn [set_pc rQueue rPc]. split; [auto|]. split; [|exact I]. intros d' [X|X]; auto.
      - destruct (serves (yData s) r id); [|discriminate SS]. injection SS as <- <-.
        split; [auto|]. destruct ok; cbn [set_pc rQueue rPc].
        + split; [intros d' [X|X]; auto|]. exists i, id. apply in_app_iff. right.
          cbn [observe]. rewrite N, PC. left. reflexivity.
        + split; [intros d' [X|X]; auto|exact I].
      - destruct (negb (dAlive (yData s)) || _).
        + destruct (DeleteBDMap (dDBMap (yData s)) (Some d)) as [m| |] eqn:DB; try discriminate SS.
          injection SS as <- <-. cbn [rQueue rPc].
          destruct (delete_inv _ _ _ DB) as (k & HK & ->).
          split; [right; exists d, k; split; [right; reflexivity|split; [exact HK|reflexivity]]|].
          split; [intros d' [X|X]; auto|exact I].
        + injection SS as <- <-. cbn [set_pc rQueue rPc]. split; [auto|].
          split; [intros d' [X|X]; auto|exact I]. }
    destruct SHAPE as (DT & DATA & AK).
    assert (SUB : mwf (dDBMap dt) /\ forall k e0, mload (dDBMap dt) k = Some e0 -> mload (store s) k = Some e0).
    { destruct DT as [->|(d & k & _ & _ & ->)]; [split; auto|]. cbn [set_map dDBMap]. split; [apply mdelete_wf; exact W|].
      intros k0 e0 L. rewrite mload_mdelete in L. destruct (bytes_eqb k k0); [discriminate L|exact L]. }
    destruct SUB as [W2 SUB]. cbn [store yData ySenders].
    split; [exact W2|]. split; [intros k e0 L; apply K; auto|]. split; [intros k e0 L; apply (QS k); auto|].
    intros j r0 N0. cbn [ySenders] in N0. rewrite (nth_set _ _ _ _ _ j LS) in N0. destruct (Nat.eqb i j).
    + injection N0 as <-. split; [intros d X; auto|exact AK].
    + apply SD' in N0. exact N0.
  - destruct (InsertLocal now (yData s) d c) as [[dt o]| |] eqn:IL; try discriminate H. injection H as <-.
    unfold J46, store. cbn [yData ySenders]. destruct (insert_shape _ _ _ _ _ _ IL) as [E|(d0 & k0 & -> & HK & E)]; rewrite E.
    + split; [exact W|]. split; [exact K|]. split; [exact QS|exact SD'].
    + split; [apply mstore_wf; exact W|]. split; [|split; [|exact SD']]; intros k e0 L; rewrite mload_mstore in L;
        destruct (bytes_eqb k0 k) eqn:B; try (injection L as <-; cbn [edatum]); eauto.
      apply bytes_eqb_spec in B. subst k. exact HK.
  - destruct (DeleteBDMap (dDBMap (yData s)) d) as [m| |] eqn:DB; try discriminate H. injection H as <-.
    unfold DeleteBDMap in DB. destruct (GetKeyAsBytes d) as [k0| |]; try discriminate DB. injection DB as <-.
    unfold J46, store. cbn [yData ySenders set_map dDBMap].
    split; [apply mdelete_wf; exact W|]. split; [apply keyed_delete; exact K|]. split; [|exact SD'].
    intros k e0 L. rewrite mload_mdelete in L. destruct (bytes_eqb k0 k); [discriminate L|eauto].
  - injection H as <-. split; [exact W|]. split; [exact K|]. split; [exact QS|exact SD'].
  - injection H as <-. split; [exact W|]. split; [exact K|]. split; [exact QS|exact SD'].
Qed.

(** What a background step can remove. *)
Lemma removal_cases : forall M undef Q s t e s' k ent,
  J46 Q s t -> range_ok s e -> sync_step M undef s e = Some s' -> background e ->
  lost (store s) (store s') k ent ->
  (exists P force, e = YProcess P force /\ expired (pTick P k) ent = true) \/
  (is_send e /\ exists d, has_key d k /\ Q d /\ acknowledged d t).
Proof.
  intros M undef Q s t e s' k ent (W & K & QS & SD) RO H BG [L1 L2].
  destruct e as [P force|i e|now d c|d|l|]; try (destruct BG; fail); cbn [sync_step] in H.
  - left. exists P, force. split; [reflexivity|].
    destruct (Process M P (yData s) force) as [[dt r]| |] eqn:PR; try discriminate H.
    destruct (process_spec _ _ _ _ _ _ PR) as (li & cf & limit & dm & _ & _ & _ & _ & _ & _ & C).
    assert (ST : store s' = dDBMap dt) by (destruct r; injection H as <-; reflexivity).
    rewrite ST in L2. destruct C as [(_ & E1 & _)|(_ & E1 & _)]; rewrite E1 in L2;
      [|unfold store in L1; congruence].
    destruct (mload_fold_delete_cases (map fst (filter (fun p => expired (pTick P (fst p)) (snd p)) (pOrder P))) (dDBMap (yData s)) k) as [E2|[_ E2]].
    + unfold store in L1. congruence.
    + apply in_map_iff in E2. destruct E2 as ([k' e'] & E3 & IN). cbn in E3. subst k'.
      apply filter_In in IN. destruct IN as [IN X]. cbn [fst snd] in X.
      cbn [range_ok] in RO. assert (IN2 : In (k, e') (store s)) by (eapply Permutation_in; eauto).
      apply in_mload in IN2; auto. congruence.
  - right. split; [exact I|].
    destruct (nth_error (ySenders s) i) as [r|] eqn:N; [|discriminate H].
    destruct (sender_step undef (yData s) r e) as [[dt r']|] eqn:SS; [|discriminate H].
    destruct (list_set (ySenders s) i r') as [l|] eqn:LS; [|discriminate H]. injection H as <-.
    unfold store in L1, L2. cbn [yData] in L2.
    destruct (SD i r N) as [SD1 SD2]. unfold sender_step in SS. unfold sender_data, acked_ok in *.
    destruct e as [order| |ok|]; destruct (rPc r) as [|d c [|id ids]|d c id ids] eqn:PC; try discriminate SS.
    + destruct (rQueue r) as [|[d c] q]; [discriminate SS|]. injection SS as <- <-. congruence.
    + injection SS as <- <-. congruence.
    + destruct (serves (yData s) r id); [discriminate SS|]. injection SS as <- <-. congruence.
    + destruct (serves (yData s) r id); [|discriminate SS]. injection SS as <- <-. congruence.
    + destruct (negb (dAlive (yData s)) || _).
      * destruct (DeleteBDMap (dDBMap (yData s)) (Some d)) as [m| |] eqn:DB; try discriminate SS.
        injection SS as <- <-. destruct (delete_inv _ _ _ DB) as (k0 & HK & ->).
        cbn [set_map dDBMap] in L2. rewrite mload_mdelete in L2.
        destruct (bytes_eqb k0 k) eqn:B; [|congruence]. apply bytes_eqb_spec in B. subst k0.
        exists d. split; [exact HK|]. split; [apply SD1; right; reflexivity|exact SD2].
      * injection SS as <- <-. congruence.
Qed.
