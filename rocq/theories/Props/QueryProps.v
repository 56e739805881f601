(** Properties C30-C34 and C67: the query cache, forwarded queries and the
    SearchStream handler. *)
From Verif.Base Require Import GoBase GoLemmas Assoc Float GoSort.
From Verif.Model Require Import Codec Store Data Vector Search Aggregator CallTree Flow Json QueryCache Flood SearchStream.
From Verif.Spec Require Import Wire StoreSpec TopK Text CacheSpec.
From Verif.Proof Require Import VectorP QueryCacheP FloodP SearchStreamP.
From Coq Require Import Lia Permutation.
Open Scope N_scope.

(** C30 Cached answers belong to the same query.  [es] is any history of lookups,
    executions, extensions, purges and writes to structs that were handed out;
    a hit for (k, c) returns what an execution of (k, c) in that history
    produced.  Later writes do not show. *)
Theorem C30_same_query : forall byNow es q now k c q' rs,
  Forall event_ok es -> query_ok k c -> qrun byNow q_empty es = Ok q ->
  qstep byNow q (EvLookup now k c) = Ok (q', Some rs) ->
  exists t, executed es k c t rs.
Proof. exact lookup_answer. Qed.
Print Assumptions C30_same_query.

(** The key of the cache determines the datum key and every field of the
    configuration but the uuid, and does not depend on the uuid. *)
Theorem C30_key_injective : forall k1 c1 k2 c2 b, query_ok k1 c1 -> query_ok k2 c2 ->
  GetSearchKey (Some (mkDatum (Some k1) None)) c1 = Ok b ->
  (GetSearchKey (Some (mkDatum (Some k2) None)) c2 = Ok b <-> k1 = k2 /\ same_config c1 c2).
Proof.
  intros k1 c1 k2 c2 b Q1 Q2 E1. pose proof Q1 as (A1 & A2 & A3). pose proof Q2 as (B1 & B2 & B3).
  rewrite search_key in * by auto. injection E1 as <-. split.
  - intro E. injection E as E. apply query_key_inj in E; auto. destruct E as [-> S]. split; auto.
    apply same_config_sym. auto.
  - intros [-> S]. rewrite (same_config_encode _ _ S). auto.
Qed.
Print Assumptions C30_key_injective.

(** No history makes the cache code crash (the stored pointers stay valid). *)
Theorem C30_no_crash : forall byNow es, Forall event_ok es -> exists q, qrun byNow q_empty es = Ok q.
Proof.
  intros byNow es F.
  assert (G : forall es es0 q, Forall event_ok es -> qinv es0 q -> exists q', qrun byNow q es = Ok q').
  { clear es F. induction es as [|e es IH]; intros es0 q F I; cbn [qrun]; [eauto|]. inversion F; subst.
    destruct (qstep_ok byNow es0 q e I) as (q1 & a & E); auto. rewrite E. cbn [bind].
    eapply IH; eauto. eapply qstep_inv; eauto. }
  apply (G es [] q_empty); auto. split; [constructor|discriminate].
Qed.
Print Assumptions C30_no_crash.

(** An execution, a write to the returned struct, a hit with another uuid. *)
Definition qk : DatumKey := mkKey [1065353216] (bs "g") 1 1 1 1.
Definition qc (d : N) (u : bytes) : SearchConfig :=
  mkSearchConfig (bs "VectorDistance") false 0 1000 10 d (bs "db") 0 [] [bs "color"] 0 [] u.
Definition qr : ScoredDatum := mkScored (f64_of_Z 1) (mkDatum (Some qk) (Some (mkValue 1 (bs "x")))).
Definition qw : ScoredDatum := mkScored fzero (mkDatum (Some qk) (Some (mkValue 1 (bs "x")))).
Lemma qk_ok : key_ok qk /\ key_fits qk.
Proof.
  split; [|cbv; repeat split; discriminate || lia].
  unfold key_ok, qk. cbn. unfold is_bytes, is_byte, is_u32. repeat split; repeat constructor; lia.
Qed.
Lemma qc_ok : forall d u, d < M64 -> query_ok qk (qc d u).
Proof.
  intros d u H. destruct qk_ok. split; auto. split; auto. unfold config_ok, qc. cbn [scScoreFuncName scTimestamp scTimeout
    scLimit scCacheDuration scDataName scGroupLimit scGroupScoreFuncName scFilters scResultLimit scGroupFilters].
  repeat split; try ascii; auto; try (cbv; lia); repeat constructor; ascii.
Qed.

Definition the_q {A} (r : res (qstate * A)) : qstate := match r with Ok (q, _) => q | _ => q_empty end.
Definition q_after (byNow : bool) (es : list qevent) : qstate :=
  match qrun byNow q_empty es with Ok q => q | _ => q_empty end.

Example C30_instance :
  let es := [EvFinish 5 qk (qc 60 (bs "u1")) [qr] false; EvWrite 0 qw] in
  let q := q_after true es in
  Forall event_ok es /\ qrun true q_empty es = Ok q /\ nth_error (qHeap q) 0 = Some qw /\
  (exists q', qstep true q (EvLookup 6 qk (qc 60 (bs "u2"))) = Ok (q', Some [qr])) /\
  qstep true q (EvLookup 6 qk (qc 61 (bs "u2"))) = Ok (q, None).
Proof.
  split; [apply Forall_cons; [apply (qc_ok 60 (bs "u1")); unfold M64; lia|repeat constructor]|].
  split; [vm_compute; reflexivity|]. split; [vm_compute; reflexivity|]. split; [|vm_compute; reflexivity].
  exists (the_q (qstep true (q_after true [EvFinish 5 qk (qc 60 (bs "u1")) [qr] false; EvWrite 0 qw])
                   (EvLookup 6 qk (qc 60 (bs "u2"))))).
  vm_compute. reflexivity.
Qed.

(** C31 Cached answers are fresh and complete.  False in both respects.
    Freshness: a hit extends the lifetime, whichever way IncrementExpiration
    does it; the answer returned at the last lookup is older than the cache
    duration of one second. *)
Theorem C31_fresh_refuted : forall byNow, exists es q now k c q' rs,
  Forall event_ok es /\ Forall time_ok es /\ query_ok k c /\ qrun byNow q_empty es = Ok q /\
  qstep byNow q (EvLookup now k c) = Ok (q', Some rs) /\
  (forall t rs', executed es k c t rs' -> (t + ns c < now)%Z).
Proof.
  intro byNow.
  set (es := [EvFinish 1000000000 qk (qc 1 []) [qr] false; EvLookup 1900000000 qk (qc 1 []);
              EvTouch 1900000000 qk (qc 1 [])]).
  assert (Q : query_ok qk (qc 1 [])) by (apply qc_ok; unfold M64; lia).
  exists es, (q_after byNow es), 2800000000%Z, qk, (qc 1 []),
    (the_q (qstep byNow (q_after byNow es) (EvLookup 2800000000 qk (qc 1 [])))), [qr].
  split; [repeat (constructor; auto)|]. split; [repeat (constructor; [cbn; lia|]); constructor|]. split; auto.
  split; [destruct byNow; vm_compute; reflexivity|]. split; [destruct byNow; vm_compute; reflexivity|].
  intros t rs' (c' & late & I & _). destruct I as [E|[E|[E|[]]]]; try discriminate.
  injection E as <- _ _ _. vm_compute. reflexivity.
Qed.
Print Assumptions C31_fresh_refuted.

(** Completeness: a search that ran into its time limit with nothing merged yet
    is cached like any other.  The goroutines are those of C28. *)
Theorem C31_complete_refuted : exists (work : list (list ScoredDatum)) s out q q' now k c,
  flow_runs (flow_init work) s /\ fCons s = CEnd TimedOut /\ concat work <> [] /\
  Merge insertion_sort (mkAgg false 10 0 0 None (fun _ _ => fzero)) (fMerged s) = Ok out /\
  query_ok k c /\
  qrun true q_empty [EvFinish 1 k c out true] = Ok q /\
  qstep true q (EvLookup now k c) = Ok (q', Some []).
Proof.
  set (c := qc 60 []). set (es := [EvFinish 1 qk c [] true]).
  exists [[qr]], (mkFlow [mkProd [qr] false] [] true 1 WWaiting (CEnd TimedOut) [] true), [],
    (q_after true es), (the_q (qstep true (q_after true es) (EvLookup 2 qk c))), 2%Z, qk, c.
  split.
  { unfold flow_init.
    eapply fr_step; [apply (f_spawn [] [] true 0 WNotStarted [] [qr] [] false)|].
    eapply fr_step; [apply (f_start_waiter [mkProd [qr] false] [] true 1 [] false)|].
    eapply fr_step; [apply (f_timer [mkProd [qr] false] [] true 1 WWaiting CLoop [])|].
    eapply fr_step; [apply (f_timeout [mkProd [qr] false] [] true 1 WWaiting [])|]. apply fr_here. }
  split; [reflexivity|]. split; [discriminate|]. split; [reflexivity|].
  split; [apply qc_ok; unfold M64; lia|]. split; vm_compute; reflexivity.
Qed.
Print Assumptions C31_complete_refuted.

(** What does hold: the answer is at most (n + 1) times the cache duration old,
    where n is the number of hits that extended it (for durations below 2^63
    nanoseconds); without such a hit it is not older than the duration. *)
Theorem C31_age_partial : forall byNow es q now k c q' rs,
  Forall event_ok es -> Forall time_ok es -> query_ok k c -> (ns c < 9223372036854775808)%Z ->
  qrun byNow q_empty es = Ok q ->
  qstep byNow q (EvLookup now k c) = Ok (q', Some rs) ->
  exists es1 t c' late es2 n, es = es1 ++ EvFinish t k c' rs late :: es2 /\ same_config c' c /\
  extended k c es2 n /\ (now <= t + Z.of_nat (S n) * ns c)%Z.
Proof. exact lookup_age. Qed.
Print Assumptions C31_age_partial.

Example C31_instance :
  let es := [EvFinish 1000000000 qk (qc 1 []) [qr] false] in
  let q := q_after true es in
  Forall event_ok es /\ Forall time_ok es /\ (ns (qc 1 []) < 9223372036854775808)%Z /\
  qrun true q_empty es = Ok q /\
  (exists q', qstep true q (EvLookup 1900000000 qk (qc 1 [])) = Ok (q', Some [qr])) /\
  qstep true q (EvLookup 2100000000 qk (qc 1 [])) = Ok (q, None).
Proof.
  split; [apply Forall_cons; [apply (qc_ok 1 []); unfold M64; lia|constructor]|].
  split; [repeat constructor|]. split; [vm_compute; reflexivity|]. split; [vm_compute; reflexivity|].
  split; [|vm_compute; reflexivity].
  exists (the_q (qstep true (q_after true [EvFinish 1000000000 qk (qc 1 []) [qr] false])
                   (EvLookup 1900000000 qk (qc 1 [])))).
  vm_compute. reflexivity.
Qed.

(** C32 Downstream timeouts strictly shrink. *)
Theorem C32_shrinks_partial : forall undef t, 0 < t < M64 -> ShrinkTimeout undef t < t.
Proof. exact shrink_timeout. Qed.
Print Assumptions C32_shrinks_partial.

(** Every forwarded request carries a smaller timeout, or 0. *)
Theorem C32_forwarded_partial : forall D undef sources n timeout (ds : list D) reqs r,
  timeout < M64 -> forwarded undef sources n timeout ds reqs -> In r reqs ->
  rTimeout r < timeout \/ timeout = 0 /\ rTimeout r = 0.
Proof.
  intros D undef sources n timeout ds reqs r Ht F I.
  assert (S0 : ShrinkTimeout undef 0 = 0) by (vm_compute; reflexivity).
  assert (It : forall j t, t < M64 -> Nat.iter j (ShrinkTimeout undef) t <= t).
  { induction j as [|j IH]; intros t H; [cbn; lia|]. specialize (IH t H).
    change (Nat.iter (S j) (ShrinkTimeout undef) t) with (ShrinkTimeout undef (Nat.iter j (ShrinkTimeout undef) t)).
    set (u := Nat.iter j (ShrinkTimeout undef) t) in *. destruct (N.eq_dec u 0) as [->|NZ]; [rewrite S0; lia|].
    assert (0 < u < M64) as Hu by (unfold M64 in *; lia). pose proof (shrink_timeout undef u Hu). lia. }
  induction F as [|d ds targets times reqs C L T F IH]; [destruct I|].
  apply in_app_or in I as [I|I]; auto.
  apply in_map_iff in I. destruct I as ((a & b) & <- & I). cbn [rTimeout fst snd].
  apply in_combine_r in I. rewrite Forall_forall in T. destruct (T b I) as (j & ->).
  destruct (N.eq_dec timeout 0) as [->|NZ].
  - right. pose proof (It (S j) 0 Ht). split; lia.
  - left. change (Nat.iter (S j) (ShrinkTimeout undef) timeout)
      with (ShrinkTimeout undef (Nat.iter j (ShrinkTimeout undef) timeout)).
    set (u := Nat.iter j (ShrinkTimeout undef) timeout) in *. pose proof (It j timeout Ht) as B. fold u in B.
    destruct (N.eq_dec u 0) as [E|NU]; [rewrite E, S0; lia|].
    assert (0 < u < M64) as Hu by lia. pose proof (shrink_timeout undef u Hu). lia.
Qed.
Print Assumptions C32_forwarded_partial.

(** But a timeout of 0 is forwarded like any other, so the shrinking does not
    end the chain: where a node has forgotten the uuid (after five minutes), two
    nodes can go on asking each other for ever. *)
Definition ping (k : nat) : N := if Nat.even k then 0 else 1.
Definition ping_sources (n : N) : list N := if n =? 0 then [1] else [0].
Fixpoint ping_log (k : nat) : list (N * list unit) :=
  match k with O => [(0, [tt])] | S k' => (ping (S k'), [tt]) :: ping_log k' end.
Definition ping_state (n : nat) : flood unit :=
  let k := Nat.div2 n in
  if Nat.even n then mkFlood [] [mkReq (ping (S k)) tt 0] (ping_log k)
  else mkFlood [ping (S k)] [mkReq (ping (S (S k))) tt 0] (ping_log (S k)).

Lemma ping_forward : forall undef k timeout, timeout = 0 \/ timeout = 1 ->
  forwarded undef ping_sources (ping k) timeout [tt] [mkReq (ping (S k)) tt 0].
Proof.
  intros undef k timeout H.
  apply (fw_cons undef ping_sources (ping k) timeout tt [] [ping (S k)] [0] []).
  - split; [repeat constructor; intros []|]. split; [|cbn; lia]. unfold ping. rewrite Nat.even_succ, <- Nat.negb_even.
    destruct (Nat.even k); cbn; intros x [<-|[]]; left; reflexivity.
  - reflexivity.
  - constructor; [|constructor]. exists O. destruct H as [-> | ->]; vm_compute; reflexivity.
  - constructor.
Qed.

Theorem C32_chain_refuted : forall undef, exists (f : nat -> flood unit),
  flood_start undef ping_sources 0 [tt] 1 false (f O) /\
  (forall n, flood_step undef ping_sources (f n) (f (S n)) \/ flood_expire (f n) (f (S n))) /\
  forall k, length (fLog (f (2 * k)%nat)) = S k.
Proof.
  intro undef. exists ping_state. split; [|split].
  - apply (fs_start undef ping_sources 0 [tt] 1 false [mkReq (ping 1) tt 0]).
    apply (ping_forward undef 0 1). auto.
  - intro n. unfold ping_state. rewrite Nat.even_succ, <- Nat.negb_even.
    destruct (Nat.even n) eqn:E; cbn [negb].
    + left. apply Nat.even_spec in E. destruct E as [k ->].
      replace (Nat.div2 (2 * k)) with k by (rewrite Nat.div2_double; auto).
      replace (Nat.div2 (S (2 * k))) with k by (rewrite Nat.div2_succ_double; auto).
      apply (st_execute undef ping_sources [] [] (mkReq (ping (S k)) tt 0) [] (ping_log k)
               [mkReq (ping (S (S k))) tt 0]).
      * intros [].
      * apply (ping_forward undef (S k) 0). auto.
    + right. assert (exists k, n = S (2 * k)) as [k ->].
      { assert (O : Nat.odd n = true) by (rewrite <- Nat.negb_even, E; auto).
        apply Nat.odd_spec in O. destruct O as [k ->]. exists k. lia. }
      replace (Nat.div2 (S (2 * k))) with k by (rewrite Nat.div2_succ_double; auto).
      replace (Nat.div2 (S (S (2 * k)))) with (S k) by (cbn [Nat.div2]; rewrite Nat.div2_double; auto).
      apply (st_expire [] (ping (S k)) []).
  - intro k. unfold ping_state. rewrite Nat.even_mul. cbn [Nat.even orb].
    rewrite Nat.div2_double. cbn [fLog]. induction k; cbn; auto.
Qed.
Print Assumptions C32_chain_refuted.

Example C32_instance :
  ShrinkTimeout 7 1000 = 900 /\ ShrinkTimeout 7 1 = 0 /\ ShrinkTimeout 7 10 = 9 /\
  ShrinkTimeout 7 18446744073709551615 = 16602069666338596864.
Proof. vm_compute. auto. Qed.

(** C33 A query is executed once per node, for the lifetime of the ids: whatever
    the sources, the orders of delivery and the losses, ... *)
Theorem C33_once : forall D undef sources o (ds : list D) timeout given s0 s n,
  flood_start undef sources o ds timeout given s0 -> flood_runs undef sources s0 s ->
  (n <> o -> (length (runs_on n (fLog s)) <= 1)%nat) /\
  (length (runs_on o (fLog s)) <= 2)%nat /\
  (given = true -> length (runs_on o (fLog s)) = 1%nat).
Proof.
  intros D undef sources o ds timeout given s0 s n St R.
  assert (I := flood_runs_inv undef sources o ds _ _ R (flood_start_inv _ _ _ _ _ _ _ St)).
  destruct I as (later & E & H). rewrite E. unfold runs_on. rewrite filter_app, map_app.
  fold (runs_on n later). cbn [filter fst]. split; [|split].
  - intro Q. apply N.eqb_neq in Q. rewrite N.eqb_sym, Q. cbn [map]. rewrite app_nil_r.
    destruct (H n) as [->|(d & -> & _)]; cbn; lia.
  - rewrite filter_app. cbn [filter fst]. rewrite N.eqb_refl. rewrite map_app. fold (runs_on o later).
    rewrite app_length. destruct (H o) as [->|(d & -> & _)]; cbn; lia.
  - intros ->. rewrite filter_app. cbn [filter fst]. rewrite N.eqb_refl. rewrite map_app. fold (runs_on o later).
    rewrite app_length. cbn [length map].
    assert (Seen : In o (fSeen s0) /\ runs_on o (fLog s0) = [ds]).
    { destruct St. cbn [fSeen fLog]. split; [left; auto|]. unfold runs_on. cbn [filter fst]. rewrite N.eqb_refl. auto. }
    assert (Keep : In o (fSeen s) /\ runs_on o (fLog s) = [ds]).
    { clear St E H later. induction R as [|s s1 s2 St R IH]; auto. apply IH. destruct Seen as [S1 S2].
      destruct St; cbn [fSeen fLog] in *; auto.
      - split; [right; auto|]. rewrite runs_on_cons_other by congruence. auto.
      - split; [right; auto|auto]. }
    destruct Keep as [_ K]. rewrite E in K. unfold runs_on in K. rewrite filter_app, map_app in K.
    cbn [filter fst] in K. rewrite N.eqb_refl in K. cbn [map snd] in K. fold (runs_on o later) in K.
    destruct (runs_on o later) as [|x [|y l]]; cbn in K |- *; auto; discriminate.
Qed.
Print Assumptions C33_once.

(** ... and the query ends: no infinite run exists in a finite cluster (with
    cycles or not), and when nothing more can happen no request is under way. *)
Theorem C33_terminates : forall D undef sources univ o (ds : list D) timeout given s0 s,
  (forall m, incl (sources m) univ) -> In o univ ->
  flood_start undef sources o ds timeout given s0 -> flood_runs undef sources s0 s ->
  Acc (fun s2 s1 => flood_step undef sources s1 s2) s /\
  ((forall s', ~ flood_step undef sources s s') -> fReqs s = []).
Proof.
  intros D undef sources univ o ds timeout given s0 s U Io St R.
  assert (I0 : in_univ univ s0).
  { destruct St. split; [|split]; cbn [fReqs fSeen].
    - eapply forwarded_univ; eauto.
    - destruct given; intros x; [intros [<-|[]]; auto|intros []].
    - destruct given; repeat constructor. intros []. }
  destruct (flood_runs_weight undef sources univ s0 s U R I0) as [I _].
  split; [eapply flood_terminates; eauto|apply flood_stuck].
Qed.
Print Assumptions C33_terminates.

(** Two nodes asking each other: the origin executes a second time, then the
    query is refused everywhere. *)
Example C33_instance : exists s, flood_start 0 ping_sources 0 [tt] 1000 false s /\
  exists s', flood_runs 0 ping_sources s s' /\ runs_on 0 (fLog s') = [[tt]; [tt]] /\
    runs_on 1 (fLog s') = [[tt]] /\ fReqs s' = [].
Proof.
  assert (F : forall k t, forwarded 0 ping_sources (ping k) t [tt] [mkReq (ping (S k)) tt (ShrinkTimeout 0 t)]).
  { intros k t. apply (fw_cons 0 ping_sources (ping k) t tt [] [ping (S k)] [ShrinkTimeout 0 t] []).
    - split; [repeat constructor; intros []|]. split; [|cbn; lia]. unfold ping. rewrite Nat.even_succ, <- Nat.negb_even.
      destruct (Nat.even k); cbn; intros x [<-|[]]; left; reflexivity.
    - reflexivity.
    - constructor; [|constructor]. exists O. reflexivity.
    - constructor. }
  exists (mkFlood [] [mkReq 1 tt (ShrinkTimeout 0 1000)] [(0, [tt])]). split.
  { apply (fs_start 0 ping_sources 0 [tt] 1000 false). apply (F O). }
  eexists. split; [|split; [|split]].
  - eapply flr_step.
    { apply (st_execute 0 ping_sources [] [] (mkReq 1 tt (ShrinkTimeout 0 1000)) []); [intros []|apply (F 1%nat)]. }
    eapply flr_step.
    { apply (st_execute 0 ping_sources [1] [] (mkReq 0 tt (ShrinkTimeout 0 (ShrinkTimeout 0 1000))) []);
        [intros [H|[]]; discriminate|apply (F O)]. }
    eapply flr_step.
    { apply (st_duplicate 0 ping_sources [0; 1] [] (mkReq 1 tt (ShrinkTimeout 0 (ShrinkTimeout 0 (ShrinkTimeout 0 1000)))) []).
      right. left. reflexivity. }
    apply flr_here.
  - reflexivity.
  - reflexivity.
  - reflexivity.
Qed.

(** C67 Every source consulted is asked for every vector of a query.  False: the
    requests for the vectors carry the same uuid, so a node other than the
    starting one executes at most one of them, in every run, ... *)
Theorem C67_one_vector_only : forall D undef sources o (ds : list D) timeout given s0 s n,
  flood_start undef sources o ds timeout given s0 -> flood_runs undef sources s0 s -> n <> o ->
  runs_on n (fLog s) = [] \/ exists d, runs_on n (fLog s) = [[d]].
Proof.
  intros D undef sources o ds timeout given s0 s n St R Q.
  assert (I := flood_runs_inv undef sources o ds _ _ R (flood_start_inv _ _ _ _ _ _ _ St)).
  destruct I as (later & E & H). rewrite E. unfold runs_on. rewrite filter_app, map_app.
  fold (runs_on n later). cbn [filter fst]. apply N.eqb_neq in Q. rewrite N.eqb_sym, Q. cbn [map]. rewrite app_nil_r.
  destruct (H n) as [->|(d & -> & _)]; eauto.
Qed.
Print Assumptions C67_one_vector_only.

(** ... and in this one, without any loss, the second vector is never searched
    on node 1. *)
Theorem C67_every_vector_refuted : exists undef sources (ds : list N) s0 s,
  flood_start undef sources 0 ds 1000 false s0 /\ flood_runs undef sources s0 s /\
  map rTo (fReqs s0) = [1; 1] /\ map rDatum (fReqs s0) = ds /\ fReqs s = [] /\
  runs_on 1 (fLog s) = [[10]] /\ In 20 ds.
Proof.
  exists 0, (fun n => if n =? 0 then [1] else []), [10; 20].
  exists (mkFlood [] [mkReq 1 10 900; mkReq 1 20 810] [(0, [10; 20])]).
  exists (mkFlood [1] [] [(1, [10]); (0, [10; 20])]).
  split; [|split; [|split; [|split; [|split; [|split]]]]]; try reflexivity.
  - apply (fs_start 0 (fun n => if n =? 0 then [1] else []) 0 [10; 20] 1000 false [mkReq 1 10 900; mkReq 1 20 810]).
    apply (fw_cons 0 _ 0 1000 10 [20] [1] [900] [mkReq 1 20 810]).
    + split; [repeat constructor; intros []|]. split; [|cbn; lia]. intros x I. exact I.
    + reflexivity.
    + constructor; [|constructor]. exists O. vm_compute. reflexivity.
    + apply (fw_cons 0 _ 0 1000 20 [] [1] [810] []).
      * split; [repeat constructor; intros []|]. split; [|cbn; lia]. intros x I. exact I.
      * reflexivity.
      * constructor; [|constructor]. exists 1%nat. vm_compute. reflexivity.
      * constructor.
  - eapply flr_step.
    { apply (st_execute 0 _ [] [] (mkReq 1 10 900) [mkReq 1 20 810] [(0, [10; 20])] []).
      - intros [].
      - apply (fw_cons 0 _ 1 900 10 [] [] [] []); try constructor.
        + constructor.
        + split; [|cbn; lia]. intros x []. }
    eapply flr_step; [|apply flr_here].
    apply (st_duplicate 0 _ [1] [] (mkReq 1 20 810) []). left. reflexivity.
  - right. left. reflexivity.
Qed.
Print Assumptions C67_every_vector_refuted.

(** C34 Malformed search requests are rejected, not fatal.  False: a request
    without config crashes any node, whatever it stores, and so do requests with
    a datum without key, a limit of 0, a context datum without key or a
    resultLimit of 2^63 (on a node that knows the dataset; for the last ones with
    a stored datum). *)
Theorem C34_no_config_refuted : forall seen datasets ds ctx,
  snd (SearchStream seen datasets (mkSearchRequest ds None ctx)) = Panic.
Proof. reflexivity. Qed.
Print Assumptions C34_no_config_refuted.

Theorem C34_no_key_refuted : forall seen datasets c E v ds ctx,
  datasets (scDataName c) = Some E -> existsb (bytes_eqb (scUuid c)) seen = false ->
  snd (SearchStream seen datasets (mkSearchRequest (mkDatum None v :: ds) (Some c) ctx)) = Panic.
Proof.
  intros seen datasets c E v ds ctx HE HU. unfold SearchStream, AnswerSearch. cbn [srConfig srDatum srContext].
  rewrite HE, HU. destruct (scUuid c); reflexivity.
Qed.
Print Assumptions C34_no_key_refuted.

(** A dataset with one datum, no sources, no Annoy index. *)
Definition one_datum : searchEnv :=
  mkEnv insertion_sort mathlib_ex (fun _ _ => true)
    [(wire_key qk, mkEntry 0 (kv qk (mkValue 1 (bs "x"))))] (fun _ _ => 5%Z)
    (fun _ => [(wire_key qk, mkEntry 0 (kv qk (mkValue 1 (bs "x"))))])
    (fun _ => None) (fun _ => []) (fun l => l) (fun gs => gs).
Definition only (name : bytes) (E : searchEnv) (n : bytes) : option searchEnv :=
  if bytes_eqb n name then Some E else None.
Definition lim (l rl : N) : SearchConfig :=
  mkSearchConfig (bs "QuickVectorDistance") false 0 1000 l 0 (bs "db") 0 [] [] rl [] [].

Theorem C34_crash_refuted :
  let node rq := snd (SearchStream [] (only (bs "db") one_datum) rq) in
  let q := mkDatum (Some qk) None in
  node (mkSearchRequest [q] (Some (lim 0 0)) None) = Panic /\
  node (mkSearchRequest [q] (Some (lim 1 M63)) None) = Panic /\
  node (mkSearchRequest [q] (Some (lim 1 0)) (Some (mkContext [mkDatum None None] false))) = Panic.
Proof. repeat split; vm_compute; reflexivity. Qed.
Print Assumptions C34_crash_refuted.

(** What does hold: a request with config, a key in every query and context
    datum, limit >= 1 and resultLimit < 2^63 is answered, whatever arrives in
    whatever order; an unknown dataset is an error. *)
Theorem C34_complete_partial : forall seen datasets ds c ctx,
  (forall E, datasets (scDataName c) = Some E -> env_ok E) ->
  Forall datum_ok ds -> ctx_ok ctx -> 1 <= scLimit c -> scResultLimit c < M63 ->
  match datasets (scDataName c) with
  | Some _ => exists out, snd (SearchStream seen datasets (mkSearchRequest ds (Some c) ctx)) = Ok out
  | None => snd (SearchStream seen datasets (mkSearchRequest ds (Some c) ctx)) <> Panic
  end.
Proof.
  intros seen datasets ds c ctx HE Fd Cx L R. unfold SearchStream, AnswerSearch. cbn [srConfig srDatum srContext].
  destruct (datasets (scDataName c)) as [E|] eqn:D.
  - destruct (search_request_safe E c ctx ds (HE E eq_refl) Fd L R Cx) as (out & -> & _).
    destruct (scUuid c) eqn:U; [cbn; eauto|]. destruct (existsb _ seen); cbn; eauto.
  - destruct (scUuid c) eqn:U; [discriminate|]. destruct (existsb _ seen); discriminate.
Qed.
Print Assumptions C34_complete_partial.

Example C34_instance :
  env_ok one_datum /\ Forall datum_ok [mkDatum (Some qk) None] /\
  SearchStream [] (only (bs "db") one_datum)
    (mkSearchRequest [mkDatum (Some qk) None] (Some (lim 1 0)) None)
  = ([], Ok [mkScored fzero (kv qk (mkValue 1 (bs "x")))]).
Proof.
  destruct qk_ok as [A B].
  split; [|split; [repeat constructor; exists qk; auto|vm_compute; reflexivity]].
  split; [|split; [|split; [|split]]]; cbn; auto.
  - intros d b e [H|[]]. injection H as <- <-. exists qk, (mkValue 1 (bs "x")). split; auto.
    split; auto. split; auto. split.
    + split; [vm_compute; reflexivity|]. repeat constructor; vm_compute; reflexivity.
    + unfold value_fits. vm_compute. repeat split; discriminate || lia.
  - discriminate.
Qed.

(** ** C33 and C89: the handler and repeated uuids *)

(** The uuid of a request. *)
Definition rq_uuid (rq : SearchRequest) : bytes :=
  match srConfig rq with Some c => scUuid c | None => [] end.

Lemma handle_app : forall a seen b,
  HandleAll seen (a ++ b) =
  (fst (HandleAll (fst (HandleAll seen a)) b), snd (HandleAll seen a) ++ snd (HandleAll (fst (HandleAll seen a)) b)).
Proof.
  induction a as [|[ds rq] a IH]; intros seen b; cbn [HandleAll app fst snd].
  - destruct (HandleAll seen b); reflexivity.
  - destruct (SearchStream seen ds rq) as [s1 r]. rewrite IH.
    destruct (HandleAll s1 a) as [s2 rs]. reflexivity.
Qed.

Lemma stream_uuid : forall seen ds rq u,
  In u (fst (SearchStream seen ds rq)) <-> In u seen \/ (rq_uuid rq = u /\ u <> []).
Proof.
  intros seen ds rq u. unfold SearchStream, rq_uuid.
  destruct (srConfig rq) as [c|]; [|cbn; intuition congruence].
  destruct (scUuid c) as [|x l] eqn:U; [cbn; intuition congruence|].
  destruct (existsb (bytes_eqb (x :: l)) seen) eqn:E; cbn [fst].
  - apply existsb_exists in E. destruct E as (y & I & E). apply bytes_eqb_spec in E. subst y.
    split; [tauto|]. intros [H|[<- _]]; auto.
  - cbn [In]. intuition congruence.
Qed.

Lemma handle_uuid : forall rqs seen u,
  In u (fst (HandleAll seen rqs)) <-> In u seen \/ (u <> [] /\ exists p, In p rqs /\ rq_uuid (snd p) = u).
Proof.
  induction rqs as [|[ds rq] rqs IH]; intros seen u; cbn [HandleAll].
  - cbn. split; [tauto|]. intros [H|(_ & p & [] & _)]. exact H.
  - destruct (SearchStream seen ds rq) as [s1 r] eqn:S. specialize (IH s1 u).
    destruct (HandleAll s1 rqs) as [s2 rs]. cbn [fst] in *. rewrite IH.
    pose proof (stream_uuid seen ds rq u) as X. rewrite S in X. cbn [fst] in X. rewrite X.
    split.
    + intros [[H|(H1 & H2)]|(H1 & p & H2 & H3)]; [tauto| |].
      * right. split; auto. exists (ds, rq). cbn. tauto.
      * right. split; auto. exists p. cbn. tauto.
    + intros [H|(H1 & p & [<-|H2] & H3)]; [tauto|cbn in H3; tauto|]. right. split; auto. exists p. tauto.
Qed.

Lemma existsb_uuid : forall u seen, existsb (bytes_eqb u) seen = true <-> In u seen.
Proof.
  intros u seen. rewrite existsb_exists. split.
  - intros (x & I & E). apply bytes_eqb_spec in E. congruence.
  - intro I. exists u. split; auto. apply bytes_eqb_refl.
Qed.

(** C33 at the handler: in every sequence of requests, each request is answered
    by searching exactly if it has no uuid or the first request with its uuid;
    all others are answered with nothing, whatever they ask. *)
Theorem C33_handler : forall before datasets rq after,
  nth_error (snd (HandleAll [] (before ++ (datasets, rq) :: after))) (length before) =
  Some (if existsb (fun p => bytes_eqb (rq_uuid (snd p)) (rq_uuid rq)) before &&
           negb (bytes_eqb (rq_uuid rq) [])
        then Ok [] else AnswerSearch datasets rq).
Proof.
  intros before datasets rq after. rewrite handle_app. cbn [snd].
  assert (L : forall rqs seen, length (snd (HandleAll seen rqs)) = length rqs).
  { induction rqs as [|[d r] rqs IH]; intro seen; cbn [HandleAll]; auto.
    destruct (SearchStream seen d r) as [s1 x]. specialize (IH s1). destruct (HandleAll s1 rqs). cbn in *. lia. }
  rewrite nth_error_app2 by (rewrite L; auto). rewrite L, Nat.sub_diag.
  set (seen := fst (HandleAll [] before)). cbn [HandleAll].
  assert (S : snd (SearchStream seen datasets rq) =
    if existsb (fun p => bytes_eqb (rq_uuid (snd p)) (rq_uuid rq)) before && negb (bytes_eqb (rq_uuid rq) [])
    then Ok [] else AnswerSearch datasets rq).
  { unfold SearchStream. fold (rq_uuid rq). destruct (rq_uuid rq) as [|x l] eqn:U.
    - cbn [bytes_eqb negb]. rewrite andb_false_r. unfold AnswerSearch. destruct (srConfig rq); reflexivity.
    - replace (bytes_eqb (x :: l) []) with false by reflexivity. cbn [negb]. rewrite andb_true_r.
      assert (Q : existsb (bytes_eqb (x :: l)) seen = existsb (fun p => bytes_eqb (rq_uuid (snd p)) (x :: l)) before).
      { apply Bool.eq_iff_eq_true. rewrite existsb_uuid. unfold seen. rewrite handle_uuid, existsb_exists. cbn [In].
        split.
        - intros [[]|(_ & p & I & E)]. exists p. split; auto. rewrite E. apply bytes_eqb_refl.
        - intros (p & I & E). apply bytes_eqb_spec in E. right. split; [discriminate|eauto]. }
      rewrite Q. destruct (existsb _ before); reflexivity. }
  destruct (SearchStream seen datasets rq) as [s1 r]. cbn [snd] in S. subst r.
  destruct (HandleAll s1 after). reflexivity.
Qed.
Print Assumptions C33_handler.

(** C89 A query that was refused can be asked again: a request that ended with
    the error "Data does not exist. Retry recomended" is answered when it is
    sent again after the dataset was created.  Holds for requests without uuid. *)
Theorem C89_retry_partial : forall seen datasets rq seen' e mid datasets',
  srConfig rq <> None -> rq_uuid rq = [] ->
  SearchStream seen datasets rq = (seen', Err e) ->
  snd (SearchStream (fst (HandleAll seen' mid)) datasets' rq) = AnswerSearch datasets' rq.
Proof.
  intros seen datasets rq seen' e mid datasets' C U _. unfold SearchStream. fold (rq_uuid rq). rewrite U.
  destruct (srConfig rq); [reflexivity|congruence].
Qed.
Print Assumptions C89_retry_partial.

(** Refuted for requests with uuid: the uuid is recorded before the dataset is
    looked up, so the second attempt is answered with nothing and no error. *)
Theorem C89_retry_refuted :
  (forall seen datasets rq seen' e mid datasets',
     rq_uuid rq <> [] -> SearchStream seen datasets rq = (seen', Err e) ->
     snd (SearchStream (fst (HandleAll seen' mid)) datasets' rq) = Ok []) /\
  exists datasets datasets' rq, rq_uuid rq <> [] /\
    SearchStream [] datasets rq = ([rq_uuid rq], Err (bs "Data does not exist. Retry recomended")) /\
    exists x, AnswerSearch datasets' rq = Ok [x].
Proof.
  split.
  - intros seen datasets rq seen' e mid datasets' U S.
    assert (I : In (rq_uuid rq) (fst (HandleAll seen' mid))).
    { apply handle_uuid. left. pose proof (stream_uuid seen datasets rq (rq_uuid rq)) as X.
      rewrite S in X. cbn [fst] in X. apply X. right. auto. }
    unfold SearchStream. fold (rq_uuid rq). destruct (rq_uuid rq) as [|x l] eqn:E; [congruence|].
    apply existsb_uuid in I. rewrite I. reflexivity.
  - exists (fun _ => None), (only (bs "db") one_datum),
      (mkSearchRequest [mkDatum (Some qk) None]
         (Some (mkSearchConfig (bs "QuickVectorDistance") false 0 1000 1 0 (bs "db") 0 [] [] 0 [] (bs "id1"))) None).
    split; [discriminate|]. split; [vm_compute; reflexivity|]. eexists. vm_compute. reflexivity.
Qed.
Print Assumptions C89_retry_refuted.

Definition with_uuid (u : bytes) : SearchRequest :=
  mkSearchRequest [mkDatum (Some qk) None]
    (Some (mkSearchConfig (bs "QuickVectorDistance") false 0 1000 1 0 (bs "db") 0 [] [] 0 [] u)) None.
(** Five requests: only the first with each uuid, and those without, are searched. *)
Example C33_instance_handler :
  map (fun r => match r with Ok l => length l | _ => 99 end)%nat
    (snd (HandleAll [] (map (fun u => (only (bs "db") one_datum, with_uuid u))
            [bs "a"; bs "b"; bs "a"; []; []]))) = [1; 1; 0; 1; 1]%nat.
Proof. vm_compute. reflexivity. Qed.
Example C89_instance :
  srConfig (with_uuid []) <> None /\ rq_uuid (with_uuid []) = [] /\
  snd (SearchStream [] (fun _ => None) (with_uuid [])) = Err (bs "Data does not exist. Retry recomended") /\
  snd (SearchStream [] (only (bs "db") one_datum) (with_uuid [])) =
    Ok [mkScored fzero (kv qk (mkValue 1 (bs "x")))].
Proof. split; [discriminate|]. vm_compute. auto. Qed.
