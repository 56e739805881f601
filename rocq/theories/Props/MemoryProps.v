(** C171: answers of old queries are forgotten. *)
From Verif.Base Require Import GoBase GoLemmas Assoc Float.
From Verif.Model Require Import Codec Data Search QueryCache.
From Verif.Spec Require Import Wire Text CacheSpec MemorySpec.
From Verif.Proof Require Import QueryCacheP.
From Verif.Props Require Import QueryProps.
From Coq Require Import Lia.
Open Scope N_scope.

(** A query of the key at the time t or later. *)
Definition key_since (t : Z) (key : bytes) (e : qevent) : Prop :=
  query_since t e = true /\
  match e with
  | EvTouch _ k c | EvFinish _ k c _ _ => GetSearchKey (Some (mkDatum (Some k) None)) c = Ok key
  | _ => False
  end.

Definition span (D : N) : Z := (Z.of_N D * 1000000000)%Z.

Lemma span_duration : forall D c, (span D < 9223372036854775808)%Z -> scCacheDuration c <= D ->
  cache_duration c = (Z.of_N (scCacheDuration c) * 1000000000)%Z /\ (cache_duration c <= span D)%Z.
Proof.
  intros D c H L. unfold span in *. unfold cache_duration. rewrite u64_small by (unfold M64; lia).
  destruct (Z.ltb_spec (Z.of_N (scCacheDuration c * 1000000000)) 9223372036854775808); lia.
Qed.

Definition cached_since (D : N) (P : qevent -> Prop) (q : qstate) : Prop :=
  mwf (qCache q) /\ forall key i, mload (qCache q) key = Some i ->
  (0 < ciExpires i)%Z /\ exists e, P e /\ key_since (ciExpires i - span D) key e.

Lemma cached_step : forall D (P : qevent -> Prop) q e q' o, (span D < 9223372036854775808)%Z -> durations_upto D e -> time_ok e ->
  P e -> cached_since D P q -> qstep true q e = Ok (q', o) -> cached_since D P q'.
Proof.
  intros D P q e q' o SP DU TO PE (W & A) H.
  destruct e as [now k c|now k c|now k c rs late|a x|key]; cbn [qstep] in H.
  - destruct (GetSearchKey _ c) as [key| |]; cbn [bind] in H; try discriminate H.
    destruct (0 <? scCacheDuration c); [|injection H as <- _; split; assumption].
    destruct (CacheGet now q key) as [i|]; [|injection H as <- _; split; assumption].
    destruct (CloneResult _ _) as [[h l]| |]; cbn [bind] in H; try discriminate H.
    destruct (load_cells h l) as [xs| |]; cbn [bind] in H; try discriminate H. injection H as <- _. split; assumption.
  - destruct (GetSearchKey _ c) as [key| |] eqn:GK; cbn [bind] in H; try discriminate H.
    destruct (CacheGet now q key) as [i|] eqn:CG; [|injection H as <- _; split; assumption]. injection H as <- _.
    unfold CacheGet in CG. destruct (mload (qCache q) key) as [i0|] eqn:L; [|discriminate CG].
    destruct (alive_at now i0); [|discriminate CG]. injection CG as <-.
    split; cbn [qCache]; [apply mstore_wf, W|]. intros key' i'. rewrite mload_mstore.
    destruct (bytes_eqb key key') eqn:B; [|apply A]. apply bytes_eqb_spec in B. subst key'. intro E. injection E as <-.
    destruct (A key i0 L) as (X & _). unfold touch. cbn [ciExpires]. cbn in DU, TO.
    destruct (Z.eqb_spec (ciExpires i0) 0); [lia|]. pose proof (span_duration D c SP DU). split; [lia|].
    exists (EvTouch now k c). split; [exact PE|]. split; [|exact GK]. cbn. apply Z.leb_le. lia.
  - destruct (GetSearchKey _ c) as [key| |] eqn:GK; cbn [bind] in H; try discriminate H.
    destruct (alloc_cells _ rs) as [h l]. destruct (CloneResult h l) as [[h2 cp]| |]; cbn [bind] in H; try discriminate H.
    destruct (load_cells h2 l) as [xs| |]; cbn [bind] in H; try discriminate H. injection H as <- _.
    unfold cached_since. cbn [qCache]. destruct (0 <? scCacheDuration c) eqn:Z0; [|split; assumption].
    split; [apply mstore_wf, W|]. intros key' i'. rewrite mload_mstore.
    destruct (bytes_eqb key key') eqn:B; [|apply A]. apply bytes_eqb_spec in B. subst key'. intro E. injection E as <-.
    cbn in DU, TO. pose proof (span_duration D c SP DU). cbn [ciExpires]. unfold expiry_of.
    assert (XB : (0 < (if (cache_duration c =? 0)%Z then now + 300000000000 else if (0 <? cache_duration c)%Z then now + cache_duration c else 0) <= now + span D)%Z).
    { apply N.ltb_lt in Z0. unfold span in *. destruct (Z.eqb_spec (cache_duration c) 0); [lia|]. destruct (Z.ltb_spec 0 (cache_duration c)); lia. }
    split; [lia|]. exists (EvFinish now k c rs late). split; [exact PE|]. split; [|exact GK]. cbn. apply Z.leb_le. lia.
  - destruct (existsb _ _); [|injection H as <- _; split; assumption].
    destruct (list_set _ a x); [|discriminate H]. injection H as <- _. split; assumption.
  - injection H as <- _. split; cbn [qCache]; [apply mdelete_wf, W|]. intros key' i'. rewrite mload_mdelete.
    destruct (bytes_eqb key key'); [discriminate|apply A].
Qed.

Lemma cached_run : forall D (P : qevent -> Prop) es q q', (span D < 9223372036854775808)%Z ->
  Forall (durations_upto D) es -> Forall time_ok es -> (forall e, In e es -> P e) ->
  cached_since D P q -> qrun true q es = Ok q' -> cached_since D P q'.
Proof.
  intros D P. induction es as [|e es IH]; intros q q' SP DU TO PE C R; cbn [qrun] in R.
  - injection R as <-. exact C.
  - destruct (qstep true q e) as [[q1 o]| |] eqn:E; cbn [bind] in R; try discriminate R.
    inversion DU; subst. inversion TO; subst.
    eapply IH; [exact SP|assumption|assumption|intros; apply PE; right; assumption| |exact R].
    eapply cached_step; [exact SP|eassumption|eassumption|apply PE; left; reflexivity|exact C|exact E].
Qed.

Lemma cached_empty : forall D P, cached_since D P q_empty.
Proof. intros D P. split; [constructor|intros key i L; discriminate L]. Qed.

(** C171 A query that is answered from memory was asked before, at most its cache duration
    ago - at the last asking it was executed or answered from memory.  The durations asked for
    are at most D seconds, which is below 2^63 nanoseconds, and asking again sets the
    expiration anew.  Missing: longer durations, and an IncrementExpiration that adds to the old
    expiration, refuted below. *)
Theorem C171_forgotten_partial : forall D es q now k c q' rs,
  (span D < 9223372036854775808)%Z -> Forall (durations_upto D) es -> Forall time_ok es -> Forall event_ok es -> query_ok k c ->
  qrun true q_empty es = Ok q -> qstep true q (EvLookup now k c) = Ok (q', Some rs) ->
  exists e, In e es /\ query_since (now - span D) e = true /\
    match e with EvTouch _ k' c' | EvFinish _ k' c' _ _ => k' = k /\ same_config c' c | _ => False end.
Proof.
  intros D es q now k c q' rs SP DU TO EO QO R H.
  destruct (cached_run D (fun e => In e es) es q_empty q SP DU TO (fun e X => X) (cached_empty _ _) R) as (_ & A).
  cbn [qstep] in H. destruct (GetSearchKey _ c) as [key| |] eqn:GK; cbn [bind] in H; try discriminate H.
  destruct (0 <? scCacheDuration c); [|discriminate H]. destruct (CacheGet now q key) as [i|] eqn:CG; [|discriminate H]. clear H.
  unfold CacheGet in CG. destruct (mload (qCache q) key) as [i0|] eqn:L; [|discriminate CG].
  destruct (alive_at now i0) eqn:AL; [|discriminate CG]. injection CG as <-.
  destruct (A key i0 L) as (X & e & IN & QS & GE). exists e. split; [exact IN|].
  unfold alive_at in AL. apply Bool.orb_true_iff in AL. rewrite Z.eqb_eq, Z.leb_le in AL.
  rewrite Forall_forall in EO. pose proof (EO e IN) as EOe.
  destruct e as [n k' c'|n k' c'|n k' c' rs' late|a x|ky]; try contradiction GE; cbn in QS, EOe |- *; apply Z.leb_le in QS;
    (split; [apply Z.leb_le; lia|]);
    rewrite search_key in GK, GE by (apply QO || apply EOe); apply query_key_inj; auto; congruence.
Qed.
Print Assumptions C171_forgotten_partial.

Definition key_of_query (e : qevent) : bytes :=
  match e with
  | EvTouch _ k c | EvFinish _ k c _ _ => match GetSearchKey (Some (mkDatum (Some k) None)) c with Ok key => key | _ => [] end
  | _ => []
  end.

(** So the memory is bounded by the recent queries: after the janitor has been through at the
    time p, the dataset keeps at most one answer for every query since D seconds before p. *)
Theorem C171_memory_partial : forall D es1 p q es2 q',
  (span D < 9223372036854775808)%Z -> Forall (durations_upto D) (es1 ++ es2) -> Forall time_ok (es1 ++ es2) ->
  qrun true q_empty es1 = Ok q -> swept p q -> Forall (not_before p) es2 -> qrun true q es2 = Ok q' ->
  (length (qCache q') <= length (filter (query_since (p - span D)) (es1 ++ es2)))%nat.
Proof.
  intros D es1 p q es2 q' SP DU TO R1 SW NB R2. apply Forall_app in DU, TO. destruct DU as [DU1 DU2], TO as [TO1 TO2].
  pose proof (cached_run D (fun e => In e es1) es1 q_empty q SP DU1 TO1 (fun e X => X) (cached_empty _ _) R1) as (W & A).
  assert (SPN : (0 <= span D)%Z) by (unfold span; lia).
  assert (C : cached_since D (fun e => In e (es1 ++ es2) /\ not_before (p - span D) e) q).
  { split; [exact W|]. intros key i L. destruct (A key i L) as (X & e & IN & QS & GE). split; [exact X|]. exists e.
    split; [|split; assumption]. split; [apply in_or_app; left; exact IN|].
    pose proof (SW key i (mload_in _ _ _ L)) as AL. unfold alive_at in AL. apply Bool.orb_true_iff in AL. rewrite Z.eqb_eq, Z.leb_le in AL.
    destruct e; try contradiction GE; cbn in QS |- *; apply Z.leb_le in QS; lia. }
  assert (PE : forall e, In e es2 -> In e (es1 ++ es2) /\ not_before (p - span D) e).
  { intros e IN. split; [apply in_or_app; right; exact IN|]. rewrite Forall_forall in NB. pose proof (NB e IN) as X.
    destruct e; cbn in *; try exact I; lia. }
  destruct (cached_run D _ es2 q q' SP DU2 TO2 PE C R2) as (W' & A').
  replace (length (qCache q')) with (length (mkeys (qCache q'))) by (unfold mkeys; apply map_length).
  rewrite <- (map_length key_of_query). apply NoDup_incl_length; [exact W'|].
  intros key IN. destruct (mload (qCache q') key) as [i|] eqn:L; [|apply mload_none in L; contradiction].
  destruct (A' key i L) as (_ & e & (IN2 & NB2) & _ & GE). apply in_map_iff. exists e. split.
  - destruct e; try contradiction GE; cbn; rewrite GE; reflexivity.
  - apply filter_In. split; [exact IN2|]. destruct e; try contradiction GE; cbn in *; apply Z.leb_le; exact NB2.
Qed.
Print Assumptions C171_memory_partial.

(** Three queries in the first seconds, the janitor, one more query: the memory holds the last one. *)
Definition early : list qevent :=
  [EvFinish 1000000000 qk (qc 1 []) [qr] false; EvFinish 2000000000 qk (qc 2 []) [qr] false;
   EvTouch 2500000000 qk (qc 2 []);
   EvPurge (match GetSearchKey (Some (mkDatum (Some qk) None)) (qc 1 []) with Ok key => key | _ => [] end)].
Definition late_one : list qevent := [EvFinish 4500000000 qk (qc 1 []) [] false].

Example C171_instance :
  (span 2 < 9223372036854775808)%Z /\ Forall (durations_upto 2) (early ++ late_one) /\ Forall time_ok (early ++ late_one) /\
  qrun true q_empty early = Ok (q_after true early) /\ swept 4200000000 (q_after true early) /\
  Forall (not_before 4200000000) late_one /\ qrun true (q_after true early) late_one = Ok (q_after true (early ++ late_one)) /\
  length (qCache (q_after true (early ++ late_one))) = 2%nat /\
  length (filter (query_since (4200000000 - span 2)) (early ++ late_one)) = 2%nat /\
  (exists q2, qstep true (q_after true early) (EvLookup 4400000000 qk (qc 2 [])) = Ok (q2, Some [qr])) /\
  qstep true (q_after true early) (EvLookup 4600000000 qk (qc 2 [])) = Ok (q_after true early, None).
Proof.
  split; [vm_compute; reflexivity|].
  split; [repeat (constructor; [first [exact I|vm_compute; discriminate]|]); constructor|].
  split; [repeat (constructor; [first [exact I|vm_compute; reflexivity]|]); constructor|].
  split; [vm_compute; reflexivity|]. split.
  { intros key i H. vm_compute in H. destruct H as [H|[]]. injection H as _ <-. reflexivity. }
  split; [repeat (constructor; [vm_compute; discriminate|]); constructor|].
  split; [vm_compute; reflexivity|]. split; [vm_compute; reflexivity|]. split; [vm_compute; reflexivity|]. split; [|vm_compute; reflexivity].
  exists (the_q (qstep true (q_after true early) (EvLookup 4400000000 qk (qc 2 [])))). vm_compute. reflexivity.
Qed.

Example C171_instance_forgotten : Forall event_ok early /\ query_ok qk (qc 2 []) /\ Forall (durations_upto 2) early /\
  Forall time_ok early /\ query_since (4400000000 - span 2) (EvTouch 2500000000 qk (qc 2 [])) = true /\
  query_since (4600000000 - span 2) (EvTouch 2500000000 qk (qc 2 [])) = false.
Proof.
  assert (Q1 : query_ok qk (qc 1 [])) by (apply qc_ok; unfold M64; lia).
  assert (Q2 : query_ok qk (qc 2 [])) by (apply qc_ok; unfold M64; lia).
  split; [constructor; [exact Q1|]; constructor; [exact Q2|]; constructor; [exact Q2|]; constructor; [exact I|constructor]|].
  split; [exact Q2|]. split; [repeat (constructor; [first [exact I|vm_compute; discriminate]|]); constructor|].
  split; [repeat (constructor; [first [exact I|vm_compute; reflexivity]|]); constructor|]. split; reflexivity.
Qed.

(** C171 refuted: an answer that is to be cached for 2^63 nanoseconds or more is kept for ever. *)
Theorem C171_forever_refuted : exists c es q key i, config_ok c /\ Forall event_ok es /\ Forall time_ok es /\
  es = [EvFinish 1000000000 qk c [qr] false] /\ qrun true q_empty es = Ok q /\ mload (qCache q) key = Some i /\
  (forall now, alive_at now i = true) /\ forall now, exists q', qstep true q (EvLookup now qk c) = Ok (q', Some [qr]).
Proof.
  pose (c := qc 9223372037 []). pose (es := [EvFinish 1000000000 qk c [qr] false]).
  assert (QO : query_ok qk c) by (apply qc_ok; unfold M64; lia).
  exists c, es, (q_after true es), (match GetSearchKey (Some (mkDatum (Some qk) None)) c with Ok key => key | _ => [] end), (mkItem [1%nat] 0).
  split; [apply QO|]. split; [constructor; [exact QO|constructor]|]. split; [repeat constructor|]. split; [reflexivity|].
  split; [vm_compute; reflexivity|]. split; [vm_compute; reflexivity|]. split; [reflexivity|].
  intro now. exists (the_q (qstep true (q_after true es) (EvLookup now qk c))).
  assert (GK : exists key, GetSearchKey (Some (mkDatum (Some qk) None)) c = Ok key /\ mload (qCache (q_after true es)) key = Some (mkItem [1%nat] 0)).
  { exists (match GetSearchKey (Some (mkDatum (Some qk) None)) c with Ok key => key | _ => [] end). split; vm_compute; reflexivity. }
  destruct GK as (key & GK & L). cbn [qstep]. rewrite GK. cbn [bind]. replace (0 <? scCacheDuration c) with true by (vm_compute; reflexivity).
  unfold CacheGet. rewrite L. cbn [alive_at ciExpires Z.eqb orb].
  vm_compute. reflexivity.
Qed.
Print Assumptions C171_forever_refuted.

(** C171 refuted if IncrementExpiration adds to the old expiration (its source is not part of the
    repository): queries within one second, all with a cache duration of one second, keep an answer
    beyond any time. *)
Lemma piled : forall key n h l o x, GetSearchKey (Some (mkDatum (Some qk) None)) (qc 1 []) = Ok key -> (1500000000 <= x)%Z ->
  qrun false (mkQ h [(key, mkItem l x)] o) (repeat (EvTouch 1500000000 qk (qc 1 [])) n) =
  Ok (mkQ h [(key, mkItem l (x + Z.of_nat n * 1000000000))] o).
Proof.
  intros key n. induction n as [|n IH]; intros h l o x GK X.
  - cbn [repeat qrun]. replace (x + Z.of_nat 0 * 1000000000)%Z with x by lia. reflexivity.
  - cbn [repeat qrun qstep]. rewrite GK. cbn [bind]. unfold CacheGet. cbn [qCache mload].
    assert (B : bytes_eqb key key = true) by (apply bytes_eqb_spec; reflexivity). rewrite B.
    assert (AL : alive_at 1500000000 (mkItem l x) = true).
    { unfold alive_at. cbn [ciExpires]. apply Bool.orb_true_iff. right. apply Z.leb_le. exact X. }
    rewrite AL. unfold mstore. cbn [mdelete]. rewrite B. cbn [bind qHeap qOut].
    replace (touch false 1500000000 (cache_duration (qc 1 [])) (mkItem l x)) with (mkItem l (x + 1000000000)).
    2: { unfold touch. cbn [ciExpires ciAddrs]. replace (x =? 0)%Z with false by (symmetry; apply Z.eqb_neq; lia). reflexivity. }
    replace (x + Z.of_nat (S n) * 1000000000)%Z with (x + 1000000000 + Z.of_nat n * 1000000000)%Z by lia.
    apply IH; [exact GK|lia].
Qed.

Theorem C171_piled_refuted : forall t, exists es q, Forall event_ok es /\
  Forall (fun e => durations_upto 1 e /\ not_before 1000000000 e /\ query_since 1500000001 e = false) es /\
  qrun false q_empty es = Ok q /\ exists q', qstep false q (EvLookup t qk (qc 1 [])) = Ok (q', Some [qr]).
Proof.
  intro t. pose (n := Z.to_nat t). pose (f := EvFinish 1000000000 qk (qc 1 []) [qr] false).
  assert (QO : query_ok qk (qc 1 [])) by (apply qc_ok; unfold M64; lia).
  pose (key := match GetSearchKey (Some (mkDatum (Some qk) None)) (qc 1 []) with Ok key => key | _ => [] end).
  assert (GK : GetSearchKey (Some (mkDatum (Some qk) None)) (qc 1 []) = Ok key) by (vm_compute; reflexivity).
  exists (f :: repeat (EvTouch 1500000000 qk (qc 1 [])) n), (mkQ [qr; qr] [(key, mkItem [1%nat] (2000000000 + Z.of_nat n * 1000000000))] [0%nat]).
  split. { constructor; [exact QO|]. apply Forall_forall. intros e I. apply repeat_spec in I. subst e. exact QO. }
  split. { constructor; [split; [vm_compute; discriminate|split; [vm_compute; discriminate|reflexivity]]|].
    apply Forall_forall. intros e I. apply repeat_spec in I. subst e. split; [vm_compute; discriminate|split; [vm_compute; discriminate|reflexivity]]. }
  split.
  { cbn [qrun]. replace (qstep false q_empty f) with (Ok (mkQ [qr; qr] [(key, mkItem [1%nat] 2000000000)] [0%nat], Some [qr])) by (vm_compute; reflexivity).
    cbn [bind]. apply piled; [exact GK|lia]. }
  exists (mkQ [qr; qr; qr] [(key, mkItem [1%nat] (2000000000 + Z.of_nat n * 1000000000))] [0%nat; 2%nat]).
  cbn [qstep]. rewrite GK. cbn [bind]. replace (0 <? scCacheDuration (qc 1 [])) with true by (vm_compute; reflexivity).
  unfold CacheGet. cbn [qCache mload]. assert (B : bytes_eqb key key = true) by (apply bytes_eqb_spec; reflexivity). rewrite B.
  assert (AL : alive_at t (mkItem [1%nat] (2000000000 + Z.of_nat n * 1000000000)) = true).
  { unfold alive_at. cbn [ciExpires]. apply Bool.orb_true_iff. right. apply Z.leb_le. unfold n. lia. }
  rewrite AL. reflexivity.
Qed.
Print Assumptions C171_piled_refuted.
