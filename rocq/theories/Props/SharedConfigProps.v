(** Properties C82 and C83: the configuration that the goroutines of a query share. *)
From Verif.Base Require Import GoBase GoLemmas Assoc Float.
From Verif.Model Require Import Codec Store Data Vector Search Json QueryCache SharedConfig.
From Verif.Spec Require Import Wire StoreSpec CacheSpec.
From Verif.Proof Require Import QueryCacheP SharedConfigP.
From Verif.Props Require Import QueryProps.
From Coq Require Import Lia.
Open Scope N_scope.

(** The time that the caller asks for, in nanoseconds. *)
Definition asked (c : SearchConfig) : Z := (Z.of_N (scTimeout c) * 1000000)%Z.

Lemma time_limit_exact : forall t, t <= 9223372036854 -> time_limit t = (Z.of_N t * 1000000)%Z.
Proof.
  intros t H. unfold time_limit, i64_of_u64.
  assert (I : forall z, (0 <= z < 9223372036854775808)%Z -> i64 z = z).
  { intros z Hz. unfold i64. rewrite Z.mod_small; lia. }
  rewrite (I (Z.of_N t)) by lia. apply I. lia.
Qed.

(** C82 Every query vector gets the time that was asked for.  Without overflow
    (timeouts up to 2^63/10^6 ms): no vector of the query gets more than was asked
    for, the only vector of a query gets exactly that, and one of n vectors gets at
    least what n-1 shrinkings leave, in every interleaving. *)
Theorem C82_time_partial : forall undef c ds s g l,
  scTimeout c <= 9223372036854 ->
  vruns undef (query_start c ds) s -> In g (snd s) -> given_time g = Some l ->
  (Z.of_N (Nat.iter (length ds - 1) (ShrinkTimeout undef) (scTimeout c)) * 1000000 <= l <= asked c)%Z /\
  (length ds = 1%nat -> l = asked c).
Proof.
  intros undef c ds s g l H R Hg E.
  destruct (vruns_inv undef c _ _ R (vinv_start undef c ds)) as [_ F].
  apply in_split in Hg. destruct Hg as (gs1 & gs2 & Hg).
  destruct (F gs1 g gs2 Hg) as (A & _). destruct (A l E) as (j & Lj & ->).
  assert (Ln : (length gs1 + S (length gs2) = length ds)%nat).
  { pose proof (vruns_data undef _ _ R) as D. rewrite Hg in D. cbn [query_start snd] in D.
    apply (f_equal (@length _)) in D. rewrite !map_length, app_length in D. cbn [length] in D. exact D. }
  assert (Lw : (written gs1 + written gs2 <= length ds - 1)%nat).
  { pose proof (written_le gs1). pose proof (written_le gs2). lia. }
  assert (HM : scTimeout c < M64) by (unfold M64; lia).
  pose proof (left_le undef j _ HM) as L1.
  pose proof (left_mono undef j (length ds - 1) _ HM ltac:(lia)) as L2.
  rewrite time_limit_exact by lia. unfold asked. split; [lia|].
  intro E1. assert (j = 0%nat) by lia. subst j. reflexivity.
Qed.
Print Assumptions C82_time_partial.

(** False for several vectors: each goroutine shrinks the timeout that the others
    use.  Whatever the timeout, with enough vectors one of them gets no time at
    all. *)
Theorem C82_time_refuted : forall undef c k, query_ok k c ->
  exists ds s g,
    Forall (fun d => dkey d = Some k) ds /\ vruns undef (query_start c ds) s /\ In g (snd s) /\
    given_time g = Some 0%Z.
Proof.
  intros undef c k (K1 & K2 & K3).
  assert (HM : scTimeout c < M64) by apply K3.
  set (d := mkDatum (Some k) None).
  assert (Key : forall c', exists b, GetSearchKey (Some d) c' = Ok b).
  { intro c'. eexists. apply search_key; auto. }
  assert (Chain : forall n c gs, exists done,
            length done = n /\
            vruns undef (c, gs ++ map VStart (repeat d n))
              (with_timeout c (Nat.iter n (ShrinkTimeout undef) (scTimeout c)), gs ++ done)).
  { clear c K3 HM. induction n as [|n IH]; intros c gs.
    - exists []. split; auto. cbn. rewrite with_timeout_same. apply vr_refl.
    - destruct (Key c) as (b & Eb).
      destruct (IH (with_timeout c (ShrinkTimeout undef (scTimeout c)))
                  (gs ++ [VRuns d (time_limit (scTimeout c)) b])) as (done & Ld & R).
      exists (VRuns d (time_limit (scTimeout c)) b :: done). split; [cbn; lia|].
      cbn [repeat map]. eapply vruns_trans.
      + eapply (one_goroutine undef c d b gs (map VStart (repeat d n)) Eb).
      + rewrite <- !app_assoc in R. cbn [app] in R. rewrite with_timeout_twice in R.
        cbn [scTimeout with_timeout] in R.
        replace (Nat.iter (S n) (ShrinkTimeout undef) (scTimeout c))
          with (Nat.iter n (ShrinkTimeout undef) (ShrinkTimeout undef (scTimeout c))); [exact R|].
        clear. induction n as [|n IH]; auto. cbn [Nat.iter nat_rect] in *.
        change (ShrinkTimeout undef (Nat.iter n (ShrinkTimeout undef) (ShrinkTimeout undef (scTimeout c)))
          = ShrinkTimeout undef (Nat.iter (S n) (ShrinkTimeout undef) (scTimeout c))).
        f_equal. exact IH. }
  set (n := N.to_nat (scTimeout c)).
  exists (repeat d (S n)).
  destruct (Chain n c []) as (done & Ld & R). cbn [app] in R.
  set (c' := with_timeout c (Nat.iter n (ShrinkTimeout undef) (scTimeout c))) in *.
  destruct (Key c') as (b & Eb).
  exists (with_timeout c' (ShrinkTimeout undef (scTimeout c')), done ++ [VRuns d (time_limit (scTimeout c')) b]).
  exists (VRuns d (time_limit (scTimeout c')) b). split; [|split; [|split]].
  - apply Forall_forall. intros x Hx. apply repeat_spec in Hx. subst. reflexivity.
  - unfold query_start. replace (S n) with (n + 1)%nat by lia. rewrite repeat_app, map_app. cbn [repeat map].
    eapply vruns_trans; [apply (vruns_frame undef _ _ R [VStart d])|].
    eapply (one_goroutine undef c' d b done [] Eb).
  - apply in_or_app. right. left. reflexivity.
  - cbn [given_time]. unfold c'. rewrite with_timeout_timeout. unfold n.
    rewrite left_reaches_zero by auto. reflexivity.
Qed.
Print Assumptions C82_time_refuted.

(** ... and a timeout of 2^63/10^6 ms or a little more is no time at all, even for
    one vector. *)
Theorem C82_overflow_refuted : forall undef, exists c s g l,
  query_ok qk c /\ vruns undef (query_start c [mkDatum (Some qk) None]) s /\ In g (snd s) /\ given_time g = Some l /\ (l < 0 < asked c)%Z.
Proof.
  intro undef. pose (c := with_timeout (qc 0 []) 9223372036855). pose (d := mkDatum (Some qk) None).
  exists c, (c, [VTimed d (time_limit 9223372036855)]), (VTimed d (time_limit 9223372036855)),
    (time_limit 9223372036855).
  split.
  { destruct (qc_ok 0 []) as (A & B & C); [unfold M64; lia|]. split; [exact A|]. split; [exact B|].
    unfold config_ok in *. cbn [c with_timeout qc scScoreFuncName scDataName scGroupScoreFuncName scFilters
      scGroupFilters scTimestamp scTimeout scLimit scCacheDuration scGroupLimit scResultLimit] in *.
    unfold is_u64, M64 in *. intuition lia. }
  split.
  { apply (vr_step undef c [] (VStart d) [] c (VTimed d (time_limit 9223372036855))); [apply v_timed|apply vr_refl]. }
  split; [left; auto|]. split; [reflexivity|]. split; [vm_compute; reflexivity|vm_compute; reflexivity].
Qed.
Print Assumptions C82_overflow_refuted.

(** Two vectors, timeout 1000 ms: the second gets 900 ms. *)
Example C82_instance : exists s,
  vruns 0 (query_start (qc 0 []) [mkDatum (Some qk) None; mkDatum (Some qk) None]) s /\
  map given_time (snd s) = [Some 900000000%Z; Some 1000000000%Z] /\ scTimeout (fst s) = 810.
Proof.
  destruct (proj1 qk_ok, proj2 qk_ok) as [K1 K2].
  eexists. split.
  - eapply vruns_trans.
    + eapply (one_goroutine 0 (qc 0 []) _ _ [VStart (mkDatum (Some qk) None)] []). apply search_key; auto.
    + eapply (one_goroutine 0 (with_timeout (qc 0 []) 900) _ _ []). apply search_key; auto.
  - split; vm_compute; reflexivity.
Qed.

(** C83 A repeated query uses the same cache keys.  For one vector (or no timeout
    at all) the key is the same in every execution, whatever the uuid. *)
Theorem C83_repeated_partial : forall undef k c c' ds s s' g g' b b',
  query_ok k c -> same_config c c' -> Forall (fun d => d = mkDatum (Some k) None) ds ->
  (length ds = 1%nat \/ scTimeout c = 0) ->
  vruns undef (query_start c ds) s -> vruns undef (query_start c' ds) s' ->
  In g (snd s) -> In g' (snd s') -> cache_key g = Some b -> cache_key g' = Some b' -> b = b'.
Proof.
  intros undef k c c' ds s s' g g' b b' Q S F One R R' Hg Hg' E E'.
  assert (Gen : forall c s g b, scTimeout c = scTimeout c -> (length ds = 1%nat \/ scTimeout c = 0) ->
    vruns undef (query_start c ds) s -> In g (snd s) -> cache_key g = Some b ->
    GetSearchKey (Some (mkDatum (Some k) None)) c = Ok b).
  { clear -F. intros c s g b _ One R Hg E.
    destruct (vruns_inv undef c _ _ R (vinv_start undef c ds)) as [_ I].
    pose proof (vruns_data undef _ _ R) as D. cbn [query_start snd] in D. rewrite map_map in D.
    cbn [v_datum] in D. rewrite map_id in D.
    assert (Hd : In (v_datum g) ds) by (rewrite <- D; apply in_map; auto).
    rewrite Forall_forall in F. apply F in Hd.
    apply in_split in Hg. destruct Hg as (gs1 & gs2 & Hg).
    destruct (I gs1 g gs2 Hg) as (_ & B & _). destruct (B b E) as (j & Lj & Eb).
    rewrite Hd in Eb.
    assert (T : Nat.iter j (ShrinkTimeout undef) (scTimeout c) = scTimeout c).
    { destruct One as [One|Z].
      - rewrite Hg in D. apply (f_equal (@length _)) in D. rewrite map_length, app_length in D. cbn [length] in D.
        pose proof (written_le gs1). pose proof (written_le gs2). assert (j = 0%nat) by lia. subst j. reflexivity.
      - rewrite Z. assert (H : 0 < M64) by (unfold M64; lia).
        pose proof (left_le undef j 0 H). lia. }
    rewrite T, with_timeout_same in Eb. exact Eb. }
  assert (K : GetSearchKey (Some (mkDatum (Some k) None)) c = Ok b) by (eapply Gen; eauto).
  assert (K' : GetSearchKey (Some (mkDatum (Some k) None)) c' = Ok b').
  { eapply Gen; eauto. destruct One as [|Z]; auto. right. destruct S as (_ & _ & _ & E4 & _). congruence. }
  destruct Q as (Q1 & Q2 & _). rewrite search_key in K, K' by auto.
  rewrite (same_config_encode _ _ S) in K. congruence.
Qed.
Print Assumptions C83_repeated_partial.

(** False for two different vectors and any timeout: one execution starts with one
    vector, the next with the other, and none of the keys of the first execution
    is looked up in the second. *)
Theorem C83_repeated_refuted : forall undef k1 k2 c, query_ok k1 c -> query_ok k2 c -> k1 <> k2 ->
  0 < scTimeout c ->
  let ds := [mkDatum (Some k1) None; mkDatum (Some k2) None] in
  exists s s',
    vruns undef (query_start c ds) s /\ vruns undef (query_start c ds) s' /\
    Forall (fun g => v_done g = true) (snd s) /\ Forall (fun g => v_done g = true) (snd s') /\
    forall g g', In g (snd s) -> In g' (snd s') -> cache_key g <> cache_key g'.
Proof.
  intros undef k1 k2 c Q1 Q2 NE T0 ds.
  pose proof Q1 as (A1 & A2 & A3). pose proof Q2 as (B1 & B2 & _).
  assert (HM : scTimeout c < M64) by apply A3.
  set (c' := with_timeout c (ShrinkTimeout undef (scTimeout c))).
  pose proof (shrink_timeout undef (scTimeout c) (conj T0 HM)) as Lt.
  assert (C' : config_ok c').
  { unfold config_ok, is_u64 in *. cbn. fold M64. unfold is_u64. intuition. lia. }
  assert (Ne : forall ka kb, query_ok ka c -> query_ok kb c' ->
            wire_key ka ++ EncodeSearchConfig c <> wire_key kb ++ EncodeSearchConfig c').
  { intros ka kb Qa Qb E.
    pose proof (C30_key_injective ka c kb c' (wire_key ka ++ EncodeSearchConfig c) Qa Qb) as X.
    destruct Qa as (a1 & a2 & _), Qb as (b1 & b2 & _).
    rewrite !search_key in X by auto. specialize (X eq_refl). rewrite <- E in X.
    destruct (proj1 X eq_refl) as [_ (_ & _ & _ & E4 & _)]. cbn in E4. lia. }
  assert (Nk : forall c0, query_ok k1 c0 -> query_ok k2 c0 ->
            wire_key k1 ++ EncodeSearchConfig c0 <> wire_key k2 ++ EncodeSearchConfig c0).
  { intros c0 Qa Qb E.
    pose proof (C30_key_injective k1 c0 k2 c0 (wire_key k1 ++ EncodeSearchConfig c0) Qa Qb) as X.
    rewrite !search_key in X by auto. specialize (X eq_refl). rewrite <- E in X.
    destruct (proj1 X eq_refl) as [X1 _]. auto. }
  assert (Q1' : query_ok k1 c') by (split; auto). assert (Q2' : query_ok k2 c') by (split; auto).
  set (d1 := mkDatum (Some k1) None) in *. set (d2 := mkDatum (Some k2) None) in *.
  set (c2 := with_timeout c' (ShrinkTimeout undef (scTimeout c'))).
  exists (c2, [VRuns d1 (time_limit (scTimeout c)) (wire_key k1 ++ EncodeSearchConfig c);
               VRuns d2 (time_limit (scTimeout c')) (wire_key k2 ++ EncodeSearchConfig c')]).
  exists (c2, [VRuns d1 (time_limit (scTimeout c')) (wire_key k1 ++ EncodeSearchConfig c');
               VRuns d2 (time_limit (scTimeout c)) (wire_key k2 ++ EncodeSearchConfig c)]).
  split; [|split; [|split; [|split]]].
  - eapply vruns_trans.
    + eapply (one_goroutine undef c d1 _ [] [VStart d2]). apply search_key; auto.
    + eapply (one_goroutine undef c' d2 _ [VRuns d1 _ _] []). apply search_key; auto.
  - eapply vruns_trans.
    + eapply (one_goroutine undef c d2 _ [VStart d1] []). apply search_key; auto.
    + eapply (one_goroutine undef c' d1 _ [] [VRuns d2 _ _]). apply search_key; auto.
  - repeat constructor.
  - repeat constructor.
  - cbn [snd]. intros g g' [<-|[<-|[]]] [<-|[<-|[]]]; cbn [cache_key]; intro E; injection E as E.
    + eapply Ne; [| |exact E]; auto.
    + eapply Nk; [| |exact E]; auto.
    + symmetry in E. eapply (Nk c'); [| |exact E]; auto.
    + symmetry in E. eapply Ne; [| |exact E]; auto.
Qed.
Print Assumptions C83_repeated_refuted.

Example C83_instance : exists s s' b,
  vruns 0 (query_start (qc 1 []) [mkDatum (Some qk) None]) s /\
  vruns 0 (query_start (qc 1 (bs "other")) [mkDatum (Some qk) None]) s' /\
  map cache_key (snd s) = [Some b] /\ map cache_key (snd s') = [Some b].
Proof.
  destruct (proj1 qk_ok, proj2 qk_ok) as [K1 K2].
  eexists. eexists. eexists. split; [|split; [|split]].
  - eapply (one_goroutine 0 (qc 1 []) _ _ [] []). apply search_key; auto.
  - eapply (one_goroutine 0 (qc 1 (bs "other")) _ _ [] []). apply search_key; auto.
  - reflexivity.
  - reflexivity.
Qed.
