(** C94: queries while nodes hand data over to each other. *)
From Verif.Base Require Import GoBase GoLemmas Assoc Float GoSort.
From Verif.Model Require Import Codec Store Data Vector Search Aggregator CallTree Insert Dataset Sync Cluster.
From Verif.Spec Require Import Wire StoreSpec TopK TreeSpec InsertSpec VectorSpec SyncSpec ClusterSpec.
From Verif.Proof Require Import CodecTop StoreP StoreQ SearchP AggP CallTreeP VectorP ClusterP.
From Verif.Props Require Import StoreProps SearchProps ReadWriteProps SyncProps.
Open Scope N_scope.

(** A node that the query reaches holds the datum: it is reported, or as many
    others that are not worse. *)
Lemma tree_found : forall G M ex config q qv t out k v m tick e,
  scHigherIsBetter config = true ->
  1 <= scLimit config < M32 -> scResultLimit config < M63 -> scGroupLimit config = 0 ->
  tree_wf t -> visits t m tick -> mload m (wire_key k) = Some e -> edatum e = kv k v -> live m tick k ->
  passes ex config (kv k v) = true ->
  let score := GetVectorComparisonFunction M (scScoreFuncName config) in
  no_nan (reached ex score config q t) ->
  answer G M ex config (mkDatum (Some q) qv) t out ->
  (exists x, In x out /\ skey x = Some k /\ sScore x = score (vec k) (vec q)) \/
  (length out = wanted (scLimit config) (scResultLimit config) /\
   forall x, In x out -> SFltb (sScore x) (score (vec k) (vec q)) = false).
Proof.
  intros G M ex config q qv t out k v m tick e Hh HL HR HG W V Le De L P score NN A.
  pose proof (C23_call_tree_exact G M ex config q qv t out Hh HL HR HG W NN A) as (_ & D2 & _ & _ & D5).
  assert (I : In (mkScored (score (vec k) (vec q)) (kv k v)) (reached ex score config q t)).
  { eapply visits_reached; [exact V|]. apply candidates_in.
    exists (wire_key k), e, k, (Some v). split; [apply mload_in; exact Le|]. split; [exact De|].
    split; [apply L; exact Le|]. rewrite De. auto. }
  destruct (D5 _ I) as [C|(C1 & C2)].
  - left. apply in_map_iff in C. destruct C as (x & Ex & Ix). cbn in Ex.
    exists x. split; auto. split; [exact Ex|].
    destruct (reached_visits _ _ _ _ _ _ (D2 x Ix)) as (m' & tick' & V' & J).
    apply candidates_in in J. destruct J as (b & e' & k' & v' & _ & De' & _ & _ & ->).
    unfold skey in Ex. cbn in Ex. rewrite De' in Ex. cbn in Ex. injection Ex as ->. reflexivity.
  - right. split; [exact C1|exact C2].
Qed.

(** The cluster passes through u while it makes the steps es. *)
Definition moment M undef resolve (w : cluster) (es : list cev) (u : cluster) : Prop :=
  exists es1 es2, es = es1 ++ es2 /\ cluster_run M undef resolve w es1 = Some u.

Lemma cluster_run_app : forall M undef resolve es1 es2 w, cluster_run M undef resolve w (es1 ++ es2) =
  match cluster_run M undef resolve w es1 with Some w' => cluster_run M undef resolve w' es2 | None => None end.
Proof.
  intros M undef resolve es1. induction es1 as [|e es1 IH]; intros es2 w; cbn; [reflexivity|].
  destruct (cluster_step M undef resolve w e); auto.
Qed.
Lemma always_prefix : forall M undef resolve ok es1 es2 w,
  always M undef resolve ok w (es1 ++ es2) -> always M undef resolve ok w es1.
Proof.
  intros M undef resolve ok es1. induction es1 as [|e es1 IH]; intros es2 w H; cbn in *; [exact I|].
  destruct H as (A & B). split; [exact A|]. destruct (cluster_step M undef resolve w e); auto. eapply IH. exact B.
Qed.

(** C94 What the cluster holds is found: a query that reaches every node that may
    hold the datum, each at some moment of its execution, reports it (or as many
    data that are not worse), also while the nodes hand data over.

    It holds, after any peaceful history (C48), if no node gives the key away
    between the first and the last look of the query. *)
Theorem C94_found_partial :
  forall Mm undef resolve k v w es w' during,
  kv_ok k v -> held w (wire_key k) (kv k v) ->
  (forall i, mwf (store (w i)) /\ keyed (store (w i)) /\ ySenders (w i) = []) ->
  (forall i e, mload (store (w i)) (wire_key k) = Some e -> edatum e = kv k v) ->
  always Mm undef resolve
    (fun w e => alone w (wire_key k) /\ peaceful resolve (wire_key k) (kv k v) w e) w (es ++ during) ->
  cluster_run Mm undef resolve w es = Some w' ->
  (forall u i, moment Mm undef resolve w' during u ->
     mload (store (w' i)) (wire_key k) <> None -> mload (store (u i)) (wire_key k) <> None) ->
  forall G M ex config q qv t out,
  scHigherIsBetter config = true ->
  1 <= scLimit config < M32 -> scResultLimit config < M63 -> scGroupLimit config = 0 ->
  tree_wf t ->
  (forall i, mload (store (w' i)) (wire_key k) <> None ->
     exists u tick, moment Mm undef resolve w' during u /\ visits t (store (u i)) tick /\
       live (store (u i)) tick k) ->
  passes ex config (kv k v) = true ->
  let score := GetVectorComparisonFunction M (scScoreFuncName config) in
  no_nan (reached ex score config q t) ->
  answer G M ex config (mkDatum (Some q) qv) t out ->
  (exists x, In x out /\ skey x = Some k /\ sScore x = score (vec k) (vec q)) \/
  (length out = wanted (scLimit config) (scResultLimit config) /\
   forall x, In x out -> SFltb (sScore x) (score (vec k) (vec q)) = false).
Proof.
  intros Mm undef resolve k v w es w' during K HD WF VAL AL R KEEP G M ex config q qv t out Hh HL HR HG W CV P score NN A.
  assert (HK : has_key (kv k v) (wire_key k)).
  { unfold has_key, GetKeyAsBytes, kv. cbn. destruct K as (A1 & A2 & _). apply MarshalKey_spec; auto. }
  destruct (C48_never_lost_partial Mm undef resolve (wire_key k) (kv k v) w es w' HK HD WF VAL
              (always_prefix _ _ _ _ _ _ _ AL) R) as (i & e & Li & _).
  assert (NI : mload (store (w' i)) (wire_key k) <> None) by (rewrite Li; discriminate).
  destruct (CV i NI) as (u & tick & MO & V & L).
  pose proof (KEEP u i MO NI) as NU. destruct MO as (d1 & d2 & Ed & Ru).
  assert (R2 : cluster_run Mm undef resolve w (es ++ d1) = Some u) by (rewrite cluster_run_app, R; exact Ru).
  assert (AL2 : always Mm undef resolve
    (fun w e => alone w (wire_key k) /\ peaceful resolve (wire_key k) (kv k v) w e) w (es ++ d1)).
  { apply (always_prefix _ _ _ _ _ d2). rewrite <- app_assoc, <- Ed. exact AL. }
  assert (J : JC (wire_key k) (kv k v) w).
  { destruct HD as (i0 & e0 & L0 & _). split; [|split].
    - intro j. exists []. destruct (WF j) as (A0 & B & C). split; [exact A0|]. split; [exact B|]. split.
      + intros k' e1 L1 HK1. pose proof (B _ _ L1) as HK'. unfold has_key in *.
        assert (k' = wire_key k) by congruence. subst k'. eapply VAL; eauto.
      + intros j' r N. rewrite C in N. destruct j'; discriminate N.
    - exists i0. rewrite L0. discriminate.
    - intros j j' (r & d & c & id & ids & N & _). destruct (WF j) as (_ & _ & C). rewrite C in N. destruct j'; discriminate N. }
  destruct (JC_run _ _ _ _ _ _ _ _ HK J AL2 R2) as (JA & _ & _).
  destruct (mload (store (u i)) (wire_key k)) as [e'|] eqn:E'; [|congruence].
  destruct (JA i) as (t0 & _ & B & C & _).
  apply (tree_found G M ex config q qv t out k v (store (u i)) tick e'); auto.
  apply (C (wire_key k) e' E'). apply (B _ _ E').
Qed.
Print Assumptions C94_found_partial.

(** ** The witness: node 0 hands its only datum over to node 1 (C48_instance).
    The query looks at node 1 before and at node 0 afterwards. *)
Definition before : cluster := two [].
Definition after (w : cluster) : calltree :=
  CNode (store (before 1%nat)) (fun _ => 1000%Z) (store (before 1%nat)) [CNode (store (w 0%nat)) (fun _ => 1000%Z) (store (w 0%nat)) []].

Lemma empty_answer : forall q,
  answer insertion_sort mathlib_ex any_filter (cfg1 true 2) q
    (CNode [] (fun _ => 1000%Z) [] [CNode [] (fun _ => 1000%Z) [] []]) [].
Proof.
  intro q. apply (answer_node _ _ _ _ _ _ _ _ _ [] [] [[]] [] [] [] (fun gs => gs)); auto; try reflexivity.
  constructor; [|constructor].
  apply (answer_node _ _ _ _ _ _ _ _ _ [] [] [] [] [] [] (fun gs => gs)); auto; try reflexivity. constructor.
Qed.

Theorem C94_found_refuted :
  exists Mm undef resolve k v w es w' t,
  kv_ok k v /\ held w (wire_key k) (kv k v) /\
  (forall i, mwf (store (w i)) /\ keyed (store (w i)) /\ ySenders (w i) = []) /\
  always Mm undef resolve
    (fun w e => alone w (wire_key k) /\ peaceful resolve (wire_key k) (kv k v) w e) w es /\
  cluster_run Mm undef resolve w es = Some w' /\
  (forall u, moment Mm undef resolve w es u -> held u (wire_key k) (kv k v)) /\
  (* every node is looked at, at some moment *)
  (forall i, (exists u e, moment Mm undef resolve w es u /\ mload (store (u i)) (wire_key k) = Some e) ->
     exists u, moment Mm undef resolve w es u /\ visits t (store (u i)) (fun _ => 1000%Z)) /\
  tree_wf t /\ passes any_filter (cfg1 true 2) (kv k v) = true /\
  (exists e, expired 1000 e = false /\ mload (store (w 0%nat)) (wire_key k) = Some e /\
     mload (store (w' 1%nat)) (wire_key k) = Some e) /\
  (forall q, answer insertion_sort mathlib_ex any_filter (cfg1 true 2) q t []).
Proof.
  destruct C48_instance as (w' & HK & HD & WF & AL & R & E & _).
  assert (K : wire_key (kn 1) = K1) by (vm_compute; reflexivity).
  exists mathlib_ex, 0, who, (kn 1), va, (two []), (hand 0 B1 (stock 100000 [1])), w', (after w').
  rewrite K. change (kv (kn 1) va) with D1.
  assert (OK : kv_ok (kn 1) va).
  { destruct kva_ok as ((A1 & A2 & A3 & A4) & _). split; [|split; [|auto]].
    - unfold key_ok, kn, is_u32, is_bytes, M32. cbn [feature groupLabel size1 size2 dim1 dim2].
      split; [repeat constructor|]. split; [|lia]. repeat constructor.
    - unfold key_fits. split; vm_compute; congruence. }
  assert (VAL : forall i e, mload (store (two [] i)) K1 = Some e -> edatum e = D1).
  { intros [|[|i]] e L; vm_compute in L; try discriminate L. injection L as <-. reflexivity. }
  assert (MO : forall u, moment mathlib_ex 0 who (two []) (hand 0 B1 (stock 100000 [1])) u -> held u K1 D1).
  { intros u (e1 & e2 & Ee & Ru).
    apply (C48_never_lost_partial mathlib_ex 0 who K1 D1 (two []) e1 u HK HD WF VAL); [|exact Ru].
    apply (always_prefix _ _ _ _ _ e2). rewrite <- Ee. exact AL. }
  split; [exact OK|]. split; [exact HD|]. split; [exact WF|]. split; [exact AL|]. split; [exact R|]. split; [exact MO|].
  split; [|split; [|split; [|split]]].
  - intros [|[|i]] (u & e & (e1 & e2 & Ee & Ru) & L).
    + exists w'. split; [exists (hand 0 B1 (stock 100000 [1])), []; rewrite app_nil_r; auto|].
      unfold after. apply (visits_below _ _ _ _ (CNode (store (w' 0%nat)) (fun _ => 1000%Z) (store (w' 0%nat)) [])).
      * left. reflexivity.
      * constructor.
    + exists (two []). split; [exists [], (hand 0 B1 (stock 100000 [1])); auto|]. constructor.
    + exfalso. assert (X : store (u (S (S i))) = []).
      { destruct e1 as [|c1 e1]; [injection Ru as <-; reflexivity|].
        injection Ee as <- Ee. destruct e1 as [|c2 e1]; [vm_compute in Ru; injection Ru as <-; reflexivity|].
        injection Ee as <- Ee. destruct e1 as [|c3 e1]; [vm_compute in Ru; injection Ru as <-; reflexivity|].
        injection Ee as <- Ee. destruct e1 as [|c4 e1]; [vm_compute in Ru; injection Ru as <-; reflexivity|].
        injection Ee as <- Ee. destruct e1 as [|c5 e1]; [vm_compute in Ru; injection Ru as <-; reflexivity|discriminate Ee]. }
      rewrite X in L. discriminate L.
  - unfold after. rewrite E. cbn. repeat split; auto; try constructor; intros b e [].
  - reflexivity.
  - exists (mkEntry 100000 D1). split; [reflexivity|]. split; [vm_compute; reflexivity|].
    vm_compute in R. injection R as <-. reflexivity.
  - intro q. unfold after. rewrite E. change (store (before 1%nat)) with (@nil (bytes * entry)). apply empty_answer.
Qed.
Print Assumptions C94_found_refuted.

(** After the hand-over node 1, which has the datum now, is asked. *)
Definition asked (w : cluster) : calltree := CNode (store (w 1%nat)) (fun _ => 1000%Z) (store (w 1%nat)) [].
Definition found1 : ScoredDatum := mkScored (QuickVectorDistance (vec (kn 1)) (vec kb)) D1.
Example C94_instance : exists w',
  cluster_run mathlib_ex 0 who (two []) (hand 0 B1 (stock 100000 [1])) = Some w' /\
  (forall i, mload (store (w' i)) K1 <> None ->
     exists u tick, moment mathlib_ex 0 who w' [] u /\ visits (asked w') (store (u i)) tick /\
       live (store (u i)) tick (kn 1)) /\
  answer insertion_sort mathlib_ex any_filter (cfg1 true 2) (mkDatum (Some kb) None) (asked w') [found1] /\
  skey found1 = Some (kn 1).
Proof.
  destruct C48_instance as (w' & _ & _ & _ & _ & R & _ & _).
  assert (K : wire_key (kn 1) = K1) by (vm_compute; reflexivity).
  exists w'. split; [exact R|].
  assert (S0 : store (w' 0%nat) = []) by (vm_compute in R; injection R as <-; reflexivity).
  assert (S1 : store (w' 1%nat) = [(K1, mkEntry 100000 D1)]) by (vm_compute in R; injection R as <-; vm_compute; reflexivity).
  assert (S2 : forall i, store (w' (S (S i))) = []) by (intro i; vm_compute in R; injection R as <-; reflexivity).
  split; [|split].
  - intros [|[|i]] N; [rewrite S0 in N; cbn in N; congruence| |rewrite S2 in N; cbn in N; congruence].
    exists w', (fun _ => 1000%Z). split; [exists [], []; auto|]. split; [constructor|].
    rewrite S1. intros e L. rewrite K in L. cbn [mload] in L. rewrite bytes_eqb_refl in L. injection L as <-.
    right. reflexivity.
  - unfold asked. rewrite S1.
    apply (answer_node _ _ _ _ _ _ _ _ _ [(K1, mkEntry 100000 D1)] [found1] [] [found1] [found1] [found1] (fun gs => gs)).
    + reflexivity.
    + vm_compute. reflexivity.
    + constructor.
    + cbn. auto.
    + vm_compute. reflexivity.
    + auto.
    + auto.
    + vm_compute. reflexivity.
  - reflexivity.
Qed.
