(** C159: what a distance query to a cluster returns: the exact answer if everything that
    matches fits, and the farthest of the nodes' nearest data if one result is asked for. *)
From Verif.Base Require Import GoBase GoLemmas Assoc Float GoSort.
From Verif.Model Require Import Codec Store Data Vector Search Aggregator QueryCache Flood CallTree Spread.
From Verif.Spec Require Import Wire StoreSpec TopK TreeSpec MergeSpec ReachSpec NearestSpec.
From Verif.Proof Require Import FloatP TopKP VectorP FloodP SpreadQ CallTreeP CallTreeQ.
From Verif.Props Require Import StoreProps SearchProps ReadWriteProps ReachProps.
From Coq Require Import Lia.
Open Scope N_scope.

(** The nodes of the tree of calls are the nodes that executed the query. *)
Section Calls.
Variables (store : N -> dbmap) (tick : N -> bytes -> Z) (order : N -> list (bytes * entry)).

Lemma visits_within : forall rest g i n m t, visits (tree_of store tick order rest g i n) m t ->
  exists k, (k = n \/ In k (map fst rest)) /\ m = store k /\ t = tick k.
Proof.
  intros rest. induction g as [|g IH]; intros i n m t V.
  - cbn [tree_of] in V. inversion V as [|? ? ? ? t' ? ? T V']; subst; [exists n; auto|destruct T].
  - cbn [tree_of] in V. inversion V as [|? ? ? ? t' ? ? T V']; subst; [exists n; auto|].
    apply in_map_iff in T. destruct T as ((j, k) & <- & T). cbn [fst snd] in V'.
    apply children_of_in in T. destruct T as (p & E & _). apply nth_error_In in E.
    destruct (IH _ _ _ _ V') as (k' & [->|I] & X).
    + exists k. split; [right|exact X]. apply in_map_iff. exists (k, i). auto.
    + exists k'. auto.
Qed.

Lemma visits_covers : forall rest o fuel,
  (forall k n p, nth_error rest k = Some (n, p) -> (p <= k)%nat) -> (length rest < fuel)%nat ->
  forall j n, (j = 0%nat /\ n = o) \/ (exists k p, j = S k /\ nth_error rest k = Some (n, p)) ->
  exists g, (fuel <= g + j)%nat /\
    forall m t, visits (tree_of store tick order rest g j n) m t -> visits (tree_of store tick order rest fuel 0 o) m t.
Proof.
  intros rest o fuel P L. induction j as [j IH] using lt_wf_ind. intros n [(-> & ->)|(k & p & -> & E)].
  - exists fuel. split; [lia|]. auto.
  - pose proof (P _ _ _ E) as Le. assert (K : (k < length rest)%nat) by (apply nth_error_Some; congruence).
    assert (exists np, (p = 0%nat /\ np = o) \/ (exists k' p', p = S k' /\ nth_error rest k' = Some (np, p'))) as (np & X).
    { destruct p as [|k']; [exists o; auto|].
      destruct (nth_error rest k') as [(np, p')|] eqn:Q; [exists np; right; eauto|].
      apply nth_error_None in Q. lia. }
    destruct (IH p ltac:(lia) np X) as (g & G & I). destruct g as [|g]; [lia|].
    exists g. split; [lia|]. intros m t V. apply I. cbn [tree_of]. eapply visits_below; [|exact V].
    apply in_map_iff. exists (S k, n). split; [reflexivity|]. apply children_of_in. exists k. auto.
Qed.

Lemma calls_visits : forall D o (s : spread D), log_ok o s ->
  (forall m t, visits (calls store tick order o s) m t -> exists n, executed n (sLog s) /\ m = store n /\ t = tick n) /\
  (forall n, executed n (sLog s) -> visits (calls store tick order o s) (store n) (tick n)).
Proof.
  intros D o s (later & E & P & _). unfold calls. rewrite E, rev_app_distr. cbn [rev app tl].
  rewrite app_length. cbn [length].
  assert (P' : forall k n p, nth_error (rev later) k = Some (n, p) -> (p <= k)%nat).
  { intros k n p H. apply nth_error_split in H. destruct H as (l1 & l2 & H & <-).
    apply (f_equal (@rev _)) in H. rewrite rev_involutive, rev_app_distr in H. cbn [rev] in H.
    rewrite <- app_assoc in H. apply P in H. rewrite rev_length in H. exact H. }
  split.
  - intros m t V. apply visits_within in V. destruct V as (k & [->|I] & X).
    + exists o. split; [|exact X]. unfold executed. rewrite map_app. apply in_or_app. right. left. reflexivity.
    + exists k. split; [|exact X]. unfold executed. rewrite map_app. apply in_or_app. left.
      rewrite map_rev in I. apply in_rev. exact I.
  - intros n I. unfold executed in I. rewrite map_app in I. apply in_app_or in I.
    assert (exists j, (j = 0%nat /\ n = o) \/ (exists k p, j = S k /\ nth_error (rev later) k = Some (n, p))) as (j & X).
    { destruct I as [I|[<-|[]]].
      - apply in_map_iff in I. destruct I as ((n', p) & <- & I). apply in_rev in I. apply In_nth_error in I.
        destruct I as (k & I). exists (S k). right. eauto.
      - exists 0%nat. left. auto. }
    destruct (visits_covers (rev later) o (length later + 1) P' ltac:(rewrite rev_length; lia) j n X) as (g & _ & V).
    apply V. destruct g; apply visits_here.
Qed.
End Calls.

(** A query by distance or by similarity of which nothing is lost: if the matching data of
    all linked nodes together have no more keys than the limit, the answer is the exact one
    over all of them. *)
Theorem C159_fits : forall G M ex config q qv undef sources o timeout given s0 s store tick order nodes keys,
  six sources o ->
  spread_start undef sources o (mkDatum (Some q) qv) timeout given s0 -> spread_runs undef sources s0 s -> sReqs s = [] ->
  HasPrefix (scScoreFuncName config) (bs "Annoy") = false ->
  1 <= scLimit config < M32 -> scResultLimit config < M63 -> scGroupLimit config = 0 ->
  (forall n, store_wf (store n)) -> (forall n, Permutation (order n) (store n)) ->
  (forall n, In n nodes <-> linked sources o n) ->
  let score := GetVectorComparisonFunction M (scScoreFuncName config) in
  let everything := flat_map (fun n => candidates ex score config q (tick n) (store n)) nodes in
  no_nan everything ->
  (length keys <= N.to_nat (scLimit config))%nat -> (forall x, In x everything -> In (skey x) keys) ->
  (exists out, answer G M ex config (mkDatum (Some q) qv) (calls store tick order o s) out) /\
  forall out, answer G M ex config (mkDatum (Some q) qv) (calls store tick order o s) out ->
    distinct_topk (beats (scHigherIsBetter config)) skey (wanted (scLimit config) (scResultLimit config)) everything out.
Proof.
  intros G M ex config q qv undef sources o timeout given s0 s store tick order nodes keys H St R Z HA HL HR HG W O L score everything NN FEW KEYS.
  pose proof (C155_reaches _ _ _ _ _ _ _ _ _ H St R Z) as RE.
  assert (LO : log_ok o s) by (eapply log_runs; [exact R|eapply log_start; exact St]).
  assert (EQ : forall x, In x (reached ex score config q (calls store tick order o s)) <-> In x everything).
  { intro x. rewrite (calls_reached store tick order ex score config q _ o s LO x).
    unfold everything. rewrite in_flat_map. split; intros (n & A & B); exists n; (split; [|exact B]).
    - apply L, RE. exact A.
    - apply RE, L. exact A. }
  assert (NR : no_nan (reached ex score config q (calls store tick order o s))).
  { unfold no_nan in *. rewrite Forall_forall in *. intros x I. apply NN, EQ, I. }
  assert (WF : tree_wf (calls store tick order o s)) by (apply calls_wf; auto).
  assert (KR : forall y, In y (reached ex score config q (calls store tick order o s)) -> In (skey y) keys) by (intros y Y; apply KEYS, EQ, Y).
  destruct HL as [HL1 HL].
  split; [exact (tree_few_answers G M ex config q qv HL HL1 HR HG keys FEW HA _ WF NR KR)|].
  intros out A. eapply distinct_topk_ext; [exact EQ|].
  exact (tree_few G M ex config q qv HL HL1 HR HG keys FEW _ _ A WF NR KR).
Qed.
Print Assumptions C159_fits.

(** A query for the one nearest datum, lower scores being better: nothing if nothing matches;
    otherwise a datum that is the nearest on some linked node, and no linked node's nearest is
    farther away.  So each further node can only make the answer worse. *)
Theorem C159_one : forall G M ex config q qv undef sources o timeout given s0 s store tick order nodes out,
  six sources o ->
  spread_start undef sources o (mkDatum (Some q) qv) timeout given s0 -> spread_runs undef sources s0 s -> sReqs s = [] ->
  scHigherIsBetter config = false -> scLimit config = 1 -> scResultLimit config < M63 -> scGroupLimit config = 0 ->
  (forall n, store_wf (store n)) -> (forall n, Permutation (order n) (store n)) ->
  (forall n, In n nodes <-> linked sources o n) ->
  let score := GetVectorComparisonFunction M (scScoreFuncName config) in
  let on := fun n => candidates ex score config q (tick n) (store n) in
  no_nan (flat_map on nodes) ->
  answer G M ex config (mkDatum (Some q) qv) (calls store tick order o s) out ->
  (flat_map on nodes = [] /\ out = []) \/
  exists w, out = [w] /\ farthest_nearest (fun l => exists n, In n nodes /\ l = on n) w.
Proof.
  intros G M ex config q qv undef sources o timeout given s0 s store tick order nodes out H St R Z HH HL HR HG W O L score on NN A.
  pose proof (C155_reaches _ _ _ _ _ _ _ _ _ H St R Z) as RE.
  assert (LO : log_ok o s) by (eapply log_runs; [exact R|eapply log_start; exact St]).
  destruct (calls_visits store tick order _ o s LO) as [V1 V2].
  assert (EQ : forall x, In x (reached ex score config q (calls store tick order o s)) <-> In x (flat_map on nodes)).
  { intro x. rewrite (calls_reached store tick order ex score config q _ o s LO x).
    rewrite in_flat_map. split; intros (n & X & Y); exists n; (split; [|exact Y]).
    - apply L, RE. exact X.
    - apply RE, L. exact X. }
  assert (NR : no_nan (reached ex score config q (calls store tick order o s))).
  { unfold no_nan in *. rewrite Forall_forall in *. intros x I. apply NN, EQ, I. }
  assert (WF : tree_wf (calls store tick order o s)) by (apply calls_wf; auto).
  destruct (tree_one G M ex config q qv HH HL HR HG _ _ A WF NR) as [[E ->]|(w & -> & (l & (m & t & V & ->) & NW) & FW)].
  - left. split; [|reflexivity]. fold score in E. destruct (flat_map on nodes) as [|x xs] eqn:F; [reflexivity|].
    exfalso. assert (X : In x (reached ex score config q (calls store tick order o s))) by (apply EQ; left; reflexivity).
    rewrite E in X. destruct X.
  - right. exists w. split; [reflexivity|]. split.
    + destruct (V1 _ _ V) as (n & X & -> & ->). exists (on n). split; [exists n; split; [apply L, RE, X|reflexivity]|exact NW].
    + intros l x (n & X & ->) NX. eapply FW; [|exact NX]. exists (store n), (tick n). split; [|reflexivity].
      apply V2, RE, L, X.
Qed.
Print Assumptions C159_one.

(** The three nodes of [C155_instance]: node 1 holds one datum at distance 1 from the query,
    node 2 the datum asked for itself.  Asked for the nearest, node 1 answers with its own;
    asked for five, with both. *)
Definition nearest_query (limit : N) (out : list ScoredDatum) : Prop :=
  answer insertion_sort mathlib_ex any_filter (cfg1 false limit) (mkDatum (Some kb) None)
    (calls reach_store reach_tick reach_store 1 reach_end_state) out.
Lemma nearest_1 : exists out, nearest_query 1 out /\ map skey out = [Some ka].
Proof.
  assert (E : exists out, answer insertion_sort mathlib_ex any_filter (cfg1 false 1) (mkDatum (Some kb) None)
    (CNode (reach_store 1) (reach_tick 1) (reach_store 1)
      [CNode (reach_store 2) (reach_tick 2) (reach_store 2)
        [CNode (reach_store 1) (reach_tick 1) (reach_store 1)
          [CNode [] (reach_tick 3) [] []]]]) out /\ map skey out = [Some ka]).
  { eexists. split; [reach_answer|reflexivity]. }
  exact E.
Qed.
Lemma nearest_5 : exists out, nearest_query 5 out /\ map skey out = [Some kb; Some ka].
Proof.
  assert (E : exists out, answer insertion_sort mathlib_ex any_filter (cfg1 false 5) (mkDatum (Some kb) None)
    (CNode (reach_store 1) (reach_tick 1) (reach_store 1)
      [CNode (reach_store 2) (reach_tick 2) (reach_store 2)
        [CNode (reach_store 1) (reach_tick 1) (reach_store 1)
          [CNode [] (reach_tick 3) [] []]]]) out /\ map skey out = [Some kb; Some ka]).
  { eexists. split; [reach_answer|reflexivity]. }
  exact E.
Qed.
Example C159_instance :
  let on := fun n => candidates any_filter QuickVectorDistance (cfg1 false 1) kb (reach_tick n) (reach_store n) in
  no_nan (flat_map on [1; 2; 3]) /\
  (forall x, In x (flat_map on [1; 2; 3]) -> In (skey x) [Some ka; Some kb]) /\
  (exists x y, nearest_of (on 1) x /\ nearest_of (on 2) y /\ skey y = Some kb /\ SFltb (sScore y) (sScore x) = true) /\
  (exists out, nearest_query 1 out /\ map skey out = [Some ka]) /\
  (forall out, nearest_query 1 out -> map skey out = [Some ka]) /\
  (exists out, nearest_query 5 out /\ map skey out = [Some kb; Some ka]) /\
  (forall out, nearest_query 5 out -> distinct_topk (beats false) skey 5 (flat_map on [1; 2; 3]) out).
Proof.
  intro on.
  assert (NN : no_nan (flat_map on [1; 2; 3])) by repeat constructor.
  assert (KS : forall x, In x (flat_map on [1; 2; 3]) -> In (skey x) [Some ka; Some kb]).
  { intros x X. vm_compute in X. destruct X as [<-|[<-|[<-|[]]]]; cbn; auto. }
  destruct C155_instance as (s0 & S6 & LK & St & R & _ & _ & _).
  assert (N1 : forall x, nearest_of (on 1) x -> skey x = Some ka /\ sScore x = S754_finite false 4503599627370496 (-52)).
  { intros x [X _]. vm_compute in X. destruct X as [<-|[]]. split; reflexivity. }
  assert (W1 : exists x, nearest_of (on 1) x).
  { destruct (on 1) as [|x [|? ?]] eqn:E; [vm_compute in E; discriminate E| |vm_compute in E; discriminate E].
    exists x. split; [left; reflexivity|]. intros y [<-|[]]. apply SFltb_irr. }
  assert (W2 : exists x, nearest_of (on 2) x /\ skey x = Some kb /\ sScore x = S754_zero false).
  { exists (mkScored (S754_zero false) (kv kb va)). split; [|split; reflexivity].
    split; [vm_compute; auto|]. intros y Y. vm_compute in Y. destruct Y as [<-|[<-|[]]]; reflexivity. }
  split; [exact NN|]. split; [exact KS|]. split.
  { destruct W1 as (x & X). destruct W2 as (y & Y & K & SY). exists x, y.
    split; [exact X|]. split; [exact Y|]. split; [exact K|]. rewrite SY, (proj2 (N1 x X)). reflexivity. }
  split; [exact nearest_1|].
  split.
  { intros out A.
    destruct (C159_one insertion_sort mathlib_ex any_filter (cfg1 false 1) kb None 0 reach_sources 1 1000 false s0 reach_end_state
      reach_store reach_tick reach_store [1; 2; 3] out) as [[E _]|(w & -> & (l & (n & I & ->) & NW) & FW)]; auto; try reflexivity.
    - apply reach_wf.
    - vm_compute in E. discriminate E.
    - destruct W1 as (x & X). specialize (FW (on 1) x (ex_intro _ 1 (conj (or_introl eq_refl) eq_refl)) X).
      rewrite (proj2 (N1 x X)) in FW. clear - I NW FW.
      destruct NW as [NW _]. destruct I as [<-|[<-|[<-|[]]]]; vm_compute in NW.
      + destruct NW as [<-|[]]. reflexivity.
      + destruct NW as [<-|[<-|[]]]; [reflexivity|vm_compute in FW; discriminate FW].
      + destruct NW. }
  split; [exact nearest_5|].
  intros out A.
  apply (C159_fits insertion_sort mathlib_ex any_filter (cfg1 false 5) kb None 0 reach_sources 1 1000 false s0 reach_end_state
    reach_store reach_tick reach_store [1; 2; 3] [Some ka; Some kb]); auto; try reflexivity.
  - cbn [cfg1 scLimit]. unfold M32. lia.
  - apply reach_wf.
  - change (scLimit (cfg1 false 5)) with 5. cbn. lia.
Qed.
