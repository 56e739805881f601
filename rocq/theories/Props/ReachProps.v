(** C155: a query of which nothing is lost searches exactly the nodes that are linked to the
    node asked, if none of them has more than six sources; with a seventh source this fails. *)
From Verif.Base Require Import GoBase GoLemmas Assoc Float GoSort.
From Verif.Model Require Import Codec Store Data Vector Search Aggregator QueryCache Flood CallTree Spread.
From Verif.Spec Require Import Wire StoreSpec TopK TreeSpec ReachSpec.
From Verif.Proof Require Import TopKP VectorP FloodP SpreadQ.
From Verif.Props Require Import StoreProps SearchProps.
From Coq Require Import Lia.
Open Scope N_scope.

(** No node that the query can get to has more than six sources of the dataset. *)
Definition six (sources : N -> list N) (o : N) : Prop :=
  forall n, linked sources o n -> NoDup (sources n) /\ (length (sources n) <= 6)%nat.

(** When no request is left, exactly the linked nodes have executed the query, whatever the
    order of events was and whichever node asked whichever first. *)
Theorem C155_reaches : forall D undef sources o (d : D) timeout given s0 s,
  six sources o ->
  spread_start undef sources o d timeout given s0 -> spread_runs undef sources s0 s -> sReqs s = [] ->
  forall n, executed n (sLog s) <-> linked sources o n.
Proof.
  intros D undef sources o d timeout given s0 s H St R Z.
  apply (reach_end sources o s); auto. eapply reach_runs; eauto. eapply reach_start; eauto.
Qed.
Print Assumptions C155_reaches.

(** Such executions exist, from every start: the query comes to an end. *)
Theorem C155_ends : forall D undef sources univ o (d : D) timeout given,
  (forall m, incl (sources m) univ) -> In o univ -> (forall m, NoDup (sources m)) ->
  (exists s0, spread_start undef sources o d timeout given s0) /\
  forall s0 s, spread_start undef sources o d timeout given s0 -> spread_runs undef sources s0 s ->
    exists s', spread_runs undef sources s s' /\ sReqs s' = [].
Proof.
  intros D undef sources univ o d timeout given U O ND. split.
  - destruct (sent_exists undef sources o timeout d 0 (ND o)) as (reqs & S). eexists. constructor. exact S.
  - intros s0 s St R. destruct (start_erases _ _ _ _ _ _ _ St) as [F H].
    assert (I0 : in_univ univ (erase d s0)).
    { destruct F as [reqs F]. split; [|split]; cbn [fReqs fSeen].
      - intros r I. eapply forwarded_univ; eauto.
      - destruct given; intros x; [intros [<-|[]]; auto|intros []].
      - destruct given; repeat constructor. intros []. }
    assert (I1 : in_univ univ (erase d s) /\ forall e, In e (sReqs s) -> rDatum (snd e) = d).
    { clear St F. induction R; auto. destruct (step_erases _ _ d _ _ H H0) as [F1 H1].
      apply IHR; auto. eapply univ_step; eauto. }
    eapply spread_ends with (d := d); eauto; apply I1.
Qed.
Print Assumptions C155_ends.

(** The answer is the exact one over the data of all linked nodes together. *)
Theorem C155_exact : forall G M ex config q qv undef sources o timeout given s0 s store tick order nodes,
  six sources o ->
  spread_start undef sources o (mkDatum (Some q) qv) timeout given s0 -> spread_runs undef sources s0 s -> sReqs s = [] ->
  scHigherIsBetter config = true -> HasPrefix (scScoreFuncName config) (bs "Annoy") = false ->
  1 <= scLimit config < M32 -> scResultLimit config < M63 -> scGroupLimit config = 0 ->
  (forall n, store_wf (store n)) -> (forall n, Permutation (order n) (store n)) ->
  (forall n, In n nodes <-> linked sources o n) ->
  let score := GetVectorComparisonFunction M (scScoreFuncName config) in
  let everything := flat_map (fun n => candidates ex score config q (tick n) (store n)) nodes in
  no_nan everything ->
  (exists out, answer G M ex config (mkDatum (Some q) qv) (calls store tick order o s) out) /\
  forall out, answer G M ex config (mkDatum (Some q) qv) (calls store tick order o s) out ->
    distinct_topk (beats true) skey (wanted (scLimit config) (scResultLimit config)) everything out.
Proof.
  intros G M ex config q qv undef sources o timeout given s0 s store tick order nodes H St R Z Hh HA HL HR HG W O L score everything NN.
  pose proof (C155_reaches _ _ _ _ _ _ _ _ _ H St R Z) as RE.
  assert (LO : log_ok o s) by (eapply log_runs; [exact R|eapply log_start; exact St]).
  assert (EQ : forall x, In x (reached ex score config q (calls store tick order o s)) <-> In x everything).
  { intro x. rewrite (calls_reached store tick order ex score config q _ o s LO x).
    unfold everything. rewrite in_flat_map. split; intros (n & A & B); exists n; (split; [|exact B]).
    - apply L, RE. exact A.
    - apply RE, L. exact A. }
  assert (NR : no_nan (reached ex score config q (calls store tick order o s))).
  { unfold no_nan in *. rewrite Forall_forall in *. intros x I. apply NN, EQ, I. }
  assert (WF : tree_wf (calls store tick order o s)) by (apply calls_wf; auto).
  split; [eapply C23_call_tree_answers; eauto|].
  intros out A. eapply distinct_topk_ext; [exact EQ|]. eapply C23_call_tree_exact; eauto.
Qed.
Print Assumptions C155_exact.

(** With more than six sources at the node asked, and no other way to them, every query
    misses at least one of them from its first moment on, whatever happens later. *)
Theorem C155_seventh : forall D undef sources o (d : D) timeout given s0,
  NoDup (sources o) -> (6 < length (sources o))%nat ->
  (forall n m, In m (sources o) -> In m (sources n) -> n = o) -> (forall n, ~ In o (sources n)) ->
  flood_start undef sources o [d] timeout given s0 ->
  exists m, In m (sources o) /\ forall s, flood_runs undef sources s0 s -> ~ executed m (fLog s).
Proof.
  intros D undef sources o d timeout given s0 ND L6 OW NO St. destruct St as [reqs F].
  inversion F as [|? ? targets times reqs' (C1 & C2 & C3) LT FT F']; subst. inversion F'; subst. rewrite app_nil_r in *.
  assert (exists m, In m (sources o) /\ ~ In m targets) as (m & M1 & M2).
  { destruct (Forall_dec (fun m => In m targets) (fun m => in_dec N.eq_dec m targets) (sources o)) as [A|A].
    - exfalso. rewrite Forall_forall in A. pose proof (NoDup_incl_length ND A). lia.
    - apply neg_Forall_Exists_neg in A; [|intro x; apply in_dec, N.eq_dec].
      apply Exists_exists in A. exact A. }
  exists m. split; auto. intros s R.
  assert (MO : m <> o) by (intro E; subst m; exact (NO o M1)).
  assert (FW : forall n t ds rs, n <> o -> forwarded (D := D) undef sources n t ds rs ->
    forall r, In r rs -> rTo r <> m /\ rTo r <> o).
  { intros n t ds rs Hn X. induction X as [|d' ds tg tm rs (A & B & _) LE _ X IH]; intros r I; [destruct I|].
    apply in_app_or in I as [I|I]; auto. apply in_map_iff in I. destruct I as ((a & b) & <- & I). cbn [rTo fst].
    apply in_combine_l, B in I. split; intro E; subst a; [exact (Hn (OW _ _ M1 I))|exact (NO _ I)]. }
  assert (I0 : (forall r, In r (map (fun p => mkReq (fst p) d (snd p)) (combine targets times)) -> rTo r <> m /\ rTo r <> o)).
  { intros r I. apply in_map_iff in I. destruct I as ((a & b) & <- & I). cbn [rTo fst]. apply in_combine_l in I.
    split; intro E; subst a; [exact (M2 I)|exact (NO _ (C2 _ I))]. }
  assert (IV : (forall r, In r (fReqs s) -> rTo r <> m /\ rTo r <> o) /\ ~ executed m (fLog s)); [|apply IV].
  assert (P0 : (forall r, In r (fReqs (mkFlood (if given then [o] else [])
      (map (fun p => mkReq (fst p) d (snd p)) (combine targets times)) [(o, [d])])) -> rTo r <> m /\ rTo r <> o) /\
    ~ executed m (fLog (mkFlood (if given then [o] else [])
      (map (fun p => mkReq (fst p) d (snd p)) (combine targets times)) [(o, [d])]))).
  { cbn [fReqs fLog]. split; auto. intros [E|[]]. cbn in E. auto. }
  revert P0. clear -R FW. induction R as [|s s1 s2 S R IH]; auto. intros [P Q]. apply IH. clear IH R.
  destruct S as [seen r1 r r2 log I|seen r1 r r2 log rs I X|seen r1 r r2 log|seen r1 r r2 log I];
    cbn [fReqs fLog] in *; (split; [|try exact Q]); try (intros x J; apply P, in_mid; exact J).
  - intros x J. rewrite app_assoc in J. apply in_app_or in J as [J|J]; [apply P, in_mid; exact J|].
    eapply FW; [|exact X|exact J]. apply P, in_or_app. right. left. reflexivity.
  - intros [E|E]; [|exact (Q E)]. cbn in E. destruct (P r) as [A _]; [apply in_or_app; right; left; reflexivity|]. auto.
Qed.
Print Assumptions C155_seventh.

(** ** Concrete cases *)
(** Node 1 has the sources 2 and 3, node 2 has the source 1; node 9 is not linked.  The client
    gives no uuid, so node 1 searches a second time when node 2 asks it. *)
Definition reach_sources (n : N) : list N := if n =? 1 then [2; 3] else if n =? 2 then [1] else if n =? 9 then [1] else [].
Definition reach_store (n : N) : dbmap :=
  if n =? 1 then [(wire_key ka, mkEntry 0 (kv ka va))] else if n =? 2 then store3 else [].
Definition reach_tick (n : N) : bytes -> Z := fun _ => 100%Z.
Definition reach_req (n : N) (j : nat) : request Datum :=
  mkReq n (mkDatum (Some kb) None) (Nat.iter (S j) (ShrinkTimeout 0) 1000).
Definition reach_end_state : spread Datum := mkSpread [3; 1; 2] [] [(3, 2%nat); (1, 1%nat); (2, 0%nat); (1, 0%nat)].

Lemma reach_wf : forall n, store_wf (reach_store n).
Proof.
  destruct kva_ok as (A & B & C). intro n. unfold reach_store. destruct (n =? 1); [|destruct (n =? 2)].
  - split; [repeat constructor; cbn; auto|]. intros b e [H|[]]. injection H as <- <-. exists ka, va. auto.
  - apply store3_wf.
  - split; [constructor|]. intros b e [].
Qed.
Lemma reach_linked : forall n, linked reach_sources 1 n <-> In n [1; 2; 3].
Proof.
  assert (L2 : linked reach_sources 1 2) by (apply (linked_on _ _ 1); [constructor|cbn; auto]).
  assert (L3 : linked reach_sources 1 3) by (apply (linked_on _ _ 1); [constructor|cbn; auto]).
  intro n. split.
  - induction 1 as [|m k L IH I]; [cbn; auto|].
    destruct IH as [<-|[<-|[<-|[]]]]; cbn in I; cbn; tauto.
  - intros [<-|[<-|[<-|[]]]]; auto. constructor.
Qed.
Lemma reach_six : six reach_sources 1.
Proof.
  intros n L. apply reach_linked in L. destruct L as [<-|[<-|[<-|[]]]]; cbn; (split; [|lia]); repeat constructor; cbn; intuition discriminate.
Qed.
Ltac reach_answer :=
  eapply (answer_node _ _ _ _ _ _ _ _ _ _ _ _ _ _ _ (fun gs => gs));
  [reflexivity|vm_compute; reflexivity|(apply answer_none || (apply answer_more; [reach_answer|apply answer_none]))|apply Permutation_refl|
   vm_compute; reflexivity|apply Permutation_refl|intros; apply Permutation_refl|vm_compute; reflexivity].
Example C155_instance : exists s0,
  six reach_sources 1 /\ (forall n, In n [1; 2; 3] <-> linked reach_sources 1 n) /\
  spread_start 0 reach_sources 1 (mkDatum (Some kb) None) 1000 false s0 /\
  spread_runs 0 reach_sources s0 reach_end_state /\
  calls reach_store reach_tick reach_store 1 reach_end_state =
    CNode (reach_store 1) (reach_tick 1) (reach_store 1)
      [CNode (reach_store 2) (reach_tick 2) (reach_store 2)
        [CNode (reach_store 1) (reach_tick 1) (reach_store 1)
          [CNode [] (reach_tick 3) [] []]]] /\
  no_nan (flat_map (fun n => candidates any_filter QuickVectorDistance (cfg1 true 1) kb (reach_tick n) (reach_store n)) [1; 2; 3]) /\
  exists out, answer insertion_sort mathlib_ex any_filter (cfg1 true 1) (mkDatum (Some kb) None)
    (calls reach_store reach_tick reach_store 1 reach_end_state) out /\ map skey out = [Some ka].
Proof.
  exists (mkSpread [] [(0%nat, reach_req 2 0); (0%nat, reach_req 3 0)] [(1, 0%nat)]).
  split; [apply reach_six|]. split; [intro n; symmetry; apply reach_linked|]. split.
  { apply ss_start. apply (sent_to _ _ _ _ _ _ [2; 3] [_; _]); [|reflexivity|].
    - split; [repeat constructor; cbn; intuition discriminate|]. split; [intros ? ?; assumption|reflexivity].
    - repeat constructor; exists 0%nat; reflexivity. }
  split.
  { eapply spr_step.
    { apply (sp_execute _ _ [] [] 0 (reach_req 2 0) [(0%nat, reach_req 3 0)] [(1, 0%nat)] [(1%nat, reach_req 1 1)]); [intros []|].
      apply (sent_to _ _ _ _ _ _ [1] [_]); [|reflexivity|].
      - split; [repeat constructor; cbn; intuition discriminate|]. split; [intros ? ?; assumption|reflexivity].
      - repeat constructor; exists 0%nat; reflexivity. }
    eapply spr_step.
    { apply (sp_execute _ _ [2] [(0%nat, reach_req 3 0)] 1 (reach_req 1 1) [] [(2, 0%nat); (1, 0%nat)]
        [(2%nat, reach_req 2 2); (2%nat, reach_req 3 2)]); [intros [E|[]]; discriminate E|].
      apply (sent_to _ _ _ _ _ _ [2; 3] [_; _]); [|reflexivity|].
      - split; [repeat constructor; cbn; intuition discriminate|]. split; [intros ? ?; assumption|reflexivity].
      - repeat constructor; exists 0%nat; reflexivity. }
    eapply spr_step.
    { apply (sp_duplicate _ _ _ [(0%nat, reach_req 3 0)] 2 (reach_req 2 2) [(2%nat, reach_req 3 2)]). cbn. auto. }
    eapply spr_step.
    { apply (sp_execute _ _ _ [(0%nat, reach_req 3 0)] 2 (reach_req 3 2) [] _ []); [cbn; intuition discriminate|].
      apply (sent_to _ _ _ _ _ _ [] []); [|reflexivity|constructor].
      split; [constructor|]. split; [intros ? []|reflexivity]. }
    eapply spr_step; [|apply spr_here].
    apply (sp_duplicate _ _ [3; 1; 2] [] 0 (reach_req 3 0) []). cbn. auto. }
  split; [reflexivity|]. split; [repeat constructor|].
  assert (E : exists out, answer insertion_sort mathlib_ex any_filter (cfg1 true 1) (mkDatum (Some kb) None)
    (CNode (reach_store 1) (reach_tick 1) (reach_store 1)
      [CNode (reach_store 2) (reach_tick 2) (reach_store 2)
        [CNode (reach_store 1) (reach_tick 1) (reach_store 1)
          [CNode [] (reach_tick 3) [] []]]]) out /\ map skey out = [Some ka]).
  { eexists. split; [reach_answer|reflexivity]. }
  exact E.
Qed.

(** Node 0 with seven sources that have none. *)
Definition star (n : N) : list N := if n =? 0 then [1; 2; 3; 4; 5; 6; 7] else [].
Example C155_instance_seventh : exists s0,
  flood_start 0 star 0 [tt] 1000 true s0 /\ length (fReqs s0) = 6%nat /\
  (forall n m, In m (star 0) -> In m (star n) -> n = 0) /\ (forall n, ~ In 0 (star n)) /\
  linked star 0 7 /\ forall s, flood_runs 0 star s0 s -> ~ executed 7 (fLog s).
Proof.
  eexists. split; [|split; [|split; [|split; [|split]]]].
  - constructor. apply (fw_cons _ _ _ _ tt [] [1; 2; 3; 4; 5; 6] (repeat (ShrinkTimeout 0 1000) 6) []); [|reflexivity| |constructor].
    + split; [repeat constructor; cbn; intuition discriminate|]. split; [|cbn; lia].
      intros x I. cbn in I |- *. tauto.
    + apply Forall_forall. intros x I. apply repeat_spec in I. subst x. exists 0%nat. reflexivity.
  - reflexivity.
  - intros n m _ I. unfold star in I. destruct (N.eqb_spec n 0); auto. destruct I.
  - intros n I. unfold star in I. destruct (n =? 0); [|destruct I]. cbn in I. intuition discriminate.
  - apply (linked_on _ _ 0); [constructor|]. cbn. tauto.
  - intros s R. cbn [map combine repeat app fst snd] in R.
    match type of R with flood_runs _ _ ?a _ => assert (P : (forall r, In r (fReqs a) -> rTo r <> 7) /\ ~ executed 7 (fLog a)) end.
    { split; [|intros [E|[]]; discriminate E]. cbn [fReqs In]. intros r I. repeat destruct I as [<-|I]; [discriminate..|destruct I]. }
    match type of R with flood_runs _ _ ?a _ => assert (Q : forall r, In r (fReqs a) -> rTo r <> 0) end.
    { cbn [fReqs In]. intros r I. repeat destruct I as [<-|I]; [discriminate..|destruct I]. }
    revert P Q. induction R as [|s s1 s2 S R IH]; [tauto|]. intros [P E] Q.
    assert (FW : forall n t ds rs, n <> 0 -> forwarded (D := unit) 0 star n t ds rs -> rs = []).
    { clear. intros n t ds rs N0 X. induction X as [|d' ds tg tm rs (A & B & _) LE _ X IH]; auto.
      unfold star in B. apply N.eqb_neq in N0. rewrite N0 in B. apply incl_l_nil in B. subst tg. cbn. exact IH. }
    destruct S as [seen r1 r r2 log I|seen r1 r r2 log rs I X|seen r1 r r2 log|seen r1 r r2 log I];
      cbn [fReqs fLog] in *; apply IH; cbn [fReqs fLog];
      try (split; [|exact E]); try (intros x J; apply P, in_mid; exact J); try (intros x J; apply Q, in_mid; exact J).
    + apply FW in X; [|apply Q, in_or_app; right; left; reflexivity]. subst rs. rewrite app_nil_r. split.
      * intros x J; apply P, in_mid; exact J.
      * intros [Y|Y]; [|exact (E Y)]. cbn in Y. apply (P r); auto. apply in_or_app; right; left; reflexivity.
    + apply FW in X; [|apply Q, in_or_app; right; left; reflexivity]. subst rs. rewrite app_nil_r.
      intros x J; apply Q, in_mid; exact J.
Qed.
