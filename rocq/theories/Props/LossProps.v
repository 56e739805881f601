(** C168: what a query loses when messages are lost. *)
From Verif.Base Require Import GoBase GoLemmas Assoc Float GoSort.
From Verif.Model Require Import Codec Store Vector Search Aggregator QueryCache Flood CallTree Spread Lossy.
From Verif.Spec Require Import TopK TreeSpec ReachSpec BigSpec LossSpec.
From Verif.Proof Require Import TopKP VectorP SpreadQ CallTreeP LossP.
From Verif.Props Require Import StoreProps SearchProps InsertProps ReadWriteProps ReachProps BigProps.
From Coq Require Import Lia.
Open Scope nat_scope.

(** ** Lost requests *)

Lemma nodup_prod : forall A B (l : list A) (l' : list B), NoDup l -> NoDup l' -> NoDup (list_prod l l').
Proof.
  intros A B l l' N N'. induction N as [|a l X N IH]; [constructor|]. cbn [list_prod].
  assert (M : NoDup (map (fun y => (a, y)) l')).
  { apply FinFun.Injective_map_NoDup; [intros x y E; injection E; auto|exact N']. }
  assert (G : forall l1 l2 : list (A * B), NoDup l1 -> NoDup l2 -> (forall x, In x l1 -> ~ In x l2) -> NoDup (l1 ++ l2)).
  { induction l1 as [|y l1 I1]; intros l2 N1 N2 AP; [exact N2|]. inversion_clear N1 as [|? ? Y Y']. cbn [app]. constructor.
    - intro Z. apply in_app_or in Z. destruct Z as [Z|Z]; [contradiction|]. apply (AP y); [left; reflexivity|exact Z].
    - apply I1; auto. intros x Hx. apply AP. right. exact Hx. }
  apply G; auto. intros (x, y) Hx Hy. apply in_map_iff in Hx. destruct Hx as (z & E & _). injection E as <- _.
  apply in_prod_iff in Hy. destruct Hy. contradiction.
Qed.

Lemma sent_source : forall D undef sources n t (d : D) i reqs e, sent undef sources n t d i reqs -> In e reqs -> In (rTo (snd e)) (sources n).
Proof.
  intros D undef sources n t d i reqs e H X. destruct (sent_targets _ _ _ _ _ _ _ H) as [(_ & A & _) _].
  apply A. apply (in_map (fun e => rTo (snd e))), X.
Qed.

Lemma lossy_nodes : forall D undef nodes sources s lost (s' : spread D), full nodes sources ->
  lossy_runs undef sources s lost s' ->
  (forall n, executed n (sLog s) -> In n nodes) /\ (forall e, In e (sReqs s) -> In (rTo (snd e)) nodes) ->
  forall n, executed n (sLog s') -> In n nodes.
Proof.
  intros D undef nodes sources s lost s' [_ FU] R. induction R as [s|s s1 lost s2 St R IH|seen r1 e r2 log lost s2 R IH]; intros [A B].
  - exact A.
  - apply IH. destruct St as [seen r1 i r r2 log I|seen r1 i r r2 log reqs I S]; cbn [sLog sReqs] in *.
    + split; [exact A|]. intros e X. apply B. apply in_or_app. apply in_app_or in X. destruct X; [left|right; right]; assumption.
    + assert (N : In (rTo r) nodes) by (apply (B (i, r)), in_or_app; right; left; reflexivity). split.
      * intros n [<-|X]; [exact N|apply A, X].
      * intros e X. apply in_app_or in X. destruct X as [X|X]; [apply B, in_or_app; left; exact X|].
        apply in_app_or in X. destruct X as [X|X]; [apply B, in_or_app; right; right; exact X|].
        apply (FU _ N). eapply sent_source; eauto.
  - apply IH. cbn [sLog sReqs] in *. split; [exact A|]. intros x X. apply B. apply in_or_app. apply in_app_or in X. destruct X; [left|right; right]; assumption.
Qed.

(** What a query that has come to an end has accounted for. *)
Lemma lossy_end : forall D undef nodes sources o (d : D) timeout given s0 lost s,
  full nodes sources -> length nodes <= 7 -> In o nodes ->
  spread_start undef sources o d timeout given s0 -> lossy_runs undef sources s0 lost s -> sReqs s = [] ->
  (forall n, executed n (sLog s) -> In n nodes) /\ executed o (sLog s) /\
  forall n m, executed n (sLog s) -> In m nodes -> ~ executed m (sLog s) ->
    exists i p r, nth_error (rev (sLog s)) i = Some (n, p) /\ In (i, r) lost /\ rTo r = m.
Proof.
  intros D undef nodes sources o d timeout given s0 lost s FU L7 O St R Z.
  assert (EN : forall n, executed n (sLog s) -> In n nodes).
  { eapply lossy_nodes; eauto. destruct St as [reqs S]. cbn [sLog sReqs]. split; [intros n [<-|[]]; exact O|].
    intros e X. apply (proj2 FU _ O). eapply sent_source; eauto. }
  pose proof (accounted_runs _ _ _ _ _ R [] (accounted_start _ _ _ _ _ _ _ St)) as [_ AC]. cbn [app] in AC. rewrite Z in AC. cbn [app] in AC.
  split; [exact EN|]. split.
  { pose proof (lossy_log _ _ o _ _ _ R (log_start _ _ _ _ _ _ _ St)) as LG. destruct (log_facts _ _ _ LG) as [X _].
    apply nth_error_In in X. apply in_rev in X. apply in_map_iff. exists (o, 0). auto. }
  intros n m X M NM. destruct (AC n X) as (i & p & T & Q & A & B).
  destruct (proj2 FU n (EN n X)) as [NS FS].
  assert (LS : length (sources n) <= 6).
  { assert (Y : length (n :: sources n) <= length nodes); [|cbn [length] in Y; lia]. apply NoDup_incl_length.
    - constructor; [|exact NS]. intro Y. apply FS in Y. destruct Y; congruence.
    - intros x [<-|Y]; [apply EN, X|apply FS, Y]. }
  assert (MT : In m T).
  { apply (asked_all sources n T NS LS A). apply FS. split; [exact M|]. intro E. subst m. contradiction. }
  destruct (B m MT) as [Y|(r & Y & E)]; [contradiction|]. exists i, p, r. auto.
Qed.

(** In a cluster of n <= 7 nodes in which everybody is a source of everybody: a query that was
    executed at r of them has lost at least r (n - r) requests, whatever happened to it. *)
Theorem C168_requests : forall D undef nodes sources o (d : D) timeout given s0 lost s S,
  full nodes sources -> length nodes <= 7 -> In o nodes ->
  spread_start undef sources o d timeout given s0 -> lossy_runs undef sources s0 lost s -> sReqs s = [] ->
  NoDup S -> (forall n, In n S <-> executed n (sLog s)) ->
  In o S /\ incl S nodes /\ length S * (length nodes - length S) <= length lost.
Proof.
  intros D undef nodes sources o d timeout given s0 lost s S FU L7 O St R Z ND HS.
  destruct (lossy_end _ _ _ _ _ _ _ _ _ _ _ FU L7 O St R Z) as (EN & EO & AC).
  assert (IN : incl S nodes) by (intros x X; apply EN, HS, X).
  split; [apply HS, EO|]. split; [exact IN|].
  pose proof (without_length S nodes (proj1 FU) ND IN) as LW.
  replace (length nodes - length S) with (length (without S nodes)) by lia.
  rewrite <- prod_length.
  set (f := fun e : nat * request D => (fst (nth (fst e) (rev (sLog s)) (0%N, 0)), rTo (snd e))).
  rewrite <- (map_length f lost). apply NoDup_incl_length.
  - apply nodup_prod; [exact ND|]. apply NoDup_filter, FU.
  - intros (n, m) X. apply in_prod_iff in X. destruct X as [X Y]. apply without_in in Y. destruct Y as [Y NY].
    destruct (AC n m) as (i & p & r & Q & I & E).
    + apply HS, X.
    + exact Y.
    + intro W. apply NY, HS, W.
    + apply in_map_iff. exists (i, r). split; [|exact I]. unfold f. cbn [fst snd].
      rewrite (nth_error_nth _ _ _ Q). cbn [fst]. rewrite E. reflexivity.
Qed.
Print Assumptions C168_requests.

(** So all nodes execute it if fewer than n - 1 requests are lost. *)
Theorem C168_few : forall D undef nodes sources o (d : D) timeout given s0 lost s,
  full nodes sources -> length nodes <= 7 -> In o nodes ->
  spread_start undef sources o d timeout given s0 -> lossy_runs undef sources s0 lost s -> sReqs s = [] ->
  length lost < length nodes - 1 ->
  forall n, executed n (sLog s) <-> In n nodes.
Proof.
  intros D undef nodes sources o d timeout given s0 lost s FU L7 O St R Z L.
  set (all := nodup N.eq_dec (map fst (sLog s))).
  assert (HS : forall n, In n all <-> executed n (sLog s)) by (intro n; apply nodup_In).
  destruct (C168_requests _ _ _ _ _ _ _ _ _ _ _ all FU L7 O St R Z (NoDup_nodup _ _) HS) as (IO & IN & LE).
  assert (LO : 1 <= length all) by (destruct all; [destruct IO|cbn [length]; lia]).
  pose proof (NoDup_incl_length (NoDup_nodup N.eq_dec (map fst (sLog s)) : NoDup all) IN) as LS.
  assert (EQ : length all = length nodes).
  { destruct (Nat.eq_dec (length all) (length nodes)) as [E|NE]; [exact E|exfalso].
    assert (X : length nodes - 1 <= length all * (length nodes - length all)); [|lia].
    destruct (length all) as [|k]; [lia|]. remember (length nodes - S k) as g. destruct g as [|g]; [lia|].
    assert (length nodes = S k + S g) by lia. nia. }
  intro n. rewrite <- HS. split; [apply IN|].
  apply (NoDup_length_incl (NoDup_nodup N.eq_dec (map fst (sLog s)) : NoDup all)); [lia|exact IN].
Qed.
Print Assumptions C168_few.

(** Nodes that are dead, so that every request to them is lost, are all that is missing. *)
Theorem C168_dead : forall D undef nodes sources o (d : D) timeout given s0 lost s dead,
  full nodes sources -> length nodes <= 7 -> In o nodes ->
  spread_start undef sources o d timeout given s0 -> lossy_runs undef sources s0 lost s -> sReqs s = [] ->
  (forall e, In e lost -> In (rTo (snd e)) dead) -> (forall n, In n dead -> ~ executed n (sLog s)) ->
  forall n, executed n (sLog s) <-> In n nodes /\ ~ In n dead.
Proof.
  intros D undef nodes sources o d timeout given s0 lost s dead FU L7 O St R Z LD ND n.
  destruct (lossy_end _ _ _ _ _ _ _ _ _ _ _ FU L7 O St R Z) as (EN & EO & AC). split.
  - intro X. split; [apply EN, X|]. intro Y. apply (ND n Y X).
  - intros [X Y]. destruct (in_dec N.eq_dec n (map fst (sLog s))) as [W|W]; [exact W|exfalso].
    destruct (AC o n EO X W) as (i & p & r & _ & I & E). apply Y. rewrite <- E. apply (LD _ I).
Qed.
Print Assumptions C168_dead.

(** ** As many can be enough *)

Lemma combine_join : forall A B (l1 l2 : list A) (m1 m2 : list B), length l1 = length m1 ->
  combine (l1 ++ l2) (m1 ++ m2) = combine l1 m1 ++ combine l2 m2.
Proof.
  induction l1 as [|a l1 IH]; intros l2 [|b m1] m2 L; try discriminate L; [reflexivity|].
  cbn [app combine]. rewrite IH by (cbn in L; lia). reflexivity.
Qed.
Lemma drop_all : forall D undef sources seen r log (extra : list (nat * request D)),
  lossy_runs undef sources (mkSpread seen (r ++ extra) log) extra (mkSpread seen r log).
Proof.
  intros D undef sources seen r log extra. induction extra as [|e l IH]; [rewrite app_nil_r; constructor|].
  apply (lr_lost undef sources seen r e l log l). exact IH.
Qed.

(** The sources within a set. *)
Definition inner (sources : N -> list N) (some : list N) (n : N) : list N :=
  if existsb (N.eqb n) some then filter (fun m => existsb (N.eqb m) some) (sources n) else [].

Lemma mem_in : forall n l, existsb (N.eqb n) l = true <-> In n l.
Proof.
  intros n l. rewrite existsb_exists. split.
  - intros (x & X & E). apply N.eqb_eq in E. subst. exact X.
  - intro X. exists n. split; [exact X|apply N.eqb_refl].
Qed.
Lemma inner_in : forall sources some n m, In n some -> (In m (inner sources some n) <-> In m (sources n) /\ In m some).
Proof. intros sources some n m X. unfold inner. rewrite (proj2 (mem_in n some) X), filter_In, mem_in. reflexivity. Qed.

Section Tight.
Context {D : Type}.
Variables (undef : N) (nodes : list N) (sources : N -> list N) (some : list N).
Hypothesis FU : full nodes sources.
Hypothesis L7 : length nodes <= 7.
Hypothesis ND : NoDup some.
Hypothesis IN : incl some nodes.
Let out := without some nodes.

Lemma small_sources : forall n, In n nodes -> length (sources n) <= 6.
Proof.
  intros n N. destruct (proj2 FU n N) as [NS FS].
  assert (Y : length (n :: sources n) <= length nodes); [|cbn [length] in Y; lia]. apply NoDup_incl_length.
  - constructor; [|exact NS]. intro Y. apply FS in Y. destruct Y; congruence.
  - intros x [<-|Y]; [exact N|apply FS, Y].
Qed.

Lemma sent_wider : forall n t (d : D) i reqs, In n some -> sent undef (inner sources some) n t d i reqs ->
  exists extra, sent undef sources n t d i (reqs ++ extra) /\ length extra = length out.
Proof.
  intros n t d i reqs N H. destruct H as [T times (A1 & A2 & A3) L F].
  destruct (proj2 FU n (IN _ N)) as [NS FS]. pose proof (small_sources n (IN _ N)) as L6.
  assert (LI : length (inner sources some n) <= length (sources n)).
  { unfold inner. rewrite (proj2 (mem_in n some) N). clear. induction (sources n) as [|a l IH]; [reflexivity|].
    cbn [filter]. destruct (existsb (N.eqb a) some); cbn [length]; lia. }
  assert (AL : incl (inner sources some n) T) by (apply NoDup_length_incl; [exact A1|lia|exact A2]).
  set (times2 := repeat (ShrinkTimeout undef t) (length out)).
  exists (map (fun p => (i, mkReq (fst p) d (snd p))) (combine out times2)). split.
  - rewrite <- map_app, <- combine_join by (symmetry; exact L). constructor.
    + assert (NT : NoDup (T ++ out)).
      { apply nodup_join; [exact A1|apply NoDup_filter, FU|].
        intros x X Y. apply A2 in X. apply (inner_in sources some n x N) in X.
        apply without_in in Y. tauto. }
      assert (I1 : incl (T ++ out) (sources n)).
      { intros x X. apply in_app_or in X. destruct X as [X|X]; [apply A2, (inner_in sources some n x N) in X; apply X|].
        apply without_in in X. apply FS. split; [apply X|]. intro E. subst x. destruct X. contradiction. }
      split; [exact NT|]. split; [exact I1|]. rewrite Nat.min_r by exact L6.
      apply Nat.le_antisymm; [apply NoDup_incl_length; assumption|]. apply NoDup_incl_length; [exact NS|].
      intros x X. apply in_or_app. destruct (in_dec N.eq_dec x some) as [Y|Y].
      * left. apply AL, (inner_in sources some n x N). auto.
      * right. apply without_in. split; [apply FS, X|exact Y].
    + rewrite !app_length, L. f_equal. unfold times2. apply repeat_length.
    + apply Forall_app. split; [exact F|]. apply Forall_forall. intros x X. apply repeat_spec in X. subst x. exists 0. reflexivity.
  - rewrite map_length, combine_length. unfold times2. rewrite repeat_length. lia.
Qed.

Definition inside (s : spread D) : Prop :=
  sSeen s = map fst (sLog s) /\ NoDup (sSeen s) /\ forall e, In e (sReqs s) -> In (rTo (snd e)) some.

Lemma inside_step : forall s s1, spread_step undef (inner sources some) s s1 -> inside s ->
  inside s1 /\ exists l, lossy_runs undef sources s l s1 /\
    length l + length (sLog s) * length out = length (sLog s1) * length out.
Proof.
  intros s s1 St (A & B & C). destruct St as [seen r1 i r r2 log I|seen r1 i r r2 log reqs I H]; cbn [sSeen sReqs sLog] in *.
  - split.
    + split; [exact A|]. split; [exact B|]. cbn [sReqs]. intros e X. apply C. apply in_or_app. apply in_app_or in X.
      destruct X; [left|right; right]; assumption.
    + exists []. split; [|reflexivity]. eapply lr_step; [apply sp_duplicate; exact I|constructor].
  - assert (N : In (rTo r) some) by (apply (C (i, r)), in_or_app; right; left; reflexivity). split.
    + split; [cbn [sSeen sLog map fst]; rewrite A; reflexivity|]. split; [constructor; assumption|]. cbn [sReqs].
      intros e X. apply in_app_or in X. destruct X as [X|X]; [apply C, in_or_app; left; exact X|].
      apply in_app_or in X. destruct X as [X|X]; [apply C, in_or_app; right; right; exact X|].
      pose proof (sent_source _ _ _ _ _ _ _ _ _ H X) as Y. apply (inner_in sources some _ _ N) in Y. apply Y.
    + destruct (sent_wider _ _ _ _ _ N H) as (extra & W & LE). exists extra. split; [|cbn [length]; lia].
      eapply lr_step; [apply (sp_execute undef sources seen r1 i r r2 log (reqs ++ extra) I W)|].
      rewrite !app_assoc. rewrite <- !app_assoc. rewrite (app_assoc r2), (app_assoc r1). apply drop_all.
Qed.

Lemma inside_runs : forall s s1, spread_runs undef (inner sources some) s s1 -> inside s ->
  inside s1 /\ exists l, lossy_runs undef sources s l s1 /\
    length l + length (sLog s) * length out = length (sLog s1) * length out.
Proof.
  intros s s1 R. induction R as [s|s s1 s2 St R IH]; intro I.
  - split; [exact I|]. exists []. split; [constructor|reflexivity].
  - destruct (inside_step _ _ St I) as (I1 & l & R1 & E1). destruct (IH I1) as (I2 & l' & R2 & E2).
    split; [exact I2|]. exists (l ++ l'). split; [eapply lossy_app; eauto|]. rewrite app_length. lia.
Qed.
End Tight.

(** As many can be enough: for every set of r nodes that contains the node asked, r (n - r) lost
    requests may leave exactly these. *)
Theorem C168_enough : forall D undef nodes sources o (d : D) timeout some,
  full nodes sources -> length nodes <= 7 -> NoDup some -> incl some nodes -> In o some ->
  exists s0 lost s, spread_start undef sources o d timeout true s0 /\ lossy_runs undef sources s0 lost s /\ sReqs s = [] /\
    (forall n, executed n (sLog s) <-> In n some) /\ length lost = length some * (length nodes - length some).
Proof.
  intros D undef nodes sources o d timeout some FU L7 ND IN O.
  set (src := inner sources some).
  assert (NI : forall m, NoDup (src m)).
  { intro m. unfold src, inner. destruct (existsb (N.eqb m) some) eqn:X; [|constructor]. apply NoDup_filter.
    apply (proj2 FU), IN, mem_in, X. }
  destruct (C155_ends D undef src some o d timeout true) as [(s0 & St) EN].
  - intros m x X. unfold src, inner in X. destruct (existsb (N.eqb m) some); [|destruct X]. apply filter_In in X. apply mem_in, X.
  - exact O.
  - exact NI.
  - destruct (EN s0 s0 St (spr_here _ _ _)) as (s & R & Z).
    assert (SX : forall n, executed n (sLog s) <-> linked src o n).
    { apply (C155_reaches D undef src o d timeout true s0 s); auto. intros n L. split; [apply NI|].
      unfold src, inner. destruct (existsb (N.eqb n) some) eqn:X; [|cbn; lia]. apply mem_in, IN in X.
      transitivity (length (sources n)); [|apply (small_sources nodes sources FU L7 n X)].
      clear. induction (sources n) as [|a l IH]; [reflexivity|]. cbn [filter]. destruct (existsb (N.eqb a) some); cbn [length]; lia. }
    destruct St as [reqs S].
    destruct (sent_wider undef nodes sources some FU L7 IN o timeout d 0 reqs O S) as (extra & W & LE).
    assert (IS : inside some (mkSpread [o] reqs [(o, 0)])).
    { split; [reflexivity|]. split; [repeat constructor; intros []|]. cbn [sReqs]. intros e X.
      pose proof (sent_source _ _ _ _ _ _ _ _ _ S X) as Y. apply (inner_in sources some _ _ O) in Y. apply Y. }
    destruct (inside_runs undef nodes sources some FU L7 IN _ _ R IS) as ((A & B & _) & l & RL & EL).
    exists (mkSpread [o] (reqs ++ extra) [(o, 0)]), (extra ++ l), s.
    split; [exact (ss_start undef sources o d timeout true _ W)|].
    split; [eapply lossy_app; [apply drop_all|exact RL]|]. split; [exact Z|].
    assert (EX : forall n, executed n (sLog s) <-> In n some).
    { intro n. rewrite SX. split.
      - induction 1 as [|m k L IH I]; [exact O|]. apply (inner_in sources some m k IH) in I. apply I.
      - intro X. destruct (N.eq_dec n o) as [->|NE]; [constructor|]. apply (linked_on _ _ o); [constructor|].
        apply (inner_in sources some o n O). split; [|exact X]. apply (proj2 FU o (IN _ O)). split; [apply IN, X|exact NE]. }
    split; [exact EX|].
    assert (LL : length (sLog s) = length some).
    { rewrite <- (map_length fst), <- A. apply Nat.le_antisymm; apply NoDup_incl_length; auto; intros x X.
      - apply EX. unfold executed. rewrite <- A. exact X.
      - rewrite A. apply EX, X. }
    rewrite LL in EL. cbn [sLog length] in EL.
    pose proof (without_length some nodes (proj1 FU) ND IN) as LW. rewrite app_length, LE.
    replace (length nodes - length some) with (length (without some nodes)) by lia. lia.
Qed.
Print Assumptions C168_enough.

(** ** Lost answers *)

Open Scope N_scope.
(** The answer is exact over the data of the nodes that contribute, whatever requests and answers
    were lost, in any cluster. *)
Theorem C168_answer : forall G M ex config q qv undef sources o timeout given s0 lost s store tick order silent nodes,
  spread_start undef sources o (mkDatum (Some q) qv) timeout given s0 -> lossy_runs undef sources s0 lost s ->
  scHigherIsBetter config = true -> HasPrefix (scScoreFuncName config) (bs "Annoy") = false ->
  1 <= scLimit config < M32 -> scResultLimit config < M63 -> scGroupLimit config = 0 ->
  (forall n, store_wf (store n)) -> (forall n, Permutation (order n) (store n)) ->
  (forall n, In n nodes <-> exists j, contributes (rev (sLog s)) silent j n) ->
  let score := GetVectorComparisonFunction M (scScoreFuncName config) in
  let everything := flat_map (fun n => candidates ex score config q (tick n) (store n)) nodes in
  no_nan everything ->
  (exists out, answer G M ex config (mkDatum (Some q) qv) (cut_calls store tick order silent o s) out) /\
  forall out, answer G M ex config (mkDatum (Some q) qv) (cut_calls store tick order silent o s) out ->
    distinct_topk (beats true) skey (wanted (scLimit config) (scResultLimit config)) everything out.
Proof.
  intros G M ex config q qv undef sources o timeout given s0 lost s store tick order silent nodes
    St R Hh HA HL HR HG W O CN score everything NN.
  assert (LO : log_ok o s) by (eapply lossy_log; [exact R|eapply log_start; exact St]).
  assert (EQ : forall x, In x (reached ex score config q (cut_calls store tick order silent o s)) <-> In x everything).
  { intro x. rewrite (cut_reached store tick order ex score config q silent _ o s LO x).
    unfold everything. rewrite in_flat_map. split.
    - intros (j & n & A & B). exists n. split; [apply CN; eauto|exact B].
    - intros (n & A & B). apply CN in A. destruct A as (j & A). eauto. }
  assert (NR : no_nan (reached ex score config q (cut_calls store tick order silent o s))).
  { unfold no_nan in *. rewrite Forall_forall in *. intros x I. apply NN, EQ, I. }
  assert (WF : tree_wf (cut_calls store tick order silent o s)) by (apply cut_wf; auto).
  split; [eapply C23_call_tree_answers; eauto|].
  intros out A. eapply distinct_topk_ext; [exact EQ|]. eapply C23_call_tree_exact; eauto.
Qed.
Print Assumptions C168_answer.
Close Scope N_scope.

(** If no answer is lost, the nodes that contribute are those that execute the query. *)
Theorem C168_all_heard : forall D undef sources o (d : D) timeout given s0 lost s,
  spread_start undef sources o d timeout given s0 -> lossy_runs undef sources s0 lost s ->
  forall n, (exists j, contributes (rev (sLog s)) [] j n) <-> executed n (sLog s).
Proof.
  intros D undef sources o d timeout given s0 lost s St R n.
  assert (LO : log_ok o s) by (eapply lossy_log; [exact R|eapply log_start; exact St]).
  destruct (log_facts _ _ _ LO) as [O P]. split.
  - intros (j & C). assert (X : exists p, nth_error (rev (sLog s)) j = Some (n, p)) by (destruct C; eauto).
    destruct X as (p & X). apply nth_error_In, in_rev in X. apply in_map_iff. exists (n, p). auto.
  - intro X. apply in_map_iff in X. destruct X as ((n', p) & <- & X). cbn [fst]. apply in_rev, In_nth_error in X. destruct X as (j & X).
    exists j. revert n' p X. induction j as [j IH] using lt_wf_ind. intros n' p X. destruct j as [|j]; [econstructor; exact X|].
    pose proof (P _ _ _ X) as LE.
    destruct (nth_error (rev (sLog s)) p) as [(m, p')|] eqn:E.
    + eapply contributes_child; [apply (IH p ltac:(lia) m p' E)|exact X|intros []].
    + exfalso. apply nth_error_None in E. assert (S j < length (rev (sLog s))) by (apply nth_error_Some; congruence). lia.
Qed.
Print Assumptions C168_all_heard.

Section Hide.
Context {D : Type}.
Variables (undef : N) (sources : N -> list N).

(** Execute the requests of execution i to these nodes. *)
Lemma execute_all : forall i L (s : spread D), NoDup L -> (forall m, In m L -> NoDup (sources m)) -> (forall m, In m L -> ~ In m (sSeen s)) ->
  (forall m, In m L -> exists r, In (i, r) (sReqs s) /\ rTo r = m) ->
  exists s', spread_runs undef sources s s' /\ sSeen s' = rev L ++ sSeen s /\ sLog s' = rev (map (fun m => (m, i)) L) ++ sLog s /\
    forall j r, In (j, r) (sReqs s) -> (j = i -> ~ In (rTo r) L) -> In (j, r) (sReqs s').
Proof.
  induction L as [|m L IH]; intros s N NS NEW RQ.
  - exists s. split; [constructor|]. split; [reflexivity|]. split; [reflexivity|]. auto.
  - inversion_clear N as [|? ? X Y]. destruct (RQ m (or_introl eq_refl)) as (r & R & E).
    destruct s as [seen reqs log]. cbn [sSeen sReqs sLog] in *. apply in_split in R. destruct R as (r1 & r2 & ->).
    destruct (sent_exists undef sources (rTo r) (rTimeout r) (rDatum r) (length log)) as (new & SN);
      [rewrite E; apply NS; left; reflexivity|].
    assert (NM : ~ In (rTo r) seen) by (rewrite E; apply NEW; left; reflexivity).
    pose proof (sp_execute undef sources seen r1 i r r2 log new NM SN) as St.
    assert (KEEP : forall j r', In (j, r') (r1 ++ (i, r) :: r2) -> (j = i -> rTo r' <> m) -> In (j, r') (r1 ++ r2 ++ new)).
    { intros j r' I NE. apply in_app_or in I. destruct I as [I|[I|I]].
      - apply in_or_app. left. exact I.
      - injection I as -> ->. exfalso. apply NE; auto.
      - apply in_or_app. right. apply in_or_app. left. exact I. }
    destruct (IH (mkSpread (rTo r :: seen) (r1 ++ r2 ++ new) ((rTo r, i) :: log)) Y) as (s' & RR & A & B & C).
    + intros x Hx. apply NS. right. exact Hx.
    + cbn [sSeen]. intros x Hx [W|W]; [apply X; congruence|]. apply (NEW x); [right; exact Hx|exact W].
    + cbn [sReqs]. intros x Hx. destruct (RQ x (or_intror Hx)) as (r' & R' & E'). exists r'. split; [|exact E'].
      apply KEEP; [exact R'|]. intros _ W. apply X. congruence.
    + cbn [sSeen sReqs sLog] in *. exists s'. split; [econstructor; eauto|]. split; [|split].
      * rewrite A. cbn [rev]. rewrite <- app_assoc, E. reflexivity.
      * rewrite B. cbn [map rev]. rewrite <- app_assoc, E. reflexivity.
      * intros j r' I NE. apply C; [apply KEEP; [exact I|]|]; intro J; specialize (NE J); [intro W; apply NE; left; auto|].
        intro W. apply NE. right. exact W.
Qed.

(** Requests to nodes that have executed the query come to nothing. *)
Lemma finish_all : forall (s : spread D), (forall e, In e (sReqs s) -> In (rTo (snd e)) (sSeen s)) ->
  exists s', spread_runs undef sources s s' /\ sReqs s' = [] /\ sLog s' = sLog s.
Proof.
  intros [seen reqs log]. cbn [sReqs sSeen sLog]. induction reqs as [|(i, r) reqs IH]; intro H.
  - eexists. split; [constructor|]. auto.
  - destruct IH as (s' & R & Z & L); [intros e X; apply H; right; exact X|]. exists s'. split; [|auto].
    econstructor; [apply (sp_duplicate undef sources seen [] i r reqs log)|exact R]. apply (H (i, r)). left. reflexivity.
Qed.
End Hide.

Lemma sent_all : forall D undef nodes sources n t (d : D) i reqs, full nodes sources -> length nodes <= 7 -> In n nodes ->
  sent undef sources n t d i reqs -> forall m, In m nodes -> m <> n -> exists r, In (i, r) reqs /\ rTo r = m.
Proof.
  intros D undef nodes sources n t d i reqs FU L7 N SN m M NE. destruct (sent_targets _ _ _ _ _ _ _ SN) as [(A1 & A2 & A3) B].
  pose proof (small_sources nodes sources FU L7 n N) as L6. rewrite Nat.min_r in A3 by exact L6.
  assert (X : In m (map (fun e => rTo (snd e)) reqs)).
  { eapply NoDup_length_incl; [exact A1|apply Nat.eq_le_incl; symmetry; exact A3|exact A2|]. apply (proj2 FU _ N). auto. }
  apply in_map_iff in X. destruct X as ((j, r) & E & X). destruct (B _ X) as [F _]. cbn [fst snd] in *. subst j. exists r. auto.
Qed.

Lemma runs_nodes : forall D undef nodes sources (s s' : spread D), full nodes sources -> spread_runs undef sources s s' ->
  (forall e, In e (sReqs s) -> In (rTo (snd e)) nodes) -> forall e, In e (sReqs s') -> In (rTo (snd e)) nodes.
Proof.
  intros D undef nodes sources s s' [_ FU] R. induction R as [s|s s1 s2 St R IH]; intro B; [exact B|].
  apply IH. destruct St as [seen r1 i r r2 log I|seen r1 i r r2 log reqs I H]; cbn [sReqs] in *.
  - intros e X. apply B. apply in_or_app. apply in_app_or in X. destruct X; [left|right; right]; assumption.
  - assert (N : In (rTo r) nodes) by (apply (B (i, r)), in_or_app; right; left; reflexivity).
    intros e X. apply in_app_or in X. destruct X as [X|X]; [apply B, in_or_app; left; exact X|].
    apply in_app_or in X. destruct X as [X|X]; [apply B, in_or_app; right; right; exact X|].
    apply (FU _ N). eapply sent_source; eauto.
Qed.

Lemma spread_join : forall D undef sources (s s1 s2 : spread D), spread_runs undef sources s s1 -> spread_runs undef sources s1 s2 ->
  spread_runs undef sources s s2.
Proof. induction 1; intros; [assumption|]. econstructor; eauto. Qed.

(** One lost answer may hide any set of nodes that does not contain the node asked. *)
Theorem C168_hidden : forall D undef nodes sources o a (d : D) timeout hidden,
  full nodes sources -> length nodes <= 7 -> In o nodes -> ~ In o hidden -> incl hidden nodes -> In a hidden ->
  exists s0 s, spread_start undef sources o d timeout true s0 /\ spread_runs undef sources s0 s /\ sReqs s = [] /\
    (forall n, In n nodes -> executed n (sLog s)) /\
    nth_error (rev (sLog s)) 1 = Some (a, 0) /\
    forall n, (exists j, contributes (rev (sLog s)) [1] j n) <-> In n nodes /\ ~ In n hidden.
Proof.
  intros D undef nodes sources o a d timeout hidden FU L7 O NO IH A.
  assert (NA : In a nodes) by (apply IH, A).
  assert (OA : a <> o) by (intros ->; contradiction).
  destruct (sent_exists undef sources o timeout d 0) as (reqs & SO); [apply (proj2 FU _ O)|].
  pose proof (ss_start undef sources o d timeout true reqs SO) as St. cbn iota in St.
  destruct (sent_all _ _ _ _ _ _ _ _ _ FU L7 O SO a NA OA) as (ra & RA & EA).
  pose proof RA as RA'. apply in_split in RA'. destruct RA' as (r1 & r2 & ER).
  destruct (sent_exists undef sources (rTo ra) (rTimeout ra) (rDatum ra) 1) as (new & SA); [rewrite EA; apply (proj2 FU _ NA)|].
  assert (S1 : spread_step undef sources (mkSpread [o] reqs [(o, 0)]) (mkSpread [rTo ra; o] (r1 ++ r2 ++ new) [(rTo ra, 0); (o, 0)])).
  { rewrite ER. apply (sp_execute undef sources [o] r1 0 ra r2 [(o, 0)] new); [intros [X|[]]; congruence|exact SA]. }
  rewrite EA in S1. rewrite EA in SA.
  set (H' := filter (fun n => existsb (N.eqb n) hidden && negb (N.eqb n a)) nodes).
  set (V := filter (fun n => negb (existsb (N.eqb n) hidden) && negb (N.eqb n o)) nodes).
  assert (HI : forall n, In n H' <-> In n hidden /\ n <> a).
  { intro n. unfold H'. rewrite filter_In, andb_true_iff, mem_in, negb_true_iff, N.eqb_neq. split; [tauto|]. intros [X Y]. auto. }
  assert (VI : forall n, In n V <-> In n nodes /\ ~ In n hidden /\ n <> o).
  { intro n. unfold V. rewrite filter_In, andb_true_iff, !negb_true_iff, N.eqb_neq, <- (mem_in n hidden), not_true_iff_false. tauto. }
  assert (KEEP : forall m, In m nodes -> m <> o -> m <> a -> exists r, In (0, r) (r1 ++ r2 ++ new) /\ rTo r = m).
  { intros m M X Y. destruct (sent_all _ _ _ _ _ _ _ _ _ FU L7 O SO m M X) as (r & R & E). exists r. split; [|exact E].
    rewrite ER in R. apply in_app_or in R. destruct R as [R|[R|R]].
    - apply in_or_app. left. exact R.
    - injection R as ->. congruence.
    - apply in_or_app. right. apply in_or_app. left. exact R. }
  destruct (execute_all undef sources 1 H' (mkSpread [a; o] (r1 ++ r2 ++ new) [(a, 0); (o, 0)])) as (s2 & R2 & E2 & L2 & K2).
  - apply NoDup_filter, FU.
  - intros m M. apply (proj2 FU). apply IH, HI, M.
  - cbn [sSeen]. intros m M. apply HI in M. intros [X|[X|[]]]; [destruct M; congruence|subst m; tauto].
  - cbn [sReqs]. intros m M. apply HI in M. destruct (sent_all _ _ _ _ _ _ _ _ _ FU L7 NA SA m (IH _ (proj1 M)) (proj2 M)) as (r & R & E).
    exists r. split; [|exact E]. apply in_or_app. right. apply in_or_app. right. exact R.
  - cbn [sSeen sLog sReqs] in *.
    destruct (execute_all undef sources 0 V s2) as (s3 & R3 & E3 & L3 & _).
    + apply NoDup_filter, FU.
    + intros m M. apply (proj2 FU). apply VI, M.
    + intros m M. apply VI in M. rewrite E2. intro X. apply in_app_or in X. destruct X as [X|[X|[X|[]]]].
      * apply in_rev in X. apply HI in X. tauto.
      * subst m. tauto.
      * destruct M as (_ & _ & M). congruence.
    + intros m M. apply VI in M. destruct (KEEP m) as (r & R & E); [apply M|apply M|intros ->; tauto|].
      exists r. split; [|exact E]. apply K2; [exact R|]. discriminate.
    + assert (RR : spread_runs undef sources (mkSpread [o] reqs [(o, 0)]) s3).
      { econstructor; [exact S1|]. eapply spread_join; eauto. }
      assert (ALL : forall n, In n nodes -> In n (sSeen s3)).
      { intros n N. rewrite E3, E2. destruct (N.eq_dec n o) as [->|NO']; [apply in_or_app; right; apply in_or_app; right; right; left; reflexivity|].
        destruct (N.eq_dec n a) as [->|NA']; [apply in_or_app; right; apply in_or_app; right; left; reflexivity|].
        apply in_or_app. destruct (in_dec N.eq_dec n hidden) as [X|X].
        - right. apply in_or_app. left. apply in_rev. rewrite rev_involutive. apply HI. auto.
        - left. apply in_rev. rewrite rev_involutive. apply VI. auto. }
      destruct (finish_all undef sources s3) as (s & R4 & Z & L4).
      { intros e X. apply ALL. eapply runs_nodes; [exact FU|exact RR| |exact X].
        cbn [sReqs]. intros e' X'. apply (proj2 FU _ O). eapply sent_source; eauto. }
      assert (LOG : rev (sLog s) = (o, 0) :: (a, 0) :: map (fun m => (m, 1)) H' ++ map (fun m => (m, 0)) V).
      { rewrite L4, L3, L2. rewrite !rev_app_distr, !rev_involutive. cbn [rev app]. reflexivity. }
      exists (mkSpread [o] reqs [(o, 0)]), s. split; [exact St|]. split; [eapply spread_join; eauto|]. split; [exact Z|]. split; [|split].
      * intros n N. unfold executed. apply in_map_iff. pose proof (ALL n N) as X. rewrite E3, E2 in X.
        apply in_app_or in X. destruct X as [X|X]; [|apply in_app_or in X; destruct X as [X|[X|[X|[]]]]].
        -- exists (n, 0). split; [reflexivity|]. apply in_rev. rewrite LOG. right. right. apply in_or_app. right. apply in_map_iff.
           exists n. split; [reflexivity|]. apply in_rev, X.
        -- exists (n, 1). split; [reflexivity|]. apply in_rev. rewrite LOG. right. right. apply in_or_app. left. apply in_map_iff.
           exists n. split; [reflexivity|]. apply in_rev, X.
        -- exists (n, 0). split; [reflexivity|]. apply in_rev. rewrite LOG. right. left. congruence.
        -- exists (n, 0). split; [reflexivity|]. apply in_rev. rewrite LOG. left. congruence.
      * rewrite LOG. reflexivity.
      * intro n. rewrite LOG. split.
        -- intros (j & C). destruct C as [n p E|i m j n C E NI].
           ++ cbn [nth_error] in E. injection E as <- _. auto.
           ++ destruct j as [|j]; [exfalso; apply NI; left; reflexivity|]. cbn [nth_error] in E. apply nth_error_In, in_app_or in E.
              destruct E as [E|E]; apply in_map_iff in E; destruct E as (x & E & X); injection E as -> <-.
              ** exfalso. inversion C as [|? ? ? ? ? ? NI']; subst. apply NI'. left. reflexivity.
              ** apply VI in X. tauto.
        -- intros [N NH]. destruct (N.eq_dec n o) as [->|NE]; [exists 0; econstructor; reflexivity|].
           assert (X : In (n, 0) (map (fun m => (m, 1)) H' ++ map (fun m => (m, 0)) V)).
           { apply in_or_app. right. apply in_map_iff. exists n. split; [reflexivity|]. apply VI. auto. }
           apply In_nth_error in X. destruct X as (j & X). exists (S (S j)).
           eapply contributes_child; [econstructor; reflexivity|cbn [nth_error]; exact X|].
           intros [W|[]]. discriminate W.
Qed.
Print Assumptions C168_hidden.

(** ** Examples *)

Definition quint : list N := [0; 1; 2; 3; 4]%N.
Definition trio : list N := [0; 1; 2]%N.
Definition rest_of (l : list N) (n : N) : list N := filter (fun m => negb (N.eqb m n)) l.

Lemma rest_full : forall l, NoDup l -> full l (rest_of l).
Proof.
  intros l ND. split; [exact ND|]. intros n _. split; [apply NoDup_filter, ND|]. intro m. unfold rest_of.
  rewrite filter_In, negb_true_iff, N.eqb_neq. tauto.
Qed.

Lemma quint_full : full quint (rest_of quint).
Proof. apply rest_full. unfold quint. repeat constructor; cbn [In]; intuition discriminate. Qed.
Lemma trio_full : full trio (rest_of trio).
Proof. apply rest_full. unfold trio. repeat constructor; cbn [In]; intuition discriminate. Qed.

(** Six lost requests leave three of five nodes, and no fewer would. *)
Example C168_instance : exists s0 lost s, spread_start 9 (rest_of quint) 0 tt 1000 true s0 /\
  lossy_runs 9 (rest_of quint) s0 lost s /\ sReqs s = [] /\ (forall n, In n trio <-> executed n (sLog s)) /\
  length lost = 6 /\ length trio * (length quint - length trio) <= length lost.
Proof.
  assert (ND : NoDup trio) by apply trio_full.
  destruct (C168_enough unit 9 quint (rest_of quint) 0 tt 1000 trio quint_full ltac:(cbn; lia) ND) as (s0 & lost & s & St & R & Z & E & L).
  - intros x X. cbn [trio In] in X. cbn [quint In]. tauto.
  - left. reflexivity.
  - exists s0, lost, s. split; [exact St|]. split; [exact R|]. split; [exact Z|].
    assert (E' : forall n, In n trio <-> executed n (sLog s)) by (intro n; symmetry; apply E).
    split; [exact E'|]. split; [exact L|].
    apply (C168_requests unit 9 quint (rest_of quint) 0 tt 1000 true s0 lost s trio quint_full ltac:(cbn; lia) ltac:(left; reflexivity) St R Z ND E').
Qed.

Definition trio_time : N := ShrinkTimeout 9 1000.
Definition trio_start : spread unit := mkSpread [0%N] [(0, mkReq 1 tt trio_time); (0, mkReq 2 tt trio_time)] [(0%N, 0)].

Lemma trio_sent : forall n t i x y, rest_of trio n = [x; y] -> x <> y ->
  sent 9 (rest_of trio) n t tt i [(i, mkReq x tt (ShrinkTimeout 9 t)); (i, mkReq y tt (ShrinkTimeout 9 t))].
Proof.
  intros n t i x y E NE. apply (sent_to 9 (rest_of trio) n t tt i [x; y] [ShrinkTimeout 9 t; ShrinkTimeout 9 t]); [|reflexivity|].
  - rewrite <- E. split; [rewrite E; repeat constructor; cbn [In]; intuition congruence|]. split; [apply incl_refl|]. rewrite E. reflexivity.
  - repeat constructor; exists 0; reflexivity.
Qed.

(** Three nodes: the request of node 0 to node 2 is lost, and node 2 is reached through node 1. *)
Example C168_instance_few : spread_start 9 (rest_of trio) 0 tt 1000 true trio_start /\
  exists lost s, lossy_runs 9 (rest_of trio) trio_start lost s /\ sReqs s = [] /\ length lost = 1 /\
    forall n, executed n (sLog s) <-> In n trio.
Proof.
  assert (St : spread_start 9 (rest_of trio) 0 tt 1000 true trio_start).
  { apply (ss_start 9 (rest_of trio) 0 tt 1000 true). apply (trio_sent 0 1000 0 1 2); [reflexivity|discriminate]. }
  split; [exact St|].
  assert (R : exists s, lossy_runs 9 (rest_of trio) trio_start [(0, mkReq 2 tt trio_time)] s /\ sReqs s = []).
  { eexists. split.
    - apply (lr_lost 9 (rest_of trio) [0%N] [(0, mkReq 1 tt trio_time)] (0, mkReq 2 tt trio_time) [] [(0%N, 0)]). cbn [app].
      eapply lr_step; [apply (sp_execute 9 (rest_of trio) [0%N] [] 0 (mkReq 1 tt trio_time) [] [(0%N, 0)])|].
      + cbn [rTo In]. intuition discriminate.
      + apply (trio_sent 1 trio_time 1 0 2); [reflexivity|discriminate].
      + cbn [app rTo]. eapply lr_step; [apply (sp_duplicate 9 (rest_of trio) [1%N; 0%N] []); right; left; reflexivity|]. cbn [app].
        eapply lr_step; [apply (sp_execute 9 (rest_of trio) [1%N; 0%N] [])|].
        * cbn [rTo In]. intuition discriminate.
        * apply (trio_sent 2 _ 2 0 1); [reflexivity|discriminate].
        * cbn [app rTo]. eapply lr_step; [apply (sp_duplicate 9 (rest_of trio) [2%N; 1%N; 0%N] []); cbn [rTo In]; auto|]. cbn [app].
          eapply lr_step; [apply (sp_duplicate 9 (rest_of trio) [2%N; 1%N; 0%N] []); cbn [rTo In]; auto|]. cbn [app]. apply lr_here.
    - reflexivity. }
  destruct R as (s & R & Z). exists [(0, mkReq 2%N tt trio_time)], s. split; [exact R|]. split; [exact Z|]. split; [reflexivity|].
  apply (C168_few unit 9 trio (rest_of trio) 0 tt 1000 true trio_start _ s trio_full ltac:(cbn; lia) ltac:(left; reflexivity) St R Z).
  cbn. lia.
Qed.

(** The same three nodes when node 2 is dead. *)
Example C168_instance_dead : exists lost s, lossy_runs 9 (rest_of trio) trio_start lost s /\ sReqs s = [] /\
  (forall e, In e lost -> In (rTo (snd e)) [2%N]) /\ forall n, executed n (sLog s) <-> In n trio /\ ~ In n [2%N].
Proof.
  destruct C168_instance_few as [St _].
  assert (R : exists s, lossy_runs 9 (rest_of trio) trio_start [(0, mkReq 2 tt trio_time); (1, mkReq 2 tt (ShrinkTimeout 9 trio_time))] s /\
    sReqs s = [] /\ map fst (sLog s) = [1; 0]%N).
  { eexists. split.
    - apply (lr_lost 9 (rest_of trio) [0%N] [(0, mkReq 1 tt trio_time)] (0, mkReq 2 tt trio_time) [] [(0%N, 0)]). cbn [app].
      eapply lr_step; [apply (sp_execute 9 (rest_of trio) [0%N] [] 0 (mkReq 1 tt trio_time) [] [(0%N, 0)])|].
      + cbn [rTo In]. intuition discriminate.
      + apply (trio_sent 1 trio_time 1 0 2); [reflexivity|discriminate].
      + cbn [app rTo]. eapply lr_step; [apply (sp_duplicate 9 (rest_of trio) [1%N; 0%N] []); right; left; reflexivity|]. cbn [app].
        apply (lr_lost 9 (rest_of trio) [1%N; 0%N] []). cbn [app]. apply lr_here.
    - split; reflexivity. }
  destruct R as (s & R & Z & E). eexists _, s. split; [exact R|]. split; [exact Z|].
  assert (LD : forall e, In e [(0, mkReq 2 tt trio_time); (1, mkReq 2 tt (ShrinkTimeout 9 trio_time))] -> In (rTo (snd e)) [2%N]).
  { intros e [<-|[<-|[]]]; left; reflexivity. }
  split; [exact LD|].
  apply (C168_dead unit 9 trio (rest_of trio) 0 tt 1000 true trio_start _ s [2%N] trio_full ltac:(cbn; lia) ltac:(left; reflexivity) St R Z LD).
  intros n [<-|[]]. unfold executed. rewrite E. cbn [In]. intuition discriminate.
Qed.

(** Four of five nodes have the datum and all execute the query; one lost answer and nothing is found. *)
Definition four_store (n : N) : dbmap := if N.eqb n 0 then [] else reach_store 1.

Example C168_instance_hidden : exists s0 s out,
  spread_start 9 (rest_of quint) 0 (mkDatum (Some kb) None) 1000 true s0 /\ spread_runs 9 (rest_of quint) s0 s /\ sReqs s = [] /\
  (forall n, In n quint -> executed n (sLog s)) /\
  candidates any_filter QuickVectorDistance (cfg1 true 2) kb (reach_tick 1) (four_store 1) <> [] /\
  answer insertion_sort mathlib_ex any_filter (cfg1 true 2) (mkDatum (Some kb) None) (cut_calls four_store reach_tick four_store [1] 0 s) out /\
  out = [].
Proof.
  destruct (C168_hidden Datum 9 quint (rest_of quint) 0 1 (mkDatum (Some kb) None) 1000 [1; 2; 3; 4]%N quint_full ltac:(cbn; lia))
    as (s0 & s & St & R & Z & ALL & _ & C).
  - left. reflexivity.
  - cbn [In]. intuition discriminate.
  - intros x X. right. exact X.
  - left. reflexivity.
  - destruct (C168_answer insertion_sort mathlib_ex any_filter (cfg1 true 2) kb None 9 (rest_of quint) 0 1000 true s0 [] s
      four_store reach_tick four_store [1] [0%N] St (runs_lossy _ _ _ _ R) eq_refl eq_refl
      ltac:(cbn; unfold M32; lia) ltac:(cbn; unfold M63; lia) eq_refl) as [[out A] TOP].
    + intro n. unfold four_store. destruct (N.eqb n 0).
      * split; [constructor|intros b e []].
      * destruct kva_ok as (KA & KB & KC). split; [repeat constructor; cbn; auto|]. intros b e [H|[]]. injection H as <- <-. exists ka, va. auto.
    + intro n. apply Permutation_refl.
    + intro n. rewrite C. split.
      * intros [<-|[]]. split; [left; reflexivity|]. cbn [In]. intuition discriminate.
      * cbn [quint In]. intuition.
    + vm_compute. constructor.
    + exists s0, s, out. split; [exact St|]. split; [exact R|]. split; [exact Z|]. split; [exact ALL|].
      split; [vm_compute; discriminate|]. split; [exact A|].
      destruct (TOP out A) as (_ & IN & _). destruct out as [|x out]; [reflexivity|]. destruct (IN x (or_introl eq_refl)).
Qed.
