(** C169: how many lost requests a cluster of any size bears. *)
From Verif.Base Require Import GoBase GoLemmas Assoc Float GoSort.
From Verif.Model Require Import Codec Store Data Vector Search Aggregator QueryCache Flood CallTree Spread Insert Dataset Node Gossip Lossy.
From Verif.Spec Require Import Wire StoreSpec TopK TreeSpec ReachSpec InsertSpec NodeSpec GossipSpec MeshSpec BigSpec LossSpec.
From Verif.Proof Require Import TopKP VectorP NodeP GossipP InsertP InsertClusterP SearchP CallTreeP MeshP SpreadQ TouchP LossP.
From Verif.Props Require Import StoreProps SearchProps InsertProps CopiesProps ReadWriteProps GossipProps ReachProps MeshProps TogetherProps
  BigProps EnoughProps LossProps.
From Coq Require Import Lia.
Open Scope nat_scope.

Lemma nodup_append : forall A (l1 l2 : list A), NoDup l1 -> NoDup l2 -> (forall x, In x l1 -> ~ In x l2) -> NoDup (l1 ++ l2).
Proof.
  intros A. induction l1 as [|y l1 I1]; intros l2 N1 N2 AP; [exact N2|]. inversion_clear N1 as [|? ? Y Y']. cbn [app]. constructor.
  - intro Z. apply in_app_or in Z. destruct Z as [Z|Z]; [contradiction|]. apply (AP y); [left; reflexivity|exact Z].
  - apply I1; auto. intros x Hx. apply AP. right. exact Hx.
Qed.

Section Count.
Context {D : Type}.
Variables (undef : N) (nodes : list N) (sources : N -> list N).
Hypothesis FU : full nodes sources.

Lemma members_only : forall o (d : D) timeout given s0 lost s, In o nodes ->
  spread_start undef sources o d timeout given s0 -> lossy_runs undef sources s0 lost s ->
  (forall n, executed n (sLog s) -> In n nodes) /\ executed o (sLog s).
Proof.
  intros o d timeout given s0 lost s O St R. split.
  - eapply lossy_nodes; eauto. destruct St as [reqs H]. cbn [sLog sReqs]. split; [intros n [<-|[]]; exact O|].
    intros e X. apply (proj2 FU _ O). eapply sent_source; eauto.
  - pose proof (lossy_log _ _ o _ _ _ R (log_start _ _ _ _ _ _ _ St)) as LG. destruct (log_facts _ _ _ LG) as [X _].
    apply nth_error_In in X. apply in_rev in X. apply in_map_iff. exists (o, 0). auto.
Qed.

Lemma others_count : forall n, In n nodes -> length (sources n) = length nodes - 1.
Proof.
  intros n N. destruct (proj2 FU n N) as [NS FS].
  assert (Y : length (n :: sources n) = length nodes); [|cbn [length] in Y; lia].
  assert (ND : NoDup (n :: sources n)) by (constructor; [|exact NS]; intro Y; apply FS in Y; destruct Y; congruence).
  apply Nat.le_antisymm; apply NoDup_incl_length; [exact ND| |apply FU|].
  - intros x [<-|Y]; [exact N|apply FS, Y].
  - intros x X. destruct (N.eq_dec x n) as [->|NE]; [left; reflexivity|right; apply FS; auto].
Qed.

(** The requests that a run lost, as pairs of nodes. *)
Lemma lost_pairs : forall o (d : D) timeout given s0 lost s all, In o nodes ->
  spread_start undef sources o d timeout given s0 -> lossy_runs undef sources s0 lost s -> sReqs s = [] ->
  NoDup all -> (forall n, In n all <-> executed n (sLog s)) ->
  forall part, NoDup part -> incl part all ->
  exists P, NoDup P /\ (forall e, In e P -> In (fst e) part) /\ length part * (Nat.min 6 (length nodes - 1) + 1 - length all) <= length P /\
    incl P (map (fun e : nat * request D => (fst (nth (fst e) (rev (sLog s)) (0%N, 0)), rTo (snd e))) lost).
Proof.
  intros o d timeout given s0 lost s all O St R Z NA HA.
  pose proof (accounted_runs _ _ _ _ _ R [] (accounted_start _ _ _ _ _ _ _ St)) as [_ AC]. cbn [app] in AC. rewrite Z in AC. cbn [app] in AC.
  destruct (members_only o d timeout given s0 lost s O St R) as [EN _].
  induction part as [|n part IH]; intros NP IP.
  - exists []. split; [constructor|]. split; [intros e []|]. split; [cbn; lia|intros e []].
  - inversion_clear NP as [|? ? X Y]. destruct (IH Y) as (P & P1 & P2 & P3 & P4); [intros x Hx; apply IP; right; exact Hx|].
    assert (EX : executed n (sLog s)) by (apply HA, IP; left; reflexivity).
    destruct (AC n EX) as (i & p & T & Q & (T1 & T2 & T3) & B).
    pose proof (EN n EX) as N. rewrite (others_count n N) in T3.
    set (U := without all T).
    assert (LU : length T <= length U + (length all - 1)).
    { set (V := filter (fun x => existsb (N.eqb x) all) T).
      assert (LS : length T = length U + length V).
      { unfold U, V, without. clear. induction T as [|a l IH]; [reflexivity|]. cbn [filter]. destruct (existsb (N.eqb a) all); cbn [negb length]; lia. }
      assert (LV : length (n :: V) <= length all).
      { apply NoDup_incl_length.
        - constructor; [|apply NoDup_filter, T1]. intro W. apply filter_In in W. destruct W as [W _]. apply T2 in W.
          apply (proj2 FU n N) in W. destruct W. congruence.
        - intros x [<-|W]; [apply IP; left; reflexivity|]. apply filter_In in W. apply mem_in, W. }
      cbn [length] in LV. lia. }
    exists (map (fun m => (n, m)) U ++ P). split; [|split; [|split]].
    + apply nodup_append; [|exact P1|].
      * apply FinFun.Injective_map_NoDup; [intros x y E; injection E; auto|]. apply NoDup_filter, T1.
      * intros e A C. apply in_map_iff in A. destruct A as (m & <- & _). apply P2 in C. contradiction.
    + intros e A. apply in_app_or in A. destruct A as [A|A]; [|right; apply P2, A].
      apply in_map_iff in A. destruct A as (m & <- & _). left. reflexivity.
    + rewrite app_length, map_length. cbn [length].
      assert (1 <= length all) by (specialize (IP n (or_introl eq_refl)); destruct all; [destruct IP|cbn [length]; lia]). lia.
    + intros e A. apply in_app_or in A. destruct A as [A|A]; [|apply P4, A].
      apply in_map_iff in A. destruct A as (m & <- & W). apply without_in in W. destruct W as [W NW].
      destruct (B m W) as [V|(r & V & E)]; [exfalso; apply NW, HA, V|].
      apply in_map_iff. exists (i, r). split; [|exact V]. cbn [fst snd]. rewrite (nth_error_nth _ _ _ Q). cbn [fst]. rewrite E. reflexivity.
Qed.
End Count.

(** In a cluster of any size n in which everybody is a source of everybody, with m = min(6, n - 1):
    a query that ends after it has been executed at r nodes has lost at least r (m + 1 - r) requests. *)
Theorem C169_requests : forall D undef nodes sources o (d : D) timeout given s0 lost s all,
  full nodes sources -> In o nodes ->
  spread_start undef sources o d timeout given s0 -> lossy_runs undef sources s0 lost s -> sReqs s = [] ->
  NoDup all -> (forall n, In n all <-> executed n (sLog s)) ->
  length all * (Nat.min 6 (length nodes - 1) + 1 - length all) <= length lost.
Proof.
  intros D undef nodes sources o d timeout given s0 lost s all FU O St R Z NA HA.
  destruct (lost_pairs undef nodes sources FU o d timeout given s0 lost s all O St R Z NA HA all NA (incl_refl _)) as (P & P1 & _ & P3 & P4).
  etransitivity; [exact P3|]. pose proof (NoDup_incl_length P1 P4) as X. rewrite map_length in X. exact X.
Qed.
Print Assumptions C169_requests.

(** So it is executed at seven nodes, or all if there are fewer, if less than m requests are lost. *)
Theorem C169_seven : forall D undef nodes sources o (d : D) timeout given s0 lost s,
  full nodes sources -> In o nodes ->
  spread_start undef sources o d timeout given s0 -> lossy_runs undef sources s0 lost s -> sReqs s = [] ->
  length lost < Nat.min 6 (length nodes - 1) ->
  exists all, NoDup all /\ (forall n, In n all <-> executed n (sLog s)) /\ incl all nodes /\ Nat.min 7 (length nodes) <= length all.
Proof.
  intros D undef nodes sources o d timeout given s0 lost s FU O St R Z L.
  set (all := nodup N.eq_dec (map fst (sLog s))).
  assert (HS : forall n, In n all <-> executed n (sLog s)) by (intro n; apply nodup_In).
  assert (NA : NoDup all) by apply NoDup_nodup.
  pose proof (C169_requests _ _ _ _ _ _ _ _ _ _ _ all FU O St R Z NA HS) as LE.
  destruct (members_only undef nodes sources FU o d timeout given s0 lost s O St R) as [EN EO].
  assert (IO : 1 <= length all) by (apply HS in EO; destruct all; [destruct EO|cbn [length]; lia]).
  exists all. split; [exact NA|]. split; [exact HS|]. split; [intros x X; apply EN, HS, X|].
  destruct (Nat.le_gt_cases (Nat.min 7 (length nodes)) (length all)) as [G|G]; [exact G|exfalso].
  set (m := Nat.min 6 (length nodes - 1)) in *. assert (length all <= m) by (unfold m; lia).
  assert (m <= length all * (m + 1 - length all)); [|lia]. clear -H IO. remember (length all) as k. clear Heqk.
  destruct k as [|k]; [lia|]. remember (m - S k) as g. assert (E : m = S k + g) by lia. subst m.
  replace (S k + g + 1 - S k) with (S g) by lia. nia.
Qed.
Print Assumptions C169_seven.

(** As many can be enough to leave only the node asked. *)
Theorem C169_alone : forall D undef nodes sources o (d : D) timeout given,
  full nodes sources -> In o nodes ->
  exists s0 lost s, spread_start undef sources o d timeout given s0 /\ lossy_runs undef sources s0 lost s /\ sReqs s = [] /\
    length lost = Nat.min 6 (length nodes - 1) /\ forall n, executed n (sLog s) <-> n = o.
Proof.
  intros D undef nodes sources o d timeout given FU O.
  destruct (sent_exists undef sources o timeout d 0) as (reqs & H); [apply (proj2 FU _ O)|].
  exists (mkSpread (if given then [o] else []) reqs [(o, 0)]), reqs, (mkSpread (if given then [o] else []) [] [(o, 0)]).
  split; [constructor; exact H|]. split; [apply (drop_all D undef sources _ [] _ reqs)|]. split; [reflexivity|]. split.
  - destruct (sent_targets _ _ _ _ _ _ _ H) as [(_ & _ & L) _]. rewrite map_length in L. rewrite L, (others_count nodes sources FU o O). reflexivity.
  - intro n. cbn [sLog executed map fst In]. unfold executed. cbn. intuition.
Qed.
Print Assumptions C169_alone.

(** Data at h nodes with n <= h + 6 are come to with fewer than m lost requests. *)
Theorem C169_reached : forall D undef nodes sources o (d : D) timeout given s0 lost s holders,
  full nodes sources -> In o nodes -> NoDup holders -> incl holders nodes -> holders <> [] -> length nodes <= length holders + 6 ->
  spread_start undef sources o d timeout given s0 -> lossy_runs undef sources s0 lost s -> sReqs s = [] ->
  length lost < Nat.min 6 (length nodes - 1) ->
  exists h, In h holders /\ executed h (sLog s).
Proof.
  intros D undef nodes sources o d timeout given s0 lost s holders FU O NH IH NE LN St R Z L.
  destruct (C169_seven _ _ _ _ _ _ _ _ _ _ _ FU O St R Z L) as (all & NA & HA & IA & LA).
  destruct (existsb (fun x => existsb (N.eqb x) all) holders) eqn:X.
  - apply existsb_exists in X. destruct X as (h & H & Y). exists h. split; [exact H|]. apply HA, mem_in, Y.
  - exfalso. assert (ND : NoDup (all ++ holders)).
    { apply nodup_append; [exact NA|exact NH|]. intros x A B.
      assert (existsb (fun x => existsb (N.eqb x) all) holders = true) by (apply existsb_exists; exists x; split; [exact B|apply mem_in, A]).
      congruence. }
    assert (LL : length (all ++ holders) <= length nodes).
    { apply NoDup_incl_length; [exact ND|]. intros x A. apply in_app_or in A. destruct A; auto. }
    rewrite app_length in LL. assert (1 <= length holders) by (destruct holders; [congruence|cbn [length]; lia]). lia.
Qed.
Print Assumptions C169_reached.

Open Scope N_scope.
(** What was acknowledged with r copies is found, in a cluster of at most r + 6 nodes, with fewer than
    m lost requests. *)
Theorem C169_found : forall nodes sources i o, full nodes sources -> In i nodes -> In o nodes ->
  forall E fuel W k v icfg W' dc srcs,
  (2 <= fuel)%nat -> kv_ok k v -> (forall j, slot_fine (dDBMap (nData (wNodes W j))) k) -> count_of icfg = 0 ->
  (forall n l, Permutation (eOrder E n l) l) ->
  let me := nData (wNodes W i) in
  dInitialized me = true -> dConfig me = Some dc -> cEnforceReplicationOnInsert dc = true ->
  dSources me = Some srcs -> map (eResolve E) srcs = map Some (sources i) ->
  NodeInsert E fuel W i (Some (kv k v)) icfg = (W', None) ->
  blen nodes <= cReplicationOnInsert dc + 6 ->
  forall G M ex config q qv undef timeout given s0 lost s tick order,
  let store := fun n => dDBMap (nData (wNodes W' n)) in
  spread_start undef sources o (mkDatum (Some q) qv) timeout given s0 -> lossy_runs undef sources s0 lost s -> sReqs s = [] ->
  (length lost < Nat.min 6 (length nodes - 1))%nat ->
  scHigherIsBetter config = true -> HasPrefix (scScoreFuncName config) (bs "Annoy") = false ->
  1 <= scLimit config < M32 -> scResultLimit config < M63 -> scGroupLimit config = 0 ->
  (forall n, store_wf (store n)) -> (forall n, Permutation (order n) (store n)) ->
  (forall n, live (store n) (tick n) k) -> passes ex config (kv k v) = true ->
  let score := GetVectorComparisonFunction M (scScoreFuncName config) in
  no_nan (flat_map (fun n => candidates ex score config q (tick n) (store n)) nodes) ->
  (exists out, answer G M ex config (mkDatum (Some q) qv) (cut_calls store tick order [] o s) out) /\
  forall out, answer G M ex config (mkDatum (Some q) qv) (cut_calls store tick order [] o s) out ->
  (exists x, In x out /\ skey x = Some k /\ sScore x = score (vec k) (vec q)) \/
  (length out = wanted (scLimit config) (scResultLimit config) /\
   forall x, In x out -> SFltb (sScore x) (score (vec k) (vec q)) = false).
Proof.
  intros nodes sources i o FU Hi Ho E fuel W k v icfg W' dc srcs HF K F HC PO me IN DC EN SR RS H L
    G M ex config q qv undef timeout given s0 lost s tick order store St R Z LL Hh HA HL HR HG WF O LV PS score NN.
  destruct (copies_members nodes sources i FU Hi E fuel W k v icfg W' dc srcs HF K F HC PO IN DC EN SR RS H)
    as (hs & NH & IH & RH & I & FH).
  destruct (members_only undef nodes sources FU o _ timeout given s0 lost s Ho St R) as [IM _].
  destruct (C169_reached _ undef nodes sources o _ timeout given s0 lost s hs FU Ho NH IH
    ltac:(intro X; subst hs; destruct I) ltac:(unfold blen in *; lia) St R Z LL) as (j & JH & J).
  rewrite Forall_forall in FH. destruct (FH j JH) as (e & Le & De).
  destruct (C168_answer G M ex config q qv undef sources o timeout given s0 lost s store tick order [] (map fst (sLog s))
    St R Hh HA HL HR HG WF O) as [EX TOP].
  { intro n. rewrite (C168_all_heard _ _ _ _ _ _ _ _ _ _ St R n). reflexivity. }
  { unfold no_nan in *. rewrite Forall_forall in *. intros x X. apply NN. apply in_flat_map in X. destruct X as (n & X & Y).
    apply in_flat_map. exists n. split; [apply IM, X|exact Y]. }
  split; [exact EX|]. intros out A. destruct (TOP out A) as (_ & D2 & _ & _ & D5). fold score in D2, D5.
  assert (I' : In (mkScored (score (vec k) (vec q)) (kv k v))
    (flat_map (fun n => candidates ex score config q (tick n) (store n)) (map fst (sLog s)))).
  { apply in_flat_map. exists j. split; [exact J|]. apply candidates_in.
    exists (wire_key k), e, k, (Some v). split; [apply mload_in; exact Le|]. split; [exact De|].
    split; [apply (LV j); exact Le|]. rewrite De. auto. }
  destruct (D5 _ I') as [C|(C1 & C2)].
  - left. apply in_map_iff in C. destruct C as (x & Ex & Ix). cbn in Ex.
    exists x. split; auto. split; [exact Ex|].
    pose proof (D2 x Ix) as Jx. apply in_flat_map in Jx. destruct Jx as (m & _ & Jx).
    apply candidates_in in Jx. destruct Jx as (b & e' & k' & v' & _ & De' & _ & _ & ->).
    unfold skey in Ex. cbn in Ex. rewrite De' in Ex. cbn in Ex. injection Ex as ->. reflexivity.
  - right. split; [exact C1|exact C2].
Qed.
Print Assumptions C169_found.

(** ** Examples *)

(** Nine nodes: five of the six requests of the node asked are lost, and the query runs to its end. *)
Lemma five_lost : forall o (d : Datum), In o nine -> exists s0 lost s, spread_start 9 others o d 1000 true s0 /\
  lossy_runs 9 others s0 lost s /\ sReqs s = [] /\ length lost = 5%nat.
Proof.
  intros o d O.
  assert (NS : forall m, NoDup (others m)) by (intro m; apply NoDup_filter, nine_full).
  assert (IU : forall m, incl (others m) nine) by (intros m x X; unfold others in X; apply filter_In in X; apply X).
  destruct (sent_exists 9 others o 1000 d 0 (NS o)) as (reqs & H).
  pose proof (sent_targets _ _ _ _ _ _ _ H) as [(_ & _ & L) DT]. rewrite map_length, (others_count nine others nine_full o O) in L. cbn in L.
  destruct reqs as [|e reqs]; [discriminate L|]. cbn [length] in L.
  assert (SR : In (rTo (snd e)) (others o)) by (eapply sent_source; [exact H|left; reflexivity]).
  destruct (spread_ends 9 others nine d (mkSpread [o] [e] [(o, 0%nat)]) IU NS) as (s & R & Z).
  - split; [|split]; cbn [erase fReqs fSeen sReqs sSeen map].
    + intros r [<-|[]]. apply (IU o). exact SR.
    + intros x [<-|[]]. exact O.
    + repeat constructor. intros [].
  - intros x [<-|[]]. apply DT. left. reflexivity.
  - exists (mkSpread [o] (e :: reqs) [(o, 0%nat)]), reqs, s. split; [apply (ss_start 9 others o d 1000 true); exact H|].
    split; [|split; [exact Z|lia]].
    rewrite <- (app_nil_r reqs) at 2. eapply lossy_app; [apply (drop_all _ 9 others [o] [e] [(o, 0%nat)] reqs)|apply runs_lossy, R].
Qed.

Example C169_instance : forall o, In o nine ->
  let store := fun n => dDBMap (nData (wNodes (en_after 3) n)) in
  (exists s0 lost s, spread_start 9 others o (mkDatum (Some kb) None) 1000 true s0 /\ lossy_runs 9 others s0 lost s /\ sReqs s = [] /\
    length lost = 5%nat) /\
  forall s0 lost s, spread_start 9 others o (mkDatum (Some kb) None) 1000 true s0 -> lossy_runs 9 others s0 lost s -> sReqs s = [] ->
    length lost = 5%nat ->
    (exists all, NoDup all /\ (forall n, In n all <-> executed n (sLog s)) /\ (7 <= length all)%nat) /\
    (exists h, In h [0; 1; 2] /\ executed h (sLog s)) /\
    (exists out, answer insertion_sort mathlib_ex any_filter (cfg1 true 2) (mkDatum (Some kb) None) (cut_calls store reach_tick store [] o s) out) /\
    forall out, answer insertion_sort mathlib_ex any_filter (cfg1 true 2) (mkDatum (Some kb) None) (cut_calls store reach_tick store [] o s) out ->
    (exists x, In x out /\ skey x = Some ka /\ sScore x = QuickVectorDistance (vec ka) (vec kb)) \/
    (length out = 2%nat /\ forall x, In x out -> SFltb (sScore x) (QuickVectorDistance (vec ka) (vec kb)) = false).
Proof.
  intros o O store. split; [apply five_lost, O|]. intros s0 lost s St R Z L.
  assert (LL : (length lost < Nat.min 6 (length nine - 1))%nat) by (rewrite L; cbn; lia).
  split; [|split].
  - destruct (C169_seven _ 9 nine others o _ 1000 true s0 lost s nine_full O St R Z LL) as (all & A & B & _ & C). exists all. auto.
  - apply (C169_reached _ 9 nine others o (mkDatum (Some kb) None) 1000 true s0 lost s [0; 1; 2] nine_full O); auto.
    + repeat constructor; cbn [In]; intuition discriminate.
    + intros x X. cbn [In nine] in *. intuition.
    + discriminate.
  - assert (C : forall n, candidates any_filter QuickVectorDistance (cfg1 true 2) kb (reach_tick n) (store n) =
      if n <? 3 then [mkScored (QuickVectorDistance (vec ka) (vec kb)) (kv ka va)] else []).
    { intro n. unfold store. rewrite en_stores by (right; reflexivity). destruct (n <? 3); reflexivity. }
    refine (C169_found nine others 0 o nine_full (or_introl eq_refl) O (aliases en_table) 2 (en_world 3) ka va None (en_after 3)
      (cfg_ex 0 true 3) (map fst en_table) ltac:(lia) (proj1 kva_ok) (en_fine 3) eq_refl (fun _ l => Permutation_refl l)
      eq_refl eq_refl eq_refl eq_refl eq_refl (en_ack 3 (or_intror eq_refl)) ltac:(vm_compute; discriminate)
      insertion_sort mathlib_ex any_filter (cfg1 true 2) kb None 9 1000 true s0 lost s reach_tick store St R Z LL eq_refl eq_refl
      ltac:(cbn; unfold M32; lia) ltac:(cbn; unfold M63; lia) eq_refl en_wf (fun n => Permutation_refl _) _ eq_refl _).
    + intros n e X. rewrite en_stores in X by (right; reflexivity). destruct (n <? 3); [|discriminate X].
      vm_compute in X. injection X as <-. left. reflexivity.
    + unfold no_nan. rewrite Forall_forall. intros x X. apply in_flat_map in X. destruct X as (n & _ & X).
      change (In x (candidates any_filter QuickVectorDistance (cfg1 true 2) kb (reach_tick n) (store n))) in X.
      rewrite C in X. destruct (n <? 3); [|destruct X]. destruct X as [<-|[]]. vm_compute. reflexivity.
Qed.

(** One lost request more, and nobody but the node asked is searched. *)
Example C169_instance_alone : exists s0 lost s, spread_start 9 others 5 tt 1000 true s0 /\ lossy_runs 9 others s0 lost s /\ sReqs s = [] /\
  length lost = 6%nat /\ forall n, executed n (sLog s) <-> n = 5.
Proof. apply (C169_alone unit 9 nine others 5 tt 1000 true nine_full). cbn [In nine]. tauto. Qed.
