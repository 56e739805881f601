(** C167: how many copies are enough in a cluster of any size. *)
From Verif.Base Require Import GoBase GoLemmas Assoc Float GoSort.
From Verif.Model Require Import Codec Store Data Vector Search Aggregator QueryCache Flood CallTree Spread Insert Dataset Node Gossip.
From Verif.Spec Require Import Wire StoreSpec TopK TreeSpec ReachSpec InsertSpec NodeSpec GossipSpec MeshSpec BigSpec.
From Verif.Proof Require Import TopKP VectorP NodeP GossipP InsertP InsertClusterP SearchP CallTreeP MeshP SpreadQ TouchP.
From Verif.Props Require Import StoreProps SearchProps InsertProps CopiesProps ReadWriteProps GossipProps ReachProps MeshProps TogetherProps BigProps.
From Coq Require Import Lia.
Open Scope N_scope.

(** The copies of an acknowledged insert are on members. *)
Lemma copies_members : forall nodes sources i, full nodes sources -> In i nodes ->
  forall E fuel W k v config W' dc srcs,
  (2 <= fuel)%nat -> kv_ok k v -> (forall j, slot_fine (dDBMap (nData (wNodes W j))) k) -> count_of config = 0 ->
  (forall n l, Permutation (eOrder E n l) l) ->
  let me := nData (wNodes W i) in
  dInitialized me = true -> dConfig me = Some dc -> cEnforceReplicationOnInsert dc = true ->
  dSources me = Some srcs -> map (eResolve E) srcs = map Some (sources i) ->
  NodeInsert E fuel W i (Some (kv k v)) config = (W', None) ->
  exists holders, NoDup holders /\ incl holders nodes /\ cReplicationOnInsert dc <= blen holders /\ In i holders /\
    Forall (fun j => holds (dDBMap (nData (wNodes W' j))) k v) holders.
Proof.
  intros nodes sources i FU Hi E fuel W k v config W' dc srcs HF K F HC PO me IN DC EN SR RS H.
  destruct (proj2 FU i Hi) as [ND IFF].
  destruct (node_insert_nodes E fuel W i k v config W' None HF K F HC H) as (_ & X).
  destruct (X eq_refl) as (H1 & H2 & dc' & items & DC' & IT & Y). fold me in DC', IT, Y. rewrite DC in DC'. injection DC' as <-.
  destruct (Y IN EN) as (ok & O1 & O2 & O3 & O4). rewrite SR in IT. clear X Y H2.
  assert (NM : NoDup (map (eResolve E) srcs)).
  { rewrite RS. apply FinFun.Injective_map_NoDup; [intros a b Q; injection Q; auto|exact ND]. }
  destruct (map_distinct _ _ _ _ NM) as [NS INJ].
  assert (NO : NoDup ok) by (apply O2; subst items; eapply Permutation_NoDup; [apply Permutation_sym, PO|exact NS]).
  assert (IO : incl ok srcs) by (intros x J; eapply Permutation_in; [apply PO|subst items; apply O1, J]).
  assert (Z : exists js, map (eResolve E) ok = map Some js /\
    Forall (fun j => holds (dDBMap (nData (wNodes W' j))) k v) js).
  { clear - O4. induction O4 as [|s l (j & R & A & B) _ (js & M & FJ)]; [exists []; auto|].
    exists (j :: js). cbn. rewrite R, M. split; [reflexivity|]. constructor; [exact A|exact FJ]. }
  destruct Z as (js & M & FJ). exists (i :: js).
  assert (NF : NoDup (map (eResolve E) ok)).
  { clear - NO INJ IO. induction NO as [|a l X N IH]; [constructor|]. cbn [map]. constructor.
    - intro Y. apply in_map_iff in Y. destruct Y as (b & Y & Z). apply X.
      rewrite <- (INJ b a); auto; apply IO; [right; exact Z|left; reflexivity].
    - apply IH. intros x Y. apply IO. right. exact Y. }
  rewrite M in NF. destruct (map_distinct _ _ _ _ NF) as [NJ _].
  assert (MJ : forall j, In j js -> In j nodes /\ j <> i).
  { intros j J. apply IFF. assert (X : In (Some j) (map Some (sources i))).
    { rewrite <- RS. apply (incl_map (eResolve E) IO). rewrite M. apply in_map, J. }
    apply in_map_iff in X. destruct X as (x & X1 & X2). injection X1 as ->. exact X2. }
  split; [constructor; [intro J; apply MJ in J; destruct J; congruence|exact NJ]|].
  split; [intros x [<-|J]; [exact Hi|apply MJ, J]|].
  split; [|split; [left; reflexivity|constructor; [exact H1|exact FJ]]].
  apply (f_equal (@length _)) in M. rewrite !map_length in M. unfold blen in *. cbn [length]. lia.
Qed.

(** In a cluster of any size in which everybody is a source of everybody: a datum that a member
    has acknowledged with r enforced copies is at a node that the query reaches, whichever member
    is asked and whatever choices are made on the way, if there are at most r + 6 members.
    No message of the query is lost; messages of the insert may be. *)
Theorem C167_reached : forall nodes sources i o, full nodes sources -> In i nodes -> In o nodes ->
  forall E fuel W k v config W' dc srcs,
  (2 <= fuel)%nat -> kv_ok k v -> (forall j, slot_fine (dDBMap (nData (wNodes W j))) k) -> count_of config = 0 ->
  (forall n l, Permutation (eOrder E n l) l) ->
  let me := nData (wNodes W i) in
  dInitialized me = true -> dConfig me = Some dc -> cEnforceReplicationOnInsert dc = true ->
  dSources me = Some srcs -> map (eResolve E) srcs = map Some (sources i) ->
  NodeInsert E fuel W i (Some (kv k v)) config = (W', None) ->
  blen nodes <= cReplicationOnInsert dc + 6 ->
  forall D undef (d : D) timeout given S, query_reaches undef sources o d timeout given S ->
  exists j, In j S /\ holds (dDBMap (nData (wNodes W' j))) k v.
Proof.
  intros nodes sources i o FU Hi Ho E fuel W k v config W' dc srcs HF K F HC PO me IN DC EN SR RS H L D undef d timeout given S Q.
  destruct (copies_members nodes sources i FU Hi E fuel W k v config W' dc srcs HF K F HC PO IN DC EN SR RS H)
    as (hs & NH & IH & RH & I & FH).
  destruct (proj2 (C165_everywhere D undef nodes sources d timeout given hs FU NH
    ltac:(intro X; subst hs; destruct I) IH) ltac:(unfold blen in *; lia) o S Ho Q) as (h & A & B).
  exists h. split; [exact B|]. rewrite Forall_forall in FH. apply FH, A.
Qed.
Print Assumptions C167_reached.

(** Any fewer than r members may be lost with all they have: a copy is left at another member. *)
Theorem C167_survives : forall nodes sources i, full nodes sources -> In i nodes ->
  forall E fuel W k v config W' dc srcs,
  (2 <= fuel)%nat -> kv_ok k v -> (forall j, slot_fine (dDBMap (nData (wNodes W j))) k) -> count_of config = 0 ->
  (forall n l, Permutation (eOrder E n l) l) ->
  let me := nData (wNodes W i) in
  dInitialized me = true -> dConfig me = Some dc -> cEnforceReplicationOnInsert dc = true ->
  dSources me = Some srcs -> map (eResolve E) srcs = map Some (sources i) ->
  NodeInsert E fuel W i (Some (kv k v)) config = (W', None) ->
  forall lost, blen lost < cReplicationOnInsert dc ->
  exists j, In j nodes /\ ~ In j lost /\ holds (dDBMap (nData (wNodes W' j))) k v.
Proof.
  intros nodes sources i FU Hi E fuel W k v config W' dc srcs HF K F HC PO me IN DC EN SR RS H lost L.
  destruct (copies_members nodes sources i FU Hi E fuel W k v config W' dc srcs HF K F HC PO IN DC EN SR RS H)
    as (hs & NH & IH & RH & I & FH). rewrite Forall_forall in FH.
  destruct (Forall_dec (fun n => In n lost) (fun n => in_dec N.eq_dec n lost) hs) as [A|A].
  - exfalso. rewrite Forall_forall in A. pose proof (NoDup_incl_length NH A) as X. unfold blen in *. lia.
  - apply neg_Forall_Exists_neg in A; [|intro n; apply in_dec, N.eq_dec]. apply Exists_exists in A.
    destruct A as (j & A & B). exists j. auto.
Qed.
Print Assumptions C167_survives.

(** The answer is exact over the data of the nodes that the query reached, in any cluster. *)
Lemma exact_reached : forall G M ex config q qv undef sources o timeout given s0 s store tick order nodes,
  spread_start undef sources o (mkDatum (Some q) qv) timeout given s0 -> spread_runs undef sources s0 s ->
  scHigherIsBetter config = true -> HasPrefix (scScoreFuncName config) (bs "Annoy") = false ->
  1 <= scLimit config < M32 -> scResultLimit config < M63 -> scGroupLimit config = 0 ->
  (forall n, store_wf (store n)) -> (forall n, Permutation (order n) (store n)) ->
  (forall n, In n nodes <-> executed n (sLog s)) ->
  let score := GetVectorComparisonFunction M (scScoreFuncName config) in
  let everything := flat_map (fun n => candidates ex score config q (tick n) (store n)) nodes in
  no_nan everything ->
  (exists out, answer G M ex config (mkDatum (Some q) qv) (calls store tick order o s) out) /\
  forall out, answer G M ex config (mkDatum (Some q) qv) (calls store tick order o s) out ->
    distinct_topk (beats true) skey (wanted (scLimit config) (scResultLimit config)) everything out.
Proof.
  intros G M ex config q qv undef sources o timeout given s0 s store tick order nodes St R Hh HA HL HR HG W O RE score everything NN.
  assert (LO : log_ok o s) by (eapply log_runs; [exact R|eapply log_start; exact St]).
  assert (EQ : forall x, In x (reached ex score config q (calls store tick order o s)) <-> In x everything).
  { intro x. rewrite (calls_reached store tick order ex score config q _ o s LO x).
    unfold everything. rewrite in_flat_map. split; intros (n & A & B); exists n; (split; [|exact B]); apply RE; exact A. }
  assert (NR : no_nan (reached ex score config q (calls store tick order o s))).
  { unfold no_nan in *. rewrite Forall_forall in *. intros x I. apply NN, EQ, I. }
  assert (WF : tree_wf (calls store tick order o s)) by (apply calls_wf; auto).
  split; [eapply C23_call_tree_answers; eauto|].
  intros out A. eapply distinct_topk_ext; [exact EQ|]. eapply C23_call_tree_exact; eauto.
Qed.

(** So the answer shows the datum, while it is alive: its key with its score, or as many results
    as were asked for, none of them worse. *)
Theorem C167_found : forall nodes sources i o, full nodes sources -> In i nodes -> In o nodes ->
  forall E fuel W k v icfg W' dc srcs,
  (2 <= fuel)%nat -> kv_ok k v -> (forall j, slot_fine (dDBMap (nData (wNodes W j))) k) -> count_of icfg = 0 ->
  (forall n l, Permutation (eOrder E n l) l) ->
  let me := nData (wNodes W i) in
  dInitialized me = true -> dConfig me = Some dc -> cEnforceReplicationOnInsert dc = true ->
  dSources me = Some srcs -> map (eResolve E) srcs = map Some (sources i) ->
  NodeInsert E fuel W i (Some (kv k v)) icfg = (W', None) ->
  blen nodes <= cReplicationOnInsert dc + 6 ->
  forall G M ex config q qv undef timeout given s0 s tick order,
  let store := fun n => dDBMap (nData (wNodes W' n)) in
  spread_start undef sources o (mkDatum (Some q) qv) timeout given s0 -> spread_runs undef sources s0 s -> sReqs s = [] ->
  scHigherIsBetter config = true -> HasPrefix (scScoreFuncName config) (bs "Annoy") = false ->
  1 <= scLimit config < M32 -> scResultLimit config < M63 -> scGroupLimit config = 0 ->
  (forall n, store_wf (store n)) -> (forall n, Permutation (order n) (store n)) ->
  (forall n, live (store n) (tick n) k) -> passes ex config (kv k v) = true ->
  let score := GetVectorComparisonFunction M (scScoreFuncName config) in
  no_nan (flat_map (fun n => candidates ex score config q (tick n) (store n)) nodes) ->
  (exists out, answer G M ex config (mkDatum (Some q) qv) (calls store tick order o s) out) /\
  forall out, answer G M ex config (mkDatum (Some q) qv) (calls store tick order o s) out ->
  (exists x, In x out /\ skey x = Some k /\ sScore x = score (vec k) (vec q)) \/
  (length out = wanted (scLimit config) (scResultLimit config) /\
   forall x, In x out -> SFltb (sScore x) (score (vec k) (vec q)) = false).
Proof.
  intros nodes sources i o FU Hi Ho E fuel W k v icfg W' dc srcs HF K F HC PO me IN DC EN SR RS H L
    G M ex config q qv undef timeout given s0 s tick order store St R Z Hh HA HL HR HG WF O LV PS score NN.
  assert (QR : query_reaches undef sources o (mkDatum (Some q) qv) timeout given (map fst (sLog s))).
  { exists s0, s. split; [exact St|]. split; [exact R|]. split; [exact Z|]. intro n. reflexivity. }
  pose proof (consulted_nodes _ _ _ _ _ _ _ _ _ FU Ho QR) as IM.
  destruct (C167_reached nodes sources i o FU Hi Ho E fuel W k v icfg W' dc srcs HF K F HC PO IN DC EN SR RS H L
    _ undef _ timeout given _ QR) as (j & J & (e & Le & De)).
  destruct (exact_reached G M ex config q qv undef sources o timeout given s0 s store tick order (map fst (sLog s))
    St R Hh HA HL HR HG WF O (fun n => iff_refl _)) as [EX TOP].
  { unfold no_nan in *. rewrite Forall_forall in *. intros x X. apply NN. apply in_flat_map in X. destruct X as (n & X & Y).
    apply in_flat_map. exists n. split; [apply IM, X|exact Y]. }
  split; [exact EX|]. intros out A. destruct (TOP out A) as (_ & D2 & _ & _ & D5). fold score in D2, D5.
  assert (I : In (mkScored (score (vec k) (vec q)) (kv k v))
    (flat_map (fun n => candidates ex score config q (tick n) (store n)) (map fst (sLog s)))).
  { apply in_flat_map. exists j. split; [exact J|]. apply candidates_in.
    exists (wire_key k), e, k, (Some v). split; [apply mload_in; exact Le|]. split; [exact De|].
    split; [apply (LV j); exact Le|]. rewrite De. auto. }
  destruct (D5 _ I) as [C|(C1 & C2)].
  - left. apply in_map_iff in C. destruct C as (x & Ex & Ix). cbn in Ex.
    exists x. split; auto. split; [exact Ex|].
    pose proof (D2 x Ix) as Jx. apply in_flat_map in Jx. destruct Jx as (m & _ & Jx).
    apply candidates_in in Jx. destruct Jx as (b & e' & k' & v' & _ & De' & _ & _ & ->).
    unfold skey in Ex. cbn in Ex. rewrite De' in Ex. cbn in Ex. injection Ex as ->. reflexivity.
  - right. split; [exact C1|exact C2].
Qed.
Print Assumptions C167_found.

(** With one copy less, a query at a member without the datum may end without having come
    to any that has it. *)
Theorem C167_missed : forall D undef nodes sources o (d : D) timeout given holders,
  full nodes sources -> NoDup holders -> incl holders nodes -> In o nodes -> ~ In o holders ->
  blen holders + 6 < blen nodes ->
  exists S, query_reaches undef sources o d timeout given S /\ forall j, In j S -> ~ In j holders.
Proof.
  intros D undef nodes sources o d timeout given holders FU NH IH O NO L.
  exists (without holders nodes). split.
  - apply (C165_any D undef nodes); auto.
    + apply NoDup_filter, FU.
    + intros x X. apply without_in in X. apply X.
    + apply without_in. auto.
    + pose proof (without_length holders nodes (proj1 FU) NH IH) as X. unfold blen in L. lia.
  - intros j J. apply without_in in J. apply J.
Qed.
Print Assumptions C167_missed.

(** An insert asks at most six others, so in a cluster of fourteen nodes or more no configuration
    helps: whatever happened, some query may end without having come to the datum. *)
Theorem C167_fourteen : forall nodes sources i, full nodes sources -> 14 <= blen nodes ->
  forall E fuel W k v config W' e,
  (2 <= fuel)%nat -> kv_ok k v -> (forall j, slot_fine (dDBMap (nData (wNodes W j))) k) -> count_of config = 0 ->
  (forall j, ~ holds (dDBMap (nData (wNodes W j))) k v) ->
  NodeInsert E fuel W i (Some (kv k v)) config = (W', e) ->
  forall D undef (d : D) timeout given,
  exists o S, In o nodes /\ query_reaches undef sources o d timeout given S /\
    forall j, In j S -> ~ holds (dDBMap (nData (wNodes W' j))) k v.
Proof.
  intros nodes sources i FU L E fuel W k v config W' e HF K F HC NH H D undef d timeout given.
  destruct (insert_touches E fuel W i k v config W' e HF K F HC H) as (T & LT & ST).
  set (hs := filter (fun n => existsb (N.eqb n) T) nodes).
  assert (HS : forall n, In n hs <-> In n nodes /\ In n T).
  { intro n. unfold hs. rewrite filter_In, existsb_exists. split.
    - intros [A (x & B & C)]. apply N.eqb_eq in C. subst x. auto.
    - intros [A B]. split; [exact A|]. exists n. split; [exact B|apply N.eqb_refl]. }
  assert (ND : NoDup hs) by apply NoDup_filter, FU.
  assert (LH : (length hs <= 7)%nat).
  { etransitivity; [|exact LT]. apply NoDup_incl_length; [exact ND|]. intros x X. apply HS, X. }
  pose proof (without_length hs nodes (proj1 FU) ND (fun x X => proj1 (proj1 (HS x) X))) as LW. unfold blen in L.
  destruct (without hs nodes) as [|o r] eqn:WO; [cbn [length] in LW; lia|].
  assert (O : In o (without hs nodes)) by (rewrite WO; left; reflexivity). apply without_in in O. destruct O as [O NO].
  destruct (C167_missed D undef nodes sources o d timeout given hs FU ND) as (S & Q & X);
    [intros x Y; apply HS, Y|exact O|exact NO|unfold blen; lia|].
  exists o, S. split; [exact O|]. split; [exact Q|]. intros j J HJ.
  apply (NH j). rewrite <- (ST j); [exact HJ|]. intro Y. apply (X j J). apply HS. split; [|exact Y].
  apply (consulted_nodes _ _ _ _ _ _ _ _ _ FU O Q), J.
Qed.
Print Assumptions C167_fourteen.

(** Members that have found each other (C156) are such a cluster, of whatever size, and a member
    has the others as sources of its insert. *)
Theorem C167_formed : forall G inc route members name w,
  formed G inc route members name w -> NoDup members ->
  full (map N.of_nat members) (source_nodes route w name) /\
  forall i E, In i members -> (forall a, eResolve E a = option_map N.of_nat (route i a)) ->
    let srcs := map snd (filter (fun x => bytes_eqb (fst x) name) (gSources (gNodes w i))) in
    map (eResolve E) srcs = map Some (source_nodes route w name (N.of_nat i)).
Proof.
  intros G inc route members name w FM ND. split.
  - split; [apply FinFun.Injective_map_NoDup; [intros a b; apply Nnat.Nat2N.inj|exact ND]|].
    intros n Hn. apply in_map_iff in Hn. destruct Hn as (i & <- & Hi).
    destruct (formed_sources _ _ _ _ _ _ FM i Hi) as [NS IFF]. split; [exact NS|]. intro m. rewrite IFF. split.
    + intros (k & A & B & ->). split; [apply in_map, A|]. intro X. apply Nnat.Nat2N.inj in X. auto.
    + intros [A B]. apply in_map_iff in A. destruct A as (k & <- & A). exists k. split; [exact A|]. split; [congruence|reflexivity].
  - intros i E Hi RS srcs. destruct (formed_sources _ _ _ _ _ _ FM i Hi) as [_ IFF].
    unfold source_nodes, srcs in *. rewrite Nnat.Nat2N.id in *. rewrite !map_map. apply map_ext_in.
    intros x X. rewrite RS. destruct (route i (snd x)) as [j|] eqn:RJ; [reflexivity|]. exfalso.
    destruct (proj1 (IFF (N.of_nat i))) as (k & _ & B & C).
    + apply in_map_iff. exists x. rewrite RJ. auto.
    + apply Nnat.Nat2N.inj in C. congruence.
Qed.
Print Assumptions C167_formed.

(** * A concrete case: nine nodes that know each other; node 0 inserts with three copies, or with two. *)
Definition en_table : list (bytes * N) :=
  [(bs "a:1", 1); (bs "b:1", 2); (bs "c:1", 3); (bs "d:1", 4); (bs "e:1", 5); (bs "f:1", 6); (bs "g:1", 7); (bs "h:1", 8)].
Definition en_world (r : N) : world := start_of r (map fst en_table).
Definition en_after (r : N) : world := fst (NodeInsert (aliases en_table) 2 (en_world r) 0 (Some (kv ka va)) None).

Lemma en_ack : forall r, r = 2 \/ r = 3 ->
  NodeInsert (aliases en_table) 2 (en_world r) 0 (Some (kv ka va)) None = (en_after r, None).
Proof.
  intros r R. unfold en_after.
  assert (X : snd (NodeInsert (aliases en_table) 2 (en_world r) 0 (Some (kv ka va)) None) = None)
    by (destruct R as [->| ->]; vm_compute; reflexivity).
  destruct (NodeInsert (aliases en_table) 2 (en_world r) 0 (Some (kv ka va)) None) as [a b]. cbn [fst snd] in *. rewrite X. reflexivity.
Qed.
Lemma en_stores : forall r n, r = 2 \/ r = 3 -> dDBMap (nData (wNodes (en_after r) n)) =
  if n <? r then [(wire_key ka, mkEntry 0 (kv ka va))] else [].
Proof.
  intros r n [->| ->].
  - destruct n as [|[p|p|]]; try (vm_compute; reflexivity); destruct p; vm_compute; reflexivity.
  - destruct n as [|[p|p|]]; try (vm_compute; reflexivity); destruct p; vm_compute; reflexivity.
Qed.
Lemma en_fine : forall r j, slot_fine (dDBMap (nData (wNodes (en_world r) j))) ka.
Proof. intros r j e H. unfold en_world, start_of in H. cbn [wNodes] in H. destruct (j =? 0); discriminate H. Qed.

Example C167_instance :
  (forall o S, In o nine -> query_reaches 9 others o tt 1000 true S ->
     exists j, In j S /\ holds (dDBMap (nData (wNodes (en_after 3) j))) ka va) /\
  (forall a b, exists j, In j nine /\ ~ In j [a; b] /\ holds (dDBMap (nData (wNodes (en_after 3) j))) ka va) /\
  (forall o, In o nine -> 2 <= o -> exists S, query_reaches 9 others o tt 1000 true S /\
     forall j, In j S -> ~ holds (dDBMap (nData (wNodes (en_after 2) j))) ka va).
Proof.
  assert (Z : In 0 nine) by (left; reflexivity). split; [|split].
  - intros o S O. refine (C167_reached nine others 0 o nine_full Z O (aliases en_table) 2 (en_world 3) ka va None (en_after 3)
      (cfg_ex 0 true 3) (map fst en_table) ltac:(lia) (proj1 kva_ok) (en_fine 3) eq_refl (fun _ l => Permutation_refl l)
      eq_refl eq_refl eq_refl eq_refl eq_refl (en_ack 3 (or_intror eq_refl)) _ unit 9 tt 1000 true S).
    vm_compute. discriminate.
  - intros a b. refine (C167_survives nine others 0 nine_full Z (aliases en_table) 2 (en_world 3) ka va None (en_after 3)
      (cfg_ex 0 true 3) (map fst en_table) ltac:(lia) (proj1 kva_ok) (en_fine 3) eq_refl (fun _ l => Permutation_refl l)
      eq_refl eq_refl eq_refl eq_refl eq_refl (en_ack 3 (or_intror eq_refl)) [a; b] _). reflexivity.
  - intros o O G. destruct (C167_missed unit 9 nine others o tt 1000 true [0; 1] nine_full) as (S & Q & X).
    + repeat constructor; cbn [In]; intuition discriminate.
    + intros x [<-|[<-|[]]]; [exact Z|right; left; reflexivity].
    + exact O.
    + intros [<-|[<-|[]]]; lia.
    + reflexivity.
    + exists S. split; [exact Q|]. intros j J (e & Le & _). rewrite en_stores in Le by (left; reflexivity).
      destruct (j <? 2) eqn:L; [|discriminate Le]. apply N.ltb_lt in L. apply (X j J).
      assert (j = 0 \/ j = 1) as [->| ->] by lia; cbn [In]; auto.
Qed.

(** The members of C157 as such a cluster. *)
Example C167_instance_formed :
  full [0; 1; 2] (source_nodes route4 m4d (bs "d")) /\
  map (eResolve tg_env) (tg_sources 1) = map Some (source_nodes route4 m4d (bs "d") 1).
Proof.
  assert (ND : NoDup [0; 1; 2]%nat) by (repeat constructor; cbn [In]; intuition discriminate).
  destruct (C167_formed _ _ _ _ _ _ tg_formed ND) as [A B]. split; [exact A|].
  exact (B 1%nat tg_env ltac:(right; left; reflexivity) (fun a => eq_refl)).
Qed.

Lemma en_wf : forall n, store_wf (dDBMap (nData (wNodes (en_after 3) n))).
Proof.
  intro n. rewrite en_stores by (right; reflexivity). destruct (n <? 3).
  - destruct kva_ok as (A & B & C). split; [repeat constructor; cbn; auto|]. intros b e [H|[]]. injection H as <- <-. exists ka, va. auto.
  - split; [constructor|intros b e []].
Qed.

(** Whoever is asked shows the datum, however the query spreads. *)
Example C167_instance_found : forall o, In o nine ->
  let store := fun n => dDBMap (nData (wNodes (en_after 3) n)) in
  (exists s0 s, spread_start 9 others o (mkDatum (Some kb) None) 1000 true s0 /\ spread_runs 9 others s0 s /\ sReqs s = []) /\
  forall s0 s, spread_start 9 others o (mkDatum (Some kb) None) 1000 true s0 -> spread_runs 9 others s0 s -> sReqs s = [] ->
  exists out x, answer insertion_sort mathlib_ex any_filter (cfg1 true 2) (mkDatum (Some kb) None) (calls store reach_tick store o s) out /\
    In x out /\ skey x = Some ka.
Proof.
  intros o O store. split.
  - destruct (C155_ends _ 9 others nine o (mkDatum (Some kb) None) 1000 true) as [(s0 & St) EN].
    + intros m x X. unfold others in X. apply filter_In in X. apply X.
    + exact O.
    + intro m. apply NoDup_filter, nine_full.
    + destruct (EN s0 s0 St (spr_here _ _ _)) as (s & R & Z). exists s0, s. auto.
  - intros s0 s St R Z.
    assert (C : forall n, candidates any_filter QuickVectorDistance (cfg1 true 2) kb (reach_tick n) (store n) =
      if n <? 3 then [mkScored (QuickVectorDistance (vec ka) (vec kb)) (kv ka va)] else []).
    { intro n. unfold store. rewrite en_stores by (right; reflexivity). destruct (n <? 3); reflexivity. }
    destruct (C167_found nine others 0 o nine_full (or_introl eq_refl) O (aliases en_table) 2 (en_world 3) ka va None (en_after 3)
      (cfg_ex 0 true 3) (map fst en_table) ltac:(lia) (proj1 kva_ok) (en_fine 3) eq_refl (fun _ l => Permutation_refl l)
      eq_refl eq_refl eq_refl eq_refl eq_refl (en_ack 3 (or_intror eq_refl)) ltac:(vm_compute; discriminate)
      insertion_sort mathlib_ex any_filter (cfg1 true 2) kb None 9 1000 true s0 s reach_tick store St R Z eq_refl eq_refl
      ltac:(cbn; unfold M32; lia) ltac:(cbn; unfold M63; lia) eq_refl en_wf (fun n => Permutation_refl _)) as [[out A] FD].
    + intros n e L. rewrite en_stores in L by (right; reflexivity). destruct (n <? 3); [|discriminate L].
      vm_compute in L. injection L as <-. left. reflexivity.
    + reflexivity.
    + unfold no_nan. rewrite Forall_forall. intros x X. apply in_flat_map in X. destruct X as (n & _ & X).
      change (In x (candidates any_filter QuickVectorDistance (cfg1 true 2) kb (reach_tick n) (store n))) in X.
      rewrite C in X. destruct (n <? 3); [|destruct X]. destruct X as [<-|[]]. vm_compute. reflexivity.
    + exists out. destruct (FD out A) as [(x & I & E & _)|[L _]]; [exists x; auto|]. exfalso. change (length out = 2%nat) in L.
      destruct (exact_reached insertion_sort mathlib_ex any_filter (cfg1 true 2) kb None 9 others o 1000 true s0 s store reach_tick store
        (map fst (sLog s)) St R eq_refl eq_refl ltac:(cbn; unfold M32; lia) ltac:(cbn; unfold M63; lia) eq_refl en_wf
        (fun n => Permutation_refl _) (fun n => iff_refl _)) as [_ TOP].
      * unfold no_nan. rewrite Forall_forall. intros x X. apply in_flat_map in X. destruct X as (n & _ & X).
        change (In x (candidates any_filter QuickVectorDistance (cfg1 true 2) kb (reach_tick n) (store n))) in X.
        rewrite C in X. destruct (n <? 3); [|destruct X]. destruct X as [<-|[]]. vm_compute. reflexivity.
      * destruct (TOP out A) as (ND & IN & _). clear - L ND IN C.
        destruct out as [|x [|y [|z out]]]; try discriminate L.
        assert (K : forall u, In u [x; y] -> skey u = Some ka).
        { intros u U. specialize (IN u U). apply in_flat_map in IN. destruct IN as (n & _ & X).
          change (In u (candidates any_filter QuickVectorDistance (cfg1 true 2) kb (reach_tick n) (store n))) in X.
          rewrite C in X. destruct (n <? 3); [|destruct X]. destruct X as [<-|[]]. reflexivity. }
        cbn [map] in ND. rewrite (K x), (K y) in ND by (cbn [In]; auto). inversion_clear ND as [|? ? X _]. apply X. left. reflexivity.
Qed.

(** Fourteen nodes, and an insert at node 0 that is acknowledged with seven copies, the most there can be. *)
Definition fourteen : list N := [0; 1; 2; 3; 4; 5; 6; 7; 8; 9; 10; 11; 12; 13].
Definition all_others (n : N) : list N := filter (fun m => negb (N.eqb m n)) fourteen.
Definition ft_table : list (bytes * N) :=
  en_table ++ [(bs "i:1", 9); (bs "j:1", 10); (bs "k:1", 11); (bs "l:1", 12); (bs "m:1", 13)].
Definition ft_world : world := start_of 7 (map fst ft_table).
Definition ft_after : world := fst (NodeInsert (aliases ft_table) 2 ft_world 0 (Some (kv ka va)) None).

Example C167_instance_fourteen :
  NodeInsert (aliases ft_table) 2 ft_world 0 (Some (kv ka va)) None = (ft_after, None) /\
  (forall j, j <= 6 -> holds (dDBMap (nData (wNodes ft_after j))) ka va) /\
  exists o S, In o fourteen /\ query_reaches 9 all_others o tt 1000 true S /\
    forall j, In j S -> ~ holds (dDBMap (nData (wNodes ft_after j))) ka va.
Proof.
  assert (A : NodeInsert (aliases ft_table) 2 ft_world 0 (Some (kv ka va)) None = (ft_after, None)).
  { unfold ft_after.
    assert (X : snd (NodeInsert (aliases ft_table) 2 ft_world 0 (Some (kv ka va)) None) = None) by (vm_compute; reflexivity).
    destruct (NodeInsert (aliases ft_table) 2 ft_world 0 (Some (kv ka va)) None) as [a b]. cbn [fst snd] in *. rewrite X. reflexivity. }
  split; [exact A|]. split.
  - intros j J. exists (mkEntry 0 (kv ka va)).
    assert (j = 0 \/ j = 1 \/ j = 2 \/ j = 3 \/ j = 4 \/ j = 5 \/ j = 6) as X by lia.
    repeat (destruct X as [->|X]); try subst j; (split; [vm_compute; reflexivity|reflexivity]).
  - assert (FU : full fourteen all_others).
    { assert (ND : NoDup fourteen) by (unfold fourteen; repeat constructor; cbn [In]; intuition discriminate).
      split; [exact ND|]. intros n _. split; [apply NoDup_filter, ND|]. intro m. unfold all_others.
      rewrite filter_In, negb_true_iff, N.eqb_neq. tauto. }
    assert (B : forall j, dDBMap (nData (wNodes ft_world j)) = [])
      by (intro j; unfold ft_world, start_of; cbn [wNodes]; destruct (j =? 0); reflexivity).
    apply (C167_fourteen fourteen all_others 0 FU ltac:(vm_compute; discriminate) (aliases ft_table) 2 ft_world ka va None ft_after None
      ltac:(lia) (proj1 kva_ok)); [| reflexivity | | exact A].
    + intros j e X. rewrite B in X. discriminate X.
    + intros j (e & X & _). rewrite B in X. discriminate X.
Qed.
