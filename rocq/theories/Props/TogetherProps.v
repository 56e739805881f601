(** C157: what a member of a small cluster acknowledges. *)
From Verif.Base Require Import GoBase GoLemmas Assoc Float GoSort.
From Verif.Model Require Import Codec Store Data Vector Search Aggregator QueryCache Flood CallTree Spread Insert Dataset Node Gossip.
From Verif.Spec Require Import Wire StoreSpec TopK TreeSpec ReachSpec InsertSpec NodeSpec GossipSpec MeshSpec.
From Verif.Proof Require Import TopKP VectorP NodeP GossipP InsertP InsertClusterP SearchP CallTreeP MeshP.
From Verif.Props Require Import StoreProps SearchProps InsertProps ReadWriteProps GossipProps ReachProps MeshProps.
From Coq Require Import Lia.
Open Scope N_scope.

Lemma formed_sources : forall G inc route members name w', formed G inc route members name w' ->
  forall i, In i members ->
    NoDup (source_nodes route w' name (N.of_nat i)) /\
    forall n, In n (source_nodes route w' name (N.of_nat i)) <-> exists k, In k members /\ k <> i /\ n = N.of_nat k.
Proof.
  intros G inc route members name w' (lo & hi & r & w0 & es & w & (P1 & P2 & P3) & IO & AP & AL & BL & F & H & CH & R).
  exact (C156_sources G inc lo hi route members name r w0 es w w' P1 P2 P3 IO AP AL BL F H CH R).
Qed.

Lemma map_distinct : forall A B (f : A -> B) l, NoDup (map f l) ->
  NoDup l /\ forall x y, In x l -> In y l -> f x = f y -> x = y.
Proof.
  induction l as [|a l IH]; intro H; [split; [constructor|intros x y []]|].
  cbn [map] in H. inversion_clear H as [|? ? X Y]. destruct (IH Y) as [N I]. split.
  - constructor; [|exact N]. intro Z. apply X, in_map, Z.
  - intros x y [<-|Hx] [<-|Hy] E; auto.
    + exfalso. apply X. rewrite E. apply in_map, Hy.
    + exfalso. apply X. rewrite <- E. apply in_map, Hx.
Qed.

(** In a state in which the members have found each other: if an insert at a member succeeds
    and copies are enforced, as many different members as configured hold the datum, whatever
    messages are lost. *)
Theorem C157_copies : forall G inc route members name w i,
  formed G inc route members name w -> In i members ->
  forall E fuel W k v config W' dc,
  (2 <= fuel)%nat -> kv_ok k v -> (forall j, slot_fine (dDBMap (nData (wNodes W j))) k) -> count_of config = 0 ->
  (forall n l, Permutation (eOrder E n l) l) ->
  (forall a, eResolve E a = option_map N.of_nat (route i a)) ->
  let me := nData (wNodes W (N.of_nat i)) in
  dInitialized me = true -> dConfig me = Some dc -> cEnforceReplicationOnInsert dc = true ->
  dSources me = Some (map snd (filter (fun x => bytes_eqb (fst x) name) (gSources (gNodes w i)))) ->
  NodeInsert E fuel W (N.of_nat i) (Some (kv k v)) config = (W', None) ->
  exists nodes, NoDup nodes /\ incl nodes members /\ cReplicationOnInsert dc <= blen nodes /\ In i nodes /\
    Forall (fun j => holds (dDBMap (nData (wNodes W' (N.of_nat j)))) k v) nodes.
Proof.
  intros G inc route members name w i FM Hi E fuel W k v config W' dc HF K F HC PO RS me IN DC EN SR H.
  destruct (formed_sources _ _ _ _ _ _ FM i Hi) as [ND IFF].
  destruct (node_insert_nodes E fuel W (N.of_nat i) k v config W' None HF K F HC H) as (_ & X).
  destruct (X eq_refl) as (H1 & H2 & dc' & items & DC' & IT & Y). fold me in DC', IT, Y. rewrite DC in DC'. injection DC' as <-.
  destruct (Y IN EN) as (ok & O1 & O2 & O3 & O4). rewrite SR in IT. clear X Y H2.
  set (f := fun a => match route i a with Some k => N.of_nat k | None => N.of_nat i end).
  set (srcs := map snd (filter (fun x => bytes_eqb (fst x) name) (gSources (gNodes w i)))) in *.
  assert (SN : source_nodes route w name (N.of_nat i) = map f srcs).
  { unfold source_nodes, srcs, f. rewrite Nnat.Nat2N.id, map_map. reflexivity. }
  rewrite SN in ND, IFF. destruct (map_distinct _ _ _ _ ND) as [NS INJ].
  assert (NO : NoDup ok) by (apply O2; subst items; eapply Permutation_NoDup; [apply Permutation_sym, PO|exact NS]).
  assert (IO : incl ok srcs) by (intros x J; eapply Permutation_in; [apply PO|subst items; apply O1, J]).
  assert (Z : exists js, map (fun a => route i a) ok = map Some js /\
    Forall (fun j => holds (dDBMap (nData (wNodes W' (N.of_nat j)))) k v) js).
  { clear - O4 RS. induction O4 as [|s l (j & R & A & B) _ (js & M & FJ)]; [exists []; auto|].
    rewrite RS in R. destruct (route i s) as [j'|] eqn:RJ; [|discriminate R]. injection R as <-.
    exists (j' :: js). cbn. rewrite RJ, M. split; [reflexivity|]. constructor; [exact A|exact FJ]. }
  destruct Z as (js & M & FJ). exists (i :: js).
  assert (FO : map f ok = map N.of_nat js).
  { clear - M. revert js M. induction ok as [|a l IH]; intros [|j js] M; try discriminate M; [reflexivity|].
    injection M as R M. cbn [map]. rewrite (IH js M). unfold f at 1. rewrite R. reflexivity. }
  assert (NF : NoDup (map f ok)).
  { clear - NO INJ IO. induction NO as [|a l X N IH]; [constructor|]. cbn [map]. constructor.
    - intro Y. apply in_map_iff in Y. destruct Y as (b & Y & Z). apply X.
      rewrite <- (INJ b a); auto; apply IO; [right; exact Z|left; reflexivity].
    - apply IH. intros x Y. apply IO. right. exact Y. }
  rewrite FO in NF. destruct (map_distinct _ _ _ _ NF) as [NJ _].
  assert (MJ : forall j, In j js -> In j members /\ j <> i).
  { intros j J. assert (X : In (N.of_nat j) (map f srcs)).
    { apply (incl_map f IO). rewrite FO. apply in_map, J. }
    apply IFF in X. destruct X as (x & X1 & X2 & X3). apply Nnat.Nat2N.inj in X3. subst x. auto. }
  split; [constructor; [intro J; apply MJ in J; destruct J; congruence|exact NJ]|].
  split; [intros x [<-|J]; [exact Hi|apply MJ, J]|].
  split; [|split; [left; reflexivity|constructor; [exact H1|exact FJ]]].
  apply (f_equal (@length _)) in M. rewrite !map_length in M. unfold blen in *. cbn [length]. lia.
Qed.
Print Assumptions C157_copies.

(** And a query at any member of at most seven, of which nothing is lost, finds what an insert
    at any member has acknowledged, while it is alive: it reports the key with its score, or as many
    results as were asked for, none of them worse. *)
Theorem C157_found : forall G inc route members name w i o,
  formed G inc route members name w -> (length members <= 7)%nat -> In i members -> In o members ->
  forall E fuel W k v icfg W',
  (2 <= fuel)%nat -> kv_ok k v -> (forall j, slot_fine (dDBMap (nData (wNodes W j))) k) -> count_of icfg = 0 ->
  NodeInsert E fuel W (N.of_nat i) (Some (kv k v)) icfg = (W', None) ->
  forall M ex config q qv undef timeout given s0 s tick order,
  let store := fun n => dDBMap (nData (wNodes W' n)) in
  spread_start undef (source_nodes route w name) (N.of_nat o) (mkDatum (Some q) qv) timeout given s0 ->
  spread_runs undef (source_nodes route w name) s0 s -> sReqs s = [] ->
  scHigherIsBetter config = true -> HasPrefix (scScoreFuncName config) (bs "Annoy") = false ->
  1 <= scLimit config < M32 -> scResultLimit config < M63 -> scGroupLimit config = 0 ->
  (forall n, store_wf (store n)) -> (forall n, Permutation (order n) (store n)) ->
  live (store (N.of_nat i)) (tick (N.of_nat i)) k -> passes ex config (kv k v) = true ->
  let score := GetVectorComparisonFunction M (scScoreFuncName config) in
  no_nan (flat_map (fun k => candidates ex score config q (tick (N.of_nat k)) (store (N.of_nat k))) members) ->
  (exists out, answer G M ex config (mkDatum (Some q) qv) (calls store tick order (N.of_nat o) s) out) /\
  forall out, answer G M ex config (mkDatum (Some q) qv) (calls store tick order (N.of_nat o) s) out ->
  (exists x, In x out /\ skey x = Some k /\ sScore x = score (vec k) (vec q)) \/
  (length out = wanted (scLimit config) (scResultLimit config) /\
   forall x, In x out -> SFltb (sScore x) (score (vec k) (vec q)) = false).
Proof.
  intros G inc route members name w i o (lo & hi & r & w0 & es & wb & (P1 & P2 & P3) & IO & AP & AL & BL & F & H & CH & R)
    L7 Hi Ho E fuel W k v icfg W' HF K FI HC HI M ex config q qv undef timeout given s0 s tick order store St SR Z Hh HA HL HR HG WF O LV PS score NN.
  destruct (node_insert_nodes E fuel W (N.of_nat i) k v icfg W' None HF K FI HC HI) as (_ & X).
  destruct (X eq_refl) as ((e & Le & De) & _). clear X.
  destruct (C156_one G inc lo hi route members name r w0 es wb w P1 P2 P3 IO AP AL BL F H CH R L7 M ex config q qv undef o timeout given
    s0 s store tick order Ho St SR Z Hh HA HL HR HG WF O NN) as [EX TOP].
  split; [exact EX|]. intros out A. destruct (TOP out A) as (_ & D2 & _ & _ & D5). fold score in D2, D5.
  assert (I : In (mkScored (score (vec k) (vec q)) (kv k v))
    (flat_map (fun k => candidates ex score config q (tick (N.of_nat k)) (store (N.of_nat k))) members)).
  { apply in_flat_map. exists i. split; [exact Hi|]. apply candidates_in.
    exists (wire_key k), e, k, (Some v). split; [apply mload_in; exact Le|]. split; [exact De|].
    split; [apply LV; exact Le|]. rewrite De. auto. }
  destruct (D5 _ I) as [C|(C1 & C2)].
  - left. apply in_map_iff in C. destruct C as (x & Ex & Ix). cbn in Ex.
    exists x. split; auto. split; [exact Ex|].
    pose proof (D2 x Ix) as J. apply in_flat_map in J. destruct J as (m & _ & J).
    apply candidates_in in J. destruct J as (b & e' & k' & v' & _ & De' & _ & _ & ->).
    unfold skey in Ex. cbn in Ex. rewrite De' in Ex. cbn in Ex. injection Ex as ->. reflexivity.
  - right. split; [exact C1|exact C2].
Qed.
Print Assumptions C157_found.

(** ** A concrete case: the three nodes of C156; a datum is inserted at node 1 with two copies, and
    node 0 is asked for it. *)
Definition tg_sources (i : nat) : list bytes :=
  map snd (filter (fun x => bytes_eqb (fst x) (bs "d")) (gSources (gNodes m4d i))).
Definition tg_env : env :=
  mkEnv (fun n => Z.of_nat n) (fun _ l => l) (fun _ => Deliver) (fun a => option_map N.of_nat (route4 1 a)).
Definition tg_world : world := mkWorld (fun j => mkNode true false (dt_ex 0 true 2 (tg_sources (N.to_nat j)))) 0 [] false.
Definition tg_after : world := fst (NodeInsert tg_env 2 tg_world 1 (Some (kv ka va)) None).

Lemma tg_formed : formed insertion_sort ginc route4 [0; 1; 2]%nat (bs "d") m4d.
Proof.
  destruct C156_instance as (H1 & H1' & H2 & H3 & BL & U0 & R0 & CH & R & _).
  exists (gsec 1000), (gsec 1200), 1%nat, world4, mesh_joins, m4a.
  split; [split; [vm_compute; discriminate|split; [exact H1|vm_compute; reflexivity]]|].
  split; [exact H1'|]. split; [exact H2|]. split; [exact H3|]. split; [exact BL|]. split; [exact U0|]. split; [exact R0|].
  split; [exact CH|exact R].
Qed.
Lemma tg_stores : forall n, dDBMap (nData (wNodes tg_after n)) =
  if (n =? 1) || (n =? 2) then [(wire_key ka, mkEntry 0 (kv ka va))] else [].
Proof. intros [|[p|[p|p|]|]]; vm_compute; reflexivity. Qed.
Lemma tg_wf : forall n, store_wf (dDBMap (nData (wNodes tg_after n))).
Proof.
  intro n. rewrite tg_stores. destruct ((n =? 1) || (n =? 2)).
  - destruct kva_ok as (A & B & C). split; [repeat constructor; cbn; auto|]. intros b e [H|[]]. injection H as <- <-. exists ka, va. auto.
  - split; [constructor|intros b e []].
Qed.
Lemma tg_fine : forall j, slot_fine (dDBMap (nData (wNodes tg_world j))) ka.
Proof. intros j e H. discriminate H. Qed.

Example C157_instance :
  formed insertion_sort ginc route4 [0; 1; 2]%nat (bs "d") m4d /\
  (forall a, eResolve tg_env a = option_map N.of_nat (route4 1 a)) /\
  (let me := nData (wNodes tg_world 1) in dInitialized me = true /\
     dSources me = Some (map snd (filter (fun x => bytes_eqb (fst x) (bs "d")) (gSources (gNodes m4d 1)))) /\
     dConfig me = Some (cfg_ex 0 true 2)) /\
  NodeInsert tg_env 2 tg_world 1 (Some (kv ka va)) None = (tg_after, None) /\
  dDBMap (nData (wNodes tg_after 0)) = [] /\
  exists s0 s out, spread_start 0 (source_nodes route4 m4d (bs "d")) 0 (mkDatum (Some kb) None) 1000 false s0 /\
    spread_runs 0 (source_nodes route4 m4d (bs "d")) s0 s /\ sReqs s = [] /\
    (let store := fun n => dDBMap (nData (wNodes tg_after n)) in
     answer insertion_sort mathlib_ex any_filter (cfg1 true 1) (mkDatum (Some kb) None) (calls store reach_tick store 0 s) out) /\
    exists x, In x out /\ skey x = Some ka.
Proof.
  split; [exact tg_formed|]. split; [reflexivity|]. split; [split; [reflexivity|split; [vm_compute; reflexivity|reflexivity]]|].
  assert (INS : NodeInsert tg_env 2 tg_world 1 (Some (kv ka va)) None = (tg_after, None)).
  { unfold tg_after. assert (X : snd (NodeInsert tg_env 2 tg_world 1 (Some (kv ka va)) None) = None) by (vm_compute; reflexivity).
    destruct (NodeInsert tg_env 2 tg_world 1 (Some (kv ka va)) None) as [a b]. cbn [fst snd] in *. rewrite X. reflexivity. }
  split; [exact INS|]. split; [apply tg_stores|].
  destruct C156_instance as (_ & _ & _ & _ & _ & _ & _ & _ & _ & _ & _ & s0 & s & St & R & Z & _).
  set (store := fun n => dDBMap (nData (wNodes tg_after n))).
  assert (NN : no_nan (flat_map (fun k => candidates any_filter QuickVectorDistance (cfg1 true 1) kb (reach_tick (N.of_nat k)) (store (N.of_nat k))) [0; 1; 2]%nat)).
  { cbn [flat_map]. unfold store. rewrite !tg_stores. repeat constructor. }
  destruct (C157_found insertion_sort ginc route4 [0; 1; 2]%nat (bs "d") m4d 1 0 tg_formed ltac:(cbn; lia) ltac:(right; left; reflexivity)
    ltac:(left; reflexivity) tg_env 2 tg_world ka va None tg_after ltac:(lia) (proj1 kva_ok) tg_fine eq_refl INS
    mathlib_ex any_filter (cfg1 true 1) kb None 0 1000 false s0 s reach_tick store St R Z eq_refl eq_refl
    ltac:(cbn; unfold M32; lia) ltac:(cbn; unfold M63; lia) eq_refl tg_wf (fun n => Permutation_refl _)) as [[out A] FD].
  - intros e L. rewrite tg_stores in L. vm_compute in L. injection L as <-. left. reflexivity.
  - reflexivity.
  - exact NN.
  - exists s0, s, out. split; [exact St|]. split; [exact R|]. split; [exact Z|]. split; [exact A|].
    destruct (FD out A) as [(x & I & E & _)|[L _]]; [exists x; auto|]. change (length out = 1%nat) in L.
    destruct tg_formed as (lo & hi & r & w0 & es & wb & (P1 & P2 & P3) & IO & AP & AL & BL & F & H & CH & RR).
    destruct (C156_one insertion_sort ginc lo hi route4 [0; 1; 2]%nat (bs "d") r w0 es wb m4d P1 P2 P3 IO AP AL BL F H CH RR ltac:(cbn; lia)
      mathlib_ex any_filter (cfg1 true 1) kb None 0 0%nat 1000 false s0 s store reach_tick store (or_introl eq_refl) St R Z eq_refl eq_refl
      ltac:(cbn; unfold M32; lia) ltac:(cbn; unfold M63; lia) eq_refl tg_wf (fun n => Permutation_refl _) NN) as [_ TOP].
    destruct (TOP out A) as (_ & IN & _). destruct out as [|x out]; [discriminate L|]. exists x. split; [left; reflexivity|].
    specialize (IN x (or_introl eq_refl)). cbn [flat_map] in IN. unfold store in IN. rewrite !tg_stores in IN.
    vm_compute in IN. destruct IN as [<-|[<-|[]]]; reflexivity.
Qed.
