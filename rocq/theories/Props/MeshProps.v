(** C156: a small cluster answers as one. *)
From Verif.Base Require Import GoBase GoLemmas Assoc Float GoSort.
From Verif.Model Require Import Codec Store Data Vector Search Aggregator QueryCache Flood CallTree Spread Insert Dataset Node Gossip.
From Verif.Spec Require Import Wire StoreSpec TopK TreeSpec ReachSpec NodeSpec GossipSpec MeshSpec.
From Verif.Proof Require Import TopKP VectorP NodeP GossipP MeshP.
From Verif.Props Require Import StoreProps SearchProps GossipProps ReachProps.
From Coq Require Import Lia.
Open Scope N_scope.

(** Members that start with nothing, announce the same dataset when they join, and whose
    addresses do not change: within a window of less than 300 s, one round after all know each
    other (C76), the sources of the dataset at every member are exactly all other members, each
    once. *)
Theorem C156_sources : forall G inc lo hi route members name r w0 es w w',
  (0 <= lo)%Z -> (seconds hi < seconds lo + 300)%Z -> (seconds hi < 18446744073709551616 - 300)%Z ->
  (forall t old, (old <= inc t 600000000000 old)%Z) ->
  let A := fun k => unique (nAdvertisedIds (gState (gNodes w0 k))) in
  (forall k, A k <> [] /\ Forall plain (A k)) -> (forall k a, In a (A k) -> leads route a k) ->
  blank w0 -> Forall (usual lo hi members name) es -> grun G inc route w0 es = Some w ->
  (forall i k, In i members -> In k members -> i <> k -> chain A hi w (2 ^ r) i k) ->
  usual_rounds G inc A lo hi route members name (S (S r)) w w' ->
  forall i, In i members ->
    NoDup (source_nodes route w' name (N.of_nat i)) /\
    forall n, In n (source_nodes route w' name (N.of_nat i)) <-> exists k, In k members /\ k <> i /\ n = N.of_nat k.
Proof.
  intros G inc lo hi route members name r w0 es w w' P1 P2 P3 IO A AP AL BL F H CH R i Hi.
  set (D := fun k => nAdvertisedIds (gState (gNodes w0 k))).
  destruct (blank_start G A D hi members name w0 BL (fun k => eq_refl) (fun k => eq_refl)) as [J0 M0].
  assert (J1 : SpreadP.JW G A hi D w).
  { eapply SpreadP.J_calm with (w := w0) (es := es) (lo := lo); eauto. eapply usual_calm; eauto. }
  assert (M1 : MI G A members name w) by (eapply M_run with (w := w0) (es := es); eauto).
  destruct (usual_rounds_M G inc route A D lo hi members name P1 P2 P3 IO _ _ _ R J1 M1) as [_ M2].
  eapply mesh_sources; [exact AL|exact M2|]. intros k Hk NE.
  eapply rounds_sources with (D := D) (w := w) (r := r); eauto.
Qed.
Print Assumptions C156_sources.

(** Then, with at most seven members, a query at any of them of which nothing is lost is
    answered exactly, over the data of all members together. *)
Theorem C156_one : forall G inc lo hi route members name r w0 es w w',
  (0 <= lo)%Z -> (seconds hi < seconds lo + 300)%Z -> (seconds hi < 18446744073709551616 - 300)%Z ->
  (forall t old, (old <= inc t 600000000000 old)%Z) ->
  let A := fun k => unique (nAdvertisedIds (gState (gNodes w0 k))) in
  (forall k, A k <> [] /\ Forall plain (A k)) -> (forall k a, In a (A k) -> leads route a k) ->
  blank w0 -> Forall (usual lo hi members name) es -> grun G inc route w0 es = Some w ->
  (forall i k, In i members -> In k members -> i <> k -> chain A hi w (2 ^ r) i k) ->
  usual_rounds G inc A lo hi route members name (S (S r)) w w' ->
  (length members <= 7)%nat ->
  forall M ex config q qv undef o timeout given s0 s store tick order,
  In o members ->
  spread_start undef (source_nodes route w' name) (N.of_nat o) (mkDatum (Some q) qv) timeout given s0 ->
  spread_runs undef (source_nodes route w' name) s0 s -> sReqs s = [] ->
  scHigherIsBetter config = true -> HasPrefix (scScoreFuncName config) (bs "Annoy") = false ->
  1 <= scLimit config < M32 -> scResultLimit config < M63 -> scGroupLimit config = 0 ->
  (forall n, store_wf (store n)) -> (forall n, Permutation (order n) (store n)) ->
  let score := GetVectorComparisonFunction M (scScoreFuncName config) in
  let everything := flat_map (fun k => candidates ex score config q (tick (N.of_nat k)) (store (N.of_nat k))) members in
  no_nan everything ->
  (exists out, answer G M ex config (mkDatum (Some q) qv) (calls store tick order (N.of_nat o) s) out) /\
  forall out, answer G M ex config (mkDatum (Some q) qv) (calls store tick order (N.of_nat o) s) out ->
    distinct_topk (beats true) skey (wanted (scLimit config) (scResultLimit config)) everything out.
Proof.
  intros G inc lo hi route members name r w0 es w w' P1 P2 P3 IO A AP AL BL F H CH R L7
    M ex config q qv undef o timeout given s0 s store tick order Ho St SR Z Hh HA HL HR HG W O score everything NN.
  pose proof (C156_sources G inc lo hi route members name r w0 es w w' P1 P2 P3 IO AP AL BL F H CH R) as SRC.
  set (sources := source_nodes route w' name) in *.
  assert (LK : forall n, In n (map N.of_nat members) <-> linked sources (N.of_nat o) n).
  { intro n. split.
    - intro X. apply in_map_iff in X. destruct X as (k & <- & Hk). destruct (Nat.eq_dec k o) as [->|NE]; [constructor|].
      apply (linked_on _ _ (N.of_nat o)); [constructor|]. apply (SRC o Ho). eauto.
    - induction 1 as [|m k L IH I]; [apply in_map; exact Ho|].
      apply in_map_iff in IH. destruct IH as (i & <- & Hi). apply (SRC i Hi) in I. destruct I as (x & Hx & _ & ->).
      apply in_map. exact Hx. }
  assert (SX : six sources (N.of_nat o)).
  { intros n L. apply LK in L. apply in_map_iff in L. destruct L as (i & <- & Hi). destruct (SRC i Hi) as [ND IFF].
    split; [exact ND|].
    assert (ND1 : NoDup (N.of_nat i :: sources (N.of_nat i))).
    { constructor; [|exact ND]. intro X. apply IFF in X. destruct X as (k & _ & NE & E). apply Nnat.Nat2N.inj in E. auto. }
    assert (IC : incl (N.of_nat i :: sources (N.of_nat i)) (map N.of_nat members)).
    { intros x [<-|X]; [apply in_map; exact Hi|]. apply IFF in X. destruct X as (k & Hk & _ & ->). apply in_map. exact Hk. }
    pose proof (NoDup_incl_length ND1 IC) as LE. rewrite map_length in LE. cbn [length] in LE. lia. }
  assert (EV : forall x, In x (flat_map (fun n => candidates ex score config q (tick n) (store n)) (map N.of_nat members)) <-> In x everything).
  { intro x. unfold everything. rewrite !in_flat_map. split.
    - intros (n & X & Y). apply in_map_iff in X. destruct X as (k & <- & Hk). eauto.
    - intros (k & X & Y). exists (N.of_nat k). split; [apply in_map; exact X|exact Y]. }
  destruct (C155_exact G M ex config q qv undef sources (N.of_nat o) timeout given s0 s store tick order (map N.of_nat members)
    SX St SR Z Hh HA HL HR HG W O LK) as [X Y].
  { unfold no_nan in *. rewrite Forall_forall in *. intros x I. apply NN, EV, I. }
  split; [exact X|]. intros out Ans. eapply distinct_topk_ext; [exact EV|]. apply Y, Ans.
Qed.
Print Assumptions C156_one.

(** With eight or more members, however, although each knows all others and nothing is lost,
    any other member may be left out. *)
Theorem C156_eight : forall D undef sources members o (d : D) timeout given missed,
  NoDup members -> (8 <= length members)%nat -> In o members -> In missed members -> missed <> o ->
  (forall n, In n members -> NoDup (sources n) /\ forall m, In m (sources n) <-> In m members /\ m <> n) ->
  exists s0 s, spread_start undef sources o d timeout given s0 /\ spread_runs undef sources s0 s /\ sReqs s = [] /\
    ~ executed missed (sLog s).
Proof.
  intros D undef sources members o d timeout given missed ND L8 Ho Hm NE FULL.
  set (rest := filter (fun x => negb ((x =? o) || (x =? missed))) members).
  assert (NR : NoDup rest) by (apply NoDup_filter; exact ND).
  assert (IR : forall x, In x rest <-> In x members /\ x <> o /\ x <> missed).
  { intro x. unfold rest. rewrite filter_In, negb_true_iff, orb_false_iff, !N.eqb_neq. tauto. }
  assert (LR : (6 <= length rest)%nat).
  { assert (I : incl members (o :: missed :: rest)).
    { intros x X. destruct (N.eq_dec x o); [left; auto|]. destruct (N.eq_dec x missed); [right; left; auto|].
      right; right. apply IR. auto. }
    pose proof (NoDup_incl_length ND I) as Y. cbn [length] in Y. lia. }
  set (seven := o :: firstn 6 rest).
  assert (FI : forall x, In x (firstn 6 rest) -> In x rest).
  { intros x X. rewrite <- (firstn_skipn 6 rest). apply in_or_app. left. exact X. }
  assert (N7 : NoDup seven).
  { constructor; [intro X; apply FI, IR in X; tauto|]. rewrite <- (firstn_skipn 6 rest) in NR. eapply NoDup_app_l. exact NR. }
  assert (L7 : length seven = 7%nat) by (cbn [seven length]; rewrite firstn_length; lia).
  assert (M7 : forall x, In x seven -> In x members /\ x <> missed).
  { intros x [<-|X]; [auto|]. apply FI, IR in X. tauto. }
  set (sources' := fun n => if in_dec N.eq_dec n seven then filter (fun m => if in_dec N.eq_dec m seven then true else false) (sources n) else []).
  assert (S7 : forall n, In n seven -> NoDup (sources' n) /\ incl (sources' n) (sources n) /\ length (sources' n) = 6%nat /\ incl (sources' n) seven).
  { intros n X. unfold sources'. destruct (in_dec N.eq_dec n seven) as [_|Y]; [|destruct (Y X)].
    destruct (FULL n (proj1 (M7 n X))) as [A B].
    set (l := filter _ (sources n)). assert (NL : NoDup l) by (apply NoDup_filter; exact A).
    assert (IL : forall m, In m l <-> In m seven /\ m <> n).
    { intro m. unfold l. rewrite filter_In, B. destruct (in_dec N.eq_dec m seven) as [Y|Y]; [|intuition discriminate].
      pose proof (M7 m Y). tauto. }
    split; [exact NL|]. split; [intros m Y; unfold l in Y; apply filter_In in Y; apply Y|]. split; [|intros m Y; apply IL, Y].
    assert (NN : NoDup (n :: l)) by (constructor; [intro Y; apply IL in Y; tauto|exact NL]).
    assert (I1 : incl (n :: l) seven) by (intros m [<-|Y]; [exact X|apply IL, Y]).
    assert (I2 : incl seven (n :: l)) by (intros m Y; destruct (N.eq_dec m n); [left; auto|right; apply IL; auto]).
    pose proof (NoDup_incl_length NN I1) as Y1. pose proof (NoDup_incl_length N7 I2) as Y2. cbn [length] in Y1, Y2. lia. }
  assert (Z7 : forall n, ~ In n seven -> sources' n = []).
  { intros n X. unfold sources'. destruct (in_dec N.eq_dec n seven) as [Y|_]; [destruct (X Y)|reflexivity]. }
  assert (O7 : In o seven) by (left; reflexivity).
  assert (U : forall n, incl (sources' n) seven).
  { intro n. destruct (in_dec N.eq_dec n seven) as [X|X]; [apply S7, X|rewrite (Z7 n X); intros m []]. }
  assert (V : forall n, NoDup (sources' n)).
  { intro n. destruct (in_dec N.eq_dec n seven) as [X|X]; [apply S7, X|rewrite (Z7 n X); constructor]. }
  assert (SENT : forall n t dd i reqs, In n seven -> sent (D := D) undef sources' n t dd i reqs ->
    sent undef sources n t dd i reqs /\ forall e, In e reqs -> In (rTo (snd e)) seven).
  { intros n t dd i reqs X Y. destruct Y as [targets times (T1 & T2 & T3) LT FT]. destruct (S7 n X) as (A & B & C & E). split.
    - constructor; auto. split; [exact T1|]. split; [intros m Y; apply B, T2, Y|]. rewrite T3, C.
      pose proof (NoDup_incl_length A B) as LE. lia.
    - intros e Y. apply in_map_iff in Y. destruct Y as ((a & b) & <- & Y). cbn. apply in_combine_l in Y. apply E, T2, Y. }
  destruct (C155_ends D undef sources' seven o d timeout given U O7 V) as [(s0 & St) X].
  destruct (X s0 s0 St (spr_here _ _ _)) as (s & R & Z). exists s0, s.
  assert (St' : spread_start undef sources o d timeout given s0 /\ (forall e, In e (sReqs s0) -> In (rTo (snd e)) seven) /\
    forall n, executed n (sLog s0) -> In n seven).
  { destruct St as [reqs St]. destruct (SENT _ _ _ _ _ O7 St) as [A B]. split; [constructor; exact A|]. split; [exact B|].
    intros n [<-|[]]. exact O7. }
  destruct St' as (A & B & C). split; [exact A|].
  assert (RR : spread_runs undef sources s0 s /\ forall n, executed n (sLog s) -> In n seven).
  { clear - R B C SENT. induction R as [s|s s1 s2 S R IH]; [split; [constructor|exact C]|].
    destruct S as [seen r1 i r r2 log I|seen r1 i r r2 log reqs I Y]; cbn [sReqs sLog] in *.
    - destruct IH as [IH1 IH2]; [intros e J; apply B; apply in_app_or in J; apply in_or_app; cbn; tauto|exact C|].
      split; [|exact IH2]. econstructor; [apply sp_duplicate; exact I|exact IH1].
    - assert (T : In (rTo r) seven) by (apply (B (i, r)), in_or_app; right; left; reflexivity).
      destruct (SENT _ _ _ _ _ T Y) as [Y1 Y2]. destruct IH as [IH1 IH2].
      + intros e J. apply in_app_or in J as [J|J]; [apply B, in_or_app; auto|]. apply in_app_or in J as [J|J]; [|exact (Y2 _ J)].
        apply B, in_or_app. right. right. exact J.
      + intros n [<-|J]; [exact T|exact (C n J)].
      + split; [|exact IH2]. econstructor; [apply sp_execute; [exact I|exact Y1]|exact IH1]. }
  split; [apply RR|]. split; [exact Z|]. intro Y. apply RR in Y. apply M7 in Y. tauto.
Qed.
Print Assumptions C156_eight.

(** ** A concrete case *)
(** Nodes 0 and 2 join node 1, all with the dataset d; then three rounds. *)
Definition mesh_join (i j : nat) (t : Z) : gev := GJoin i (name_of j) t [] [gcfg (bs "d")].
Definition mesh_joins : list gev :=
  [mesh_join 0 1 (gsec 1000); mesh_join 2 1 (gsec 1000);
   GDeliver 0 (gsec 1000) (gsec 1000); GDeliver 1 (gsec 1000) (gsec 1000)].
Definition mesh_round1 : list gev :=
  [mesh_join 1 0 (gsec 1060); mesh_join 1 2 (gsec 1060);
   GStart 1 (gsec 1060) (fun l => l); GVisit 1 0 (gsec 1060); GVisit 1 0 (gsec 1061);
   GDeliver 2 (gsec 1062) (gsec 1062); GDeliver 3 (gsec 1062) (gsec 1062);
   GDeliver 4 (gsec 1062) (gsec 1062); GDeliver 5 (gsec 1062) (gsec 1062)].
Definition mesh_round (t : Z) (k0 k1 k2 base : nat) : list gev :=
  [mesh_join 0 1 t; mesh_join 0 2 t; mesh_join 1 0 t; mesh_join 1 2 t; mesh_join 2 0 t; mesh_join 2 1 t;
   GStart 0 t (@rev Peer); GStart 1 t (fun l => l); GStart 2 t (fun l => l);
   GVisit 0 k0 t; GVisit 1 k1 t; GVisit 2 k2 t; GVisit 0 k0 t; GVisit 1 k1 t; GVisit 2 k2 t] ++
  map (fun k => GDeliver k t t) (seq base 12).
Definition mesh_round2 := mesh_round (gsec 1120) 0 1 0 6.
Definition mesh_round3 := mesh_round (gsec 1180) 1 2 1 18.
Definition m4a := world_of world4 mesh_joins.
Definition m4b := world_of m4a mesh_round1.
Definition m4c := world_of m4b mesh_round2.
Definition m4d := world_of m4c mesh_round3.

Lemma mesh_runs : grun insertion_sort ginc route4 world4 mesh_joins = Some m4a /\
  grun insertion_sort ginc route4 m4a mesh_round1 = Some m4b /\ grun insertion_sort ginc route4 m4b mesh_round2 = Some m4c /\
  grun insertion_sort ginc route4 m4c mesh_round3 = Some m4d /\
  (lists m4a 0 = [] /\ lists m4a 1 = [2; 0]%nat /\ lists m4a 2 = []) /\
  (lists m4b 0 = [2; 1]%nat /\ lists m4b 1 = [2; 0]%nat /\ lists m4b 2 = [0; 1]%nat) /\
  (lists m4c 0 = [2; 1]%nat /\ lists m4c 1 = [2; 0]%nat /\ lists m4c 2 = [1; 0]%nat).
Proof.
  do 4 (split; [vm_compute; reflexivity|]).
  split; [|split]; (split; [vm_compute; reflexivity|split; vm_compute; reflexivity]).
Qed.

Lemma mesh_knows : forall i j,
  (knows (fun k => [name_of k]) (gsec 1200) m4a i j -> i = 1%nat /\ (j = 0 \/ j = 2)%nat) /\
  (knows (fun k => [name_of k]) (gsec 1200) m4b i j -> (i < 3 /\ j < 3)%nat) /\
  (knows (fun k => [name_of k]) (gsec 1200) m4c i j -> (i < 3 /\ j < 3)%nat).
Proof.
  destruct mesh_runs as (_ & _ & _ & _ & (La0 & La1 & La2) & (Lb0 & Lb1 & Lb2) & (Lc0 & Lc1 & Lc2)).
  intros i j. split; [|split]; intro KN.
  - destruct i as [|[|[|i]]].
    + apply knows_lists in KN; [|vm_compute; reflexivity]. rewrite La0 in KN. destruct KN.
    + apply knows_lists in KN; [|vm_compute; reflexivity]. rewrite La1 in KN. cbn in KN. intuition.
    + apply knows_lists in KN; [|vm_compute; reflexivity]. rewrite La2 in KN. destruct KN.
    + destruct KN as (id & it & M & _). vm_compute in M. discriminate M.
  - destruct i as [|[|[|i]]].
    + apply knows_lists in KN; [|vm_compute; reflexivity]. rewrite Lb0 in KN. cbn in KN. lia.
    + apply knows_lists in KN; [|vm_compute; reflexivity]. rewrite Lb1 in KN. cbn in KN. lia.
    + apply knows_lists in KN; [|vm_compute; reflexivity]. rewrite Lb2 in KN. cbn in KN. lia.
    + destruct KN as (id & it & M & _). vm_compute in M. discriminate M.
  - destruct i as [|[|[|i]]].
    + apply knows_lists in KN; [|vm_compute; reflexivity]. rewrite Lc0 in KN. cbn in KN. lia.
    + apply knows_lists in KN; [|vm_compute; reflexivity]. rewrite Lc1 in KN. cbn in KN. lia.
    + apply knows_lists in KN; [|vm_compute; reflexivity]. rewrite Lc2 in KN. cbn in KN. lia.
    + destruct KN as (id & it & M & _). vm_compute in M. discriminate M.
Qed.
Lemma mesh_round1_ok : round insertion_sort ginc (fun k => [name_of k]) (gsec 1200) route4 m4a mesh_round1 m4b.
Proof.
  split; [|split].
  - intros i j NE KN. destruct (proj1 (mesh_knows i j) KN) as [-> [->| ->]].
    + exists (name_of 0), (gsec 1060), [], [gcfg (bs "d")]. split; [left; reflexivity|left; reflexivity].
    + exists (name_of 2), (gsec 1060), [], [gcfg (bs "d")]. split; [right; left; reflexivity|left; reflexivity].
  - intros i j NE KN. destruct (proj1 (mesh_knows i j) KN) as [-> _].
    exists (firstn 2 mesh_round1), (gsec 1060), (fun l => l), (skipn 3 mesh_round1), (world_of m4a (firstn 2 mesh_round1)). eexists.
    split; [reflexivity|]. split; [vm_compute; reflexivity|]. vm_compute. reflexivity.
  - intros n H. assert (E1 : length (gMail m4a) = 2%nat) by (vm_compute; reflexivity).
    assert (E2 : length (gMail m4b) = 6%nat) by (vm_compute; reflexivity).
    rewrite E1, E2 in H. exists (gsec 1062), (gsec 1062).
    destruct n as [|[|[|[|[|[|n]]]]]]; try lia; cbn; auto 20.
Qed.
Lemma mesh_joined : forall t k0 k1 k2 base i j, (i < 3)%nat -> (j < 3)%nat -> i <> j ->
  In (mesh_join i j t) (mesh_round t k0 k1 k2 base).
Proof.
  intros t k0 k1 k2 base i j Hi Hj NE. unfold mesh_round. apply in_or_app. left.
  destruct i as [|[|[|i]]]; try lia; destruct j as [|[|[|j]]]; try lia; cbn [In]; tauto.
Qed.
Lemma mesh_round_ok : forall w w' t k0 k1 k2 base,
  (forall i j, knows (fun k => [name_of k]) (gsec 1200) w i j -> (i < 3 /\ j < 3)%nat) ->
  length (gMail w) = base -> length (gMail w') = (base + 12)%nat ->
  (exists w1 all, grun insertion_sort ginc route4 w (firstn 6 (mesh_round t k0 k1 k2 base)) = Some w1 /\
     nth_error (gSyncs (gNodes w' 0)) (length (gSyncs (gNodes w1 0))) = Some (all, [])) ->
  (exists w1 all, grun insertion_sort ginc route4 w (firstn 7 (mesh_round t k0 k1 k2 base)) = Some w1 /\
     nth_error (gSyncs (gNodes w' 1)) (length (gSyncs (gNodes w1 1))) = Some (all, [])) ->
  (exists w1 all, grun insertion_sort ginc route4 w (firstn 8 (mesh_round t k0 k1 k2 base)) = Some w1 /\
     nth_error (gSyncs (gNodes w' 2)) (length (gSyncs (gNodes w1 2))) = Some (all, [])) ->
  round insertion_sort ginc (fun k => [name_of k]) (gsec 1200) route4 w (mesh_round t k0 k1 k2 base) w'.
Proof.
  intros w w' t k0 k1 k2 base K L1 L2 (wa & aa & Ra & Na) (wb & ab & Rb & Nb) (wc & ac & Rc & Nc).
  split; [|split].
  - intros i j NE KN. destruct (K i j KN) as [Hi Hj].
    exists (name_of j), t, [], [gcfg (bs "d")]. split; [apply mesh_joined; assumption|left; reflexivity].
  - intros i j NE KN. destruct (K i j KN) as [Hi Hj].
    destruct i as [|[|[|i]]]; try lia.
    + exists (firstn 6 (mesh_round t k0 k1 k2 base)), t, (@rev Peer), (skipn 7 (mesh_round t k0 k1 k2 base)), wa, aa.
      split; [reflexivity|auto].
    + exists (firstn 7 (mesh_round t k0 k1 k2 base)), t, (fun l => l), (skipn 8 (mesh_round t k0 k1 k2 base)), wb, ab.
      split; [reflexivity|auto].
    + exists (firstn 8 (mesh_round t k0 k1 k2 base)), t, (fun l => l), (skipn 9 (mesh_round t k0 k1 k2 base)), wc, ac.
      split; [reflexivity|auto].
  - intros n H. rewrite L1, L2 in H. exists t, t. unfold mesh_round. apply in_or_app. right.
    apply in_map_iff. exists n. split; [reflexivity|]. apply in_seq. lia.
Qed.
Lemma mesh_usual : forall es, forallb (fun e => match e with
    | GJoin i _ t _ [c] => ((gsec 1000 <=? t)%Z && (t <=? gsec 1200)%Z) && ((i <? 3)%nat && bytes_eqb (cName c) (bs "d"))
    | GVisit _ _ t => (gsec 1000 <=? t)%Z && (t <=? gsec 1200)%Z
    | GDeliver _ t1 t2 => ((gsec 1000 <=? t1)%Z && (t1 <=? gsec 1200)%Z) && ((gsec 1000 <=? t2)%Z && (t2 <=? gsec 1200)%Z)
    | GStart _ t _ => (gsec 1000 <=? t)%Z && (t <=? gsec 1200)%Z
    | _ => false end) es = true -> Forall any_order es ->
  Forall (usual (gsec 1000) (gsec 1200) [0; 1; 2]%nat (bs "d")) es.
Proof.
  intros es B O. rewrite Forall_forall in *. rewrite forallb_forall in B. intros e IN. specialize (B e IN).
  specialize (O e IN). destruct e as [i a t sv cs| | | | | | |]; try discriminate B.
  - destruct cs as [|c [|]]; try discriminate B. rewrite !andb_true_iff, !Z.leb_le in B. destruct B as [B [L E]].
    apply Nat.ltb_lt in L. apply bytes_eqb_spec in E. split; [split; [exact O|]; cbn; tauto|].
    cbn [announces map In]. split; [lia|left; exact E].
  - split; [split; [exact O|]|exact I]. cbn. rewrite ?andb_true_iff, ?Z.leb_le in B. tauto.
  - split; [split; [exact O|]|exact I]. cbn. rewrite ?andb_true_iff, ?Z.leb_le in B. tauto.
  - split; [split; [exact O|]|exact I]. cbn. rewrite ?andb_true_iff, ?Z.leb_le in B. tauto.
Qed.
Lemma mesh_orders : forall t k0 k1 k2 base, Forall any_order (mesh_round t k0 k1 k2 base).
Proof.
  intros. unfold mesh_round. apply Forall_app. split.
  - do 6 (constructor; [exact I|]). constructor; [intro l; apply Permutation_rev|].
    do 2 (constructor; [intro l; apply Permutation_refl|]). do 6 (constructor; [exact I|]). constructor.
  - rewrite Forall_forall. intros e IN. apply in_map_iff in IN. destruct IN as (k & <- & _). exact I.
Qed.
Lemma mesh_rounds : usual_rounds insertion_sort ginc (fun k => [name_of k]) (gsec 1000) (gsec 1200) route4 [0; 1; 2]%nat (bs "d") 3 m4a m4d.
Proof.
  destruct mesh_runs as (_ & R1 & R2 & R3 & _).
  econstructor; [econstructor; [econstructor; [constructor| |exact R1|exact mesh_round1_ok]| |exact R2|]| |exact R3|].
  - apply mesh_usual; [vm_compute; reflexivity|]. unfold mesh_round1.
    repeat (constructor; [try exact I; intro l; apply Permutation_refl|]). constructor.
  - apply mesh_usual; [vm_compute; reflexivity|apply mesh_orders].
  - apply mesh_round_ok; [intros i j K; exact (proj1 (proj2 (mesh_knows i j)) K)|vm_compute; reflexivity|vm_compute; reflexivity| | |].
    + exists (world_of m4b (firstn 6 mesh_round2)). eexists. split; [vm_compute; reflexivity|]. vm_compute. reflexivity.
    + exists (world_of m4b (firstn 7 mesh_round2)). eexists. split; [vm_compute; reflexivity|]. vm_compute. reflexivity.
    + exists (world_of m4b (firstn 8 mesh_round2)). eexists. split; [vm_compute; reflexivity|]. vm_compute. reflexivity.
  - apply mesh_usual; [vm_compute; reflexivity|apply mesh_orders].
  - apply mesh_round_ok; [intros i j K; exact (proj2 (proj2 (mesh_knows i j)) K)|vm_compute; reflexivity|vm_compute; reflexivity| | |].
    + exists (world_of m4c (firstn 6 mesh_round3)). eexists. split; [vm_compute; reflexivity|]. vm_compute. reflexivity.
    + exists (world_of m4c (firstn 7 mesh_round3)). eexists. split; [vm_compute; reflexivity|]. vm_compute. reflexivity.
    + exists (world_of m4c (firstn 8 mesh_round3)). eexists. split; [vm_compute; reflexivity|]. vm_compute. reflexivity.
Qed.
Lemma mesh_chains : forall i k, In i [0; 1; 2]%nat -> In k [0; 1; 2]%nat -> i <> k ->
  chain (fun k => [name_of k]) (gsec 1200) m4a (2 ^ 1) i k.
Proof.
  assert (K1 : forall j, (j = 0 \/ j = 2)%nat -> knows (fun k => [name_of k]) (gsec 1200) m4a 1 j).
  { intros j [->| ->].
    - exists (name_of 0). eexists. split; [vm_compute; reflexivity|]. split; [apply Permutation_refl|]. split; vm_compute; reflexivity.
    - exists (name_of 2). eexists. split; [vm_compute; reflexivity|]. split; [apply Permutation_refl|]. split; vm_compute; reflexivity. }
  assert (L : forall j, (j = 0 \/ j = 2)%nat -> chain (fun k => [name_of k]) (gsec 1200) m4a (2 ^ 1) j 1 /\
    chain (fun k => [name_of k]) (gsec 1200) m4a (2 ^ 1) 1 j).
  { intros j J. split; (econstructor; [apply chain_0|]); [right|left]; apply K1, J. }
  assert (LL : forall j k, (j = 0 \/ j = 2)%nat -> (k = 0 \/ k = 2)%nat -> chain (fun k => [name_of k]) (gsec 1200) m4a (2 ^ 1) j k).
  { intros j k J K. econstructor; [econstructor; [apply chain_0|right; apply K1, J]|left; apply K1, K]. }
  intros i k Hi Hk NE. cbn [In] in Hi, Hk.
  destruct (Nat.eq_dec i 1) as [->|]; [apply L; lia|]. destruct (Nat.eq_dec k 1) as [->|]; [apply L; lia|]. apply LL; lia.
Qed.
Definition mesh_store (n : N) : list (bytes * entry) := reach_store (n + 1).

Example C156_instance :
  let A := fun k => unique (nAdvertisedIds (gState (gNodes world4 k))) in
  (seconds (gsec 1200) < seconds (gsec 1000) + 300)%Z /\
  (forall t old, (old <= ginc t 600000000000 old)%Z) /\
  (forall k, A k <> [] /\ Forall plain (A k)) /\ (forall k a, In a (A k) -> leads route4 a k) /\
  blank world4 /\ Forall (usual (gsec 1000) (gsec 1200) [0; 1; 2]%nat (bs "d")) mesh_joins /\
  grun insertion_sort ginc route4 world4 mesh_joins = Some m4a /\
  (forall i k, In i [0; 1; 2]%nat -> In k [0; 1; 2]%nat -> i <> k -> chain A (gsec 1200) m4a (2 ^ 1) i k) /\
  usual_rounds insertion_sort ginc A (gsec 1000) (gsec 1200) route4 [0; 1; 2]%nat (bs "d") 3 m4a m4d /\
  source_nodes route4 m4a (bs "d") 0 = [] /\ source_nodes route4 m4d (bs "d") 0 = [1; 2] /\
  exists s0 s, spread_start 0 (source_nodes route4 m4d (bs "d")) 0 (mkDatum (Some kb) None) 1000 false s0 /\
    spread_runs 0 (source_nodes route4 m4d (bs "d")) s0 s /\ sReqs s = [] /\
    no_nan (flat_map (fun k => candidates any_filter QuickVectorDistance (cfg1 true 1) kb (reach_tick (N.of_nat k)) (mesh_store (N.of_nat k))) [0; 1; 2]%nat) /\
    exists out, answer insertion_sort mathlib_ex any_filter (cfg1 true 1) (mkDatum (Some kb) None) (calls mesh_store reach_tick mesh_store 0 s) out /\
      length out = 1%nat.
Proof.
  intro A.
  assert (H1 : (seconds (gsec 1200) < seconds (gsec 1000) + 300)%Z) by (vm_compute; reflexivity).
  assert (H1' : (forall t old, (old <= ginc t 600000000000 old)%Z)) by (intros t old; unfold ginc; lia).
  assert (H2 : forall k, A k <> [] /\ Forall plain (A k)).
  { intro k. split; [discriminate|]. constructor; [|constructor]. split; [discriminate|].
    intro X. apply (repeat_spec (S k) 97) in X. discriminate X. }
  assert (H3 : forall k a, In a (A k) -> leads route4 a k).
  { intros k a [<-|[]] i. unfold route4. change (Some (pred (length (name_of k))) = Some k). unfold name_of. rewrite repeat_length. reflexivity. }
  assert (BL : blank world4) by (split; [reflexivity|intro i; repeat split]).
  assert (U0 : Forall (usual (gsec 1000) (gsec 1200) [0; 1; 2]%nat (bs "d")) mesh_joins).
  { apply mesh_usual; [vm_compute; reflexivity|]. unfold mesh_joins. repeat (constructor; [exact I|]). constructor. }
  destruct mesh_runs as (R0 & _).
  assert (NN : no_nan (flat_map (fun k => candidates any_filter QuickVectorDistance (cfg1 true 1) kb (reach_tick (N.of_nat k)) (mesh_store (N.of_nat k))) [0; 1; 2]%nat))
    by (repeat constructor).
  split; [exact H1|]. split; [exact H1'|]. split; [exact H2|]. split; [exact H3|]. split; [exact BL|]. split; [exact U0|].
  split; [exact R0|]. split; [exact mesh_chains|]. split; [exact mesh_rounds|]. split; [vm_compute; reflexivity|]. split; [vm_compute; reflexivity|].
  assert (SRC : forall n, incl (source_nodes route4 m4d (bs "d") n) [0; 1; 2] /\ NoDup (source_nodes route4 m4d (bs "d") n)).
  { intro n. destruct (Nat.lt_ge_cases (N.to_nat n) 3) as [L|L].
    - destruct (C156_sources insertion_sort ginc (gsec 1000) (gsec 1200) route4 [0; 1; 2]%nat (bs "d") 1 world4 mesh_joins m4a m4d
        ltac:(vm_compute; discriminate) H1 ltac:(vm_compute; reflexivity) H1' H2 H3 BL U0 R0 mesh_chains mesh_rounds (N.to_nat n)) as [ND IFF].
      { cbn [In]. lia. }
      rewrite Nnat.N2Nat.id in ND, IFF. split; [|exact ND]. intros x X. destruct (proj1 (IFF x) X) as (k & Hk & _ & ->).
      clear - Hk. cbn [In] in Hk. destruct Hk as [<-|[<-|[<-|[]]]]; cbn; auto.
    - assert (E : source_nodes route4 m4d (bs "d") n = []).
      { unfold source_nodes. assert (E : gSources (gNodes m4d (N.to_nat n)) = []).
        { destruct (N.to_nat n) as [|[|[|m]]]; try lia. vm_compute. reflexivity. }
        rewrite E. reflexivity. }
      rewrite E. split; [intros x []|constructor]. }
  destruct (C155_ends Datum 0 (source_nodes route4 m4d (bs "d")) [0; 1; 2] 0 (mkDatum (Some kb) None) 1000 false
    (fun n => proj1 (SRC n)) ltac:(cbn; auto) (fun n => proj2 (SRC n))) as [(s0 & St) X].
  destruct (X s0 s0 St (spr_here _ _ _)) as (s & R & Z). exists s0, s.
  split; [exact St|]. split; [exact R|]. split; [exact Z|]. split; [exact NN|].
  destruct (C156_one insertion_sort ginc (gsec 1000) (gsec 1200) route4 [0; 1; 2]%nat (bs "d") 1 world4 mesh_joins m4a m4d
    ltac:(vm_compute; discriminate) H1 ltac:(vm_compute; reflexivity) H1' H2 H3 BL U0 R0 mesh_chains mesh_rounds ltac:(cbn; lia)
    mathlib_ex any_filter (cfg1 true 1) kb None 0 0%nat 1000 false s0 s mesh_store reach_tick mesh_store) as [[out Ans] TOP];
    [left; reflexivity|exact St|exact R|exact Z|reflexivity|reflexivity|cbn; unfold M32; lia|cbn; unfold M63; lia|reflexivity| | |exact NN|].
  - intro n. apply reach_wf.
  - intro n. apply Permutation_refl.
  - exists out. split; [exact Ans|]. destruct (TOP _ Ans) as (_ & _ & _ & LE & CV).
    match type of CV with forall x, In x ?l -> _ => remember l as every eqn:EV; vm_compute in EV end.
    destruct every as [|x every]; [discriminate EV|]. destruct (CV x (or_introl eq_refl)) as [C|[C _]]; [|exact C].
    change (length out <= 1)%nat in LE. destruct out as [|y [|z out]]; [destruct C|reflexivity|cbn in LE; lia].
Qed.

(** Eight nodes that know each other. *)
Example C156_instance_eight :
  let members := [0; 1; 2; 3; 4; 5; 6; 7] in
  let sources := fun n => filter (fun m => negb (m =? n)) members in
  NoDup members /\ (8 <= length members)%nat /\
  forall n, In n members -> NoDup (sources n) /\ forall m, In m (sources n) <-> In m members /\ m <> n.
Proof.
  intros members sources. assert (ND : NoDup members) by (repeat constructor; cbn; intuition discriminate).
  split; [exact ND|]. split; [cbn; lia|]. intros n _. split; [apply NoDup_filter, ND|].
  intro m. unfold sources. rewrite filter_In, negb_true_iff, N.eqb_neq. tauto.
Qed.
