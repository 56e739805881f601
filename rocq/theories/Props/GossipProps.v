(** Properties of a cluster of nodes that tell each other about themselves. *)
From Verif.Base Require Import GoBase GoLemmas GoSort Assoc Float.
From Verif.Model Require Import Codec Store Data Insert Dataset Node Gossip.
From Verif.Spec Require Import NodeSpec GossipSpec.
From Verif.Proof Require Import SyncP NodeP GossipP SpreadP.
Open Scope N_scope.

Definition ginc (now d old : Z) : Z := (old + d)%Z.
Definition gsec (n : Z) : Z := (n * 1000000000)%Z.
Definition gcfg (name : bytes) : DataConfig := mkDataConfig name 0 0 (S754_zero false) false 0 false 0.
Definition gnew (address : bytes) : gnode := mkG (mkN [] 80 [] [address] []) [] [].

(** ** C74: a node is never its own source *)

(** If advertised addresses and the addresses in replies lead to the node they are
    about and no process starts again, every source of a node is another node. *)
Theorem C74_own_source_partial : forall G inc route w es w' i name a,
  blank w -> well_routed route w ->
  Forall (fun e => any_order e /\ no_restart e /\
    truthful route (fun k => nPort (gState (gNodes w k))) e) es ->
  grun G inc route w es = Some w' ->
  In (name, a) (gSources (gNodes w' i)) -> exists k, k <> i /\ leads route a k.
Proof.
  intros G inc route w es w' i name a [BM BN] WR F H IN.
  assert (I0 : Itr route (fun k => nPort (gState (gNodes w k))) w).
  { split; [intros m X; rewrite BM in X; destruct X|]. intro k. destruct (BN k) as (B1 & B2 & B3 & B4).
    split; [|split; [reflexivity|]].
    - intros b X. unfold own_of, own_addresses in X. rewrite unique_mem in X. rewrite B1 in X. apply WR. exact X.
    - rewrite B2, B3, B4. split; [intros x []|]. split; [intros all rest []|intros nm b []]. }
  pose proof (Itr_run G inc route _ es w w' I0 F H) as [_ IN'].
  destruct (IN' i) as (_ & _ & _ & _ & X). eapply X; eauto.
Qed.
Print Assumptions C74_own_source_partial.

(** With restarts the same holds as long as nothing is learned from replies. *)
Theorem C74_own_source_restart_partial : forall G inc route w es w' i name a,
  blank w -> well_routed route w ->
  Forall (fun e => any_order e /\ no_reply e) es ->
  grun G inc route w es = Some w' ->
  In (name, a) (gSources (gNodes w' i)) -> exists k, k <> i /\ leads route a k.
Proof.
  intros G inc route w es w' i name a [BM BN] WR F H IN.
  set (D := fun k => nAdvertisedIds (gState (gNodes w k))).
  set (A := fun k => unique (D k)).
  set (Q := fun i a => exists k, k <> i /\ leads route a k).
  assert (QV : forall i p a, RJ A (fun _ => True) p -> True -> FirstDifferent (A i) (pAddressList p) = a -> a <> [] -> Q i a).
  { intros i0 p b [[k R] _] _ E NE. destruct (fd_split _ _ _ E NE) as (u & v & EQ & NI & _).
    assert (IK : In b (A k)). { eapply Permutation_in; [exact R|]. rewrite EQ. apply in_or_app. right. left. reflexivity. }
    exists k. split; [intros ->; contradiction|]. apply WR. unfold A in IK. rewrite unique_mem in IK. exact IK. }
  assert (J0 : J G A D (fun _ => True) (fun _ => True) (fun _ => True) Q w).
  { split; [intros m X; rewrite BM in X; destruct X|]. intro k. destruct (BN k) as (B1 & B2 & B3 & B4).
    split; [unfold own_addresses; rewrite B1; reflexivity|]. split; [reflexivity|]. rewrite B2, B3, B4.
    split; [constructor|]. split; [intros id it X; discriminate X|]. split; [intros all rest []|intros nm b []]. }
  assert (JE : J G A D (fun _ => True) (fun _ => True) (fun _ => True) Q w').
  { eapply J_run; [intros; exact Logic.I|exact QV|exact J0| |exact H].
    eapply Forall_impl; [|exact F]. intros e [AO NR]. split; [exact AO|]. split; [exact NR|]. destruct e; auto. }
  destruct JE as [_ JN]. destruct (JN i) as (_ & _ & _ & _ & _ & X). exact (X name a IN).
Qed.
Print Assumptions C74_own_source_restart_partial.

(** Nodes 0 ("a:80") and 1 ("b:80"); node 0 learns that it is 10.0.0.1. *)
Definition route2 (i : nat) (a : bytes) : option nat :=
  if bytes_eqb a (bs "a:80") then Some 0%nat
  else if bytes_eqb a (bs "10.0.0.1:80") then Some 0%nat
  else if bytes_eqb a (bs "10.0.0.2:80") then Some 0%nat
  else if bytes_eqb a (bs "b:80") then Some 1%nat
  else None.
Definition world2 : gworld :=
  mkGW (fun i => match i with
                 | 0 => gnew (bs "a:80")
                 | 1 => gnew (bs "b:80")
                 | _ => mkG (mkN [] 80 [] [] []) [] []
                 end%nat) [].
Definition learns : list gev :=
  [GJoin 0 (bs "b:80") (gsec 1000) [] [gcfg (bs "d")]; GReply 0 (bs "10.0.0.1"); GDeliver 0 (gsec 1000) (gsec 1000);
   GJoin 0 (bs "b:80") (gsec 1001) [] [gcfg (bs "d")]; GDeliver 1 (gsec 1001) (gsec 1001);
   GStart 1 (gsec 1002) (fun l => l); GVisit 1 0 (gsec 1002); GVisit 1 0 (gsec 1002)].
Lemma world2_ok : blank world2 /\ well_routed route2 world2.
Proof.
  split.
  - split; [reflexivity|]. intros [|[|i]]; cbn; auto.
  - intros [|[|i]] a X; cbn in X; [destruct X as [<-|[]]|destruct X as [<-|[]]|destruct X]; intro j; vm_compute; reflexivity.
Qed.
Example C74_own_source_instance :
  Forall (fun e => any_order e /\ no_restart e /\
    truthful route2 (fun k => nPort (gState (gNodes world2 k))) e) learns /\
  match grun insertion_sort ginc route2 world2 learns with
  | Some w => gSources (gNodes w 1) = [(bs "d", bs "10.0.0.1:80"); (bs "d", bs "a:80")]
  | None => False
  end.
Proof.
  split; [|vm_compute; reflexivity]. repeat constructor; cbn; auto.
Qed.

(** Node 0 joins, starts again and joins once more; node 1 has it as a source. *)
Definition joins_again : list gev :=
  [GJoin 0 (bs "b:80") (gsec 1000) [] [gcfg (bs "d")]; GDeliver 0 (gsec 1000) (gsec 1000); GRestart 0;
   GJoin 0 (bs "b:80") (gsec 1010) [] [gcfg (bs "d")]; GDeliver 1 (gsec 1010) (gsec 1010);
   GStart 1 (gsec 1020) (fun l => l); GVisit 1 0 (gsec 1020)].
Example C74_own_source_restart_instance :
  blank world2 /\ well_routed route2 world2 /\
  Forall (fun e => any_order e /\ no_reply e) joins_again /\
  match grun insertion_sort ginc route2 world2 joins_again with
  | Some w => gSources (gNodes w 1) = [(bs "d", bs "a:80")]
  | None => False
  end.
Proof.
  split; [apply world2_ok|]. split; [apply world2_ok|].
  split; [|vm_compute; reflexivity]. repeat constructor; cbn; auto.
Qed.

(** C74 refuted: node 0 starts again and learns another of its addresses; its old
    record comes back from node 1 and becomes its own source. *)
Definition restarts : list gev :=
  [GReply 0 (bs "10.0.0.1"); GJoin 0 (bs "b:80") (gsec 1000) [] [gcfg (bs "d")]; GDeliver 0 (gsec 1000) (gsec 1000);
   GRestart 0;
   GReply 0 (bs "10.0.0.2"); GJoin 0 (bs "b:80") (gsec 1010) [] [gcfg (bs "d")]; GDeliver 1 (gsec 1010) (gsec 1010);
   GStart 1 (gsec 1020) (fun l => l); GVisit 1 0 (gsec 1020); GVisit 1 0 (gsec 1020);
   GDeliver 2 (gsec 1020) (gsec 1020); GDeliver 3 (gsec 1020) (gsec 1020);
   GStart 0 (gsec 1030) (fun l => l); GVisit 0 0 (gsec 1030)].
Theorem C74_own_source_refuted : exists G inc route w es w' i name a,
  blank w /\ well_routed route w /\
  Forall (fun e => any_order e /\ truthful route (fun k => nPort (gState (gNodes w k))) e) es /\
  grun G inc route w es = Some w' /\ In (name, a) (gSources (gNodes w' i)) /\ leads route a i.
Proof.
  exists insertion_sort, ginc, route2, world2, restarts.
  assert (X : match grun insertion_sort ginc route2 world2 restarts with
              | Some w => gSources (gNodes w 0) = [(bs "d", bs "10.0.0.1:80")]
              | None => False end) by (vm_compute; reflexivity).
  destruct (grun insertion_sort ginc route2 world2 restarts) as [w'|] eqn:E; [|destruct X].
  exists w', 0%nat, (bs "d"), (bs "10.0.0.1:80"). destruct world2_ok as [B WR].
  split; [exact B|]. split; [exact WR|]. split.
  { repeat constructor; cbn; auto; intros _ j; vm_compute; reflexivity. }
  split; [reflexivity|]. split; [rewrite X; left; reflexivity|]. intro j. vm_compute. reflexivity.
Qed.
Print Assumptions C74_own_source_refuted.

(** C74 refuted without restart: node 0 joins node 2 on the same machine, which sees
    it as 127.0.0.1; the record with 127.0.0.1:80 goes to node 1 on another machine,
    where that address is node 1 itself. *)
Definition route3 (i : nat) (a : bytes) : option nat :=
  if bytes_eqb a (bs "a:80") then Some 0%nat
  else if bytes_eqb a (bs "127.0.0.1:80") then (if Nat.eqb i 1 then Some 1%nat else Some 0%nat)
  else if bytes_eqb a (bs "b:80") then Some 1%nat
  else if bytes_eqb a (bs "a:81") then Some 2%nat
  else None.
Definition world3 : gworld :=
  mkGW (fun i => match i with
                 | 0 => gnew (bs "a:80")
                 | 1 => gnew (bs "b:80")
                 | 2 => mkG (mkN [] 81 [] [bs "a:81"] []) [] []
                 | _ => mkG (mkN [] 80 [] [] []) [] []
                 end%nat) [].
Definition local_join : list gev :=
  [GJoin 0 (bs "a:81") (gsec 1000) [] [gcfg (bs "d")]; GDeliver 0 (gsec 1000) (gsec 1000); GReply 0 (bs "127.0.0.1");
   GJoin 0 (bs "b:80") (gsec 1001) [] [gcfg (bs "d")]; GDeliver 1 (gsec 1001) (gsec 1001);
   GStart 1 (gsec 1002) (fun l => l); GVisit 1 0 (gsec 1002)].
Theorem C74_own_source_local_refuted : exists G inc route w es w' i name a,
  blank w /\ well_routed route w /\
  Forall (fun e => any_order e /\ no_restart e /\
    (* the address in a reply leads to the node, for itself and for the node that replied *)
    match e with GReply k b => k = 0%nat /\ route k (b ++ bs ":80") = Some k /\ route 2%nat (b ++ bs ":80") = Some k | _ => True end) es /\
  grun G inc route w es = Some w' /\ In (name, a) (gSources (gNodes w' i)) /\ route i a = Some i.
Proof.
  exists insertion_sort, ginc, route3, world3, local_join.
  assert (X : match grun insertion_sort ginc route3 world3 local_join with
              | Some w => gSources (gNodes w 1) = [(bs "d", bs "127.0.0.1:80")]
              | None => False end) by (vm_compute; reflexivity).
  destruct (grun insertion_sort ginc route3 world3 local_join) as [w'|] eqn:E; [|destruct X].
  exists w', 1%nat, (bs "d"), (bs "127.0.0.1:80"). split.
  { split; [reflexivity|]. intros [|[|[|i]]]; cbn; auto. }
  split.
  { intros [|[|[|i]]] a H; cbn in H; [destruct H as [<-|[]]|destruct H as [<-|[]]|destruct H as [<-|[]]|destruct H];
      intro j; vm_compute; reflexivity. }
  split.
  { repeat constructor; cbn; auto. }
  split; [reflexivity|]. split; [rewrite X; left; reflexivity|]. vm_compute. reflexivity.
Qed.
Print Assumptions C74_own_source_local_refuted.

(** ** C75: one synchronisation spreads every listed record *)

(** For every listed peer other than the node itself, heard of less than 300 s ago:
    the first of its addresses that is not the node's own is told about every listed
    peer that does not have this address, and becomes a source of the peer's
    datasets; nothing else is done.  Peers not heard of are dropped. *)
Theorem C75_sync : forall G now n items n' acts,
  SyncWithPeers G now n items = (n', acts) ->
  (0 <= now)%Z -> (seconds now < 18446744073709551616)%Z ->
  Forall (fun p => Forall plain (pAddressList p) /\ pTimestamp p + 300 < M64) items ->
  Forall plain (nKnownIds n ++ nAdvertisedIds n) ->
  let other p := ~ Permutation (pAddressList p) (own_addresses n) in
  let fresh p := (seconds now < Z.of_N (pTimestamp p) + 300)%Z in
  (forall p a, In p items -> other p -> fresh p -> contact_of n p a ->
     (forall s, In s (pServiceList p) -> In (AService s) acts) /\
     (forall q, In q items -> ~ In a (pAddressList q) -> In (ASend a q) acts) /\
     (forall c, In c (pDataList p) -> In (ASource c a) acts)) /\
  (forall x, In x acts -> exists p a, In p items /\ other p /\ fresh p /\ contact_of n p a /\
     ((exists s, x = AService s /\ In s (pServiceList p)) \/
      (exists q, x = ASend a q /\ In q items /\ ~ In a (pAddressList q)) \/
      (exists c, x = ASource c a /\ In c (pDataList p)))) /\
  (forall p, In p items -> other p -> ~ fresh p -> mload (nPeers n') (GetIdOfPeer G (Some p)) = None) /\
  (forall id, mload (nPeers n') id <> mload (nPeers n) id ->
     exists p, In p items /\ other p /\ ~ fresh p /\ id = GetIdOfPeer G (Some p)).
Proof.
  intros G now n items n' acts H P0 P1 FI FO other fresh. unfold SyncWithPeers in H.
  destruct (sync_loop_cases G ginc now items items n n' acts H) as (_ & _ & _ & AC & PE).
  rewrite Forall_forall in FI.
  assert (FO' : Forall plain (own_addresses n)).
  { rewrite Forall_forall in *. intros x X. apply FO. unfold own_addresses in X. rewrite unique_mem in X. exact X. }
  assert (OT : forall p, In p items -> (other p <-> own_id G n <> GetIdOfPeer G (Some p))).
  { intros p IN. destruct (FI p IN) as [FP _]. unfold other, own_id, GetIdOfPeer, SerializeStringArray. cbn [snd].
    assert (PF : forall l, Forall plain l -> Forall plain (sort_run G string_less l)).
    { intros l F. rewrite Forall_forall in *. intros x X. apply F. eapply Permutation_in; [|exact X]. apply Permutation_sym, sort_perm. }
    split.
    - intros N E. apply N. apply join_inj in E; auto.
      eapply perm_trans; [apply sort_perm|]. rewrite <- E. apply Permutation_sym, sort_perm.
    - intros N PP. apply N. rewrite (sort_perm_eq G _ _ PP). reflexivity. }
  assert (FR : forall p, In p items -> (fresh p <-> IsRecent now (pTimestamp p) = true)).
  { intros p IN. destruct (FI p IN) as [_ TS]. unfold fresh, IsRecent, getCurrentTime. fold (seconds now).
    assert (0 <= seconds now)%Z by (unfold seconds; apply Z.div_pos; lia).
    rewrite Z.mod_small by lia. rewrite u64_small by exact TS. rewrite N.ltb_lt. lia. }
  assert (CO : forall p a, In p items -> contact_of n p a -> a <> []).
  { intros p a IN (u & v & E & _) ->. destruct (FI p IN) as [FP _]. rewrite E in FP. apply Forall_app in FP.
    destruct FP as [_ FP]. apply Forall_inv in FP. destruct FP as [X _]. congruence. }
  split; [|split; [|split]].
  - intros p a IN O R C. pose proof (CO p a IN C) as NE. apply (OT p IN) in O. apply (FR p IN) in R.
    pose proof C as C'. apply (contact_spec n p a NE) in C'.
    split; [|split].
    + intros s X. apply AC. exists p, a. split; [exact IN|]. split; [exact NE|]. split; [auto|]. split; [exact C'|]. left. eauto.
    + intros q X Y. apply AC. exists p, a. split; [exact IN|]. split; [exact NE|]. split; [auto|]. split; [exact C'|]. right. left. eauto.
    + intros c X. apply AC. exists p, a. split; [exact IN|]. split; [exact NE|]. split; [auto|]. split; [exact C'|]. right. right. eauto.
  - intros x X. apply AC in X. destruct X as (p & a & IN & NE & [O R] & C & X). exists p, a.
    split; [exact IN|]. split; [apply OT; auto|]. split; [apply FR; auto|]. split; [apply contact_spec; auto|exact X].
  - intros p IN O NF. assert (OLD : old_other G now n p).
    { split; [apply OT; auto|]. destruct (IsRecent now (pTimestamp p)) eqn:R; [|reflexivity]. exfalso. apply NF, FR; auto. }
    destruct (PE (GetIdOfPeer G (Some p))) as [[P2 P3]|[P2 _]]; [|exact P2]. rewrite P2. apply (P3 p); auto.
  - intros id NE. destruct (PE id) as [[P2 _]|[_ (p & IN & [O R] & E)]]; [congruence|].
    exists p. split; [exact IN|]. split; [apply OT; auto|]. split; [|exact E].
    intro F. apply (FR p IN) in F. congruence.
Qed.
Print Assumptions C75_sync.

Definition rec (ts : N) (l : list bytes) (d : list bytes) : Peer := mkPeer [] ts l [bs "svc"] (map gcfg d).
Example C75_instance :
  SyncWithPeers insertion_sort (gsec 1000)
    (mkN [] 80 [] [bs "me:80"] [(bs "old:80", mkPI (rec 100 [bs "old:80"] []) 0)])
    [rec 900 [bs "a:80"; bs "b:80"] [bs "d"]; rec 100 [bs "old:80"] []; rec 990 [bs "me:80"] []] =
  (mkN [] 80 [] [bs "me:80"] [],
   [AService (bs "svc"); ASend (bs "a:80") (rec 100 [bs "old:80"] []); ASend (bs "a:80") (rec 990 [bs "me:80"] []);
    ASource (gcfg (bs "d")) (bs "a:80")]) /\
  contact_of (mkN [] 80 [] [bs "me:80"] []) (rec 900 [bs "a:80"; bs "b:80"] [bs "d"]) (bs "a:80").
Proof.
  split; [vm_compute; reflexivity|]. apply contact_spec; [discriminate|vm_compute; reflexivity].
Qed.

(** ** C76: membership spreads to everyone *)

(** Within one window of less than 300 s in which addresses do not change: after
    r + 1 rounds, any two nodes that were linked by at most 2^r acquaintances know
    each other. *)
Theorem C76_membership : forall G inc A lo hi route r w w',
  (0 <= lo)%Z -> (seconds hi < seconds lo + 300)%Z -> (seconds hi < 18446744073709551616 - 300)%Z ->
  (forall t old, (old <= inc t 600000000000 old)%Z) ->
  (forall k, A k <> [] /\ Forall plain (A k)) -> (forall k a, In a (A k) -> leads route a k) ->
  settled G A hi w -> rounds G inc A lo hi route (S r) w w' ->
  forall i k, i <> k -> chain A hi w (2 ^ r) i k -> knows A hi w' i k.
Proof.
  intros G inc A lo hi route r w w' P1 P2 P3 IO AP AL ST R i k NE C.
  apply (rounds_spread G inc route A lo hi P1 P2 P3 IO AP AL (fun j => nAdvertisedIds (gState (gNodes w j))) r w w'); auto.
  destruct ST as [SM SN]. split; [exact SM|]. intro j. destruct (SN j) as (S1 & S2 & S3 & S4).
  split; [exact S1|]. split; [reflexivity|]. split; [exact S2|]. split.
  - intros id it X. destruct (S3 _ _ X) as (X1 & X2 & X3). split; [exact X1|]. split; [exact I|]. split; [exact X2|exact X3].
  - split; [|intros; exact I]. intros all rest X. destruct (S4 _ _ X) as [F1 F2].
    split; [eapply Forall_impl; [|exact F1]|eapply Forall_impl; [|exact F2]]; intros p Y; split; auto; exact Y.
Qed.
Print Assumptions C76_membership.

(** Any number of nodes; the address of node k is k + 1 letters.  Nodes 0 and 2 join
    node 1; then two rounds. *)
Definition name_of (k : nat) : bytes := repeat 97 (S k).
Definition route4 (i : nat) (a : bytes) : option nat := Some (pred (length a)).
Definition world4 : gworld := mkGW (fun i => gnew (name_of i)) [].
Definition first_joins : list gev :=
  [GJoin 0 (name_of 1) (gsec 1000) [] []; GJoin 2 (name_of 1) (gsec 1000) [] [];
   GDeliver 0 (gsec 1000) (gsec 1000); GDeliver 1 (gsec 1000) (gsec 1000)].
Definition round1 : list gev :=
  [GJoin 1 (name_of 0) (gsec 1060) [] []; GJoin 1 (name_of 2) (gsec 1060) [] [];
   GStart 1 (gsec 1060) (fun l => l); GVisit 1 0 (gsec 1060); GVisit 1 0 (gsec 1061);
   GDeliver 2 (gsec 1062) (gsec 1062); GDeliver 3 (gsec 1062) (gsec 1062);
   GDeliver 4 (gsec 1062) (gsec 1062); GDeliver 5 (gsec 1062) (gsec 1062)].
Definition delivers (l : list nat) : list gev := map (fun k => GDeliver k (gsec 1122) (gsec 1122)) l.
Definition round2 : list gev :=
  [GJoin 0 (name_of 1) (gsec 1120) [] []; GJoin 0 (name_of 2) (gsec 1120) [] [];
   GJoin 1 (name_of 0) (gsec 1120) [] []; GJoin 1 (name_of 2) (gsec 1120) [] [];
   GJoin 2 (name_of 0) (gsec 1120) [] []; GJoin 2 (name_of 1) (gsec 1120) [] [];
   GStart 0 (gsec 1120) (@rev Peer); GStart 1 (gsec 1120) (fun l => l); GStart 2 (gsec 1120) (fun l => l);
   GVisit 0 0 (gsec 1121); GVisit 1 1 (gsec 1121); GVisit 2 0 (gsec 1121);
   GVisit 0 0 (gsec 1121); GVisit 1 1 (gsec 1121); GVisit 2 0 (gsec 1121)] ++ delivers (seq 6 12).
(** Who lists whom. *)
Definition lists (w : gworld) (i : nat) : list nat :=
  map (fun x => pred (length (hd [] (pAddressList (piPeer (snd x)))))) (nPeers (gState (gNodes w i))).
Definition one_name (w : gworld) (i : nat) : bool :=
  forallb (fun x => match pAddressList (piPeer (snd x)) with [a] => true | _ => false end) (nPeers (gState (gNodes w i))).

Definition world_of (w : gworld) (es : list gev) : gworld :=
  match grun insertion_sort ginc route4 w es with Some w' => w' | None => w end.
Definition w4a := world_of world4 first_joins.
Definition w4b := world_of w4a round1.
Definition w4c := world_of w4b round2.

Lemma knows_lists : forall w i j, one_name w i = true -> knows (fun k => [name_of k]) (gsec 1200) w i j -> In j (lists w i).
Proof.
  intros w i j ON (id & it & M & R & _). apply mload_in in M. unfold lists. apply in_map_iff. exists (id, it).
  split; [|exact M]. unfold one_name in ON. rewrite forallb_forall in ON. specialize (ON _ M). cbn [snd] in *.
  unfold record_of in R. apply Permutation_sym, Permutation_length_1_inv in R. rewrite R. cbn [hd]. unfold name_of. rewrite repeat_length. reflexivity.
Qed.
Lemma runs4 : grun insertion_sort ginc route4 world4 first_joins = Some w4a /\
  grun insertion_sort ginc route4 w4a round1 = Some w4b /\ grun insertion_sort ginc route4 w4b round2 = Some w4c /\
  (lists w4a 0 = [] /\ lists w4a 1 = [2; 0]%nat /\ lists w4a 2 = []) /\
  (lists w4b 0 = [2; 1]%nat /\ lists w4b 1 = [2; 0]%nat /\ lists w4b 2 = [0; 1]%nat).
Proof.
  split; [vm_compute; reflexivity|]. split; [vm_compute; reflexivity|]. split; [vm_compute; reflexivity|].
  split; (split; [vm_compute; reflexivity|split; vm_compute; reflexivity]).
Qed.
Lemma who_knows : forall i j,
  (knows (fun k => [name_of k]) (gsec 1200) w4a i j -> i = 1%nat /\ (j = 0 \/ j = 2)%nat) /\
  (knows (fun k => [name_of k]) (gsec 1200) w4b i j -> (i < 3 /\ j < 3)%nat).
Proof.
  destruct runs4 as (_ & _ & _ & (La0 & La1 & La2) & (Lb0 & Lb1 & Lb2)).
  intros i j. split; intro KN.
  - destruct i as [|[|[|i]]].
    + apply knows_lists in KN; [|vm_compute; reflexivity]. rewrite La0 in KN. destruct KN.
    + apply knows_lists in KN; [|vm_compute; reflexivity]. rewrite La1 in KN. cbn in KN. intuition.
    + apply knows_lists in KN; [|vm_compute; reflexivity]. rewrite La2 in KN. destruct KN.
    + destruct KN as (id & it & M & _). vm_compute in M. discriminate M.
  - destruct i as [|[|[|i]]].
    + apply knows_lists in KN; [|vm_compute; reflexivity]. rewrite Lb0 in KN. cbn in KN. lia.
    + apply knows_lists in KN; [|vm_compute; reflexivity]. rewrite Lb1 in KN. cbn in KN. lia.
    + apply knows_lists in KN; [|vm_compute; reflexivity]. rewrite Lb2 in KN. cbn in KN. lia.
    + destruct KN as (id & it & M & _). vm_compute in M. discriminate M.
Qed.
Lemma round1_ok : round insertion_sort ginc (fun k => [name_of k]) (gsec 1200) route4 w4a round1 w4b.
Proof.
  split; [|split].
  - intros i j NE KN. destruct (proj1 (who_knows i j) KN) as [-> [->| ->]].
    + exists (name_of 0), (gsec 1060), [], []. cbn. auto.
    + exists (name_of 2), (gsec 1060), [], []. cbn. auto.
  - intros i j NE KN. destruct (proj1 (who_knows i j) KN) as [-> _].
    exists (firstn 2 round1), (gsec 1060), (fun l => l), (skipn 3 round1), (world_of w4a (firstn 2 round1)). eexists.
    split; [reflexivity|]. split; [vm_compute; reflexivity|]. vm_compute. reflexivity.
  - intros n H. assert (E1 : length (gMail w4a) = 2%nat) by (vm_compute; reflexivity).
    assert (E2 : length (gMail w4b) = 6%nat) by (vm_compute; reflexivity).
    rewrite E1, E2 in H. exists (gsec 1062), (gsec 1062).
    destruct n as [|[|[|[|[|[|n]]]]]]; try lia; cbn; auto 20.
Qed.
Lemma round2_ok : round insertion_sort ginc (fun k => [name_of k]) (gsec 1200) route4 w4b round2 w4c.
Proof.
  split; [|split].
  - intros i j NE KN. destruct (proj2 (who_knows i j) KN) as [Hi Hj].
    exists (name_of j), (gsec 1120), [], []. split; [|left; reflexivity].
    destruct i as [|[|[|i]]]; try lia; destruct j as [|[|[|j]]]; try lia; cbn; auto 20.
  - intros i j NE KN. destruct (proj2 (who_knows i j) KN) as [Hi Hj].
    destruct i as [|[|[|i]]]; try lia.
    + exists (firstn 6 round2), (gsec 1120), (@rev Peer), (skipn 7 round2), (world_of w4b (firstn 6 round2)). eexists.
      split; [reflexivity|]. split; [vm_compute; reflexivity|]. vm_compute. reflexivity.
    + exists (firstn 7 round2), (gsec 1120), (fun l => l), (skipn 8 round2), (world_of w4b (firstn 7 round2)). eexists.
      split; [reflexivity|]. split; [vm_compute; reflexivity|]. vm_compute. reflexivity.
    + exists (firstn 8 round2), (gsec 1120), (fun l => l), (skipn 9 round2), (world_of w4b (firstn 8 round2)). eexists.
      split; [reflexivity|]. split; [vm_compute; reflexivity|]. vm_compute. reflexivity.
  - intros n H. assert (E1 : length (gMail w4b) = 6%nat) by (vm_compute; reflexivity).
    assert (E2 : length (gMail w4c) = 18%nat) by (vm_compute; reflexivity). rewrite E1, E2 in H. exists (gsec 1122), (gsec 1122). unfold round2. apply in_or_app. right.
    unfold delivers. apply in_map_iff. exists n. split; [reflexivity|]. apply in_seq. lia.
Qed.

(** All hypotheses of C76 hold here, with r = 1 and nodes 0 and 2 two acquaintances
    apart. *)
Example C76_instance :
  let A := fun k => [name_of k] in
  (seconds (gsec 1200) < seconds (gsec 1000) + 300)%Z /\
  (forall t old, (old <= ginc t 600000000000 old)%Z) /\
  (forall k, A k <> [] /\ Forall plain (A k)) /\ (forall k a, In a (A k) -> leads route4 a k) /\
  settled insertion_sort A (gsec 1200) w4a /\
  rounds insertion_sort ginc A (gsec 1000) (gsec 1200) route4 2 w4a w4c /\
  chain A (gsec 1200) w4a (2 ^ 1) 0 2 /\ ~ knows A (gsec 1200) w4a 0 2 /\ knows A (gsec 1200) w4c 0 2.
Proof.
  intro A.
  assert (H1 : (seconds (gsec 1200) < seconds (gsec 1000) + 300)%Z) by (vm_compute; reflexivity).
  assert (H2 : forall k, A k <> [] /\ Forall plain (A k)).
  { intro k. split; [discriminate|]. constructor; [|constructor]. split; [discriminate|].
    intro X. apply (repeat_spec (S k) 97) in X. discriminate X. }
  assert (H3 : forall k a, In a (A k) -> leads route4 a k).
  { intros k a [<-|[]] i. unfold route4, name_of. rewrite repeat_length. reflexivity. }
  assert (CALM : forall es, forallb (fun e => match e with
       | GJoin _ _ t _ _ | GVisit _ _ t => (gsec 1000 <=? t)%Z && (t <=? gsec 1200)%Z
       | GDeliver _ t1 t2 => ((gsec 1000 <=? t1)%Z && (t1 <=? gsec 1200)%Z) && ((gsec 1000 <=? t2)%Z && (t2 <=? gsec 1200)%Z)
       | GStart _ t _ => (gsec 1000 <=? t)%Z && (t <=? gsec 1200)%Z
       | _ => false end) es = true -> Forall any_order es ->
     Forall (fun e => any_order e /\ no_restart e /\ no_reply e /\ between (gsec 1000) (gsec 1200) e) es).
  { intros es B O. rewrite Forall_forall in *. rewrite forallb_forall in B. intros e IN. specialize (B e IN).
    split; [auto|]. destruct e; cbn; try discriminate B; rewrite ?andb_true_iff, ?Z.leb_le in B; tauto. }
  destruct runs4 as (R0 & R1 & R2 & _).
  assert (C0 : Forall (fun e => any_order e /\ no_restart e /\ no_reply e /\ between (gsec 1000) (gsec 1200) e) first_joins).
  { apply CALM; [vm_compute; reflexivity|]. repeat constructor. }
  assert (C1 : Forall (fun e => any_order e /\ no_restart e /\ no_reply e /\ between (gsec 1000) (gsec 1200) e) round1).
  { apply CALM; [vm_compute; reflexivity|]. repeat (constructor; [try exact I; intro l; apply Permutation_refl|]). constructor. }
  assert (C2 : Forall (fun e => any_order e /\ no_restart e /\ no_reply e /\ between (gsec 1000) (gsec 1200) e) round2).
  { apply CALM; [vm_compute; reflexivity|]. unfold round2. apply Forall_app. split.
    - do 6 (constructor; [exact I|]). constructor; [intro l; apply Permutation_rev|].
      do 2 (constructor; [intro l; apply Permutation_refl|]). do 6 (constructor; [exact I|]). constructor.
    - unfold delivers. rewrite Forall_forall. intros e IN. apply in_map_iff in IN. destruct IN as (k & <- & _). exact I. }
  assert (ST : settled insertion_sort A (gsec 1200) w4a).
  { split.
    - intros m IN. vm_compute in IN. destruct IN as [<-|[<-|[]]].
      + split; [exists 0%nat; apply Permutation_refl|vm_compute; reflexivity].
      + split; [exists 2%nat; apply Permutation_refl|vm_compute; reflexivity].
    - intro i. destruct i as [|[|[|i]]]; (split; [vm_compute; reflexivity|]).
      + split; [constructor|]. split; [intros id it X; discriminate X|intros all rest []].
      + split; [vm_compute; repeat constructor; cbn; intuition discriminate|]. split; [|intros all rest []].
        intros id it X. apply mload_in in X. vm_compute in X. destruct X as [X|[X|[]]]; injection X as <- <-.
        * split; [split; [exists 2%nat; apply Permutation_refl|vm_compute; reflexivity]|]. split; vm_compute; reflexivity.
        * split; [split; [exists 0%nat; apply Permutation_refl|vm_compute; reflexivity]|]. split; vm_compute; reflexivity.
      + split; [constructor|]. split; [intros id it X; discriminate X|intros all rest []].
      + split; [constructor|]. split; [intros id it X; discriminate X|intros all rest []]. }
  assert (RS : rounds insertion_sort ginc A (gsec 1000) (gsec 1200) route4 2 w4a w4c).
  { econstructor; [econstructor; [constructor|exact C1|exact R1|exact round1_ok]|exact C2|exact R2|exact round2_ok]. }
  assert (K1 : forall j, (j = 0 \/ j = 2)%nat -> knows A (gsec 1200) w4a 1 j).
  { intros j [->| ->].
    - exists (name_of 0). eexists. split; [vm_compute; reflexivity|]. split; [apply Permutation_refl|]. split; vm_compute; reflexivity.
    - exists (name_of 2). eexists. split; [vm_compute; reflexivity|]. split; [apply Permutation_refl|]. split; vm_compute; reflexivity. }
  assert (CH : chain A (gsec 1200) w4a (2 ^ 1) 0 2).
  { cbn. econstructor; [econstructor; [apply (chain_0 _ _ _ 0)|right; apply K1; auto]|left; apply K1; auto]. }
  split; [exact H1|]. split; [intros t old; unfold ginc; lia|]. split; [exact H2|]. split; [exact H3|]. split; [exact ST|]. split; [exact RS|]. split; [exact CH|].
  split; [intro X; destruct (proj1 (who_knows 0 2) X) as [Y _]; discriminate Y|].
  exists (name_of 2). eexists. split; [vm_compute; reflexivity|]. split; [apply Permutation_refl|]. split; vm_compute; reflexivity.
Qed.

(** ** C77: the sources of a dataset are different nodes *)

(** As long as no address is learned from replies: different source ids are
    different nodes. *)
Theorem C77_distinct_sources_partial : forall G inc route w es w' i name a a',
  blank w -> well_routed route w ->
  Forall (fun e => any_order e /\ no_reply e) es ->
  grun G inc route w es = Some w' ->
  In (name, a) (gSources (gNodes w' i)) -> In (name, a') (gSources (gNodes w' i)) -> a <> a' ->
  exists k k', k <> k' /\ leads route a k /\ leads route a' k'.
Proof.
  intros G inc route w es w' i name a a' [BM BN] WR F H IN IN' DIFF.
  set (D := fun k => nAdvertisedIds (gState (gNodes w k))).
  set (A := fun k => unique (D k)).
  set (Q := fun i a => exists k, leads route a k /\ a = FirstDifferent (A i) (sort_run G string_less (A k))).
  set (S := fun p => pAddressList p = sort_run G string_less (pAddressList p)).
  assert (SS : forall p, S (sort_peer G p)).
  { intro p. unfold S, sort_peer, SerializeStringArray. cbn [pAddressList fst]. apply sort_perm_eq, sort_perm. }
  assert (QV : forall i p a, RJ A (fun _ => True) p -> S p -> FirstDifferent (A i) (pAddressList p) = a -> a <> [] -> Q i a).
  { intros i0 p b [[k R] _] SP E NE. destruct (fd_split _ _ _ E NE) as (u & v & EQ & NI & _).
    assert (IK : In b (A k)). { eapply Permutation_in; [exact R|]. rewrite EQ. apply in_or_app. right. left. reflexivity. }
    exists k. split; [apply WR; unfold A in IK; rewrite unique_mem in IK; exact IK|].
    rewrite <- E. f_equal. rewrite SP. apply sort_perm_eq. exact R. }
  assert (J0 : J G A D (fun _ => True) (fun _ => True) S Q w).
  { split; [intros m X; rewrite BM in X; destruct X|]. intro k. destruct (BN k) as (B1 & B2 & B3 & B4).
    split; [unfold own_addresses; rewrite B1; reflexivity|]. split; [reflexivity|]. rewrite B2, B3, B4.
    split; [constructor|]. split; [intros id it X; discriminate X|]. split; [intros all rest []|intros nm b []]. }
  assert (JE : J G A D (fun _ => True) (fun _ => True) S Q w').
  { eapply J_run; [exact SS|exact QV|exact J0| |exact H].
    eapply Forall_impl; [|exact F]. intros e [AO NR]. split; [exact AO|]. split; [exact NR|]. destruct e; auto. }
  destruct JE as [_ JN]. destruct (JN i) as (_ & _ & _ & _ & _ & X).
  destruct (X name a IN) as (k & L1 & E1). destruct (X name a' IN') as (k' & L2 & E2).
  exists k, k'. split; [|auto]. intros <-. congruence.
Qed.
Print Assumptions C77_distinct_sources_partial.
Example C77_distinct_sources_instance :
  let es := first_joins ++ [GJoin 0 (name_of 1) (gsec 1001) [] [gcfg (bs "d")]; GDeliver 2 (gsec 1001) (gsec 1001);
     GJoin 2 (name_of 1) (gsec 1001) [] [gcfg (bs "d")]; GDeliver 3 (gsec 1001) (gsec 1001); GRestart 0;
     GStart 1 (gsec 1002) (fun l => l); GVisit 1 0 (gsec 1002); GVisit 1 0 (gsec 1002)] in
  blank world4 /\ well_routed route4 world4 /\ Forall (fun e => any_order e /\ no_reply e) es /\
  match grun insertion_sort ginc route4 world4 es with
  | Some w => gSources (gNodes w 1) = [(bs "d", name_of 2); (bs "d", name_of 0)]
  | None => False
  end.
Proof.
  intro es. split; [split; [reflexivity|intro i; cbn; auto]|]. split.
  { intros k a [<-|[]] i. unfold route4, name_of. rewrite repeat_length. reflexivity. }
  split; [|vm_compute; reflexivity]. repeat constructor; cbn; auto.
Qed.

(** C77 refuted: node 0 learns an address between two joins; node 1 has it as two
    sources of the same dataset, although every address is right. *)
Theorem C77_distinct_sources_refuted : exists G inc route w es w' i name a a' k,
  blank w /\ well_routed route w /\
  Forall (fun e => any_order e /\ no_restart e /\ truthful route (fun k => nPort (gState (gNodes w k))) e) es /\
  grun G inc route w es = Some w' /\
  gSources (gNodes w' i) = [(name, a); (name, a')] /\ a <> a' /\ leads route a k /\ leads route a' k.
Proof.
  exists insertion_sort, ginc, route2, world2, learns.
  destruct C74_own_source_instance as [F X].
  destruct (grun insertion_sort ginc route2 world2 learns) as [w'|] eqn:E; [|destruct X].
  exists w', 1%nat, (bs "d"), (bs "10.0.0.1:80"), (bs "a:80"), 0%nat. destruct world2_ok as [B WR].
  split; [exact B|]. split; [exact WR|]. split; [exact F|]. split; [reflexivity|]. split; [exact X|].
  split; [discriminate|]. split; intro j; vm_compute; reflexivity.
Qed.
Print Assumptions C77_distinct_sources_refuted.
