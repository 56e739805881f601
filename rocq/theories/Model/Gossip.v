(** How nodes find each other: SyncWithPeers and JoinToPeers (node/node.go 218-294),
    SendJoinRequest and SendAddPeerRequest (node/nodeservice.go 174-219, 245-267),
    AddSource (data/data.go 222-233), in a cluster of nodes. *)
From Verif.Base Require Import GoBase GoSort Assoc Float.
From Verif.Model Require Import Codec Store Data Insert Dataset Node.
Open Scope N_scope.

(** What SyncWithPeers does besides removing old peers:
    - [AService s]: n.AddService(s), node/node.go 247-249;
    - [ASend a p]: the request of SendAddPeerRequest(a, p), node/node.go 250-253;
    - [ASource c a]: AddSource of a client for address a to the dataset with
      configuration c, node/node.go 254-262. *)
Inductive gact :=
| AService (service : bytes)
| ASend (address : bytes) (p : Peer)
| ASource (c : DataConfig) (address : bytes).

Section Gossip.
  (** sort.Strings and IncrementExpiration, as in Model/Node.v. *)
  Variable G : go_sort.
  Variable inc : Z -> Z -> Z -> Z.

  (** SendAddPeerRequest, node/nodeservice.go 245-252: the request, unless the
      record contains the target address. *)
  Definition SendAddPeerRequest (address : bytes) (p : Peer) : list gact :=
    match FirstDifferent (pAddressList p) [address] with
    | [] => []
    | _ => [ASend address p]
    end.

  (** One round of the loop of SyncWithPeers, node/node.go 237-262; [all] is
      peerList in the order of the inner loop. *)
  Definition visit (now : Z) (n : nstate) (all : list Peer) (peer : Peer) : nstate * list gact :=
    let '(n', ok) := CheckPeer G now n peer in
    if negb ok then (n', [])
    else
      match GetDifferentAddressOf n' peer with
      | [] => (n', [])
      | id =>
          (n', map AService (pServiceList peer) ++
               flat_map (SendAddPeerRequest id) all ++
               map (fun c => ASource c id) (pDataList peer))
      end.

  (** SyncWithPeers, node/node.go 235-263, undisturbed; [items] are the peers in
      the iteration order of peerList ([all]: in the orders of the inner loops,
      which are all taken to be the same). *)
  Fixpoint sync_loop (now : Z) (n : nstate) (all items : list Peer) : nstate * list gact :=
    match items with
    | [] => (n, [])
    | p :: items' =>
        let '(n1, a1) := visit now n all p in
        let '(n2, a2) := sync_loop now n1 all items' in (n2, a1 ++ a2)
    end.
  (** node/node.go 235-263. *)
  Definition SyncWithPeers (now : Z) (n : nstate) (items : list Peer) : nstate * list gact :=
    sync_loop now n items items.

  (** PeerList.Items(): the peers that are not expired, node/node.go 235 and 284. *)
  Definition peer_items (now : Z) (n : nstate) : list Peer :=
    map (fun x => piPeer (snd x)) (filter (fun x => peer_live now (snd x)) (nPeers n)).

  (** JoinToPeers, node/node.go 278-294: the addresses a join request is sent to.
      [services]: the keys of ServiceList; [items]: the peers, in iteration order. *)
  Definition JoinToPeers (n : nstate) (services : list bytes) (items : list Peer) : list bytes :=
    services ++
    flat_map (fun p => filter (fun a => negb (existsb (bytes_eqb a) (own_addresses n))) (pAddressList p))
      items.

  (** ** A cluster

      A node of the cluster: what it knows, the calls of SyncWithPeers under way
      (peerList and the peers still to be visited) and the sources it has added:
      the dataset and the address that is the source's id (GetDataSourceClient
      and GetID, node/datasourceclient.go 15-22, 100-102). *)
  Record gnode := mkG {
    gState : nstate; gSyncs : list (list Peer * list Peer); gSources : list (bytes * bytes) }.

  (** A record on its way: the sender, the address it is sent to, the record
      (JoinRequest or AddPeerRequest, node/nodeservice.go 177-179, 250-252). *)
  Record mail := mkMail { mFrom : nat; mTo : bytes; mPeer : Peer }.

  (** The nodes, by number, and all records ever sent.  A record may arrive any
      number of times (once, or never if it is lost).
      node/node.go 39-52. *)
  Record gworld := mkGW { gNodes : nat -> gnode; gMail : list mail }.

  (** A change of one node (node/node.go 39-52). *)
  Definition set_g (w : gworld) (i : nat) (g : gnode) : gworld :=
    mkGW (fun j => if Nat.eqb j i then g else gNodes w j) (gMail w).

  (** data.AddSource, data/data.go 222-233: nothing changes if the id is there. *)
  Definition add_source (l : list (bytes * bytes)) (name address : bytes) : list (bytes * bytes) :=
    if existsb (fun x => bytes_eqb (fst x) name && bytes_eqb (snd x) address) l then l
    else l ++ [(name, address)].

  (** The effect of the actions of node i: sources and mail.
      node/node.go 247-262. *)
  Fixpoint perform (i : nat) (sources : list (bytes * bytes)) (post : list mail) (acts : list gact)
    : list (bytes * bytes) * list mail :=
    match acts with
    | [] => (sources, post)
    | AService _ :: l => perform i sources post l
    | ASend a p :: l => perform i sources (post ++ [mkMail i a p]) l
    | ASource c a :: l => perform i (add_source sources (cName c) a) post l
    end.

  (** - [GJoin i a now services configs]: SendJoinRequest(a) by node i, up to the
        call (node/nodeservice.go 174-199);
      - [GDeliver k t1 t2]: record k of the mail reaches the node it is addressed
        to, which handles it (Join or AddPeer, node/nodeservice.go 53-55, 241-243);
      - [GReply i a]: the reply to a join of node i carries address a
        (node/nodeservice.go 204-217);
      - [GStart i now ord]: node i starts SyncWithPeers (node/node.go 235); ord is
        the iteration order of the map;
      - [GVisit i k now]: round of its call number k (node/node.go 236-263);
      - [GPurge i now], [GForget i name a]: expired peers, an expired source are
        removed (node/node.go 60, data/data.go 88);
      - [GRestart i]: the process of node i ends and starts again (node/node.go
        54-72): everything learned is gone. *)
  Inductive gev :=
  | GJoin (i : nat) (address : bytes) (now : Z) (services : list bytes) (configs : list DataConfig)
  | GDeliver (k : nat) (t1 t2 : Z)
  | GReply (i : nat) (address : bytes)
  | GStart (i : nat) (now : Z) (ord : list Peer -> list Peer)
  | GVisit (i k : nat) (now : Z)
  | GPurge (i : nat) (now : Z)
  | GForget (i : nat) (name address : bytes)
  | GRestart (i : nat).

  (** [route i a]: the node that answers when node i connects to address a.
      None: the step is not possible, or a node crashes.
      node/node.go 218-294, node/nodeservice.go 53-78, 174-219, 241-267. *)
  Definition gstep (route : nat -> bytes -> option nat) (w : gworld) (e : gev) : option gworld :=
    match e with
    | GJoin i a now services configs =>
        Some (mkGW (gNodes w)
                (gMail w ++ [mkMail i a (GetNodeInfo now (gState (gNodes w i)) services configs)]))
    | GDeliver k t1 t2 =>
        match nth_error (gMail w) k with
        | Some m =>
            match route (mFrom m) (mTo m) with
            | Some j =>
                let g := gNodes w j in
                match AddPeerElement G inc t1 t2 (gState g) (Some (mPeer m)) with
                | Ok n => Some (set_g w j (mkG n (gSyncs g) (gSources g)))
                | _ => None
                end
            | None => None
            end
        | None => None
        end
    | GReply i a =>
        let g := gNodes w i in
        Some (set_g w i (mkG (learn (gState g) a) (gSyncs g) (gSources g)))
    | GStart i now ord =>
        let g := gNodes w i in
        let items := ord (peer_items now (gState g)) in
        Some (set_g w i (mkG (gState g) (gSyncs g ++ [(items, items)]) (gSources g)))
    | GVisit i k now =>
        let g := gNodes w i in
        match nth_error (gSyncs g) k with
        | Some (all, p :: rest) =>
            let '(n, acts) := visit now (gState g) all p in
            let '(sources, post) := perform i (gSources g) (gMail w) acts in
            match list_set (gSyncs g) k (all, rest) with
            | Some syncs =>
                let w' := set_g w i (mkG n syncs sources) in Some (mkGW (gNodes w') post)
            | None => None
            end
        | _ => None
        end
    | GPurge i now =>
        let g := gNodes w i in
        Some (set_g w i (mkG (purge now (gState g)) (gSyncs g) (gSources g)))
    | GForget i name a =>
        let g := gNodes w i in
        Some (set_g w i (mkG (gState g) (gSyncs g)
                (filter (fun x => negb (bytes_eqb (fst x) name && bytes_eqb (snd x) a)) (gSources g))))
    | GRestart i =>
        let n := gState (gNodes w i) in
        Some (set_g w i (mkG (mkN (nVersion n) (nPort n) [] (nAdvertisedIds n) []) [] []))
    end.

  (** An execution (node/node.go 218-294 at any nodes in any order). *)
  Fixpoint grun (route : nat -> bytes -> option nat) (w : gworld) (es : list gev) : option gworld :=
    match es with
    | [] => Some w
    | e :: es' =>
        match gstep route w e with
        | Some w' => grun route w' es'
        | None => None
        end
    end.
End Gossip.
