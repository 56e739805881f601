(** A node's knowledge about itself and its peers (node/node.go,
    node/nodeservice.go), its life cycle (state/state.go) and its HTTP endpoints
    (server/httpservice.go).

    Times are nanoseconds (go-cache); getCurrentTime (node/node.go 127-129) is the same
    clock in seconds. *)
From Verif.Base Require Import GoBase GoSort Assoc Float.
From Verif.Model Require Import Codec Store Data Insert Dataset.
Open Scope N_scope.

(** getCurrentTime, node/node.go 127-129. *)
Definition getCurrentTime (now : Z) : N := Z.to_N ((now / 1000000000) mod 18446744073709551616).

(** Go's < on strings: byte by byte.
    Used by sort.Strings, node/node.go 27. *)
Fixpoint string_less (a b : bytes) : bool :=
  match a, b with
  | _, [] => false
  | [], _ :: _ => true
  | x :: a', y :: b' => if x <? y then true else if y <? x then false else string_less a' b'
  end.

(** strings.Join(list, sep) for a one-byte separator.
    node/node.go 28. *)
Fixpoint join (sep : N) (l : list bytes) : bytes :=
  match l with
  | [] => []
  | [x] => x
  | x :: l' => x ++ sep :: join sep l'
  end.

(** node/node.go 28. *)
Definition comma : N := 44.
(** node/nodeservice.go 61 and 205. *)
Definition colon : N := 58.

(** pb.Peer (veriservice/veriservice.proto, message Peer). *)
Record Peer := mkPeer {
  pVersion : bytes; pTimestamp : N; pAddressList : list bytes; pServiceList : list bytes;
  pDataList : list DataConfig }.

(** fmt.Sprintf("%v", n) of an unsigned number.
    node/nodeservice.go 205 and server/veriserviceserver.go 66. *)
Fixpoint digits (u : Decimal.uint) : bytes :=
  match u with
  | Decimal.Nil => []
  | Decimal.D0 u => 48 :: digits u | Decimal.D1 u => 49 :: digits u
  | Decimal.D2 u => 50 :: digits u | Decimal.D3 u => 51 :: digits u
  | Decimal.D4 u => 52 :: digits u | Decimal.D5 u => 53 :: digits u
  | Decimal.D6 u => 54 :: digits u | Decimal.D7 u => 55 :: digits u
  | Decimal.D8 u => 56 :: digits u | Decimal.D9 u => 57 :: digits u
  end.
(** node/nodeservice.go 205 and server/veriserviceserver.go 66. *)
Definition decimal (n : N) : bytes := digits (N.to_uint n).

(** unique, node/node.go 151-161; [keys] is the map of the strings seen so far. *)
Fixpoint unique_from (keys : list bytes) (l : list bytes) : list bytes :=
  match l with
  | [] => []
  | x :: l' => if existsb (bytes_eqb x) keys then unique_from keys l'
               else x :: unique_from (x :: keys) l'
  end.
(** node/node.go 151-161. *)
Definition unique (l : list bytes) : list bytes := unique_from [] l.

(** FirstDifferent, node/node.go 190-204. *)
Fixpoint FirstDifferent (list0 list1 : list bytes) : bytes :=
  match list1 with
  | [] => []
  | e0 :: l => if existsb (bytes_eqb e0) list0 then FirstDifferent list0 l else e0
  end.

(** IsRecent, node/node.go 92-94. *)
Definition IsRecent (now : Z) (timestamp : N) : bool :=
  getCurrentTime now <? u64 (timestamp + 300).

(** * Peers *)

(** An item of PeerList: the record and the expiration time (0: never).
    node/node.go 60. *)
Record pitem := mkPI { piPeer : Peer; piExpires : Z }.

(** The part of Node (node/node.go 39-52) that concerns identity and peers.  A peer
    pointer is its record: records in PeerList are only written by the in-place
    sort of their addresses, which happens before they are stored (line 110). *)
Record nstate := mkN {
  nVersion : bytes; nPort : N; nKnownIds : list bytes; nAdvertisedIds : list bytes;
  nPeers : amap pitem }.

(** n.PeerList, node/node.go 103 and 120. *)
Definition set_peers (n : nstate) (m : amap pitem) : nstate :=
  mkN (nVersion n) (nPort n) (nKnownIds n) (nAdvertisedIds n) m.
(** n.KnownIds, node/nodeservice.go 215. *)
Definition set_known (n : nstate) (l : list bytes) : nstate :=
  mkN (nVersion n) (nPort n) l (nAdvertisedIds n) (nPeers n).

(** go-cache: an item is visible unless its expiration time has passed.
    Used at node/node.go 111, 235, 284. *)
Definition peer_live (now : Z) (i : pitem) : bool :=
  negb ((0 <? piExpires i)%Z && (piExpires i <? now)%Z).
(** node/node.go 111. *)
Definition PeerList_Get (now : Z) (n : nstate) (id : bytes) : option Peer :=
  match mload (nPeers n) id with
  | Some i => if peer_live now i then Some (piPeer i) else None
  | None => None
  end.

(** GetNodeInfo, node/node.go 163-176.  [services] and [configs] are ServiceListKeys()
    and Dataset.DataConfigList(). *)
Definition GetNodeInfo (now : Z) (n : nstate) (services : list bytes) (configs : list DataConfig) : Peer :=
  mkPeer (nVersion n) (getCurrentTime now) (unique (nKnownIds n ++ nAdvertisedIds n)) services configs.

(** The address list of GetNodeInfo.
    node/node.go 164-167. *)
Definition own_addresses (n : nstate) : list bytes := unique (nKnownIds n ++ nAdvertisedIds n).

(** GetDifferentAddressOf, node/node.go 213-216. *)
Definition GetDifferentAddressOf (n : nstate) (peer : Peer) : bytes :=
  FirstDifferent (own_addresses n) (pAddressList peer).

Section Peers.
  (** sort.Strings of the standard library. *)
  Variable G : go_sort.
  (** IncrementExpiration of the go-cache fork (node/node.go 121): the new expiration
      time, given the time, the increment and the old one. *)
  Variable inc : Z -> Z -> Z -> Z.

  (** SerializeStringArray, node/node.go 26-29: sorts in place, then joins. *)
  Definition SerializeStringArray (l : list bytes) : list bytes * bytes :=
    let s := sort_run G string_less l in (s, join comma s).

  (** GetIdOfPeer, node/node.go 22-24: the id; the peer's address list is now sorted.
      A nil peer has no addresses. *)
  Definition sort_peer (p : Peer) : Peer :=
    mkPeer (pVersion p) (pTimestamp p) (fst (SerializeStringArray (pAddressList p)))
      (pServiceList p) (pDataList p).
  (** node/node.go 22-24. *)
  Definition GetIdOfPeer (p : option Peer) : bytes :=
    snd (SerializeStringArray (match p with Some q => pAddressList q | None => [] end)).

  (** isPeerSimilarToNode, node/node.go 206-211. *)
  Definition own_id (n : nstate) : bytes := snd (SerializeStringArray (own_addresses n)).
  (** node/node.go 206-211. *)
  Definition isPeerSimilarToNode (n : nstate) (peer : option Peer) : bool :=
    bytes_eqb (own_id n) (GetIdOfPeer peer).

  (** AddPeerElement, first part, node/node.go 109-118: whether the second part is
      reached.  Line 113 dereferences peer. *)
  Definition peer_check (now : Z) (n : nstate) (peer : option Peer) : res bool :=
    if isPeerSimilarToNode n peer then Ok false
    else match PeerList_Get now n (GetIdOfPeer peer) with
         | Some old =>
             match peer with
             | Some p => Ok (negb (pTimestamp p <=? pTimestamp old))
             | None => Panic
             end
         | None => Ok true
         end.

  (** AddPeerElement, second part, node/node.go 119-122.  A nil peer has timestamp 0
      (it is recent only in the first 300 s of 1970, treated as Panic).
      The default expiration of PeerList is 5 minutes (node/node.go 60). *)
  Definition peer_store (now : Z) (n : nstate) (peer : option Peer) : res nstate :=
    match peer with
    | Some p =>
        if IsRecent now (pTimestamp p)
        then Ok (set_peers n (mstore (nPeers n) (GetIdOfPeer peer)
               (mkPI (sort_peer p) (inc now 600000000000 (now + 300000000000)%Z))))
        else Ok n
    | None => if IsRecent now 0 then Panic else Ok n
    end.

  (** AddPeerElement, node/node.go 108-125, undisturbed; t1 is the time at line 111, t2
      at line 119. *)
  Definition AddPeerElement (t1 t2 : Z) (n : nstate) (peer : option Peer) : res nstate :=
    b <- peer_check t1 n peer ;;
    if (b : bool) then peer_store t2 n peer else Ok n.

  (** CheckPeer, node/node.go 96-106. *)
  Definition CheckPeer (now : Z) (n : nstate) (peer : Peer) : nstate * bool :=
    if isPeerSimilarToNode n (Some peer) then (n, false)
    else if IsRecent now (pTimestamp peer) then (n, true)
    else (set_peers n (mdelete (nPeers n) (GetIdOfPeer (Some peer))), false).

  (** SendJoinRequest, node/nodeservice.go 204-217, with the reply's address: the check
      and the append. *)
  Definition feedback (n : nstate) (address : bytes) : bytes :=
    address ++ colon :: decimal (nPort n).
  (** node/nodeservice.go 204-214. *)
  Definition join_check (n : nstate) (address : bytes) : bool :=
    match address with
    | [] => false
    | _ => negb (existsb (bytes_eqb (feedback n address)) (nKnownIds n))
    end.
  (** node/nodeservice.go 215. *)
  Definition join_append (n : nstate) (address : bytes) : nstate :=
    set_known n (nKnownIds n ++ [feedback n address]).
  (** node/nodeservice.go 204-217. *)
  Definition learn (n : nstate) (address : bytes) : nstate :=
    if join_check n address then join_append n address else n.

  (** ** Calls one after the other *)

  (** - [SAdd t1 t2 p]: a Join or AddPeer message (node/nodeservice.go 55, 241);
      - [SCheck now p]: CheckPeer of a listed peer (node/node.go 239);
      - [SLearn a]: a reply to a join request;
      - [SPurge now]: the go-cache janitor removes expired items. *)
  Inductive nev :=
  | SAdd (t1 t2 : Z) (p : option Peer)
  | SCheck (now : Z) (p : Peer)
  | SLearn (address : bytes)
  | SPurge (now : Z).

  (** The cleanup interval of node/node.go 60. *)
  Definition purge (now : Z) (n : nstate) : nstate :=
    set_peers n (filter (fun x => peer_live now (snd x)) (nPeers n)).

  (** node/node.go 96-125 and node/nodeservice.go 204-217. *)
  Definition nstep (n : nstate) (e : nev) : res nstate :=
    match e with
    | SAdd t1 t2 p => AddPeerElement t1 t2 n p
    | SCheck now p => Ok (fst (CheckPeer now n p))
    | SLearn a => Ok (learn n a)
    | SPurge now => Ok (purge now n)
    end.

  (** Any sequence of the calls of node/node.go 96-125 and node/nodeservice.go 204-217. *)
  Fixpoint nrun (n : nstate) (es : list nev) : res nstate :=
    match es with
    | [] => Ok n
    | e :: es' => n' <- nstep n e ;; nrun n' es'
    end.

  (** ** Concurrent calls

      Every message is handled by its own goroutine; AddPeerElement holds no lock.
      [AStart]: at line 109; [AStore]: at line 119.  Joins: [JStart]: at line 204
      of node/nodeservice.go; [JAppend]: at line 215. *)
  Inductive apc :=
  | AStart (p : option Peer)
  | AStore (p : option Peer)
  | JStart (address : bytes)
  | JAppend (address : bytes)
  | ADone.
  (** node/node.go 39-52 and the goroutines of node/nodeservice.go 53-78, 174-219, 241-243. *)
  Record pstate := mkP { psNode : nstate; psThreads : list apc }.

  (** - [PRecv p], [PReply a]: a message or a reply arrives;
      - [PStep now i]: thread i makes a step at time now;
      - [PCheck now p], [PPurge now]: as above.
      node/nodeservice.go 53-78, 174-219, 241-243; node/node.go 96-125. *)
  Inductive pev :=
  | PRecv (p : option Peer)
  | PReply (address : bytes)
  | PStep (now : Z) (i : nat)
  | PCheck (now : Z) (p : Peer)
  | PPurge (now : Z).

  (** node/node.go 96-125 and node/nodeservice.go 204-217. *)
  Definition pstep (s : pstate) (e : pev) : res pstate :=
    match e with
    | PRecv p => Ok (mkP (psNode s) (psThreads s ++ [AStart p]))
    | PReply a => Ok (mkP (psNode s) (psThreads s ++ [JStart a]))
    | PStep now i =>
        match nth_error (psThreads s) i with
        | None | Some ADone => Ok s
        | Some pc =>
            r <- match pc with
                 | AStart p =>
                     b <- peer_check now (psNode s) p ;;
                     Ok (psNode s, if (b : bool) then AStore p else ADone)
                 | AStore p => n <- peer_store now (psNode s) p ;; Ok (n, ADone)
                 | JStart a => Ok (psNode s, if join_check (psNode s) a then JAppend a else ADone)
                 | JAppend a => Ok (join_append (psNode s) a, ADone)
                 | ADone => Ok (psNode s, ADone)
                 end ;;
            match list_set (psThreads s) i (snd r) with
            | Some l => Ok (mkP (fst r) l)
            | None => Panic
            end
        end
    | PCheck now p => Ok (mkP (fst (CheckPeer now (psNode s) p)) (psThreads s))
    | PPurge now => Ok (mkP (purge now (psNode s)) (psThreads s))
    end.

  (** Any interleaving of node/node.go 96-125 and node/nodeservice.go 204-217. *)
  Fixpoint prun (s : pstate) (es : list pev) : res pstate :=
    match es with
    | [] => Ok s
    | e :: es' => s' <- pstep s e ;; prun s' es'
    end.
End Peers.

(** * Join *)

(** strings.LastIndex(s, ":"), -1 as None.
    node/nodeservice.go 61. *)
Fixpoint last_index (c : N) (s : bytes) : option nat :=
  match s with
  | [] => None
  | x :: s' => match last_index c s' with
               | Some i => Some (S i)
               | None => if x =? c then Some 0%nat else None
               end
  end.

(** strings.ReplaceAll of "[" and "]" by "".
    node/nodeservice.go 67. *)
Definition no_brackets (s : bytes) : bytes :=
  filter (fun c => negb (c =? 91) && negb (c =? 93)) s.

(** Join, node/nodeservice.go 53-78: the address in the reply.  [addr] is
    p.Addr.String() of the caller, None if the context has no peer; [loopback s]
    says that net.ParseIP(s) succeeds and gives a loopback address. *)
Definition Join_address (loopback : bytes -> bool) (addr : option bytes) : bytes :=
  match addr with
  | None => []
  | Some s =>
      let address := match last_index colon s with
                     | Some (S i) => firstn (S i) s
                     | _ => s
                     end in
      let address := if loopback (no_brackets address) then bs "localhost" else address in
      if blen address <=? 1 then [] else address
  end.

(** * Configuration: server/veriserviceserver.go 59-68 *)

(** strings.Split(s, ",").
    server/veriserviceserver.go 62. *)
Fixpoint split_comma (s : bytes) : list bytes :=
  match s with
  | [] => [[]]
  | c :: s' =>
      if c =? comma then [] :: split_comma s'
      else match split_comma s' with
           | w :: ws => (c :: w) :: ws
           | [] => [[c]]
           end
  end.

(** The broadcast addresses, server/veriserviceserver.go 59-68. *)
Definition broadcastAddresses (broadcast : bytes) (port : N) : list bytes :=
  match broadcast with
  | [] => []
  | _ => map (fun a => if existsb (N.eqb colon) a then a else a ++ colon :: decimal port)
             (split_comma broadcast)
  end.

(** * Life cycle *)

(** The flags of package state (state/state.go) and the insert requests that have
    passed the check at node/nodeservice.go 36 and are not finished. *)
Record life := mkLife { lHealth : bool; lReady : bool; lDrain : bool; lAdmitted : list nat }.

(** - [LServe]: RunServer, server/veriserviceserver.go 17-18;
    - [LCloseReady], [LCloseDrain]: Close, node/node.go 80 and 81;
    - [LSync]: the end of SyncWithPeers, node/node.go 264;
    - [LInsert r]: request number r arrives, node/nodeservice.go 36-38;
    - [LFinish r]: the rest of an admitted request. *)
Inductive lev :=
| LServe | LCloseReady | LCloseDrain | LSync | LInsert (r : nat) | LFinish (r : nat).

(** The state after a step and, for LInsert, whether the request is refused.
    node/node.go 79-85 and 264, node/nodeservice.go 35-38, server/veriserviceserver.go 17-18. *)
Definition lstep (s : life) (e : lev) : life * option bool :=
  match e with
  | LServe => (mkLife true false (lDrain s) (lAdmitted s), None)
  | LCloseReady => (mkLife (lHealth s) false (lDrain s) (lAdmitted s), None)
  | LCloseDrain => (mkLife (lHealth s) (lReady s) true (lAdmitted s), None)
  | LSync => (mkLife (lHealth s) true (lDrain s) (lAdmitted s), None)
  | LInsert r =>
      if lDrain s then (s, Some true)
      else (mkLife (lHealth s) (lReady s) (lDrain s) (r :: lAdmitted s), Some false)
  | LFinish r =>
      (mkLife (lHealth s) (lReady s) (lDrain s)
         (filter (fun x => negb (Nat.eqb x r)) (lAdmitted s)), None)
  end.
(** Any sequence of these steps (node/node.go 79-85 and 264). *)
Fixpoint lrun (s : life) (es : list lev) : life :=
  match es with [] => s | e :: es' => lrun (fst (lstep s e)) es' end.

(** * HTTP: server/httpservice.go 17-39 *)

(** A http.ResponseWriter of net/http: the header map of the handler, what was
    sent (status and a copy of the headers, at the first WriteHeader) and the
    body.  Later changes of the header map are not sent.
    The parameter w of server/httpservice.go 17 and 29. *)
Record writer := mkW { wHeader : amap bytes; wSent : option (N * amap bytes); wBody : bytes }.
(** server/httpservice.go 17. *)
Definition w0 : writer := mkW [] None [].
(** server/httpservice.go 19, 23, 31, 35. *)
Definition WriteHeader (code : N) (w : writer) : writer :=
  match wSent w with
  | Some _ => w
  | None => mkW (wHeader w) (Some (code, wHeader w)) (wBody w)
  end.
(** server/httpservice.go 20, 24, 32, 36. *)
Definition HeaderSet (k v : bytes) (w : writer) : writer :=
  mkW (mstore (wHeader w) k v) (wSent w) (wBody w).
(** server/httpservice.go 21, 25, 33, 37. *)
Definition WriteString (s : bytes) (w : writer) : writer :=
  let w := WriteHeader 200 w in mkW (wHeader w) (wSent w) (wBody w ++ s).

(** server/httpservice.go 21. *)
Definition alive_true : bytes := bs "{""alive"": true}".
(** server/httpservice.go 25. *)
Definition alive_false : bytes := bs "{""alive"": false}".
(** server/httpservice.go 20. *)
Definition content_type : bytes := bs "Content-Type".
(** server/httpservice.go 20. *)
Definition application_json : bytes := bs "application/json".

(** GetReady, server/httpservice.go 17-27. *)
Definition GetReady (s : life) (w : writer) : writer :=
  if lReady s
  then WriteString alive_true (HeaderSet content_type application_json (WriteHeader 200 w))
  else WriteString alive_false (HeaderSet content_type application_json (WriteHeader 503 w)).

(** GetHeath, server/httpservice.go 29-39. *)
Definition GetHeath (s : life) (w : writer) : writer :=
  if lHealth s
  then WriteString alive_true (HeaderSet content_type application_json (WriteHeader 200 w))
  else WriteString alive_true (HeaderSet content_type application_json (WriteHeader 500 w)).

(** The response on the wire: status, Content-Type, body.  Without a Content-Type
    header net/http adds [sniff body] (http.DetectContentType).
    server/httpservice.go 17-39. *)
Definition response (sniff : bytes -> bytes) (w : writer) : N * bytes * bytes :=
  match wSent w with
  | Some (code, h) =>
      (code, match mload h content_type with Some t => t | None => sniff (wBody w) end, wBody w)
  | None => (200, sniff (wBody w), wBody w)
  end.
