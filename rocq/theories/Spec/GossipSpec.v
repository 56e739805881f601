(** Specification vocabulary for a cluster of nodes that tell each other about
    themselves. *)
From Verif.Base Require Import GoBase GoSort Assoc Float.
From Verif.Model Require Import Codec Store Data Insert Dataset Node Gossip.
From Verif.Spec Require Import NodeSpec.
Open Scope N_scope.

(** Whoever connects to address a reaches node k. *)
Definition leads (route : nat -> bytes -> option nat) (a : bytes) (k : nat) : Prop :=
  forall i, route i a = Some k.

(** Every advertised address of a node leads to it. *)
Definition well_routed (route : nat -> bytes -> option nat) (w : gworld) : Prop :=
  forall i a, In a (nAdvertisedIds (gState (gNodes w i))) -> leads route a i.

(** Nothing has happened yet. *)
Definition blank (w : gworld) : Prop :=
  gMail w = [] /\
  forall i, nKnownIds (gState (gNodes w i)) = [] /\ nPeers (gState (gNodes w i)) = [] /\
    gSyncs (gNodes w i) = [] /\ gSources (gNodes w i) = [].

(** An iteration order of a map lists its elements. *)
Definition any_order (e : gev) : Prop :=
  match e with GStart _ _ ord => forall l, Permutation l (ord l) | _ => True end.

(** No process starts again. *)
Definition no_restart (e : gev) : Prop := match e with GRestart _ => False | _ => True end.

(** The addresses in replies, with the port of the node ([port i]), lead to it. *)
Definition truthful (route : nat -> bytes -> option nat) (port : nat -> N) (e : gev) : Prop :=
  match e with
  | GReply i a => a <> [] -> leads route (a ++ colon :: decimal (port i)) i
  | _ => True
  end.

(** Replies bring no address. *)
Definition no_reply (e : gev) : Prop := match e with GReply _ a => a = [] | _ => True end.

(** All times of an event are between lo and hi. *)
Definition between (lo hi : Z) (e : gev) : Prop :=
  match e with
  | GJoin _ _ now _ _ | GStart _ now _ | GVisit _ _ now | GPurge _ now => (lo <= now <= hi)%Z
  | GDeliver _ t1 t2 => (lo <= t1 <= hi /\ lo <= t2 <= hi)%Z
  | _ => True
  end.

(** p is a record of node k, whose addresses are [A k]. *)
Definition record_of (A : nat -> list bytes) (k : nat) (p : Peer) : Prop :=
  Permutation (pAddressList p) (A k).

(** Node i lists node k, with a record that is recent and does not expire until now. *)
Definition knows (A : nat -> list bytes) (now : Z) (w : gworld) (i k : nat) : Prop :=
  exists id it, mload (nPeers (gState (gNodes w i))) id = Some it /\ record_of A k (piPeer it) /\
    peer_live now it = true /\ IsRecent now (pTimestamp (piPeer it)) = true.

(** The nodes have addresses A, and all records about are records of nodes that are
    recent until time hi. *)
Definition settled (G : go_sort) (A : nat -> list bytes) (hi : Z) (w : gworld) : Prop :=
  let good p := (exists k, record_of A k p) /\ IsRecent hi (pTimestamp p) = true in
  (forall m, In m (gMail w) -> good (mPeer m)) /\
  forall i, own_addresses (gState (gNodes w i)) = A i /\
    mwf (nPeers (gState (gNodes w i))) /\
    (forall id it, mload (nPeers (gState (gNodes w i))) id = Some it ->
       good (piPeer it) /\ peer_live hi it = true /\ id = GetIdOfPeer G (Some (piPeer it))) /\
    (forall all rest, In (all, rest) (gSyncs (gNodes w i)) -> Forall good all /\ Forall good rest).

(** A round of everybody's periodic work, from w to w': every node sends a join
    request to an address of every node it knows, starts a synchronisation and
    finishes it, and everything sent arrives. *)
Definition round (G : go_sort) (inc : Z -> Z -> Z -> Z) (A : nat -> list bytes) (hi : Z)
    (route : nat -> bytes -> option nat) (w : gworld) (es : list gev) (w' : gworld) : Prop :=
  (forall i j, i <> j -> knows A hi w i j ->
     exists a now services configs, In (GJoin i a now services configs) es /\ In a (A j)) /\
  (forall i j, i <> j -> knows A hi w i j ->
     exists es1 now ord es2 w1 all, es = es1 ++ GStart i now ord :: es2 /\ grun G inc route w es1 = Some w1 /\
       nth_error (gSyncs (gNodes w' i)) (length (gSyncs (gNodes w1 i))) = Some (all, [])) /\
  (forall n, (length (gMail w) <= n < length (gMail w'))%nat -> exists t1 t2, In (GDeliver n t1 t2) es).

(** A number of rounds one after the other, between times lo and hi, in which no
    process starts again and no address is learned. *)
Inductive rounds (G : go_sort) (inc : Z -> Z -> Z -> Z) (A : nat -> list bytes) (lo hi : Z)
    (route : nat -> bytes -> option nat) : nat -> gworld -> gworld -> Prop :=
| rounds_0 : forall w, rounds G inc A lo hi route 0 w w
| rounds_S : forall n w w1 es w2, rounds G inc A lo hi route n w w1 ->
    Forall (fun e => any_order e /\ no_restart e /\ no_reply e /\ between lo hi e) es ->
    grun G inc route w1 es = Some w2 -> round G inc A hi route w1 es w2 ->
    rounds G inc A lo hi route (S n) w w2.

(** i and k are linked by at most n acquaintances, in whichever direction. *)
Inductive chain (A : nat -> list bytes) (hi : Z) (w : gworld) : nat -> nat -> nat -> Prop :=
| chain_0 : forall n i, chain A hi w n i i
| chain_S : forall n i j k, chain A hi w n i j -> (knows A hi w j k \/ knows A hi w k j) ->
    chain A hi w (S n) i k.

(** a is the first address of p that is not an own address of n. *)
Definition contact_of (n : nstate) (p : Peer) (a : bytes) : Prop :=
  exists l1 l2, pAddressList p = l1 ++ a :: l2 /\ ~ In a (nKnownIds n ++ nAdvertisedIds n) /\
    forall b, In b l1 -> In b (nKnownIds n ++ nAdvertisedIds n).
