(** Specification vocabulary for peers, addresses and endpoints. *)
From Verif.Base Require Import GoBase GoSort Assoc Float.
From Verif.Model Require Import Codec Store Data Insert Dataset Node.
Open Scope N_scope.

(** An address as it should be: not empty and without the separator of ids. *)
Definition plain (a : bytes) : Prop := a <> [] /\ ~ In comma a.

(** The text of a number: decimal digits without leading zeros. *)
Definition number_text (n : N) (t : bytes) : Prop :=
  Forall (fun b => 48 <= b <= 57) t /\ (t = [48] \/ exists b t', t = b :: t' /\ b <> 48) /\
  fold_left (fun a b => a * 10 + (b - 48)) t 0 = n.

(** u lists the elements of l once each, in the order of their first appearance:
    what precedes a first appearance in u are exactly the elements that precede it
    in l. *)
Definition once_each (l u : list bytes) : Prop :=
  NoDup u /\ (forall x, In x u <-> In x l) /\
  forall l1 x l2, l = l1 ++ x :: l2 -> ~ In x l1 ->
    exists u1 u2, u = u1 ++ x :: u2 /\ forall z, In z u1 <-> In z l1.

(** The record listed under an id. *)
Definition listed (n : nstate) (id : bytes) (p : Peer) : Prop :=
  exists i, mload (nPeers n) id = Some i /\ piPeer i = p.

(** p is q up to the order of the addresses. *)
Definition same_peer (p q : Peer) : Prop :=
  pVersion p = pVersion q /\ pTimestamp p = pTimestamp q /\
  Permutation (pAddressList p) (pAddressList q) /\
  pServiceList p = pServiceList q /\ pDataList p = pDataList q.

(** The record of an id is visible before every step of a sequence of calls. *)
Fixpoint kept (G : go_sort) (inc : Z -> Z -> Z -> Z) (id : bytes) (n : nstate) (es : list nev) : Prop :=
  match es with
  | [] => True
  | e :: es' =>
      (exists i, mload (nPeers n) id = Some i /\
         match e with SAdd t1 _ _ => peer_live t1 i = true | _ => True end) /\
      match nstep G inc n e with
      | Ok n' => kept G inc id n' es'
      | _ => True
      end
  end.

(** Seconds since 1970. *)
Definition seconds (now : Z) : Z := (now / 1000000000)%Z.

(** Drain mode has been entered in an execution. *)
Definition closed_in (es : list lev) : Prop := In LCloseDrain es.

(** Nothing new is learned: replies carry no address. *)
Definition silent (e : pev) : Prop := match e with PReply a => a = [] | _ => True end.

(** A message carries a peer. *)
Definition present (e : pev) : Prop := match e with PRecv p => p <> None | _ => True end.
