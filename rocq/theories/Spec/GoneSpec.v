(** Specification vocabulary for a node that is gone. *)
From Verif.Base Require Import GoBase GoSort Assoc Float.
From Verif.Model Require Import Codec Store Data Insert Dataset Node Gossip.
From Verif.Spec Require Import NodeSpec GossipSpec.
Open Scope Z_scope.

(** p is a record of a node with addresses X. *)
Definition about (X : list bytes) (p : Peer) : Prop := Permutation (pAddressList p) X.

(** The addresses of node i. *)
Definition goes_by (w : gworld) (i : nat) (X : list bytes) : Prop :=
  Permutation (unique (nKnownIds (gState (gNodes w i)) ++ nAdvertisedIds (gState (gNodes w i)))) X.

(** Node i shows a record of X in its list of peers. *)
Definition shown (X : list bytes) (now : Z) (w : gworld) (i : nat) : Prop :=
  exists id it, In (id, it) (nPeers (gState (gNodes w i))) /\ about X (piPeer it) /\
    (piExpires it <= 0 \/ now <= piExpires it).

(** A clock: nanoseconds of an int64. *)
Definition clock (now : Z) : Prop := 0 <= now < 9223372036854775808.

(** A node with addresses X does not introduce itself after second S, by its clock. *)
Definition hushed (X : list bytes) (S : Z) (w : gworld) (e : gev) : Prop :=
  match e with
  | GJoin i _ now _ _ => clock now /\ (goes_by w i X -> now / 1000000000 <= S)
  | GDeliver _ _ now => clock now
  | GStart _ _ ord => forall l, Permutation l (ord l)
  | _ => True
  end.

Section Gone.
  Variables (G : go_sort) (inc : Z -> Z -> Z -> Z) (route : nat -> bytes -> option nat).
  Fixpoint silent (X : list bytes) (S : Z) (w : gworld) (es : list gev) : Prop :=
    match es with
    | [] => True
    | e :: es' =>
        hushed X S w e /\
        match gstep G inc route w e with
        | Some w' => silent X S w' es'
        | None => True
        end
    end.
End Gone.

(** An expiration is postponed by the increment, counted from the old one or from now. *)
Definition postpones (inc : Z -> Z -> Z -> Z) : Prop :=
  forall now d old, 0 <= now <= old -> 0 < d -> 0 < inc now d old <= old + d.
