(** Where a source comes from and how long it stays. *)
From Verif.Base Require Import GoBase GoSort Assoc.
From Verif.Model Require Import Codec Store Data Dataset Node Gossip.
Open Scope N_scope.

(** In the run [es] from w, some node announced itself, at a moment when [address] was one
    of its addresses, as holding the dataset [name]. *)
Definition announced (G : go_sort) (inc : Z -> Z -> Z -> Z) (route : nat -> bytes -> option nat)
    (w : gworld) (es : list gev) (name address : bytes) : Prop :=
  exists before j target now services configs after w1,
    es = before ++ GJoin j target now services configs :: after /\
    grun G inc route w before = Some w1 /\
    In name (map cName configs) /\
    let n := gState (gNodes w1 j) in In address (nKnownIds n ++ nAdvertisedIds n).

(** The event is neither the expiry of this source of node i nor a restart of node i. *)
Definition leaves (i : nat) (name address : bytes) (e : gev) : Prop :=
  match e with
  | GForget j n a => ~ (j = i /\ n = name /\ a = address)
  | GRestart j => j <> i
  | _ => True
  end.
