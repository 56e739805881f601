(** Several nodes that synchronise one dataset with each other: the senders of
    data/newsync.go 110-135 call DataSourceClient.Insert
    (node/datasourceclient.go 61-77), which calls Node.Insert
    (node/nodeservice.go 35-51) on another node. *)
From Verif.Base Require Import GoBase Assoc Float.
From Verif.Model Require Import Codec Store Data Insert Vector Dataset Sync.
Open Scope N_scope.

(** The nodes, by number.
    node/node.go 39-52. *)
Definition cluster := nat -> sync.

(** A change of one node, node/nodeservice.go 35-51. *)
Definition set_sync (w : cluster) (i : nat) (s : sync) : cluster :=
  fun j => if Nat.eqb j i then s else w j.

(** - [CLocal i e]: a step of node i that involves no other node;
    - [COffer i j now l]: sender j of node i offers its datum to the next source;
      the clock there shows now and the network behaves like l.
    A node in drain mode (node/nodeservice.go 36-38) answers like a lost request.  The
    configuration sent along has Count 1, so the receiver does not replicate
    (Model/Insert.v, Replicate) and its part is InsertLocal. *)
Inductive cev :=
| CLocal (i : nat) (e : yev)
| COffer (i j : nat) (now : Z) (l : link).

(** The effect of a delivered request on the receiver, and its answer.
    node/nodeservice.go 35-51. *)
Definition receive (now : Z) (s : sync) (d : Datum) (c : InsertConfig) : sync * bool :=
  match InsertLocal now (yData s) (Some d) (Some c) with
  | Ok (dt, None) => (mkSync dt (ySenders s), true)
  | Ok (dt, Some _) => (mkSync dt (ySenders s), false)
  | _ => (s, false)
  end.

(** [resolve id] is the node that the source id stands for, None if it cannot be
    reached.
    data/newsync.go 113-134 and node/nodeservice.go 35-51. *)
Definition cluster_step (M : mathlib) (undef : N) (resolve : bytes -> option nat)
  (w : cluster) (e : cev) : option cluster :=
  match e with
  | CLocal i (YSend _ (SOffer _)) => None
  | CLocal i e =>
      match sync_step M undef (w i) e with
      | Some s => Some (set_sync w i s)
      | None => None
      end
  | COffer i j now l =>
      match nth_error (ySenders (w i)) j with
      | Some r =>
          match rPc r with
          | Visit d c (id :: _) =>
              let '(w1, ok) :=
                match resolve id, l with
                | Some t, Deliver => let '(s, ok) := receive now (w t) d c in (set_sync w t s, ok)
                | Some t, DropReply => let '(s, _) := receive now (w t) d c in (set_sync w t s, false)
                | _, _ => (w, false)
                end in
              match sync_step M undef (w1 i) (YSend j (SOffer ok)) with
              | Some s => Some (set_sync w1 i s)
              | None => None
              end
          | _ => None
          end
      | None => None
      end
  end.

(** An execution: any sequence of the steps of data/newsync.go 93-227 at any nodes. *)
Fixpoint cluster_run (M : mathlib) (undef : N) (resolve : bytes -> option nat)
  (w : cluster) (es : list cev) : option cluster :=
  match es with
  | [] => Some w
  | e :: es' =>
      match cluster_step M undef resolve w e with
      | Some w' => cluster_run M undef resolve w' es'
      | None => None
      end
  end.
