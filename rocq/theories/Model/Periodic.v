(** The periodic task of a node: SetPeriodicTask and StopPeriodicTask,
    node/node.go 296-321.

    NewNode starts the task once (node/node.go 69).  The ticker's channel holds
    one tick; PeriodicDone is unbuffered: a send and a receive happen together. *)
From Verif.Base Require Import GoBase.
Open Scope nat_scope.

(** The goroutine of node/node.go 299-312: in the select, in Periodic, or gone. *)
Inductive ploop := PSelect | PWork | PGone.

(** The loop; whether the ticker runs and a tick waits in its channel; calls of
    StopPeriodicTask that wait at node/node.go 320 and that have returned; runs
    of Periodic so far (node/node.go 296-321). *)
Record pstate := mkP {
  pLoop : ploop; pTicker : bool; pTick : bool; pWaiting : nat; pReturned : nat; pRuns : nat }.

(** After SetPeriodicTask, node/node.go 296-314. *)
Definition pinit : pstate := mkP PSelect true false 0 0 0.

(** node/node.go 299-312 and 316-321. *)
Inductive pstep : pstate -> pstate -> Prop :=
| ps_tick l w r n tick :                     (* the ticker fires; a tick is dropped if one waits *)
    pstep (mkP l true tick w r n) (mkP l true true w r n)
| ps_work tk w r n :                         (* node/node.go 304-305 *)
    pstep (mkP PSelect tk true w r n) (mkP PWork tk false w r (S n))
| ps_back tk tick w r n :                    (* Periodic returned *)
    pstep (mkP PWork tk tick w r n) (mkP PSelect tk tick w r n)
| ps_stop l tk tick w r n :                  (* a call: node/node.go 317-319 *)
    pstep (mkP l tk tick w r n) (mkP l false tick (S w) r n)
| ps_done tk tick w r n :                    (* node/node.go 302-303 and 320 *)
    pstep (mkP PSelect tk tick (S w) r n) (mkP PGone tk tick w (S r) n).

(** node/node.go 296-321. *)
Inductive psteps : pstate -> pstate -> Prop :=
| pss_here s : psteps s s
| pss_more s t u : psteps s t -> pstep t u -> psteps s u.
