(** The channel between the scan of Process and its sender, data/newsync.go
    102-113, 151-194: who waits for whom.

    The scan is a list of entries; for each it is known whether the random draw
    chooses it (line 183) and whether its TTL is over 10 seconds (line 185).
    Alive may become false at any moment (data/data.go 109). *)
From Verif.Base Require Import GoBase.
Open Scope nat_scope.

(** An entry as the scan sees it: rand < fraction (data/newsync.go 183), and
    TTL > 10 (185). *)
Record visit := mkVisit { vChosen : bool; vLong : bool }.

(** The scan: at an entry, or waiting to send (data/newsync.go 186); then the entries left. *)
Inductive scanpc := Scanning | Sending.

(** The goroutine of lines 110-135, if it was started (data/newsync.go 107: only if the
    reported count is not zero): receiving (113), or busy with a datum for some
    more steps. *)
Inductive consumer := Absent | Receiving | Offering (steps : nat).

(** limit is the capacity of the channel (line 103); the counter is
    insertionCounter (105), queued the number of data in the channel.
    data/newsync.go 102-113. *)
Record chanstate := mkChan {
  chLimit : nat; chAlive : bool; chPc : scanpc; chTodo : list visit;
  chCounter : nat; chQueued : nat; chConsumer : consumer }.

(** data/newsync.go 102-113; the sender exists if localN > 0. *)
Definition chan_start (limit : nat) (counted : bool) (todo : list visit) : chanstate :=
  mkChan limit true Scanning todo 0 0 (if counted then Receiving else Absent).

(** data/newsync.go 183 and 185: is the entry sent? *)
Definition sends (s : chanstate) (v : visit) : bool :=
  (negb (chAlive s) || ((chCounter s <? chLimit s) && vChosen v)) && vLong v.

(** Steps of the scan and of the sender:
    - an entry is passed over or is to be sent (data/newsync.go 183-186);
    - a send into the buffer, or directly to the waiting sender;
    - the sender receives (113), works on a datum for any number of steps, and
      comes back.
    Closing (data/data.go 109) is a separate relation. *)
Inductive chan_step : chanstate -> chanstate -> Prop :=
| cs_pass lim al v todo n q c :
    sends (mkChan lim al Scanning (v :: todo) n q c) v = false ->
    chan_step (mkChan lim al Scanning (v :: todo) n q c) (mkChan lim al Scanning todo n q c)
| cs_want lim al v todo n q c :
    sends (mkChan lim al Scanning (v :: todo) n q c) v = true ->
    chan_step (mkChan lim al Scanning (v :: todo) n q c) (mkChan lim al Sending todo n q c)
| cs_buffer lim al todo n q c :
    q < lim ->
    chan_step (mkChan lim al Sending todo n q c) (mkChan lim al Scanning todo (S n) (S q) c)
| cs_direct lim al todo n k :
    chan_step (mkChan lim al Sending todo n 0 Receiving) (mkChan lim al Scanning todo (S n) 0 (Offering k))
| cs_take lim al pc todo n q k :
    chan_step (mkChan lim al pc todo n (S q) Receiving) (mkChan lim al pc todo n q (Offering k))
| cs_work lim al pc todo n q k :
    chan_step (mkChan lim al pc todo n q (Offering (S k))) (mkChan lim al pc todo n q (Offering k))
| cs_back lim al pc todo n q :
    chan_step (mkChan lim al pc todo n q (Offering 0)) (mkChan lim al pc todo n q Receiving).

(** Close of the dataset, data/data.go 109. *)
Inductive chan_close : chanstate -> chanstate -> Prop :=
| cs_close lim al pc todo n q c :
    chan_close (mkChan lim al pc todo n q c) (mkChan lim false pc todo n q c).

(** Runs, with or without closing (data/newsync.go 102-194, data/data.go 109). *)
Inductive chan_runs (closing : bool) : chanstate -> chanstate -> Prop :=
| cr_here s : chan_runs closing s s
| cr_step s t u : chan_runs closing s t -> chan_step t u -> chan_runs closing s u
| cr_close s t u : chan_runs closing s t -> closing = true -> chan_close t u -> chan_runs closing s u.

(** The scan is over: data/newsync.go 194. *)
Definition scan_over (s : chanstate) : Prop := chPc s = Scanning /\ chTodo s = [].
