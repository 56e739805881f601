(** The goroutines and channels of a search and of DataStream:
    data/search.go 184-231 and 258-297, node/nodeservice.go 86-103.

    A step is one channel operation, WaitGroup operation or timer event of one
    goroutine; between them goroutines only touch their own variables.  Any
    enabled step may happen next, and a select with several ready cases may take
    any of them, so every run of these relations is an interleaving of the Go
    program and conversely. *)
From Verif.Base Require Import GoBase.

Section Flow.
Context {X : Type}.

(** A producer goroutine, data/search.go 190-192, 197 and 264: the body of
    StreamSearch (data/search.go 130-149, node/datasourceclient.go 31-59) or of a nested
    AggregatedSearch.  It sends the results it found, in order, to the channel
    and then calls Done on the WaitGroup.  [pRest] is what it has not sent yet. *)
Record producer := mkProd { pRest : list X; pDone : bool }.

(** How a search ended, data/search.go 211 and 219. *)
Inductive ending := AllFinished | TimedOut.

(** The goroutine that runs AggregatedSearch or MultiAggregatedSearch:
    - [CSpawn todo]: starting producers, data/search.go 189-199 and 262-265;
    - [CLoop]: in the select loop, data/search.go 207-224 and 277-294;
    - [CDrain]: ranging over the closed channel, data/search.go 213-216;
    - [CEnd]: past the loop. *)
Inductive consumer :=
  | CSpawn (todo : list (list X))
  | CLoop | CDrain | CEnd (e : ending).

(** The goroutine of data/search.go 200-203 and 266-269: not started, blocked in
    Wait, or finished having closed waitChannel. *)
Inductive waiter := WNotStarted | WWaiting | WClosed.

(** [fMerged] are the arguments of temp.Insert so far, in order; [fBuf] is the
    buffer of scoredDatumStream, oldest first; [fWg] the WaitGroup counter;
    [fTimer] whether timeLimit has fired.
    The variables of data/search.go 161-241 and 254-298. *)
Record flow := mkFlow {
  fProds : list producer; fBuf : list X; fOpen : bool; fWg : Z;
  fWaiter : waiter; fCons : consumer; fMerged : list X; fTimer : bool }.

(** make(chan *pb.ScoredDatum, 100), data/search.go 185 and 258; node/nodeservice.go 86. *)
Definition chan_cap : nat := 100.

(** The state before the first producer is started; [work] lists what each
    producer will find.
    data/search.go 185-187 and 258-260. *)
Definition flow_init (work : list (list X)) : flow :=
  mkFlow [] [] true 0 WNotStarted (CSpawn work) [] false.

(** A step gives a new state or a panic of the process (data/search.go 161-298). *)
Inductive outcome := Next (s : flow) | Crash.

(** data/search.go 184-241 and 258-298, one constructor per operation. *)
Inductive flow_step : flow -> outcome -> Prop :=
(** queryWaitGroup.Add(1); go ...StreamSearch: data/search.go 189-199, 263-264 *)
| f_spawn ps b o w wt todo l m t :
    flow_step (mkFlow ps b o w wt (CSpawn (l :: todo)) m t)
      (Next (mkFlow (ps ++ [mkProd l false]) b o (w + 1) wt (CSpawn todo) m t))
(** go func() { defer close(waitChannel); queryWaitGroup.Wait() }: data/search.go 200, 266 *)
| f_start_waiter ps b o w m t :
    flow_step (mkFlow ps b o w WNotStarted (CSpawn []) m t)
      (Next (mkFlow ps b o w WWaiting CLoop m t))
(** scoredDatumStream <- i, data/search.go 145; node/datasourceclient.go 56; data/search.go 174, 230 *)
| f_send ps1 x l ps2 b w wt c m t :
    (length b < chan_cap)%nat ->
    flow_step (mkFlow (ps1 ++ mkProd (x :: l) false :: ps2) b true w wt c m t)
      (Next (mkFlow (ps1 ++ mkProd l false :: ps2) (b ++ [x]) true w wt c m t))
(** ... which crashes the process if the channel is closed *)
| f_send_closed ps1 x l ps2 b w wt c m t :
    flow_step (mkFlow (ps1 ++ mkProd (x :: l) false :: ps2) b false w wt c m t) Crash
(** queryWaitGroup.Done(), data/search.go 132, 177, 233; node/datasourceclient.go 32 *)
| f_done ps1 ps2 b o w wt c m t :
    flow_step (mkFlow (ps1 ++ mkProd [] false :: ps2) b o w wt c m t)
      (if (w - 1 <? 0)%Z then Crash
       else Next (mkFlow (ps1 ++ mkProd [] true :: ps2) b o (w - 1) wt c m t))
(** Wait returns and waitChannel is closed, data/search.go 201-202 *)
| f_wait ps b o c m t :
    flow_step (mkFlow ps b o 0 WWaiting c m t)
      (Next (mkFlow ps b o 0 WClosed c m t))
(** the timer of data/search.go 163 and 256 *)
| f_timer ps b o w wt c m :
    flow_step (mkFlow ps b o w wt c m false) (Next (mkFlow ps b o w wt c m true))
(** case scoredDatum := <-scoredDatumStream, data/search.go 209-210 *)
| f_recv ps x b o w wt m t :
    flow_step (mkFlow ps (x :: b) o w wt CLoop m t)
      (Next (mkFlow ps b o w wt CLoop (m ++ [x]) t))
(** case <-waitChannel: close(scoredDatumStream), data/search.go 211-213 *)
| f_finish ps b o w m t :
    flow_step (mkFlow ps b o w WClosed CLoop m t)
      (if o then Next (mkFlow ps b false w WClosed CDrain m t) else Crash)
(** for scoredDatum := range scoredDatumStream, data/search.go 214-217 *)
| f_drain ps x b w wt m t :
    flow_step (mkFlow ps (x :: b) false w wt CDrain m t)
      (Next (mkFlow ps b false w wt CDrain (m ++ [x]) t))
| f_drained ps w wt m t :
    flow_step (mkFlow ps [] false w wt CDrain m t)
      (Next (mkFlow ps [] false w wt (CEnd AllFinished) m t))
(** case <-timeLimit, data/search.go 219-222 *)
| f_timeout ps b o w wt m :
    flow_step (mkFlow ps b o w wt CLoop m true)
      (Next (mkFlow ps b o w wt (CEnd TimedOut) m true)).

(** Runs.
    Any interleaving of data/search.go 184-241. *)
Inductive flow_runs : flow -> flow -> Prop :=
| fr_here s : flow_runs s s
| fr_step s s1 s2 : flow_step s (Next s1) -> flow_runs s1 s2 -> flow_runs s s2.

(** * DataStream, node/nodeservice.go 80-104 *)

(** A goroutine receiving from datumStreamAll: idle in the range loop, inside
    stream.Send(datum), or past the loop.
    node/nodeservice.go 87-92 and 98-101. *)
Inductive sender := SIdle | SSending (x : X) | SEnd.

(** The handler itself: in StreamAll with [todo] still to be pushed (line 93),
    in its own range loop after close (lines 98-101), or returned (line 103).
    node/nodeservice.go 80-104. *)
Inductive handler := HStream (todo : list X) | HFlush (s : sender) | HReturned.

(** [dSent] are the data handed to the client while the call was open.
    node/nodeservice.go 86-103. *)
Record dstream := mkDS {
  dBuf : list X; dOpen : bool; dHandler : handler; dBack : sender; dSent : list X }.

(** node/nodeservice.go 86. *)
Definition ds_init (data : list X) : dstream := mkDS [] true (HStream data) SIdle [].

(** node/nodeservice.go 86-103, one constructor per operation. *)
Inductive ds_step : dstream -> dstream -> Prop :=
(** datumStream <- entry.Datum, data/newsync.go 232 *)
| d_push b x todo k s :
    (length b < chan_cap)%nat ->
    ds_step (mkDS b true (HStream (x :: todo)) k s) (mkDS (b ++ [x]) true (HStream todo) k s)
(** close(datumStreamAll), line 97 *)
| d_close b k s :
    ds_step (mkDS b true (HStream []) k s) (mkDS b false (HFlush SIdle) k s)
(** the background goroutine, lines 87-92 *)
| d_back_recv x b o h s :
    ds_step (mkDS (x :: b) o h SIdle s) (mkDS b o h (SSending x) s)
| d_back_sent b o h x s :
    h <> HReturned ->
    ds_step (mkDS b o h (SSending x) s) (mkDS b o h SIdle (s ++ [x]))
(** ... after the handler returned the stream is finished and Send fails *)
| d_back_late b o x s :
    ds_step (mkDS b o HReturned (SSending x) s) (mkDS b o HReturned SIdle s)
| d_back_end h s :
    ds_step (mkDS [] false h SIdle s) (mkDS [] false h SEnd s)
(** the handler's own loop, lines 98-101 *)
| d_flush_recv x b k s :
    ds_step (mkDS (x :: b) false (HFlush SIdle) k s) (mkDS b false (HFlush (SSending x)) k s)
| d_flush_sent b x k s :
    ds_step (mkDS b false (HFlush (SSending x)) k s) (mkDS b false (HFlush SIdle) k (s ++ [x]))
(** return nil, line 103 *)
| d_return k s :
    ds_step (mkDS [] false (HFlush SIdle) k s) (mkDS [] false HReturned k s).

(** Any interleaving of node/nodeservice.go 86-103. *)
Inductive ds_runs : dstream -> dstream -> Prop :=
| dr_here s : ds_runs s s
| dr_step s s1 s2 : ds_step s s1 -> ds_runs s1 s2 -> ds_runs s s2.

End Flow.
Arguments producer : clear implicits.
Arguments flow : clear implicits.
Arguments consumer : clear implicits.
Arguments outcome : clear implicits.
Arguments dstream : clear implicits.
Arguments sender : clear implicits.
Arguments handler : clear implicits.
