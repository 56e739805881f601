(** Requests and housekeeping around the creation of a dataset, interleaved.

    Dataset.CreateIfNotExists (data/dataset.go 107-115) puts the new Data into the
    list first and calls InitData afterwards, so every other goroutine of the node
    can find the Data before, while and after InitData works on it.  The model is
    one Data from the moment it is in the list, with any number of goroutines that
    use it.  Steps are single reads and writes of its fields, in any order the
    scheduler picks (sequentially consistent memory; the Go memory model promises
    less for the unsynchronised reads of Initialized, QueryCache, Sources and Alive). *)
From Verif.Base Require Import GoBase.

(** The fields of Data that InitData writes and that others look at: the ids in
    Sources and the keys in QueryCache ([None]: nil), Alive, Initialized, the mutex,
    whether N > 0, Runs, and how often InitData started the background task.
    Left out: expiry of the entries of the two caches; the data themselves.
    data/data.go 34-53, 83-96. *)
Record setup := { uSources : option (list N); uCache : option (list N); uAlive : bool;
  uInit : bool; uLock : bool; uN : bool; uRuns : Z; uStarted : nat }.

(** A Data as NewPreData returns it and Add publishes it.
    data/data.go 73-81, data/dataset.go 108-112. *)
Definition fresh_setup : setup :=
  {| uSources := None; uCache := None; uAlive := false; uInit := false; uLock := false;
     uN := false; uRuns := 0; uStarted := 0 |}.

(** On whose behalf InitData runs, which is where it returns to: the creation, an
    insert, a search with its cache key, the adding of a source with its id.
    data/dataset.go 114, data/insert.go 16, data/search.go 167, data/data.go 227. *)
Inductive caller := ByCreate | ByInsert | BySearch (q : N) | BySource (id : N).

(** Where a goroutine is.  InitData: before taking the lock (line 85), the test (87),
    each assignment (88, 89, 90), the go statement (91), the mark (92), the deferred
    unlock (86).  Insert: before the test of Initialized (insert.go 15), before it goes
    through the sources (insert.go 33).  AggregatedSearch: before the test of
    QueryCache (search.go 166), before looking into it (170), before going through the
    sources (194), before storing the answer (237).  AddSource: before the first
    (data.go 226) and second test (229).  Close: before line 109, before the test of
    Sources (110), in Process (112).  ReloadRuns: before CheckIfActive (dataset.go 195).
    Run: before the load of Runs (146), before the add (150), before the test of Alive
    (155), in Process (160), at its end (151).  Node.Info: before reading Sources
    (node.go 356).  Finished, or crashed by a nil cache. *)
Inductive place :=
| ILock (c : caller) | ITest (c : caller) | ISources (c : caller) | ICache (c : caller)
| IAlive (c : caller) | IGo (c : caller) | IMark (c : caller) | IUnlock (c : caller)
| NInsert | NSpread
| HSearch (q : N) | HLook (q : N) | HSources (q : N) | HKeep (q : N)
| ASource (id : N) | ASource2 (id : N)
| LClose | LTest | LProcess
| KCheck
| TLoad | TAdd | TAlive | TProcess | TEnd
| WReport
| Finished | Crashed.

(** Where the caller of InitData goes on.
    data/dataset.go 114, data/insert.go 18, data/search.go 169, data/data.go 229. *)
Definition resume (c : caller) : place :=
  match c with
  | ByCreate => Finished | ByInsert => NSpread | BySearch q => HLook q | BySource id => ASource2 id
  end.

(** Updates of one field each (assignments of data/data.go 88-92, 109, 150-151, 232). *)
Definition set_sources x (u : setup) := {| uSources := x; uCache := uCache u; uAlive := uAlive u;
  uInit := uInit u; uLock := uLock u; uN := uN u; uRuns := uRuns u; uStarted := uStarted u |}.
(** data/data.go 89, data/search.go 237 *)
Definition set_cache x (u : setup) := {| uSources := uSources u; uCache := x; uAlive := uAlive u;
  uInit := uInit u; uLock := uLock u; uN := uN u; uRuns := uRuns u; uStarted := uStarted u |}.
(** data/data.go 90, 109 *)
Definition set_alive x (u : setup) := {| uSources := uSources u; uCache := uCache u; uAlive := x;
  uInit := uInit u; uLock := uLock u; uN := uN u; uRuns := uRuns u; uStarted := uStarted u |}.
(** data/data.go 92 *)
Definition set_init x (u : setup) := {| uSources := uSources u; uCache := uCache u; uAlive := uAlive u;
  uInit := x; uLock := uLock u; uN := uN u; uRuns := uRuns u; uStarted := uStarted u |}.
(** data/data.go 85-86 *)
Definition set_lock x (u : setup) := {| uSources := uSources u; uCache := uCache u; uAlive := uAlive u;
  uInit := uInit u; uLock := x; uN := uN u; uRuns := uRuns u; uStarted := uStarted u |}.
(** data/newsync.go 201 (N is written by Process only) *)
Definition set_n x (u : setup) := {| uSources := uSources u; uCache := uCache u; uAlive := uAlive u;
  uInit := uInit u; uLock := uLock u; uN := x; uRuns := uRuns u; uStarted := uStarted u |}.
(** data/data.go 150-151 *)
Definition set_runs x (u : setup) := {| uSources := uSources u; uCache := uCache u; uAlive := uAlive u;
  uInit := uInit u; uLock := uLock u; uN := uN u; uRuns := x; uStarted := uStarted u |}.
(** data/data.go 91 *)
Definition set_started x (u : setup) := {| uSources := uSources u; uCache := uCache u; uAlive := uAlive u;
  uInit := uInit u; uLock := uLock u; uN := uN u; uRuns := uRuns u; uStarted := x |}.

(** One step of one goroutine: the Data and its place before, the Data, its place and
    the goroutines it started after.  A goroutine at [ILock] waits while the lock is
    taken.  A call on a nil cache crashes.

    Simplified: a search finds its key in the cache or not as the cache says, an
    answer found is given at once; Process (data/newsync.go 93-227) is one step that
    reads Sources (line 94, data/data.go 175 and 240) and leaves any N; Insert may end early
    (over the target, bad datum, no replication asked for: insert.go 12-14, 18-21,
    31); Close runs Process any number of times.
    data/data.go 83-96, 108-119, 128-168, 222-254, data/insert.go 11-43,
    data/search.go 161-240, data/dataset.go 190-207, node/node.go 356. *)
Inductive act : setup -> place -> setup -> place -> list place -> Prop :=
| a_lock : forall u c, uLock u = false -> act u (ILock c) (set_lock true u) (ITest c) []
| a_skip : forall u c, uInit u = true -> act u (ITest c) u (IUnlock c) []
| a_begin : forall u c, uInit u = false -> act u (ITest c) u (ISources c) []
| a_sources : forall u c, act u (ISources c) (set_sources (Some []) u) (ICache c) []
| a_cache : forall u c, act u (ICache c) (set_cache (Some []) u) (IAlive c) []
| a_alive : forall u c, act u (IAlive c) (set_alive true u) (IGo c) []
| a_go : forall u c, act u (IGo c) (set_started (S (uStarted u)) u) (IMark c) [TLoad]
| a_mark : forall u c, act u (IMark c) (set_init true u) (IUnlock c) []
| a_unlock : forall u c, act u (IUnlock c) (set_lock false u) (resume c) []
(* Insert *)
| a_insert_end : forall u, act u NInsert u Finished []
| a_insert_ready : forall u, uInit u = true -> act u NInsert u NSpread []
| a_insert_init : forall u, uInit u = false -> act u NInsert u (ILock ByInsert) []
| a_spread_end : forall u, act u NSpread u Finished []
| a_spread : forall u l, uSources u = Some l -> act u NSpread u Finished []
| a_spread_nil : forall u, uSources u = None -> act u NSpread u Crashed []
(* AggregatedSearch *)
| a_search_ready : forall u q, uCache u <> None -> act u (HSearch q) u (HLook q) []
| a_search_init : forall u q, uCache u = None -> act u (HSearch q) u (ILock (BySearch q)) []
| a_look_hit : forall u q l, uCache u = Some l -> In q l -> act u (HLook q) u Finished []
| a_look_miss : forall u q l, uCache u = Some l -> ~ In q l -> act u (HLook q) u (HSources q) []
| a_look_nil : forall u q, uCache u = None -> act u (HLook q) u Crashed []
| a_ask : forall u q l, uSources u = Some l -> act u (HSources q) u (HKeep q) []
| a_ask_nil : forall u q, uSources u = None -> act u (HSources q) u Crashed []
| a_keep : forall u q l, uCache u = Some l -> act u (HKeep q) (set_cache (Some (q :: l)) u) Finished []
| a_keep_nil : forall u q, uCache u = None -> act u (HKeep q) u Crashed []
(* AddSource *)
| a_source_ready : forall u i, uSources u <> None -> act u (ASource i) u (ASource2 i) []
| a_source_init : forall u i, uSources u = None -> act u (ASource i) u (ILock (BySource i)) []
| a_source_add : forall u i l, uSources u = Some l -> ~ In i l ->
    act u (ASource2 i) (set_sources (Some (i :: l)) u) Finished []
| a_source_old : forall u i l, uSources u = Some l -> In i l -> act u (ASource2 i) u Finished []
| a_source_err : forall u i, uSources u = None -> act u (ASource2 i) u Finished []
(* Close *)
| a_close : forall u, act u LClose (set_alive false u) LTest []
| a_close_end : forall u, act u LTest u Finished []
| a_close_more : forall u l, uSources u = Some l -> l <> [] -> uN u = true -> act u LTest u LProcess []
| a_close_run : forall u l n, uSources u = Some l -> act u LProcess (set_n n u) LTest []
| a_close_nil : forall u, uSources u = None -> act u LProcess u Crashed []
(* CheckIfActive in ReloadRuns: a new task, or Close *)
| a_check_run : forall u, uN u = true \/ (exists l, uSources u = Some l /\ l <> []) ->
    act u KCheck u Finished [TLoad]
| a_check_close : forall u, uN u = false -> act u KCheck u LClose []
(* Run *)
| a_load_busy : forall u, (1 <= uRuns u)%Z -> act u TLoad u Finished []
| a_load : forall u, (uRuns u < 1)%Z -> act u TLoad u TAdd []
| a_add : forall u, act u TAdd (set_runs (uRuns u + 1)%Z u) TAlive []
| a_stop : forall u, uAlive u = false -> act u TAlive u TEnd []
| a_loop : forall u, uAlive u = true -> act u TAlive u TProcess []
| a_process : forall u l n, uSources u = Some l -> act u TProcess (set_n n u) TAlive []
| a_process_nil : forall u, uSources u = None -> act u TProcess u Crashed []
| a_end : forall u, act u TEnd (set_runs (uRuns u - 1)%Z u) Finished []
(* the report *)
| a_report : forall u l, uSources u = Some l -> act u WReport u Finished []
| a_report_nil : forall u, uSources u = None -> act u WReport u Crashed [].

(** What can be asked of a listed Data: an insert, a search, the adding of a source by
    the synchronisation, a removal or the end of the node, housekeeping, a report.
    data/insert.go 11, data/search.go 161, data/data.go 222, data/dataset.go 24-28,
    132-143 and 229-238, data/dataset.go 190, node/node.go 339. *)
Inductive asking := AskInsert | AskSearch (q : N) | AskSource (id : N) | AskClose | AskCheck | AskReport.

(** Where the goroutine of each starts: data/insert.go 15, data/search.go 166,
    data/data.go 226, 109 and 128, node/node.go 356. *)
Definition entry (a : asking) : place :=
  match a with
  | AskInsert => NInsert | AskSearch q => HSearch q | AskSource i => ASource i
  | AskClose => LClose | AskCheck => KCheck | AskReport => WReport
  end.

(** The Data of data/data.go 34-53 and the goroutines at work on it. *)
Definition world := (setup * list place)%type.

(** The Data is listed and its creator is about to call InitData.
    data/dataset.go 111-114. *)
Definition published : world := (fresh_setup, [ILock ByCreate]).

(** One step of the node: somebody allowed by [may] comes, or a goroutine moves.
    data/dataset.go 65-130. *)
Inductive wstep (may : asking -> Prop) : world -> world -> Prop :=
| w_come : forall u ts a, may a -> wstep may (u, ts) (u, ts ++ [entry a])
| w_act : forall u ts1 p ts2 u' p' new, act u p u' p' new ->
    wstep may (u, ts1 ++ p :: ts2) (u', ts1 ++ p' :: ts2 ++ new).

(** Any number of steps of data/dataset.go 65-130 and the lines of [act]. *)
Inductive wrun (may : asking -> Prop) : world -> world -> Prop :=
| wr_here : forall w, wrun may w w
| wr_step : forall w1 w2 w3, wrun may w1 w2 -> wstep may w2 w3 -> wrun may w1 w3.
