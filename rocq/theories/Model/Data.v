(** The Data record (data/data.go 35-55) and the configuration messages. *)
From Verif.Base Require Import GoBase Assoc Float.
From Verif.Model Require Import Codec Store.
Open Scope N_scope.

(** pb.DataConfig (veriservice/veriservice.pb.go 1003-1016). *)
Record DataConfig := mkDataConfig {
  cName : bytes; cVersion : N; cTargetN : N; cTargetUtilization : float;
  cNoTarget : bool; cReplicationOnInsert : N; cEnforceReplicationOnInsert : bool;
  cRetention : N }.

(** Data, data/data.go 35-55.  Left out: the mutex, Path (never set), DBPath
    (Model/Path.v), QueryCache (Model/QueryCache.v) and Annoyer
    (Model/Annoy.v).  Sources holds the ids of the sources currently in the
    cache; None is the nil cache of a dataset that was not initialised. *)
Record Data := mkData {
  dConfig : option DataConfig;
  dAvg : list float;
  dN : N;
  dMaxDistance : float;
  dHist : list float;
  dTimestamp : N;
  dLastRunTimestamp : N;
  dDirty : bool;
  dSources : option (list bytes);
  dInitialized : bool;
  dAlive : bool;
  dRuns : Z;
  dDBMap : dbmap;
  dRecentInsertCount : N }.

(** Field updates.
    dt.DBMap is changed at data/newsync.go 59, 70, 79. *)
Definition set_map (dt : Data) (m : dbmap) : Data :=
  mkData (dConfig dt) (dAvg dt) (dN dt) (dMaxDistance dt) (dHist dt) (dTimestamp dt)
    (dLastRunTimestamp dt) (dDirty dt) (dSources dt) (dInitialized dt) (dAlive dt)
    (dRuns dt) m (dRecentInsertCount dt).
(** dt.Dirty, data/insert.go 22 and data/newsync.go 225. *)
Definition set_dirty (dt : Data) (b : bool) : Data :=
  mkData (dConfig dt) (dAvg dt) (dN dt) (dMaxDistance dt) (dHist dt) (dTimestamp dt)
    (dLastRunTimestamp dt) b (dSources dt) (dInitialized dt) (dAlive dt)
    (dRuns dt) (dDBMap dt) (dRecentInsertCount dt).
(** dt.RecentInsertCount, data/newsync.go 60 and 101. *)
Definition set_recent (dt : Data) (r : N) : Data :=
  mkData (dConfig dt) (dAvg dt) (dN dt) (dMaxDistance dt) (dHist dt) (dTimestamp dt)
    (dLastRunTimestamp dt) (dDirty dt) (dSources dt) (dInitialized dt) (dAlive dt)
    (dRuns dt) (dDBMap dt) r.
(** dt.Alive, data/data.go 90 and 109. *)
Definition set_alive (dt : Data) (b : bool) : Data :=
  mkData (dConfig dt) (dAvg dt) (dN dt) (dMaxDistance dt) (dHist dt) (dTimestamp dt)
    (dLastRunTimestamp dt) (dDirty dt) (dSources dt) (dInitialized dt) b
    (dRuns dt) (dDBMap dt) (dRecentInsertCount dt).
(** dt.Sources, data/data.go 88 and 232. *)
Definition set_sources (dt : Data) (s : option (list bytes)) : Data :=
  mkData (dConfig dt) (dAvg dt) (dN dt) (dMaxDistance dt) (dHist dt) (dTimestamp dt)
    (dLastRunTimestamp dt) (dDirty dt) s (dInitialized dt) (dAlive dt)
    (dRuns dt) (dDBMap dt) (dRecentInsertCount dt).

(** NewPreData, data/data.go 73-81. *)
Definition NewPreData (config : DataConfig) : Data :=
  mkData (Some config) [] 0 (S754_zero false) [] 0 0 false None false false 0 [] 0.

(** NewTempData, data/data.go 98-105. *)
Definition NewTempData : Data :=
  mkData (Some (mkDataConfig [] 0 0 (S754_zero false) true 0 false 0))
    [] 0 (S754_zero false) [] 0 0 false None false false 0 [] 0.

(** InitData, data/data.go 83-95.  The Run goroutine it starts is modelled in
    Model/Sync.v and Model/RunLock.v. *)
Definition InitData (dt : Data) : Data :=
  if dInitialized dt then dt
  else mkData (dConfig dt) (dAvg dt) (dN dt) (dMaxDistance dt) (dHist dt) (dTimestamp dt)
    (dLastRunTimestamp dt) (dDirty dt) (Some []) true true
    (dRuns dt) (dDBMap dt) (dRecentInsertCount dt).

(** NewData, data/data.go 62-70. *)
Definition NewData (config : DataConfig) : Data := InitData (NewPreData config).

(** RunOnRandomSources, data/data.go 239-253.  [items] lists the ids returned by
    Sources.Items() in Go's map iteration order (any permutation).  The source
    function works on a state; an error stops the loop. *)
Fixpoint RunOnRandomSources {S : Type} (sourceLimit : Z) (items : list bytes)
  (f : S -> bytes -> S * option err) (s : S) : S * option err :=
  match items with
  | [] => (s, None)
  | id :: items' =>
      if (sourceLimit <? 0)%Z then (s, None)
      else match f s id with
           | (s', Some e) => (s', Some e)
           | (s', None) => RunOnRandomSources (sourceLimit - 1) items' f s'
           end
  end.
