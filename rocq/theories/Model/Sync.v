(** The background synchronisation of a dataset: data/newsync.go 93-227
    (Process), data/sync.go 7-36, data/data.go 108-118 (Close) and 170-195
    (DataSourceDiffMap).

    Process scans the store, recomputes the statistics and streams some of the
    data to a goroutine (the sender) that offers them to the sources and deletes
    what was taken over.  The sender is not waited for: it outlives the call of
    Process, so several senders can be active at once. *)
From Verif.Base Require Import GoBase Assoc Float.
From Verif.Model Require Import Codec Store Data Insert Vector Search Dataset.
Open Scope N_scope.

(** isEvictionOn, data/sync.go 7-13.  [undef] is the result of the conversion
    uint64(x) when x does not fit (see Base/Float.v). *)
Definition lowerThreshold (undef : N) (localInfo : DataInfo) (config : DataConfig) : N :=
  f_to_u64 undef (f64mul (f64_of_Z (Z.of_N (iTargetN localInfo))) (cTargetUtilization config)).
(** data/sync.go 7-13. *)
Definition isEvictionOn (undef : N) (localInfo : DataInfo) (config : DataConfig) (deleted : N) : bool :=
  negb (cNoTarget config) &&
  (lowerThreshold undef localInfo config <=? sub64 (iN localInfo) deleted).

(** InsertConfigFromExpireAt, data/sync.go 25-36; [now] is getCurrentTime(). *)
Definition InsertConfigFromExpireAt (now expiresAt : N) : InsertConfig :=
  mkInsertConfig (if 0 <? expiresAt then sub64 expiresAt now else 0) 1.

(** 0.01 as a float64: 5764607523034235 * 2^-59 (data/data.go 179 and 183). *)
Definition f0_01 : float := S754_finite false 5764607523034235 (-59).

(** The quota of one source, data/data.go 177-188: the function passed to
    RunOnRandomSources, for a source that answered with [info]. *)
Definition quota (M : mathlib) (localInfo info : DataInfo) : N :=
  let localN := iN localInfo in
  let diff := N.min (u64 (sub64 localN (iN info) / 2 + 1)) 1000 in
  let fraction := f64div (f64_of_Z (Z.of_N diff)) (f64_of_Z (Z.of_N (u64 (localN + 1)))) in
  let diff := if localN <? iN info then 1 else diff in
  if fleb (f64add (VectorDistance M (iAvg localInfo) (iAvg info))
                  (VectorDistance M (iHist localInfo) (iHist info)))
          (f64mul f0_01 (iMaxDistance localInfo))
  then (if fltb fraction f0_01 then 0 else 1)
  else diff.

(** DataSourceDiffMap, data/data.go 170-195.  [items] are the ids of the sources in
    the iteration order of Items(); [info id] is the answer of the source, None
    if it is nil.  The map diffMap is an association list. *)
Definition DataSourceDiffMap (M : mathlib) (items : list bytes) (info : bytes -> option DataInfo)
  (localInfo : DataInfo) : amap N * N :=
  fst (RunOnRandomSources 5 items
    (fun '(diffMap, sum) id =>
       match info id with
       | None => ((diffMap, sum), None)
       | Some i => let q := quota M localInfo i in
                   ((mstore diffMap id q, u64 (sum + q)), None)
       end) ([], 0)).

(** * The scan: data/newsync.go 137-194 *)

(** The local variables written by the scan: n, avg, maxDistance, hist,
    insertionCounter and what was sent to datumStream, oldest first.
    data/newsync.go 105 and 137-141. *)
Record scan := mkScan {
  sN : N; sAvg : list float; sMax : float; sHist : list float; sCounter : N;
  sOut : list (Datum * InsertConfig) }.

(** What the scan reads: dt.Avg, dt.MaxDistance, nFloat, dt.Alive, limit,
    fraction; the random draw and the clock at the n-th visited entry; the
    result of int(x) for an x that does not fit.  Simplification: Alive does not
    change during one scan.
    data/newsync.go 106-108 and 142-146. *)
Record senv := mkSenv {
  eAvg : list float; eMax : float; eNFloat : float; eAlive : bool; eLimit : N;
  eFraction : float; eRand : N -> float; eClock : N -> N; eUndef : Z }.

(** hist[index] += histUnit.
    data/newsync.go 166. *)
Fixpoint bump (hist : list float) (i : nat) (unit : float) : list float :=
  match hist, i with
  | [], _ => []
  | x :: h, O => f32add x unit :: h
  | x :: h, S i' => x :: bump h i' unit
  end.

(** The bucket of a distance, data/newsync.go 159-165. *)
Definition bucket (undef : Z) (distance maxDistance : float) : nat :=
  let index := f_to_i64 undef (f64mul (f64div distance maxDistance) (f64_of_Z 64)) in
  let index := if (64 <=? index)%Z then 63%Z else index in
  Z.to_nat (if (index <=? 0)%Z then 0%Z else index).

(** The features of a stored datum; Key is never nil in the store.
    data/newsync.go 153-154. *)
Definition features (d : Datum) : list float :=
  match dkey d with Some k => vec k | None => [] end.

(** The function passed to LoopDBMap, data/newsync.go 151-194, without the index
    (Model/Annoy.v).  The send at line 186 is an append: with Alive at most limit
    values are sent on a channel of capacity limit; without Alive it may have to
    wait for the sender. *)
Definition scan_entry (M : mathlib) (E : senv) (s : scan) (e : entry) : scan * option err :=
  let n := u64 (sN s + 1) in
  let avg := CalculateAverage (sAvg s) (features (edatum e)) (eNFloat E) in
  let distance := VectorDistance M (eAvg E) (features (edatum e)) in
  let maxDistance := if fgtb distance (sMax s) then distance else sMax s in
  let hist := if feqb (eMax E) fzero then sHist s
              else bump (sHist s) (bucket (eUndef E) distance (eMax E))
                     (f32div (f32_of_Z 1) (eNFloat E)) in
  let config := InsertConfigFromExpireAt (eClock E n) (u64_of_i64 (exprireAt e)) in
  if negb (eAlive E) || ((sCounter s <? eLimit E) && fltb (eRand E n) (eFraction E))
  then if 10 <? TTL config
       then (mkScan n avg maxDistance hist (u64 (sCounter s + 1)) (sOut s ++ [(edatum e, config)]), None)
       else (mkScan n avg maxDistance hist (sCounter s) (sOut s), None)
  else (mkScan n avg maxDistance hist (sCounter s) (sOut s), None).

(** The state in which the scan starts, data/newsync.go 105, 137-141. *)
Definition scan0 : scan := mkScan 0 [] fzero (repeat fzero 64) 0 [].

(** * Process *)

(** The environment of one call of Process: the clock at lines 98, 202 and 224,
    the sources in iteration order and their answers, the order in which Range
    visits the store, the clock during the scan, random draws.
    data/newsync.go 93-227. *)
Record penv := mkPenv {
  pNow : N; pNow2 : N; pNow3 : N; pItems : list bytes; pInfo : bytes -> option DataInfo;
  pOrder : list (bytes * entry); pTick : bytes -> Z; pClock : N -> N; pRand : N -> float;
  pUndef : Z }.

(** The sender of one call of Process, data/newsync.go 109-135: localInfo, config,
    diffMap, the content of datumStream, where the goroutine is, countMap and
    deleted.  [Idle]: waiting for a datum; [Visit d c ids]: in the loop over
    diffMap, with the ids not visited yet; [Acked d c id ids]: source id has
    acknowledged d (line 118-124), line 125 comes next. *)
Inductive spc :=
| Idle
| Visit (d : Datum) (c : InsertConfig) (ids : list bytes)
| Acked (d : Datum) (c : InsertConfig) (id : bytes) (ids : list bytes).
(** data/newsync.go 109-135. *)
Record sender := mkSender {
  rInfo : DataInfo; rConf : DataConfig; rDiff : amap N; rQueue : list (Datum * InsertConfig);
  rPc : spc; rCount : amap N; rDeleted : N }.

(** countMap[id], data/newsync.go 115, 0 for a missing key. *)
Definition count_at (m : amap N) (id : bytes) : N :=
  match mload m id with Some n => n | None => 0 end.

(** The decision of data/newsync.go 98-100. *)
Definition process_due (dt : Data) (now limit : N) (force : bool) : bool :=
  let timeDiff := sub64 now (dLastRunTimestamp dt) in
  ((60 <=? timeDiff) && ((0 <? dRecentInsertCount dt) || (dN dt / 10 <? limit) || (600 <=? timeDiff)))
  || force.

(** What the scan reads, given the dataset and the quotas (data/newsync.go 106-108, 142-146). *)
Definition senv_of (P : penv) (dt : Data) (limit : N) : senv :=
  let nFloat := f32_of_Z (Z.of_N (dN dt)) in
  mkSenv (dAvg dt) (dMaxDistance dt) (if feqb nFloat fzero then f32_of_Z 1 else nFloat)
    (dAlive dt) limit
    (if 0 <? dN dt then f64div (f64_of_Z (Z.of_N limit)) (f64_of_Z (Z.of_N (dN dt))) else fzero)
    (pRand P) (pClock P) (pUndef P).

(** Process, data/newsync.go 93-227, without the sender's work.  Returns the dataset
    and the sender that was started, if any.  A nil configuration panics (data/data.go
    213); nil sources are a nil dereference (data/data.go 240).  Simplification: the
    scan is one atomic step; what senders and clients do to an entry while it
    runs counts as done before the scan or after it, depending on whether the
    scan sees the entry (it visits every entry at most once). *)
Definition Process (M : mathlib) (P : penv) (dt : Data) (force : bool)
  : res (Data * option sender) :=
  match GetDataInfo dt, dConfig dt, dSources dt with
  | Ok localInfo, Some config, Some _ =>
      let '(diffMap, limit) := DataSourceDiffMap M (pItems P) (pInfo P) localInfo in
      if process_due dt (pNow P) limit force then
        let '(m, s, _) := LoopDBMap (pTick P) (scan_entry M (senv_of P dt limit)) (pOrder P) (dDBMap dt) scan0 in
        Ok (mkData (dConfig dt) (sAvg s) (sN s) (sMax s) (sHist s) (pNow3 P) (pNow2 P) false
              (dSources dt) (dInitialized dt) (dAlive dt) (dRuns dt) m 0,
            if 0 <? dN dt
            then Some (mkSender localInfo config diffMap (sOut s) Idle [] 0)
            else None)
      else
        Ok (mkData (dConfig dt) (dAvg dt) (dN dt) (dMaxDistance dt) (dHist dt) (pNow3 P)
              (dLastRunTimestamp dt) false (dSources dt) (dInitialized dt) (dAlive dt) (dRuns dt)
              (dDBMap dt) (dRecentInsertCount dt), None)
  | _, _, _ => Panic
  end.

(** * The sender *)

(** One step of a sender, data/newsync.go 113-134:
    - [STake order]: receive the next datum (line 113) and start to iterate over
      diffMap, in any order;
    - [SSkip]: pass over an id whose quota is used up (line 115) or that is no
      source any more (line 116); or leave the finished loop;
    - [SOffer ok]: source.Insert (line 118), acknowledged or not;
    - [SDecide]: line 125-129.
    Simplification: reading Alive at line 125 and deleting at line 127 are one
    step. *)
Inductive sev :=
| STake (order : list bytes)
| SSkip
| SOffer (ok : bool)
| SDecide.

(** dt.Sources.Get(id) finds a source, data/newsync.go 116. *)
Definition is_source (sources : option (list bytes)) (id : bytes) : bool :=
  match sources with Some l => existsb (bytes_eqb id) l | None => false end.

(** data/newsync.go 115-117: the id is to be served. *)
Definition serves (dt : Data) (r : sender) (id : bytes) : bool :=
  (count_at (rCount r) id <? count_at (rDiff r) id) && is_source (dSources dt) id.

(** Where the goroutine of data/newsync.go 110-135 is. *)
Definition set_pc (r : sender) (pc : spc) : sender :=
  mkSender (rInfo r) (rConf r) (rDiff r) (rQueue r) pc (rCount r) (rDeleted r).

(** None: the step is not possible in this state.
    data/newsync.go 113-134. *)
Definition sender_step (undef : N) (dt : Data) (r : sender) (e : sev) : option (Data * sender) :=
  match e, rPc r with
  | STake order, Idle =>
      match rQueue r with
      | (d, c) :: q =>
          Some (dt, mkSender (rInfo r) (rConf r) (rDiff r) q (Visit d c order) (rCount r) (rDeleted r))
      | [] => None
      end
  | SSkip, Visit d c [] => Some (dt, set_pc r Idle)
  | SSkip, Visit d c (id :: ids) =>
      if serves dt r id then None else Some (dt, set_pc r (Visit d c ids))
  | SOffer ok, Visit d c (id :: ids) =>
      if serves dt r id
      then Some (dt, set_pc r (if (ok : bool) then Acked d c id ids else Visit d c ids))
      else None
  | SDecide, Acked d c id ids =>
      if negb (dAlive dt) || isEvictionOn undef (rInfo r) (rConf r) (rDeleted r) then
        match DeleteBDMap (dDBMap dt) (Some d) with
        | Ok m => Some (set_map dt m,
                        mkSender (rInfo r) (rConf r) (rDiff r) (rQueue r) (Visit d c ids)
                          (mstore (rCount r) id (count_at (rCount r) id + 1)) (u64 (rDeleted r + 1)))
        | _ => None
        end
      else Some (dt, set_pc r (Visit d c ids))
  | _, _ => None
  end.

(** * One dataset with its senders and its users *)

(** The dataset and the senders started so far, oldest first.
    data/data.go 35-55 and the goroutines of data/newsync.go 110-135. *)
Record sync := mkSync { yData : Data; ySenders : list sender }.

(** What can happen:
    - [YProcess P force]: a call of Process (from Run, data/data.go 160, or Close, 112);
    - [YSend i e]: a step of sender i;
    - [YInsert now d c]: the local part of an insert (client or peer);
    - [YDelete d]: DeleteBDMap by a client;
    - [YSources l]: sources join or expire;
    - [YClose]: Alive = false (data/data.go 109). *)
Inductive yev :=
| YProcess (P : penv) (force : bool)
| YSend (i : nat) (e : sev)
| YInsert (now : Z) (d : option Datum) (c : option InsertConfig)
| YDelete (d : option Datum)
| YSources (l : list bytes)
| YClose.

(** data/newsync.go 27-227, data/insert.go 11-22, data/data.go 108-118, 221-233. *)
Definition sync_step (M : mathlib) (undef : N) (s : sync) (e : yev) : option sync :=
  match e with
  | YProcess P force =>
      match Process M P (yData s) force with
      | Ok (dt, Some r) => Some (mkSync dt (ySenders s ++ [r]))
      | Ok (dt, None) => Some (mkSync dt (ySenders s))
      | _ => None
      end
  | YSend i e =>
      match nth_error (ySenders s) i with
      | Some r =>
          match sender_step undef (yData s) r e with
          | Some (dt, r') =>
              match list_set (ySenders s) i r' with
              | Some l => Some (mkSync dt l)
              | None => None
              end
          | None => None
          end
      | None => None
      end
  | YInsert now d c =>
      match InsertLocal now (yData s) d c with
      | Ok (dt, _) => Some (mkSync dt (ySenders s))
      | _ => None
      end
  | YDelete d =>
      match DeleteBDMap (dDBMap (yData s)) d with
      | Ok m => Some (mkSync (set_map (yData s) m) (ySenders s))
      | _ => None
      end
  | YSources l => Some (mkSync (set_sources (yData s) (Some l)) (ySenders s))
  | YClose => Some (mkSync (set_alive (yData s) false) (ySenders s))
  end.

(** An execution: the states reached one after the other.
    Any interleaving of these steps (data/newsync.go 27-227). *)
Fixpoint sync_run (M : mathlib) (undef : N) (s : sync) (es : list yev) : option sync :=
  match es with
  | [] => Some s
  | e :: es' =>
      match sync_step M undef s e with
      | Some s' => sync_run M undef s' es'
      | None => None
      end
  end.

(** Close, data/data.go 108-118, after YClose: [close_loops s] is the test of the for
    loop (line 111; lines 110-114 are skipped without sources, and the loop does
    not read the sources again). *)
Definition close_loops (s : sync) : bool := 0 <? dN (yData s).
