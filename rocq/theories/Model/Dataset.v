(** The registry of datasets of a node (data/dataset.go) and the information a
    dataset gives about itself. *)
From Verif.Base Require Import GoBase Assoc Float.
From Verif.Model Require Import Codec Store Data.
Open Scope N_scope.

(** dt.Config = config, data/dataset.go 122. *)
Definition set_config (dt : Data) (c : DataConfig) : Data :=
  mkData (Some c) (dAvg dt) (dN dt) (dMaxDistance dt) (dHist dt) (dTimestamp dt)
    (dLastRunTimestamp dt) (dDirty dt) (dSources dt) (dInitialized dt) (dAlive dt)
    (dRuns dt) (dDBMap dt) (dRecentInsertCount dt).

(** The float64 constant 0.4.
    data/dataset.go 50. *)
Definition f0_4 : float := S754_finite false 7205759403792794 (-54).

(** GetDefaultConfig, data/dataset.go 45-56. *)
Definition GetDefaultConfig (name : bytes) : DataConfig :=
  mkDataConfig name 0 1000 f0_4 false 1 true 0.

(** time.Duration(x) of an unsigned value and a product of durations: signed
    64-bit arithmetic that wraps around.
    data/dataset.go 60-62. *)
Definition duration (z : Z) : Z :=
  let m := (z mod 18446744073709551616)%Z in
  if (m <? 9223372036854775808)%Z then m else (m - 18446744073709551616)%Z.

(** GetRetention, data/dataset.go 58-63, in nanoseconds. *)
Definition GetRetention (retention : N) : Z :=
  if retention =? 0 then (duration (duration 336 * 3600000000000))%Z
  else duration (duration (Z.of_N retention) * 1000000000).

(** An item of DataList: a pointer to a Data and the expiration time in
    nanoseconds, 0 meaning never.
    data/dataset.go 19. *)
Record ditem := mkDI { diObj : nat; diExpires : Z }.

(** The Dataset, data/dataset.go 18-28: the Data objects ever allocated (a pointer is
    an index) and DataList.  Left out: Path, DataPath (Model/Path.v). *)
Record dstate := mkDS { dsObjs : list Data; dsList : amap ditem }.

(** go-cache: an item is expired if its expiration is positive and in the past.
    Used by DataList.Get and Items, data/dataset.go 66, 78, 89, 133, 146. *)
Definition item_live (now : Z) (i : ditem) : bool :=
  negb ((0 <? diExpires i)%Z && (diExpires i <? now)%Z).

(** DataList.Get(name).
    data/dataset.go 66, 78, 89, 133. *)
Definition dl_get (now : Z) (s : dstate) (name : bytes) : option nat :=
  match mload (dsList s) name with
  | Some i => if item_live now i then Some (diObj i) else None
  | None => None
  end.

(** The expiration time of go-cache Add/Set: 0 is the default of DataList, 24
    hours (data/dataset.go 34); a negative duration never expires. *)
Definition dl_expiry (now d : Z) : Z :=
  if (d =? 0)%Z then (now + 86400000000000)%Z else if (0 <? d)%Z then (now + d)%Z else 0%Z.

(** DataList.Add(name, preData, retention), data/dataset.go 111, with the allocation of
    preData (line 108) and, when it succeeds, preData.InitData() (line 114).  None
    is the error "Item ... already exists". *)
Definition dl_add (now : Z) (s : dstate) (config : DataConfig) : option dstate :=
  match dl_get now s (cName config) with
  | Some _ => None
  | None =>
      Some (mkDS (dsObjs s ++ [InitData (NewPreData config)])
              (mstore (dsList s) (cName config)
                 (mkDI (length (dsObjs s)) (dl_expiry now (GetRetention (cRetention config))))))
  end.

Section Registry.
  (** IncrementExpiration of the go-cache fork (data/dataset.go 71), whose source is
      not in the repository: [inc now d old] is the new expiration time. *)
  Variable inc : Z -> Z -> Z -> Z.

  (** dts.DataList.IncrementExpiration(name, GetRetention(...)), data/dataset.go 71.  A
      nil config is a nil dereference. *)
  Definition dl_touch (now : Z) (s : dstate) (name : bytes) (a : nat) : res dstate :=
    match nth_error (dsObjs s) a with
    | Some dt =>
        match dConfig dt with
        | Some c =>
            match mload (dsList s) name with
            | Some i =>
                Ok (mkDS (dsObjs s) (mstore (dsList s) name
                      (mkDI (diObj i) (inc now (GetRetention (cRetention c)) (diExpires i)))))
            | None => Ok s
            end
        | None => Panic
        end
    | None => Panic
    end.

  (** Lines 118-126 of CreateIfNotExists, data/dataset.go: compare the versions and install the
      configuration. *)
  Definition update_config (s : dstate) (config : DataConfig) (a : nat) : res dstate :=
    match nth_error (dsObjs s) a with
    | Some dt =>
        match dConfig dt with
        | Some c0 =>
            if cVersion c0 <? cVersion config then
              match list_set (dsObjs s) a (set_config dt config) with
              | Some objs => Ok (mkDS objs (dsList s))
              | None => Panic
              end
            else Ok s
        | None => Panic
        end
    | None => Panic
    end.

  (** Get (data/dataset.go 65-75), GetNoOp (77-86), GetOrCreateIfNotExists (99-105) and
      CreateIfNotExists (107-130) call each other; [fuel] bounds the depth of the
      calls, Panic when it runs out (Proof/DatasetP.v: three levels are enough).
      Left out: the type switch on the item (only *Data is ever stored) and the
      goroutine running SaveIndex (Model/Index.v). *)
  Fixpoint Get (fuel : nat) (now : Z) (s : dstate) (name : bytes) : res (dstate * nat) :=
    match fuel with
    | O => Panic
    | S f =>
        match dl_get now s name with
        | Some a => s' <- dl_touch now s name a ;; Ok (s', a)
        | None => GetOrCreateIfNotExists f now s (GetDefaultConfig name)
        end
    end
  (** data/dataset.go 77-86. *)
  with GetNoOp (fuel : nat) (now : Z) (s : dstate) (name : bytes) : res (dstate * nat) :=
    match fuel with
    | O => Panic
    | S f =>
        match dl_get now s name with
        | Some a => Ok (s, a)
        | None => GetOrCreateIfNotExists f now s (GetDefaultConfig name)
        end
    end
  (** data/dataset.go 99-105. *)
  with GetOrCreateIfNotExists (fuel : nat) (now : Z) (s : dstate) (config : DataConfig)
    : res (dstate * nat) :=
    match fuel with
    | O => Panic
    | S f => s' <- CreateIfNotExists f now s config ;; Get f now s' (cName config)
    end
  (** data/dataset.go 107-130. *)
  with CreateIfNotExists (fuel : nat) (now : Z) (s : dstate) (config : DataConfig) : res dstate :=
    match fuel with
    | O => Panic
    | S f =>
        match dl_add now s config with
        | Some s' => Ok s'
        | None => '(s', a) <- GetNoOp f now s (cName config) ;; update_config s' config a
        end
    end.

  (** GetNoCreate, data/dataset.go 88-97; None is the error. *)
  Definition GetNoCreate (now : Z) (s : dstate) (name : bytes) : option nat := dl_get now s name.

  (** Data.Close, data/data.go 108-118, and closeData (data/dataset.go 24-28), of which
      only the effect on the object is kept here: [closed] (Process may send the
      data to other nodes first). *)
  Variable closed : Data -> Data.
  (** data/data.go 108-118. *)
  Definition close_obj (s : dstate) (a : nat) : dstate :=
    match nth_error (dsObjs s) a with
    | Some dt =>
        match list_set (dsObjs s) a (closed dt) with
        | Some objs => mkDS objs (dsList s)
        | None => s
        end
    | None => s
    end.

  (** go-cache Delete and its OnEvicted callback.
      data/dataset.go 35, 140 and 204. *)
  Definition dl_delete (s : dstate) (name : bytes) : dstate :=
    match mload (dsList s) name with
    | Some i => let s' := close_obj s (diObj i) in mkDS (dsObjs s') (mdelete (dsList s') name)
    | None => s
    end.

  (** Delete, data/dataset.go 132-143; false is the error. *)
  Definition Delete (now : Z) (s : dstate) (name : bytes) : dstate * bool :=
    match dl_get now s name with
    | None => (s, false)
    | Some a => (dl_delete (close_obj s a) name, true)
    end.

  (** DataList.Items(): the items that are not expired.
      data/dataset.go 146, 156, 191, 211, 231. *)
  Definition Items (now : Z) (s : dstate) : amap ditem :=
    filter (fun p => item_live now (snd p)) (dsList s).

  (** List, data/dataset.go 145-153, up to the iteration order of the map. *)
  Definition ListNames (now : Z) (s : dstate) : list bytes := map fst (Items now s).

  (** What can happen to the registry.  [EvData] is any operation on a dataset
      object itself (inserts, statistics, ...), which never assigns Config;
      [EvExpire] is the go-cache janitor removing an expired item.
      The callers are node/nodeservice.go 42, 82, 108, 223, node/node.go 255 and data/dataset.go 132-143. *)
  Inductive devent :=
  | EvGet (now : Z) (name : bytes)
  | EvGetNoOp (now : Z) (name : bytes)
  | EvCreate (now : Z) (config : DataConfig)
  | EvGetOrCreate (now : Z) (config : DataConfig)
  | EvDelete (now : Z) (name : bytes)
  | EvExpire (now : Z) (name : bytes)
  | EvData (a : nat) (f : Data -> Data).

  (** The depth of calls that is enough.
      data/dataset.go 65-130. *)
  Definition deep : nat := 4.

  (** data/dataset.go 65-143. *)
  Definition dstep (s : dstate) (e : devent) : res dstate :=
    match e with
    | EvGet now name => r <- Get deep now s name ;; Ok (fst r)
    | EvGetNoOp now name => r <- GetNoOp deep now s name ;; Ok (fst r)
    | EvCreate now c => CreateIfNotExists deep now s c
    | EvGetOrCreate now c => r <- GetOrCreateIfNotExists deep now s c ;; Ok (fst r)
    | EvDelete now name => Ok (fst (Delete now s name))
    | EvExpire now name =>
        match dl_get now s name with
        | None => Ok (dl_delete s name)
        | Some _ => Ok s
        end
    | EvData a f =>
        match nth_error (dsObjs s) a with
        | Some dt =>
            match list_set (dsObjs s) a
                    (match dConfig dt with
                     | Some c => set_config (f dt) c
                     | None => f dt
                     end) with
            | Some objs => Ok (mkDS objs (dsList s))
            | None => Ok s
            end
        | None => Ok s
        end
    end.

  (** A history.
      Any sequence of the calls of data/dataset.go 65-143. *)
  Fixpoint drun (s : dstate) (es : list devent) : res dstate :=
    match es with
    | [] => Ok s
    | e :: es' => s' <- dstep s e ;; drun s' es'
    end.

  (** CheckIfActive, data/data.go 128-142.  [info id] is the N of the DataInfo the
      source answers with, None if it answers nil (unreachable source,
      node/datasourceclient.go 79-98), and then the field access is a nil
      dereference.  The map of sources is visited in the order of the list. *)
  Fixpoint any_source (info : bytes -> option N) (ids : list bytes) : res bool :=
    match ids with
    | [] => Ok false
    | id :: ids' =>
        match info id with
        | None => Panic
        | Some n => if 0 <? n then Ok true else any_source info ids'
        end
    end.
  (** data/data.go 128-142. *)
  Definition CheckIfActive (info : bytes -> option N) (dt : Data) : res bool :=
    if 0 <? dN dt then Ok true
    else match dSources dt with
         | Some ids => any_source info ids
         | None => Ok false
         end.

  (** The first loop of ReloadRuns, data/dataset.go 191-202: [items] are the items in
      iteration order; the result is the state with the inactive datasets closed
      and the list of names to remove.  The Run goroutines started are
      Model/RunLock.v. *)
  Fixpoint reload_scan (info : bytes -> option N) (s : dstate) (items : amap ditem)
    : res (dstate * list bytes) :=
    match items with
    | [] => Ok (s, [])
    | (name, i) :: items' =>
        match nth_error (dsObjs s) (diObj i) with
        | None => Panic
        | Some dt =>
            active <- CheckIfActive info dt ;;
            if active then reload_scan info s items'
            else '(s', l) <- reload_scan info (close_obj s (diObj i)) items' ;; Ok (s', name :: l)
        end
    end.

  (** ReloadRuns, data/dataset.go 190-207. *)
  Definition ReloadRuns (info : bytes -> option N) (now : Z) (s : dstate) (items : amap ditem)
    : res dstate :=
    '(s', l) <- reload_scan info s items ;; Ok (fold_left dl_delete l s').
End Registry.

(** CreateIfNotExists executed by several goroutines, data/dataset.go 107-130: the Add
    is atomic; after it failed, GetNoOp and the comparison of the versions (lines
    118-120) are one step and the assignment (line 122) is another. *)
Inductive creator :=
| CStart (c : DataConfig)
| CWrite (c : DataConfig) (a : nat)
| CDone.

(** Steps happen at any time up to [tmax].
    data/dataset.go 107-130. *)
Inductive creators_step (tmax : Z) : dstate * list creator -> dstate * list creator -> Prop :=
| cs_add : forall now s ts i c s' ts',
    (now <= tmax)%Z -> nth_error ts i = Some (CStart c) ->
    dl_add now s c = Some s' -> list_set ts i CDone = Some ts' ->
    creators_step tmax (s, ts) (s', ts')
| cs_keep : forall now s ts i c a dt c0 ts',
    (now <= tmax)%Z -> nth_error ts i = Some (CStart c) ->
    dl_get now s (cName c) = Some a -> nth_error (dsObjs s) a = Some dt ->
    dConfig dt = Some c0 -> cVersion c <= cVersion c0 -> list_set ts i CDone = Some ts' ->
    creators_step tmax (s, ts) (s, ts')
| cs_check : forall now s ts i c a dt c0 ts',
    (now <= tmax)%Z -> nth_error ts i = Some (CStart c) ->
    dl_get now s (cName c) = Some a -> nth_error (dsObjs s) a = Some dt ->
    dConfig dt = Some c0 -> cVersion c0 < cVersion c -> list_set ts i (CWrite c a) = Some ts' ->
    creators_step tmax (s, ts) (s, ts')
| cs_write : forall s ts i c a dt objs ts',
    nth_error ts i = Some (CWrite c a) -> nth_error (dsObjs s) a = Some dt ->
    list_set (dsObjs s) a (set_config dt c) = Some objs -> list_set ts i CDone = Some ts' ->
    creators_step tmax (s, ts) (mkDS objs (dsList s), ts').

(** Any interleaving of calls of data/dataset.go 107-130. *)
Inductive creators_run (tmax : Z) : dstate * list creator -> dstate * list creator -> Prop :=
| cr_here : forall x, creators_run tmax x x
| cr_step : forall x y z, creators_step tmax x y -> creators_run tmax y z -> creators_run tmax x z.

(** pb.DataInfo (veriservice/veriservice.pb.go 860-878). *)
Record DataInfo := mkDataInfo {
  iName : bytes; iTimestamp : N; iVersion : N; iAvg : list float; iHist : list float; iN : N;
  iMaxDistance : float; iTargetN : N; iTargetUtilization : float; iNoTarget : bool;
  iReplicationOnInsert : N; iEnforceReplicationOnInsert : bool; iRetention : N }.

(** Data.GetDataInfo, data/data.go 205-219; the fields that are not listed there
    are zero. *)
Definition GetDataInfo (dt : Data) : res DataInfo :=
  match dConfig dt with
  | Some c =>
      Ok (mkDataInfo (cName c) (dTimestamp dt) (cVersion c) (dAvg dt) (dHist dt) (dN dt)
            (dMaxDistance dt) (cTargetN c) (cTargetUtilization c) (cNoTarget c) 0 false 0)
  | None => Panic
  end.

(** The handlers CreateDataIfNotExists, node/nodeservice.go 221-229, and
    GetDataInfo, 106-116. *)
Definition info_of (s : dstate) (a : nat) : res DataInfo :=
  match nth_error (dsObjs s) a with
  | Some dt => GetDataInfo dt
  | None => Panic
  end.
(** node/nodeservice.go 221-229. *)
Definition NodeCreateDataIfNotExists (inc : Z -> Z -> Z -> Z) (now : Z) (s : dstate)
  (config : DataConfig) : res (dstate * DataInfo) :=
  '(s', a) <- GetOrCreateIfNotExists inc deep now s config ;; i <- info_of s' a ;; Ok (s', i).
(** node/nodeservice.go 106-116. *)
Definition NodeGetDataInfo (inc : Z -> Z -> Z -> Z) (now : Z) (s : dstate) (name : bytes)
  : res (dstate * DataInfo) :=
  '(s', a) <- Get inc deep now s name ;; i <- info_of s' a ;; Ok (s', i).
