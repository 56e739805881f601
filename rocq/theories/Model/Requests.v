(** The requests of clients and peers about the datasets of a node,
    node/nodeservice.go 35-51, 80-154 and 221-229, and what the node does with its
    datasets on its own, node/node.go 79-85, 163-176, 322-330.

    Requests are handled one after the other here; what one request does to its
    dataset while others run is the subject of Model/StoreConc.v, Model/Flow.v and
    Model/Sync.v. *)
From Verif.Base Require Import GoBase Assoc Float GoSort.
From Verif.Model Require Import Codec Store Data Insert Vector Search Dataset Json Index DatasetAll Aggregator CallTree QueryCache SearchStream.
Open Scope N_scope.

(** state.Drain (state/state.go 5), QueryUUIDCache with expiration times (node/node.go
    50 and 62) and Dataset (node/node.go 45). *)
Record nstate := mkNS { nsDrain : bool; nsSeen : amap Z; nsReg : dstate }.

(** What a client gets: success without content (node/nodeservice.go 50), an
    error, the information of a dataset (113, 228), data (100) or results (150). *)
Inductive response :=
| RDone
| RFail (e : err)
| RInfo (i : DataInfo)
| RData (l : list Datum)
| RResults (l : list ScoredDatum).

(** Requests; [now] is in nanoseconds.
    - [QInsert]: [items] and [answers]: the order in which the sources are asked and
      what they answer (Model/Insert.v);
    - [QStream]: the clock and the iteration order during StreamAll;
    - [QSearch]: what the search of a dataset depends on besides the request
      (Model/SearchStream.v), and what it leaves behind in the dataset (expired
      data are purged);
    What the node does on its own, [names] being iteration orders:
    - [BTask]: a task of the dataset registered under the name (statistics,
      senders; Model/Sync.v); it never assigns Config;
    - [BExpire]: the janitor of DataList; [BForget]: that of QueryUUIDCache;
    - [BDelete]: Dataset.Delete;
    - [BSave], [BList], [BReload], [BClose]: SaveIndex, DataConfigList,
      ReloadRuns, Node.Close.
    node/nodeservice.go 35-154, 221-229, node/node.go 79-85, 322-330, data/dataset.go
    132-239. *)
Inductive nevent :=
| QInsert (now : Z) (name : bytes) (items : Data -> list bytes) (answers : nat -> option err)
    (datum : option Datum) (config : option InsertConfig)
| QInfo (now : Z) (name : bytes)
| QStream (now : Z) (name : bytes) (tick : bytes -> Z) (order : dbmap -> list (bytes * entry))
| QSearch (now : Z) (rq : SearchRequest) (env : Data -> searchEnv) (after : Data -> Data)
| QCreate (now : Z) (config : DataConfig)
| BTask (name : bytes) (f : Data -> Data)
| BExpire (now : Z) (name : bytes)
| BForget (now : Z) (uid : bytes)
| BDelete (now : Z) (name : bytes)
| BSave (now : Z) (names : list bytes)
| BList (now : Z) (names : list bytes)
| BReload (now : Z) (info : bytes -> option N) (names : list bytes)
| BClose (now : Z) (names1 names2 : list bytes).

(** Operations on a dataset object never assign Config: the only assignment is
    data/dataset.go 122. *)
Definition keep_config (dt dt' : Data) : Data :=
  match dConfig dt with Some c => set_config dt' c | None => dt' end.

(** A handler works on the object that Get or GetNoCreate returned.
    node/nodeservice.go 46, 93, 113, 143. *)
Definition on_object (s : dstate) (a : nat) (f : Data -> res (Data * response)) : res (dstate * response) :=
  match nth_error (dsObjs s) a with
  | None => Panic
  | Some dt =>
      '(dt', r) <- f dt ;;
      match list_set (dsObjs s) a (keep_config dt dt') with
      | Some objs => Ok (mkDS objs (dsList s), r)
      | None => Panic
      end
  end.

(** dt.Insert, node/nodeservice.go 46-50. *)
Definition serve_insert (now : Z) (items : Data -> list bytes) (answers : nat -> option err)
  (datum : option Datum) (config : option InsertConfig) (dt : Data) : res (Data * response) :=
  match Insert (fun k _ _ _ => (S k, answers k)) (now / 1000000000)%Z (items dt) O dt datum config with
  | Ok o => Ok (oData o, match oErr o with None => RDone | Some e => RFail e end)
  | Err e => Ok (dt, RFail e)
  | Panic => Panic
  end.

(** dt.GetDataInfo(), node/nodeservice.go 112-115. *)
Definition serve_info (dt : Data) : res (Data * response) :=
  i <- GetDataInfo dt ;; Ok (dt, RInfo i).

(** DataStream, node/nodeservice.go 86-103, without the losses of C35. *)
Definition serve_stream (tick : bytes -> Z) (order : dbmap -> list (bytes * entry)) (dt : Data)
  : res (Data * response) :=
  let '(m, l) := StreamAll tick (order (dDBMap dt)) (dDBMap dt) in Ok (set_map dt m, RData l).

(** SearchStream after GetNoCreate, node/nodeservice.go 140-152. *)
Definition serve_search (c : SearchConfig) (rq : SearchRequest) (env : Data -> searchEnv) (after : Data -> Data)
  (dt : Data) : res (Data * response) :=
  match MultiAggregatedSearch (env dt) c (srContext rq) (srDatum rq) with
  | Ok l => Ok (after dt, RResults l)
  | Err e => Ok (after dt, RFail e)
  | Panic => Panic
  end.

(** An entry of QueryUUIDCache lives five minutes, node/node.go 62. *)
Definition uuid_life : Z := 300000000000.
(** go-cache: the entry is there, node/nodeservice.go 128. *)
Definition uuid_there (now : Z) (seen : amap Z) (uid : bytes) : bool :=
  match mload seen uid with Some e => (now <=? e)%Z | None => false end.

(** GetNoCreate fails, data/dataset.go 91. *)
Definition errNoDataset : err := bs "Data does not exist. Retry recomended".

(** The items of the datasets [names] that are not expired.
    data/dataset.go 191. *)
Fixpoint items_of (now : Z) (s : dstate) (names : list bytes) : amap ditem :=
  match names with
  | [] => []
  | n :: names' =>
      match mload (dsList s) n with
      | Some i => if item_live now i then (n, i) :: items_of now s names' else items_of now s names'
      | None => items_of now s names'
      end
  end.

Section Serve.
  Variable L : floatlib.
  (** IncrementExpiration of the go-cache fork and Data.Close, as in Model/Dataset.v. *)
  Variable inc : Z -> Z -> Z -> Z.
  Variable closed : Data -> Data.

  (** The registry part of a handler that uses Dataset.Get: node/nodeservice.go 42-50,
      82-103, 108-115. *)
  Definition with_get (now : Z) (s : dstate) (name : bytes) (f : Data -> res (Data * response))
    : res (dstate * response) :=
    '(s1, a) <- Get inc deep now s name ;; on_object s1 a f.

  (** The answer of a request is labelled with the dataset it is about.
      node/nodeservice.go 35-154, 221-229, node/node.go 79-85, 322-330. *)
  Definition nstep (n : nstate) (e : nevent) : res (nstate * option (bytes * response)) :=
    let s := nsReg n in
    let reply name (x : res (dstate * response)) :=
      '(s', r) <- x ;; Ok (mkNS (nsDrain n) (nsSeen n) s', Some (name, r)) in
    let quiet (x : res dstate) := s' <- x ;; Ok (mkNS (nsDrain n) (nsSeen n) s', None) in
    match e with
    | QInsert now name items answers d c =>
        if nsDrain n then Ok (n, Some (name, RFail errDrain))
        else reply name (with_get now s name (serve_insert now items answers d c))
    | QInfo now name => reply name (with_get now s name serve_info)
    | QStream now name tick order => reply name (with_get now s name (serve_stream tick order))
    | QSearch now rq env after =>
        match srConfig rq with
        | None => Panic
        | Some c =>
            let uid := scUuid c in
            let name := scDataName c in
            let known := match uid with [] => false | _ => uuid_there now (nsSeen n) uid end in
            if (known : bool) then Ok (n, Some (name, RResults []))
            else
              let seen := match uid with [] => nsSeen n | _ => mstore (nsSeen n) uid (now + uuid_life)%Z end in
              match GetNoCreate now s name with
              | None => Ok (mkNS (nsDrain n) seen s, Some (name, RFail errNoDataset))
              | Some a =>
                  '(s', r) <- on_object s a (serve_search c rq env after) ;;
                  Ok (mkNS (nsDrain n) seen s', Some (name, r))
              end
        end
    | QCreate now config =>
        reply (cName config)
          ('(s', a) <- GetOrCreateIfNotExists inc deep now s config ;; on_object s' a serve_info)
    | BTask name f =>
        quiet (match mload (dsList s) name with
               | Some i => '(s', _) <- on_object s (diObj i) (fun dt => Ok (f dt, RDone)) ;; Ok s'
               | None => Ok s
               end)
    | BExpire now name => quiet (dstep inc closed s (EvExpire now name))
    | BForget now uid =>
        Ok (mkNS (nsDrain n) (if uuid_there now (nsSeen n) uid then nsSeen n else mdelete (nsSeen n) uid) s, None)
    | BDelete now name => quiet (Ok (fst (Delete closed now s name)))
    | BSave now names => quiet ('(s', _) <- SaveIndex L inc now s names ;; Ok s')
    | BList now names => quiet ('(s', _) <- DataConfigList inc now s names ;; Ok s')
    | BReload now info names => quiet (ReloadRuns closed info now s (items_of now s names))
    | BClose now names1 names2 =>
        '(s', _) <- DatasetClose L inc closed now s names1 names2 ;;
        Ok (mkNS true (nsSeen n) s', None)
    end.

  (** Any sequence of them; the answers, oldest first.
      node/nodeservice.go 35-154, 221-229. *)
  Fixpoint nrun (n : nstate) (es : list nevent) : res (nstate * list (bytes * response)) :=
    match es with
    | [] => Ok (n, [])
    | e :: es' =>
        '(n1, o) <- nstep n e ;;
        '(n2, outs) <- nrun n1 es' ;;
        Ok (n2, match o with Some r => r :: outs | None => outs end)
    end.
End Serve.
