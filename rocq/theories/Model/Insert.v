(** Insert into a dataset and its replication: data/insert.go 11-51,
    node/nodeservice.go 35-51, node/datasourceclient.go 61-77. *)
From Verif.Base Require Import GoBase Assoc Float.
From Verif.Model Require Import Codec Store Data.
Open Scope N_scope.

(** The error strings of data/insert.go 13 and 47 and node/nodeservice.go 37. *)
Definition errOverTarget : err := bs "Number of elements is over the target".
(** data/insert.go 47. *)
Definition errReplicas : err := bs "Replicas is less then Replication Config".
(** data/insert.go 40. *)
Definition errReached : err := bs "Replication number reached".
(** node/nodeservice.go 37. *)
Definition errDrain : err := bs "Node is in drain mode".
(** An error of client.Insert, node/datasourceclient.go 66 and 75. *)
Definition errLink : err := bs "rpc error".

(** Data.Insert, data/insert.go 12-22: the local part.  Returns the dataset and
    the error with which Insert returns early, if any. *)
Definition InsertLocal (now : Z) (dt : Data) (datum : option Datum)
  (config : option InsertConfig) : res (Data * option err) :=
  if match dConfig dt with
     | Some c => negb (cNoTarget c) && (cTargetN c <=? dN dt)
     | None => false
     end
  then Ok (dt, Some errOverTarget)
  else
    let dt := if dInitialized dt then dt else InitData dt in
    match InsertBDMap now (dDBMap dt) datum config with
    | Panic => Panic
    | Err e => Ok (dt, Some e)
    | Ok (m, fresh) =>
        let dt := set_map dt m in
        let dt := if (fresh : bool) then set_recent dt (u64 (dRecentInsertCount dt + 1)) else dt in
        Ok (set_dirty dt true, None)
    end.

(** What lines 23-50 leave behind: the world of the sources, the (caller's)
    insert configuration, the returned error.
    data/insert.go 23-50. *)
Record replicate_out (W : Type) := mkRep {
  rW : W; rConfig : option InsertConfig; rErr : option err }.
Arguments mkRep {W}. Arguments rW {W}. Arguments rConfig {W}. Arguments rErr {W}.

(** Data.Insert, data/insert.go 23-50: the replication part, which does not
    write the dataset.  [send] is source.Insert (line 34) acting on the world;
    [items] is the iteration order of the sources.  A nil configuration of the
    dataset panics at line 30.  config.Count++ (line 31) writes through the
    caller's pointer. *)
Definition Replicate {W : Type}
  (send : W -> bytes -> option Datum -> InsertConfig -> W * option err)
  (items : list bytes) (w : W) (dconfig : option DataConfig)
  (datum : option Datum) (config : option InsertConfig) : res (replicate_out W) :=
  let cfg := match config with Some c => c | None => mkInsertConfig 0 0 end in
  match dconfig with
  | None => Panic
  | Some dc =>
      if cEnforceReplicationOnInsert dc && (Count cfg =? 0) then
        let cfg := mkInsertConfig (TTL cfg) (u64 (Count cfg + 1)) in
        let config := match config with Some _ => Some cfg | None => None end in
        let '((w, counter), _) :=
          RunOnRandomSources 5 items (fun '(w, counter) source =>
            let '(w, e) := send w source datum cfg in
            let counter := match e with
                           | None => u32 (counter + 1)
                           | Some _ => counter
                           end in
            ((w, counter),
             if cReplicationOnInsert dc <=? counter then Some errReached else None))
            (w, 1) in
        if counter <? cReplicationOnInsert dc
        then Ok (mkRep w config (Some errReplicas))
        else Ok (mkRep w config None)
      else Ok (mkRep w config None)
  end.

(** What one call of Insert leaves behind.
    data/insert.go 11-51. *)
Record insert_out (W : Type) := mkOut {
  oW : W; oData : Data; oConfig : option InsertConfig; oErr : option err }.
Arguments mkOut {W}. Arguments oW {W}. Arguments oData {W}.
Arguments oConfig {W}. Arguments oErr {W}.

(** Data.Insert, data/insert.go 11-51. *)
Definition Insert {W : Type}
  (send : W -> bytes -> option Datum -> InsertConfig -> W * option err)
  (now : Z) (items : list bytes) (w : W) (dt : Data)
  (datum : option Datum) (config : option InsertConfig) : res (insert_out W) :=
  match InsertLocal now dt datum config with
  | Panic => Panic
  | Err e => Err e
  | Ok (dt', Some e) => Ok (mkOut w dt' config (Some e))
  | Ok (dt', None) =>
      match Replicate send items w (dConfig dt') datum config with
      | Panic => Panic
      | Err e => Err e
      | Ok r => Ok (mkOut (rW r) dt' (rConfig r) (rErr r))
      end
  end.

(** * The cluster

    A node process: whether it runs (a panic in a handler kills it), its drain
    flag (state.Drain) and its instance of one dataset.  Simplification: one
    dataset name; a node that does not know the name yet holds the dataset that
    Dataset.Get (data/dataset.go 65-75) would create on first use. *)
Record node := mkNode { nRunning : bool; nDrain : bool; nData : Data }.

(** What the network does to one remote call: deliver it, lose the request, or
    lose the reply (the call is executed, the caller sees an error, for example
    the 10 s deadline of node/datasourceclient.go 62). *)
Inductive link := Deliver | DropRequest | DropReply.

(** The cluster state: nodes, the number of environment choices made so far, and
    the insert executions made so far (node and forwarding count of the request,
    newest first).
    node/node.go 39-52. *)
Record world := mkWorld {
  wNodes : N -> node; wStep : nat; wExecs : list (N * N); wFuelOut : bool }.

(** The environment: clock readings, iteration orders and link behaviours,
    indexed by the choice number; the node a source id refers to.
    data/newsync.go 28, data/data.go 241, node/datasourceclient.go 61-77. *)
Record env := mkEnv {
  eNow : nat -> Z; eOrder : nat -> list bytes -> list bytes; eLink : nat -> link;
  eResolve : bytes -> option N }.

(** A change of one node (node/nodeservice.go 35-51). *)
Definition set_node (w : world) (i : N) (n : node) : world :=
  mkWorld (fun j => if j =? i then n else wNodes w j) (wStep w) (wExecs w) (wFuelOut w).

(** Bookkeeping of the environment choices (data/data.go 241, node/datasourceclient.go 75). *)
Definition next_step (w : world) : world :=
  mkWorld (wNodes w) (S (wStep w)) (wExecs w) (wFuelOut w).

(** Bookkeeping: node/nodeservice.go 46 was reached. *)
Definition log_exec (w : world) (i : N) (c : N) : world :=
  mkWorld (wNodes w) (wStep w) ((i, c) :: wExecs w) (wFuelOut w).

(** Node.Insert (node/nodeservice.go 35-51) at node i, with every remote call it
    causes: Data.Insert with its local part written to node i before the sources
    are contacted (a source may be node i itself).  A panic kills the node; what
    it had stored is gone with it.  [fuel] bounds the nesting of remote calls. *)
Fixpoint NodeInsert (E : env) (fuel : nat) (w : world) (i : N)
  (datum : option Datum) (config : option InsertConfig) : world * option err :=
  match fuel with
  | O => (mkWorld (wNodes w) (wStep w) (wExecs w) true, Some errLink)
  | S fuel' =>
      let n := wNodes w i in
      if negb (nRunning n) then (w, Some errLink)
      else if nDrain n then (w, Some errDrain)
      else
        let w := log_exec w i (match config with Some c => Count c | None => 0 end) in
        let now := eNow E (wStep w) in
        match InsertLocal now (nData n) datum config with
        | Panic | Err _ => (set_node w i (mkNode false (nDrain n) (nData n)), Some errLink)
        | Ok (dt', Some e) => (set_node w i (mkNode true (nDrain n) dt'), Some e)
        | Ok (dt', None) =>
            let items := eOrder E (wStep w)
                           (match dSources dt' with Some l => l | None => [] end) in
            let w := next_step (set_node w i (mkNode true (nDrain n) dt')) in
            match Replicate
              (fun w src d cfg =>
                 let lk := eLink E (wStep w) in
                 let w := next_step w in
                 match eResolve E src with
                 | None => (w, Some errLink)
                 | Some j =>
                     match lk with
                     | DropRequest => (w, Some errLink)
                     | Deliver => NodeInsert E fuel' w j d (Some cfg)
                     | DropReply => (fst (NodeInsert E fuel' w j d (Some cfg)), Some errLink)
                     end
                 end)
              items w (dConfig dt') datum config
            with
            | Ok r => (rW r, rErr r)
            | Panic | Err _ =>
                (set_node w i (mkNode false (nDrain n) (nData n)), Some errLink)
            end
        end
  end.
