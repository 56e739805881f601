(** The life of an entry of Data.Sources: the go-cache created at data/data.go 88
    (entries live ten minutes, a janitor runs every minute) and AddSource
    (data/data.go 222-233), called for every peer by SyncWithPeers (node/node.go
    258), which runs every minute (node/node.go 297, 323-329).

    Only the id and the expiration time of an entry matter here; times are in
    nanoseconds. *)
From Verif.Base Require Import GoBase Assoc.
Open Scope Z_scope.

(** The entries of Data.Sources with their expiration times, data/data.go 88. *)
Definition src_cache := amap Z.

(** The default expiration of Data.Sources: 10*time.Minute, data/data.go 88. *)
Definition source_life : Z := 600000000000.

(** The interval of Periodic: 60 * time.Second, node/node.go 297. *)
Definition sync_period : Z := 60000000000.

(** go-cache Get and Items (data/data.go 240): an entry is there until its
    expiration time has passed. *)
Definition seen (m : src_cache) (now : Z) (id : bytes) : bool :=
  match mload m id with
  | Some e => now <=? e
  | None => false
  end.

(** AddSource for a client with the given id, data/data.go 222-233: go-cache Add
    reports an error and changes nothing if the id is there. *)
Definition AddSource (now : Z) (m : src_cache) (id : bytes) : src_cache :=
  if seen m now id then m else mstore m id (now + source_life).

(** The janitor of go-cache, started at data/data.go 88: expired entries go. *)
Definition clean (now : Z) (m : src_cache) : src_cache :=
  filter (fun p => now <=? snd p) m.

(** What happens to Data.Sources, data/data.go 88 and 222-233. *)
Inductive sev :=
| SAdd (id : bytes)
| SClean.

(** data/data.go 88 and 222-233. *)
Definition sstep (m : src_cache) (e : Z * sev) : src_cache :=
  match snd e with
  | SAdd id => AddSource (fst e) m id
  | SClean => clean (fst e) m
  end.

(** A history from the creation of the dataset on (data/data.go 88). *)
Definition srun (l : list (Z * sev)) : src_cache := fold_left sstep l [].

(** What a reader of Data.Sources sees at time t (data/data.go 240). *)
Definition seen_at (l : list (Z * sev)) (t : Z) (id : bytes) : bool :=
  seen (srun (filter (fun e => fst e <=? t) l)) t id.
