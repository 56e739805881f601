(** The status report a node prints every few seconds (node/node.go 339-382). *)
From Verif.Base Require Import GoBase Assoc Float.
From Verif.Model Require Import Codec Store Data Dataset.
Open Scope N_scope.

(** The lines of the report that are about datasets.
    node/node.go 352, 361 and 363. *)
Inductive line :=
| LData (name : bytes) (n : N) (config : option DataConfig)
| LSource (id : bytes) (answer : option (N * N)).

(** One round of the loop over the names, node/node.go 347-367, at time [now] in the
    state [s].  [info id] is version and count in the answer of a source, None if
    it answers nil.  Line 356 reads dt.Sources whether GetNoCreate succeeded or
    not: without a dataset dt is nil, and a dataset that is not initialised yet
    has no Sources (data/data.go 73-95); Items() of a nil cache is a nil
    dereference.  Lines about the node itself are left out; the line of a failed
    lookup (354) is never printed. *)
Definition report_one (info : bytes -> option (N * N)) (now : Z) (s : dstate) (name : bytes)
  : res (list line) :=
  match GetNoCreate now s name with
  | None => Panic
  | Some a =>
      match nth_error (dsObjs s) a with
      | None => Panic
      | Some dt =>
          dinfo <- GetDataInfo dt ;;
          match dSources dt with
          | None => Panic
          | Some ids => Ok (LData name (iN dinfo) (dConfig dt) :: map (fun id => LSource id (info id)) ids)
          end
      end
  end.

(** The loop, node/node.go 347-367.  The names were listed before; meanwhile other
    goroutines change the registry and time goes on, so every name comes with the
    time and the state it is looked up in. *)
Fixpoint report (info : bytes -> option (N * N)) (views : list (bytes * (Z * dstate))) : res (list line) :=
  match views with
  | [] => Ok []
  | (name, (now, s)) :: views' =>
      here <- report_one info now s name ;; rest <- report info views' ;; Ok (here ++ rest)
  end.

(** CreateIfNotExists between its lines 111 and 114, data/dataset.go 107-114: the
    dataset is in the list but InitData has not run. *)
Definition half_created (now : Z) (s : dstate) (config : DataConfig) : dstate :=
  mkDS (dsObjs s ++ [NewPreData config])
    (mstore (dsList s) (cName config)
       (mkDI (length (dsObjs s)) (dl_expiry now (GetRetention (cRetention config))))).
