(** How the configurations of datasets travel between nodes: every node puts the
    configurations of its datasets into the record of itself (GetNodeInfo,
    node/node.go 163-176), and a node that synchronises with a peer asks its registry
    for the datasets in the record (node/node.go 254-255). *)
From Verif.Base Require Import GoBase Assoc Float.
From Verif.Model Require Import Codec Store Data Dataset Json Index DatasetAll.
Open Scope N_scope.

(** The registries of the nodes, by number, and the configurations in all records ever
    made.  Which record carries which configuration and who receives it is left open:
    a configuration may reach any node, any number of times, or none.
    node/node.go 39-52, 163-176. *)
Record fworld := mkFW { fNodes : nat -> dstate; fMail : list DataConfig }.

(** - [FCreate i now c]: a client calls CreateDataIfNotExists at node i
      (node/nodeservice.go 221-229);
    - [FTell i now names]: node i makes a record of itself (node/node.go 163-176);
      names are the datasets in iteration order;
    - [FHear i k now]: node i handles configuration k of the records (node/node.go
      254-255);
    - [FOwn i e]: anything else at node i: requests that name a dataset
      (node/nodeservice.go 42, 82, 108), deletions, expirations, work on the data and
      housekeeping (data/dataset.go 65-227). *)
Inductive fev :=
| FCreate (i : nat) (now : Z) (c : DataConfig)
| FTell (i : nat) (now : Z) (names : list bytes)
| FHear (i k : nat) (now : Z)
| FOwn (i : nat) (e : hevent).

(** A change of one node (node/node.go 39-52). *)
Definition set_f (w : fworld) (i : nat) (s : dstate) : fworld :=
  mkFW (fun j => if Nat.eqb j i then s else fNodes w j) (fMail w).

(** The configurations that are not nil (data/dataset.go 158-162). *)
Fixpoint somes (l : list (option DataConfig)) : list DataConfig :=
  match l with
  | [] => []
  | Some c :: l' => c :: somes l'
  | None :: l' => somes l'
  end.

(** Whether an event brings a configuration with it (node/nodeservice.go 223,
    node/node.go 255): these are [FCreate] and [FHear] here. *)
Definition own (e : hevent) : bool :=
  match e with HOther (EvCreate _ _) | HOther (EvGetOrCreate _ _) => false | _ => true end.

Section Flow.
  (** As in Model/DatasetAll.v. *)
  Variable L : floatlib.
  Variable inc : Z -> Z -> Z -> Z.
  Variable closed : Data -> Data.

  (** None: not possible, or the node crashes.
      node/nodeservice.go 221-229, node/node.go 163-176, 254-255. *)
  Definition fstep (w : fworld) (e : fev) : option fworld :=
    match e with
    | FCreate i now c =>
        match GetOrCreateIfNotExists inc deep now (fNodes w i) c with
        | Ok (s, _) => Some (set_f w i s)
        | _ => None
        end
    | FTell i now names =>
        match DataConfigList inc now (fNodes w i) names with
        | Ok (s, l) => let w' := set_f w i s in Some (mkFW (fNodes w') (fMail w ++ somes l))
        | _ => None
        end
    | FHear i k now =>
        match nth_error (fMail w) k with
        | Some c =>
            match GetOrCreateIfNotExists inc deep now (fNodes w i) c with
            | Ok (s, _) => Some (set_f w i s)
            | _ => None
            end
        | None => None
        end
    | FOwn i e =>
        if own e then
          match hstep L inc closed (fNodes w i) e with
          | Ok s => Some (set_f w i s)
          | _ => None
          end
        else None
    end.

  (** An execution (node/node.go 163-263 at any nodes in any order). *)
  Fixpoint frun (w : fworld) (es : list fev) : option fworld :=
    match es with
    | [] => Some w
    | e :: es' =>
        match fstep w e with
        | Some w' => frun w' es'
        | None => None
        end
    end.
End Flow.
