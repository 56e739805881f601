(** The list of services of a node, node/node.go 46, 61, 64-66, 74-77, 86-90,
    131-138: a go-cache with a default life of five minutes, and how nodes learn
    services from each other (node/node.go 163-175, 247-249).

    Times are in nanoseconds; the expiration time 0 means never. *)
From Verif.Base Require Import GoBase Assoc.
Open Scope Z_scope.

(** Node.ServiceList: services and expiration times, node/node.go 61. *)
Definition services := amap Z.

(** go-cache: an entry is there unless its expiration time has passed; used by
    Items (node/node.go 132, 280) and Add (node/node.go 87). *)
Definition listed (now : Z) (m : services) (s : bytes) : bool :=
  match mload m s with
  | Some e => (e =? 0) || (now <=? e)
  | None => false
  end.

(** AddStaticService, node/node.go 74-77. *)
Definition AddStaticService (m : services) (s : bytes) : services := mstore m s 0.

(** The default expiration of ServiceList, node/node.go 61. *)
Definition service_life : Z := 300000000000.
(** The increment of node/node.go 88: 10*time.Minute. *)
Definition service_increment : Z := 600000000000.

Section WithFork.
  (** IncrementExpiration of the go-cache fork (node/node.go 88), whose source is
      not in the repository: [inc now d old] is the new expiration time. *)
  Variable inc : Z -> Z -> Z -> Z.

  (** AddService, node/node.go 86-90: Add changes nothing if the service is
      there. *)
  Definition AddService (now : Z) (m : services) (s : bytes) : services :=
    let m1 := if listed now m s then m else mstore m s (now + service_life) in
    match mload m1 s with
    | Some e => mstore m1 s (inc now service_increment e)
    | None => m1
    end.

  (** ServiceListKeys, node/node.go 131-138. *)
  Definition ServiceListKeys (now : Z) (m : services) : list bytes :=
    filter (listed now m) (mkeys m).

  (** - [VShare i j t1 t2]: the record that node i makes of itself at t1
        (GetNodeInfo, node/node.go 163-175) is used by node j at t2
        (SyncWithPeers, node/node.go 247-249);
      - [VClean i t]: the janitor of go-cache (node/node.go 61);
      - [VRestart i l]: node i starts with the services l (node/node.go 54-66). *)
  Inductive vev :=
  | VShare (i j : nat) (t1 t2 : Z)
  | VClean (i : nat) (t : Z)
  | VRestart (i : nat) (l : list bytes).

  (** A change of one node (node/node.go 46). *)
  Definition set_services (w : nat -> services) (i : nat) (m : services) : nat -> services :=
    fun j => if Nat.eqb j i then m else w j.

  (** node/node.go 61-66, 163-175, 247-249. *)
  Definition vstep (w : nat -> services) (e : vev) : nat -> services :=
    match e with
    | VShare i j t1 t2 =>
        set_services w j (fold_left (AddService t2) (ServiceListKeys t1 (w i)) (w j))
    | VClean i t => set_services w i (filter (fun p => (snd p =? 0) || (t <=? snd p)) (w i))
    | VRestart i l => set_services w i (fold_left AddStaticService l [])
    end.

  (** node/node.go 61-66, 163-175, 247-249. *)
  Definition vrun (w : nat -> services) (l : list vev) : nat -> services := fold_left vstep l w.
End WithFork.
