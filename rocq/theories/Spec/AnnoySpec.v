(** What the approximate index should hold and answer. *)
From Verif.Base Require Import GoBase Assoc Float GoSort.
From Verif.Model Require Import Codec Store Vector Search Data Sync Annoy.
Open Scope nat_scope.

(** The items below a node, read off the memory of the index the way a query
    reads it: a node with one descendant and an item's number is that item, a
    node with at most K descendants lists them, any other node has two children. *)
Inductive below (ix : aindex) : nat -> list nat -> Prop :=
| below_item : forall i nd, nth_error (xNodes ix) i = Some nd -> aDesc nd = 1 -> i < xItems ix ->
    below ix i [i]
| below_list : forall i nd, nth_error (xNodes ix) i = Some nd ->
    ~ (aDesc nd = 1 /\ i < xItems ix) -> aDesc nd <= leaf_cap (xF ix) ->
    length (aKids nd) = aDesc nd ->
    below ix i (aKids nd)
| below_split : forall i nd a b la lb, nth_error (xNodes ix) i = Some nd ->
    leaf_cap (xF ix) < aDesc nd -> aKids nd = [a; b] ->
    below ix a la -> below ix b lb ->
    below ix i (la ++ lb).

(** The vector of an item. *)
Definition item_vec (ix : aindex) (i : nat) : list float :=
  match nth_error (xNodes ix) i with Some nd => aVec nd | None => [] end.

(** The n nearest of the items 0 .. count-1 by [dist]. *)
Record nearest (dist : nat -> float) (count n : nat) (r : list nat) : Prop := mkNearest {
  nr_distinct : NoDup r;
  nr_items : Forall (fun i => i < count) r;
  nr_length : length r = Nat.min n count;
  nr_sorted : StronglySorted (fun i j => fltb (dist j) (dist i) = false) r;
  nr_best : forall i j, In i r -> j < count -> ~ In j r -> fltb (dist j) (dist i) = false }.

(** The entries that a scan of the store visits: those not expired when their
    turn comes. *)
Definition visited (tick : bytes -> Z) (order : list (bytes * entry)) : list entry :=
  map snd (filter (fun ke => negb (expired (tick (fst ke)) (snd ke))) order).

(** A priority queue: what it hands out is not below any element (as long as the
    priorities are numbers). *)
Definition handout (pick : list (float * nat) -> nat) : Prop :=
  forall q, q <> [] -> Forall (fun x => is_nan (fst x) = false) q -> exists x, nth_error q (pick q) = Some x /\
    forall y, In y q -> pair_less x y = false.

(** The indexes that a dataset can have: none at first; every run of Process scans
    the store and replaces the index if it found anything. *)
Inductive index_of (I : imbalance) : option annoyer -> Prop :=
| index_none : index_of I None
| index_run : forall old alive N0 tick order m s outs new,
    index_of I old -> (N.of_nat (length order) < M64)%N ->
    index_scan alive N0 tick order m = Ok s -> index_swap I old s outs = Done new ->
    index_of I new.

(** [a] was built by a scan that visited [live]; the first [c] of them are in it. *)
Record indexed (a : annoyer) (c : nat) (live : list entry) : Prop := mkIndexed {
  id_cap : 1000 <= c;
  id_some : live <> [];
  id_items : xItems (yIndex a) = length (firstn c live);
  id_data : forall i, nth_error (yFrom a) i =
    match nth_error (firstn c live) i with
    | Some e => Some (Some (edatum e))
    | None => if i <? c then Some None else None
    end;
  id_vecs : forall i e, nth_error (firstn c live) i = Some e ->
    item_vec (yIndex a) i = firstn (xF (yIndex a)) (features (edatum e)) /\
    xF (yIndex a) <= length (features (edatum e)) }.

(** The filters can be evaluated on every datum of a list. *)
Definition filterable (exists_ : bytes -> bytes -> bool) (config : SearchConfig) (l : list entry) : Prop :=
  forall e, In e l -> exists b, PassesFilters exists_ (scFilters config) (scGroupFilters config) (edatum e) = Ok b.
Definition passes (exists_ : bytes -> bytes -> bool) (config : SearchConfig) (e : entry) : bool :=
  match PassesFilters exists_ (scFilters config) (scGroupFilters config) (edatum e) with Ok b => b | _ => false end.
