(** The approximate index: annoyindex/annoylib.h (angular distance, int32 ids,
    float32 vectors, one thread), annoyindex/kissrandom.h, its construction in
    data/newsync.go and its use in data/search.go.

    Ids are natural numbers: overflow of int32 ids (2^31 nodes) is not modelled.
    The memory of the index is the list of its nodes.  Reading memory outside a
    vector or a node that does not exist is undefined in C++; here it is
    [Panic].  The hyperplanes and the coin flips of a build come from outside
    (an arbitrary list), and so does the choice of the element that the priority
    queue of a query hands out. *)
From Verif.Base Require Import GoBase Assoc Float GoSort.
From Verif.Model Require Import Codec Store Vector Search Data Sync.
Open Scope nat_scope.

(** * Random numbers *)

(** Kiss64Random, annoyindex/kissrandom.h 68-72. *)
Record kiss64 := mkKiss { kX : N; kY : N; kZ : N; kC : N }.

(** kiss, annoyindex/kissrandom.h 87-103. *)
Definition kiss (s : kiss64) : N * kiss64 :=
  let z := u64 (6906969069 * kZ s + 1234567) in
  let y := N.lxor (kY s) (u64 (N.shiftl (kY s) 13)) in
  let y := N.lxor y (N.shiftr y 17) in
  let y := N.lxor y (u64 (N.shiftl y 43)) in
  let t := u64 (u64 (N.shiftl (kX s) 58) + kC s) in
  let c := N.shiftr (kX s) 6 in
  let x := u64 (kX s + t) in
  let c := u64 (c + (if (x <? t)%N then 1 else 0)) in
  (u64 (u64 (x + y) + z), mkKiss x y z c).

(** flip, annoyindex/kissrandom.h 104-107. *)
Definition kiss_flip (s : kiss64) : N * kiss64 :=
  let '(r, s') := kiss s in (N.land r 1, s').

(** index, annoyindex/kissrandom.h 108-111; n = 0 is a division by zero. *)
Definition kiss_index (n : N) (s : kiss64) : res (N * kiss64) :=
  if (n =? 0)%N then Panic
  else let '(r, s') := kiss s in Ok ((r mod n)%N, s').

(** The two starting points of two_means, annoyindex/annoylib.h 376-380. *)
Definition two_points (count : N) (s : kiss64) : res (N * N * kiss64) :=
  '(i, s1) <- kiss_index count s ;;
  '(j, s2) <- kiss_index (u64 (count + M64 - 1)) s1 ;;
  Ok (i, u64 (j + (if (i <=? j)%N then 1 else 0))%N, s2).

(** * The nodes *)

(** Angular::Node, annoyindex/annoylib.h 441-462: n_descendants, children (or the list that
    takes the place of children and vector), v.  The norm of an item is
    recomputed where it is used. *)
Record anode := mkANode { aDesc : nat; aKids : list nat; aVec : list float }.

(** _K for the angular node, annoyindex/annoylib.h 889-892: the node has 12 + 4f bytes, 4 of
    them before children. *)
Definition leaf_cap (f : nat) : nat := f + 2.

(** dot, annoyindex/annoylib.h 172-181 (the variants for vector instructions add in another
    order). *)
Fixpoint dot_loop (s : float) (x y : list float) : float :=
  match x, y with
  | a :: x', b :: y' => dot_loop (f32add s (f32mul a b)) x' y'
  | _, _ => s
  end.
(** annoyindex/annoylib.h 172-181. *)
Definition dot (x y : list float) : float := dot_loop fzero x y.

(** Angular::distance, annoyindex/annoylib.h 465-475.  pp and qq are the norms; a norm of
    zero is recomputed to the same value. *)
Definition adist (x y : list float) : float :=
  let pp := dot x x in
  let qq := dot y y in
  let pq := dot x y in
  let ppqq := f32mul pp qq in
  if fgtb ppqq fzero
  then f32_of_f64 (f64sub (f64_of_Z 2)
         (f64div (f64mul (f64_of_Z 2) (f64_of_f32 pq)) (f64_of_f32 (f32sqrt ppqq))))
  else f32_of_Z 2.

(** pq_distance, annoyindex/annoylib.h 505-509; std::min(a, b) is b < a ? b : a. *)
Definition pq_distance (d m : float) (child : bool) : float :=
  let m := if child then m else SFopp m in
  if fltb m d then m else d.

(** * Building *)

(** add_item_impl, annoyindex/annoylib.h 907-931: the vector behind w has f elements.
    _allocate_size (1217-1229) fills new memory with zeros. *)
Definition AddItem (f : nat) (nodes : list anode) (i : nat) (w : list float) : res (list anode) :=
  if length w <? f then Panic
  else
    let n := mkANode 1 [] (firstn f w) in
    match list_set nodes i n with
    | Some nodes' => Ok nodes'
    | None => Ok (nodes ++ repeat (mkANode 0 [] []) (i - length nodes) ++ [n])
    end.

(** _split_imbalance, annoyindex/annoylib.h 1235-1240, through the two tests made of it: less
    than 0.95 (line 1300) and greater than 0.99 (line 1306).  All that matters of
    the floating-point computation is that a split with an empty side is greater
    than 0.99. *)
Record imbalance := mkImb {
  im_good : nat -> nat -> bool;
  im_bad : nat -> nat -> bool;
  im_left : forall n, 0 < n -> im_bad 0 n = true;
  im_right : forall n, 0 < n -> im_bad n 0 = true }.

(** The tests in exact arithmetic: max(f, 1 - f) against p percent, for
    f = l / (l + r + 10^-9).
    annoyindex/annoylib.h 1235-1240. *)
Definition exact_cmp (p l r : N) : comparison :=
  let t := ((l + r) * 1000000000 + 1)%N in
  ((100 * N.max (l * 1000000000) (t - l * 1000000000)) ?= (p * t))%N.

(** A build: finished, out of random outcomes, or out of fuel.
    The result of build, annoyindex/annoylib.h 954-992. *)
Inductive run (A : Type) :=
| Done (a : A)
| Starved
| Stuck.
Arguments Done {A} a.
Arguments Starved {A}.
Arguments Stuck {A}.

(** annoyindex/annoylib.h 1287-1298.  What one attempt to split gives: the side of each item (line 1293; true is
    side 1) and the vector of the hyperplane. *)
Definition outcome : Type := ((nat -> bool) * list float)%type.
(** annoyindex/annoylib.h 1289-1298 and 1318-1322. *)
Definition sides (s : nat -> bool) (ids : list nat) : list nat * list nat :=
  (filter (fun j => negb (s j)) ids, filter s ids).

(** The attempts, annoyindex/annoylib.h 1284-1302. *)
Fixpoint attempts (I : imbalance) (k : nat) (ids : list nat) (outs : list outcome)
  (cur : list nat * list nat * list float) : run (list nat * list nat * list float * list outcome) :=
  match k with
  | O => Done (cur, outs)
  | S k' =>
      match outs with
      | [] => Starved
      | (s, v) :: outs' =>
          let '(l, r) := sides s ids in
          if im_good I (length l) (length r) then Done ((l, r, v), outs')
          else attempts I k' ids outs' (l, r, v)
      end
  end.

(** The last resort, annoyindex/annoylib.h 1306-1323. *)
Fixpoint randomize (I : imbalance) (f : nat) (ids : list nat) (outs : list outcome)
  (cur : list nat * list nat * list float) : run (list nat * list nat * list float * list outcome) :=
  let '(l, r, v) := cur in
  if im_bad I (length l) (length r) then
    match outs with
    | [] => Starved
    | (s, _) :: outs' => randomize I f ids outs' (sides s ids, repeat fzero f)
    end
  else Done (cur, outs).

(** _make_tree, annoyindex/annoylib.h 1242-1343.  n: _n_items.  [fuel] bounds the depth. *)
Fixpoint make_tree (I : imbalance) (f n : nat) (fuel : nat) (root : bool) (ids : list nat)
  (nodes : list anode) (outs : list outcome) : run (nat * list anode * list outcome) :=
  match fuel with
  | O => Stuck
  | S fuel' =>
      let desc := if root then n else length ids in
      match ids, root with
      | [i], false => Done (i, nodes, outs)
      | _, _ =>
          if (length ids <=? leaf_cap f) && (negb root || (n <=? leaf_cap f) || (length ids =? 1))
          then Done (length nodes, nodes ++ [mkANode desc ids []], outs)
          else
            match attempts I 3 ids outs ([], [], []) with
            | Done (cur, outs) =>
                match randomize I f ids outs cur with
                | Done (l, r, v, outs) =>
                    let '(first, second) := if length r <? length l then (r, l) else (l, r) in
                    match make_tree I f n fuel' false first nodes outs with
                    | Done (c1, nodes, outs) =>
                        match make_tree I f n fuel' false second nodes outs with
                        | Done (c2, nodes, outs) =>
                            let kids := if length r <? length l then [c2; c1] else [c1; c2] in
                            Done (length nodes, nodes ++ [mkANode desc kids v], outs)
                        | Starved => Starved
                        | Stuck => Stuck
                        end
                    | Starved => Starved
                    | Stuck => Stuck
                    end
                | Starved => Starved
                | Stuck => Stuck
                end
            | Starved => Starved
            | Stuck => Stuck
            end
      end
  end.

(** The ids that a tree is built over, annoyindex/annoylib.h 1179-1186. *)
Definition present (n : nat) (nodes : list anode) : list nat :=
  filter (fun i => match nth_error nodes i with Some d => 1 <=? aDesc d | None => false end) (seq 0 n).

(** thread_build with q = -1, annoyindex/annoylib.h 1158-1194. *)
Fixpoint thread_build (I : imbalance) (f n : nat) (fuel : nat) (nodes : list anode) (roots : list nat)
  (outs : list outcome) : run (list anode * list nat) :=
  if 2 * n <=? length nodes then Done (nodes, roots)
  else
    match fuel with
    | O => Stuck
    | S fuel' =>
        let ids := present n nodes in
        match make_tree I f n (S (length ids)) true ids nodes outs with
        | Done (r, nodes, outs) => thread_build I f n fuel' nodes (roots ++ [r]) outs
        | Starved => Starved
        | Stuck => Stuck
        end
    end.

(** A built index: f, _n_items, _nodes, _roots.
    The members used by a query, annoyindex/annoylib.h 871-885. *)
Record aindex := mkAIndex { xF : nat; xItems : nat; xNodes : list anode; xRoots : list nat }.

(** build(-1), annoyindex/annoylib.h 954-992 (neither loaded nor built; the copies of the
    roots at the end, 971-976, serve a later load).  The result of resizing the
    file is not modelled. *)
Definition Build (I : imbalance) (f : nat) (nodes : list anode) (outs : list outcome) : run aindex :=
  let n := length nodes in
  match thread_build I f n n nodes [] outs with
  | Done (nodes, roots) =>
      Done (mkAIndex f n
              (nodes ++ map (fun r => nth r nodes (mkANode 0 [] [])) roots) roots)
  | Starved => Starved
  | Stuck => Stuck
  end.

(** * Querying *)

(** Conversion to int (annoyindex/annoygomodule_wrap.cxx 982-983) and to size_t. *)
Definition i32 (z : Z) : Z :=
  let m := (z mod 4294967296)%Z in if (m <? 2147483648)%Z then m else (m - 4294967296)%Z.
(** The cast of annoyindex/annoylib.h 1362. *)
Definition size_t (z : Z) : N := Z.to_N (z mod 18446744073709551616).

(** The budget, annoyindex/annoylib.h 1353-1355 and the cast of 1362. *)
Definition budget (search_k : Z) (n roots : nat) : N :=
  let k := i32 search_k in
  size_t (if (k =? -1)%Z then i32 (Z.of_nat n * Z.of_nat roots) else k).

(** Taking element number k of the queue.
    q.top() and q.pop(), annoyindex/annoylib.h 1363-1367. *)
Fixpoint take_at {A} (k : nat) (l : list A) {struct l} : option (A * list A) :=
  match l with
  | [] => None
  | x :: l' =>
      match k with
      | O => Some (x, l')
      | S k' => match take_at k' l' with
                | Some (y, l'') => Some (y, x :: l'')
                | None => Some (x, l')
                end
      end
  end.

(** The loop of _get_all_nns, annoyindex/annoylib.h 1361-1378.  [pick] chooses the element
    that the priority queue hands out.  A list of descendants that is not as long
    as n_descendants says would be read beyond what was written. *)
Fixpoint nns_loop (ix : aindex) (v : list float) (k : N)
  (pick : list (float * nat) -> nat) (fuel : nat) (q : list (float * nat)) (nns : list nat)
  : res (list nat) :=
  if (N.of_nat (length nns) <? k)%N then
    match take_at (pick q) q with
    | None => Ok nns
    | Some ((d, i), q') =>
        match fuel with
        | O => Panic
        | S fuel' =>
            match nth_error (xNodes ix) i with
            | None => Panic
            | Some nd =>
                if (aDesc nd =? 1) && (i <? xItems ix) then
                  nns_loop ix v k pick fuel' q' (nns ++ [i])
                else if aDesc nd <=? leaf_cap (xF ix) then
                  if length (aKids nd) =? aDesc nd then
                    nns_loop ix v k pick fuel' q' (nns ++ aKids nd)
                  else Panic
                else
                  match aKids nd with
                  | [c0; c1] =>
                      let m := dot (aVec nd) v in
                      nns_loop ix v k pick fuel'
                        (q' ++ [(pq_distance d m true, c1); (pq_distance d m false, c0)]) nns
                  | _ => Panic
                  end
            end
        end
    end
  else Ok nns.

(** Skipping repeated ids and computing distances, annoyindex/annoylib.h 1384-1392. *)
Fixpoint dists (ix : aindex) (v : list float) (last : option nat) (nns : list nat)
  : res (list (float * nat)) :=
  match nns with
  | [] => Ok []
  | j :: nns' =>
      if (match last with Some i => j =? i | None => false end) then dists ix v last nns'
      else
        match nth_error (xNodes ix) j with
        | None => Panic
        | Some nd =>
            r <- dists ix v (Some j) nns' ;;
            if aDesc nd =? 1 then Ok ((adist v (aVec nd), j) :: r) else Ok r
        end
  end.

(** operator< of std::pair.
    Used by std::partial_sort, annoyindex/annoylib.h 1396. *)
Definition pair_less (a b : float * nat) : bool :=
  fltb (fst a) (fst b) || (negb (fltb (fst b) (fst a)) && (snd a <? snd b)).

(** _get_all_nns, annoyindex/annoylib.h 1345-1402.  std::sort and std::partial_sort: the
    contract of Base/GoSort.v (partial_sort by sorting everything and taking the
    first p).  The query vector has f elements behind it or is read out of
    bounds. *)
Definition GetNns (G : go_sort) (ix : aindex) (pick : list (float * nat) -> nat) (fuel : nat)
  (w : list float) (n : nat) (search_k : Z) : res (list nat) :=
  if length w <? xF ix then Panic
  else
    let v := firstn (xF ix) w in
    nns <- nns_loop ix v (budget search_k n (length (xRoots ix))) pick fuel
             (map (fun r => (S754_infinity false, r)) (xRoots ix)) [] ;;
    ds <- dists ix v None (sort_run G Nat.ltb nns) ;;
    Ok (map snd (firstn n (sort_run G pair_less ds))).

(** Fuel for the loop: every node can be reached once from each root.
    The loop of annoyindex/annoylib.h 1362-1378. *)
Definition nns_fuel (ix : aindex) : nat := length (xNodes ix) * length (xRoots ix).

(** * The index of a dataset *)

(** The part of the entry function of Process that fills the index, data/newsync.go
    152, 168-182: n, the dimension and the items (if there is an index), the data
    index.  Alive is read once.  Failing to make the temporary file only moves
    the index to memory. *)
Record istate := mkIstate {
  iN : N; iDim : option nat; iNodes : list anode; iData : list (option Datum) }.
(** data/newsync.go 152, 168-182. *)
Definition index_entry (alive : bool) (s : istate) (e : entry) : res istate :=
  let n := u64 (iN s + 1) in
  fe <- featureOf (Some (edatum e)) ;;
  let i := N.to_nat (n - 1) in
  if alive && (i <? length (iData s)) then
    let f := match iDim s with Some f => f | None => length fe end in
    nodes <- AddItem f (iNodes s) i fe ;;
    match list_set (iData s) i (Some (edatum e)) with
    | Some data => Ok (mkIstate n (Some f) nodes data)
    | None => Panic
    end
  else Ok (mkIstate n (iDim s) (iNodes s) (iData s)).

(** The scan of Process as far as the index is concerned, data/newsync.go 147-194:
    newDataIndex has max(1000, N) elements. *)
Definition index_scan (alive : bool) (N0 : N) (tick : bytes -> Z) (order : list (bytes * entry))
  (m : dbmap) : res istate :=
  let '(_, s, _) :=
    LoopDBMap tick (fun s e => (r <- s ;; index_entry alive r e, None)) order m
      (Ok (mkIstate 0 None [] (repeat None (N.to_nat (N.max 1000 N0))))) in
  s.

(** Annoyer, data/data.go 27-32: the index and the data index. *)
Record annoyer := mkAnnoyer { yIndex : aindex; yFrom : list (option Datum) }.

(** data/newsync.go 203-222: the index is replaced if there was anything to index. *)
Definition index_swap (I : imbalance) (old : option annoyer) (s : istate) (outs : list outcome)
  : run (option annoyer) :=
  match iDim s with
  | None => Done old
  | Some f =>
      match Build I f (iNodes s) outs with
      | Done ix => Done (Some (mkAnnoyer ix (iData s)))
      | Starved => Starved
      | Stuck => Stuck
      end
  end.

(** * SearchAnnoy *)

(** The loop over the result, data/search.go 321-335. *)
Fixpoint annoy_collect (exists_ : bytes -> bytes -> bool) (score : list float -> list float -> float)
  (config : SearchConfig) (fq : list float) (index : list (option Datum)) (result : list nat)
  (counter : N) : res (list ScoredDatum) :=
  match result with
  | [] => Ok []
  | i :: result' =>
      match nth_error index i with
      | None => Panic
      | Some None => annoy_collect exists_ score config fq index result' counter
      | Some (Some d) =>
          p <- PassesFilters exists_ (scFilters config) (scGroupFilters config) d ;;
          if (p : bool) then
            fe <- featureOf (Some d) ;;
            let counter := u32 (counter + 1) in
            rest <- (if (scLimit config <=? counter)%N then Ok []
                     else annoy_collect exists_ score config fq index result' counter) ;;
            Ok (mkScored (score fq fe) d :: rest)
          else annoy_collect exists_ score config fq index result' counter
      end
  end.

(** SearchAnnoy, data/search.go 301-344: the store and the list of the collector. *)
Definition SearchAnnoy (G : go_sort) (exists_ : bytes -> bytes -> bool)
  (score : list float -> list float -> float)
  (tick : bytes -> Z) (order : list (bytes * entry)) (m : dbmap) (an : option annoyer)
  (pick : list (float * nat) -> nat)
  (query : option Datum) (config : SearchConfig) : dbmap * res (list ScoredDatum) :=
  match an with
  | Some a =>
      if 0 <? length (yFrom a) then
        (m, fq <- featureOf query ;;
            ids <- GetNns G (yIndex a) pick (nns_fuel (yIndex a)) fq (length (yFrom a))
                     (Z.of_N (scLimit config)) ;;
            annoy_collect exists_ score config fq (yFrom a) ids 0)
      else Search G exists_ score tick order m query config
  | None => Search G exists_ score tick order m query config
  end.
