(** Local search: data/search.go 26-149 and 346-377. *)
From Verif.Base Require Import GoBase Assoc Float GoSort.
From Verif.Model Require Import Codec Store Data Vector.
Open Scope N_scope.

(** pb.ScoredDatum (veriservice/veriservice.pb.go 538-545).  The datum is non-nil (local
    search always sets it; a reply without datum is not modelled). *)
Record ScoredDatum := mkScored { sScore : float; sDatum : Datum }.

(** pb.SearchConfig (veriservice/veriservice.pb.go 95-114). *)
Record SearchConfig := mkSearchConfig {
  scScoreFuncName : bytes; scHigherIsBetter : bool; scTimestamp : N; scTimeout : N;
  scLimit : N; scCacheDuration : N; scDataName : bytes; scGroupLimit : N;
  scGroupScoreFuncName : bytes; scFilters : list bytes; scResultLimit : N;
  scGroupFilters : list bytes; scUuid : bytes }.

(** DefaultSearchConfig, data/search.go 26-34. *)
Definition DefaultSearchConfig : SearchConfig :=
  mkSearchConfig (bs "VectorDistance") false 0 1000 10 0 [] 0 [] [] 0 [] [].

(** The comparison passed to sort.Slice, data/search.go 74-84 and data/aggregator.go
    89-97. *)
Definition less_score (higher : bool) (a b : ScoredDatum) : bool :=
  if higher then fgtb (sScore a) (sScore b) else fltb (sScore a) (sScore b).

(** The last element, l[len(l)-1]: panics on an empty list.
    data/search.go 69-70, data/aggregator.go 84. *)
Definition last_elem {A} (l : list A) : res A :=
  match rev l with [] => Panic | x :: _ => Ok x end.

(** l[len(l)-1] = x.
    data/search.go 71, data/aggregator.go 85. *)
Definition set_last {A} (l : list A) (x : A) : list A := removelast l ++ [x].

(** Collector.Insert, data/search.go 64-86. *)
Definition CollectorInsert (G : go_sort) (higher : bool) (n : N)
  (l : list ScoredDatum) (sd : ScoredDatum) : res (list ScoredDatum) :=
  if u32 (blen l) <? n then Ok (sort_run G (less_score higher) (l ++ [sd]))
  else
    la <- last_elem l ;;
    if (higher && fgtb (sScore sd) (sScore la)) || (negb higher && fltb (sScore sd) (sScore la))
    then Ok (sort_run G (less_score higher) (set_last l sd))
    else Ok l.

(** A loop that stops at the first filter without a match, data/search.go 91-96,
    101-106.  [exists_] is gjson.Get(label, filter).Exists(). *)
Fixpoint all_exist (exists_ : bytes -> bytes -> bool) (label : bytes) (filters : list bytes) : bool :=
  match filters with
  | [] => true
  | f :: fs => if exists_ label f then all_exist exists_ label fs else false
  end.

(** Collector.PassesFilters, data/search.go 88-109.  A nil key or value is
    dereferenced only if there is a filter for it. *)
Definition PassesFilters (exists_ : bytes -> bytes -> bool) (filters groupFilters : list bytes)
  (d : Datum) : res bool :=
  g <- match groupFilters with
       | [] => Ok true
       | _ => match dkey d with
              | None => Panic
              | Some k => Ok (all_exist exists_ (groupLabel k) groupFilters)
              end
       end ;;
  if (g : bool) then
    match filters with
    | [] => Ok true
    | _ => match dvalue d with
           | None => Panic
           | Some v => Ok (all_exist exists_ (label v) filters)
           end
    end
  else Ok false.

(** The vector of a key: its 32-bit patterns read as float32.
    data/search.go 366. *)
Definition vec (k : DatumKey) : list float := map f32_of_bits (feature k).

(** datum.Key.Feature.
    data/search.go 366. *)
Definition featureOf (d : option Datum) : res (list float) :=
  match d with
  | Some (mkDatum (Some k) _) => Ok (vec k)
  | _ => Panic
  end.

(** The entry function of Search, data/search.go 363-374, on the collector's list. *)
Definition search_entry (G : go_sort) (exists_ : bytes -> bytes -> bool)
  (score : list float -> list float -> float) (config : SearchConfig) (query : option Datum)
  (l : list ScoredDatum) (e : entry) : res (list ScoredDatum) :=
  p <- PassesFilters exists_ (scFilters config) (scGroupFilters config) (edatum e) ;;
  if (p : bool) then
    fe <- featureOf (Some (edatum e)) ;;
    fq <- featureOf query ;;
    CollectorInsert G (scHigherIsBetter config) (scLimit config) l (mkScored (score fe fq) (edatum e))
  else Ok l.

(** Search, data/search.go 347-377, with a fresh collector (c == nil, as in both
    callers).  [score] is the function the configuration names.  Returns the
    store (expired entries are purged while searching) and the collector's
    list. *)
Definition Search (G : go_sort) (exists_ : bytes -> bytes -> bool)
  (score : list float -> list float -> float)
  (tick : bytes -> Z) (order : list (bytes * entry)) (m : dbmap)
  (query : option Datum) (config : SearchConfig) : dbmap * res (list ScoredDatum) :=
  match query with
  | None => (m, Panic)
  | Some _ =>
      let '(m', s, _) :=
        LoopDBMap tick
          (fun s e => (l <- s ;; search_entry G exists_ score config query l e, None))
          order m (Ok []) in
      (m', s)
  end.
