(** Merging of results: data/aggregator.go. *)
From Verif.Base Require Import GoBase Assoc Float GoSort.
From Verif.Model Require Import Codec Store Data Vector Search.
Open Scope N_scope.

(** pb.SearchContext (veriservice/veriservice.pb.go 239-246); its data are non-nil. *)
Record SearchContext := mkContext { ctxDatum : list Datum; ctxPrioritize : bool }.

(** The parameters of an aggregator, data/aggregator.go 19-37: the fields of the
    configuration it reads, the context and the score function. *)
Record aggParams := mkAgg {
  aHigher : bool; aLimit : N; aGroupLimit : N; aResultLimit : N;
  aContext : option SearchContext; aScore : list float -> list float -> float }.

(** IsNewScoredBetter, data/aggregator.go 39-54: both branches test old < new. *)
Definition IsNewScoredBetter (higher : bool) (old new : float) : bool :=
  if higher then fgtb new old else fltb old new.

(** BestScore, data/aggregator.go 56-76.  [current = None] is "not set". *)
Fixpoint best_loop (P : aggParams) (fe : list float) (ctx : list Datum) (current : option float)
  : res (option float) :=
  match ctx with
  | [] => Ok current
  | d :: ctx' =>
      fc <- featureOf (Some d) ;;
      let newScore := aScore P fe fc in
      best_loop P fe ctx'
        (match current with
         | None => Some newScore
         | Some c => if IsNewScoredBetter (aHigher P) c newScore then Some newScore else Some c
         end)
  end.
(** data/aggregator.go 56-76. *)
Definition BestScore (P : aggParams) (sd : ScoredDatum) : res float :=
  match aContext P with
  | Some ctx =>
      match ctxDatum ctx with
      | [] => Ok (sScore sd)
      | _ =>
          fe <- featureOf (Some (sDatum sd)) ;;
          c <- best_loop P fe (ctxDatum ctx)
                 (if ctxPrioritize ctx then None else Some (sScore sd)) ;;
          Ok (match c with Some c => c | None => fzero end)
      end
  | None => Ok (sScore sd)
  end.

(** InsertToList, data/aggregator.go 78-101. *)
Definition InsertToList (G : go_sort) (P : aggParams) (l : list ScoredDatum) (sd : ScoredDatum)
  : res (list ScoredDatum) :=
  if u32 (blen l) <? aLimit P then Ok (sort_run G (less_score (aHigher P)) (l ++ [sd]))
  else
    la <- last_elem l ;;
    if IsNewScoredBetter (aHigher P) (sScore la) (sScore sd)
    then Ok (sort_run G (less_score (aHigher P)) (set_last l sd))
    else Ok l.

(** The state of an ungrouped aggregator: List and DeDuplicationMap
    (go-cache with NoExpiration entries: a map).
    Aggregator, data/aggregator.go 19-37. *)
Record aggState := mkAggState { agList : list ScoredDatum; agSeen : amap float }.
(** NewAggrator, data/aggregator.go 28-37. *)
Definition agg_empty : aggState := mkAggState [] [].

(** Aggregator.Insert with Grouped = false, data/aggregator.go 103-104 and 118-136.
    The new score is written into the scored datum itself (line 104). *)
Definition AggInsert (G : go_sort) (P : aggParams) (s : aggState) (sd : ScoredDatum)
  : res aggState :=
  sc <- BestScore P sd ;;
  let sd := mkScored sc (sDatum sd) in
  keyByte <- GetKeyAsBytes (Some (sDatum sd)) ;;
  let add :=
    l <- InsertToList G P (agList s) sd ;;
    Ok (mkAggState l (mstore (agSeen s) (EncodeToString keyByte) (sScore sd))) in
  match mload (agSeen s) (EncodeToString keyByte) with
  | Some previousScore =>
      if IsNewScoredBetter (aHigher P) previousScore (sScore sd) then add else Ok s
  | None => add
  end.

(** The calls of Insert in data/search.go 207-224 and 277-294. *)
Fixpoint AggInsertAll (G : go_sort) (P : aggParams) (s : aggState) (xs : list ScoredDatum)
  : res aggState :=
  match xs with
  | [] => Ok s
  | x :: xs' => s <- AggInsert G P s x ;; AggInsertAll G P s xs'
  end.

(** Aggregator.Result with Grouped = false, data/aggregator.go 148-151:
    int(ResultLimit) wraps to a negative number from 2^63 on, and then
    a.List[:ResultLimit] is out of range. *)
Definition AggResult (P : aggParams) (s : aggState) : res (list ScoredDatum) :=
  if (0 <? aResultLimit P) && (i64_of_u64 (aResultLimit P) <? Z.of_N (blen (agList s)))%Z
  then if aResultLimit P <=? blen (agList s)
       then Ok (firstn (N.to_nat (aResultLimit P)) (agList s))
       else Panic
  else Ok (agList s).

(** Merging a sequence of results: NewAggrator, Insert for each, Result; this is
    the loop of data/search.go 205-227 for the results that were received. *)
Definition Merge (G : go_sort) (P : aggParams) (xs : list ScoredDatum)
  : res (list ScoredDatum) :=
  s <- AggInsertAll G P agg_empty xs ;; AggResult P s.

(** The parameters of the aggregators that AggregatedSearch (data/search.go 205) and
    MultiAggregatedSearch (data/search.go 275) create. *)
Definition aggOf (M : mathlib) (config : SearchConfig) (context : option SearchContext) : aggParams :=
  mkAgg (scHigherIsBetter config) (scLimit config) (scGroupLimit config) (scResultLimit config)
    context (GetVectorComparisonFunction M (scScoreFuncName config)).

(** * Grouped aggregation *)

(** The aggregator of one group, data/aggregator.go 111-114: Limit = GroupLimit, no
    context. *)
Definition groupParams (P : aggParams) : aggParams :=
  mkAgg (aHigher P) (aGroupLimit P) (aGroupLimit P) (aResultLimit P) None (aScore P).

(** Aggregator.Insert with Grouped = true, data/aggregator.go 103-117. *)
Definition GroupInsert (G : go_sort) (P : aggParams) (gs : amap aggState) (sd : ScoredDatum)
  : res (amap aggState) :=
  sc <- BestScore P sd ;;
  let sd := mkScored sc (sDatum sd) in
  match dkey (sDatum sd) with
  | None => Panic
  | Some k =>
      let keyString := EncodeToString (groupLabel k) in
      let s := match mload gs keyString with Some s => s | None => agg_empty end in
      s' <- AggInsert G (groupParams P) s sd ;;
      Ok (mstore gs keyString s')
  end.

(** The calls of Insert in data/search.go 277-294. *)
Fixpoint GroupInsertAll (G : go_sort) (P : aggParams) (gs : amap aggState) (xs : list ScoredDatum)
  : res (amap aggState) :=
  match xs with
  | [] => Ok gs
  | x :: xs' => gs <- GroupInsert G P gs x ;; GroupInsertAll G P gs xs'
  end.

(** The sum of scores, data/aggregator.go 158-161, 167-170. *)
Definition sum_scores (l : list ScoredDatum) : float :=
  fold_left (fun acc sd => f64add acc (sScore sd)) l fzero.

(** Aggregator.One, data/aggregator.go 155-180; None is nil. *)
Definition One (P : aggParams) (s : aggState) : option ScoredDatum :=
  match agList s with
  | [] => None
  | x :: _ =>
      if aHigher P then Some (mkScored (sum_scores (agList s)) (sDatum x))
      else
        let floatLen := f64_of_Z (Z.of_N (blen (agList s))) in
        Some (mkScored (f64div (sum_scores (agList s)) (f64mul floatLen floatLen)) (sDatum x))
  end.

(** Aggregator.Result with Grouped = true, data/aggregator.go 139-146; [order] lists
    the groups in map iteration order.  Inserting a nil result panics. *)
Fixpoint insert_ones (G : go_sort) (P : aggParams) (s : aggState)
  (order : list (bytes * aggState)) : res aggState :=
  match order with
  | [] => Ok s
  | (_, g) :: order' =>
      match One (groupParams P) g with
      | None => Panic
      | Some sd => s <- AggInsert G P s sd ;; insert_ones G P s order'
      end
  end.
(** data/aggregator.go 138-153. *)
Definition GroupResult (G : go_sort) (P : aggParams) (order : list (bytes * aggState))
  : res (list ScoredDatum) :=
  s <- insert_ones G P agg_empty order ;; AggResult P s.

(** A grouped merge of a sequence of results.
    data/search.go 275-297. *)
Definition GroupMerge (G : go_sort) (P : aggParams)
  (ord : amap aggState -> list (bytes * aggState)) (xs : list ScoredDatum)
  : res (list ScoredDatum) :=
  gs <- GroupInsertAll G P [] xs ;; GroupResult G P (ord gs).
