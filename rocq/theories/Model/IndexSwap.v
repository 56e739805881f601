(** Approximate searches while the index is rebuilt: data/search.go 313-342 and
    data/newsync.go 203-223 with the lock of data/data.go 27-32.

    Steps are single accesses to the fields of the Annoyer and to its lock, in any order
    the scheduler picks (sequentially consistent memory; line 313 of data/search.go
    reads without holding the lock, for which the Go memory model promises less).
    Several runs of Process may be under way (C64, and Data.Close).  An index and the
    list of data made with it get the same number.  The contents: Model/Annoy.v; the
    files: Model/TempFiles.v. *)
From Verif.Base Require Import GoBase.
Open Scope nat_scope.

(** AnnoyIndex and DataIndex ([None]: nil), the lock (a writer has it, number of
    readers), the indexes that were unloaded and those that were deleted, and the next
    number.
    data/data.go 27-32, data/newsync.go 211-212. *)
Record annoy_state := mkAS { sIndex : option nat; sData : option nat; sWriter : bool; sReaders : nat;
  sUnloaded : list nat; sDeleted : list nat; sNext : nat }.

(** A new Data, data/data.go 73-81. *)
Definition annoy_fresh : annoy_state := mkAS None None false 0 [] [] 0.

(** Where a goroutine is.  SearchAnnoy: before the test of AnnoyIndex, of DataIndex and
    of its length (line 313), before RLock (314), before reading DataIndex (317), before
    and in GetNnsByVector (318) with the list it has read and the index that is asked,
    looking the numbers up in the list (321), before RUnlock (337); it fell back to the
    exact search (341), or is done.  Process: the index has not been built, before Lock
    (line 209) with the index built, before the test (210), before Unload (211), Delete (212),
    the assignments (216, 217), Unlock (218), done.  [Crashed]: a nil was dereferenced.
    data/search.go 313-341, data/newsync.go 209-218. *)
Inductive spot :=
| QIndex | QData | QLen | QLock | QTake | QAsk (d : nat) | QIn (d i : nat) | QLook (d i : nat) | QUnlock
| QFallback | QDone
| PBuild | PLock (i : nat) | PTest (i : nat) | PUnload (i : nat) | PDelete (i : nat) | PIndex (i : nat)
| PData (i : nat) | PUnlock | PDone
| Crashed.

(** One step of one goroutine.  The list of data is never empty (data/newsync.go 147), so
    the test of its length succeeds.  A reader waits while a writer has the lock; a
    writer waits while anybody has it.
    data/search.go 313-342, data/newsync.go 203-218. *)
Inductive swap : annoy_state -> spot -> annoy_state -> spot -> Prop :=
(* SearchAnnoy *)
| sw_index : forall s i, sIndex s = Some i -> swap s QIndex s QData
| sw_index_nil : forall s, sIndex s = None -> swap s QIndex s QFallback
| sw_data : forall s d, sData s = Some d -> swap s QData s QLen
| sw_data_nil : forall s, sData s = None -> swap s QData s QFallback
| sw_len : forall s d, sData s = Some d -> swap s QLen s QLock
| sw_len_nil : forall s, sData s = None -> swap s QLen s Crashed
| sw_rlock : forall s, sWriter s = false ->
    swap s QLock (mkAS (sIndex s) (sData s) false (S (sReaders s)) (sUnloaded s) (sDeleted s) (sNext s)) QTake
| sw_take : forall s d, sData s = Some d -> swap s QTake s (QAsk d)
| sw_take_nil : forall s, sData s = None -> swap s QTake s Crashed
| sw_ask : forall s d i, sIndex s = Some i -> swap s (QAsk d) s (QIn d i)
| sw_ask_nil : forall s d, sIndex s = None -> swap s (QAsk d) s Crashed
| sw_in : forall s d i, swap s (QIn d i) s (QLook d i)
| sw_look : forall s d i, swap s (QLook d i) s QUnlock
| sw_runlock : forall s,
    swap s QUnlock (mkAS (sIndex s) (sData s) (sWriter s) (sReaders s - 1) (sUnloaded s) (sDeleted s) (sNext s)) QDone
(* Process *)
| sw_build : forall s,
    swap s PBuild (mkAS (sIndex s) (sData s) (sWriter s) (sReaders s) (sUnloaded s) (sDeleted s) (S (sNext s)))
      (PLock (sNext s))
| sw_nothing : forall s, swap s PBuild s PDone
| sw_lock : forall s i, sWriter s = false -> sReaders s = 0 ->
    swap s (PLock i) (mkAS (sIndex s) (sData s) true 0 (sUnloaded s) (sDeleted s) (sNext s)) (PTest i)
| sw_test : forall s i d, sData s = Some d -> swap s (PTest i) s (PUnload i)
| sw_test_nil : forall s i, sData s = None -> swap s (PTest i) s (PIndex i)
| sw_unload : forall s i o, sIndex s = Some o ->
    swap s (PUnload i) (mkAS (sIndex s) (sData s) (sWriter s) (sReaders s) (o :: sUnloaded s) (sDeleted s) (sNext s)) (PDelete i)
| sw_unload_nil : forall s i, sIndex s = None -> swap s (PUnload i) s Crashed
| sw_delete : forall s i o, sIndex s = Some o ->
    swap s (PDelete i) (mkAS (sIndex s) (sData s) (sWriter s) (sReaders s) (sUnloaded s) (o :: sDeleted s) (sNext s)) (PIndex i)
| sw_set_index : forall s i,
    swap s (PIndex i) (mkAS (Some i) (sData s) (sWriter s) (sReaders s) (sUnloaded s) (sDeleted s) (sNext s)) (PData i)
| sw_set_data : forall s i,
    swap s (PData i) (mkAS (sIndex s) (Some i) (sWriter s) (sReaders s) (sUnloaded s) (sDeleted s) (sNext s)) PUnlock
| sw_unlock : forall s,
    swap s PUnlock (mkAS (sIndex s) (sData s) false (sReaders s) (sUnloaded s) (sDeleted s) (sNext s)) PDone.

(** One step of the dataset: a search or a run of Process begins, or a goroutine moves.
    data/search.go 301, data/newsync.go 93. *)
Inductive swap_step : annoy_state * list spot -> annoy_state * list spot -> Prop :=
| ss_come : forall s ts p, p = QIndex \/ p = PBuild -> swap_step (s, ts) (s, ts ++ [p])
| ss_move : forall s ts1 p ts2 s' p', swap s p s' p' ->
    swap_step (s, ts1 ++ p :: ts2) (s', ts1 ++ p' :: ts2).

(** Any number of steps, data/search.go 301-343, data/newsync.go 93-227. *)
Inductive swap_run : annoy_state * list spot -> annoy_state * list spot -> Prop :=
| sr_here : forall w, swap_run w w
| sr_step : forall w1 w2 w3, swap_run w1 w2 -> swap_step w2 w3 -> swap_run w1 w3.
