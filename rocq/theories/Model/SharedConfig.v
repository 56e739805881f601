(** The goroutines of one query and the configuration they share:
    data/search.go 160-166 and 254-266.

    MultiAggregatedSearch starts one goroutine per query vector (line 264) and
    passes all of them the same *pb.SearchConfig.  Each goroutine reads the
    timeout, computes its cache key and writes a smaller timeout back (lines
    161-165).  The statements of different goroutines interleave in any way;
    single field reads and writes, and the copy made for the key, are taken to be
    atomic. *)
From Verif.Base Require Import GoBase Assoc Float.
From Verif.Model Require Import Codec Store Data Vector Search Json QueryCache.
Open Scope N_scope.

(** config.Timeout = t, data/search.go 165. *)
Definition with_timeout (c : SearchConfig) (t : N) : SearchConfig :=
  mkSearchConfig (scScoreFuncName c) (scHigherIsBetter c) (scTimestamp c) t
    (scLimit c) (scCacheDuration c) (scDataName c) (scGroupLimit c) (scGroupScoreFuncName c)
    (scFilters c) (scResultLimit c) (scGroupFilters c) (scUuid c).

(** time.Duration(config.Timeout) * time.Millisecond, data/search.go 161 and 255, in
    nanoseconds: the conversion and the product wrap around.  time.After (162, 256)
    fires at once if the duration is not positive. *)
Definition time_limit (t : N) : Z := i64 (i64_of_u64 t * 1000000).

(** Where a goroutine is, data/search.go 161-165. *)
Inductive vgo :=
| VStart (d : Datum)                                     (* before data/search.go 161 *)
| VTimed (d : Datum) (limit : Z)                         (* before 163 *)
| VKeyed (d : Datum) (limit : Z) (key : bytes)           (* before the read in 165 *)
| VRead (d : Datum) (limit : Z) (key : bytes) (t : N)    (* before the write in 165 *)
| VRuns (d : Datum) (limit : Z) (key : bytes).           (* after 165 *)

(** One statement of one goroutine, data/search.go 161-165.  [undef]: the result of
    converting a float that does not fit. *)
Inductive vstep (undef : N) : SearchConfig -> vgo -> SearchConfig -> vgo -> Prop :=
| v_timed : forall c d, vstep undef c (VStart d) c (VTimed d (time_limit (scTimeout c)))
| v_keyed : forall c d l k, GetSearchKey (Some d) c = Ok k ->
    vstep undef c (VTimed d l) c (VKeyed d l k)
| v_read : forall c d l k, vstep undef c (VKeyed d l k) c (VRead d l k (scTimeout c))
| v_write : forall c d l k t,
    vstep undef c (VRead d l k t) (with_timeout c (ShrinkTimeout undef t)) (VRuns d l k).

(** Any interleaving of the goroutines, data/search.go 262-265. *)
Inductive vruns (undef : N) : SearchConfig * list vgo -> SearchConfig * list vgo -> Prop :=
| vr_refl : forall s, vruns undef s s
| vr_step : forall c gs1 g gs2 c' g' s, vstep undef c g c' g' ->
    vruns undef (c', gs1 ++ g' :: gs2) s -> vruns undef (c, gs1 ++ g :: gs2) s.

(** The start of a query for the vectors ds, data/search.go 262-265. *)
Definition query_start (c : SearchConfig) (ds : list Datum) : SearchConfig * list vgo :=
  (c, map VStart ds).

(** The time given to a vector, and its cache key, once they are known.
    data/search.go 161-163. *)
Definition given_time (g : vgo) : option Z :=
  match g with
  | VStart _ => None
  | VTimed _ l | VKeyed _ l _ | VRead _ l _ _ | VRuns _ l _ => Some l
  end.
(** data/search.go 163. *)
Definition cache_key (g : vgo) : option bytes :=
  match g with
  | VStart _ | VTimed _ _ => None
  | VKeyed _ _ k | VRead _ _ k _ | VRuns _ _ k => Some k
  end.
(** The goroutine has passed data/search.go 165. *)
Definition v_done (g : vgo) : bool := match g with VRuns _ _ _ => true | _ => false end.
(** The vector of a goroutine, data/search.go 264. *)
Definition v_datum (g : vgo) : Datum :=
  match g with VStart d | VTimed d _ | VKeyed d _ _ | VRead d _ _ _ | VRuns d _ _ => d end.
