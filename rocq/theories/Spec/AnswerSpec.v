(** Specification vocabulary for the answers to queries. *)
From Verif.Base Require Import GoBase Assoc Float GoSort.
From Verif.Model Require Import Codec Store Data Vector Search Aggregator CallTree Annoy Answers.
Open Scope N_scope.

(** The datum has every property that the request asks for. *)
Definition matches (ex : bytes -> bytes -> bool) (c : SearchConfig) (d : Datum) : Prop :=
  (scGroupFilters c = [] \/
   exists k, dkey d = Some k /\ forall f, In f (scGroupFilters c) -> ex (groupLabel k) f = true) /\
  (scFilters c = [] \/
   exists v, dvalue d = Some v /\ forall f, In f (scFilters c) -> ex (label v) f = true).

(** The datum is there and has not expired when the search looks at it. *)
Definition found_in (L : look) (d : Datum) : Prop :=
  exists b e, In (b, e) (lOrder L) /\ expired (lTick L b) e = false /\ edatum e = d.

(** The datum is listed by the index. *)
Definition listed_in (L : look) (d : Datum) : Prop :=
  exists a, lIndex L = Some a /\ In (Some d) (yFrom a).

(** Some node has the datum in a state that was searched. *)
Definition real (looks : nat -> look -> Prop) (c : SearchConfig) (d : Datum) : Prop :=
  exists j L, looks j L /\
    (found_in L d \/ (HasPrefix (scScoreFuncName c) (bs "Annoy") = true /\ listed_in L d)).

(** s is the score of the datum for the vector of k.  (The search of the index
    passes the arguments the other way round.) *)
Definition scores (M : mathlib) (c : SearchConfig) (d : Datum) (k : DatumKey) (s : float) : Prop :=
  exists kd, dkey d = Some kd /\
    let f := GetVectorComparisonFunction M (scScoreFuncName c) in
    s = f (vec kd) (vec k) \/
    (HasPrefix (scScoreFuncName c) (bs "Annoy") = true /\ s = f (vec k) (vec kd)).

(** s is the score of x for one of the queries, or for one of the data of the
    context, and never the former if the context has priority. *)
Definition justified (M : mathlib) (c : SearchConfig) (ctx : option SearchContext) (ds : list Datum)
  (x : ScoredDatum) : Prop :=
  let prior := match ctx with Some t => ctxPrioritize t && negb (match ctxDatum t with [] => true | _ => false end) | None => false end in
  (prior = false /\ exists d k, In d ds /\ dkey d = Some k /\ scores M c (sDatum x) k (sScore x)) \/
  (exists t d k, ctx = Some t /\ In d (ctxDatum t) /\ dkey d = Some k /\ scores M c (sDatum x) k (sScore x)).
