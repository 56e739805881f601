(** What an exact answer is: the k best of a collection. *)
From Verif.Base Require Import GoBase Float GoSort.
From Verif.Base Require Import Assoc.
From Verif.Model Require Import Codec Store Search.
From Verif.Spec Require Wire StoreSpec.
Open Scope N_scope.

Section Generic.
Context {A : Type}.
Variable better : A -> A -> bool.

(** [out] are the k best elements of the multiset [input], best first: a
    sub-multiset of min(k, |input|) elements, none of which is beaten by an
    element left out. *)
Definition topk (k : nat) (input out : list A) : Prop :=
  exists rest, Permutation input (out ++ rest) /\
    length out = Nat.min k (length input) /\
    sorted better out /\
    (forall x y, In x out -> In y rest -> better y x = false).

(** The same for data with a key, where several elements may have the same key
    and only one of them is to be returned: [out] has every key at most once, at
    most k elements of [input], best first; an element whose key is missing is
    missing because k others are not worse. *)
Definition distinct_topk {K} (key : A -> K) (k : nat) (input out : list A) : Prop :=
  NoDup (map key out) /\ incl out input /\ sorted better out /\ (length out <= k)%nat /\
  (forall x, In x input -> In (key x) (map key out) \/
     (length out = k /\ forall o, In o out -> better x o = false)).
End Generic.

(** Comparison of scores: a strictly better than b. *)
Definition beats (higher : bool) (a b : ScoredDatum) : bool :=
  if higher then SFltb (sScore b) (sScore a) else SFltb (sScore a) (sScore b).

Definition no_nan (l : list ScoredDatum) : Prop :=
  Forall (fun x => is_nan (sScore x) = false) l.

(** The key of a result. *)
Definition skey (x : ScoredDatum) : option DatumKey := dkey (sDatum x).

(** Every key in the list carries one score. *)
Definition one_score (l : list ScoredDatum) : Prop :=
  forall x y, In x l -> In y l -> skey x = skey y -> sScore x = sScore y.

(** Results with a well-formed key. *)
Definition keyed (x : ScoredDatum) : Prop :=
  exists k, skey x = Some k /\ key_ok k /\ Wire.key_fits k.

(** No key comes back with a numerically greater score than at its first
    arrival. *)
Definition never_better (xs : list ScoredDatum) : Prop :=
  ForallOrdPairs (fun a b => skey a = skey b -> SFltb (sScore a) (sScore b) = false) xs.

(** A datum passes if every filter matches its label and every group filter
    matches its group label. *)
Definition passes (exists_ : bytes -> bytes -> bool) (config : SearchConfig) (d : Datum) : bool :=
  match d with
  | mkDatum (Some k) (Some v) =>
      forallb (exists_ (groupLabel k)) (scGroupFilters config) &&
      forallb (exists_ (label v)) (scFilters config)
  | _ => false
  end.

(** The live data of a store that pass the filters, each with its score; [tick]
    gives the clock at which an entry is looked at. *)
Definition candidates (exists_ : bytes -> bytes -> bool) (score : list float -> list float -> float)
  (config : SearchConfig) (q : DatumKey) (tick : bytes -> Z) (m : dbmap) : list ScoredDatum :=
  flat_map (fun '(b, e) =>
    match edatum e with
    | mkDatum (Some k) v =>
        if ((exprireAt e =? 0) || (tick b <? exprireAt e))%Z && passes exists_ config (mkDatum (Some k) v)
        then [mkScored (score (vec k) (vec q)) (mkDatum (Some k) v)] else []
    | _ => []
    end) m.

(** A well-formed store: each key once, every entry a well-formed datum stored
    under the encoding of its key (what every history of calls produces:
    Proof/SearchP.v, history_store_wf). *)
Definition store_wf (m : dbmap) : Prop :=
  mwf m /\ forall b e, In (b, e) m ->
    exists k v, StoreSpec.kv_ok k v /\ b = Wire.wire_key k /\ edatum e = StoreSpec.kv k v.
