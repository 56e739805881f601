(** What merging really returns. *)
From Verif.Base Require Import GoBase Float GoSort.
From Verif.Model Require Import Codec Store Search Aggregator.
From Verif.Spec Require Import TopK.
Open Scope N_scope.

(** A result is news if its score is greater than every score with which its key
    arrived before. *)
Definition news (before : list ScoredDatum) (x : ScoredDatum) : Prop :=
  forall y, In y before -> skey y = skey x -> SFltb (sScore y) (sScore x) = true.

(** The news among the results [xs], in the order of arrival. *)
Inductive news_of : list ScoredDatum -> list ScoredDatum -> Prop :=
| news_nil : news_of [] []
| news_take : forall xs R x, news_of xs R -> news xs x -> news_of (xs ++ [x]) (R ++ [x])
| news_skip : forall xs R x, news_of xs R -> ~ news xs x -> news_of (xs ++ [x]) R.

(** The greatest score of a list. *)
Definition greatest (R : list ScoredDatum) (w : ScoredDatum) : Prop :=
  In w R /\ forall y, In y R -> SFltb (sScore w) (sScore y) = false.

(** The answer of a merge with limit [k] if lower scores are better: everything if at
    most [k] news arrived; otherwise the k-1 best of the first k news, followed by the
    worst of all news (another one than those). *)
Definition lower_answer (k : nat) (R out : list ScoredDatum) : Prop :=
  if (length R <=? k)%nat then topk (beats false) k R out
  else exists kept w rest, out = kept ++ [w] /\ Permutation R (out ++ rest) /\ topk (beats false) (k - 1) (firstn k R) kept /\ greatest R w.

(** No key comes back with a score greater than all it had before. *)
Definition never_greater (xs : list ScoredDatum) : Prop :=
  forall pre x post, xs = pre ++ x :: post -> In (skey x) (map skey pre) ->
    exists y, In y pre /\ skey y = skey x /\ SFltb (sScore y) (sScore x) = false.

(** The scores that a search context offers for a result: its own (unless the context
    has priority) and those against the data of the context. *)
Definition vector (d : Datum) : list float := match dkey d with Some k => vec k | None => [] end.
Definition offered (P : aggParams) (x : ScoredDatum) : list float :=
  match aContext P with
  | Some (mkContext (d :: ctx) prioritize) =>
      (if prioritize then [] else [sScore x]) ++ map (fun d => aScore P (vector (sDatum x)) (vector d)) (d :: ctx)
  | _ => [sScore x]
  end.

(** [ys] are the results [xs] with the greatest scores offered. *)
Definition rescored (P : aggParams) (xs ys : list ScoredDatum) : Prop :=
  Forall2 (fun x y => sDatum y = sDatum x /\ In (sScore y) (offered P x) /\
    forall o, In o (offered P x) -> SFltb (sScore y) o = false) xs ys.

(** The result limit. *)
Definition cut (resultLimit : N) (l : list ScoredDatum) : list ScoredDatum :=
  if resultLimit =? 0 then l else firstn (N.to_nat resultLimit) l.
