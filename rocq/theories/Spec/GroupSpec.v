(** Vocabulary for grouped search. *)
From Verif.Base Require Import GoBase Float GoSort.
From Verif.Model Require Import Codec Search.
From Verif.Spec Require Import TopK.
Open Scope N_scope.

(** The group label of a result. *)
Definition glabel (x : ScoredDatum) : option bytes := option_map groupLabel (skey x).

Lemma glabel_dec : forall a b : option bytes, {a = b} + {a <> b}.
Proof. decide equality. apply list_eq_dec. apply N.eq_dec. Defined.

(** The results of group g. *)
Definition members (g : bytes) (xs : list ScoredDatum) : list ScoredDatum :=
  filter (fun x => if glabel_dec (glabel x) (Some g) then true else false) xs.

(** The number of groups. *)
Definition groups (xs : list ScoredDatum) : nat := length (nodup glabel_dec (map glabel xs)).

(** The score of a group: the sum of the scores, divided by the square of their
    number if lower is better (in float64 arithmetic, from left to right). *)
Fixpoint plus_all (acc : float) (l : list float) : float :=
  match l with [] => acc | x :: l' => plus_all (SFadd 53 1024 acc x) l' end.
Definition group_score (higher : bool) (scores : list float) : float :=
  let sum := plus_all (S754_zero false) scores in
  if higher then sum
  else let n := f64_of_Z (Z.of_nat (length scores)) in
       SFdiv 53 1024 sum (SFmul 53 1024 n n).

(** One result per group of xs, best first: an element of xs that no other element
    of its group beats. *)
Definition best_of_groups (higher : bool) (xs out : list ScoredDatum) : Prop :=
  NoDup (map glabel out) /\ incl out xs /\ sorted (beats higher) out /\
  (forall x, In x xs -> In (glabel x) (map glabel out)) /\
  (forall o x, In o out -> In x xs -> glabel x = glabel o -> beats higher x o = false).
