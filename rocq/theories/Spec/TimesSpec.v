(** Specification vocabulary: the time left to the vectors of a query. *)
From Verif.Base Require Import GoBase Assoc Float.
From Verif.Model Require Import Codec Store Data Vector Search Json QueryCache SharedConfig.
From Verif.Spec Require Import Wire StoreSpec.
Open Scope N_scope.

(** Nine tenths, rounded down, j times. *)
Fixpoint shortened (j : nat) (t : N) : N :=
  match j with O => t | S j' => 9 * shortened j' t / 10 end.

(** A vector that can be searched for. *)
Definition searchable (d : Datum) : Prop := exists k, dkey d = Some k /\ key_ok k /\ key_fits k.

(** In some execution of the query, goroutine i gets to the state g. *)
Definition gets (undef : N) (c : SearchConfig) (ds : list Datum) (i : nat) (g : vgo) : Prop :=
  exists s, vruns undef (query_start c ds) s /\ nth_error (snd s) i = Some g.

(** The request has been read by all of its goroutines. *)
Definition all_done (s : SearchConfig * list vgo) : Prop := Forall (fun g => v_done g = true) (snd s).
