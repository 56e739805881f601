(** Counting the messages of one query. *)
From Verif.Base Require Import GoBase.
From Verif.Model Require Import Flood.

(** [k] requests are handled on the way from one state to another. *)
Inductive handles {D} (undef : N) (sources : N -> list N) : nat -> flood D -> flood D -> Prop :=
| h_none : forall s, handles undef sources 0 s s
| h_one : forall k s s1 s2, handles undef sources k s s1 -> flood_step undef sources s1 s2 ->
    handles undef sources (S k) s s2.

(** All messages of the query so far: those handled and those on the way. *)
Definition sent {D} (k : nat) (s : flood D) : nat := (k + length (fReqs s))%nat.
