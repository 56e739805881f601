(** Specification vocabulary: repeating a call whose answer was lost. *)
From Verif.Base Require Import GoBase Assoc.
From Verif.Model Require Import Codec Store.
From Verif.Spec Require Import StoreSpec.
Open Scope N_scope.

(** No insert and no delete among the calls is about k. *)
Definition leaves (k : DatumKey) (h : list call) : Prop :=
  Forall (fun c => match c with
                   | CInsert _ k' _ _ | CDelete k' => k' <> k
                   | CScan _ _ => True
                   end) h.

(** What a client is shown that lists the dataset at the times [tick]. *)
Definition listed (tick : bytes -> Z) (ord : dbmap -> list (bytes * entry)) (m : dbmap) : list Datum :=
  snd (StreamAll tick (ord m) m).
