(** What must hold while a dataset is being created and after it was closed. *)
From Verif.Base Require Import GoBase.

(** Whatever is in the first store is in the second. *)
Definition within {A} (o o' : option (list A)) : Prop :=
  forall l x, o = Some l -> In x l -> exists l', o' = Some l' /\ In x l'.

(** Of the goroutines before, those not doing [P] do not do [P] after. *)
Definition none_begins {A} (P : A -> Prop) (before after : list A) : Prop :=
  forall i x, nth_error after i = Some x -> P x ->
    exists y, nth_error before i = Some y /\ P y.
