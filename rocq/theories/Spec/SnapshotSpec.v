(** Specification vocabulary: does a scan report what was there at one moment? *)
From Verif.Base Require Import GoBase Assoc.
From Verif.Model Require Import Codec Store StoreConc.
From Verif.Spec Require Import Wire StoreSpec StoreConcSpec RenewSpec LinearSpec.
Open Scope N_scope.

(** What was reported is what the dataset held after the effects. *)
Definition snapshot (s0 : cstate) (es : list effect) (ys : list Datum) : Prop :=
  forall k v, key_ok k -> key_fits k -> (In (kv k v) ys <-> there_after s0 es (kv k v)).

(** The states a run goes through, one step after the other. *)
Fixpoint path (s : cstate) (l : list cstate) : Prop :=
  match l with
  | [] => True
  | s' :: l' => (exists lab, cstep s lab s') /\ path s' l'
  end.

(** The call of this goroutine has returned. *)
Definition call_returned (t : option thread) : Prop :=
  match t with Some (TInsDone _ _ _) | Some (TDelDone _) => True | _ => False end.

(** The key on which the goroutine may have acted. *)
Definition may_have_changed (t : option thread) : option DatumKey :=
  match t with
  | Some (TInsDone k _ _) | Some (TInsLoaded k _ _ _) | Some (TDelDone k) => Some k
  | _ => None
  end.
