(** Specification vocabulary for the configurations of datasets in a cluster. *)
From Verif.Base Require Import GoBase Assoc Float.
From Verif.Model Require Import Codec Store Data Dataset Json Index DatasetAll ConfigFlow.
From Verif.Spec Require Import RegistrySpec.
Open Scope N_scope.

(** No node has a dataset yet. *)
Definition empty (w : fworld) : Prop := fMail w = [] /\ forall i, fNodes w i = mkDS [] [].

(** Node i has dataset [name], not expired at [now], with configuration c. *)
Definition configured (now : Z) (w : fworld) (i : nat) (name : bytes) (c : DataConfig) : Prop :=
  exists a m, holds now (fNodes w i) name a /\ object (fNodes w i) a c m.

(** A client asked for dataset configuration c somewhere. *)
Definition requested (es : list fev) (c : DataConfig) : Prop := exists i now, In (FCreate i now c) es.

(** The configuration of a dataset nobody configured. *)
Definition unconfigured (c : DataConfig) : Prop :=
  cVersion c = 0 /\ cTargetN c = 1000 /\ cNoTarget c = false /\ cReplicationOnInsert c = 1 /\
  cEnforceReplicationOnInsert c = true /\ cRetention c = 0.

(** When an event happens. *)
Definition fev_time (e : fev) : option Z :=
  match e with
  | FCreate _ t _ | FTell _ t _ | FHear _ _ t => Some t
  | FOwn _ (HSave t _) | FOwn _ (HList t _) | FOwn _ (HReload t _ _) => Some t
  | FOwn _ (HOther e) => event_time e
  end.
Definition before (T : Z) (e : fev) : Prop := forall t, fev_time e = Some t -> (t <= T)%Z.

Section Flow.
  Variables (L : floatlib) (inc : Z -> Z -> Z -> Z) (closed : Data -> Data).
  (** During the execution node i always has dataset [name], not to expire before T. *)
  Fixpoint throughout (T : Z) (i : nat) (name : bytes) (w : fworld) (es : list fev) : Prop :=
    (exists a, holds T (fNodes w i) name a) /\
    match es with
    | [] => True
    | e :: es' =>
        before T e /\
        match fstep L inc closed w e with
        | Some w' => throughout T i name w' es'
        | None => True
        end
    end.
End Flow.

(** Configuration c reaches node i: a client asks for it, or it is in a record. *)
Definition reaches (w : fworld) (e : fev) (i : nat) (c : DataConfig) : Prop :=
  (exists now, e = FCreate i now c) \/ (exists k now, e = FHear i k now /\ nth_error (fMail w) k = Some c).
