(** Paths of HTTP requests. *)
From Verif.Base Require Import GoBase.
From Verif.Spec Require Import FolderSpec.
Open Scope N_scope.

(** A piece of a path that names something. *)
Definition names (c : bytes) : Prop := c <> [] /\ c <> [46] /\ c <> [46; 46] /\ ~ In 47 c.

(** /, /a/b/c or /a/b/c/ *)
Definition tidy (p : bytes) : Prop :=
  exists cs, Forall names cs /\
    (spelled ([] :: cs ++ [[]]) p \/ (cs <> [] /\ spelled ([] :: cs) p)).
