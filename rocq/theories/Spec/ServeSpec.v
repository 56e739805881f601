(** Which files belong to a folder. *)
From Verif.Base Require Import GoBase.

(** The file [q] is [d] itself or lies somewhere in the folder [d]; both are absolute
    paths without superfluous elements.  Everything lies in the root folder. *)
Definition in_folder (d q : bytes) : Prop :=
  q = d \/ (exists r, q = d ++ bs "/" ++ r) \/ (d = bs "/" /\ exists r, q = bs "/" ++ r).

(** The last element of the path is a dot. *)
Definition last_dot (d : bytes) : Prop := d = bs "." \/ exists r, d = r ++ bs "/.".
