(** Where a path leads in a file system without symbolic links. *)
From Verif.Base Require Import GoBase.
Open Scope N_scope.

(** [spelled cs p]: p is the pieces cs with a slash (byte 47) between them. *)
Inductive spelled : list bytes -> bytes -> Prop :=
| spell_one c : ~ In 47 c -> spelled [c] c
| spell_more c cs p : ~ In 47 c -> spelled cs p -> spelled (c :: cs) (c ++ 47 :: p).

(** A folder is given by the names on the way to it from the root of the file
    system, the last one first.  One piece of a path leads from folder to folder:
    "" and "." stay, ".." goes up (and stays at the root), a name goes down. *)
Definition goes (pos : list bytes) (c : bytes) : list bytes :=
  if list_eq_dec N.eq_dec c [] then pos
  else if list_eq_dec N.eq_dec c [46] then pos
  else if list_eq_dec N.eq_dec c [46; 46] then tl pos
  else c :: pos.

Definition walk (pos : list bytes) (cs : list bytes) : list bytes := fold_left goes cs pos.

(** The folder (or file) a path leads to for a process whose working folder is cwd. *)
Definition leads (cwd : list bytes) (p : bytes) (pos : list bytes) : Prop :=
  exists cs, spelled cs p /\
    pos = walk (match p with 47 :: _ => [] | _ => cwd end) cs.

(** [inside pos q]: q is pos or lies below it. *)
Definition inside (pos q : list bytes) : Prop := exists below, q = below ++ pos.

(** os.RemoveAll removes everything at the path and below it; it refuses the path
    "." (os/removeall_at.go of the Go library). *)
Definition deletes (cwd : list bytes) (p : bytes) (q : list bytes) : Prop :=
  p <> [46] /\ exists pos, leads cwd p pos /\ inside pos q.

(** The pieces of a path that are names or "..". *)
Definition real_pieces (cs : list bytes) : list bytes :=
  filter (fun c => if list_eq_dec N.eq_dec c [] then false
                   else if list_eq_dec N.eq_dec c [46] then false else true) cs.
