(** The folders of the datasets (data/dataset.go 36, data/data.go 67, 79 and
    121-125). *)
From Verif.Base Require Import GoBase.
Open Scope N_scope.

(** The byte '/'.
    Library function; path.Join is used at data/dataset.go 36 and data/data.go 67, 79. *)
Definition slash : N := 47.

(** The components of a path: the pieces between the slashes.
    Library function; path.Join is used at data/dataset.go 36 and data/data.go 67, 79. *)
Fixpoint split_slash (p : bytes) : list bytes :=
  match p with
  | [] => [[]]
  | b :: p' =>
      match split_slash p' with
      | c :: cs => if b =? slash then [] :: c :: cs else (b :: c) :: cs
      | [] => [[b]]
      end
  end.

(** Library function; path.Join is used at data/dataset.go 36 and data/data.go 67, 79. *)
Definition dot : bytes := [46].
(** Library function; path.Join is used at data/dataset.go 36 and data/data.go 67, 79. *)
Definition dotdot : bytes := [46; 46].

(** The loop of Go's path.Clean, used by path.Join: [st] are the components kept so
    far, the last one first.  Empty components and "." are dropped, ".." drops the
    component before it, except at the root and after another "..".  Go works with
    indices into the string; this works with its components.
    Library function; path.Join is used at data/dataset.go 36 and data/data.go 67, 79. *)
Fixpoint clean_comps (rooted : bool) (st : list bytes) (cs : list bytes) : list bytes :=
  match cs with
  | [] => st
  | c :: cs' =>
      if bytes_eqb c [] || bytes_eqb c dot then clean_comps rooted st cs'
      else if bytes_eqb c dotdot then
        match st with
        | [] => clean_comps rooted (if rooted then [] else [dotdot]) cs'
        | t :: st' =>
            if bytes_eqb t dotdot then clean_comps rooted (dotdot :: st) cs'
            else clean_comps rooted st' cs'
        end
      else clean_comps rooted (c :: st) cs'
  end.

(** Library function; path.Join is used at data/dataset.go 36 and data/data.go 67, 79. *)
Fixpoint join_slash (cs : list bytes) : bytes :=
  match cs with
  | [] => []
  | [c] => c
  | c :: cs' => c ++ slash :: join_slash cs'
  end.

(** Library function; path.Join is used at data/dataset.go 36 and data/data.go 67, 79. *)
Definition is_rooted (p : bytes) : bool :=
  match p with b :: _ => b =? slash | [] => false end.

(** Library function; path.Join is used at data/dataset.go 36 and data/data.go 67, 79. *)
Definition render (rooted : bool) (st : list bytes) : bytes :=
  if rooted then slash :: join_slash (rev st)
  else match st with [] => dot | _ => join_slash (rev st) end.

(** path.Clean.
    Library function; path.Join is used at data/dataset.go 36 and data/data.go 67, 79. *)
Definition Clean (p : bytes) : bytes :=
  render (is_rooted p) (clean_comps (is_rooted p) [] (split_slash p)).

(** path.Join of two elements: empty elements are ignored.
    Library function; path.Join is used at data/dataset.go 36 and data/data.go 67, 79. *)
Definition Join (a b : bytes) : bytes :=
  match a, b with
  | [], [] => []
  | [], _ => Clean b
  | _, [] => Clean a
  | _, _ => Clean (a ++ slash :: b)
  end.

(** dts.DataPath, data/dataset.go 36. *)
Definition DataPath (root : bytes) : bytes := Join root (bs "data").

(** dt.DBPath, data/data.go 67 and 79. *)
Definition DBPath (root name : bytes) : bytes := Join (DataPath root) name.

(** dt.DeletePath, data/data.go 121-125: os.RemoveAll(dt.DBPath) removes [q] if it is
    that path or lies below it.  Paths are compared as cleaned strings; symbolic
    links are left out. *)
Definition removed_by_close (root name q : bytes) : Prop :=
  q = DBPath root name \/ exists t, q = DBPath root name ++ slash :: t.
