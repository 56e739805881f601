(** The temporary files of the approximate index, data/newsync.go 148-149, 169-180,
    203-222, data/data.go 108-118.

    Simplifications: os.Remove (line 220) succeeds; the name of a temporary file is
    a number, and TempFile (line 173) chooses one that is not on the disk.  Several
    runs of Process may overlap. *)
From Verif.Base Require Import GoBase.
Open Scope nat_scope.

(** The temporary directory, the index files of the builds under way (the local
    variable newTempFileName; None: TempFile failed, line 174), the field
    BuildFileName (data/data.go 31; None: empty) and Alive. *)
Record tfiles := mkTF {
  tfDisk : list nat; tfBuilding : list (option nat); tfCurrent : option nat; tfAlive : bool }.

(** A new dataset: data/data.go 61-95. *)
Definition tf_new (disk : list nat) : tfiles := mkTF disk [] None true.

(** os.Remove of a name, data/newsync.go 219-221. *)
Definition tf_remove (f : option nat) (disk : list nat) : list nat :=
  match f with
  | None => disk
  | Some x => filter (fun y => negb (y =? x)) disk
  end.

(** What happens, data/newsync.go:
    - a run meets its first datum while Alive (169-177): a file is made, or not;
    - a build is finished and replaces the index (203-222);
    - the dataset is closed (data/data.go 108-118): DeletePath (121-125) removes
      the folder of the dataset, which does not hold the temporary files. *)
Inductive tf_step : tfiles -> tfiles -> Prop :=
| tf_make disk bs cur x :
    ~ In x disk -> tf_step (mkTF disk bs cur true) (mkTF (x :: disk) (Some x :: bs) cur true)
| tf_fail disk bs cur :
    tf_step (mkTF disk bs cur true) (mkTF disk (None :: bs) cur true)
| tf_swap disk bs1 f bs2 cur al :
    tf_step (mkTF disk (bs1 ++ f :: bs2) cur al) (mkTF (tf_remove cur disk) (bs1 ++ bs2) f al)
| tf_close disk bs cur al :
    tf_step (mkTF disk bs cur al) (mkTF disk bs cur false).

(** Any number of these, data/newsync.go 93-227 again and again. *)
Inductive tf_runs : tfiles -> tfiles -> Prop :=
| tr_here s : tf_runs s s
| tr_step s t u : tf_runs s t -> tf_step t u -> tf_runs s u.
