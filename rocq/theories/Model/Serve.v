(** The life of the server process and the files of its folder
    (server/veriserviceserver.go 16-101, node/nodeservice.go 156-172). *)
From Verif.Base Require Import GoBase Assoc Float.
From Verif.Model Require Import Codec Store Data Dataset Json Index Path.
Open Scope N_scope.

(** The files: absolute cleaned paths and their contents.  Folders, symbolic links
    and the working directory are left out.
    server/veriserviceserver.go 57-58. *)
Definition files := amap bytes.

(** [q] starts with [p].
    Used for os.RemoveAll, server/veriserviceserver.go 58. *)
Fixpoint starts_with (p q : bytes) : bool :=
  match p, q with
  | [], _ => true
  | b :: p', c :: q' => (b =? c) && starts_with p' q'
  | _ :: _, [] => false
  end.

(** [q] is the folder [d] or lies in it; the root folder ends in a slash already.
    server/veriserviceserver.go 58. *)
Definition below (d q : bytes) : bool :=
  bytes_eqb q (Clean d) ||
  starts_with (if bytes_eqb (Clean d) [slash] then [slash] else Clean d ++ [slash]) q.

(** os.RemoveAll refuses a path whose last element is ".".
    server/veriserviceserver.go 58. *)
Definition ends_in_dot (d : bytes) : bool :=
  match rev d with
  | [b] => b =? 46
  | b :: c :: _ => (b =? 46) && (c =? slash)
  | [] => false
  end.
(** os.RemoveAll, server/veriserviceserver.go 58; nothing happens for the empty path. *)
Definition RemoveAll (d : bytes) (fs : files) : files :=
  match d with
  | [] => fs
  | _ => if ends_in_dot d then fs else filter (fun p => negb (below d (fst p))) fs
  end.

(** indexPath, data/dataset.go 167 and 210. *)
Definition index_file (d : bytes) : bytes := Join d (bs "index.save").

(** The folder used: the flag --directory, or a new temporary folder if it is
    empty.
    server/veriserviceserver.go 49-56. *)
Definition folder (directory temp : bytes) : bytes :=
  match directory with [] => temp | _ => directory end.

(** What the process is doing: not started, running on a folder with a registry,
    or gone.
    server/veriserviceserver.go 16-101. *)
Inductive phase := Before | Up (d : bytes) (s : dstate) | Gone.

(** What can happen to it.
    server/veriserviceserver.go 79, 94, 96 and 100. *)
Inductive label := Start | Work | Save | ListenReturned | Signal (t : Z) (s : dstate) | Kill.

Section Serve.
  Variable L : floatlib.
  Variable inc : Z -> Z -> Z -> Z.
  Variable closed : Data -> Data.
  Variable directory temp : bytes.

  (** The steps of the process.
      - Start: NewNode opens the index, creating it if it is missing, and loads it
        (data/dataset.go 30-43 and 166-188).  The SaveIndex goroutines running
        meanwhile are in Model/Index.v.
      - Work: anything that changes the registry.
      - Save: SaveIndex (data/dataset.go 209-227), seen at any moment of it.
      - ListenReturned: s.Listen() returns because the port cannot be opened
        (node/nodeservice.go 157-161) or the grpc server stops (167-171); then RunServer
        returns and the deferred os.RemoveAll runs (server/veriserviceserver.go 58).
      - Signal: s.Close() saves the index, then os.Exit (server/veriserviceserver.go 94-96);
        deferred calls do not run.  The folders of the datasets, which Close
        removes, are in Model/Path.v.
      - Kill: the process ends without doing anything.
      server/veriserviceserver.go 16-101. *)
  Inductive serve_step : label -> files * phase -> files * phase -> Prop :=
  | sv_start : forall fs now s,
      let d := folder directory temp in
      LoadIndex L inc now (match mload fs (index_file d) with Some c => c | None => [] end) = Ok s ->
      serve_step Start (fs, Before)
        (match mload fs (index_file d) with Some _ => fs | None => mstore fs (index_file d) [] end, Up d s)
  | sv_work : forall fs d s e s',
      dstep inc closed s e = Ok s' -> serve_step Work (fs, Up d s) (fs, Up d s')
  | sv_save : forall fs d s now names s' text old f,
      Permutation names (ListNames now s) -> SaveIndex L inc now s names = Ok (s', text) ->
      mload fs (index_file d) = Some old -> during_save old text f ->
      serve_step Save (fs, Up d s) (mstore fs (index_file d) f, Up d s')
  | sv_return : forall fs d s,
      serve_step ListenReturned (fs, Up d s) (RemoveAll d fs, Gone)
  | sv_signal : forall fs d s now names s' text,
      Permutation names (ListNames now s) -> SaveIndex L inc now s names = Ok (s', text) ->
      serve_step (Signal now s) (fs, Up d s) (mstore fs (index_file d) text, Gone)
  | sv_kill : forall fs d s, serve_step Kill (fs, Up d s) (fs, Gone).

  (** A life of the process.
      server/veriserviceserver.go 16-101. *)
  Inductive serve_run : list label -> files * phase -> files * phase -> Prop :=
  | sr_here : forall x, serve_run [] x x
  | sr_step : forall l ls x y z, serve_step l x y -> serve_run ls y z -> serve_run (l :: ls) x z.
End Serve.
