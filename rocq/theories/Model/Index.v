(** The index file of the datasets: SaveIndex and LoadIndex, data/dataset.go
    166-188 and 209-227. *)
From Verif.Base Require Import GoBase Assoc Float.
From Verif.Model Require Import Codec Store Data Dataset Json.
From Coq Require Import Permutation.
Open Scope N_scope.

(** strconv.AppendFloat and strconv.ParseFloat as encoding/json uses them.
    Used at data/dataset.go 179 and 220. *)
Record floatlib := mkFloatlib { fmt : float -> bytes; scan : bytes -> option float }.

(** A float64 field with the option omitempty: left out if it equals 0.
    veriservice/veriservice.pb.go 1011. *)
Definition f_float (L : floatlib) (name : bytes) (x : float) : list (bytes * json) :=
  match x with S754_zero _ => [] | _ => [(name, JNum (fmt L x))] end.

(** The JSON object of a DataConfig: the exported fields with their json tags,
    veriservice/veriservice.pb.go 1008-1015. *)
Definition config_json (L : floatlib) (c : DataConfig) : json :=
  JObj (f_str (bs "name") (cName c) ++
        f_uint (bs "version") (cVersion c) ++
        f_uint (bs "targetN") (cTargetN c) ++
        f_float L (bs "targetUtilization") (cTargetUtilization c) ++
        f_bool (bs "noTarget") (cNoTarget c) ++
        f_uint (bs "replicationOnInsert") (cReplicationOnInsert c) ++
        f_bool (bs "enforceReplicationOnInsert") (cEnforceReplicationOnInsert c) ++
        f_uint (bs "retention") (cRetention c)).

(** json.Marshal(config), data/dataset.go 220: NaN and infinities are an error, which is
    ignored; the text is then empty. *)
Definition MarshalConfig (L : floatlib) (c : DataConfig) : bytes :=
  match cTargetUtilization c with
  | S754_nan | S754_infinity _ => []
  | _ => print (config_json L c)
  end.

(** One member of the object read by json.Unmarshal into a DataConfig,
    data/dataset.go 179: null leaves the field alone, another type is an error, unknown
    names are ignored.  Names match ignoring case. *)
Definition set_str (v : json) (old : bytes) : option bytes :=
  match v with JNull => Some old | JStr s => Some s | _ => None end.
(** data/dataset.go 179. *)
Definition set_uint (max : N) (v : json) (old : N) : option N :=
  match v with JNull => Some old | JNum t => parse_uint max t | _ => None end.
(** data/dataset.go 179. *)
Definition set_bool (v : json) (old : bool) : option bool :=
  match v with JNull => Some old | JBool b => Some b | _ => None end.
(** data/dataset.go 179. *)
Definition set_float (L : floatlib) (v : json) (old : float) : option float :=
  match v with JNull => Some old | JNum t => scan L t | _ => None end.

(** The field with this name, data/dataset.go 179 and veriservice/veriservice.pb.go 1008-1015. *)
Definition decode_member (L : floatlib) (c : DataConfig) (m : bytes * json) : option DataConfig :=
  let '(k, v) := m in
  let '(mkDataConfig n ve tn tu nt ro en re) := c in
  if same_name k (bs "name") then
    option_map (fun x => mkDataConfig x ve tn tu nt ro en re) (set_str v n)
  else if same_name k (bs "version") then
    option_map (fun x => mkDataConfig n x tn tu nt ro en re) (set_uint (M64 - 1) v ve)
  else if same_name k (bs "targetN") then
    option_map (fun x => mkDataConfig n ve x tu nt ro en re) (set_uint (M64 - 1) v tn)
  else if same_name k (bs "targetUtilization") then
    option_map (fun x => mkDataConfig n ve tn x nt ro en re) (set_float L v tu)
  else if same_name k (bs "noTarget") then
    option_map (fun x => mkDataConfig n ve tn tu x ro en re) (set_bool v nt)
  else if same_name k (bs "replicationOnInsert") then
    option_map (fun x => mkDataConfig n ve tn tu nt x en re) (set_uint (M32 - 1) v ro)
  else if same_name k (bs "enforceReplicationOnInsert") then
    option_map (fun x => mkDataConfig n ve tn tu nt ro x re) (set_bool v en)
  else if same_name k (bs "retention") then
    option_map (fun x => mkDataConfig n ve tn tu nt ro en x) (set_uint (M64 - 1) v re)
  else Some c.

(** All members in order, data/dataset.go 179. *)
Fixpoint decode_members (L : floatlib) (c : DataConfig) (l : list (bytes * json)) : option DataConfig :=
  match l with
  | [] => Some c
  | m :: l' =>
      match decode_member L c m with
      | Some c' => decode_members L c' l'
      | None => None
      end
  end.

(** var config pb.DataConfig.
    data/dataset.go 178. *)
Definition zero_config : DataConfig := mkDataConfig [] 0 0 (S754_zero false) false 0 false 0.

(** json.Unmarshal([]byte(line), &config), data/dataset.go 178-179; None is an error. *)
Definition UnmarshalConfig (L : floatlib) (line : bytes) : option DataConfig :=
  match parse line with
  | Some (JObj l) => decode_members L zero_config l
  | Some JNull => Some zero_config
  | _ => None
  end.

(** The byte '\n'.
    data/dataset.go 174 and 221. *)
Definition newline : N := 10.

(** reader.ReadString('\n') until it returns an error, data/dataset.go 173-177: the
    lines with their newline; text after the last newline is dropped.  [acc] is the
    line read so far, reversed. *)
Fixpoint read_lines (acc : bytes) (s : bytes) : list bytes :=
  match s with
  | [] => []
  | b :: s' =>
      if b =? newline then rev (b :: acc) :: read_lines [] s' else read_lines (b :: acc) s'
  end.

Section Index.
  Variable L : floatlib.
  Variable inc : Z -> Z -> Z -> Z.

  (** The loop of LoadIndex, data/dataset.go 174-185, at time [now] (the clock does not
      advance while the file is read). *)
  Fixpoint load_lines (now : Z) (s : dstate) (lines : list bytes) : res dstate :=
    match lines with
    | [] => Ok s
    | line :: lines' =>
        match UnmarshalConfig L line with
        | Some c => s' <- CreateIfNotExists inc deep now s c ;; load_lines now s' lines'
        | None => load_lines now s lines'
        end
    end.

  (** LoadIndex, data/dataset.go 166-188, of a node that starts (data/dataset.go 30-43):
      nothing is registered yet. *)
  Definition LoadIndex (now : Z) (file : bytes) : res dstate :=
    load_lines now (mkDS [] []) (read_lines [] file).

  (** The loop of SaveIndex, data/dataset.go 217-223: [names] are the keys of Items() in
      iteration order.  The result is the text written. *)
  Fixpoint save_lines (now : Z) (s : dstate) (names : list bytes) : res (dstate * bytes) :=
    match names with
    | [] => Ok (s, [])
    | k :: names' =>
        '(s1, a) <- Get inc deep now s k ;;
        match nth_error (dsObjs s1) a with
        | None => Panic
        | Some dt =>
            let jsonData := match dConfig dt with Some c => MarshalConfig L c | None => bs "null" end in
            '(s2, text) <- save_lines now s1 names' ;; Ok (s2, jsonData ++ newline :: text)
        end
    end.

  (** SaveIndex when nothing else happens meanwhile.
      data/dataset.go 209-227. *)
  Definition SaveIndex (now : Z) (s : dstate) (names : list bytes) : res (dstate * bytes) :=
    save_lines now s names.
End Index.

(** The contents of index.save at any moment of a SaveIndex that replaces [old] by
    [new], data/dataset.go 212-225: O_TRUNC empties the file, then its text is written
    from the beginning.  A crash leaves one of these. *)
Inductive during_save (old new : bytes) : bytes -> Prop :=
| ds_before : during_save old new old
| ds_part : forall p rest, new = p ++ rest -> during_save old new p.

(** The writes of a bufio.Writer with its 4096 byte buffer, data/dataset.go 216-224:
    whenever the buffer is full, and the rest at Flush. *)
Fixpoint chunks_of (fuel : nat) (size : nat) (s : bytes) : list bytes :=
  match fuel with
  | O => []
  | S f =>
      match s with
      | [] => []
      | _ => firstn size s :: chunks_of f size (skipn size s)
      end
  end.
(** data/dataset.go 216-224. *)
Definition chunks (s : bytes) : list bytes := chunks_of (length s) 4096 s.

(** Several SaveIndex at once ("go dts.SaveIndex()", data/dataset.go 113, 141 and 151):
    a saver has just been started, has collected its text but not opened the file
    yet, or is writing its remaining chunks.  O_APPEND: every write goes to the end
    of the file.  (The text is collected at once here, before the file is opened;
    in the code lines 217-223 run after it.) *)
Inductive saver := SNew | SWait (text : bytes) | SWriting (rest : list bytes).

(** data/dataset.go 212 and 216-224. *)
Inductive saver_step : bytes * list saver -> bytes * list saver -> Prop :=
| ss_open : forall file ts i text ts',
    nth_error ts i = Some (SWait text) -> list_set ts i (SWriting (chunks text)) = Some ts' ->
    saver_step (file, ts) ([], ts')
| ss_write : forall file ts i c rest ts',
    nth_error ts i = Some (SWriting (c :: rest)) -> list_set ts i (SWriting rest) = Some ts' ->
    saver_step (file, ts) (file ++ c, ts').

(** Any interleaving of calls of data/dataset.go 209-227. *)
Inductive saver_run : bytes * list saver -> bytes * list saver -> Prop :=
| sv_here : forall x, saver_run x x
| sv_step : forall x y z, saver_run x y -> saver_step y z -> saver_run x z.

(** The text up to and including the first newline, and the rest.
    data/dataset.go 174. *)
Fixpoint cut_line (acc : bytes) (s : bytes) : option (bytes * bytes) :=
  match s with
  | [] => None
  | b :: s' => if b =? newline then Some (rev (b :: acc), s') else cut_line (b :: acc) s'
  end.

(** LoadIndex while the SaveIndex goroutines that its own CreateIfNotExists calls
    start (data/dataset.go 113) run: the file, the offset of the next read, the 4096
    byte buffer of the bufio.Reader, the text ReadString has collected from full
    buffers, the registry, and the savers. *)
Record loader := mkLoader {
  lFile : bytes; lOff : nat; lBuf : bytes; lAcc : bytes; lReg : dstate;
  lSavers : list saver; lDone : bool }.

Section Loader.
  Variable L : floatlib.
  Variable inc : Z -> Z -> Z -> Z.
  Variable now : Z.

  (** data/dataset.go 178-184 for one line: the registry after it, and whether a saver was
      started. *)
  Definition load_line (s : dstate) (line : bytes) : res (dstate * bool) :=
    match UnmarshalConfig L line with
    | Some c =>
        s' <- CreateIfNotExists inc deep now s c ;;
        Ok (s', match dl_get now s (cName c) with None => true | Some _ => false end)
    | None => Ok (s, false)
    end.

  (** The bytes the next read returns (a read from a regular file).
      data/dataset.go 172-174. *)
  Definition next_read (l : loader) : bytes :=
    firstn (4096 - length (lBuf l)) (skipn (lOff l) (lFile l)).

  (** data/dataset.go 172-185 and 209-227. *)
  Inductive lstep : loader -> loader -> Prop :=
  | ls_line : forall f o b a r ts line rest r' started,
      cut_line [] b = Some (line, rest) -> load_line r (a ++ line) = Ok (r', started) ->
      lstep (mkLoader f o b a r ts false)
            (mkLoader f o rest [] r' (ts ++ if started : bool then [SNew] else []) false)
  | ls_full : forall f o b a r ts,
      cut_line [] b = None -> length b = 4096%nat ->
      lstep (mkLoader f o b a r ts false) (mkLoader f o [] (a ++ b) r ts false)
  | ls_read : forall f o b a r ts,
      cut_line [] b = None -> (length b < 4096)%nat ->
      let c := next_read (mkLoader f o b a r ts false) in
      c <> [] ->
      lstep (mkLoader f o b a r ts false) (mkLoader f (o + length c) (b ++ c) a r ts false)
  | ls_eof : forall f o b a r ts,
      cut_line [] b = None -> (length b < 4096)%nat ->
      next_read (mkLoader f o b a r ts false) = [] ->
      lstep (mkLoader f o b a r ts false) (mkLoader f o b a r ts true)
  | ls_collect : forall f o b a r ts d i names r' text ts',
      nth_error ts i = Some SNew -> Permutation names (ListNames now r) ->
      SaveIndex L inc now r names = Ok (r', text) -> list_set ts i (SWait text) = Some ts' ->
      lstep (mkLoader f o b a r ts d) (mkLoader f o b a r' ts' d)
  | ls_file : forall f o b a r ts d f' ts',
      saver_step (f, ts) (f', ts') ->
      lstep (mkLoader f o b a r ts d) (mkLoader f' o b a r ts' d).

  (** Any interleaving of data/dataset.go 172-185 and 209-227. *)
  Inductive lrun : loader -> loader -> Prop :=
  | lr_here : forall x, lrun x x
  | lr_step : forall x y z, lrun x y -> lstep y z -> lrun x z.
End Loader.

(** The start of LoadIndex on the file [f].
    data/dataset.go 166-172. *)
Definition load_start (f : bytes) : loader := mkLoader f 0 [] [] (mkDS [] []) [] false.
