(** Model of data/gencoder/gencoder.go and data/datum.go: the binary encoding
    of keys, values and scores.  The encoders are modelled as programs on an
    indexed buffer, because their safety depends on the size computed before.

    Simplifications: a float32 (float64) is its 32-bit (64-bit) pattern, which
    is what the unsafe casts of the Go code expose.  The decoders are modelled
    for a fresh target struct (the only way data/datum.go calls them), so the
    "cap(...) >= l" branches (data/gencoder/gencoder.go 183-184, 218-219, 342-343) are taken
    only for l = 0 and give an empty slice. *)
From Verif.Base Require Import GoBase.
Open Scope N_scope.

(** veriservice DatumKey (veriservice/veriservice.pb.go, message DatumKey); used by
    data/gencoder/gencoder.go 18-247. *)
Record DatumKey := mkKey {
  feature : list N;      (* []float32, bit patterns *)
  groupLabel : bytes;
  size1 : N;
  size2 : N;
  dim1 : N;
  dim2 : N
}.

(** veriservice DatumValue (message DatumValue); used by data/gencoder/gencoder.go 251-351. *)
Record DatumValue := mkValue {
  version : N;
  label : bytes
}.

(** veriservice Datum (message Datum): two pointers that may be nil.
    veriservice/veriservice.pb.go 341-348. *)
Record Datum := mkDatum {
  dkey : option DatumKey;
  dvalue : option DatumValue
}.

(** The machine representation: fields are machine integers (Go's types).
    The field types of veriservice/veriservice.pb.go 401-406. *)
Definition key_ok (k : DatumKey) : Prop :=
  Forall is_u32 (feature k) /\ is_bytes (groupLabel k) /\
  is_u32 (size1 k) /\ is_u32 (size2 k) /\ is_u32 (dim1 k) /\ is_u32 (dim2 k).
(** The field types of veriservice/veriservice.pb.go 488-489. *)
Definition value_ok (v : DatumValue) : Prop :=
  is_u64 (version v) /\ is_bytes (label v).

(** "for t >= 0x80 { t >>= 7; s++ } s++", data/gencoder/gencoder.go 25-30, 42-47, 258-263:
    number of bytes of a varint, added to s.  Fuel: 10 rounds are enough for a
    uint64. *)
Fixpoint size_varint (fuel : nat) (t s : N) : res N :=
  match fuel with
  | O => Panic
  | S f => if 128 <=? t then size_varint f (N.shiftr t 7) (u64 (s + 1))
           else Ok (u64 (s + 1))
  end.

(** SizeKey, data/gencoder/gencoder.go 18-54.  A nil receiver dereference panics. *)
Definition SizeKey (d : option DatumKey) : res N :=
  match d with
  | None => Panic
  | Some d =>
      let l := blen (feature d) in
      s <- size_varint 10 l 0 ;;
      let s := u64 (s + 4 * l) in
      let l := blen (groupLabel d) in
      s <- size_varint 10 l s ;;
      let s := u64 (s + l) in
      Ok (u64 (s + 16))
  end.

(** buf[i] = b.
    data/gencoder/gencoder.go 67 and the other assignments to buf. *)
Definition put (buf : bytes) (i b : N) : res bytes :=
  match list_set buf (N.to_nat i) b with
  | Some buf' => Ok buf'
  | None => Panic
  end.

(** byte(v >> s).
    data/gencoder/gencoder.go 83-89. *)
Definition byte_at (v s : N) : N := u8 (N.shiftr v s).

(** "for t >= 0x80 { buf[i+o] = byte(t)|0x80; t >>= 7; i++ } buf[i+o] = byte(t); i++",
    data/gencoder/gencoder.go 66-74, 102-110, 300-308. *)
Fixpoint put_varint (fuel : nat) (o : N) (buf : bytes) (i t : N)
  : res (bytes * N) :=
  match fuel with
  | O => Panic
  | S f =>
      if 128 <=? t then
        buf <- put buf (u64 (i + o)) (N.lor (u8 t) 128) ;;
        put_varint f o buf (u64 (i + 1)) (N.shiftr t 7)
      else
        buf <- put buf (u64 (i + o)) (u8 t) ;;
        Ok (buf, u64 (i + 1))
  end.

(** Four byte writes, data/gencoder/gencoder.go 81-89, 118-124, 129-135, 140-146, 151-157. *)
Definition put_u32 (buf : bytes) (i v : N) : res bytes :=
  buf <- put buf (u64 (i + 0)) (byte_at v 0) ;;
  buf <- put buf (u64 (i + 1)) (byte_at v 8) ;;
  buf <- put buf (u64 (i + 2)) (byte_at v 16) ;;
  put buf (u64 (i + 3)) (byte_at v 24).

(** Eight byte writes, data/gencoder/gencoder.go 278-292, 369-385. *)
Definition put_u64 (buf : bytes) (i v : N) : res bytes :=
  buf <- put buf (u64 (i + 0)) (byte_at v 0) ;;
  buf <- put buf (u64 (i + 1)) (byte_at v 8) ;;
  buf <- put buf (u64 (i + 2)) (byte_at v 16) ;;
  buf <- put buf (u64 (i + 3)) (byte_at v 24) ;;
  buf <- put buf (u64 (i + 4)) (byte_at v 32) ;;
  buf <- put buf (u64 (i + 5)) (byte_at v 40) ;;
  buf <- put buf (u64 (i + 6)) (byte_at v 48) ;;
  put buf (u64 (i + 7)) (byte_at v 56).

(** "for k0 := range d.Feature { ... i += 4 }", data/gencoder/gencoder.go 77-95. *)
Fixpoint put_features (buf : bytes) (i : N) (fs : list N) : res (bytes * N) :=
  match fs with
  | [] => Ok (buf, i)
  | v :: fs' => buf <- put_u32 buf i v ;; put_features buf (u64 (i + 4)) fs'
  end.

(** buf[i:]: panics when i > len(buf).  The length of the part before i.
    data/gencoder/gencoder.go 113, 223, 311, 347. *)
Definition slice_from (buf : bytes) (i : N) : res nat :=
  if i <=? blen buf then Ok (N.to_nat i) else Panic.

(** buf[:i]: panics when i > cap(buf) = len(buf).
    data/gencoder/gencoder.go 160, 314. *)
Definition slice_to (buf : bytes) (i : N) : res bytes :=
  if i <=? blen buf then Ok (firstn (N.to_nat i) buf) else Panic.

(** copy(buf[i:], src): copies min(len, len) bytes; data/gencoder/gencoder.go 113, 311. *)
Definition copy_into (buf : bytes) (i : N) (src : bytes) : res bytes :=
  n <- slice_from buf i ;;
  Ok (firstn n buf
      ++ firstn (length buf - n) src
      ++ skipn (n + length src) buf).

(** MarshalKey, data/gencoder/gencoder.go 56-161. *)
Definition MarshalKey (d : option DatumKey) : res bytes :=
  size <- SizeKey d ;;
  match d with
  | None => Panic
  | Some d =>
      let buf := repeat 0 (N.to_nat size) in
      '(buf, i) <- put_varint 10 0 buf 0 (blen (feature d)) ;;
      '(buf, i) <- put_features buf i (feature d) ;;
      '(buf, i) <- put_varint 10 0 buf i (blen (groupLabel d)) ;;
      buf <- copy_into buf i (groupLabel d) ;;
      let i := u64 (i + blen (groupLabel d)) in
      buf <- put_u32 buf i (size1 d) ;;
      buf <- put_u32 buf (u64 (i + 4)) (size2 d) ;;
      buf <- put_u32 buf (u64 (i + 8)) (dim1 d) ;;
      buf <- put_u32 buf (u64 (i + 12)) (dim2 d) ;;
      slice_to buf (u64 (i + 16))
  end.

(** buf[i].
    data/gencoder/gencoder.go 171-178 and the other reads of buf. *)
Definition get (buf : bytes) (i : N) : res N :=
  match nth_error buf (N.to_nat i) with
  | Some b => Ok b
  | None => Panic
  end.

(** The loop "for buf[i+o]&0x80 == 0x80 { i++; t |= uint64(buf[i+o]&0x7F) << bs;
    bs += 7 } i++", data/gencoder/gencoder.go 173-178, 208-213, 332-337; bs is a uint8 and a
    shift by 64 or more gives 0.  The index grows in every round, so the buffer
    length plus one bounds the rounds before an index panic. *)
Fixpoint get_varint_loop (fuel : nat) (o : N) (buf : bytes) (i t bs : N)
  : res (N * N) :=
  match fuel with
  | O => Panic
  | S f =>
      b <- get buf (u64 (i + o)) ;;
      if N.land b 128 =? 128 then
        let i := u64 (i + 1) in
        b' <- get buf (u64 (i + o)) ;;
        let t := N.lor t (u64 (N.shiftl (N.land b' 127) bs)) in
        get_varint_loop f o buf i t (u8 (bs + 7))
      else Ok (t, u64 (i + 1))
  end.

(** data/gencoder/gencoder.go 171-180, 206-215, 330-339. *)
Definition get_varint (o : N) (buf : bytes) (i : N) : res (N * N) :=
  b <- get buf (u64 (i + o)) ;;
  get_varint_loop (S (length buf)) o buf i (N.land b 127) 7.

(** 0 | uint32(buf[i]) << 0 | ... << 24; data/gencoder/gencoder.go 192, 228, 233, 238, 243. *)
Definition get_u32 (buf : bytes) (i : N) : res N :=
  b0 <- get buf (u64 (i + 0)) ;;
  b1 <- get buf (u64 (i + 1)) ;;
  b2 <- get buf (u64 (i + 2)) ;;
  b3 <- get buf (u64 (i + 3)) ;;
  Ok (N.lor (N.lor (N.lor (u32 (N.shiftl b0 0)) (u32 (N.shiftl b1 8)))
             (u32 (N.shiftl b2 16))) (u32 (N.shiftl b3 24))).

(** 0 | uint64(buf[i]) << 0 | ... << 56; data/gencoder/gencoder.go 322, 396. *)
Definition get_u64 (buf : bytes) (i : N) : res N :=
  b0 <- get buf (u64 (i + 0)) ;;
  b1 <- get buf (u64 (i + 1)) ;;
  b2 <- get buf (u64 (i + 2)) ;;
  b3 <- get buf (u64 (i + 3)) ;;
  b4 <- get buf (u64 (i + 4)) ;;
  b5 <- get buf (u64 (i + 5)) ;;
  b6 <- get buf (u64 (i + 6)) ;;
  b7 <- get buf (u64 (i + 7)) ;;
  Ok (N.lor (N.lor (N.lor (N.lor (N.lor (N.lor (N.lor
        (u64 (N.shiftl b0 0)) (u64 (N.shiftl b1 8))) (u64 (N.shiftl b2 16)))
        (u64 (N.shiftl b3 24))) (u64 (N.shiftl b4 32))) (u64 (N.shiftl b5 40)))
        (u64 (N.shiftl b6 48))) (u64 (N.shiftl b7 56))).

(** make([]T, l) panics when l * size exceeds the address space the runtime
    accepts (2^48 bytes on linux/amd64); data/gencoder/gencoder.go 186, 221, 345. *)
Definition make_ok (elem l : N) : bool := elem * l <=? 281474976710656.

(** "for k0 := range d.Feature { v := ...; i += 4 }", data/gencoder/gencoder.go 188-199, for
    the [n] elements still to read.  Each round reads four bytes, so the buffer
    length plus one bounds the rounds before an index panic. *)
Fixpoint get_features (fuel : nat) (buf : bytes) (i n : N) (acc : list N)
  : res (list N * N) :=
  if n =? 0 then Ok (rev acc, i) else
  match fuel with
  | O => Panic
  | S f =>
      v <- get_u32 buf i ;;
      get_features f buf (u64 (i + 4)) (n - 1) (v :: acc)
  end.

(** make([]byte, l) followed by copy(dst, buf[i:]); data/gencoder/gencoder.go 221-223,
    345-347: bytes missing in the source stay zero. *)
Definition get_label (buf : bytes) (i l : N) : res bytes :=
  if make_ok 1 l then
    n <- slice_from buf i ;;
    let got := firstn (N.to_nat l) (skipn n buf) in
    Ok (got ++ repeat 0 (N.to_nat l - length got))
  else Panic.

(** UnmarshalKey into a fresh struct, data/gencoder/gencoder.go 163-247; returns the struct
    and the number of bytes consumed. *)
Definition UnmarshalKey (buf : bytes) : res (DatumKey * N) :=
  '(l, i) <- get_varint 0 buf 0 ;;
  if make_ok 4 l then
    '(fs, i) <- get_features (S (length buf)) buf i l [] ;;
    '(l, i) <- get_varint 0 buf i ;;
    g <- get_label buf i l ;;
    let i := u64 (i + l) in
    s1 <- get_u32 buf i ;;
    s2 <- get_u32 buf (u64 (i + 4)) ;;
    d1 <- get_u32 buf (u64 (i + 8)) ;;
    d2 <- get_u32 buf (u64 (i + 12)) ;;
    Ok (mkKey fs g s1 s2 d1 d2, u64 (i + 16))
  else Panic.

(** SizeValue, data/gencoder/gencoder.go 251-270. *)
Definition SizeValue (d : option DatumValue) : res N :=
  match d with
  | None => Panic
  | Some d =>
      let l := blen (label d) in
      s <- size_varint 10 l 0 ;;
      let s := u64 (s + l) in
      Ok (u64 (s + 8))
  end.

(** MarshalValue, data/gencoder/gencoder.go 271-315. *)
Definition MarshalValue (d : option DatumValue) : res bytes :=
  size <- SizeValue d ;;
  match d with
  | None => Panic
  | Some d =>
      let buf := repeat 0 (N.to_nat size) in
      buf <- put_u64 buf 0 (version d) ;;
      '(buf, i) <- put_varint 10 8 buf 0 (blen (label d)) ;;
      buf <- copy_into buf (u64 (i + 8)) (label d) ;;
      let i := u64 (i + blen (label d)) in
      slice_to buf (u64 (i + 8))
  end.

(** UnmarshalValue into a fresh struct, data/gencoder/gencoder.go 317-351. *)
Definition UnmarshalValue (buf : bytes) : res (DatumValue * N) :=
  v <- get_u64 buf 0 ;;
  '(l, i) <- get_varint 8 buf 0 ;;
  g <- get_label buf (u64 (i + 8)) l ;;
  let i := u64 (i + l) in
  Ok (mkValue v g, u64 (i + 8)).

(** (DatumScore).Marshal and Size, data/gencoder/gencoder.go 353-389; the score is its 64-bit
    pattern. *)
Definition MarshalScore (score : N) : res bytes :=
  let size := u64 (0 + 8) in
  let buf := repeat 0 (N.to_nat size) in
  buf <- put_u64 buf 0 score ;;
  slice_to buf (u64 (0 + 8)).

(** (DatumScore).Unmarshal, data/gencoder/gencoder.go 391-401. *)
Definition UnmarshalScore (buf : bytes) : res (N * N) :=
  v <- get_u64 buf 0 ;;
  Ok (v, u64 (0 + 8)).

(** GetKeyAsBytes, data/datum.go 105-107; a nil datum dereference panics. *)
Definition GetKeyAsBytes (d : option Datum) : res bytes :=
  match d with None => Panic | Some d => MarshalKey (dkey d) end.

(** GetValueAsBytes, data/datum.go 109-111. *)
Definition GetValueAsBytes (d : option Datum) : res bytes :=
  match d with None => Panic | Some d => MarshalValue (dvalue d) end.

(** ToDatumKey, data/datum.go 113-120. *)
Definition ToDatumKey (b : bytes) : res DatumKey :=
  '(k, _) <- UnmarshalKey b ;; Ok k.

(** ToDatumValue, data/datum.go 122-129. *)
Definition ToDatumValue (b : bytes) : res DatumValue :=
  '(v, _) <- UnmarshalValue b ;; Ok v.

(** ToDatum, data/datum.go 131-144. *)
Definition ToDatum (key value : bytes) : res Datum :=
  k <- ToDatumKey key ;;
  v <- ToDatumValue value ;;
  Ok (mkDatum (Some k) (Some v)).

(** NewDatum, data/datum.go 10-33 (line 25 sets Size2 from size1). *)
Definition NewDatum (feature : list N) (dim1 dim2 size1 size2 : N)
  (groupLabel label : bytes) (version : N) : Datum :=
  mkDatum (Some (mkKey feature groupLabel size1 size1 dim1 dim2))
          (Some (mkValue version label)).

(** util.EncodeToString, util/util.go 9-14: the string header aliases the
    slice, so the string has exactly the bytes of the slice.  Simplification:
    later writes through the slice are not modelled (no caller writes). *)
Definition EncodeToString (b : bytes) : bytes := b.
