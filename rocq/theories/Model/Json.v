(** encoding/json as used by EncodeSearchConfig (data/search.go 36-43), SaveIndex
    and LoadIndex (data/dataset.go 166-227): the compact form that json.Marshal
    writes (HTML escaping on, Go 1.16) and the texts that json.Unmarshal accepts.
    The library is not part of /repo; the definitions follow its documentation
    (RFC 8259 grammar; escapes of Marshal and Unmarshal for strings).  Nesting is
    not limited here (the library stops at 10000). *)
From Verif.Base Require Import GoBase.
Open Scope N_scope.

(** * UTF-8 (unicode/utf8) *)

(** utf8.EncodeRune for a code point.
    Library function; encoding/json is used at data/search.go 40 and data/dataset.go 179, 220. *)
Definition encode_rune (r : N) : bytes :=
  if r <? 128 then [r]
  else if r <? 2048 then [192 + r / 64; 128 + r mod 64]
  else if r <? 65536 then [224 + r / 4096; 128 + (r / 64) mod 64; 128 + r mod 64]
  else [240 + r / 262144; 128 + (r / 4096) mod 64; 128 + (r / 64) mod 64; 128 + r mod 64].

(** Library function; encoding/json is used at data/search.go 40 and data/dataset.go 179, 220. *)
Definition in_range (lo hi b : N) : bool := (lo <=? b) && (b <=? hi).

(** utf8.DecodeRune: the code point and what follows; None for an invalid
    encoding (RuneError, width 1).
    Library function; encoding/json is used at data/search.go 40 and data/dataset.go 179, 220. *)
Definition decode_rune (s : bytes) : option (N * bytes) :=
  match s with
  | [] => None
  | b0 :: s0 =>
      if b0 <? 128 then Some (b0, s0)
      else if in_range 194 223 b0 then
        match s0 with
        | b1 :: s1 =>
            if in_range 128 191 b1 then Some ((b0 - 192) * 64 + (b1 - 128), s1) else None
        | [] => None
        end
      else if in_range 224 239 b0 then
        match s0 with
        | b1 :: b2 :: s2 =>
            if in_range (if b0 =? 224 then 160 else 128) (if b0 =? 237 then 159 else 191) b1
               && in_range 128 191 b2
            then Some ((b0 - 224) * 4096 + (b1 - 128) * 64 + (b2 - 128), s2) else None
        | _ => None
        end
      else if in_range 240 244 b0 then
        match s0 with
        | b1 :: b2 :: b3 :: s3 =>
            if in_range (if b0 =? 240 then 144 else 128) (if b0 =? 244 then 143 else 191) b1
               && in_range 128 191 b2 && in_range 128 191 b3
            then Some ((b0 - 240) * 262144 + (b1 - 128) * 4096 + (b2 - 128) * 64 + (b3 - 128), s3)
            else None
        | _ => None
        end
      else None
  end.

(** JSON values.
    Library function; encoding/json is used at data/search.go 40 and data/dataset.go 179, 220. *)
Inductive json :=
| JNull
| JBool (b : bool)
| JNum (tok : bytes)
| JStr (s : bytes)
| JArr (l : list json)
| JObj (l : list (bytes * json)).

(** * Writing *)

(** Library function; encoding/json is used at data/search.go 40 and data/dataset.go 179, 220. *)
Definition hexdigit (n : N) : N := if n <? 10 then 48 + n else 87 + n.

(** The escapes of Marshal for ASCII characters: quote, backslash, newline,
    carriage return, tab, other control characters, and < > &.
    Library function; encoding/json is used at data/search.go 40 and data/dataset.go 179, 220. *)
Definition quote_ascii (b : N) : bytes :=
  if (b =? 34) || (b =? 92) then [92; b]
  else if b =? 10 then [92; 110]
  else if b =? 13 then [92; 114]
  else if b =? 9 then [92; 116]
  else if (b <? 32) || (b =? 60) || (b =? 62) || (b =? 38)
  then [92; 117; 48; 48; hexdigit (b / 16); hexdigit (b mod 16)]
  else [b].

(** Other code points are copied, except U+2028 and U+2029.
    Library function; encoding/json is used at data/search.go 40 and data/dataset.go 179, 220. *)
Definition quote_rune (r : N) : bytes :=
  if r <? 128 then quote_ascii r
  else if (r =? 8232) || (r =? 8233) then [92; 117; 50; 48; 50; hexdigit (r mod 16)]
  else encode_rune r.

(** A byte that does not belong to a valid encoding becomes �.
    Library function; encoding/json is used at data/search.go 40 and data/dataset.go 179, 220. *)
Fixpoint quote_body (fuel : nat) (s : bytes) : bytes :=
  match fuel with
  | O => []
  | S f =>
      match s with
      | [] => []
      | _ :: s' =>
          match decode_rune s with
          | Some (r, rest) => quote_rune r ++ quote_body f rest
          | None => [92; 117; 102; 102; 102; 100] ++ quote_body f s'
          end
      end
  end.
(** Library function; encoding/json is used at data/search.go 40 and data/dataset.go 179, 220. *)
Definition quote (s : bytes) : bytes := 34 :: quote_body (length s) s ++ [34].

(** Library function; encoding/json is used at data/search.go 40 and data/dataset.go 179, 220. *)
Fixpoint join (sep : N) (l : list bytes) : bytes :=
  match l with
  | [] => []
  | [x] => x
  | x :: l' => x ++ sep :: join sep l'
  end.

(** json.Marshal.
    Library function; encoding/json is used at data/search.go 40 and data/dataset.go 179, 220. *)
Fixpoint print (v : json) : bytes :=
  match v with
  | JNull => bs "null"
  | JBool true => bs "true"
  | JBool false => bs "false"
  | JNum tok => tok
  | JStr s => quote s
  | JArr l => 91 :: join 44 (map print l) ++ [93]
  | JObj l => 123 :: join 44 (map (fun '(k, v) => quote k ++ 58 :: print v) l) ++ [125]
  end.

(** strconv.AppendUint(n, 10).
    Library function; encoding/json is used at data/search.go 40 and data/dataset.go 179, 220. *)
Fixpoint dec_loop (fuel : nat) (n : N) (acc : bytes) : bytes :=
  match fuel with
  | O => acc
  | S f =>
      let acc := (48 + n mod 10) :: acc in
      if n / 10 =? 0 then acc else dec_loop f (n / 10) acc
  end.
(** Library function; encoding/json is used at data/search.go 40 and data/dataset.go 179, 220. *)
Definition dec (n : N) : bytes := dec_loop 20 n [].

(** * Reading *)

(** Library function; encoding/json is used at data/search.go 40 and data/dataset.go 179, 220. *)
Definition is_ws (b : N) : bool := (b =? 32) || (b =? 9) || (b =? 10) || (b =? 13).
(** Library function; encoding/json is used at data/search.go 40 and data/dataset.go 179, 220. *)
Fixpoint skip_ws (s : bytes) : bytes :=
  match s with
  | b :: s' => if is_ws b then skip_ws s' else s
  | [] => []
  end.

(** Library function; encoding/json is used at data/search.go 40 and data/dataset.go 179, 220. *)
Definition unhex (b : N) : option N :=
  if in_range 48 57 b then Some (b - 48)
  else if in_range 97 102 b then Some (b - 87)
  else if in_range 65 70 b then Some (b - 55)
  else None.
(** Library function; encoding/json is used at data/search.go 40 and data/dataset.go 179, 220. *)
Definition hex4 (s : bytes) : option (N * bytes) :=
  match s with
  | a :: b :: c :: d :: s' =>
      match unhex a, unhex b, unhex c, unhex d with
      | Some x, Some y, Some z, Some w => Some (((x * 16 + y) * 16 + z) * 16 + w, s')
      | _, _, _, _ => None
      end
  | _ => None
  end.

(** U+FFFD, put in the place of what cannot be represented.
    Library function; encoding/json is used at data/search.go 40 and data/dataset.go 179, 220. *)
Definition replacement : bytes := [239; 191; 189].

(** The escapes other than \u.
    Library function; encoding/json is used at data/search.go 40 and data/dataset.go 179, 220. *)
Definition simple_escape (e : N) : option N :=
  if (e =? 34) || (e =? 92) || (e =? 47) then Some e
  else if e =? 98 then Some 8
  else if e =? 102 then Some 12
  else if e =? 110 then Some 10
  else if e =? 114 then Some 13
  else if e =? 116 then Some 9
  else None.

(** The rest of a string after its opening quote.
    Library function; encoding/json is used at data/search.go 40 and data/dataset.go 179, 220. *)
Fixpoint pstr (fuel : nat) (s : bytes) : option (bytes * bytes) :=
  match fuel with
  | O => None
  | S f =>
      let continue (x : bytes) (rest : bytes) :=
        match pstr f rest with Some (y, r) => Some (x ++ y, r) | None => None end in
      match s with
      | [] => None
      | b :: s' =>
          if b =? 34 then Some ([], s')
          else if b =? 92 then
            match s' with
            | [] => None
            | e :: s'' =>
                if e =? 117 then
                  match hex4 s'' with
                  | None => None
                  | Some (r, s3) =>
                      if in_range 55296 57343 r then
                        match s3 with
                        | c1 :: c2 :: s4 =>
                            match (if (c1 =? 92) && (c2 =? 117) then hex4 s4 else None) with
                            | Some (r2, s5) =>
                                if in_range 55296 56319 r && in_range 56320 57343 r2
                                then continue (encode_rune (65536 + (r - 55296) * 1024 + (r2 - 56320))) s5
                                else continue replacement s3
                            | None => continue replacement s3
                            end
                        | _ => continue replacement s3
                        end
                      else continue (encode_rune r) s3
                  end
                else match simple_escape e with
                     | Some c => continue [c] s''
                     | None => None
                     end
            end
          else if b <? 32 then None
          else match decode_rune s with
               | Some (r, rest) => continue (encode_rune r) rest
               | None => continue replacement s'
               end
      end
  end.

(** Library function; encoding/json is used at data/search.go 40 and data/dataset.go 179, 220. *)
Definition is_digit (b : N) : bool := in_range 48 57 b.
(** Library function; encoding/json is used at data/search.go 40 and data/dataset.go 179, 220. *)
Fixpoint digits (s : bytes) : bytes * bytes :=
  match s with
  | b :: s' => if is_digit b then let '(d, r) := digits s' in (b :: d, r) else ([], s)
  | [] => ([], [])
  end.

(** A number: its text and what follows.
    Library function; encoding/json is used at data/search.go 40 and data/dataset.go 179, 220. *)
Definition pint (s : bytes) : option (bytes * bytes) :=
  match s with
  | b :: s' =>
      if b =? 48 then Some ([48], s')
      else if in_range 49 57 b then Some (digits s) else None
  | [] => None
  end.
(** Library function; encoding/json is used at data/search.go 40 and data/dataset.go 179, 220. *)
Definition pfrac (s : bytes) : option (bytes * bytes) :=
  match s with
  | b :: s' =>
      if b =? 46 then
        match digits s' with
        | ([], _) => None
        | (d, r) => Some (46 :: d, r)
        end
      else Some ([], s)
  | [] => Some ([], s)
  end.
(** Library function; encoding/json is used at data/search.go 40 and data/dataset.go 179, 220. *)
Definition pexp (s : bytes) : option (bytes * bytes) :=
  match s with
  | b :: s' =>
      if (b =? 101) || (b =? 69) then
        let '(sg, s1) :=
          match s' with
          | c :: s'' => if (c =? 43) || (c =? 45) then ([c], s'') else ([], s')
          | [] => ([], s')
          end in
        match digits s1 with
        | ([], _) => None
        | (d, r) => Some (b :: sg ++ d, r)
        end
      else Some ([], s)
  | [] => Some ([], s)
  end.
(** Library function; encoding/json is used at data/search.go 40 and data/dataset.go 179, 220. *)
Definition pnum (s : bytes) : option (bytes * bytes) :=
  let '(sg, s0) :=
    match s with
    | b :: s' => if b =? 45 then ([45], s') else ([], s)
    | [] => ([], s)
    end in
  match pint s0 with
  | None => None
  | Some (i, s1) =>
      match pfrac s1 with
      | None => None
      | Some (f, s2) =>
          match pexp s2 with
          | None => None
          | Some (e, s3) => Some (sg ++ i ++ f ++ e, s3)
          end
      end
  end.

(** Library function; encoding/json is used at data/search.go 40 and data/dataset.go 179, 220. *)
Fixpoint literal (w s : bytes) : option bytes :=
  match w, s with
  | [], _ => Some s
  | x :: w', y :: s' => if x =? y then literal w' s' else None
  | _ :: _, [] => None
  end.

(** A value, the elements of an array up to "]", the members of an object up to
    "}".
    Library function; encoding/json is used at data/search.go 40 and data/dataset.go 179, 220. *)
Fixpoint pval (fuel : nat) (s : bytes) : option (json * bytes) :=
  match fuel with
  | O => None
  | S f =>
      match skip_ws s with
      | [] => None
      | b :: s' =>
          if b =? 123 then
            match skip_ws s' with
            | c :: s'' =>
                if c =? 125 then Some (JObj [], s'')
                else match pmembers f s' with Some (l, r) => Some (JObj l, r) | None => None end
            | [] => None
            end
          else if b =? 91 then
            match skip_ws s' with
            | c :: s'' =>
                if c =? 93 then Some (JArr [], s'')
                else match pelems f s' with Some (l, r) => Some (JArr l, r) | None => None end
            | [] => None
            end
          else if b =? 34 then
            match pstr (length s') s' with Some (x, r) => Some (JStr x, r) | None => None end
          else if b =? 116 then
            match literal (bs "true") (b :: s') with Some r => Some (JBool true, r) | None => None end
          else if b =? 102 then
            match literal (bs "false") (b :: s') with Some r => Some (JBool false, r) | None => None end
          else if b =? 110 then
            match literal (bs "null") (b :: s') with Some r => Some (JNull, r) | None => None end
          else match pnum (b :: s') with Some (t, r) => Some (JNum t, r) | None => None end
      end
  end
(** Library function; encoding/json is used at data/search.go 40 and data/dataset.go 179, 220. *)
with pelems (fuel : nat) (s : bytes) : option (list json * bytes) :=
  match fuel with
  | O => None
  | S f =>
      match pval f s with
      | None => None
      | Some (v, r) =>
          match skip_ws r with
          | c :: r' =>
              if c =? 93 then Some ([v], r')
              else if c =? 44 then
                match pelems f r' with Some (l, r2) => Some (v :: l, r2) | None => None end
              else None
          | [] => None
          end
      end
  end
(** Library function; encoding/json is used at data/search.go 40 and data/dataset.go 179, 220. *)
with pmembers (fuel : nat) (s : bytes) : option (list (bytes * json) * bytes) :=
  match fuel with
  | O => None
  | S f =>
      match skip_ws s with
      | q :: s' =>
          if q =? 34 then
            match pstr (length s') s' with
            | None => None
            | Some (k, r) =>
                match skip_ws r with
                | c :: r' =>
                    if c =? 58 then
                      match pval f r' with
                      | None => None
                      | Some (v, r2) =>
                          match skip_ws r2 with
                          | d :: r3 =>
                              if d =? 125 then Some ([(k, v)], r3)
                              else if d =? 44 then
                                match pmembers f r3 with
                                | Some (l, r4) => Some ((k, v) :: l, r4)
                                | None => None
                                end
                              else None
                          | [] => None
                          end
                      end
                    else None
                | [] => None
                end
            end
          else None
      | [] => None
      end
  end.

(** The whole text is one value (json.Unmarshal; nothing but space may follow).
    Library function; encoding/json is used at data/search.go 40 and data/dataset.go 179, 220. *)
Definition parse (s : bytes) : option json :=
  match pval (length s) s with
  | Some (v, r) => match skip_ws r with [] => Some v | _ => None end
  | None => None
  end.

(** strconv.ParseUint(tok, 10, 64) for a number token: only digits, and below
    2^64.
    Library function; encoding/json is used at data/search.go 40 and data/dataset.go 179, 220. *)
Fixpoint digits_value (acc : N) (d : bytes) : option N :=
  match d with
  | [] => Some acc
  | b :: d' => if is_digit b then digits_value (acc * 10 + (b - 48)) d' else None
  end.
(** Library function; encoding/json is used at data/search.go 40 and data/dataset.go 179, 220. *)
Definition parse_uint (max : N) (tok : bytes) : option N :=
  match tok with
  | [] => None
  | _ => match digits_value 0 tok with
         | Some n => if n <=? max then Some n else None
         | None => None
         end
  end.

(** Fields of a struct: names match ignoring case; the last member wins.
    (Case folding of non-ASCII characters is not modelled.)
    Library function; encoding/json is used at data/search.go 40 and data/dataset.go 179, 220. *)
Definition lower (b : N) : N := if in_range 65 90 b then b + 32 else b.
(** Library function; encoding/json is used at data/search.go 40 and data/dataset.go 179, 220. *)
Definition same_name (a b : bytes) : bool := bytes_eqb (map lower a) (map lower b).
(** Library function; encoding/json is used at data/search.go 40 and data/dataset.go 179, 220. *)
Fixpoint find_field (name : bytes) (l : list (bytes * json)) : option json :=
  match l with
  | [] => None
  | (k, v) :: l' =>
      match find_field name l' with
      | Some w => Some w
      | None => if same_name k name then Some v else None
      end
  end.

(** Struct fields with the option omitempty.
    Library function; encoding/json is used at data/search.go 40 and data/dataset.go 179, 220. *)
Definition f_str (name s : bytes) : list (bytes * json) :=
  match s with [] => [] | _ => [(name, JStr s)] end.
(** Library function; encoding/json is used at data/search.go 40 and data/dataset.go 179, 220. *)
Definition f_uint (name : bytes) (n : N) : list (bytes * json) :=
  if n =? 0 then [] else [(name, JNum (dec n))].
(** Library function; encoding/json is used at data/search.go 40 and data/dataset.go 179, 220. *)
Definition f_bool (name : bytes) (b : bool) : list (bytes * json) :=
  if b then [(name, JBool true)] else [].
(** Library function; encoding/json is used at data/search.go 40 and data/dataset.go 179, 220. *)
Definition f_strs (name : bytes) (l : list bytes) : list (bytes * json) :=
  match l with [] => [] | _ => [(name, JArr (map JStr l))] end.
