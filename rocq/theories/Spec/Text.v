(** Unicode text, independently of the encoder. *)
From Verif.Base Require Import GoBase.
From Verif.Model Require Import Json.

(** Unicode scalar values *)
Definition rune_ok (r : N) : Prop := r < 55296 \/ (57344 <= r < 1114112).

(** A byte string that is valid UTF-8 *)
Definition valid_text (s : bytes) : Prop :=
  exists rs, Forall rune_ok rs /\ s = flat_map encode_rune rs.

(** A JSON value whose strings are valid and whose numbers are read back as
    written. *)
Definition num_token (t : bytes) : Prop :=
  t <> [] /\ (forall b, In b t -> b <> 34 /\ b <> 91 /\ b <> 123 /\ is_ws b = false /\
                        b <> 116 /\ b <> 102 /\ b <> 110) /\
  forall c rest, c = 44 \/ c = 93 \/ c = 125 -> pnum (t ++ c :: rest) = Some (t, c :: rest).

Inductive json_ok : json -> Prop :=
| ok_null : json_ok JNull
| ok_bool b : json_ok (JBool b)
| ok_num t : num_token t -> json_ok (JNum t)
| ok_str s : valid_text s -> json_ok (JStr s)
| ok_arr l : Forall json_ok l -> json_ok (JArr l)
| ok_obj l : Forall (fun m => valid_text (fst m) /\ json_ok (snd m)) l -> json_ok (JObj l).
