(** Specification of what strings of bytes mean to the decoders: which keys, values
    and scores they stand for.  Lengths are written in base 128 like in Spec/Wire.v,
    but not necessarily in the shortest way. *)
From Verif.Base Require Import GoBase.
From Verif.Model Require Import Codec.
From Verif.Spec Require Import Wire.
Open Scope N_scope.

(** A number on the wire: all bytes but the last have the high bit set. *)
Definition on_wire (l : bytes) : Prop :=
  exists l' d, l = l' ++ [d] /\ Forall (fun b => 128 <= b) l' /\ d < 128.

(** The number that is read: byte j contributes its low seven bits, shifted by 7 j; the
    shift distance is an 8 bit number, the result a 64 bit number. *)
Fixpoint contributions (j : N) (l : bytes) : N :=
  match l with
  | [] => 0
  | b :: l' => N.lor (((b mod 128) * 2 ^ ((7 * j) mod 256)) mod 2 ^ 64) (contributions (j + 1) l')
  end.
Definition number_read (l : bytes) : N := contributions 0 l.

(** The string b stands for the key k.  What follows the key is ignored. *)
Definition stands_for_key (b : bytes) (k : DatumKey) : Prop :=
  exists l1 l2 rest,
    b = l1 ++ flat_map (le 4) (feature k) ++ l2 ++ groupLabel k
        ++ le 4 (size1 k) ++ le 4 (size2 k) ++ le 4 (dim1 k) ++ le 4 (dim2 k) ++ rest /\
    on_wire l1 /\ number_read l1 = blen (feature k) /\
    on_wire l2 /\ number_read l2 = blen (groupLabel k).

(** The string b stands for the value v: missing bytes of the label count as zero, what
    follows the label is ignored. *)
Definition stands_for_value (b : bytes) (v : DatumValue) : Prop :=
  exists l rest,
    b = le 8 (version v) ++ l ++ rest /\ on_wire l /\ number_read l = blen (label v) /\
    label v = firstn (length (label v)) rest ++ repeat 0 (length (label v) - length rest).
