(** Specification of the wire format, independent of the encoder: what bytes a
    key, a value and a score are on the wire. *)
From Verif.Base Require Import GoBase.
From Verif.Model Require Import Codec.
Open Scope N_scope.

(** Little-endian base-256 digits. *)
Fixpoint le (n : nat) (v : N) : bytes :=
  match n with
  | O => []
  | S n' => v mod 256 :: le n' (v / 256)
  end.

(** Base-128 digits, least significant first, all but the last with the high
    bit set. *)
Fixpoint leb128 (fuel : nat) (v : N) : bytes :=
  match fuel with
  | O => []
  | S f => if v <? 128 then [v] else (128 + v mod 128) :: leb128 f (v / 128)
  end.

Definition varint (v : N) : bytes := leb128 10 v.

Definition wire_key (k : DatumKey) : bytes :=
  varint (blen (feature k)) ++ flat_map (le 4) (feature k)
  ++ varint (blen (groupLabel k)) ++ groupLabel k
  ++ le 4 (size1 k) ++ le 4 (size2 k) ++ le 4 (dim1 k) ++ le 4 (dim2 k).

Definition wire_value (v : DatumValue) : bytes :=
  le 8 (version v) ++ varint (blen (label v)) ++ label v.

Definition wire_score (s : N) : bytes := le 8 s.

(** Lengths Go can represent: slices of at most 2^46 floats, labels of at most
    2^48 bytes. *)
Definition key_fits (k : DatumKey) : Prop :=
  blen (feature k) <= 70368744177664 /\ blen (groupLabel k) <= 281474976710656.
Definition value_fits (v : DatumValue) : Prop :=
  blen (label v) <= 281474976710656.
