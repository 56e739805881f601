(** What a dataset's store holds after any calls, stated per key and with the
    exact deadlines: no assumption about the clock or the size of a TTL. *)
From Verif.Base Require Import GoBase Assoc.
From Verif.Model Require Import Codec Store.
From Verif.Spec Require Import StoreSpec.
From Verif.Spec Require Wire.
Open Scope Z_scope.

Lemma DatumValue_eq_dec : forall a b : DatumValue, {a = b} + {a <> b}.
Proof.
  decide equality; try apply N.eq_dec; apply list_eq_dec; apply N.eq_dec.
Defined.

(** Seconds are signed 64-bit numbers. *)
Definition seconds (z : Z) : Z := (z + 2 ^ 63) mod 2 ^ 64 - 2 ^ 63.

(** The deadline of a datum inserted at t with a TTL; 0 stands for "never". *)
Definition deadline (t : Z) (ttl : N) : Z :=
  if N.eq_dec ttl 0 then 0 else seconds (t + Z.of_N ttl).

(** Two deadlines that are less than ten seconds apart. *)
Definition near (d1 d2 : Z) : Prop := -10 < seconds (d1 - d2) < 10.

Lemma near_dec : forall a b, {near a b} + {~ near a b}.
Proof.
  intros a b. unfold near. destruct (Z_lt_dec (-10) (seconds (a - b)));
    destruct (Z_lt_dec (seconds (a - b)) 10); [left|right|right|right]; tauto.
Defined.

(** What there is for one key: nothing, or a value and its deadline. *)
Definition holding := option (DatumValue * Z).

Definition lasts (now d : Z) : Prop := d = 0 \/ now < d.

Lemma lasts_dec : forall n d, {lasts n d} + {~ lasts n d}.
Proof.
  intros n d. unfold lasts. destruct (Z.eq_dec d 0); destruct (Z_lt_dec n d);
    [left|left|left|right]; tauto.
Defined.

(** One call, seen by key k. *)
Definition after (k : DatumKey) (c : call) (s : holding) : holding :=
  match c with
  | CInsert t k' v ttl =>
      if DatumKey_eq_dec k' k then
        match s with
        | Some (v', d') =>
            if DatumValue_eq_dec v v' then
              if near_dec (deadline t ttl) d' then s else Some (v, deadline t ttl)
            else Some (v, deadline t ttl)
        | None => Some (v, deadline t ttl)
        end
      else s
  | CDelete k' => if DatumKey_eq_dec k' k then None else s
  | CScan tick _ =>
      match s with
      | Some (_, d) => if lasts_dec (tick (Wire.wire_key k)) d then s else None
      | None => None
      end
  end.

Fixpoint afters (k : DatumKey) (h : list call) (s : holding) : holding :=
  match h with
  | [] => s
  | c :: h' => afters k h' (after k c s)
  end.

(** The data are machine values of representable size; a scan visits exactly
    the stored entries. *)
Definition call_fits (c : call) : Prop :=
  match c with
  | CInsert _ k v _ => kv_ok k v
  | CDelete k => key_ok k /\ Wire.key_fits k
  | CScan _ ord => forall m, Permutation (ord m) m
  end.
