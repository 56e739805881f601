(** A series of inserts into one dataset. *)
From Verif.Base Require Import GoBase Assoc.
From Verif.Model Require Import Codec Store Data Insert.
From Verif.Spec Require Import StoreSpec.
Open Scope N_scope.

(** One insert of a client or of another node: when, what, with which settings,
    and in which order the sources would be asked. *)
Record request_in := mkIn {
  qTime : Z; qKey : DatumKey; qValue : DatumValue; qConfig : option InsertConfig; qItems : list bytes }.

(** The inserts one after the other; the answers in the same order. *)
Fixpoint series {W} (send : W -> bytes -> option Datum -> InsertConfig -> W * option err)
  (w : W) (dt : Data) (l : list request_in) : res (W * Data * list (option err)) :=
  match l with
  | [] => Ok (w, dt, [])
  | q :: l' =>
      o <- Insert send (qTime q) (qItems q) w dt (Some (kv (qKey q) (qValue q))) (qConfig q) ;;
      '(w', dt', es) <- series send (oW o) (oData o) l' ;;
      Ok (w', dt', oErr o :: es)
  end.

(** The value a series gives to a key: that of the last insert of the key. *)
Fixpoint last_value (l : list request_in) (k : DatumKey) : option DatumValue :=
  match l with
  | [] => None
  | q :: l' =>
      match last_value l' k with
      | Some v => Some v
      | None => if DatumKey_eq_dec (qKey q) k then Some (qValue q) else None
      end
  end.
