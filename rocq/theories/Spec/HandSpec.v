(** What a hand-written index file means: JSON objects, one in a line. *)
From Verif.Base Require Import GoBase Float.
From Verif.Model Require Import Json Data Index.
From Verif.Spec Require Import JsonSpec.
Open Scope N_scope.

(** The same name but for the case of ASCII letters. *)
Definition alike (a b : bytes) : Prop :=
  Forall2 (fun x y => x = y \/ (65 <= x <= 90 /\ y = x + 32) \/ (65 <= y <= 90 /\ x = y + 32)) a b.

(** A decimal number. *)
Definition decimal (t : bytes) (n : N) : Prop :=
  some_digits t /\ n = fold_left (fun a b => a * 10 + (b - 48)) t 0.

(** The values a member may have, by type of the field. *)
Definition means_str (v : json) (x : bytes) : Prop := v = JStr x.
Definition means_bool (v : json) (x : bool) : Prop := v = JBool x.
Definition means_uint (bits : N) (v : json) (x : N) : Prop := exists t, v = JNum t /\ decimal t x /\ x < 2 ^ bits.
Definition means_float (L : floatlib) (v : json) (x : float) : Prop := exists t, v = JNum t /\ scan L t = Some x.

(** A field of an object has value [x]: its members are null or have a value of the
    right type, and the last that is not null counts; without one the field is zero. *)
Definition field {A : Type} (means : json -> A -> Prop) (name : bytes) (zero : A) (l : list (bytes * json)) (x : A) : Prop :=
  (forall k v, In (k, v) l -> alike k name -> v = JNull \/ exists y, means v y) /\
  (((forall k v, In (k, v) l -> alike k name -> v = JNull) /\ x = zero) \/
   exists l1 k v l2, l = l1 ++ (k, v) :: l2 /\ alike k name /\ means v x /\
     forall k' v', In (k', v') l2 -> alike k' name -> v' = JNull).

(** The fields of a configuration. *)
Definition describes_from (L : floatlib) (z : DataConfig) (l : list (bytes * json)) (c : DataConfig) : Prop :=
  field means_str (bs "name") (cName z) l (cName c) /\
  field (means_uint 64) (bs "version") (cVersion z) l (cVersion c) /\
  field (means_uint 64) (bs "targetN") (cTargetN z) l (cTargetN c) /\
  field (means_float L) (bs "targetUtilization") (cTargetUtilization z) l (cTargetUtilization c) /\
  field means_bool (bs "noTarget") (cNoTarget z) l (cNoTarget c) /\
  field (means_uint 32) (bs "replicationOnInsert") (cReplicationOnInsert z) l (cReplicationOnInsert c) /\
  field means_bool (bs "enforceReplicationOnInsert") (cEnforceReplicationOnInsert z) l (cEnforceReplicationOnInsert c) /\
  field (means_uint 64) (bs "retention") (cRetention z) l (cRetention c).
Definition no_fields : DataConfig := mkDataConfig [] 0 0 (S754_zero false) false 0 false 0.
Definition describes (L : floatlib) (v : json) (c : DataConfig) : Prop :=
  (v = JNull /\ c = no_fields) \/ exists l, v = JObj l /\ describes_from L no_fields l c.

(** A text that describes a dataset. *)
Definition describes_text (L : floatlib) (t : bytes) (c : DataConfig) : Prop :=
  exists v, document t v /\ describes L v c.

(** The datasets that lines describe, in order; other lines do not count. *)
Inductive described (L : floatlib) : list bytes -> list DataConfig -> Prop :=
| d_nil : described L [] []
| d_line x xs c cs : describes_text L x c -> described L xs cs -> described L (x :: xs) (c :: cs)
| d_other x xs cs : (forall c, ~ describes_text L x c) -> described L xs cs -> described L (x :: xs) cs.

(** A file of complete lines [xs] and an incomplete one. *)
Definition split_lines (file : bytes) (xs : list bytes) (rest : bytes) : Prop :=
  file = flat_map (fun x => x ++ [10]) xs ++ rest /\ Forall (fun x => ~ In 10 x) xs /\ ~ In 10 rest.

(** Of the configurations with one name, the first of those with the highest version. *)
Definition best (cs : list DataConfig) (n : bytes) (c : DataConfig) : Prop :=
  exists l1 l2, cs = l1 ++ c :: l2 /\ cName c = n /\
    (forall c', In c' l1 -> cName c' = n -> cVersion c' < cVersion c) /\
    (forall c', In c' l2 -> cName c' = n -> cVersion c' <= cVersion c).
