(** Properties C01-C06: the binary encoding of keys and values. *)
From Verif.Base Require Import GoBase GoLemmas.
From Verif.Model Require Import Codec.
From Verif.Spec Require Import Wire.
From Verif.Proof Require Import CodecP CodecTop.
Open Scope N_scope.

(** A concrete key used by the instances below: three features (1.0, -0.0 and a
    NaN with payload), a group label of 200 bytes (two-byte length prefix). *)
Definition ex_key : DatumKey :=
  mkKey [1065353216; 2147483648; 2143289345] (repeat 7 200) 1 2 3 4294967295.
Definition ex_value : DatumValue := mkValue 18446744073709551615 (repeat 34 130).

Lemma ex_key_ok : key_ok ex_key /\ key_fits ex_key.
Proof.
  split.
  - unfold key_ok, ex_key, is_u32, is_bytes, M32.
    cbn [feature groupLabel size1 size2 dim1 dim2].
    split; [repeat constructor|].
    split; [|lia].
    apply Forall_forall. intros x H. apply repeat_spec in H. subst. reflexivity.
  - unfold key_fits. split; vm_compute; congruence.
Qed.

Lemma ex_value_ok : value_ok ex_value /\ value_fits ex_value.
Proof.
  split.
  - split; [reflexivity|]. apply Forall_forall. intros x H.
    apply repeat_spec in H. subst. reflexivity.
  - vm_compute. congruence.
Qed.

(** C01 Datum keys survive encoding. *)
Theorem C01_key_roundtrip : forall k v rest,
  key_ok k -> key_fits k ->
  exists b, GetKeyAsBytes (Some (mkDatum (Some k) v)) = Ok b /\
            ToDatumKey b = Ok k /\
            UnmarshalKey (b ++ rest) = Ok (k, blen b).
Proof.
  intros k v rest Hk Hf. exists (wire_key k). split; [|split].
  - exact (MarshalKey_spec k Hf).
  - unfold ToDatumKey. pose proof (UnmarshalKey_spec k [] Hk Hf) as U.
    rewrite app_nil_r in U. rewrite U. reflexivity.
  - exact (UnmarshalKey_spec k rest Hk Hf).
Qed.
Print Assumptions C01_key_roundtrip.

Example C01_instance : exists b,
  GetKeyAsBytes (Some (mkDatum (Some ex_key) None)) = Ok b /\ length b = 231%nat /\
  ToDatumKey b = Ok ex_key.
Proof. exists (wire_key ex_key). vm_compute. repeat split. Qed.

(** The bytes themselves: the encoder produces the documented wire format. *)
Theorem C01_key_wire_format : forall k, key_fits k ->
  MarshalKey (Some k) = Ok (wire_key k).
Proof. exact MarshalKey_spec. Qed.
Print Assumptions C01_key_wire_format.

(** C02 Two different keys never share an encoding (equal encodings, as map
    keys, only for equal keys). *)
Theorem C02_key_injective : forall k1 k2 b,
  key_ok k1 -> key_ok k2 -> key_fits k1 -> key_fits k2 ->
  MarshalKey (Some k1) = Ok b -> MarshalKey (Some k2) = Ok b -> k1 = k2.
Proof.
  intros k1 k2 b O1 O2 F1 F2 E1 E2.
  rewrite MarshalKey_spec in E1, E2 by auto.
  injection E1 as E1. injection E2 as E2. subst b.
  apply (wire_key_prefix_free k1 k2 [] []); auto. rewrite !app_nil_r. auto.
Qed.
Print Assumptions C02_key_injective.

(** C02, second half: no encoding is a prefix of another one, and a
    concatenation key ++ anything determines both parts. *)
Theorem C02_key_prefix_free : forall k1 k2 b1 b2 s1 s2,
  key_ok k1 -> key_ok k2 -> key_fits k1 -> key_fits k2 ->
  MarshalKey (Some k1) = Ok b1 -> MarshalKey (Some k2) = Ok b2 ->
  EncodeToString (b1 ++ s1) = EncodeToString (b2 ++ s2) -> k1 = k2 /\ s1 = s2.
Proof.
  intros k1 k2 b1 b2 s1 s2 O1 O2 F1 F2 E1 E2 E.
  rewrite MarshalKey_spec in E1, E2 by auto.
  injection E1 as <-. injection E2 as <-.
  apply (wire_key_prefix_free k1 k2 s1 s2); auto.
Qed.
Print Assumptions C02_key_prefix_free.

Example C02_instance :
  let k1 := mkKey [7] [] 1 1 1 1 in let k2 := mkKey [] [7;0;0;0] 1 1 1 1 in
  key_ok k1 /\ key_ok k2 /\ key_fits k1 /\ key_fits k2 /\ k1 <> k2 /\
  (* moving a byte between label and features changes the encoding *)
  MarshalKey (Some k1) <> MarshalKey (Some k2).
Proof.
  cbv zeta. unfold key_ok, key_fits, is_bytes, is_u32, M32.
  split; [repeat split; cbn; repeat constructor|]. split; [repeat split; cbn; repeat constructor|].
  split; [split; cbn; lia|]. split; [split; cbn; lia|]. split; [discriminate|].
  vm_compute. congruence.
Qed.

(** C03 Datum values survive encoding. *)
Theorem C03_value_roundtrip : forall k v rest,
  value_ok v -> value_fits v ->
  exists b, GetValueAsBytes (Some (mkDatum k (Some v))) = Ok b /\
            ToDatumValue b = Ok v /\
            UnmarshalValue (b ++ rest) = Ok (v, blen b).
Proof.
  intros k v rest Hk Hf. exists (wire_value v). split; [|split].
  - exact (MarshalValue_spec v Hf).
  - unfold ToDatumValue. pose proof (UnmarshalValue_spec v [] Hk Hf) as U.
    rewrite app_nil_r in U. rewrite U. reflexivity.
  - exact (UnmarshalValue_spec v rest Hk Hf).
Qed.
Print Assumptions C03_value_roundtrip.

Theorem C03_value_injective : forall v1 v2 b,
  value_ok v1 -> value_ok v2 -> value_fits v1 -> value_fits v2 ->
  MarshalValue (Some v1) = Ok b -> MarshalValue (Some v2) = Ok b -> v1 = v2.
Proof.
  intros k1 k2 b O1 O2 F1 F2 E1 E2.
  rewrite MarshalValue_spec in E1, E2 by auto.
  injection E1 as E1. injection E2 as E2. subst b.
  apply (wire_value_prefix_free k1 k2 [] []); auto. rewrite !app_nil_r. auto.
Qed.
Print Assumptions C03_value_injective.

(** A whole datum through ToDatum. *)
Theorem C03_datum_roundtrip : forall k v,
  key_ok k -> key_fits k -> value_ok v -> value_fits v ->
  exists bk bv,
    GetKeyAsBytes (Some (mkDatum (Some k) (Some v))) = Ok bk /\
    GetValueAsBytes (Some (mkDatum (Some k) (Some v))) = Ok bv /\
    ToDatum bk bv = Ok (mkDatum (Some k) (Some v)).
Proof.
  intros k v K1 K2 V1 V2.
  destruct (C01_key_roundtrip k (Some v) [] K1 K2) as (bk & A1 & A2 & _).
  destruct (C03_value_roundtrip (Some k) v [] V1 V2) as (bv & B1 & B2 & _).
  exists bk, bv. repeat split; auto. unfold ToDatum. rewrite A2. cbn [bind].
  rewrite B2. reflexivity.
Qed.
Print Assumptions C03_datum_roundtrip.

(** Scores (float64 bit patterns) survive too. *)
Theorem C03_score_roundtrip : forall s rest, is_u64 s ->
  exists b, MarshalScore s = Ok b /\ UnmarshalScore (b ++ rest) = Ok (s, blen b).
Proof.
  intros s rest Hs. exists (wire_score s). split.
  - apply MarshalScore_spec.
  - exact (UnmarshalScore_spec s rest Hs).
Qed.
Print Assumptions C03_score_roundtrip.

Example C03_instance : exists bk bv,
  GetKeyAsBytes (Some (mkDatum (Some ex_key) (Some ex_value))) = Ok bk /\
  GetValueAsBytes (Some (mkDatum (Some ex_key) (Some ex_value))) = Ok bv /\
  length bv = 140%nat /\
  ToDatum bk bv = Ok (mkDatum (Some ex_key) (Some ex_value)).
Proof. exists (wire_key ex_key), (wire_value ex_value). vm_compute. repeat split. Qed.
Example C03_instance_score : is_u64 4607182418800017408 /\
  exists b, MarshalScore 4607182418800017408 = Ok b /\
    UnmarshalScore (b ++ [1; 2]) = Ok (4607182418800017408, 8).
Proof. split; [reflexivity|]. eexists. split; vm_compute; reflexivity. Qed.

(** C04 Encoders never write outside their buffer: every call returns (no
    index panic), and what it returns is the whole buffer of the size computed
    beforehand. *)
Theorem C04_encoders_in_bounds : forall k v s,
  key_fits k -> value_fits v ->
  (exists n b, SizeKey (Some k) = Ok n /\ MarshalKey (Some k) = Ok b /\ blen b = n) /\
  (exists n b, SizeValue (Some v) = Ok n /\ MarshalValue (Some v) = Ok b /\ blen b = n) /\
  (exists b, MarshalScore s = Ok b /\ blen b = 8).
Proof.
  intros k v s Hk Hv. repeat split.
  - exists (blen (wire_key k)), (wire_key k).
    repeat split; [apply SizeKey_spec | apply MarshalKey_spec]; auto.
  - exists (blen (wire_value v)), (wire_value v).
    repeat split; [apply SizeValue_spec | apply MarshalValue_spec]; auto.
  - exists (wire_score s). split; [apply MarshalScore_spec|].
    unfold wire_score. rewrite blen_le. reflexivity.
Qed.
Print Assumptions C04_encoders_in_bounds.

Example C04_instance :
  (* 128 features: the length prefix has just become two bytes *)
  exists b, MarshalKey (Some (mkKey (repeat 5 128) (repeat 1 127) 0 0 0 0)) = Ok b
            /\ length b = (2 + 512 + 1 + 127 + 16)%nat.
Proof.
  exists (wire_key (mkKey (repeat 5 128) (repeat 1 127) 0 0 0 0)).
  vm_compute. repeat split.
Qed.

(** C05 (key half): decoding a strict prefix of a key encoding never yields a
    key.  Missing with respect to the property: it is not reported to the
    caller, the decoder panics (see the refutation below). *)
Theorem C05_truncated_key_partial : forall k b n,
  key_ok k -> key_fits k -> MarshalKey (Some k) = Ok b -> (n < length b)%nat ->
  ToDatumKey (firstn n b) = Panic.
Proof.
  intros k b n Hk Hf E Hn. rewrite MarshalKey_spec in E by auto. injection E as <-.
  unfold ToDatumKey. rewrite truncated_key_panics; auto.
Qed.
Print Assumptions C05_truncated_key_partial.

(** A key of 231 bytes without its last byte. *)
Example C05_instance_key : key_ok ex_key /\ key_fits ex_key /\
  exists b, MarshalKey (Some ex_key) = Ok b /\ (230 < length b)%nat /\
    ToDatumKey (firstn 230 b) = Panic /\ ToDatumKey b = Ok ex_key.
Proof.
  split; [apply ex_key_ok|]. split; [apply ex_key_ok|]. exists (wire_key ex_key).
  split; [vm_compute; reflexivity|]. split; [vm_compute; lia|]. split; vm_compute; reflexivity.
Qed.

(** C05 (value half, what does hold): a value cut before its label is not
    accepted, and one cut inside its label keeps its version and the label
    bytes present, the others read as zero. *)
Theorem C05_truncated_value_partial : forall v b n,
  value_ok v -> value_fits v -> MarshalValue (Some v) = Ok b -> (n < length b)%nat ->
  ToDatumValue (firstn n b) = Panic \/
  exists m, (m < length (label v))%nat /\
    ToDatumValue (firstn n b) =
      Ok (mkValue (version v) (firstn m (label v) ++ repeat 0 (length (label v) - m))).
Proof.
  intros v b n Hv Hf E Hn. rewrite MarshalValue_spec in E by auto. injection E as <-.
  pose proof (truncated_value v n Hv Hf Hn) as T. cbv zeta in T.
  unfold ToDatumValue.
  destruct (n <? 8 + length (varint (blen (label v))))%nat eqn:C.
  - left. rewrite T. reflexivity.
  - right. exists (n - (8 + length (varint (blen (label v)))))%nat.
    apply Nat.ltb_ge in C. split.
    + unfold wire_value in Hn. rewrite !app_length, le_length in Hn. lia.
    + rewrite T. reflexivity.
Qed.
Print Assumptions C05_truncated_value_partial.

(** A value of 140 bytes: cut in its length prefix it is refused, cut in its label
    it is accepted with zeros in place of what is missing. *)
Example C05_instance_value : value_ok ex_value /\ value_fits ex_value /\
  exists b, MarshalValue (Some ex_value) = Ok b /\ (138 < length b)%nat /\
    ToDatumValue (firstn 9 b) = Panic /\
    ToDatumValue (firstn 138 b) = Ok (mkValue (version ex_value) (repeat 34 128 ++ [0; 0])).
Proof.
  split; [apply ex_value_ok|]. split; [apply ex_value_ok|]. exists (wire_value ex_value).
  split; [vm_compute; reflexivity|]. split; [vm_compute; lia|]. split; vm_compute; reflexivity.
Qed.

(** C05 refuted: a truncated value is accepted with a different label and no
    error, and a truncated key is a crash instead of an error. *)
Theorem C05_truncation_refuted :
  (exists v b n v', value_ok v /\ value_fits v /\ MarshalValue (Some v) = Ok b /\
     (n < length b)%nat /\ ToDatumValue (firstn n b) = Ok v' /\ v' <> v) /\
  (exists k b n, key_ok k /\ key_fits k /\ MarshalKey (Some k) = Ok b /\
     (n < length b)%nat /\ forall e, ToDatumKey (firstn n b) <> Err e).
Proof.
  split.
  - exists (mkValue 1 (bs "abc")), (wire_value (mkValue 1 (bs "abc"))), 11%nat,
      (mkValue 1 [97;98;0]).
    split; [split; [reflexivity|repeat constructor]|].
    split; [vm_compute; congruence|].
    split; [vm_compute; reflexivity|]. split; [apply Nat.ltb_lt; reflexivity|].
    split; [vm_compute; reflexivity|discriminate].
  - exists ex_key, (wire_key ex_key), 10%nat.
    split; [apply ex_key_ok|]. split; [apply ex_key_ok|].
    split; [vm_compute; reflexivity|]. split; [apply Nat.ltb_lt; reflexivity|].
    intros e. vm_compute. discriminate.
Qed.
Print Assumptions C05_truncation_refuted.

(** C06 NewDatum: every field but Size2 is the argument of the same name. *)
Theorem C06_new_datum_partial : forall f d1 d2 s1 s2 g l ver,
  exists k v, NewDatum f d1 d2 s1 s2 g l ver = mkDatum (Some k) (Some v) /\
    feature k = f /\ dim1 k = d1 /\ dim2 k = d2 /\ size1 k = s1 /\
    groupLabel k = g /\ label v = l /\ version v = ver /\
    (s1 = s2 -> size2 k = s2).
Proof. intros. eexists. eexists. repeat split; auto. Qed.
Print Assumptions C06_new_datum_partial.

(** Equal sizes: everything is stored. *)
Example C06_instance :
  NewDatum [1065353216; 5] 1 2 3 3 (bs "g") (bs "x") 9 =
  mkDatum (Some (mkKey [1065353216; 5] (bs "g") 3 3 1 2)) (Some (mkValue 9 (bs "x"))).
Proof. reflexivity. Qed.

(** C06 refuted: Size2 receives size1. *)
Theorem C06_new_datum_refuted :
  exists f d1 d2 s1 s2 g l ver k,
    dkey (NewDatum f d1 d2 s1 s2 g l ver) = Some k /\ size2 k <> s2.
Proof.
  exists [1065353216], 1, 0, 1, 0, [], (bs "a"), 0. eexists. split; [reflexivity|].
  cbn. congruence.
Qed.
Print Assumptions C06_new_datum_refuted.

(** C06, consequence: two data that differ only in size2 get the same key
    bytes, so the second one overwrites the first in the store. *)
Theorem C06_size2_collision_refuted :
  exists d d' s2 s2', s2 <> s2' /\
    d = NewDatum [1065353216] 1 1 3 s2 (bs "g") (bs "x") 0 /\
    d' = NewDatum [1065353216] 1 1 3 s2' (bs "g") (bs "y") 0 /\
    GetKeyAsBytes (Some d) = GetKeyAsBytes (Some d') /\
    exists b, GetKeyAsBytes (Some d) = Ok b.
Proof.
  eexists. eexists. exists 5, 6. split; [congruence|].
  split; [reflexivity|]. split; [reflexivity|].
  split; [vm_compute; reflexivity|]. eexists. vm_compute. reflexivity.
Qed.
Print Assumptions C06_size2_collision_refuted.
