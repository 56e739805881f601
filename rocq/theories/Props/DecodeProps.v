(** C161: exactly what the decoders read. *)
From Verif.Base Require Import GoBase GoLemmas.
From Verif.Model Require Import Codec.
From Verif.Spec Require Import Wire DecodeSpec.
From Verif.Proof Require Import CodecP CodecTop CodecQ.
From Coq Require Import Lia.
Open Scope N_scope.

(** C161 A string of bytes is read as the key k exactly if it stands for k: a number of
    coordinates, the coordinates, the length of the group label, the group label, the
    four sizes, and anything.  Every other string crashes the decoder; it never
    returns an error. *)
Theorem C161_key : forall b, is_bytes b -> blen b < 2 ^ 60 ->
  (forall k, ToDatumKey b = Ok k <-> key_ok k /\ key_fits k /\ stands_for_key b k) /\
  (ToDatumKey b = Panic <-> forall k, key_ok k -> key_fits k -> ~ stands_for_key b k).
Proof.
  intros b HB HL. unfold ToDatumKey.
  assert (IFF : forall k, (' (k, _) <- UnmarshalKey b;; Ok k) = Ok k <-> key_ok k /\ key_fits k /\ stands_for_key b k).
  { intro k. split.
    - intro H. destruct (key_read b HB HL) as [(k' & n & E & X)|E]; rewrite E in H; cbn [bind] in H; [|discriminate H].
      injection H as <-. exact X.
    - intros (K & F & S). destruct (key_there b k HB HL K F S) as (n & E). rewrite E. reflexivity. }
  split; [exact IFF|]. split.
  - intros H k K F S. rewrite (proj2 (IFF k) (conj K (conj F S))) in H. discriminate H.
  - intro H. destruct (key_read b HB HL) as [(k & n & E & K & F & S)|E]; [destruct (H k K F S)|rewrite E; reflexivity].
Qed.
Print Assumptions C161_key.

(** Values: bytes missing at the end of the label are read as zeros. *)
Theorem C161_value : forall b, is_bytes b -> blen b < 2 ^ 60 ->
  (forall v, ToDatumValue b = Ok v <-> value_ok v /\ value_fits v /\ stands_for_value b v) /\
  (ToDatumValue b = Panic <-> forall v, value_ok v -> value_fits v -> ~ stands_for_value b v).
Proof.
  intros b HB HL. unfold ToDatumValue.
  assert (IFF : forall v, (' (v, _) <- UnmarshalValue b;; Ok v) = Ok v <-> value_ok v /\ value_fits v /\ stands_for_value b v).
  { intro v. split.
    - intro H. destruct (value_read b HB HL) as [(v' & n & E & X)|E]; rewrite E in H; cbn [bind] in H; [|discriminate H].
      injection H as <-. exact X.
    - intros (K & F & S). destruct (value_there b v HB HL K F S) as (n & E). rewrite E. reflexivity. }
  split; [exact IFF|]. split.
  - intros H v K F S. rewrite (proj2 (IFF v) (conj K (conj F S))) in H. discriminate H.
  - intro H. destruct (value_read b HB HL) as [(v & n & E & K & F & S)|E]; [destruct (H v K F S)|rewrite E; reflexivity].
Qed.
Print Assumptions C161_value.

(** Scores: the first eight bytes. *)
Theorem C161_score : forall b, is_bytes b ->
  (forall s n, UnmarshalScore b = Ok (s, n) <-> is_u64 s /\ n = 8 /\ exists rest, b = le 8 s ++ rest) /\
  (UnmarshalScore b = Panic <-> (length b < 8)%nat).
Proof.
  intros b HB. unfold UnmarshalScore. change (u64 (0 + 8)) with 8.
  assert (FWD : forall s rest, is_u64 s -> b = le 8 s ++ rest -> get_u64 b 0 = Ok s).
  { intros s rest S E. rewrite E. apply (get_u64_spec s [] rest 0 S eq_refl). reflexivity. }
  destruct (u64_read b HB) as [(v & r & E & V & R)|(R & L)]; rewrite R; cbn [bind].
  - split.
    + intros s n. split; [intro H; injection H as <- <-; eauto|]. intros (S & -> & rest & E').
      rewrite (FWD s rest S E') in R. injection R as ->. reflexivity.
    + split; [discriminate|]. intro L. rewrite E, app_length, le_length in L. lia.
  - split.
    + intros s n. split; [discriminate|]. intros (S & _ & rest & E). rewrite (FWD s rest S E) in R. discriminate R.
    + split; auto.
Qed.
Print Assumptions C161_score.

(** What was read can be written and is then read again; what is written is no longer
    than what was read. *)
Theorem C161_again : forall b k, is_bytes b -> blen b < 2 ^ 60 -> ToDatumKey b = Ok k ->
  exists b', MarshalKey (Some k) = Ok b' /\ ToDatumKey b' = Ok k /\ (length b' <= length b)%nat.
Proof.
  intros b k HB HL H. destruct (C161_key b HB HL) as (IFF & _). destruct (proj1 (IFF k) H) as (K & F & l1 & l2 & rest & E & O1 & N1 & O2 & N2).
  exists (wire_key k). split; [apply MarshalKey_spec; exact F|]. split.
  - unfold ToDatumKey. pose proof (UnmarshalKey_spec k [] K F) as U. rewrite app_nil_r in U. rewrite U. reflexivity.
  - rewrite E. unfold wire_key. rewrite !app_length, <- N1, <- N2.
    pose proof (shortest l1 O1). pose proof (shortest l2 O2). lia.
Qed.
Print Assumptions C161_again.

(** Instances.  A key with one coordinate and the group label "g" whose lengths are written with
    two and eleven bytes, followed by something else; the same string without its last five
    bytes; a label that is missing; a number that goes on for 38 bytes, where the shift
    distance has started again at 3. *)
Definition long_key : bytes := [129; 0] ++ [0; 0; 128; 63] ++ [129; 128; 128; 128; 128; 128; 128; 128; 128; 128; 0] ++ [103]
  ++ [1; 0; 0; 0; 2; 0; 0; 0; 3; 0; 0; 0; 4; 0; 0; 0] ++ [77].
Definition the_key : DatumKey := mkKey [1065353216] (bs "g") 1 2 3 4.
Example C161_instance :
  is_bytes long_key /\ blen long_key < 2 ^ 60 /\ key_ok the_key /\ key_fits the_key /\ stands_for_key long_key the_key /\
  ToDatumKey long_key = Ok the_key /\ ToDatumKey (removelast (removelast long_key)) = Panic /\
  ToDatumValue [5; 0; 0; 0; 0; 0; 0; 0; 3; 97] = Ok (mkValue 5 [97; 0; 0]) /\
  ToDatumValue ([5; 0; 0; 0; 0; 0; 0; 0] ++ repeat 128 37 ++ [1]) = Ok (mkValue 5 [0; 0; 0; 0; 0; 0; 0; 0]).
Proof.
  split; [repeat constructor|]. split; [reflexivity|]. split.
  { split; [constructor; [reflexivity|constructor]|]. split; [constructor; [reflexivity|constructor]|].
    split; [reflexivity|]. split; [reflexivity|]. split; reflexivity. }
  split; [vm_compute; split; discriminate|]. split.
  { exists [129; 0], [129; 128; 128; 128; 128; 128; 128; 128; 128; 128; 0], [77]. split; [reflexivity|]. split.
    { exists [129], 0. split; [reflexivity|]. split; [repeat (constructor; [lia|]); constructor|reflexivity]. }
    split; [reflexivity|]. split; [|reflexivity].
    exists [129; 128; 128; 128; 128; 128; 128; 128; 128; 128], 0. split; [reflexivity|].
    split; [repeat (constructor; [lia|]); constructor|reflexivity]. }
  vm_compute. auto.
Qed.
