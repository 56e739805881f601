(** Specification vocabulary for the background synchronisation: what an
    outside observer of the store and of the sources sees. *)
From Verif.Base Require Import GoBase Assoc Float.
From Verif.Model Require Import Codec Store Data Insert Vector Dataset Sync.
Open Scope N_scope.

(** The store of a dataset. *)
Definition store (s : sync) : dbmap := dDBMap (yData s).

(** The key of a datum, as bytes. *)
Definition has_key (d : Datum) (k : bytes) : Prop := GetKeyAsBytes (Some d) = Ok k.

(** Every entry is stored under the key of its datum. *)
Definition keyed (m : dbmap) : Prop := forall k e, mload m k = Some e -> has_key (edatum e) k.

(** Messages sent to sources: sender number, source, datum, and whether the
    source acknowledged it. *)
Inductive obs := Offered (i : nat) (id : bytes) (d : Datum) (ok : bool).

Definition observe (s : sync) (e : yev) : list obs :=
  match e with
  | YSend i (SOffer ok) =>
      match nth_error (ySenders s) i with
      | Some r => match rPc r with
                  | Visit d _ (id :: _) => [Offered i id d ok]
                  | _ => []
                  end
      | None => []
      end
  | _ => []
  end.

(** All messages of an execution. *)
Fixpoint messages (M : mathlib) (undef : N) (s : sync) (es : list yev) : list obs :=
  match es with
  | [] => []
  | e :: es' => observe s e ++ match sync_step M undef s e with
                               | Some s' => messages M undef s' es'
                               | None => []
                               end
  end.

(** Some source acknowledged the datum. *)
Definition acknowledged (d : Datum) (t : list obs) : Prop :=
  exists i id, In (Offered i id d true) t.

(** An entry that was there is gone. *)
Definition lost (m m' : dbmap) (k : bytes) (e : entry) : Prop :=
  mload m k = Some e /\ mload m' k = None.

(** A step of the background synchronisation, as opposed to clients. *)
Definition background (e : yev) : Prop :=
  match e with YProcess _ _ | YSend _ _ => True | _ => False end.

(** A step of a sender. *)
Definition is_send (e : yev) : Prop :=
  match e with YSend _ _ => True | _ => False end.

(** Clients insert nothing but d under the key k. *)
Definition only_inserts (k : bytes) (d : Datum) (es : list yev) : Prop :=
  forall now d' c, In (YInsert now (Some d') c) es -> has_key d' k -> d' = d.

(** Range visits exactly the stored entries. *)
Definition range_ok (s : sync) (e : yev) : Prop :=
  match e with YProcess P _ => Permutation (pOrder P) (store s) | _ => True end.

(** TargetN * TargetUtilization as a number of data. *)
Definition level (undef targetN : N) (utilization : float) : N :=
  f_to_u64 undef (f64mul (f64_of_Z (Z.of_N targetN)) utilization).

(** How many offers sender i made to source id. *)
Definition offers (i : nat) (id : bytes) (t : list obs) : N :=
  blen (filter (fun o => match o with
                         | Offered j id' _ _ => Nat.eqb i j && bytes_eqb id id'
                         end) t).

(** Sum of the quotas. *)
Definition total (m : amap N) : N := fold_right (fun p n => snd p + n) 0 m.

(** The number of entries that sender i removed in an execution on behalf of
    source id. *)
Definition serving (s : sync) (i : nat) (id : bytes) : bool :=
  match nth_error (ySenders s) i with
  | Some r => match rPc r with Acked _ _ id' _ => bytes_eqb id id' | _ => false end
  | None => false
  end.
Definition mentions (i : nat) (e : yev) : bool :=
  match e with YSend j _ => Nat.eqb i j | _ => false end.
Fixpoint removals (M : mathlib) (undef : N) (i : nat) (id : bytes) (s : sync) (es : list yev) : N :=
  match es with
  | [] => 0
  | e :: es' =>
      match sync_step M undef s e with
      | Some s' =>
          (if mentions i e && serving s i id
           then N.of_nat (length (store s) - length (store s')) else 0)
          + removals M undef i id s' es'
      | None => 0
      end
  end.

(** The number of entries that sender i removed in an execution. *)
Fixpoint removed_by (M : mathlib) (undef : N) (i : nat) (s : sync) (es : list yev) : N :=
  match es with
  | [] => 0
  | e :: es' =>
      match sync_step M undef s e with
      | Some s' =>
          (if mentions i e then N.of_nat (length (store s) - length (store s')) else 0)
          + removed_by M undef i s' es'
      | None => 0
      end
  end.

(** An iteration over diffMap visits every key once. *)
Definition order_ok (s : sync) (e : yev) : Prop :=
  match e with
  | YSend i (STake order) =>
      forall r, nth_error (ySenders s) i = Some r -> Permutation order (mkeys (rDiff r))
  | _ => True
  end.

(** Every step of an execution satisfies a side condition. *)
Fixpoint every (M : mathlib) (undef : N) (ok : sync -> yev -> Prop) (s : sync) (es : list yev) : Prop :=
  match es with
  | [] => True
  | e :: es' => ok s e /\
      match sync_step M undef s e with
      | Some s' => every M undef ok s' es'
      | None => True
      end
  end.

(** The environment of a call of Process: distinct sources, 64-bit counts. *)
Definition env_ok (e : yev) : Prop :=
  match e with
  | YProcess P _ => NoDup (pItems P) /\ forall id i, pInfo P id = Some i -> iN i < M64
  | _ => True
  end.

(** The dataset is not closed. *)
Definition not_close (e : yev) : Prop := e <> YClose.

(** ** Statistics *)

(** n times the addition of unit, starting from 0. *)
Fixpoint pile (unit : float) (n : nat) : float :=
  match n with O => S754_zero false | S n' => f32add (pile unit n') unit end.

(** The number of elements with a given bucket. *)
Definition in_bucket {A} (b : A -> nat) (i : nat) (l : list A) : nat :=
  length (filter (fun x => Nat.eqb (b x) i) l).

(** The mean of numbers in float32 arithmetic: every number is divided by their
    count and added up. *)
Definition float_mean (xs : list float) : float :=
  fold_left (fun a x => f32add a (f32div x (f32_of_Z (Z.of_nat (length xs))))) xs (S754_zero false).

(** The data an undisturbed scan sees. *)
Definition live_data (tick : bytes -> Z) (order : list (bytes * entry)) : list Datum :=
  map (fun p => edatum (snd p)) (filter (fun p => negb (expired (tick (fst p)) (snd p))) order).

(** b is the largest of the numbers xs and zero (a NaN is never the largest). *)
Definition largest (b : float) (xs : list float) : Prop :=
  (b = S754_zero false \/ In b xs) /\ forall x, In x xs -> fgtb x b = false.

(** Bucket i of 64 is the right one for a distance d when the scale ends at M: the
    integer part of 64 d / M, cut to 0..63; any bucket if that is no number of 64
    bits. *)
Definition right_bucket (d M : float) (i : nat) : Prop :=
  (i < 64)%nat /\
  forall z, f_trunc (f64mul (f64div d M) (f64_of_Z 64)) = Some z ->
    (-9223372036854775808 <= z < 9223372036854775808)%Z ->
    Z.of_nat i = Z.max 0 (Z.min 63 z).
