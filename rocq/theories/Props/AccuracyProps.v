(** C149: how far the scores may be from the true distances. *)
From Verif.Base Require Import GoBase GoLemmas Assoc Float GoSort.
From Verif.Model Require Import Codec Store Data Vector Search.
From Verif.Spec Require Import Wire StoreSpec TopK VectorSpec AccuracySpec.
From Verif.Proof Require Import FloatP RoundP VectorP MonoP TruncP StoreP StoreQ SearchP ErrorP ErrorQ.
From Verif.Props Require Import StoreProps SearchProps.
From Coq Require Import Lia ZArith.
Open Scope Z_scope.

Lemma unsigned_value : forall x E, unsigned 53 1024 x -> value E x = units E x /\ finite x /\ is_nan x = false.
Proof. intros [s|s| |[] m e] E U; cbn in U; try contradiction; repeat split. Qed.

(** QuickVectorDistance is off by at most one part in 2^23, whatever the vectors and
    however small the differences, if no difference is beyond 2^127. *)
Theorem C149_quick : forall a b, quick_fits a b ->
  finite (QuickVectorDistance a b) /\
  Z.abs (value (-1074) (QuickVectorDistance a b) - taxi32 a b * 2 ^ (1074 - 149)) * 2 ^ 23 <=
    taxi32 a b * 2 ^ (1074 - 149).
Proof.
  intros a b (A & B & G & Hn). destruct (quick_error a b A B G Hn) as [U E].
  destruct (unsigned_value _ (-1074) U) as (-> & F & _). split; auto.
Qed.
Print Assumptions C149_quick.

(** The square of VectorDistance is off by at most 2n + 6 parts in 2^24, for vectors of n
    coordinates. *)
Theorem C149_distance : forall M a b, squares M -> euclid_fits a b ->
  finite (VectorDistance M a b) /\
  Z.abs (value (-1074) (VectorDistance M a b) * value (-1074) (VectorDistance M a b) - euclid32 a b * 2 ^ (2 * 1074 - 298)) * 2 ^ 24 <=
    (2 * Z.of_nat (length (combine a b)) + 6) * (euclid32 a b * 2 ^ (2 * 1074 - 298)).
Proof.
  intros M a b HM (A & B & G & HT & Hn). destruct (distance_error M a b HM A B G HT Hn) as [U E].
  destruct (unsigned_value _ (-1074) U) as (-> & F & _). split; auto.
Qed.
Print Assumptions C149_distance.

(** So a pair of vectors that scores no worse is nearer, or farther by that little. *)
Theorem C149_quick_order : forall a b c d, quick_fits a b -> quick_fits c d ->
  SFleb (QuickVectorDistance a b) (QuickVectorDistance c d) = true ->
  taxi32 a b * (2 ^ 23 - 1) <= taxi32 c d * (2 ^ 23 + 1).
Proof.
  intros a b c d (A & B & G & Hn) (A' & B' & G' & Hn') L.
  destruct (quick_error a b A B G Hn) as [U E]. destruct (quick_error c d A' B' G' Hn') as [U' E'].
  apply (fleb_units 53 1024 ltac:(lia) _ _ (-1074) (Z.le_refl _) U U') in L.
  apply (Z.mul_le_mono_pos_r _ _ (2 ^ 925)); [reflexivity|].
  replace (taxi32 a b * (2 ^ 23 - 1) * 2 ^ 925) with (taxi32 a b * 2 ^ 925 * (2 ^ 23 - 1)) by ring.
  replace (taxi32 c d * (2 ^ 23 + 1) * 2 ^ 925) with (taxi32 c d * 2 ^ 925 * (2 ^ 23 + 1)) by ring.
  set (x := taxi32 a b * 2 ^ 925) in *. set (y := taxi32 c d * 2 ^ 925) in *. clearbody x y. lia.
Qed.
Print Assumptions C149_quick_order.

Theorem C149_distance_order : forall M a b c d n, squares M -> euclid_fits a b -> euclid_fits c d ->
  Z.of_nat (length (combine a b)) <= n -> Z.of_nat (length (combine c d)) <= n ->
  SFleb (VectorDistance M a b) (VectorDistance M c d) = true ->
  euclid32 a b * (2 ^ 24 - (2 * n + 6)) <= euclid32 c d * (2 ^ 24 + (2 * n + 6)).
Proof.
  intros M a b c d n HM (A & B & G & HT & Hn) (A' & B' & G' & HT' & Hn') N N' L.
  destruct (distance_error M a b HM A B G HT Hn) as [U E]. destruct (distance_error M c d HM A' B' G' HT' Hn') as [U' E'].
  apply (fleb_units 53 1024 ltac:(lia) _ _ (-1074) (Z.le_refl _) U U') in L.
  pose proof (euclid_nonneg a b) as T0. pose proof (euclid_nonneg c d) as T0'.
  pose proof (units_nonneg (VectorDistance M a b) (-1074)) as V0.
  assert (LL : units (-1074) (VectorDistance M a b) * units (-1074) (VectorDistance M a b) <=
               units (-1074) (VectorDistance M c d) * units (-1074) (VectorDistance M c d)) by (apply Z.mul_le_mono_nonneg; lia).
  assert (P : 0 < 2 ^ 1850) by (apply Z.pow_pos_nonneg; lia). set (p := 2 ^ 1850) in *. clearbody p.
  set (n1 := Z.of_nat (length (combine a b))) in *. set (n2 := Z.of_nat (length (combine c d))) in *.
  assert (X0 : 0 <= euclid32 a b * p) by (apply Z.mul_nonneg_nonneg; lia).
  assert (Y0 : 0 <= euclid32 c d * p) by (apply Z.mul_nonneg_nonneg; lia).
  assert (K1 : (2 * n1 + 6) * (euclid32 a b * p) <= (2 * n + 6) * (euclid32 a b * p)) by (apply Z.mul_le_mono_nonneg_r; lia).
  assert (K2 : (2 * n2 + 6) * (euclid32 c d * p) <= (2 * n + 6) * (euclid32 c d * p)) by (apply Z.mul_le_mono_nonneg_r; lia).
  apply (Z.mul_le_mono_pos_r _ _ p); [exact P|].
  replace (euclid32 a b * (2 ^ 24 - (2 * n + 6)) * p) with (euclid32 a b * p * 2 ^ 24 - (2 * n + 6) * (euclid32 a b * p)) by ring.
  replace (euclid32 c d * (2 ^ 24 + (2 * n + 6)) * p) with (euclid32 c d * p * 2 ^ 24 + (2 * n + 6) * (euclid32 c d * p)) by ring.
  set (x := euclid32 a b * p) in *. set (y := euclid32 c d * p) in *.
  set (v := units (-1074) (VectorDistance M a b) * units (-1074) (VectorDistance M a b)) in *.
  set (w := units (-1074) (VectorDistance M c d) * units (-1074) (VectorDistance M c d)) in *. clearbody x y v w.
  set (k := (2 * n + 6) * x) in *. set (k' := (2 * n + 6) * y) in *.
  set (j := (2 * n1 + 6) * x) in *. set (j' := (2 * n2 + 6) * y) in *. clearbody k k' j j'. lia.
Qed.
Print Assumptions C149_distance_order.

(** What a search returns is in order, and nothing better is left out, up to the
    relation [P] in which scores that are no worse stand. *)
Definition returns_by (P : DatumKey -> DatumKey -> Prop) (h : list call) (t2 : Z) (ex : bytes -> bytes -> bool) (config : SearchConfig)
    (l : list ScoredDatum) : Prop :=
  (forall x, In x l -> exists k v t ttl, latest h k = Some (t, v, ttl) /\ sDatum x = kv k v) /\
  (forall l1 x l2 y l3 k v k' v', l = l1 ++ x :: l2 ++ y :: l3 -> sDatum x = kv k v -> sDatum y = kv k' v' -> P k k') /\
  (forall k v t ttl, key_ok k -> key_fits k -> latest h k = Some (t, v, ttl) ->
     ttl = 0%N \/ (t2 < t + Z.of_N ttl - 9)%Z -> passes ex config (kv k v) = true ->
     (exists x, In x l /\ sDatum x = kv k v) \/
     (length l = N.to_nat (scLimit config) /\ forall x k' v', In x l -> sDatum x = kv k' v' -> P k' k)).

Lemma search_by : forall t0 h t1 t2 G ex f config q qv tick ord (P : DatumKey -> DatumKey -> Prop),
  (10 <= t0)%Z -> history t0 h t1 -> (forall b, (t1 <= tick b <= t2)%Z) ->
  (forall m, Permutation (ord m) m) -> (1 <= scLimit config < M32)%N -> scHigherIsBetter config = false ->
  (forall k v t ttl, latest h k = Some (t, v, ttl) -> is_nan (f (vec k) (vec q)) = false) ->
  (forall k v t ttl k' v' t' ttl', latest h k = Some (t, v, ttl) -> latest h k' = Some (t', v', ttl') ->
     SFleb (f (vec k) (vec q)) (f (vec k') (vec q)) = true -> P k k') ->
  exists m m' l,
    run_calls [] h = Ok m /\
    Search G ex f tick (ord m) m (Some (mkDatum (Some q) qv)) config = (m', Ok l) /\
    returns_by P h t2 ex config l.
Proof.
  intros t0 h t1 t2 G ex f config q qv tick ord P H10 Hh Ht Ho HL Hd HN HP.
  destruct (C18_search_after_history t0 h t1 t2 G ex f config q qv tick ord H10 Hh Ht Ho HL HN)
    as (m & m' & l & R & S & ND & So & Sd & Cp).
  exists m, m', l. split; auto. split; auto.
  assert (SC : forall x k v, In x l -> sDatum x = kv k v -> sScore x = f (vec k) (vec q) /\ exists v t ttl, latest h k = Some (t, v, ttl)).
  { intros x k v Hx E. destruct (Sd x Hx) as (k1 & v1 & t & ttl & L & _ & _ & ->).
    cbn [sDatum sScore] in *. unfold kv in E. injection E as -> ->. eauto. }
  assert (BT : forall x y, In x l -> beats false y x = false -> forall k v k', sDatum x = kv k v ->
            sScore y = f (vec k') (vec q) -> (exists v t ttl, latest h k' = Some (t, v, ttl)) -> P k k').
  { intros x y Hx B k v k' E E' (v' & t' & ttl' & L'). unfold beats in B.
    destruct (SC x k v Hx E) as (S1 & v1 & t & ttl & L). rewrite S1, E' in B.
    apply (HP k v1 t ttl k' v' t' ttl' L L').
    rewrite SFleb_ltb by (eapply HN; eauto). rewrite B. reflexivity. }
  rewrite Hd in *. split; [|split].
  - intros x Hx. destruct (Sd x Hx) as (k & v & t & ttl & L & _ & _ & ->). exists k, v, t, ttl. auto.
  - intros l1 x l2 y l3 k v k' v' El E E'.
    assert (Hx : In x l) by (rewrite El; apply in_or_app; right; left; auto).
    assert (Hy : In y l) by (rewrite El; apply in_or_app; right; right; apply in_or_app; right; left; auto).
    destruct (SC y k' v' Hy E') as (S1 & L').
    apply (BT x y Hx) with (v := v); auto.
    rewrite El in So. clear - So. induction l1 as [|z l1 IH]; cbn [app] in So.
    + inversion So as [|? ? _ F]; subst. rewrite Forall_forall in F. apply F. apply in_or_app. right. left. auto.
    + inversion So; subst. auto.
  - intros k v t ttl K1 K2 L T PP. destruct (Cp k v t ttl K1 K2 L T PP) as [I|[Len W]].
    + left. eexists. split; [exact I|reflexivity].
    + right. split; auto. intros x k' v' Hx E.
      apply (BT x _ Hx (W x Hx)) with (v := v'); auto. exists v, t, ttl. exact L.
Qed.

(** A search by QuickVectorDistance returns the nearest data, nearest first, where two
    data count as equally near whose true distances differ by a factor of at most
    (2^23 + 1) / (2^23 - 1). *)
Theorem C149_quick_search : forall t0 h t1 t2 G ex config q qv tick ord,
  (10 <= t0)%Z -> history t0 h t1 -> (forall b, (t1 <= tick b <= t2)%Z) ->
  (forall m, Permutation (ord m) m) -> (1 <= scLimit config < M32)%N -> scHigherIsBetter config = false ->
  (forall k v t ttl, latest h k = Some (t, v, ttl) -> quick_fits (vec k) (vec q)) ->
  exists m m' l,
    run_calls [] h = Ok m /\
    Search G ex QuickVectorDistance tick (ord m) m (Some (mkDatum (Some q) qv)) config = (m', Ok l) /\
    returns_by (fun k k' => taxi32 (vec k) (vec q) * (2 ^ 23 - 1) <= taxi32 (vec k') (vec q) * (2 ^ 23 + 1)) h t2 ex config l.
Proof.
  intros t0 h t1 t2 G ex config q qv tick ord H10 Hh Ht Ho HL Hd HF.
  apply (search_by t0 h t1); auto.
  - intros k v t ttl L. destruct (HF k v t ttl L) as (A & B & C & D). destruct (quick_error _ _ A B C D) as [U _].
    apply (unsigned_value _ 0 U).
  - intros k v t ttl k' v' t' ttl' L L' S. apply C149_quick_order; eauto.
Qed.
Print Assumptions C149_quick_search.

(** A search by VectorDistance: the factor for the squares of the distances of vectors
    of at most n coordinates is (2^24 + 2n + 6) / (2^24 - 2n - 6). *)
Theorem C149_distance_search : forall t0 h t1 t2 G ex M config q qv tick ord n,
  (10 <= t0)%Z -> history t0 h t1 -> (forall b, (t1 <= tick b <= t2)%Z) ->
  (forall m, Permutation (ord m) m) -> (1 <= scLimit config < M32)%N -> scHigherIsBetter config = false ->
  squares M -> Z.of_nat (length (vec q)) <= n ->
  (forall k v t ttl, latest h k = Some (t, v, ttl) -> euclid_fits (vec k) (vec q)) ->
  exists m m' l,
    run_calls [] h = Ok m /\
    Search G ex (VectorDistance M) tick (ord m) m (Some (mkDatum (Some q) qv)) config = (m', Ok l) /\
    returns_by (fun k k' => euclid32 (vec k) (vec q) * (2 ^ 24 - (2 * n + 6)) <= euclid32 (vec k') (vec q) * (2 ^ 24 + (2 * n + 6)))
      h t2 ex config l.
Proof.
  intros t0 h t1 t2 G ex M config q qv tick ord n H10 Hh Ht Ho HL Hd HM Hn HF.
  assert (LN : forall a : list float, Z.of_nat (length (combine a (vec q))) <= n) by (intro a; rewrite combine_length; lia).
  apply (search_by t0 h t1); auto.
  - intros k v t ttl L. destruct (HF k v t ttl L) as (A & B & C & D & E). destruct (distance_error M _ _ HM A B C D E) as [U _].
    apply (unsigned_value _ 0 U).
  - intros k v t ttl k' v' t' ttl' L L' S. apply (C149_distance_order M); eauto.
Qed.
Print Assumptions C149_distance_search.

(** ** Concrete cases *)
Lemma lib_squares : squares mathlib_ex.
Proof. intro x. reflexivity. Qed.

(** The vectors (1/3, 1e8, 1e-6) and (-1e-6, 1/3, 1/3) in float32: the scores are not
    the true distances, and within the bounds. *)
Definition acc_a : list float := map f32_of_bits [1051372203; 1287568416; 897988541]%N.
Definition acc_b : list float := map f32_of_bits [3045472189; 1051372203; 1051372203]%N.
Ltac all_apart :=
  match goal with |- Forall apart ?l => let g := eval vm_compute in l in change l with g; repeat apply Forall_cons; try apply Forall_nil end;
  (left; reflexivity) || (right; vm_compute; discriminate).
Example C149_instance :
  quick_fits acc_a acc_b /\ euclid_fits acc_a acc_b /\ squares mathlib_ex /\
  taxi32 acc_a acc_b = 71362384873172616593123589501740407214357508758962176 /\
  value (-1074) (QuickVectorDistance acc_a acc_b) <> taxi32 acc_a acc_b * 2 ^ 925.
Proof.
  split; [|split; [|split; [exact lib_squares|]]].
  - split; [repeat constructor|]. split; [repeat constructor|]. split; [repeat constructor; vm_compute; discriminate|vm_compute; discriminate].
  - split; [repeat constructor|]. split; [repeat constructor|].
    split; [all_apart|]. split; vm_compute; discriminate.
  - split; [vm_compute; reflexivity|vm_compute; discriminate].
Qed.

(** The dataset of C18, and searches for the nearest two. *)
Example C149_instance_search :
  history 100 h_search 102 /\
  (forall k v t ttl, latest h_search k = Some (t, v, ttl) -> quick_fits (vec k) (vec kb) /\ euclid_fits (vec k) (vec kb)) /\
  exists m, run_calls [] h_search = Ok m /\
    forall f, f = QuickVectorDistance \/ f = VectorDistance mathlib_ex ->
    match snd (Search insertion_sort any_filter f (fun _ => 103%Z) m m
                 (Some (mkDatum (Some kb) None)) (cfg1 false 2)) with
    | Ok l => map sDatum l = [kv kb va; kv ka va]
    | _ => False
    end.
Proof.
  split; [apply C18_instance_history|]. split.
  - assert (F : forall a, In a [vec ka; vec kb; vec kc] -> quick_fits a (vec kb) /\ euclid_fits a (vec kb)).
    { intros a [<-|[<-|[<-|[]]]];
        (split; [split; [repeat constructor|split; [repeat constructor|split; [repeat constructor; vm_compute; discriminate|vm_compute; discriminate]]]
                |split; [repeat constructor|split; [repeat constructor|split; [all_apart|split; vm_compute; discriminate]]]]). }
    intros k v t ttl. unfold latest, h_search. cbn [fold_left].
    destruct (DatumKey_eq_dec kc k) as [<-|]; [intros _; apply F; cbn; auto|].
    destruct (DatumKey_eq_dec kb k) as [<-|]; [intros _; apply F; cbn; auto|].
    destruct (DatumKey_eq_dec ka k) as [<-|]; [intros _; apply F; cbn; auto|discriminate].
  - eexists. split; [vm_compute; reflexivity|]. intros f [-> | ->]; vm_compute; reflexivity.
Qed.
