(** C146: the scores of vectors on a grid are the true ones. *)
From Verif.Base Require Import GoBase GoLemmas Assoc Float GoSort.
From Verif.Model Require Import Codec Store Data Vector Search.
From Verif.Spec Require Import Wire StoreSpec TopK VectorSpec FixedSpec.
From Verif.Proof Require Import FloatP RoundP VectorP MonoP MonoQ TruncP StoreP StoreQ SearchP ExactP ExactQ ExactR.
From Verif.Props Require Import StoreProps SearchProps.
From Coq Require Import Lia ZArith.
Open Scope Z_scope.

(** C146 The scores of vectors whose coordinates are small multiples of one
    power of two.  VectorMultiplication is the inner product. *)
Theorem C146_product : forall k a b, scale k -> small a -> small b -> mass a b < 2 ^ 24 ->
  VectorMultiplication (fixed_vec k a) (fixed_vec k b) = fixed64 (2 * k) (inner a b).
Proof.
  intros k a b Hk Ha Hb H. unfold VectorMultiplication. change fzero with (fixed32 (2 * k) 0).
  rewrite mult_exact by (auto; lia). rewrite Z.add_0_l. unfold scale in Hk. apply widen_exact; [lia|].
  assert (Z.abs (inner a b) <= mass a b); [|lia]. clear. revert b. induction a as [|x a IH]; intro b; [reflexivity|].
  destruct b as [|y b]; [reflexivity|]. rewrite inner_cons, mass_cons. specialize (IH b). lia.
Qed.
Print Assumptions C146_product.

(** QuickVectorDistance is the sum of the differences of the coordinates. *)
Theorem C146_quick : forall k a b, -149 <= k <= 104 -> small a -> small b ->
  Forall (fun p => Z.abs (fst p - snd p) < 2 ^ 24) (combine a b) -> taxi a b < 2 ^ 53 ->
  QuickVectorDistance (fixed_vec k a) (fixed_vec k b) = fixed64 k (taxi a b).
Proof.
  intros k a b Hk Ha Hb Hd H. unfold QuickVectorDistance. change fzero with (fixed64 k 0).
  rewrite quick_exact by (auto; lia). reflexivity.
Qed.
Print Assumptions C146_quick.

Lemma distance_is : forall M k a b, pow2_exact M -> scale k -> close a b ->
  VectorDistance M (fixed_vec k a) (fixed_vec k b) = f64sqrt (fixed64 (2 * k) (dist2 a b)).
Proof.
  intros M k a b HM Hk (Ha & Hb & H). unfold VectorDistance. change fzero with (fixed32 (2 * k) 0).
  rewrite euclid_exact by (auto; lia). rewrite Z.add_0_l. pose proof (dist2_nonneg a b). unfold scale in Hk.
  rewrite widen_exact by lia. reflexivity.
Qed.

(** VectorDistance is the Euclidean distance if that is on the grid. *)
Theorem C146_distance : forall M k a b r, pow2_exact M -> scale k -> close a b -> 0 <= r -> dist2 a b = r * r ->
  VectorDistance M (fixed_vec k a) (fixed_vec k b) = fixed64 k r.
Proof.
  intros M k a b r HM Hk C Hr E. rewrite distance_is by auto. rewrite E. apply root_exact; auto.
  destruct C as (_ & _ & C). lia.
Qed.
Print Assumptions C146_distance.

(** Whether it is on the grid or not, VectorDistance orders pairs of vectors by
    their Euclidean distance, and tells any two different distances apart. *)
Theorem C146_order : forall M k a b c d, pow2_exact M -> scale k -> close a b -> close c d ->
  (SFleb (VectorDistance M (fixed_vec k a) (fixed_vec k b)) (VectorDistance M (fixed_vec k c) (fixed_vec k d)) = true <->
   dist2 a b <= dist2 c d).
Proof.
  intros M k a b c d HM Hk C D. rewrite !distance_is by auto.
  destruct C as (_ & _ & C), D as (_ & _ & D). pose proof (dist2_nonneg a b). pose proof (dist2_nonneg c d).
  apply root_order; auto.
Qed.
Print Assumptions C146_order.

(** CosineSimilarity is positive, zero or negative exactly if the inner product
    is. *)
Theorem C146_cosine : forall k a b, scale k -> inner a a < 2 ^ 24 -> inner b b < 2 ^ 24 ->
  inner a a <> 0 -> inner b b <> 0 ->
  SFcompare (CosineSimilarity (fixed_vec k a) (fixed_vec k b)) (S754_zero false) = Some (inner a b ?= 0).
Proof. exact cosine_sign. Qed.
Print Assumptions C146_cosine.

Lemma distance_not_nan : forall M k a b, pow2_exact M -> scale k -> close a b ->
  is_nan (VectorDistance M (fixed_vec k a) (fixed_vec k b)) = false.
Proof.
  intros M k a b HM Hk C.
  refine (proj1 (leb_not_nan _ (VectorDistance M (fixed_vec k a) (fixed_vec k b)) _)).
  apply (C146_order M k a b a b); auto. lia.
Qed.

(** A search by VectorDistance after any history of inserts on the grid returns
    the data that are nearest in truth, nearest first: whatever it leaves out is
    at least as far from the query as everything it returns. *)
Theorem C146_nearest : forall t0 h t1 t2 G ex M config q qv tick ord s cq,
  (10 <= t0)%Z -> history t0 h t1 -> (forall b, (t1 <= tick b <= t2)%Z) ->
  (forall m, Permutation (ord m) m) -> (1 <= scLimit config < M32)%N -> scHigherIsBetter config = false ->
  pow2_exact M -> scale s -> vec q = fixed_vec s cq ->
  (forall k v t ttl, latest h k = Some (t, v, ttl) -> exists c, vec k = fixed_vec s c /\ close c cq) ->
  exists m m' l,
    run_calls [] h = Ok m /\
    Search G ex (VectorDistance M) tick (ord m) m (Some (mkDatum (Some q) qv)) config = (m', Ok l) /\
    (forall x, In x l -> exists k v t ttl, latest h k = Some (t, v, ttl) /\ sDatum x = kv k v) /\
    (forall l1 x l2 y l3 k v k' v' c c', l = l1 ++ x :: l2 ++ y :: l3 ->
       sDatum x = kv k v -> sDatum y = kv k' v' -> vec k = fixed_vec s c -> vec k' = fixed_vec s c' ->
       close c cq -> close c' cq -> dist2 c cq <= dist2 c' cq) /\
    (forall k v t ttl c, key_ok k -> key_fits k -> latest h k = Some (t, v, ttl) ->
       ttl = 0%N \/ (t2 < t + Z.of_N ttl - 9)%Z -> passes ex config (kv k v) = true ->
       vec k = fixed_vec s c -> close c cq ->
       (exists x, In x l /\ sDatum x = kv k v) \/
       (length l = N.to_nat (scLimit config) /\
        forall x k' v' c', In x l -> sDatum x = kv k' v' -> vec k' = fixed_vec s c' -> close c' cq ->
          dist2 c' cq <= dist2 c cq)).
Proof.
  intros t0 h t1 t2 G ex M config q qv tick ord s cq H10 Hh Ht Ho HL Hd HM Hs Hq Hk.
  destruct (C18_search_after_history t0 h t1 t2 G ex (VectorDistance M) config q qv tick ord H10 Hh Ht Ho HL)
    as (m & m' & l & R & S & ND & So & Sd & Cp).
  { intros k v t ttl L. destruct (Hk k v t ttl L) as (c & -> & C). rewrite Hq. apply distance_not_nan; auto. }
  exists m, m', l. split; auto. split; auto.
  assert (SC : forall x k v c, In x l -> sDatum x = kv k v -> vec k = fixed_vec s c ->
            sScore x = VectorDistance M (fixed_vec s c) (fixed_vec s cq)).
  { intros x k v c Hx E V. destruct (Sd x Hx) as (k1 & v1 & t & ttl & L & _ & _ & ->).
    cbn [sDatum sScore] in *. unfold kv in E. injection E as -> ->. rewrite V, Hq. reflexivity. }
  assert (BT : forall x y, In x l -> beats false y x = false -> forall k v k' v' c c',
            sDatum x = kv k v -> vec k = fixed_vec s c -> close c cq ->
            sScore y = VectorDistance M (fixed_vec s c') (fixed_vec s cq) -> sDatum y = kv k' v' ->
            close c' cq -> dist2 c cq <= dist2 c' cq).
  { intros x y Hx B k v k' v' c c' E V C E' _ C'. unfold beats in B.
    rewrite (SC x k v c Hx E V), E' in B.
    apply (C146_order M s c cq c' cq); auto.
    rewrite SFleb_ltb by (apply distance_not_nan; auto). rewrite B. reflexivity. }
  rewrite Hd in *. split; [|split].
  - intros x Hx. destruct (Sd x Hx) as (k & v & t & ttl & L & _ & _ & ->). exists k, v, t, ttl. auto.
  - intros l1 x l2 y l3 k v k' v' c c' El E E' V V' C C'.
    assert (Hx : In x l) by (rewrite El; apply in_or_app; right; left; auto).
    assert (Hy : In y l) by (rewrite El; apply in_or_app; right; right; apply in_or_app; right; left; auto).
    apply (BT x y Hx) with (k := k) (v := v) (k' := k') (v' := v'); auto.
    + rewrite El in So. clear - So. induction l1 as [|z l1 IH]; cbn [app] in So.
      * inversion So as [|? ? _ F]; subst. rewrite Forall_forall in F. apply F. apply in_or_app. right. left. auto.
      * inversion So; subst. auto.
    + apply (SC y k' v' c'); auto.
  - intros k v t ttl c K1 K2 L T P V C. destruct (Cp k v t ttl K1 K2 L T P) as [I|[Len W]].
    + left. eexists. split; [exact I|reflexivity].
    + right. split; auto. intros x k' v' c' Hx E V' C'.
      apply (BT x _ Hx (W x Hx)) with (k := k') (v := v') (k' := k) (v' := v); auto.
      cbn [sScore]. rewrite V, Hq. reflexivity.
Qed.
Print Assumptions C146_nearest.

(** ** Concrete cases *)
Lemma lib_exact : pow2_exact mathlib_ex.
Proof.
  intros k n Hk Hn. unfold scale in Hk. cbn [mathlib_ex pow2]. unfold f32mul, fixed32, prec32, emax32.
  apply square_exact; rewrite ?lo24; lia.
Qed.

(** Points with the coordinates 3/4, 1 and so on, in quarters. *)
Definition pa : list Z := [3; -4; 0].
Definition pb : list Z := [0; 0; 12].
Definition pc : list Z := [3; -3; 12].
Example C146_instance :
  pow2_exact mathlib_ex /\ scale (-2) /\ close pa pb /\ close pc pb /\ mass pa pc < 2 ^ 24 /\
  fixed_vec (-2) pa = map f32_of_bits [1061158912; 3212836864; 0]%N /\
  dist2 pa pb = 13 * 13 /\ VectorDistance mathlib_ex (fixed_vec (-2) pa) (fixed_vec (-2) pb) = f64div (f64_of_Z 13) (f64_of_Z 4) /\
  fixed64 (-2) 13 = f64div (f64_of_Z 13) (f64_of_Z 4) /\
  VectorMultiplication (fixed_vec (-2) pa) (fixed_vec (-2) pc) = f64div (f64_of_Z 21) (f64_of_Z 16) /\
  fixed64 (-4) (inner pa pc) = f64div (f64_of_Z 21) (f64_of_Z 16) /\
  QuickVectorDistance (fixed_vec (-2) pa) (fixed_vec (-2) pc) = f64div (f64_of_Z 13) (f64_of_Z 4) /\ taxi pa pc = 13.
Proof.
  split; [exact lib_exact|]. unfold close, small, scale, pa, pb, pc.
  split; [lia|]. split; [split; [repeat constructor|split; [repeat constructor|reflexivity]]|].
  split; [split; [repeat constructor|split; [repeat constructor|reflexivity]]|].
  vm_compute. repeat split.
Qed.

(** Neighbouring distances: the root of 16777214 and that of 16777215, in units
    of 2^-10. *)
Example C146_instance_order :
  close [4095; 90; 9; 2; 2] [0; 0; 0; 0; 0] /\ close [4095; 90; 9; 2; 2; 1] [0; 0; 0; 0; 0; 0] /\
  dist2 [4095; 90; 9; 2; 2] [0; 0; 0; 0; 0] = 16777214 /\
  dist2 [4095; 90; 9; 2; 2; 1] [0; 0; 0; 0; 0; 0] = 16777215 /\
  SFltb (VectorDistance mathlib_ex (fixed_vec (-10) [4095; 90; 9; 2; 2]) (fixed_vec (-10) [0; 0; 0; 0; 0]))
    (VectorDistance mathlib_ex (fixed_vec (-10) [4095; 90; 9; 2; 2; 1]) (fixed_vec (-10) [0; 0; 0; 0; 0; 0])) = true.
Proof.
  unfold close, small. split; [split; [repeat constructor|split; [repeat constructor|reflexivity]]|].
  split; [split; [repeat constructor|split; [repeat constructor|reflexivity]]|]. vm_compute. repeat split.
Qed.

Example C146_instance_cosine :
  inner pa pb = 0 /\ inner pa pc = 21 /\ inner pa [-1; 0; 7] = -3 /\ inner pa pa = 25 /\ inner pc pc = 162 /\
  CosineSimilarity (fixed_vec (-2) pa) (fixed_vec (-2) pb) = S754_zero false /\
  SFltb (S754_zero false) (CosineSimilarity (fixed_vec (-2) pa) (fixed_vec (-2) pc)) = true /\
  SFltb (CosineSimilarity (fixed_vec (-2) pa) (fixed_vec (-2) [-1; 0; 7])) (S754_zero false) = true.
Proof. vm_compute. repeat split. Qed.

(** The dataset of C18 on the grid of the integers, and a query. *)
Example C146_instance_nearest :
  history 100 h_search 102 /\ vec kb = fixed_vec 0 [0; 1] /\
  (forall k v t ttl, latest h_search k = Some (t, v, ttl) -> exists c, vec k = fixed_vec 0 c /\ close c [0; 1]) /\
  exists m, run_calls [] h_search = Ok m /\
    match snd (Search insertion_sort any_filter (VectorDistance mathlib_ex) (fun _ => 103%Z) m m
                 (Some (mkDatum (Some kb) None)) (cfg1 false 2)) with
    | Ok l => map sDatum l = [kv kb va; kv ka va]
    | _ => False
    end.
Proof.
  split; [apply C18_instance_history|]. split; [reflexivity|]. split.
  - intros k v t ttl. unfold latest, h_search. cbn [fold_left].
    destruct (DatumKey_eq_dec kc k) as [<-|].
    { intros _. exists [3]. split; [reflexivity|]. repeat split; repeat constructor. }
    destruct (DatumKey_eq_dec kb k) as [<-|].
    { intros _. exists [0; 1]. split; [reflexivity|]. repeat split; repeat constructor. }
    destruct (DatumKey_eq_dec ka k) as [<-|]; [|discriminate].
    intros _. exists [1]. split; [reflexivity|]. repeat split; repeat constructor.
  - eexists. split; [vm_compute; reflexivity|]. vm_compute. reflexivity.
Qed.
