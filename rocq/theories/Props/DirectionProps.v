(** C151: how far the inner product and the cosine may be from the true ones. *)
From Verif.Base Require Import GoBase GoLemmas Assoc Float GoSort.
From Verif.Model Require Import Codec Store Data Vector Search Annoy.
From Verif.Spec Require Import Wire StoreSpec TopK VectorSpec SizeSpec AccuracySpec.
From Verif.Proof Require Import FloatP RoundP VectorP MonoP TruncP StoreP StoreQ SearchP ExactP SizeP NearP AngleP ErrorP ErrorQ SelfP DotP CosineP CosineQ.
From Verif.Props Require Import StoreProps SearchProps AccuracyProps FoundProps.
From Coq Require Import Lia ZArith.
Open Scope Z_scope.

Lemma signed_finite : forall x, signed 53 1024 x -> finite x /\ is_nan x = false.
Proof. intros [s|s| |s m e] U; cbn in U; try contradiction; split; reflexivity || exact I. Qed.

Lemma leb_value : forall x y, signed 53 1024 x -> signed 53 1024 y -> SFleb x y = true -> value (-1074) x <= value (-1074) y.
Proof.
  intros x y Hx Hy L.
  assert (NN : forall s m e, 0 <= Zpos m * 2 ^ (e - s)) by (intros; apply Z.mul_nonneg_nonneg; [lia|apply Z.pow_nonneg; lia]).
  destruct x as [s|s| |s m e], y as [s'|s'| |s' m' e']; cbn [signed] in *; try contradiction; try (cbn; lia).
  - destruct s'; [discriminate L|]. cbn [value cond_Zopp]. apply NN.
  - destruct s; [|discriminate L]. cbn [value cond_Zopp]. specialize (NN (-1074) m e). lia.
  - destruct s, s'; try discriminate L.
    + change (value (-1074) (S754_finite true m e)) with (- units (-1074) (S754_finite false m e)).
      change (value (-1074) (S754_finite true m' e')) with (- units (-1074) (S754_finite false m' e')).
      assert (K : SFleb (S754_finite false m' e') (S754_finite false m e) = true).
      { rewrite SFleb_ltb in L |- * by reflexivity. rewrite neg_ltb in L. exact L. }
      pose proof (proj1 (fleb_units 53 1024 ltac:(lia) (S754_finite false m' e') (S754_finite false m e) (-1074) (Z.le_refl _) Hy Hx) K). lia.
    + cbn [value cond_Zopp]. pose proof (NN (-1074) m e). pose proof (NN (-1074) m' e'). lia.
    + change (value (-1074) (S754_finite false m e)) with (units (-1074) (S754_finite false m e)).
      change (value (-1074) (S754_finite false m' e')) with (units (-1074) (S754_finite false m' e')).
      apply (fleb_units 53 1024 ltac:(lia) (S754_finite false m e) (S754_finite false m' e') (-1074) (Z.le_refl _) Hx Hy). exact L.
Qed.

Lemma mult_dot : forall a b s, mult_loop s a b = dot_loop s a b.
Proof. induction a as [|x a IH]; intros [|y b] s; cbn; auto. Qed.

(** Vectors of n coordinates at most, of moderate size. *)
Definition fits (n : Z) (a : list float) : Prop := Forall moderate a /\ Z.of_nat (length a) <= n.
(** ... and not zero. *)
Definition directed (n : Z) (a : list float) : Prop := fits n a /\ Exists (fun x => value (-149) x <> 0) a.

(** The product of the lengths of two vectors, in units of 2^-298 (rounded down). *)
Definition lengths32 (a b : list float) : Z := Z.sqrt (inner32 a a * inner32 b b).

Lemma mult_error : forall a b n, n <= 2 ^ 22 -> fits n a -> fits n b ->
  signed 53 1024 (VectorMultiplication a b) /\
  Z.abs (value (-1074) (VectorMultiplication a b) - inner32 a b * 2 ^ (1074 - 298)) * 2 ^ 24 <=
    3 * n * (mass32 a b * 2 ^ (1074 - 298)).
Proof.
  intros a b n N [FA LA] [FB LB]. unfold VectorMultiplication. rewrite mult_dot. change (2 ^ 22) with 4194304 in N.
  destruct (dot_error a b fzero 0 0 0 I ltac:(lia) ltac:(cbn; lia) ltac:(vm_compute; discriminate) ltac:(cbn; lia) FA FB) as (S & _ & E).
  { rewrite combine_length. change (2 ^ 24) with 16777216. lia. }
  rewrite !Z.add_0_l in E. destruct (widen_value _ S) as [S' V]. split; [exact S'|]. rewrite V. change (1074 - 298) with 776.
  pose proof (mass_nonneg a b) as M0.
  assert (E' : Z.abs (value (-149) (dot_loop fzero a b) * 2 ^ 149 - inner32 a b) * 2 ^ 24 <= 3 * n * mass32 a b).
  { eapply Z.le_trans; [exact E|]. rewrite combine_length. apply Z.mul_le_mono_nonneg_r; lia. }
  set (v := value (-149) (dot_loop fzero a b)) in *. clearbody v.
  replace (v * 2 ^ 925 - inner32 a b * 2 ^ 776) with ((v * 2 ^ 149 - inner32 a b) * 2 ^ 776) by (change (2 ^ 925) with (2 ^ 149 * 2 ^ 776); ring).
  assert (P : 0 <= 2 ^ 776) by (apply Z.pow_nonneg; lia).
  rewrite Z.abs_mul, (Z.abs_eq (2 ^ 776)) by exact P.
  replace (Z.abs (v * 2 ^ 149 - inner32 a b) * 2 ^ 776 * 2 ^ 24) with (Z.abs (v * 2 ^ 149 - inner32 a b) * 2 ^ 24 * 2 ^ 776) by ring.
  rewrite (Z.mul_assoc (3 * n)). apply Z.mul_le_mono_nonneg_r; assumption.
Qed.

(** VectorMultiplication is off by at most 3n parts in 2^24 of the sum of the sizes of the
    products, for vectors of n coordinates. *)
Theorem C151_product : forall a b n, n <= 2 ^ 22 -> fits n a -> fits n b ->
  finite (VectorMultiplication a b) /\
  Z.abs (value (-1074) (VectorMultiplication a b) - inner32 a b * 2 ^ (1074 - 298)) * 2 ^ 24 <=
    3 * n * (mass32 a b * 2 ^ (1074 - 298)).
Proof.
  intros a b n N A B. destruct (mult_error a b n N A B) as [S E]. split; [apply signed_finite, S|exact E].
Qed.
Print Assumptions C151_product.

(** CosineSimilarity is off by at most (12n + 59) / 2^24. *)
Theorem C151_cosine : forall a b n, n <= 2 ^ 19 -> directed n a -> directed n b ->
  finite (CosineSimilarity a b) /\ 2 ^ 218 <= lengths32 a b /\
  Z.abs (value (-1074) (CosineSimilarity a b) * lengths32 a b - inner32 a b * 2 ^ 1074) * 2 ^ 24 <=
    (12 * n + 59) * lengths32 a b * 2 ^ 1074.
Proof.
  intros a b n N [[FA LA] XA] [[FB LB] XB]. destruct (cosine_error a b n FA FB XA XB LA LB N) as (R & S & E).
  split; [apply signed_finite, S|]. split; [exact R|exact E].
Qed.
Print Assumptions C151_cosine.

(** So a pair of vectors that scores no worse has the larger inner product, or the larger
    cosine, up to twice that error. *)
Definition product_upto n a b c d : Prop :=
  inner32 c d * 2 ^ 24 <= inner32 a b * 2 ^ 24 + 3 * n * (mass32 a b + mass32 c d).
Definition cosine_upto n a b c d : Prop :=
  inner32 c d * lengths32 a b * 2 ^ 24 <= inner32 a b * lengths32 c d * 2 ^ 24 + 2 * (12 * n + 59) * (lengths32 a b * lengths32 c d).

Theorem C151_product_order : forall a b c d n, n <= 2 ^ 22 -> fits n a -> fits n b -> fits n c -> fits n d ->
  SFleb (VectorMultiplication c d) (VectorMultiplication a b) = true -> product_upto n a b c d.
Proof.
  intros a b c d n N A B C D L. destruct (mult_error a b n N A B) as [S E]. destruct (mult_error c d n N C D) as [S' E'].
  apply (leb_value _ _ S' S) in L. change (1074 - 298) with 776 in *.
  assert (P : 0 < 2 ^ 776) by reflexivity. unfold product_upto. apply (Z.mul_le_mono_pos_r _ _ (2 ^ 776)); [exact P|].
  set (p := 2 ^ 776) in *. clearbody p. change (2 ^ 24) with 16777216 in *.
  set (v := value (-1074) (VectorMultiplication a b)) in *. set (w := value (-1074) (VectorMultiplication c d)) in *. clearbody v w.
  replace (3 * n * (mass32 a b * p)) with (3 * n * mass32 a b * p) in E by ring.
  replace (3 * n * (mass32 c d * p)) with (3 * n * mass32 c d * p) in E' by ring.
  replace ((inner32 a b * 16777216 + 3 * n * (mass32 a b + mass32 c d)) * p) with
    (inner32 a b * p * 16777216 + 3 * n * mass32 a b * p + 3 * n * mass32 c d * p) by ring.
  replace (inner32 c d * 16777216 * p) with (inner32 c d * p * 16777216) by ring.
  set (x := inner32 a b * p) in *. set (y := inner32 c d * p) in *. set (e := 3 * n * mass32 a b * p) in *. set (e' := 3 * n * mass32 c d * p) in *.
  clearbody x y e e'. lia.
Qed.
Print Assumptions C151_product_order.

Theorem C151_cosine_order : forall a b c d n, n <= 2 ^ 19 -> directed n a -> directed n b -> directed n c -> directed n d ->
  SFleb (CosineSimilarity c d) (CosineSimilarity a b) = true -> cosine_upto n a b c d.
Proof.
  intros a b c d n N [[FA LA] XA] [[FB LB] XB] [[FC LC] XC] [[FD LD] XD] L.
  destruct (cosine_error a b n FA FB XA XB LA LB N) as (R & S & E). destruct (cosine_error c d n FC FD XC XD LC LD N) as (R' & S' & E').
  apply (leb_value _ _ S' S) in L. fold (lengths32 a b) in *. fold (lengths32 c d) in *.
  assert (P : 0 < 2 ^ 1074) by reflexivity. unfold cosine_upto. apply (Z.mul_le_mono_pos_r _ _ (2 ^ 1074)); [exact P|].
  set (p := 2 ^ 1074) in *. clearbody p. change (2 ^ 24) with 16777216 in *.
  assert (R0 : 0 < lengths32 a b) by (eapply Z.lt_le_trans; [|exact R]; reflexivity).
  assert (R0' : 0 < lengths32 c d) by (eapply Z.lt_le_trans; [|exact R']; reflexivity).
  set (v := value (-1074) (CosineSimilarity a b)) in *. set (w := value (-1074) (CosineSimilarity c d)) in *.
  set (r := lengths32 a b) in *. set (s := lengths32 c d) in *. set (x := inner32 a b) in *. set (y := inner32 c d) in *.
  set (k := 12 * n + 59) in *. clearbody v w r s x y k. clear -E E' L R0 R0' P.
  assert (K1 : (v * r - x * p) * 16777216 * s <= k * r * p * s) by (apply Z.mul_le_mono_nonneg_r; lia).
  assert (K2 : (y * p - w * s) * 16777216 * r <= k * s * p * r) by (apply Z.mul_le_mono_nonneg_r; lia).
  assert (K3 : w * (r * s) <= v * (r * s)) by (apply Z.mul_le_mono_nonneg_r; [apply Z.mul_nonneg_nonneg; lia|exact L]).
  replace ((v * r - x * p) * 16777216 * s) with (16777216 * (v * (r * s)) - x * s * 16777216 * p) in K1 by ring.
  replace ((y * p - w * s) * 16777216 * r) with (y * r * 16777216 * p - 16777216 * (w * (r * s))) in K2 by ring.
  replace ((x * s * 16777216 + 2 * k * (r * s)) * p) with (x * s * 16777216 * p + k * r * p * s + k * s * p * r) by ring. lia.
Qed.
Print Assumptions C151_cosine_order.

Lemma search_higher : forall t0 h t1 t2 G ex f config q qv tick ord (P : DatumKey -> DatumKey -> Prop),
  (10 <= t0)%Z -> history t0 h t1 -> (forall b, (t1 <= tick b <= t2)%Z) ->
  (forall m, Permutation (ord m) m) -> (1 <= scLimit config < M32)%N -> scHigherIsBetter config = true ->
  (forall k v t ttl, latest h k = Some (t, v, ttl) -> is_nan (f (vec k) (vec q)) = false) ->
  (forall k v t ttl k' v' t' ttl', latest h k = Some (t, v, ttl) -> latest h k' = Some (t', v', ttl') ->
     SFleb (f (vec k') (vec q)) (f (vec k) (vec q)) = true -> P k k') ->
  exists m m' l,
    run_calls [] h = Ok m /\
    Search G ex f tick (ord m) m (Some (mkDatum (Some q) qv)) config = (m', Ok l) /\
    returns_by P h t2 ex config l.
Proof.
  intros t0 h t1 t2 G ex f config q qv tick ord P H10 Hh Ht Ho HL Hd HN HP.
  destruct (C18_search_after_history t0 h t1 t2 G ex f config q qv tick ord H10 Hh Ht Ho HL HN)
    as (m & m' & l & R & S & ND & So & Sd & Cp).
  exists m, m', l. split; auto. split; auto.
  assert (SC : forall x k v, In x l -> sDatum x = kv k v -> sScore x = f (vec k) (vec q) /\ exists v t ttl, latest h k = Some (t, v, ttl)).
  { intros x k v Hx E. destruct (Sd x Hx) as (k1 & v1 & t & ttl & L & _ & _ & ->).
    cbn [sDatum sScore] in *. unfold kv in E. injection E as -> ->. eauto. }
  assert (BT : forall x y, In x l -> beats true y x = false -> forall k v k', sDatum x = kv k v ->
            sScore y = f (vec k') (vec q) -> (exists v t ttl, latest h k' = Some (t, v, ttl)) -> P k k').
  { intros x y Hx B k v k' E E' (v' & t' & ttl' & L'). unfold beats in B.
    destruct (SC x k v Hx E) as (S1 & v1 & t & ttl & L). rewrite S1, E' in B.
    apply (HP k v1 t ttl k' v' t' ttl' L L').
    rewrite SFleb_ltb by (eapply HN; eauto). rewrite B. reflexivity. }
  rewrite Hd in *. split; [|split].
  - intros x Hx. destruct (Sd x Hx) as (k & v & t & ttl & L & _ & _ & ->). exists k, v, t, ttl. auto.
  - intros l1 x l2 y l3 k v k' v' El E E'.
    assert (Hx : In x l) by (rewrite El; apply in_or_app; right; left; auto).
    assert (Hy : In y l) by (rewrite El; apply in_or_app; right; right; apply in_or_app; right; left; auto).
    destruct (SC y k' v' Hy E') as (S1 & L').
    apply (BT x y Hx) with (v := v); auto.
    rewrite El in So. clear - So. induction l1 as [|z l1 IH]; cbn [app] in So.
    + inversion So as [|? ? _ F]; subst. rewrite Forall_forall in F. apply F. apply in_or_app. right. left. auto.
    + inversion So; subst. auto.
  - intros k v t ttl K1 K2 L T PP. destruct (Cp k v t ttl K1 K2 L T PP) as [I|[Len W]].
    + left. eexists. split; [exact I|reflexivity].
    + right. split; auto. intros x k' v' Hx E.
      apply (BT x _ Hx (W x Hx)) with (v := v'); auto. exists v, t, ttl. exact L.
Qed.

(** A search by VectorMultiplication returns the data with the largest inner products,
    largest first, up to the error. *)
Theorem C151_product_search : forall t0 h t1 t2 G ex config q qv tick ord n,
  (10 <= t0)%Z -> history t0 h t1 -> (forall b, (t1 <= tick b <= t2)%Z) ->
  (forall m, Permutation (ord m) m) -> (1 <= scLimit config < M32)%N -> scHigherIsBetter config = true ->
  n <= 2 ^ 22 -> fits n (vec q) ->
  (forall k v t ttl, latest h k = Some (t, v, ttl) -> fits n (vec k)) ->
  exists m m' l,
    run_calls [] h = Ok m /\
    Search G ex VectorMultiplication tick (ord m) m (Some (mkDatum (Some q) qv)) config = (m', Ok l) /\
    returns_by (fun k k' => product_upto n (vec k) (vec q) (vec k') (vec q)) h t2 ex config l.
Proof.
  intros t0 h t1 t2 G ex config q qv tick ord n H10 Hh Ht Ho HL Hd HN Hq HF.
  apply (search_higher t0 h t1); auto.
  - intros k v t ttl L. apply signed_finite, (mult_error _ _ n); eauto.
  - intros k v t ttl k' v' t' ttl' L L' S. apply C151_product_order; eauto.
Qed.
Print Assumptions C151_product_search.

(** A search by CosineSimilarity returns the data nearest in direction, nearest first,
    where two data count as equally near whose true cosines differ by at most
    2 (12n + 59) / 2^24. *)
Theorem C151_cosine_search : forall t0 h t1 t2 G ex config q qv tick ord n,
  (10 <= t0)%Z -> history t0 h t1 -> (forall b, (t1 <= tick b <= t2)%Z) ->
  (forall m, Permutation (ord m) m) -> (1 <= scLimit config < M32)%N -> scHigherIsBetter config = true ->
  n <= 2 ^ 19 -> directed n (vec q) ->
  (forall k v t ttl, latest h k = Some (t, v, ttl) -> directed n (vec k)) ->
  exists m m' l,
    run_calls [] h = Ok m /\
    Search G ex CosineSimilarity tick (ord m) m (Some (mkDatum (Some q) qv)) config = (m', Ok l) /\
    returns_by (fun k k' => cosine_upto n (vec k) (vec q) (vec k') (vec q)) h t2 ex config l.
Proof.
  intros t0 h t1 t2 G ex config q qv tick ord n H10 Hh Ht Ho HL Hd HN Hq HF.
  apply (search_higher t0 h t1); auto.
  - intros k v t ttl L. destruct Hq as [[FB LB] XB]. destruct (HF k v t ttl L) as [[FA LA] XA].
    apply signed_finite, (cosine_error _ _ n FA FB XA XB LA LB HN).
  - intros k v t ttl k' v' t' ttl' L L' S. apply C151_cosine_order; eauto.
Qed.
Print Assumptions C151_cosine_search.

(** ** Concrete cases *)
(** The vectors (1/3, 1e8, 1e-6) and (-1e-6, 1/3, 1/3) in float32: neither score is the
    true one. *)
Ltac moderate_all :=
  match goal with |- Forall moderate ?l => let g := eval vm_compute in l in change l with g; repeat apply Forall_cons; try apply Forall_nil end;
  (split; [reflexivity || exact I|split; [vm_compute; discriminate|(left; reflexivity) || (right; vm_compute; discriminate)]]).
Example C151_instance :
  directed 3 acc_a /\ directed 3 acc_b /\
  value (-1074) (VectorMultiplication acc_a acc_b) <> inner32 acc_a acc_b * 2 ^ (1074 - 298) /\
  value (-1074) (CosineSimilarity acc_a acc_b) * lengths32 acc_a acc_b <> inner32 acc_a acc_b * 2 ^ 1074.
Proof.
  assert (F : forall a, In a [acc_a; acc_b] -> directed 3 a).
  { intros a [<-|[<-|[]]]; (split; [split; [moderate_all|vm_compute; discriminate]|left; vm_compute; discriminate]). }
  split; [apply F; left; reflexivity|]. split; [apply F; right; left; reflexivity|]. split; vm_compute; discriminate.
Qed.

(** Two stored vectors, (1, 6) and (97, 581), and searches with (1, 7): the second
    has the larger inner product, the first the larger cosine. *)
Definition across_q : DatumKey := mkKey [1065353216; 1088421888]%N (bs "q") 2 1 1 1.
Example C151_instance_search :
  history 100 found_h 101 /\ directed 2 (vec across_q) /\
  (forall k v t ttl, latest found_h k = Some (t, v, ttl) -> directed 2 (vec k)) /\
  exists m, run_calls [] found_h = Ok m /\
    forall f w, (f, w) = (VectorMultiplication, [kv found_97 va; kv found_16 va]) \/
                (f, w) = (CosineSimilarity, [kv found_16 va; kv found_97 va]) ->
    match snd (Search insertion_sort any_filter f (fun _ => 103) m m
                 (Some (mkDatum (Some across_q) None)) (cfg1 true 2)) with
    | Ok l => map sDatum l = w
    | _ => False
    end.
Proof.
  assert (F : forall k, In k [found_16; found_97; across_q] -> directed 2 (vec k)).
  { intros k [<-|[<-|[<-|[]]]]; (split; [split; [moderate_all|vm_compute; discriminate]|left; vm_compute; discriminate]). }
  split; [apply C150_instance|]. split; [apply F; cbn; tauto|]. split.
  - intros k v t ttl. unfold latest, found_h. cbn [fold_left].
    destruct (DatumKey_eq_dec found_97 k) as [<-|]; [intros _; apply F; cbn; auto|].
    destruct (DatumKey_eq_dec found_16 k) as [<-|]; [intros _; apply F; cbn; auto|discriminate].
  - eexists. split; [vm_compute; reflexivity|]. intros f w [E|E]; injection E as -> ->; vm_compute; reflexivity.
Qed.
