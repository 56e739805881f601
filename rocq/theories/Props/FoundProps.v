(** C150: searching with the vector of a stored datum. *)
From Verif.Base Require Import GoBase GoLemmas Assoc Float GoSort.
From Verif.Model Require Import Codec Store Data Vector Search.
From Verif.Spec Require Import Wire StoreSpec TopK VectorSpec SizeSpec AccuracySpec.
From Verif.Proof Require Import FloatP RoundP VectorP MonoP TruncP StoreP StoreQ SearchP ErrorP ErrorQ SelfP SelfQ.
From Verif.Props Require Import StoreProps SearchProps AccuracyProps.
From Coq Require Import Lia ZArith.
Open Scope Z_scope.

(** C150 A search with the vector of a stored datum returns the data with this vector
    first: the results are data with the vector of the query, at distance zero, followed
    by data with other vectors; and a datum with the vector of the query is among the
    first ones unless they use up the limit. *)
Definition found h t2 ex config (q : DatumKey) (l : list ScoredDatum) : Prop :=
  exists l1 l2, l = l1 ++ l2 /\
    (forall x, In x l1 -> exists k v, sDatum x = kv k v /\ same_vector (vec k) (vec q) /\ exists s, sScore x = S754_zero s) /\
    (forall x, In x l2 -> exists k v, sDatum x = kv k v /\ ~ same_vector (vec k) (vec q)) /\
    (forall k v t ttl, key_ok k -> key_fits k -> latest h k = Some (t, v, ttl) ->
       ttl = 0%N \/ (t2 < t + Z.of_N ttl - 9)%Z -> passes ex config (kv k v) = true -> same_vector (vec k) (vec q) ->
       In (kv k v) (map sDatum l1) \/ length l1 = N.to_nat (scLimit config)).

Lemma gaps_same : forall a b, length a = length b -> (same_vector a b <-> Forall (fun d => d = 0) (gaps a b)).
Proof.
  induction a as [|x a IH]; intros [|y b] L; try discriminate L.
  - split; intros _; constructor.
  - cbn in L. injection L as L. unfold gaps. cbn [combine map fst snd]. fold (gaps a b). split; intro H; inversion H; subst; constructor.
    + unfold gap. lia.
    + apply IH; auto.
    + unfold gap in *. lia.
    + apply IH; auto.
Qed.

(** Data sorted by a score that is not negative: the zeros come first. *)
Lemma zeros_first : forall l : list ScoredDatum, (forall x, In x l -> in_range 53 1024 (sScore x)) -> sorted (beats false) l ->
  exists l1 l2, l = l1 ++ l2 /\ (forall x, In x l1 -> nought (sScore x)) /\ (forall x, In x l2 -> ~ nought (sScore x)).
Proof.
  induction l as [|x l IH]; intros R S.
  - exists [], []. repeat split; intros x [].
  - inversion S as [|? ? S1 S2]; subst. destruct (IH (fun y Hy => R y (or_intror Hy)) S1) as (l1 & l2 & -> & A & B).
    assert (D : nought (sScore x) \/ ~ nought (sScore x)).
    { destruct (sScore x) as [s|s| |s m e]; [left; exists s; reflexivity|right; intros [s' E]; discriminate E..]. }
    destruct D as [D|D].
    + exists (x :: l1), l2. split; [reflexivity|]. split; auto. intros y [<-|Hy]; auto.
    + exists [], (x :: l1 ++ l2). split; [reflexivity|]. split; [intros y []|]. intros y [<-|Hy]; auto.
      rewrite Forall_forall in S2. specialize (S2 y Hy). intro N. apply D.
      apply (nought_least 53 1024 (sScore x) (sScore y)); auto; [apply R; left; reflexivity|].
      rewrite SFleb_ltb; [|apply (range_number 53 1024), R; left; reflexivity|apply (range_number 53 1024), R; right; exact Hy].
      unfold beats in S2. rewrite S2. reflexivity.
Qed.

Lemma finds : forall t0 h t1 t2 G ex f config q qv tick ord,
  (10 <= t0)%Z -> history t0 h t1 -> (forall b, (t1 <= tick b <= t2)%Z) ->
  (forall m, Permutation (ord m) m) -> (1 <= scLimit config < M32)%N -> scHigherIsBetter config = false ->
  (forall k v t ttl, latest h k = Some (t, v, ttl) ->
     in_range 53 1024 (f (vec k) (vec q)) /\ (nought (f (vec k) (vec q)) <-> same_vector (vec k) (vec q))) ->
  exists m m' l,
    run_calls [] h = Ok m /\
    Search G ex f tick (ord m) m (Some (mkDatum (Some q) qv)) config = (m', Ok l) /\ found h t2 ex config q l.
Proof.
  intros t0 h t1 t2 G ex f config q qv tick ord H10 Hh Ht Ho HL Hd HF.
  destruct (C18_search_after_history t0 h t1 t2 G ex f config q qv tick ord H10 Hh Ht Ho HL)
    as (m & m' & l & R & S & ND & So & Sd & Cp).
  { intros k v t ttl L. apply (range_number 53 1024), (HF k v t ttl L). }
  exists m, m', l. split; auto. split; auto. rewrite Hd in So, Cp.
  destruct (zeros_first l) as (l1 & l2 & -> & A & B); auto.
  { intros x Hx. destruct (Sd x Hx) as (k & v & t & ttl & L & _ & _ & ->). apply (HF k v t ttl L). }
  exists l1, l2. split; auto. split; [|split].
  - intros x Hx. destruct (Sd x (in_or_app _ _ _ (or_introl Hx))) as (k & v & t & ttl & L & _ & _ & E).
    exists k, v. pose proof (A x Hx) as N. rewrite E in N |- *. cbn [sDatum sScore] in *. split; auto. split; [apply (HF k v t ttl L); exact N|].
    exact N.
  - intros x Hx. destruct (Sd x (in_or_app _ _ _ (or_intror Hx))) as (k & v & t & ttl & L & _ & _ & E).
    exists k, v. pose proof (B x Hx) as N. rewrite E in N |- *. cbn [sDatum sScore] in *. split; auto. intro SV. apply N. apply (HF k v t ttl L). exact SV.
  - intros k v t ttl K1 K2 L T P SV. destruct (HF k v t ttl L) as [Rk Nk].
    destruct (Cp k v t ttl K1 K2 L T P) as [I|[Len W]].
    + left. apply in_app_or in I as [I|I]; [apply in_map_iff; eexists; split; [|exact I]; reflexivity|].
      exfalso. apply (B _ I). cbn [sScore]. apply Nk. exact SV.
    + right. destruct l2 as [|y l2]; [rewrite app_nil_r in Len; exact Len|]. exfalso.
      assert (Hy : In y (l1 ++ y :: l2)) by (apply in_or_app; right; left; reflexivity).
      apply (B y (or_introl eq_refl)).
      destruct (Sd y Hy) as (k' & v' & t' & ttl' & L' & _ & _ & E). specialize (W y Hy).
      subst y. cbn [sScore] in *. destruct (HF k' v' t' ttl' L') as [Ry _].
      apply (nought_least 53 1024 _ (f (vec k) (vec q))); auto; [apply Nk; exact SV|].
      rewrite SFleb_ltb; [|apply (range_number 53 1024); assumption..]. unfold beats in W. cbn [sScore] in W. rewrite W. reflexivity.
Qed.

(** With QuickVectorDistance: for all finite vectors of one length. *)
Theorem C150_quick : forall t0 h t1 t2 G ex config q qv tick ord,
  (10 <= t0)%Z -> history t0 h t1 -> (forall b, (t1 <= tick b <= t2)%Z) ->
  (forall m, Permutation (ord m) m) -> (1 <= scLimit config < M32)%N -> scHigherIsBetter config = false ->
  Forall finite32 (vec q) ->
  (forall k v t ttl, latest h k = Some (t, v, ttl) -> Forall finite32 (vec k) /\ length (vec k) = length (vec q)) ->
  exists m m' l,
    run_calls [] h = Ok m /\
    Search G ex QuickVectorDistance tick (ord m) m (Some (mkDatum (Some q) qv)) config = (m', Ok l) /\
    found h t2 ex config q l.
Proof.
  intros t0 h t1 t2 G ex config q qv tick ord H10 Hh Ht Ho HL Hd FQ HF.
  apply (finds t0 h t1 t2 G ex QuickVectorDistance config q qv tick ord H10 Hh Ht Ho HL Hd).
  intros k v t ttl L. destruct (HF k v t ttl L) as [F N]. rewrite (gaps_same _ _ N). apply quick_zero; auto.
Qed.
Print Assumptions C150_quick.

(** With VectorDistance, when vectors that differ at a place differ by at least 2^-74 there. *)
Theorem C150_distance : forall M t0 h t1 t2 G ex config q qv tick ord, squares M ->
  (10 <= t0)%Z -> history t0 h t1 -> (forall b, (t1 <= tick b <= t2)%Z) ->
  (forall m, Permutation (ord m) m) -> (1 <= scLimit config < M32)%N -> scHigherIsBetter config = false ->
  Forall finite32 (vec q) ->
  (forall k v t ttl, latest h k = Some (t, v, ttl) ->
     Forall finite32 (vec k) /\ length (vec k) = length (vec q) /\ Forall tellable (gaps (vec k) (vec q))) ->
  exists m m' l,
    run_calls [] h = Ok m /\
    Search G ex (VectorDistance M) tick (ord m) m (Some (mkDatum (Some q) qv)) config = (m', Ok l) /\
    found h t2 ex config q l.
Proof.
  intros M t0 h t1 t2 G ex config q qv tick ord HM H10 Hh Ht Ho HL Hd FQ HF.
  apply (finds t0 h t1 t2 G ex (VectorDistance M) config q qv tick ord H10 Hh Ht Ho HL Hd).
  intros k v t ttl L. destruct (HF k v t ttl L) as (F & N & T). rewrite (gaps_same _ _ N). apply distance_zero; auto.
Qed.
Print Assumptions C150_distance.

(** With CosineSimilarity, where more is better, the first result is as similar to the
    query as the datum itself, and the similarity is at least 1 - 2^-20. *)
Theorem C150_cosine : forall t0 h t1 t2 G ex config q qv tick ord k0 v0 t ttl,
  (10 <= t0)%Z -> history t0 h t1 -> (forall b, (t1 <= tick b <= t2)%Z) ->
  (forall m, Permutation (ord m) m) -> (1 <= scLimit config < M32)%N -> scHigherIsBetter config = true ->
  (forall k v t ttl, latest h k = Some (t, v, ttl) -> is_nan (CosineSimilarity (vec k) (vec q)) = false) ->
  key_ok k0 -> key_fits k0 -> latest h k0 = Some (t, v0, ttl) ->
  ttl = 0%N \/ (t2 < t + Z.of_N ttl - 9)%Z -> passes ex config (kv k0 v0) = true -> vec k0 = vec q ->
  Forall (upto 20) (vec q) -> Z.of_nat (length (vec q)) < 2 ^ 23 -> Exists (from (-31)) (vec q) ->
  exists m m' x l,
    run_calls [] h = Ok m /\
    Search G ex CosineSimilarity tick (ord m) m (Some (mkDatum (Some q) qv)) config = (m', Ok (x :: l)) /\
    SFleb (S754_finite false 9007190664806400 (-53)) (sScore x) = true.
Proof.
  intros t0 h t1 t2 G ex config q qv tick ord k0 v0 t ttl H10 Hh Ht Ho HL Hd HN K1 K2 L T P EV U N X.
  destruct (C18_search_after_history t0 h t1 t2 G ex CosineSimilarity config q qv tick ord H10 Hh Ht Ho HL HN)
    as (m & m' & l & R & S & ND & So & Sd & Cp). rewrite Hd in So, Cp.
  destruct (cosine_itself (vec q) U N X) as [C1 C2]. change (f64_of_f32 almost) with (S754_finite false 9007190664806400 (-53)) in C1.
  pose proof (Cp k0 v0 t ttl K1 K2 L T P) as Q. cbv zeta in Q. rewrite EV in Q.
  destruct l as [|x l].
  { exfalso. destruct Q as [[]|[LE _]]. cbn in LE. unfold M32 in HL. lia. }
  exists m, m', x, l. split; auto. split; auto.
  destruct (Sd x (or_introl eq_refl)) as (k & v & t' & ttl' & L' & _ & _ & E).
  assert (NX : is_nan (sScore x) = false) by (rewrite E; apply (HN k v t' ttl' L')).
  destruct (leb_not_nan _ _ C2) as [NQ _].
  assert (W : beats true (mkScored (CosineSimilarity (vec q) (vec q)) (kv k0 v0)) x = false \/ x = mkScored (CosineSimilarity (vec q) (vec q)) (kv k0 v0)).
  { destruct Q as [[I|I]|[_ W]]; auto; left.
    - inversion So as [|? ? _ F]; subst. rewrite Forall_forall in F. apply F. exact I.
    - apply W. left. reflexivity. }
  destruct W as [W|W]; [|rewrite W; exact C1].
  apply (leb_trans _ (CosineSimilarity (vec q) (vec q))); [exact C1|].
  rewrite SFleb_ltb by auto. unfold beats in W. cbn [sScore] in W. rewrite W. reflexivity.
Qed.
Print Assumptions C150_cosine.

(** What the conditions are for. A shorter vector can be at distance zero (the distances
    look at the common places only), the square of a tiny difference is zero, and a
    vector in another direction can have a higher cosine similarity than the vector
    itself, due to rounding: here that of (97, 581) to (1, 6). *)
Definition wrong_first (score : list float -> list float -> float) (higher : bool) (k0 : DatumKey) (k1 : DatumKey) : Prop :=
  let h := [CInsert 100 k1 va 0; CInsert 101 k0 va 0] in
  exists m, history 100 h 101 /\ run_calls [] h = Ok m /\
    latest h k0 = Some (101, va, 0%N) /\ passes any_filter (cfg1 higher 1) (kv k0 va) = true /\
    ~ same_vector (vec k1) (vec k0) /\
    exists s, snd (Search insertion_sort any_filter score (fun _ => 103) (rev m) m
           (Some (mkDatum (Some k0) None)) (cfg1 higher 1)) = Ok [mkScored s (kv k1 va)].

Definition found_short : DatumKey := mkKey [0%N] (bs "s") 1 1 1 1.
Definition found_tiny : DatumKey := mkKey [427819008%N] (bs "t") 1 1 1 1.
Definition found_16 : DatumKey := mkKey [1065353216; 1086324736]%N (bs "u") 2 1 1 1.
Definition found_97 : DatumKey := mkKey [1120010240; 1141981184]%N (bs "w") 2 1 1 1.

Lemma found_ok : forall k, In k [found_short; found_tiny; found_16; found_97; kb] -> kv_ok k va.
Proof.
  intros k [<-|[<-|[<-|[<-|[<-|[]]]]]]; try apply kva_ok;
    unfold kv_ok, key_ok, value_ok, is_bytes, is_u32, is_u64, is_byte, M8, M32, M64;
    repeat split; repeat constructor; vm_compute; congruence.
Qed.

Lemma found_history : forall k0 k1, kv_ok k0 va -> kv_ok k1 va -> history 100 [CInsert 100 k1 va 0; CInsert 101 k0 va 0] 101.
Proof.
  intros k0 k1 K0 K1. apply (h_snoc 100 [CInsert 100 k1 va 0] 100); [|lia|split; [lia|split; [exact K0|cbn; lia]]].
  apply (h_snoc 100 [] 100); [constructor|lia|]. split; [lia|]. split; [exact K1|cbn; lia].
Qed.

Theorem C150_other_length :
  wrong_first QuickVectorDistance false kb found_short /\ wrong_first (VectorDistance mathlib_ex) false kb found_short.
Proof.
  split; (eexists; split; [apply found_history; apply found_ok; cbn; tauto|]; split; [vm_compute; reflexivity|];
  split; [vm_compute; reflexivity|]; split; [vm_compute; reflexivity|];
  split; [intro K; inversion K as [|? ? ? ? _ K']; inversion K'|eexists; vm_compute; reflexivity]).
Qed.
Print Assumptions C150_other_length.

Theorem C150_tiny_difference : wrong_first (VectorDistance mathlib_ex) false found_short found_tiny.
Proof.
  eexists; split; [apply found_history; apply found_ok; cbn; tauto|]; split; [vm_compute; reflexivity|];
  split; [vm_compute; reflexivity|]; split; [vm_compute; reflexivity|];
  split; [intro K; inversion K as [|? ? ? ? E]; vm_compute in E; discriminate E|eexists; vm_compute; reflexivity].
Qed.
Print Assumptions C150_tiny_difference.

Theorem C150_other_direction : wrong_first CosineSimilarity true found_16 found_97.
Proof.
  eexists; split; [apply found_history; apply found_ok; cbn; tauto|]; split; [vm_compute; reflexivity|];
  split; [vm_compute; reflexivity|]; split; [vm_compute; reflexivity|];
  split; [intro K; inversion K as [|? ? ? ? E]; vm_compute in E; discriminate E|eexists; vm_compute; reflexivity].
Qed.
Print Assumptions C150_other_direction.

(** Two stored vectors and a query with one of them, given by another datum. *)
Definition found_h : list call := [CInsert 100 found_16 va 0; CInsert 101 found_97 va 60].
Definition found_q : DatumKey := mkKey [1120010240; 1141981184]%N (bs "q") 2 1 1 1.
Example C150_instance :
  history 100 found_h 101 /\ squares mathlib_ex /\ Forall finite32 (vec found_q) /\
  (forall k v t ttl, latest found_h k = Some (t, v, ttl) ->
     Forall finite32 (vec k) /\ length (vec k) = length (vec found_q) /\ Forall tellable (gaps (vec k) (vec found_q)) /\
     is_nan (CosineSimilarity (vec k) (vec found_q)) = false) /\
  Forall (upto 20) (vec found_q) /\ Exists (from (-31)) (vec found_q) /\
  exists m, run_calls [] found_h = Ok m /\
    forall f, f = QuickVectorDistance \/ f = VectorDistance mathlib_ex ->
    match snd (Search insertion_sort any_filter f (fun _ => 103) m m
                 (Some (mkDatum (Some found_q) None)) (cfg1 false 2)) with
    | Ok l => map sDatum l = [kv found_97 va; kv found_16 va]
    | _ => False
    end.
Proof.
  split.
  { apply (h_snoc 100 [CInsert 100 found_16 va 0] 100); [|lia|split; [lia|split; [apply found_ok; cbn; tauto|cbn; lia]]].
    apply (h_snoc 100 [] 100); [constructor|lia|]. split; [lia|]. split; [apply found_ok; cbn; tauto|cbn; lia]. }
  split; [exact lib_squares|]. split; [repeat constructor|]. split.
  - assert (F : forall k, In k [found_16; found_97] ->
      Forall finite32 (vec k) /\ length (vec k) = length (vec found_q) /\ Forall tellable (gaps (vec k) (vec found_q)) /\
      is_nan (CosineSimilarity (vec k) (vec found_q)) = false).
    { intros k [<-|[<-|[]]]; (split; [repeat constructor|]; split; [reflexivity|]; split; [|vm_compute; reflexivity]).
      - apply Forall_cons; [right; vm_compute; discriminate|]. apply Forall_cons; [right; vm_compute; discriminate|]. constructor.
      - apply Forall_cons; [left; vm_compute; reflexivity|]. apply Forall_cons; [left; vm_compute; reflexivity|]. constructor. }
    intros k v t ttl. unfold latest, found_h. cbn [fold_left].
    destruct (DatumKey_eq_dec found_97 k) as [<-|]; [intros _; apply F; cbn; auto|].
    destruct (DatumKey_eq_dec found_16 k) as [<-|]; [intros _; apply F; cbn; auto|discriminate].
  - split; [repeat constructor; vm_compute; discriminate|]. split; [left; vm_compute; discriminate|].
    eexists. split; [vm_compute; reflexivity|]. intros f [-> | ->]; vm_compute; reflexivity.
Qed.
