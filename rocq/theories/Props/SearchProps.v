(** Properties C18-C27: local search, merging, forwarded search, grouping,
    limits, filters, score functions. *)
From Verif.Base Require Import GoBase GoLemmas Assoc Float GoSort.
From Verif.Model Require Import Codec Store Data Vector Search Aggregator CallTree.
From Verif.Spec Require Import Wire StoreSpec TopK TreeSpec GroupSpec VectorSpec.
From Verif.Proof Require Import FloatP TopKP CodecTop StoreP StoreQ SearchP AggP CallTreeP GroupP
  SearchW VectorP.
From Verif.Props Require Import StoreProps.
Open Scope N_scope.

(** ** A concrete dataset: the points 1, (0,1) and 3 on two labels *)
Definition kc : DatumKey := mkKey [1077936128] (bs "g") 1 1 1 1.
Lemma kc_ok : kv_ok kc va.
Proof.
  destruct kva_ok as ((_ & _ & A & B) & _).
  split; [|split; [|split]]; auto.
  - unfold key_ok, kc, is_u32, is_bytes, M32.
    cbn [feature groupLabel size1 size2 dim1 dim2].
    split; [repeat constructor|]. split; [|lia]. repeat constructor.
  - unfold key_fits. split; vm_compute; congruence.
Qed.
Definition store3 : dbmap :=
  [ (wire_key ka, mkEntry 0 (kv ka va)); (wire_key kb, mkEntry 200 (kv kb va));
    (wire_key kc, mkEntry 90 (kv kc va)) ].
Lemma store3_wf : store_wf store3.
Proof.
  split.
  - unfold mwf, store3, mkeys. cbn [map fst]. repeat constructor; cbn [In]; intuition discriminate.
  - destruct kva_ok as (A & _ & B). intros b e [H|[H|[H|[]]]]; injection H as <- <-.
    + exists ka, va. auto.
    + exists kb, va. auto.
    + exists kc, va. split; [apply kc_ok|auto].
Qed.
Definition any_filter : bytes -> bytes -> bool := fun _ _ => false.
Definition cfg1 (higher : bool) (limit : N) : SearchConfig :=
  mkSearchConfig (bs "QuickVectorDistance") higher 0 1000 limit 0 (bs "d") 0 [] [] 0 [] [].

(** C18 Local search returns the exact k best matches. *)
Theorem C18_local_search_exact : forall G ex score config q qv tick order m,
  1 <= scLimit config < M32 -> store_wf m -> Permutation order m ->
  no_nan (candidates ex score config q tick m) ->
  exists m' l,
    Search G ex score tick order m (Some (mkDatum (Some q) qv)) config = (m', Ok l) /\
    topk (beats (scHigherIsBetter config)) (N.to_nat (scLimit config))
      (candidates ex score config q tick m) l /\
    NoDup (map skey l) /\
    (forall x, In x l -> exists b e k v, In (b, e) m /\ edatum e = kv k v /\
       (exprireAt e = 0 \/ tick b < exprireAt e)%Z /\
       (forall f, In f (scFilters config) -> ex (label v) f = true) /\
       (forall f, In f (scGroupFilters config) -> ex (groupLabel k) f = true) /\
       x = mkScored (score (vec k) (vec q)) (kv k v)).
Proof.
  intros G ex score config q qv tick order m [H1 Hn] W P NN.
  destruct (search_exact G ex score config q qv tick order m Hn H1 W P NN) as (m' & l & E & T).
  exists m', l. split; auto. split; auto.
  destruct (topk_distinct _ _ _ _ _ _ T (candidates_distinct ex score config q tick m W))
    as (ND & I & _). split; auto.
  intros x Hx. apply I in Hx. apply candidates_in in Hx.
  destruct Hx as (b & e & k & v & Hin & Ed & X & PF & ->). destruct W as [_ F].
  destruct (F b e Hin) as (k' & v' & _ & _ & Ed'). rewrite Ed in Ed'. injection Ed' as -> ->.
  exists b, e, k', v'. rewrite Ed in *. unfold passes in PF. apply andb_true_iff in PF.
  destruct PF as [P1 P2]. rewrite forallb_forall in P1, P2. repeat split; auto.
Qed.
Print Assumptions C18_local_search_exact.

(** The same in terms of the history of inserts and deletes: the search ranks
    what was inserted last and is still alive. *)
Theorem C18_search_after_history : forall t0 h t1 t2 G ex score config q qv tick ord,
  (10 <= t0)%Z -> history t0 h t1 -> (forall b, (t1 <= tick b <= t2)%Z) ->
  (forall m, Permutation (ord m) m) -> 1 <= scLimit config < M32 ->
  (forall k v t ttl, latest h k = Some (t, v, ttl) -> is_nan (score (vec k) (vec q)) = false) ->
  exists m m' l,
    run_calls [] h = Ok m /\
    Search G ex score tick (ord m) m (Some (mkDatum (Some q) qv)) config = (m', Ok l) /\
    NoDup (map skey l) /\ sorted (beats (scHigherIsBetter config)) l /\
    (* sound *)
    (forall x, In x l -> exists k v t ttl, latest h k = Some (t, v, ttl) /\
       (ttl <> 0 -> (t1 < t + Z.of_N ttl + 9)%Z) /\ passes ex config (kv k v) = true /\
       x = mkScored (score (vec k) (vec q)) (kv k v)) /\
    (* complete *)
    (forall k v t ttl, key_ok k -> key_fits k -> latest h k = Some (t, v, ttl) ->
       ttl = 0 \/ (t2 < t + Z.of_N ttl - 9)%Z -> passes ex config (kv k v) = true ->
       let x := mkScored (score (vec k) (vec q)) (kv k v) in
       In x l \/
       (length l = N.to_nat (scLimit config) /\
        forall o, In o l -> beats (scHigherIsBetter config) x o = false)).
Proof.
  intros t0 h t1 t2 G ex score config q qv tick ord H10 Hh Ht Ho [H1 Hn] NN.
  destruct (scan_after_history t0 h t1 t2 tick ord H10 Hh Ht Ho) as (m & ys & R & Ey & ND & S & C).
  assert (W : store_wf m) by (eapply history_store_wf; eauto).
  assert (Yield : forall b e, In (b, e) m -> expired (tick b) e = false -> In (edatum e) ys).
  { intros b e Hin X. rewrite Ey. apply scan_yield; auto.
    - apply W.
    - exists b, e. split; auto. apply in_mload; auto. apply W. }
  assert (Live : forall b e, (exprireAt e = 0 \/ tick b < exprireAt e)%Z <-> expired (tick b) e = false).
  { intros b e. unfold expired. destruct (exprireAt e =? 0)%Z eqn:Z0; cbn.
    - apply Z.eqb_eq in Z0. intuition.
    - apply Z.eqb_neq in Z0. rewrite Z.leb_gt. intuition. }
  assert (NC : no_nan (candidates ex score config q tick m)).
  { apply Forall_forall. intros x Hx. apply candidates_in in Hx.
    destruct Hx as (b & e & k & v & Hin & Ed & X & _ & ->). apply Live in X.
    destruct (S (edatum e) (Yield b e Hin X)) as (k' & v' & t & ttl & Ed' & _ & La & _).
    rewrite Ed in Ed'. injection Ed' as -> ->. cbn [sScore]. apply (NN k' v' t ttl La). }
  destruct (search_exact G ex score config q qv tick (ord m) m Hn H1 W (Ho m) NC) as (m' & l & E & T).
  exists m, m', l. split; auto. split; auto.
  pose proof (topk_distinct _ _ _ _ _ _ T (candidates_distinct ex score config q tick m W))
    as (NDl & I & Sl & Ll & B).
  split; auto. split; auto.
  split.
  - intros x Hx. apply I in Hx. apply candidates_in in Hx.
    destruct Hx as (b & e & k & v & Hin & Ed & X & PF & ->).
    apply Live in X. destruct (S (edatum e) (Yield b e Hin X)) as (k' & v' & t & ttl & Ed' & _ & La & Ex).
    rewrite Ed in Ed'. injection Ed' as -> ->. exists k', v', t, ttl. rewrite Ed in *. auto.
  - intros k v t ttl O1 O2 La Al PF x.
    pose proof (C k v t ttl O1 O2 La Al) as Hy. rewrite Ey in Hy. apply scan_yield in Hy; [|apply W|auto].
    destruct Hy as (b & e & L & X & Ed). apply mload_in in L.
    assert (Hc : In x (candidates ex score config q tick m)).
    { apply candidates_in. exists b, e, k, (Some v). rewrite Ed. repeat split; auto.
      apply Live. auto. }
    destruct (B x Hc) as [Hk|[Hl Hb]]; [|right; auto].
    left. apply in_map_iff in Hk. destruct Hk as (y & Eyk & Hy).
    assert (y = x); [|congruence].
    apply I in Hy. pose proof (candidates_distinct ex score config q tick m W) as CD.
    clear -CD Hy Hc Eyk. revert Hy Hc CD. generalize (candidates ex score config q tick m).
    induction l as [|a l IH]; intros Hy Hc CD; [destruct Hy|]. cbn in CD. inversion CD; subst.
    destruct Hy as [->|Hy], Hc as [->|Hc]; auto.
    + exfalso. apply H1. rewrite Eyk. apply in_map. auto.
    + exfalso. apply H1. rewrite <- Eyk. apply in_map. auto.
Qed.
Print Assumptions C18_search_after_history.

Example C18_instance :
  snd (Search insertion_sort any_filter QuickVectorDistance (fun _ => 100%Z) (rev store3) store3
         (Some (mkDatum (Some kb) None)) (cfg1 false 1))
  = Ok [mkScored (S754_zero false) (kv kb va)] /\
  map sDatum (candidates any_filter QuickVectorDistance (cfg1 false 1) kb (fun _ => 100%Z) store3)
  = [kv ka va; kv kb va] /\
  no_nan (candidates any_filter QuickVectorDistance (cfg1 false 1) kb (fun _ => 100%Z) store3).
Proof. split; [vm_compute; reflexivity|]. split; [vm_compute; reflexivity|]. repeat constructor. Qed.

(** The same query after a history, with the distance veri uses. *)
Definition h_search : list call := [CInsert 100 ka va 0; CInsert 101 kb va 50; CInsert 102 kc va 60].
Example C18_instance_history :
  history 100 h_search 102 /\
  (forall k v t ttl, latest h_search k = Some (t, v, ttl) ->
     is_nan (QuickVectorDistance (vec k) (vec kb)) = false) /\
  exists m, run_calls [] h_search = Ok m /\
    snd (Search insertion_sort any_filter QuickVectorDistance (fun _ => 103%Z) m m
           (Some (mkDatum (Some kb) None)) (cfg1 false 1)) = Ok [mkScored (S754_zero false) (kv kb va)].
Proof.
  assert (V : value_ok va /\ value_fits va) by apply kva_ok.
  split; [|split].
  - apply (h_snoc 100 [CInsert 100 ka va 0; CInsert 101 kb va 50] 101); [|lia|].
    + apply (h_snoc 100 [CInsert 100 ka va 0] 100); [|lia|].
      * apply (h_snoc 100 [] 100); [constructor|lia|]. split; [lia|]. split; [apply kva_ok|cbn; lia].
      * split; [lia|]. split; [|cbn; lia]. split; [apply kva_ok|]. split; [apply kva_ok|exact V].
    + split; [lia|]. split; [|cbn; lia]. apply kc_ok.
  - intros k v t ttl. unfold latest, h_search. cbn [fold_left].
    destruct (DatumKey_eq_dec kc k) as [<-|]; [intros _; vm_compute; reflexivity|].
    destruct (DatumKey_eq_dec kb k) as [<-|]; [intros _; vm_compute; reflexivity|].
    destruct (DatumKey_eq_dec ka k) as [<-|]; [intros _; vm_compute; reflexivity|discriminate].
  - eexists. split; [vm_compute; reflexivity|]. vm_compute. reflexivity.
Qed.

(** C19 Search survives every limit and score: for a limit of at least one it
    never crashes, whatever the scores, and returns min(k, matches) of the
    matching data. *)
Theorem C19_positive_limit_partial : forall G ex score config q qv tick order m,
  1 <= scLimit config < M32 -> store_wf m -> Permutation order m ->
  exists m' l,
    Search G ex score tick order m (Some (mkDatum (Some q) qv)) config = (m', Ok l) /\
    (exists rest, Permutation (candidates ex score config q tick m) (l ++ rest)) /\
    length l = Nat.min (N.to_nat (scLimit config)) (length (candidates ex score config q tick m)).
Proof.
  intros G ex score config q qv tick order m [H1 Hn] W P.
  apply (search_weak G ex score config q qv tick order m Hn H1 W P).
Qed.
Print Assumptions C19_positive_limit_partial.

(** Limit 0 crashes as soon as one datum matches. *)
Theorem C19_limit_zero_refuted : forall G, exists m config q,
  store_wf m /\ scLimit config = 0 /\
  snd (Search G any_filter QuickVectorDistance (fun _ => 100%Z) m m (Some q) config) = Panic.
Proof.
  intro G. exists store3, (cfg1 true 0), (mkDatum (Some kb) None).
  split; [apply store3_wf|]. split; reflexivity.
Qed.
Print Assumptions C19_limit_zero_refuted.

(** A NaN score that comes first is never displaced: the datum at distance zero
    is not found.  The NaN comes from a vector of a stored key. *)
Definition knan : DatumKey := mkKey [2143289344; 0] (bs "n") 1 1 1 1.
Definition store_nan : dbmap :=
  [ (wire_key knan, mkEntry 0 (kv knan va)); (wire_key kb, mkEntry 0 (kv kb va)) ].
Lemma store_nan_wf : store_wf store_nan.
Proof.
  split.
  - unfold mwf, store_nan, mkeys. cbn [map fst]. repeat constructor; cbn [In]; intuition discriminate.
  - destruct kva_ok as (A & _ & B). intros b e [H|[H|[]]]; injection H as <- <-.
    + exists knan, va. split; [|auto]. destruct A as (_ & _ & A1 & A2).
      split; [|split; [|split]]; auto.
      * unfold key_ok, knan, is_u32, is_bytes, M32.
        cbn [feature groupLabel size1 size2 dim1 dim2].
        split; [repeat constructor|]. split; [|lia]. repeat constructor.
      * unfold key_fits. split; vm_compute; congruence.
    + exists kb, va. auto.
Qed.

Theorem C19_nan_refuted : forall G, exists m q l,
  store_wf m /\
  snd (Search G any_filter QuickVectorDistance (fun _ => 100%Z) m m (Some (mkDatum (Some q) None))
         (cfg1 false 1)) = Ok l /\
  l <> [] /\ (forall x, In x l -> is_nan (sScore x) = true) /\
  (exists x, In x (candidates any_filter QuickVectorDistance (cfg1 false 1) q (fun _ => 100%Z) m) /\
     sScore x = S754_zero false).
Proof.
  intro G. exists store_nan, kb, [mkScored S754_nan (kv knan va)].
  split; [apply store_nan_wf|]. split; [|split; [congruence|split]].
  - unfold Search. cbn [LoopDBMap store_nan expired exprireAt Z.eqb negb andb].
    cbn [bind]. rewrite (search_entry_spec _ _ _ _ _ _ _ (mkEntry 0 (kv knan va)) knan va eq_refl).
    replace (passes any_filter (cfg1 false 1) (kv knan va)) with true by reflexivity.
    replace (QuickVectorDistance (vec knan) (vec kb)) with S754_nan by (vm_compute; reflexivity).
    unfold CollectorInsert at 1. cbn [cfg1 scHigherIsBetter scLimit].
    replace (u32 (blen (@nil ScoredDatum)) <? 1) with true by reflexivity. cbn [app].
    assert (E1 : sort_run G (less_score false) [mkScored S754_nan (kv knan va)]
                 = [mkScored S754_nan (kv knan va)]).
    { apply Permutation_length_1_inv. apply sort_perm. }
    rewrite E1. cbn [bind]. rewrite (search_entry_spec _ _ _ _ _ _ _ (mkEntry 0 (kv kb va)) kb va eq_refl).
    replace (passes any_filter (cfg1 false 1) (kv kb va)) with true by reflexivity.
    unfold CollectorInsert. cbn [cfg1 scHigherIsBetter scLimit].
    replace (u32 (blen [mkScored S754_nan (kv knan va)]) <? 1) with false by reflexivity.
    unfold last_elem. cbn [rev app bind negb andb orb sScore].
    replace (fltb (QuickVectorDistance (vec kb) (vec kb)) S754_nan) with false
      by (vm_compute; reflexivity).
    reflexivity.
  - intros x [<-|[]]. reflexivity.
  - exists (mkScored (S754_zero false) (kv kb va)). split; [|reflexivity].
    vm_compute. right. left. reflexivity.
Qed.
Print Assumptions C19_nan_refuted.

Example C19_instance : exists l,
  snd (Search insertion_sort any_filter QuickVectorDistance (fun _ => 100%Z) store_nan store_nan
         (Some (mkDatum (Some kb) None)) (cfg1 true 2)) = Ok l /\ length l = 2%nat.
Proof. eexists. split; [vm_compute; reflexivity|reflexivity]. Qed.

(** C20 Merging keeps the k best (higher is better): D lists one representative
    of every key that arrived. *)
Theorem C20_merge_higher : forall G P xs,
  aHigher P = true -> 1 <= aLimit P < M32 -> aResultLimit P = 0 -> plain P ->
  no_nan xs -> one_score xs -> Forall keyed xs ->
  exists D out, Merge G P xs = Ok out /\
    NoDup (map skey D) /\ incl D xs /\ (forall x, In x xs -> In (skey x) (map skey D)) /\
    topk (beats true) (N.to_nat (aLimit P)) D out /\
    NoDup (map skey out) /\
    (forall x, In x xs -> In (skey x) (map skey out) \/
       (length out = N.to_nat (aLimit P) /\ forall o, In o out -> beats true x o = false)).
Proof.
  intros G P xs Hh [H1 Hn] HR Pl NN OS KY.
  destruct (merge_inv G P xs) as (D & out & E & ND & ID & CD & T); auto.
  { rewrite HR. unfold M63. lia. }
  unfold eff in T. rewrite HR in T. cbn [N.eqb] in T. rewrite Hh in T.
  exists D, out. split; auto. split; auto. split; auto. split; auto. split; auto.
  destruct (reps_distinct_topk true _ xs D out NN OS ND ID CD T) as (N1 & _ & _ & _ & B).
  auto.
Qed.
Print Assumptions C20_merge_higher.

Definition sd (k : DatumKey) (z : Z) : ScoredDatum := mkScored (f64_of_Z z) (kv k va).
Definition aggH (higher : bool) (limit : N) : aggParams :=
  mkAgg higher limit 0 0 None QuickVectorDistance.
Lemma keyed_sd : forall z, keyed (sd ka z) /\ keyed (sd kb z) /\ keyed (sd kc z).
Proof.
  destruct kva_ok as ((A1 & A2 & _) & _ & (B1 & B2 & _)). destruct kc_ok as (C1 & C2 & _).
  intro z. repeat split; [exists ka|exists kb|exists kc]; auto.
Qed.

Example C20_instance :
  let xs := [sd ka 3; sd kb 7; sd ka 3; sd kc 5] in
  no_nan xs /\ one_score xs /\ Forall keyed xs /\
  Merge insertion_sort (aggH true 2) xs = Ok [sd kb 7; sd kc 5].
Proof.
  cbv zeta. split; [repeat constructor|]. split; [|split].
  - intros x y Hx Hy E. repeat destruct Hx as [<-|Hx]; repeat destruct Hy as [<-|Hy];
      try destruct Hx; try destruct Hy; try reflexivity; discriminate.
  - repeat constructor; apply (keyed_sd 0).
  - vm_compute. reflexivity.
Qed.

(** C21 Merging keeps the k best (lower is better).  False: a full list gives up
    its last element for one that is further away. *)
Theorem C21_merge_lower_refuted : forall G, exists P xs out,
  aHigher P = false /\ 1 <= aLimit P < M32 /\ aResultLimit P = 0 /\ plain P /\
  no_nan xs /\ one_score xs /\ Forall keyed xs /\
  Merge G P xs = Ok out /\
  exists x o, In x xs /\ ~ In (skey x) (map skey out) /\ In o out /\ beats false x o = true.
Proof.
  intro G. exists (aggH false 1), [sd ka 1; sd kb 2], [sd kb 2].
  repeat split; try (cbn; unfold M32; lia); auto.
  - repeat constructor.
  - intros x y [<-|[<-|[]]] [<-|[<-|[]]] E; try reflexivity; discriminate.
  - repeat constructor; apply (keyed_sd 0).
  - unfold Merge. cbn [AggInsertAll]. unfold AggInsert. cbn [BestScore aggH aContext bind].
    assert (K : forall z, GetKeyAsBytes (Some (sDatum (sd ka z))) = Ok (wire_key ka) /\
                          GetKeyAsBytes (Some (sDatum (sd kb z))) = Ok (wire_key kb)).
    { intro z. split; apply keyed_bytes; try reflexivity; apply kva_ok. }
    change (mkScored (sScore (sd ka 1)) (sDatum (sd ka 1))) with (sd ka 1).
    change (mkScored (sScore (sd kb 2)) (sDatum (sd kb 2))) with (sd kb 2).
    rewrite (proj1 (K 1%Z)), (proj2 (K 2%Z)). cbn [bind agg_empty agList agSeen mload].
    unfold InsertToList at 1. cbn [aggH aLimit aHigher].
    replace (u32 (blen (@nil ScoredDatum)) <? 1) with true by reflexivity. cbn [app bind].
    assert (S1 : forall x, sort_run G (less_score false) [x] = [x]).
    { intro x. apply Permutation_length_1_inv. apply sort_perm. }
    rewrite S1. cbn [agList agSeen bind].
    replace (mload (mstore [] (EncodeToString (wire_key ka)) (sScore (sd ka 1)))
               (EncodeToString (wire_key kb))) with (@None float) by (vm_compute; reflexivity).
    unfold InsertToList. cbn [aggH aLimit aHigher].
    replace (u32 (blen [sd ka 1]) <? 1) with false by reflexivity.
    unfold last_elem. cbn [rev app bind].
    replace (IsNewScoredBetter false (sScore (sd ka 1)) (sScore (sd kb 2))) with true
      by (vm_compute; reflexivity).
    unfold set_last. cbn [removelast app]. rewrite S1. cbn [bind]. reflexivity.
  - exists (sd ka 1), (sd kb 2). split; [cbn; auto|]. split; [|split; [cbn; auto|vm_compute; reflexivity]].
    cbn. intros [C|[]]. discriminate.
Qed.
Print Assumptions C21_merge_lower_refuted.

(** What does hold: as long as no more than limit distinct keys arrive, all of
    them are returned, nearest first. *)
Theorem C21_merge_lower_partial : forall G P xs ks,
  aHigher P = false -> 1 <= aLimit P < M32 -> aResultLimit P = 0 -> plain P ->
  no_nan xs -> one_score xs -> Forall keyed xs ->
  (length ks <= N.to_nat (aLimit P))%nat -> (forall x, In x xs -> In (skey x) ks) ->
  exists out, Merge G P xs = Ok out /\
    NoDup (map skey out) /\ incl out xs /\ sorted (beats false) out /\
    (forall x, In x xs -> In (skey x) (map skey out)).
Proof.
  intros G P xs ks Hh [H1 Hn] HR Pl NN OS KY Lk Hk.
  destruct (merge_inv G P xs) as (D & out & E & ND & ID & CD & T); eauto.
  { rewrite HR. unfold M63. lia. }
  unfold eff in T. rewrite HR in T. cbn [N.eqb] in T. rewrite Hh in T.
  exists out. split; auto.
  destruct (reps_distinct_topk false _ xs D out NN OS ND ID CD T) as (N1 & I1 & S1 & _ & _).
  split; auto. split; auto. split; auto. intros x Hx.
  (* all representatives fit *)
  assert (LD : (length D <= N.to_nat (aLimit P))%nat).
  { rewrite <- (map_length skey). etransitivity; [|exact Lk]. apply NoDup_incl_length; auto.
    intros z Hz. apply in_map_iff in Hz. destruct Hz as (y & <- & Hy). auto. }
  destruct T as (rest & HP & HL & _). pose proof (Permutation_length HP) as PL.
  rewrite app_length in PL. destruct rest; [|cbn in PL; lia]. rewrite app_nil_r in HP.
  specialize (CD x Hx). eapply Permutation_in; [|exact CD]. apply Permutation_map. exact HP.
Qed.
Print Assumptions C21_merge_lower_partial.

(** ... so a node that asks nobody else answers exactly in either direction. *)
Theorem C21_single_node_partial : forall G M ex config q qv m tick order out,
  1 <= scLimit config < M32 -> scResultLimit config < M63 -> scGroupLimit config = 0 ->
  store_wf m -> Permutation order m ->
  let score := GetVectorComparisonFunction M (scScoreFuncName config) in
  no_nan (candidates ex score config q tick m) ->
  answer G M ex config (mkDatum (Some q) qv) (CNode m tick order []) out ->
  distinct_topk (beats (scHigherIsBetter config)) skey
    (wanted (scLimit config) (scResultLimit config)) (candidates ex score config q tick m) out.
Proof.
  intros G M ex config q qv m tick order out [H1 Hn] HR HG W P score NN A.
  eapply leaf_exact; eauto. cbn. auto.
Qed.
Print Assumptions C21_single_node_partial.

Example C21_instance :
  Merge insertion_sort (aggH false 2) [sd ka 3; sd kb 2; sd ka 3] = Ok [sd kb 2; sd ka 3] /\
  Merge insertion_sort (aggH false 1) [sd ka 3; sd kb 2; sd ka 3] = Ok [sd ka 3] /\
  Merge insertion_sort (aggH false 1) [sd kb 2; sd ka 3] = Ok [sd ka 3].
Proof. vm_compute. auto. Qed.

(** One node, lower is better: the query is answered with the nearest datum. *)
Example C21_instance_node : exists out,
  store_wf store3 /\
  no_nan (candidates any_filter QuickVectorDistance (cfg1 false 1) kb (fun _ => 100%Z) store3) /\
  answer insertion_sort mathlib_ex any_filter (cfg1 false 1) (mkDatum (Some kb) None)
    (CNode store3 (fun _ => 100%Z) store3 []) out /\ map skey out = [Some kb].
Proof.
  eexists. split; [apply store3_wf|]. split; [repeat constructor|]. split.
  - eapply (answer_node _ _ _ _ _ _ _ _ _ _ _ [] _ _ _ (fun gs => gs));
      [reflexivity|vm_compute; reflexivity|constructor|apply Permutation_refl|
       vm_compute; reflexivity|apply Permutation_refl|intros; apply Permutation_refl|
       vm_compute; reflexivity].
  - reflexivity.
Qed.

(** C22 Merged results contain no duplicates.  False if a key arrives again with
    a numerically greater score (two query vectors). *)
Theorem C22_duplicates_refuted : exists P xs out,
  1 <= aLimit P < M32 /\ plain P /\ no_nan xs /\ Forall keyed xs /\
  Merge insertion_sort P xs = Ok out /\ ~ NoDup (map skey out).
Proof.
  exists (aggH true 2), [sd ka 1; sd ka 2], [sd ka 2; sd ka 1].
  split; [cbn; unfold M32; lia|]. split; [exact I|]. split; [repeat constructor|].
  split; [repeat constructor; apply (keyed_sd 0)|]. split; [vm_compute; reflexivity|].
  intro C. inversion C; subst. apply H1. cbn. auto.
Qed.
Print Assumptions C22_duplicates_refuted.

(** It holds when no key comes back with a greater score than before (in
    particular for one query vector, where a key has one score). *)
Theorem C22_no_duplicates_partial : forall G P xs out,
  plain P -> Forall keyed xs -> never_better xs -> Merge G P xs = Ok out -> NoDup (map skey out).
Proof. exact merge_no_dup. Qed.
Print Assumptions C22_no_duplicates_partial.

Example C22_instance :
  never_better [sd ka 3; sd kb 7; sd ka 3; sd ka 2] /\
  Merge insertion_sort (aggH true 5) [sd ka 3; sd kb 7; sd ka 3; sd ka 2] = Ok [sd kb 7; sd ka 3].
Proof.
  split; [|vm_compute; reflexivity].
  repeat (constructor; [repeat constructor; intro E; try (vm_compute; reflexivity); try discriminate|]).
  constructor.
Qed.

(** C23 Distributed search over a call tree is exact. *)
Theorem C23_call_tree_exact : forall G M ex config q qv t out,
  scHigherIsBetter config = true ->
  1 <= scLimit config < M32 -> scResultLimit config < M63 -> scGroupLimit config = 0 ->
  tree_wf t ->
  let score := GetVectorComparisonFunction M (scScoreFuncName config) in
  no_nan (reached ex score config q t) ->
  answer G M ex config (mkDatum (Some q) qv) t out ->
  distinct_topk (beats true) skey (wanted (scLimit config) (scResultLimit config))
    (reached ex score config q t) out.
Proof.
  intros G M ex config q qv t out Hh [H1 Hn] HR HG W score NN A. rewrite <- Hh.
  eapply tree_exact_higher; eauto.
Qed.
Print Assumptions C23_call_tree_exact.

(** ... and there is an answer: no node of the tree crashes. *)
Theorem C23_call_tree_answers : forall G M ex config q qv t,
  scHigherIsBetter config = true ->
  HasPrefix (scScoreFuncName config) (bs "Annoy") = false ->
  1 <= scLimit config < M32 -> scResultLimit config < M63 -> scGroupLimit config = 0 ->
  tree_wf t ->
  no_nan (reached ex (GetVectorComparisonFunction M (scScoreFuncName config)) config q t) ->
  exists out, answer G M ex config (mkDatum (Some q) qv) t out.
Proof.
  intros G M ex config q qv t Hh HP [H1 Hn] HR HG W NN.
  eapply tree_answers; eauto.
Qed.
Print Assumptions C23_call_tree_answers.

(** Three nodes, the starting node reached a second time; limit 2. *)
Definition tree3 : calltree :=
  CNode [ (wire_key ka, mkEntry 0 (kv ka va)) ] (fun _ => 100%Z) [ (wire_key ka, mkEntry 0 (kv ka va)) ]
    [ CNode store3 (fun _ => 50%Z) store3
        [ CNode [ (wire_key ka, mkEntry 0 (kv ka vb)) ] (fun _ => 100%Z)
                [ (wire_key ka, mkEntry 0 (kv ka vb)) ] [] ];
      CNode [] (fun _ => 100%Z) [] [] ].
Lemma tree3_wf : tree_wf tree3.
Proof.
  destruct kva_ok as (A & B & C).
  assert (S1 : forall v, kv_ok ka v -> store_wf [ (wire_key ka, mkEntry 0 (kv ka v)) ]).
  { intros v Hv. split; [repeat constructor; cbn; auto|]. intros b e [H|[]]. injection H as <- <-.
    exists ka, v. auto. }
  cbn. repeat split; auto; try (apply S1; auto); try apply store3_wf.
  - constructor.
  - intros b e [].
Qed.

Example C23_instance : exists out,
  answer insertion_sort mathlib_ex any_filter (cfg1 true 2) (mkDatum (Some kb) None) tree3 out /\
  length (reached any_filter QuickVectorDistance (cfg1 true 2) kb tree3) = 5%nat /\
  distinct_topk (beats true) skey 2 (reached any_filter QuickVectorDistance (cfg1 true 2) kb tree3) out.
Proof.
  assert (NN : no_nan (reached any_filter QuickVectorDistance (cfg1 true 2) kb tree3)).
  { unfold no_nan. apply Forall_forall. intros x Hx. vm_compute in Hx.
    repeat destruct Hx as [<-|Hx]; try reflexivity. destruct Hx. }
  destruct (C23_call_tree_answers insertion_sort mathlib_ex any_filter (cfg1 true 2) kb None tree3)
    as (out & A); try reflexivity; auto; try (cbn; unfold M32, M63; lia); try apply tree3_wf.
  exists out. split; auto. split; [vm_compute; reflexivity|].
  apply (C23_call_tree_exact insertion_sort mathlib_ex any_filter (cfg1 true 2) kb None tree3 out);
    auto; try (cbn; unfold M32, M63; lia); try apply tree3_wf.
Qed.

(** C24 Grouped search returns one result per group. *)
Theorem C24_grouped_search : forall G P ord xs,
  plain P -> 1 <= aLimit P < M32 -> 1 <= aGroupLimit P < M32 -> aResultLimit P < M63 ->
  Forall keyed xs -> (forall m, Permutation (ord m) m) ->
  exists out, GroupMerge G P ord xs = Ok out /\
    NoDup (map glabel out) /\
    length out = Nat.min (wanted (aLimit P) (aResultLimit P)) (groups xs) /\
    (forall o, In o out -> exists g kept,
       glabel o = Some g /\
       kept <> [] /\ (length kept <= N.to_nat (aGroupLimit P))%nat /\ incl kept (members g xs) /\
       (exists x, In x kept /\ sDatum o = sDatum x) /\
       sScore o = group_score (aHigher P) (map sScore kept) /\
       (aHigher P = true -> no_nan xs -> one_score xs ->
        distinct_topk (beats true) skey (N.to_nat (aGroupLimit P)) (members g xs) kept)) /\
    ((groups xs <= wanted (aLimit P) (aResultLimit P))%nat ->
       forall x, In x xs -> In (glabel x) (map glabel out)).
Proof.
  intros G P ord xs Pl [H1 Hn] [G1 Gn] HR F Ho.
  destruct (group_merge_spec G P ord xs Pl Hn H1 Gn G1 HR F Ho)
    as (ones & out & E & PG & FO & _ & _ & (rest & HP) & HL).
  exists out. split; auto.
  assert (NDo : NoDup (map glabel ones)).
  { eapply Permutation_NoDup; [symmetry; exact PG|]. apply NoDup_nodup. }
  assert (NDa : NoDup (map glabel out ++ map glabel rest)).
  { rewrite <- map_app. eapply Permutation_NoDup; [apply Permutation_map; exact HP|]. exact NDo. }
  split; [eapply NoDup_app_l; eauto|]. split; [exact HL|]. split.
  - intros o Hin. assert (Hin' : In o ones).
    { eapply Permutation_in; [symmetry; exact HP|]. apply in_or_app. auto. }
    rewrite Forall_forall in FO. destruct (FO o Hin') as (g & s & Eg & Es & A & B & C & D & Esc).
    exists g, (agList s). split; auto. split; auto. split; auto. split; auto. split; auto. split; auto.
    intros Hh NN OS.
    destruct (agg_all G (groupParams P) I Gn G1 (members g xs) [] agg_empty) as (s' & E' & D' & T & ND & ID & CD & _).
    + cbn [app]. unfold no_nan in *. rewrite Forall_forall in *. intros x Hx. apply in_members in Hx.
      apply NN. tauto.
    + intros x y Hx Hy. cbn [app] in *. apply in_members in Hx, Hy. apply OS; tauto.
    + apply members_keyed. auto.
    + left. exact Hh.
    + apply agg_inv_empty.
    + rewrite Es in E'. injection E' as <-. cbn [app groupParams aHigher aLimit] in *. rewrite Hh in T.
      eapply reps_distinct_topk; eauto.
      * unfold no_nan in *. rewrite Forall_forall in *. intros x Hx. apply in_members in Hx. apply NN. tauto.
      * intros x y Hx Hy. apply in_members in Hx, Hy. apply OS; tauto.
  - intros Hg x Hx.
    assert (Hr : rest = []).
    { pose proof (Permutation_length HP) as PL. pose proof (Permutation_length PG) as PL2.
      rewrite map_length in PL2. rewrite app_length in PL. fold (groups xs) in PL2.
      destruct rest; auto. cbn in PL. lia. }
    subst rest. rewrite app_nil_r in HP.
    assert (In (glabel x) (map glabel ones)).
    { eapply Permutation_in; [symmetry; exact PG|]. apply nodup_In. apply in_map. auto. }
    eapply Permutation_in; [apply Permutation_map; exact HP|]. auto.
Qed.
Print Assumptions C24_grouped_search.

(** With higher-is-better scores the returned groups are those with the highest
    sums. *)
Theorem C24_best_groups : forall G P ord xs,
  aHigher P = true ->
  plain P -> 1 <= aLimit P < M32 -> 1 <= aGroupLimit P < M32 -> aResultLimit P < M63 ->
  Forall keyed xs -> (forall m, Permutation (ord m) m) ->
  exists ones out, GroupMerge G P ord xs = Ok out /\
    Permutation (map glabel ones) (nodup glabel_dec (map glabel xs)) /\
    (forall o, In o ones -> exists g kept, glabel o = Some g /\
       kept <> [] /\ (length kept <= N.to_nat (aGroupLimit P))%nat /\ incl kept (members g xs) /\
       (exists x, In x kept /\ sDatum o = sDatum x) /\
       sScore o = group_score true (map sScore kept)) /\
    (no_nan ones -> topk (beats true) (wanted (aLimit P) (aResultLimit P)) ones out).
Proof.
  intros G P ord xs Hh Pl [H1 Hn] [G1 Gn] HR F Ho.
  destruct (group_merge_spec G P ord xs Pl Hn H1 Gn G1 HR F Ho)
    as (ones & out & E & PG & FO & EM & KO & _ & _).
  exists ones, out. split; auto. split; auto. split.
  - intros o Hin. rewrite Forall_forall in FO. destruct (FO o Hin) as (g & s & Eg & Es & A & B & C & D & Esc).
    exists g, (agList s). rewrite Hh in Esc. auto 8.
  - intro NN.
    assert (ND : NoDup (map skey ones)).
    { apply NoDup_keys_of_glabel. eapply Permutation_NoDup; [symmetry; exact PG|]. apply NoDup_nodup. }
    assert (Inj : forall x y, In x ones -> In y ones -> skey x = skey y -> x = y).
    { clear -ND. induction ones as [|a l IH]; [intros x y []|]. cbn in ND. inversion ND; subst.
      intros x y [->|Hx] [->|Hy] E; auto.
      - exfalso. apply H1. rewrite E. apply in_map. auto.
      - exfalso. apply H1. rewrite <- E. apply in_map. auto. }
    destruct (merge_inv G P ones) as (D & o & E' & NDD & ID & CD & T); auto.
    { intros x y Hx Hy K. f_equal. auto. }
    rewrite EM in E'. injection E' as <-. rewrite Hh in T.
    eapply topk_perm; [|exact T]. apply NoDup_Permutation.
    + eapply NoDup_map_inv; eauto.
    + eapply NoDup_map_inv; eauto.
    + intro x. split; [apply ID|]. intro Hx. specialize (CD x Hx). apply in_map_iff in CD.
      destruct CD as (y & Ey & Hy). rewrite <- (Inj y x); auto.
Qed.
Print Assumptions C24_best_groups.

Example C24_instance :
  GroupMerge insertion_sort (mkAgg true 5 2 0 None QuickVectorDistance) (fun m => m)
    [sd ka 3; sd kb 7; sd kc 5; sd ka 3] = Ok [sd kc 8; sd kb 7] /\
  groups [sd ka 3; sd kb 7; sd kc 5; sd ka 3] = 2%nat /\
  Forall keyed [sd ka 3; sd kb 7; sd kc 5; sd ka 3].
Proof.
  split; [vm_compute; reflexivity|]. split; [vm_compute; reflexivity|].
  repeat constructor; apply (keyed_sd 0).
Qed.

(** The two groups of the instance have the sums 8 and 7; with a limit of one the
    better one is shown. *)
Example C24_instance_best :
  let P := mkAgg true 1 2 0 None QuickVectorDistance in
  plain P /\ 1 <= aLimit P < M32 /\ 1 <= aGroupLimit P < M32 /\ aResultLimit P < M63 /\
  GroupMerge insertion_sort P (fun m => m) [sd ka 3; sd kb 7; sd kc 5; sd ka 3] = Ok [sd kc 8] /\
  no_nan [sd kc 8; sd kb 7].
Proof.
  cbv zeta. split; [vm_compute; auto|]. split; [cbn; unfold M32; lia|]. split; [cbn; unfold M32; lia|].
  split; [cbn; unfold M63; lia|]. split; [vm_compute; reflexivity|]. repeat constructor.
Qed.

(** C25 Result limits are honoured, for result limits below 2^63. *)
Theorem C25_result_limits_partial : forall G P xs,
  plain P -> 1 <= aLimit P < M32 -> aResultLimit P < M63 -> Forall keyed xs ->
  exists merged out, Merge G (no_result_limit P) xs = Ok merged /\ Merge G P xs = Ok out /\
    (length out <= N.to_nat (aLimit P))%nat /\
    (aResultLimit P <> 0 -> (length out <= N.to_nat (aResultLimit P))%nat) /\
    out = firstn (wanted (aLimit P) (aResultLimit P)) merged /\ incl merged xs.
Proof.
  intros G P xs Pl [H1 Hn] HR F.
  destruct (merge_limits G P xs Pl Hn H1 HR F) as (l & out & E1 & E2 & Ll & Il & Eo).
  exists l, out. split; auto. split; auto.
  assert (L : (length out <= wanted (aLimit P) (aResultLimit P))%nat)
    by (rewrite Eo, firstn_length; lia).
  unfold wanted in L. destruct (aResultLimit P =? 0) eqn:Z.
  - apply N.eqb_eq in Z. rewrite Z. rewrite <- Z at 2. split; [lia|]. split; [congruence|]. split; auto.
    rewrite Eo, Z. reflexivity.
  - split; [lia|]. split; [lia|]. auto.
Qed.
Print Assumptions C25_result_limits_partial.

(** A result limit of 2^63 or more crashes the node, whatever was found. *)
Theorem C25_huge_result_limit_refuted : forall G xs, Forall keyed xs ->
  exists P, 1 <= aLimit P < M32 /\ aResultLimit P < M64 /\ plain P /\ Merge G P xs = Panic.
Proof.
  intros G xs F. exists (mkAgg true 10 0 9223372036854775808 None QuickVectorDistance).
  split; [cbn; unfold M32; lia|]. split; [reflexivity|]. split; [exact I|].
  unfold Merge.
  destruct (agg_all_weak G (mkAgg true 10 0 9223372036854775808 None QuickVectorDistance) I
              eq_refl ltac:(cbn; lia) xs [] agg_empty F (weak_inv_empty _))
    as (s & E & D & _ & _ & _ & _ & HL).
  rewrite E. cbn [bind]. unfold AggResult. cbn [aResultLimit].
  replace (i64_of_u64 9223372036854775808) with (-9223372036854775808)%Z by (vm_compute; reflexivity).
  assert ((-9223372036854775808 <? Z.of_N (blen (agList s)))%Z = true) as -> by (apply Z.ltb_lt; lia).
  cbn [andb N.ltb N.compare].
  assert (9223372036854775808 <=? blen (agList s) = false) as ->.
  { apply N.leb_gt. unfold blen. rewrite HL. cbn [aLimit]. lia. }
  reflexivity.
Qed.
Print Assumptions C25_huge_result_limit_refuted.

Example C25_instance :
  Merge insertion_sort (mkAgg true 3 0 2 None QuickVectorDistance) [sd ka 3; sd kb 7; sd kc 5]
  = Ok [sd kb 7; sd kc 5] /\
  Merge insertion_sort (mkAgg true 3 0 9223372036854775808 None QuickVectorDistance) [] = Panic.
Proof. vm_compute. auto. Qed.

(** C26 Filters are conjunctive and complete. *)
Theorem C26_filters : forall ex filters groupFilters k v,
  exists b, PassesFilters ex filters groupFilters (kv k v) = Ok b /\
    (b = true <-> (forall f, In f filters -> ex (label v) f = true) /\
                  (forall f, In f groupFilters -> ex (groupLabel k) f = true)).
Proof.
  intros ex fs gs k v.
  exists (forallb (ex (groupLabel k)) gs && forallb (ex (label v)) fs)%bool. split.
  - unfold PassesFilters, kv. cbn [dkey dvalue]. rewrite !all_exist_forallb.
    destruct gs as [|g gs]; cbn [bind].
    + cbn [forallb andb]. destruct fs; reflexivity.
    + destruct (forallb (ex (groupLabel k)) (g :: gs)); cbn [andb]; destruct fs; reflexivity.
  - rewrite andb_true_iff, !forallb_forall. tauto.
Qed.
Print Assumptions C26_filters.

(** A search whose limit is not reached returns exactly the live data that pass. *)
Theorem C26_search_complete : forall G ex score config q qv tick order m,
  1 <= scLimit config < M32 -> store_wf m -> Permutation order m ->
  (length m <= N.to_nat (scLimit config))%nat ->
  exists m' l,
    Search G ex score tick order m (Some (mkDatum (Some q) qv)) config = (m', Ok l) /\
    forall x, In x l <-> exists b e k v, In (b, e) m /\ edatum e = kv k v /\
      (exprireAt e = 0 \/ tick b < exprireAt e)%Z /\
      (forall f, In f (scFilters config) -> ex (label v) f = true) /\
      (forall f, In f (scGroupFilters config) -> ex (groupLabel k) f = true) /\
      x = mkScored (score (vec k) (vec q)) (kv k v).
Proof.
  intros G ex score config q qv tick order m [H1 Hn] W P Hl.
  destruct (search_weak G ex score config q qv tick order m Hn H1 W P) as (m' & l & E & (rest & HP) & HL).
  exists m', l. split; auto.
  assert (LC : (length (candidates ex score config q tick m) <= length m)%nat).
  { clear. unfold candidates. induction m as [|[b e] m IH]; cbn [flat_map length]; auto.
    rewrite app_length. destruct (edatum e) as [[k|] v]; cbn [length]; try lia.
    destruct (_ && _)%bool; cbn [length]; lia. }
  assert (rest = []).
  { pose proof (Permutation_length HP) as PL. rewrite app_length in PL. destruct rest; auto. cbn in PL. lia. }
  subst rest. rewrite app_nil_r in HP.
  intro x. transitivity (In x (candidates ex score config q tick m)).
  { split; apply Permutation_in; [symmetry; exact HP|exact HP]. }
  rewrite candidates_in. split.
  - intros (b & e & k & v & Hin & Ed & X & PF & ->). destruct W as [_ F].
    destruct (F b e Hin) as (k' & v' & _ & _ & Ed'). rewrite Ed in Ed'. injection Ed' as -> ->.
    exists b, e, k', v'. rewrite Ed in *. unfold passes in PF. apply andb_true_iff in PF.
    destruct PF as [P1 P2]. rewrite forallb_forall in P1, P2. repeat split; auto.
  - intros (b & e & k & v & Hin & Ed & X & P1 & P2 & ->). exists b, e, k, (Some v).
    rewrite Ed. unfold passes, kv. repeat split; auto.
    apply andb_true_iff. rewrite !forallb_forall. auto.
Qed.
Print Assumptions C26_search_complete.

Example C26_instance :
  let ex := fun l f => bytes_eqb l f in
  PassesFilters ex [bs "x"] [bs "g"] (kv ka (mkValue 1 (bs "x"))) = Ok true /\
  PassesFilters ex [bs "x"; bs "y"] [bs "g"] (kv ka (mkValue 1 (bs "x"))) = Ok false /\
  PassesFilters ex [bs "x"] [bs "h"] (kv ka (mkValue 1 (bs "x"))) = Ok false /\
  PassesFilters ex [] [] (kv ka (mkValue 1 (bs "x"))) = Ok true.
Proof. vm_compute. auto. Qed.

(** Three stored data, one expired, one whose label does not match. *)
Example C26_instance_search :
  let m := [ (wire_key ka, mkEntry 0 (kv ka va)); (wire_key kb, mkEntry 200 (kv kb vb));
             (wire_key kc, mkEntry 90 (kv kc va)) ] in
  let config := mkSearchConfig (bs "QuickVectorDistance") false 0 1000 5 0 (bs "d") 0 [] [bs "red"] 0 [bs "g"] [] in
  1 <= scLimit config < M32 /\ store_wf m /\ (length m <= N.to_nat (scLimit config))%nat /\
  snd (Search insertion_sort (fun l f => bytes_eqb l f) QuickVectorDistance (fun _ => 100%Z) (rev m) m
         (Some (mkDatum (Some ka) None)) config) = Ok [mkScored (S754_zero false) (kv ka va)].
Proof.
  cbv zeta. split; [cbn; unfold M32; lia|]. split.
  { split.
    - unfold mwf, mkeys. cbn [map fst]. repeat constructor; cbn [In]; intuition discriminate.
    - destruct kva_ok as (A & B & C). intros b e [H|[H|[H|[]]]]; injection H as <- <-.
      + exists ka, va. auto.
      + exists kb, vb. split; [|auto]. split; [apply C|]. split; [apply C|apply B].
      + exists kc, va. split; [apply kc_ok|auto]. }
  split; [cbn; lia|]. vm_compute. reflexivity.
Qed.

(** C27 Score functions are symmetric and bounded. *)
Theorem C27_symmetric : forall M, pow2_ok M -> forall name a b,
  GetVectorComparisonFunction M name a b = GetVectorComparisonFunction M name b a.
Proof.
  intros M H name a b. unfold GetVectorComparisonFunction.
  repeat match goal with |- context [if ?c then _ else _] => destruct c end;
  auto using distance_symmetric, cos_symmetric, mult_symmetric, quick_symmetric, angular_symmetric.
Qed.
Print Assumptions C27_symmetric.

Theorem C27_cosine_range : forall a b,
  is_nan (CosineSimilarity a b) = true \/
  (SFleb (f64_of_Z (-1)) (CosineSimilarity a b) = true /\
   SFleb (CosineSimilarity a b) (f64_of_Z 1) = true).
Proof. exact cos_range. Qed.
Print Assumptions C27_cosine_range.

Theorem C27_distance_not_negative : forall M a b,
  SFltb (VectorDistance M a b) (S754_zero false) = false /\
  SFltb (QuickVectorDistance a b) (S754_zero false) = false.
Proof. intros. split; [apply distance_not_negative|apply quick_not_negative]. Qed.
Print Assumptions C27_distance_not_negative.

Theorem C27_distance_to_itself : forall M, pow2_ok M -> forall a, Forall finite a ->
  VectorDistance M a a = S754_zero false /\ QuickVectorDistance a a = S754_zero false.
Proof. intros M H a F. split; [apply distance_self; auto|apply quick_self; auto]. Qed.
Print Assumptions C27_distance_to_itself.

Theorem C27_names : forall M name f,
  GetVectorComparisonFunction M name = f ->
  In (name, f) (named M) \/ (~ In name (map fst (named M)) /\ f = VectorDistance M).
Proof.
  intros M name f <-. unfold GetVectorComparisonFunction.
  repeat match goal with |- context [if bytes_eqb name ?c then _ else _] =>
    let E := fresh "E" in destruct (bytes_eqb name c) eqn:E;
    [apply bytes_eqb_spec in E; subst name; left; cbn [named In]; tauto
    |apply bytes_eqb_neq in E] end.
  right. split; auto. cbn [named map fst In]. intuition congruence.
Qed.
Print Assumptions C27_names.

Example C27_instance :
  pow2_ok mathlib_ex /\
  (* (3,4) and (0,0,9): the common prefix decides; distance 5 *)
  let v34 := [f32_of_bits 1077936128; f32_of_bits 1082130432] in
  let v009 := [f32_of_bits 0; f32_of_bits 2147483648; f32_of_bits 1091567616] in
  SFeqb (VectorDistance mathlib_ex v34 v009) (f64_of_Z 5) = true /\
  SFeqb (VectorDistance mathlib_ex v009 v34) (f64_of_Z 5) = true /\
  SFeqb (QuickVectorDistance v34 v009) (f64_of_Z 7) = true /\
  SFeqb (CosineSimilarity v34 v34) (f64_of_Z 1) = true /\
  is_nan (CosineSimilarity [f32_of_bits 2139095040] [f32_of_bits 2139095040]) = true.
Proof. split; [apply mathlib_ex_ok|]. vm_compute. auto. Qed.
