(** Properties C80 and C81: grouped queries, on one node and over several. *)
From Verif.Base Require Import GoBase GoLemmas Assoc Float GoSort.
From Verif.Model Require Import Codec Store Data Vector Search Aggregator CallTree.
From Verif.Spec Require Import Wire StoreSpec TopK GroupSpec TreeSpec.
From Verif.Proof Require Import FloatP TopKP CodecTop StoreP StoreQ SearchP AggP GroupP CallTreeP VectorP SearchW.
From Verif.Props Require Import StoreProps SearchProps.
Open Scope N_scope.

(** ** When nothing is cut off *)

(** If there is room for every key, an exact answer has every key. *)
Lemma distinct_topk_room : forall A K (dec : forall x y : K, {x = y} + {x <> y})
  (better : A -> A -> bool) (key : A -> K) k input out ks,
  distinct_topk better key k input out ->
  (length ks <= k)%nat -> (forall x, In x input -> In (key x) ks) ->
  forall x, In x input -> In (key x) (map key out).
Proof.
  intros A K dec better key k input out ks (ND & I & _ & _ & C) L H x Hx.
  destruct (C x Hx) as [|[E _]]; auto.
  destruct (in_dec dec (key x) (map key out)) as [|NI]; auto. exfalso.
  assert (N2 : NoDup (key x :: map key out)) by (constructor; auto).
  apply (NoDup_incl_length (l' := ks)) in N2.
  - cbn in N2. rewrite map_length in N2. lia.
  - intros y [<-|Hy]; auto. apply in_map_iff in Hy. destruct Hy as (z & <- & Hz). auto.
Qed.

Lemma topk_room : forall A (better : A -> A -> bool) k input out,
  topk better k input out -> (length input <= k)%nat -> Permutation out input.
Proof.
  intros A better k input out (rest & P & L & _) H. pose proof (Permutation_length P) as PL.
  rewrite app_length in PL. destruct rest; [|cbn in PL; lia]. rewrite app_nil_r in P.
  symmetry. auto.
Qed.

Lemma groups_perm : forall a b, Permutation a b -> groups a = groups b.
Proof.
  intros a b P. unfold groups. apply Permutation_length. apply NoDup_Permutation; try apply NoDup_nodup.
  intro x. rewrite !nodup_In. split; apply Permutation_in; apply Permutation_map; auto; symmetry; auto.
Qed.

Lemma wanted_limit : forall l r, (wanted l r <= N.to_nat l)%nat.
Proof. intros. unfold wanted. destruct (r =? 0); lia. Qed.

(** Same keys and one score per key: the same elements. *)
Lemma same_keys_perm : forall a b : list ScoredDatum,
  NoDup (map skey a) -> NoDup (map skey b) -> incl a b ->
  (forall x, In x b -> In (skey x) (map skey a)) -> Permutation a b.
Proof.
  intros a b Na Nb I C. apply NoDup_Permutation_bis.
  - eapply NoDup_map_inv. exact Na.
  - rewrite <- (map_length skey a), <- (map_length skey b). apply NoDup_incl_length; auto.
    intros y Hy. apply in_map_iff in Hy. destruct Hy as (x & <- & Hx). auto.
  - auto.
Qed.

(** C80 A grouped query shows every group.  On one node whose matching data all
    fit into limit and resultLimit, the answer has one result for each of the
    min(wanted, number of groups) groups, scored by at most groupLimit of the
    matching data of that group (the best ones, if higher is better). *)
Theorem C80_groups_partial : forall G M ex config q qv m tick order out,
  1 <= scLimit config < M32 -> scResultLimit config < M63 -> 1 <= scGroupLimit config < M32 ->
  store_wf m -> Permutation order m ->
  let score := GetVectorComparisonFunction M (scScoreFuncName config) in
  let found := candidates ex score config q tick m in
  no_nan found ->
  (length found <= wanted (scLimit config) (scResultLimit config))%nat ->
  answer G M ex config (mkDatum (Some q) qv) (CNode m tick order []) out ->
  NoDup (map glabel out) /\ length out = groups found /\
  (forall x, In x found -> In (glabel x) (map glabel out)) /\
  (forall o, In o out -> exists g kept,
     glabel o = Some g /\ kept <> [] /\ (length kept <= N.to_nat (scGroupLimit config))%nat /\
     incl kept (members g found) /\ (exists x, In x kept /\ sDatum o = sDatum x) /\
     sScore o = group_score (scHigherIsBetter config) (map sScore kept) /\
     (scHigherIsBetter config = true ->
      distinct_topk (beats true) skey (N.to_nat (scGroupLimit config)) (members g found) kept)).
Proof.
  intros G M ex config q qv m tick order out [L1 Ln] HR [G1 Gn] W P score found NN Room A.
  inversion A; subst.
  match goal with X : answer_all _ _ _ _ _ [] _ |- _ => inversion X; subst end.
  cbn [concat] in *. rewrite app_nil_r in *.
  match goal with X : Search _ _ _ _ _ _ _ _ = _ |- _ => rename X into ES end. fold score in ES.
  pose proof (wanted_limit (scLimit config) (scResultLimit config)) as WL.
  destruct (search_exact G ex score config q qv tick order m Ln L1 W P NN) as (m2 & l & E2 & T).
  rewrite ES in E2. injection E2 as <- <-.
  apply topk_room in T; [|fold found; lia]. fold found in T.
  pose proof (candidates_shaped M ex config q tick m W) as Sh. fold score found in Sh.
  pose proof (candidates_distinct ex score config q tick m W) as DK. fold found in DK.
  assert (P1 : Permutation arr1 found) by (etransitivity; eauto).
  assert (Sa : Forall (shaped M config q) arr1).
  { rewrite Forall_forall in *. intros x Hx. apply Sh. eapply Permutation_in; eauto. }
  assert (Na : no_nan arr1).
  { unfold no_nan in *. rewrite Forall_forall in *. intros x Hx. apply NN. eapply Permutation_in; eauto. }
  assert (Ka : Forall keyed arr1).
  { rewrite Forall_forall in *. intros x Hx. eapply shaped_keyed. eauto. }
  assert (Oa : one_score arr1) by (eapply shaped_one_score; eauto).
  assert (D1 : distinct_topk (beats (scHigherIsBetter config)) skey
                 (wanted (scLimit config) (scResultLimit config)) arr1 r1).
  { apply (merge_distinct_topk G (aggOf M config None) arr1 r1 I Ln L1 HR Na Oa Ka); auto.
    right. exists (map skey found). rewrite map_length. split; [cbn [aggOf aLimit]; lia|].
    intros y Hy. apply in_map. eapply Permutation_in; eauto. }
  assert (P2 : Permutation r1 found).
  { transitivity arr1; auto. pose proof D1 as (N1 & I1 & _). apply same_keys_perm; auto.
    - eapply Permutation_NoDup; [|exact DK]. apply Permutation_map. symmetry. auto.
    - eapply (distinct_topk_room _ _ skey_dec); [exact D1| |].
      + instantiate (1 := map skey found). rewrite map_length. exact Room.
      + intros y Hy. apply in_map. eapply Permutation_in; eauto. }
  assert (P3 : Permutation arr2 found) by (etransitivity; eauto).
  assert (K2 : Forall keyed arr2).
  { rewrite Forall_forall in *. intros x Hx. eapply shaped_keyed. apply Sh.
    eapply Permutation_in; eauto. }
  assert (N2 : no_nan arr2).
  { unfold no_nan in *. rewrite Forall_forall in *. intros x Hx. apply NN. eapply Permutation_in; eauto. }
  assert (O2 : one_score arr2).
  { eapply shaped_one_score. rewrite Forall_forall in *. intros x Hx. apply Sh.
    eapply Permutation_in; eauto. }
  match goal with X : MultiMerge _ _ _ _ = _ |- _ => rename X into EM end.
  unfold MultiMerge in EM. cbn [aggOf aGroupLimit] in EM.
  replace (0 <? scGroupLimit config) with true in EM by (symmetry; apply N.ltb_lt; lia).
  destruct (C24_grouped_search G (aggOf M config None) ord arr2 I (conj L1 Ln) (conj G1 Gn) HR K2)
    as (out' & E' & A1 & A2 & A3 & A4); auto.
  rewrite EM in E'. injection E' as <-. cbn [aggOf aGroupLimit aLimit aResultLimit aHigher] in *.
  rewrite (groups_perm _ _ P3) in *.
  assert (GL : (groups found <= wanted (scLimit config) (scResultLimit config))%nat).
  { etransitivity; [|exact Room]. unfold groups. rewrite <- (map_length glabel found).
    apply NoDup_incl_length; [apply NoDup_nodup|]. intros x Hx. apply nodup_In in Hx. auto. }
  assert (MP : forall g x, In x (members g arr2) <-> In x (members g found)).
  { intros g x. rewrite !in_members. split; intros [Hx Hg]; split; auto.
    - eapply Permutation_in; eauto.
    - eapply Permutation_in; [symmetry|]; eauto. }
  split; auto. split; [lia|]. split.
  - intros x Hx. apply A4; auto. eapply Permutation_in; [symmetry|]; eauto.
  - intros o Ho. destruct (A3 o Ho) as (g & kept & B1 & B2 & B3 & B4 & B5 & B6 & B7).
    exists g, kept. split; auto. split; auto. split; auto. split.
    { intros x Hx. apply MP. auto. }
    split; auto. split; auto. intro Hh. eapply distinct_topk_ext; [|apply B7; auto]. apply MP.
Qed.
Print Assumptions C80_groups_partial.

(** Data of group g at distance 1, 2, 4 or 8 from the query (float32 bit patterns). *)
Definition one32 : N := 1065353216.
Definition two32 : N := 1073741824.
Definition four32 : N := 1082130432.
Definition eight32 : N := 1090519040.
Definition kg (g : bytes) (x : N) : DatumKey := mkKey [x] g 1 1 1 1.
Definition query0 : DatumKey := mkKey [0] (bs "q") 1 1 1 1.
Definition store_of (ks : list DatumKey) : dbmap :=
  map (fun k => (wire_key k, mkEntry 0 (kv k va))) ks.
Definition node_of (ks : list DatumKey) (children : list calltree) : calltree :=
  CNode (store_of ks) (fun _ => 100%Z) (store_of ks) children.
Definition cfgG (limit groupLimit resultLimit : N) : SearchConfig :=
  mkSearchConfig (bs "QuickVectorDistance") true 0 1000 limit 0 (bs "d") groupLimit [] [] resultLimit [] [].

Lemma kg_ok : forall g x, In g [bs "a"; bs "b"] -> In x [one32; two32; four32; eight32] -> kv_ok (kg g x) va.
Proof.
  intros g x Hg Hx. unfold kv_ok, key_ok, value_ok, is_bytes, is_u32, is_u64, is_byte, M8, M32, M64.
  destruct Hg as [<-|[<-|[]]]; destruct Hx as [<-|[<-|[<-|[<-|[]]]]];
    repeat split; repeat constructor; vm_compute; congruence.
Qed.

Lemma store_of_wf : forall ks, NoDup (map wire_key ks) -> Forall (fun k => kv_ok k va) ks ->
  store_wf (store_of ks).
Proof.
  intros ks ND F. split.
  - unfold mwf, store_of, mkeys. rewrite map_map. cbn [fst]. exact ND.
  - intros b e Hin. apply in_map_iff in Hin. destruct Hin as (k & E & Hk). injection E as <- <-.
    rewrite Forall_forall in F. exists k, va. auto.
Qed.

Ltac store_ok := apply store_of_wf;
  [repeat constructor; cbn; intuition discriminate
  |repeat (constructor; [apply kg_ok; cbn; tauto|]); constructor].

(** The answer computed with one fixed order of arrival. *)
Fixpoint run_tree (config : SearchConfig) (q : DatumKey) (t : calltree) {struct t} : res (list ScoredDatum) :=
  match t with
  | CNode m tick order children =>
      local <- snd (Search insertion_sort any_filter
                 (GetVectorComparisonFunction mathlib_ex (scScoreFuncName config)) tick order m
                 (Some (mkDatum (Some q) None)) config) ;;
      answers <- (fix all (ts : list calltree) : res (list (list ScoredDatum)) :=
                    match ts with
                    | [] => Ok []
                    | t :: ts => a <- run_tree config q t ;; l <- all ts ;; Ok (a :: l)
                    end) children ;;
      r1 <- Merge insertion_sort (aggOf mathlib_ex config None) (local ++ concat answers) ;;
      MultiMerge insertion_sort (aggOf mathlib_ex config None) (fun gs => gs) r1
  end.

Lemma run_tree_answer : forall config q, HasPrefix (scScoreFuncName config) (bs "Annoy") = false ->
  forall t out, run_tree config q t = Ok out ->
  answer insertion_sort mathlib_ex any_filter config (mkDatum (Some q) None) t out.
Proof.
  intros config q HP. induction t as [m tick order ts IH] using calltree_ind2. intros out E.
  cbn [run_tree] in E.
  destruct (Search insertion_sort any_filter
                 (GetVectorComparisonFunction mathlib_ex (scScoreFuncName config)) tick order m
                 (Some (mkDatum (Some q) None)) config) as [m' [local| |]] eqn:ES; cbn [snd bind] in E;
    try discriminate.
  match type of E with (bind ?A _) = _ => destruct A as [answers| |] eqn:EA end; cbn [bind] in E;
    try discriminate.
  destruct (Merge insertion_sort (aggOf mathlib_ex config None) (local ++ concat answers)) as [r1| |] eqn:EM;
    cbn [bind] in E; try discriminate.
  eapply (answer_node _ _ _ _ _ m tick order ts m' local answers _ r1 r1 (fun gs => gs)); eauto.
  clear -IH EA. revert answers EA. induction ts as [|t ts IHt]; intros answers EA.
  - injection EA as <-. constructor.
  - inversion IH; subst.
    destruct (run_tree config q t) as [a| |] eqn:Ea; cbn [bind] in EA; try discriminate.
    match type of EA with (bind ?A _) = _ => destruct A as [l| |] eqn:El end; cbn [bind] in EA;
      try discriminate.
    injection EA as <-. constructor; auto.
Qed.

(** False in general: the data that are not among the limit (or resultLimit)
    best never reach the grouping.  Two data of group a and one of group b match,
    two results are wanted, and group b is missing. *)
Theorem C80_groups_refuted : exists config m out,
  let found := candidates any_filter QuickVectorDistance config query0 (fun _ => 100%Z) m in
  1 <= scLimit config < M32 /\ scResultLimit config = 0 /\ 1 <= scGroupLimit config < M32 /\
  store_wf m /\ no_nan found /\ groups found = 2%nat /\
  wanted (scLimit config) (scResultLimit config) = 2%nat /\
  answer insertion_sort mathlib_ex any_filter config (mkDatum (Some query0) None)
    (CNode m (fun _ => 100%Z) m []) out /\
  length out = 1%nat.
Proof.
  exists (cfgG 2 1 0), (store_of [kg (bs "a") four32; kg (bs "a") two32; kg (bs "b") one32]).
  eexists. cbn zeta.
  split; [cbn; unfold M32; lia|]. split; [reflexivity|]. split; [cbn; unfold M32; lia|].
  split; [store_ok|].
  split. { apply Forall_forall. intros x Hx. vm_compute in Hx. repeat destruct Hx as [<-|Hx]; try reflexivity. destruct Hx. }
  split; [vm_compute; reflexivity|]. split; [vm_compute; reflexivity|].
  split; [apply (run_tree_answer (cfgG 2 1 0) query0 eq_refl); vm_compute; reflexivity|].
  vm_compute. reflexivity.
Qed.
Print Assumptions C80_groups_refuted.

Example C80_instance : exists out,
  answer insertion_sort mathlib_ex any_filter (cfgG 10 2 0) (mkDatum (Some query0) None)
    (node_of [kg (bs "a") four32; kg (bs "a") two32; kg (bs "b") one32; kg (bs "a") one32] []) out /\
  map (fun o => (sScore o, glabel o)) out
  = [(f64_of_Z 6, Some (bs "a")); (f64_of_Z 1, Some (bs "b"))].
Proof.
  eexists. split; [apply (run_tree_answer (cfgG 10 2 0) query0 eq_refl); vm_compute; reflexivity|].
  vm_compute. reflexivity.
Qed.

Lemma groups_le_keys : forall xs ks, (forall x, In x xs -> In (skey x) ks) ->
  (groups xs <= length ks)%nat.
Proof.
  intros xs ks H. unfold groups. rewrite <- (map_length (option_map groupLabel) ks).
  apply NoDup_incl_length; [apply NoDup_nodup|]. intros g Hg. apply nodup_In in Hg.
  apply in_map_iff in Hg. destruct Hg as (x & <- & Hx). unfold glabel. apply in_map. auto.
Qed.

(** C81 Grouping over several nodes is grouping over all their data.  With
    groupLimit 1 and higher-is-better scores (none of them -0, which the sum would
    turn into 0), if all matching data of the tree fit into limit and resultLimit:
    the answer has the best datum of every group. *)
Theorem C81_cluster_groups_partial : forall G M ex config q qv t out ks,
  scHigherIsBetter config = true ->
  1 <= scLimit config < M32 -> scResultLimit config < M63 -> scGroupLimit config = 1 ->
  tree_wf t ->
  let score := GetVectorComparisonFunction M (scScoreFuncName config) in
  let found := reached ex score config q t in
  no_nan found -> Forall (fun x => sScore x <> S754_zero true) found ->
  (length ks <= wanted (scLimit config) (scResultLimit config))%nat ->
  (forall x, In x found -> In (skey x) ks) ->
  answer G M ex config (mkDatum (Some q) qv) t out ->
  best_of_groups true found out.
Proof.
  intros G M ex config q qv t out ks Hh [L1 Ln] HR HG W score found NN NZ Lk Hk A.
  unfold found in *. clear found.
  set (K := wanted (scLimit config) (scResultLimit config)) in *.
  pose proof (wanted_limit (scLimit config) (scResultLimit config)) as WL. fold K in WL.
  revert W NN NZ Hk.
  apply (answer_mut G M ex config (mkDatum (Some q) qv)
    (fun t out _ => tree_wf t -> no_nan (reached ex score config q t) ->
       Forall (fun x => sScore x <> S754_zero true) (reached ex score config q t) ->
       (forall x, In x (reached ex score config q t) -> In (skey x) ks) ->
       best_of_groups true (reached ex score config q t) out)
    (fun ts outs _ => Forall tree_wf ts -> no_nan (flat_map (reached ex score config q) ts) ->
       Forall (fun x => sScore x <> S754_zero true) (flat_map (reached ex score config q) ts) ->
       (forall x, In x (flat_map (reached ex score config q) ts) -> In (skey x) ks) ->
       incl (concat outs) (flat_map (reached ex score config q) ts) /\
       forall x, In x (flat_map (reached ex score config q) ts) ->
         exists o, In o (concat outs) /\ glabel x = glabel o /\ beats true x o = false));
    [| | |exact A].
  - clear t out A.
    intros m tick order ts m' local answers arr1 r1 arr2 ord out HP ES HA IH P1 E1 P2 PO E2 W NN NZ Hk.
    pose proof (reached_shaped M ex config q _ W) as Sh. fold score in Sh.
    apply tree_wf_children in W. destruct W as (Ws & Wo & Wt).
    cbn [reached] in *.
    set (cand := candidates ex score config q tick m) in *.
    set (rest := flat_map (reached ex score config q) ts) in *.
    destruct IH as [IHi IHb]; auto.
    { apply no_nan_app in NN. tauto. }
    { apply Forall_app in NZ. tauto. }
    { intros x Hx. apply Hk. apply in_or_app. auto. }
    assert (Nc : no_nan cand) by (apply no_nan_app in NN; tauto).
    fold score in ES.
    destruct (search_exact G ex score config q qv tick order m Ln L1 Ws Wo Nc) as (m2 & l & E' & T).
    rewrite ES in E'. injection E' as <- <-. fold cand in T.
    assert (Lc : (length cand <= K)%nat).
    { etransitivity; [|exact Lk]. rewrite <- (map_length skey cand). apply NoDup_incl_length.
      - apply candidates_distinct. auto.
      - intros y Hy. apply in_map_iff in Hy. destruct Hy as (x & <- & Hx). apply Hk. apply in_or_app. auto. }
    apply topk_room in T; [|lia].
    assert (I1 : incl arr1 (cand ++ rest)).
    { intros x Hx. eapply Permutation_in in Hx; [|exact P1]. apply in_app_or in Hx as [Hx|Hx];
        apply in_or_app; [left|right]; auto. eapply Permutation_in; eauto. }
    assert (Sa : Forall (shaped M config q) arr1).
    { rewrite Forall_forall in *. auto. }
    assert (Na : no_nan arr1).
    { unfold no_nan in *. rewrite Forall_forall in *. auto. }
    assert (Ka : Forall keyed arr1).
    { rewrite Forall_forall in *. intros x Hx. eapply shaped_keyed. eauto. }
    assert (Oa : one_score arr1) by (eapply shaped_one_score; eauto).
    assert (D1 : distinct_topk (beats true) skey K arr1 r1).
    { rewrite <- Hh. apply (merge_distinct_topk G (aggOf M config None) arr1 r1 I Ln L1 HR Na Oa Ka); auto. }
    assert (C1 : forall x, In x arr1 -> In (skey x) (map skey r1)).
    { eapply (distinct_topk_room _ _ skey_dec); eauto. }
    pose proof D1 as (N1 & I2 & _).
    assert (I3 : incl arr2 (cand ++ rest)).
    { intros x Hx. apply I1, I2. eapply Permutation_in; eauto. }
    assert (K2 : Forall keyed arr2).
    { rewrite Forall_forall in *. intros x Hx. eapply shaped_keyed. apply Sh. auto. }
    assert (N2 : no_nan arr2).
    { unfold no_nan in *. rewrite Forall_forall in *. auto. }
    assert (O2 : one_score arr2).
    { eapply shaped_one_score. rewrite Forall_forall in *. auto. }
    unfold MultiMerge in E2. cbn [aggOf aGroupLimit] in E2. rewrite HG in E2.
    change (0 <? 1) with true in E2. cbn iota in E2.
    destruct (C24_grouped_search G (aggOf M config None) ord arr2 I (conj L1 Ln)) as (out' & E' & A1 & A2 & A3 & A4); auto.
    { cbn. rewrite HG. unfold M32. lia. }
    destruct (C24_best_groups G (aggOf M config None) ord arr2 Hh I (conj L1 Ln)) as (ones & out2 & E3 & B1 & B2 & B3); auto.
    { cbn. rewrite HG. unfold M32. lia. }
    unfold aggOf in *. rewrite HG in *.
    cbn [aggOf aGroupLimit aLimit aResultLimit aHigher] in *.
    rewrite E2 in E'. injection E' as <-. rewrite E2 in E3. injection E3 as <-.
    (* a group of one is its element *)
    assert (One : forall o kept, kept <> [] -> (length kept <= 1)%nat -> incl kept arr2 ->
              (exists x, In x kept /\ sDatum o = sDatum x) ->
              sScore o = group_score true (map sScore kept) -> kept = [o]).
    { intros o kept Hne Hl Hi (x & Hx & Ed) Es. destruct kept as [|y kept]; [congruence|].
      destruct kept; [|cbn in Hl; lia]. destruct Hx as [->|[]]. f_equal.
      assert (Hz : sScore x <> S754_zero true).
      { rewrite Forall_forall in NZ. apply NZ, I3, Hi. left. auto. }
      destruct o as [os od], x as [xs xd]. cbn in Ed, Es, Hz |- *. subst. f_equal.
      destruct xs as [[|]| | |]; try reflexivity. congruence. }
    assert (IO : incl ones arr2).
    { intros o Ho. destruct (B2 o Ho) as (g & kept & _ & C2 & C3 & C4 & C5 & C6).
      assert (Ek : kept = [o]).
      { apply One; auto. intros x Hx. apply C4 in Hx. apply in_members in Hx. tauto. }
      subst kept. specialize (C4 o (or_introl eq_refl)). apply in_members in C4. tauto. }
    assert (NO : no_nan ones).
    { unfold no_nan in *. rewrite Forall_forall in *. auto. }
    specialize (B3 NO). destruct B3 as (rest' & PR & LR & SR & _).
    assert (GA : forall x, In x arr2 -> In (glabel x) (map glabel out)).
    { apply A4. etransitivity; [|exact Lk]. etransitivity; [apply (groups_le_keys arr2 ks)|auto].
      intros x Hx. apply Hk. auto. }
    assert (Same : forall x y, In x (cand ++ rest) -> In y (cand ++ rest) -> skey x = skey y ->
              sScore x = sScore y /\ glabel x = glabel y).
    { intros x y Hx Hy E. split; [exact (shaped_one_score M config q _ Sh x y Hx Hy E)|].
      exact (f_equal (option_map groupLabel) E). }
    assert (GOOD : forall x, In x (cand ++ rest) -> good x).
    { intros x Hx. unfold no_nan in NN. rewrite Forall_forall in NN. apply NN. auto. }
    (* every reached datum has one in arr2 that is not worse *)
    assert (Cov : forall x, In x (cand ++ rest) ->
              exists y, In y arr2 /\ glabel x = glabel y /\ beats true x y = false).
    { assert (Cov1 : forall x, In x (cand ++ rest) ->
                exists y, In y arr1 /\ glabel x = glabel y /\ beats true x y = false).
      { intros x Hx. apply in_app_or in Hx as [Hx|Hx].
        - exists x. split; [|split; auto].
          + eapply Permutation_in; [symmetry; exact P1|]. apply in_or_app. left.
            eapply Permutation_in; [symmetry|]; eauto.
          + apply (swo_irr _ _ (beats_swo true)). apply GOOD. apply in_or_app. auto.
        - destruct (IHb x Hx) as (o & Ho & Eg & Hb). exists o. split; [|auto].
          eapply Permutation_in; [symmetry; exact P1|]. apply in_or_app. auto. }
      intros x Hx. destruct (Cov1 x Hx) as (y & Hy & Eg & Hb).
      specialize (C1 y Hy). apply in_map_iff in C1. destruct C1 as (z & Ez & Hz).
      exists z. destruct (Same z y) as [Es El]; auto.
      split; [eapply Permutation_in; [symmetry|]; eauto|]. split; [congruence|].
      unfold beats in *. congruence. }
    assert (IOut : incl out arr2).
    { intros o Ho. apply IO. eapply Permutation_in; [symmetry; exact PR|]. apply in_or_app. auto. }
    split; [auto|]. split; [intros o Ho; auto|]. split; [auto|]. split.
    + intros x Hx. destruct (Cov x Hx) as (y & Hy & Eg & _). rewrite Eg. auto.
    + intros o x Ho Hx Eg. destruct (Cov x Hx) as (y & Hy & Eg2 & Hb).
      destruct (A3 o Ho) as (g & kept & D0 & D2 & D3 & D4 & D5 & D6 & D7).
      assert (Ek : kept = [o]).
      { apply One; auto. { intros z Hz. apply D4 in Hz. apply in_members in Hz. tauto. } congruence. }
      subst kept. specialize (D7 Hh N2 O2). destruct D7 as (_ & _ & _ & _ & D7).
      assert (Hm : In y (members g arr2)) by (apply in_members; split; auto; congruence).
      assert (beats true y o = false) as Hyo.
      { destruct (D7 y Hm) as [[E|[]]|[_ X]]; [|apply X; left; auto].
        destruct (Same o y) as [Es _]; auto. 
        unfold beats. rewrite Es. apply (swo_irr _ _ (beats_swo true) y). apply GOOD. auto. }
      apply (swo_neg _ _ (beats_swo true) x y o); auto.
  - intros; cbn. split; [intros ? []|intros ? []].
  - clear t out A. intros t ts a l HA IH1 HB IH2 F NN NZ Hk. inversion F; subst. cbn [flat_map] in *.
    apply no_nan_app in NN. apply Forall_app in NZ. destruct NN, NZ.
    destruct IH1 as (_ & J1 & _ & J2 & J3); auto.
    { intros x Hx. apply Hk. apply in_or_app. auto. }
    destruct IH2 as (J4 & J5); auto.
    { intros x Hx. apply Hk. apply in_or_app. auto. }
    cbn [concat]. split.
    + intros x Hx. apply in_app_or in Hx as [Hx|Hx]; apply in_or_app; auto.
    + intros x Hx. apply in_app_or in Hx as [Hx|Hx].
      * specialize (J2 x Hx). apply in_map_iff in J2. destruct J2 as (o & Eo & Ho).
        exists o. split; [apply in_or_app; auto|]. split; auto.
      * destruct (J5 x Hx) as (o & Ho & E1 & E2). exists o. split; auto. apply in_or_app. auto.
Qed.
Print Assumptions C81_cluster_groups_partial.

(** ... and a grouped query over any tree has an answer: no node crashes. *)
Theorem C81_cluster_groups_answers_partial : forall G M ex config q qv t,
  HasPrefix (scScoreFuncName config) (bs "Annoy") = false ->
  1 <= scLimit config < M32 -> scResultLimit config < M63 -> 1 <= scGroupLimit config < M32 ->
  tree_wf t ->
  no_nan (reached ex (GetVectorComparisonFunction M (scScoreFuncName config)) config q t) ->
  exists out, answer G M ex config (mkDatum (Some q) qv) t out /\ Forall keyed out.
Proof.
  intros G M ex config q qv t HP [L1 Ln] HR HG W NN.
  set (score := GetVectorComparisonFunction M (scScoreFuncName config)) in *.
  revert W NN. induction t as [m tick order ts IH] using calltree_ind2. intros W NN.
  apply tree_wf_children in W. destruct W as (Ws & Wo & Wt).
  cbn [reached] in NN. apply no_nan_app in NN. destruct NN as [N1 N2].
  assert (exists answers, answer_all G M ex config (mkDatum (Some q) qv) ts answers /\
            Forall keyed (concat answers)) as (answers & HA & KA).
  { induction ts as [|t ts IHt]; [exists []; split; constructor|].
    inversion IH; inversion Wt; subst. cbn [flat_map] in N2. apply no_nan_app in N2.
    destruct N2 as [N2 N3].
    destruct (H1 H5 N2) as (a & Ha & Ka). destruct IHt as (l & Hl & Kl); auto.
    exists (a :: l). split; [constructor; auto|]. cbn [concat]. apply Forall_app. auto. }
  destruct (search_exact G ex score config q qv tick order m Ln L1 Ws Wo N1) as (m' & local & ES & T).
  assert (KL : Forall keyed local).
  { destruct T as (rest & P & _). pose proof (candidates_shaped M ex config q tick m Ws) as Sh.
    rewrite Forall_forall in *. intros x Hx. eapply shaped_keyed. apply Sh.
    eapply Permutation_in; [symmetry; exact P|]. apply in_or_app. auto. }
  assert (K1 : Forall keyed (local ++ concat answers)) by (apply Forall_app; auto).
  destruct (merge_limits G (aggOf M config None) (local ++ concat answers) I Ln L1 HR K1)
    as (l & r1 & _ & E1 & _ & Il & El).
  assert (K2 : Forall keyed r1).
  { rewrite El. rewrite Forall_forall in *. intros x Hx. apply firstn_incl in Hx. auto. }
  destruct (C24_grouped_search G (aggOf M config None) (fun gs => gs) r1 I (conj L1 Ln) HG HR K2)
    as (out & E2 & _ & _ & A3 & _); auto.
  exists out. split.
  - eapply (answer_node G M ex config _ m tick order ts m' local answers _ r1 r1 (fun gs => gs)); eauto.
    unfold MultiMerge. cbn [aggOf aGroupLimit].
    replace (0 <? scGroupLimit config) with true by (symmetry; apply N.ltb_lt; lia). exact E2.
  - apply Forall_forall. intros o Ho. destruct (A3 o Ho) as (g & kept & _ & _ & _ & Ik & (x & Hx & Ed) & _).
    apply Ik in Hx. apply in_members in Hx. destruct Hx as [Hx _]. rewrite Forall_forall in K2.
    destruct (K2 x Hx) as (k & A & B & C). exists k. unfold skey in *. rewrite Ed. auto.
Qed.
Print Assumptions C81_cluster_groups_answers_partial.

(** False for a larger groupLimit: the score that a source returns for a group is
    the sum of several, and is added up again.  Two replicas hold the same two
    data of one group, at 8 and 2; the group's score is 12, which is the sum of no
    two (nor one) of the scores. *)
Theorem C81_cluster_groups_refuted : exists config t out o,
  let found := reached any_filter QuickVectorDistance config query0 t in
  scHigherIsBetter config = true /\ 1 <= scLimit config < M32 /\ scResultLimit config = 0 /\
  1 <= scGroupLimit config < M32 /\ tree_wf t /\ no_nan found /\
  (length found <= N.to_nat (scLimit config))%nat /\
  answer insertion_sort mathlib_ex any_filter config (mkDatum (Some query0) None) t out /\ In o out /\
  forall kept, kept <> [] -> (length kept <= N.to_nat (scGroupLimit config))%nat -> incl kept found ->
    sScore o <> group_score true (map sScore kept).
Proof.
  pose (ks := [kg (bs "a") eight32; kg (bs "a") two32]).
  exists (cfgG 10 2 0), (node_of ks [node_of ks []]). eexists. eexists. cbn zeta.
  split; [reflexivity|]. split; [cbn; unfold M32; lia|]. split; [reflexivity|].
  split; [cbn; unfold M32; lia|].
  split. { cbn [tree_wf node_of]. assert (store_wf (store_of ks)) by store_ok. repeat split; auto; apply H. }
  split. { apply Forall_forall. intros x Hx. vm_compute in Hx. repeat destruct Hx as [<-|Hx]; try reflexivity. destruct Hx. }
  split; [vm_compute; lia|].
  split; [apply (run_tree_answer (cfgG 10 2 0) query0 eq_refl); vm_compute; reflexivity|].
  split; [left; reflexivity|].
  intros kept NE Lk Ik.
  assert (S : forall x, In x kept -> sScore x = f64_of_Z 8 \/ sScore x = f64_of_Z 2).
  { intros x Hx. apply Ik in Hx. vm_compute in Hx.
    repeat destruct Hx as [<-|Hx]; [left|right|left|right|destruct Hx]; vm_compute; reflexivity. }
  cbn [cfgG scGroupLimit N.to_nat] in Lk.
  destruct kept as [|x [|y [|z l]]]; [congruence| | |cbn in Lk; lia]; cbn [map sScore].
  - destruct (S x (or_introl eq_refl)) as [-> | ->]; intro E; vm_compute in E; discriminate E.
  - destruct (S x (or_introl eq_refl)) as [-> | ->];
      destruct (S y (or_intror (or_introl eq_refl))) as [-> | ->];
      intro E; vm_compute in E; discriminate E.
Qed.
Print Assumptions C81_cluster_groups_refuted.

(** Three nodes with replicas, groupLimit 1. *)
Definition group_tree : calltree :=
  node_of [kg (bs "a") one32; kg (bs "b") two32]
    [node_of [kg (bs "a") four32; kg (bs "a") one32] [node_of [kg (bs "b") eight32; kg (bs "b") two32] []];
     node_of [] []].
Example C81_instance : exists out,
  answer insertion_sort mathlib_ex any_filter (cfgG 10 1 0) (mkDatum (Some query0) None) group_tree out /\
  map (fun o => (sScore o, glabel o)) out = [(f64_of_Z 8, Some (bs "b")); (f64_of_Z 4, Some (bs "a"))] /\
  best_of_groups true (reached any_filter QuickVectorDistance (cfgG 10 1 0) query0 group_tree) out.
Proof.
  eexists. split; [apply (run_tree_answer (cfgG 10 1 0) query0 eq_refl); vm_compute; reflexivity|].
  split; [vm_compute; reflexivity|].
  eapply (C81_cluster_groups_partial insertion_sort mathlib_ex any_filter (cfgG 10 1 0) query0 None group_tree _
            (map skey (reached any_filter QuickVectorDistance (cfgG 10 1 0) query0 group_tree)));
    try reflexivity; try (cbn; unfold M32, M63; lia).
  - cbn [tree_wf node_of group_tree]. repeat split; auto; try reflexivity; apply store_of_wf; try (repeat constructor; cbn; intuition discriminate); repeat (constructor; [apply kg_ok; cbn; tauto|]); constructor.
  - apply Forall_forall. intros x Hx. vm_compute in Hx. repeat destruct Hx as [<-|Hx]; try reflexivity. destruct Hx.
  - apply Forall_forall. intros x Hx. vm_compute in Hx. repeat destruct Hx as [<-|Hx]; try (vm_compute; discriminate). destruct Hx.
  - intros x Hx. apply in_map. exact Hx.
  - apply (run_tree_answer (cfgG 10 1 0) query0 eq_refl); vm_compute; reflexivity.
Qed.
