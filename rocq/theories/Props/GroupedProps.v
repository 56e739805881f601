(** C154: what a grouped query shows when not everything fits. *)
From Verif.Base Require Import GoBase GoLemmas Assoc Float GoSort.
From Verif.Model Require Import Codec Store Data Vector Search Aggregator CallTree.
From Verif.Spec Require Import Wire StoreSpec TopK GroupSpec TreeSpec.
From Verif.Proof Require Import FloatP TopKP CodecTop StoreP StoreQ SearchP AggP GroupP CallTreeP VectorP SearchW.
From Verif.Props Require Import StoreProps SearchProps GroupTreeProps.
Open Scope N_scope.

(** C154 A grouped query to a node without sources: of the matching data the best are chosen,
    as many as wanted, whatever their groups; every group of the chosen ones is shown, once,
    with a score made of at most groupLimit of its chosen data (the best of them if higher is
    better), the groups in the order of these scores. *)
Theorem C154_grouped : forall G M ex config q qv m tick order out,
  1 <= scLimit config < M32 -> scResultLimit config < M63 -> 1 <= scGroupLimit config < M32 ->
  store_wf m -> Permutation order m ->
  let score := GetVectorComparisonFunction M (scScoreFuncName config) in
  let found := candidates ex score config q tick m in
  no_nan found ->
  answer G M ex config (mkDatum (Some q) qv) (CNode m tick order []) out ->
  exists chosen,
    distinct_topk (beats (scHigherIsBetter config)) skey (wanted (scLimit config) (scResultLimit config)) found chosen /\
    NoDup (map glabel out) /\
    (forall g, In g (map glabel out) <-> In g (map glabel chosen)) /\
    (forall o, In o out -> exists g kept,
       glabel o = Some g /\ kept <> [] /\ (length kept <= N.to_nat (scGroupLimit config))%nat /\
       incl kept (members g chosen) /\ (exists x, In x kept /\ sDatum o = sDatum x) /\
       sScore o = group_score (scHigherIsBetter config) (map sScore kept) /\
       (scHigherIsBetter config = true \/ (length (members g chosen) <= N.to_nat (scGroupLimit config))%nat ->
        distinct_topk (beats (scHigherIsBetter config)) skey (N.to_nat (scGroupLimit config)) (members g chosen) kept)) /\
    (no_nan out -> sorted (beats (scHigherIsBetter config)) out).
Proof.
  intros G M ex config q qv m tick order out [L1 Ln] HR [G1 Gn] W P score found NN A.
  inversion A; subst.
  match goal with X : answer_all _ _ _ _ _ [] _ |- _ => inversion X; subst end.
  cbn [concat] in *. rewrite app_nil_r in *.
  match goal with X : Search _ _ _ _ _ _ _ _ = _ |- _ => rename X into ES end. fold score in ES.
  pose proof (wanted_limit (scLimit config) (scResultLimit config)) as WL.
  pose proof (local_part G M ex config q qv Ln L1 tick order m m' local W P NN ES) as DL.
  pose proof DL as (_ & _ & _ & DLl & _).
  pose proof (candidates_shaped M ex config q tick m W) as Sh. fold score found in Sh.
  assert (D1 : distinct_topk (beats (scHigherIsBetter config)) skey
                 (wanted (scLimit config) (scResultLimit config)) found r1).
  { destruct (merge_parts G M config q Ln L1 HR [(found, local)] arr1 r1) as [_ X];
      cbn [map concat fst snd]; rewrite ?app_nil_r; auto.
    - constructor; [|constructor]. exists (N.to_nat (scLimit config)). split; [exact WL|exact DL].
    - right. exists (map skey local). rewrite map_length. split; [exact DLl|].
      intros y Hy. apply in_map. eapply Permutation_in; eauto.
    - cbn [map concat fst snd] in X. rewrite ?app_nil_r in X. auto. }
  exists r1. split; [exact D1|]. pose proof D1 as (DK & DI & _ & DLen & _).
  match goal with X : Permutation arr2 r1 |- _ => rename X into P3 end.
  assert (I2 : incl arr2 found) by (intros x Hx; apply DI; eapply Permutation_in; eauto).
  assert (S2 : Forall (shaped M config q) arr2).
  { rewrite Forall_forall in *. auto. }
  assert (K2 : Forall keyed arr2).
  { rewrite Forall_forall in *. intros x Hx. eapply shaped_keyed. eauto. }
  assert (N2 : no_nan arr2).
  { unfold no_nan in *. rewrite Forall_forall in *. auto. }
  assert (O2 : one_score arr2) by (eapply shaped_one_score; eauto).
  match goal with X : MultiMerge _ _ _ _ = _ |- _ => rename X into EM end.
  match goal with X : forall gs, Permutation (_ gs) gs |- _ => rename X into Ho end.
  unfold MultiMerge in EM. cbn [aggOf aGroupLimit] in EM.
  replace (0 <? scGroupLimit config) with true in EM by (symmetry; apply N.ltb_lt; lia).
  set (Q := aggOf M config None) in *.
  destruct (group_merge_spec G Q ord arr2 I Ln L1 Gn G1 HR K2 Ho)
    as (ones & out' & E' & PG & FO & EO & KO & (rest & HP) & HL).
  rewrite EM in E'. injection E' as <-.
  assert (NDo : NoDup (map glabel ones)) by (eapply Permutation_NoDup; [symmetry; exact PG|apply NoDup_nodup]).
  assert (GA : (groups arr2 <= length arr2)%nat).
  { unfold groups. rewrite <- (map_length glabel arr2).
    apply NoDup_incl_length; [apply NoDup_nodup|]. intros x Hx. apply nodup_In in Hx. auto. }
  assert (LA : length arr2 = length r1) by (apply Permutation_length; auto).
  assert (LO : length ones = groups arr2).
  { pose proof (Permutation_length PG) as X. rewrite map_length in X. exact X. }
  change (aLimit Q) with (scLimit config) in *. change (aResultLimit Q) with (scResultLimit config) in *.
  change (aHigher Q) with (scHigherIsBetter config) in *. change (aGroupLimit Q) with (scGroupLimit config) in *.
  assert (Hr : rest = []).
  { pose proof (Permutation_length HP) as PL. rewrite app_length in PL. destruct rest; auto. cbn in PL. lia. }
  subst rest. rewrite app_nil_r in HP.
  assert (MP : forall g x, In x (members g arr2) <-> In x (members g r1)).
  { intros g x. rewrite !in_members. split; intros [Hx Hg]; split; auto.
    - eapply Permutation_in; eauto.
    - eapply Permutation_in; [symmetry|]; eauto. }
  split; [eapply Permutation_NoDup; [apply Permutation_map; exact HP|exact NDo]|]. split; [|split].
  - intro g. split; intro I.
    + eapply Permutation_in in I; [|apply Permutation_map; symmetry; exact HP].
      eapply Permutation_in in I; [|exact PG]. apply nodup_In in I.
      eapply Permutation_in; [apply Permutation_map; exact P3|exact I].
    + eapply Permutation_in; [apply Permutation_map; exact HP|].
      eapply Permutation_in; [symmetry; exact PG|]. apply nodup_In.
      eapply Permutation_in; [apply Permutation_map; symmetry; exact P3|exact I].
  - intros o Hin. assert (Hin' : In o ones) by (eapply Permutation_in; [symmetry; exact HP|exact Hin]).
    rewrite Forall_forall in FO. destruct (FO o Hin') as (g & s & Eg & Es & A1 & A2 & A3 & A4 & Esc).
    exists g, (agList s). split; auto. split; auto. split; auto. split; [intros x Hx; apply MP; auto|]. split; auto. split; auto.
    intro Hh.
    assert (NM : no_nan (members g arr2)).
    { unfold no_nan in *. rewrite Forall_forall in *. intros x Hx. apply in_members in Hx. apply N2. tauto. }
    assert (OM : one_score (members g arr2)).
    { intros x y Hx Hy. apply in_members in Hx, Hy. apply O2; tauto. }
    eapply distinct_topk_ext; [intro x; apply MP|].
    destruct (agg_all G (groupParams Q) I Gn G1 (members g arr2) [] agg_empty) as (s' & E' & D' & T & ND & ID & CD & _); auto.
    + apply members_keyed. auto.
    + change (aHigher (groupParams Q)) with (scHigherIsBetter config). change (aLimit (groupParams Q)) with (scGroupLimit config).
      destruct Hh as [Hh|Hh]; [left; exact Hh|right].
      exists (map skey (members g r1)). rewrite map_length. split; [exact Hh|].
      intros y Hy. cbn [app] in Hy. apply in_map, MP, Hy.
    + apply agg_inv_empty.
    + rewrite Es in E'. injection E' as <-. cbn [app] in *.
      change (aHigher (groupParams Q)) with (scHigherIsBetter config) in *. change (aLimit (groupParams Q)) with (scGroupLimit config) in *.
      eapply reps_distinct_topk; eauto.
  - intro NO.
    assert (ND : NoDup (map skey ones)) by (apply NoDup_keys_of_glabel; exact NDo).
    assert (NN1 : no_nan ones).
    { unfold no_nan in *. rewrite Forall_forall in *. intros x Hx. apply NO. eapply Permutation_in; eauto. }
    assert (Inj : one_score ones).
    { clear -ND. intros x y Hx Hy E. f_equal. revert x y Hx Hy E. induction ones as [|a l IH]; [intros x y []|]. cbn in ND. inversion ND; subst.
      intros x y [->|Hx] [->|Hy] E; auto.
      - exfalso. apply H1. rewrite E. apply in_map. auto.
      - exfalso. apply H1. rewrite <- E. apply in_map. auto. }
    destruct (merge_distinct_topk G Q ones out I Ln L1 HR NN1 Inj KO) as (_ & _ & So & _); [|exact EO|exact So].
    right. exists (map skey ones). rewrite map_length. split; [change (aLimit Q) with (scLimit config); lia|].
    intros y Hy. apply in_map, Hy.
Qed.
Print Assumptions C154_grouped.

(** Two data of group a (8, 4) and two of group b (2, 1), three results wanted, groupLimit 2:
    the datum that is not among the best three does not count for its group. *)
Definition grouped_ks := [kg (bs "b") one32; kg (bs "a") four32; kg (bs "b") two32; kg (bs "a") eight32].
Example C154_instance :
  store_wf (store_of grouped_ks) /\
  no_nan (candidates any_filter QuickVectorDistance (cfgG 3 2 0) query0 (fun _ => 100%Z) (store_of grouped_ks)) /\
  exists out,
  answer insertion_sort mathlib_ex any_filter (cfgG 3 2 0) (mkDatum (Some query0) None) (node_of grouped_ks []) out /\
  map (fun o => (sScore o, glabel o)) out = [(f64_of_Z 12, Some (bs "a")); (f64_of_Z 2, Some (bs "b"))].
Proof.
  split; [store_ok|]. split.
  { apply Forall_forall. intros x Hx. vm_compute in Hx. repeat destruct Hx as [<-|Hx]; try reflexivity. destruct Hx. }
  eexists. split; [apply (run_tree_answer (cfgG 3 2 0) query0 eq_refl); vm_compute; reflexivity|].
  vm_compute. reflexivity.
Qed.
