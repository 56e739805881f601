(** A forwarded search is exact. *)
From Verif.Base Require Import GoBase GoLemmas Assoc Float GoSort.
From Verif.Model Require Import Codec Store Data Vector Search Aggregator CallTree.
From Verif.Spec Require Import Wire StoreSpec TopK TreeSpec.
From Verif.Proof Require Import FloatP TopKP CodecTop StoreP StoreQ SearchP AggP.
Open Scope N_scope.

Scheme answer_mut := Induction for answer Sort Prop
  with answer_all_mut := Induction for answer_all Sort Prop.

Section T.
Variables (G : go_sort) (M : mathlib) (ex : bytes -> bytes -> bool) (config : SearchConfig)
  (q : DatumKey) (qv : option DatumValue).
Let score := GetVectorComparisonFunction M (scScoreFuncName config).
Let h := scHigherIsBetter config.
Let K := wanted (scLimit config) (scResultLimit config).
Hypothesis Hlim : scLimit config < M32.
Hypothesis Hlim1 : 1 <= scLimit config.
Hypothesis Hres : scResultLimit config < M63.
Hypothesis Hgrp : scGroupLimit config = 0.

Definition shaped (x : ScoredDatum) : Prop :=
  exists k, skey x = Some k /\ key_ok k /\ key_fits k /\ sScore x = score (vec k) (vec q).

Lemma shaped_one_score : forall l, Forall shaped l -> one_score l.
Proof.
  intros l F x y Hx Hy E. rewrite Forall_forall in F.
  destruct (F x Hx) as (k & Ek & _ & _ & Es). destruct (F y Hy) as (k' & Ek' & _ & _ & Es').
  rewrite Es, Es'. congruence.
Qed.

Lemma shaped_keyed : forall x, shaped x -> keyed x.
Proof. intros x (k & A & B & C & _). exists k. auto. Qed.

Lemma candidates_shaped : forall tick m, store_wf m ->
  Forall shaped (candidates ex score config q tick m).
Proof.
  intros tick m [W F]. apply Forall_forall. intros x Hx. apply candidates_in in Hx.
  destruct Hx as (b & e & k & v & Hin & Ed & _ & _ & ->).
  destruct (F b e Hin) as (k' & v' & (O & Ft & _) & _ & Ed'). rewrite Ed in Ed'.
  injection Ed' as -> _. exists k'. unfold skey. cbn. rewrite Ed. auto.
Qed.

Lemma tree_wf_children : forall m tick order ts, tree_wf (CNode m tick order ts) ->
  store_wf m /\ Permutation order m /\ Forall tree_wf ts.
Proof.
  cbn. intros m _ order ts (A & B & C). split; auto. split; auto.
  induction ts as [|t ts IH]; constructor; destruct C; auto.
Qed.

Lemma calltree_ind2 : forall (Q : calltree -> Prop),
  (forall m tick order ts, Forall Q ts -> Q (CNode m tick order ts)) -> forall t, Q t.
Proof.
  intros Q H. fix IH 1. intros [m tick order ts]. apply H.
  induction ts; constructor; auto.
Qed.

Lemma reached_shaped : forall t, tree_wf t -> Forall shaped (reached ex score config q t).
Proof.
  induction t as [m tick order ts IH] using calltree_ind2. intro W.
  apply tree_wf_children in W. destruct W as (Ws & _ & Wt). cbn [reached].
  apply Forall_app. split; [apply candidates_shaped; auto|].
  apply Forall_forall. intros x Hx. apply in_flat_map in Hx. destruct Hx as (t & Ht & Hx).
  rewrite Forall_forall in IH, Wt. specialize (IH t Ht (Wt t Ht)).
  rewrite Forall_forall in IH. auto.
Qed.

Lemma limit_reach_K : (K <= N.to_nat (scLimit config))%nat.
Proof. unfold K, wanted. destruct (scResultLimit config =? 0); lia. Qed.

Lemma K_eff : K = N.to_nat (eff (scLimit config) (scResultLimit config)).
Proof. reflexivity. Qed.

(** One merge of answers, with all keys of one query. *)
Lemma merge_parts : forall parts arr out,
  Forall shaped (concat (map fst parts)) -> no_nan (concat (map fst parts)) ->
  Forall (fun p => exists kp, (K <= kp)%nat /\ distinct_topk (beats h) skey kp (fst p) (snd p)) parts ->
  Permutation arr (concat (map snd parts)) ->
  (h = true \/ exists ks, (length ks <= N.to_nat (scLimit config))%nat /\
     forall y, In y arr -> In (skey y) ks) ->
  (exists o, Merge G (aggOf M config None) arr = Ok o) /\
  (Merge G (aggOf M config None) arr = Ok out ->
   distinct_topk (beats h) skey K (concat (map fst parts)) out).
Proof.
  intros parts arr out Sh NN Pt Pm Hh.
  assert (HI : incl arr (concat (map fst parts))).
  { intros x Hx. eapply Permutation_in in Hx; [|exact Pm].
    apply in_concat in Hx. destruct Hx as (l & Hl & Hx). apply in_map_iff in Hl.
    destruct Hl as (p & <- & Hp). apply in_concat. exists (fst p). split; [apply in_map; auto|].
    rewrite Forall_forall in Pt. destruct (Pt p Hp) as (? & _ & _ & J & _). auto. }
  assert (Sa : Forall shaped arr).
  { rewrite Forall_forall in *. auto. }
  assert (Na : no_nan arr).
  { unfold no_nan in *. rewrite Forall_forall in *. auto. }
  assert (Ka : Forall keyed arr).
  { rewrite Forall_forall in *. intros. apply shaped_keyed. auto. }
  assert (Oa : one_score arr) by (apply shaped_one_score; auto).
  split.
  - destruct (merge_inv G (aggOf M config None) arr) as (D & o & E & _); eauto; try exact I.
  - intro E.
    apply (distinct_topk_merge (beats h) skey skey_dec good (beats_swo h)
            (fun x y => sScore x = sScore y)); auto.
    + apply same_l.
    + apply same_r.
    + apply shaped_one_score. auto.
    + eapply (distinct_topk_ext _ _ _ _ arr).
      * intro x. split; apply Permutation_in; [exact Pm|symmetry; exact Pm].
      * exact (merge_distinct_topk G (aggOf M config None) arr out I Hlim Hlim1 Hres Na Oa Ka Hh E).
Qed.

Lemma local_part : forall tick order m m' local,
  store_wf m -> Permutation order m -> no_nan (candidates ex score config q tick m) ->
  Search G ex score tick order m (Some (mkDatum (Some q) qv)) config = (m', Ok local) ->
  distinct_topk (beats h) skey (N.to_nat (scLimit config)) (candidates ex score config q tick m) local.
Proof.
  intros tick order m m' local W P NN E.
  destruct (search_exact G ex score config q qv tick order m Hlim Hlim1 W P NN) as (m2 & l & E2 & T).
  rewrite E in E2. injection E2 as <- <-. apply topk_distinct; auto.
  apply candidates_distinct. auto.
Qed.

Lemma map_fst_combine : forall A B (a : list A) (b : list B), length a = length b ->
  map fst (combine a b) = a.
Proof.
  induction a as [|x a IH]; intros [|y b] H; cbn in *; try discriminate; auto.
  f_equal. apply IH. lia.
Qed.
Lemma map_snd_combine : forall A B (a : list A) (b : list B), length a = length b ->
  map snd (combine a b) = b.
Proof.
  induction a as [|x a IH]; intros [|y b] H; cbn in *; try discriminate; auto.
  f_equal. apply IH. lia.
Qed.
Lemma Forall2_combine : forall A B (R : A -> B -> Prop) a b, Forall2 R a b ->
  Forall (fun p => R (fst p) (snd p)) (combine a b).
Proof. intros A B R a b H. induction H; cbn; constructor; auto. Qed.
Lemma Forall2_len : forall A B (R : A -> B -> Prop) a b, Forall2 R a b -> length a = length b.
Proof. intros A B R a b H. induction H; cbn; auto. Qed.

Lemma flat_map_concat : forall A B (f : A -> list B) l, flat_map f l = concat (map f l).
Proof. intros. apply flat_map_concat_map. Qed.

Lemma node_exact : forall m tick order ts m' local answers arr1 r1 arr2 ord out,
  h = true ->
  tree_wf (CNode m tick order ts) ->
  no_nan (reached ex score config q (CNode m tick order ts)) ->
  Search G ex score tick order m (Some (mkDatum (Some q) qv)) config = (m', Ok local) ->
  Forall2 (distinct_topk (beats h) skey K) (map (reached ex score config q) ts) answers ->
  Permutation arr1 (local ++ concat answers) ->
  Merge G (aggOf M config None) arr1 = Ok r1 ->
  Permutation arr2 r1 ->
  MultiMerge G (aggOf M config None) ord arr2 = Ok out ->
  distinct_topk (beats h) skey K (reached ex score config q (CNode m tick order ts)) out.
Proof.
  intros m tick order ts m' local answers arr1 r1 arr2 ord out Hh W NN ES F2 P1 E1 P2 E2.
  pose proof (reached_shaped _ W) as Sh.
  apply tree_wf_children in W. destruct W as (Ws & Wo & Wt).
  assert (ER : reached ex score config q (CNode m tick order ts) =
    concat (map fst ((candidates ex score config q tick m, local) ::
                     combine (map (reached ex score config q) ts) answers))).
  { cbn [reached map concat fst]. f_equal.
    rewrite map_fst_combine by (eapply Forall2_len; eauto).
    apply flat_map_concat. }
  rewrite ER in *.
  set (parts := (candidates ex score config q tick m, local) ::
                combine (map (reached ex score config q) ts) answers) in *.
  assert (D1 : distinct_topk (beats h) skey K (concat (map fst parts)) r1).
  { destruct (merge_parts parts arr1 r1) as [_ X]; auto.
    - constructor.
      + exists (N.to_nat (scLimit config)). split; [apply limit_reach_K|]. cbn [fst snd].
        eapply local_part; eauto. unfold parts in NN. cbn [map concat fst] in NN.
        apply no_nan_app in NN. tauto.
      + apply Forall2_combine in F2. rewrite Forall_forall in *. intros p Hp.
        exists K. split; auto.
    - unfold parts. cbn [map concat snd].
      rewrite map_snd_combine by (eapply Forall2_len; eauto). auto. }
  unfold MultiMerge in E2. cbn [aggOf aGroupLimit] in E2. rewrite Hgrp in E2. cbn in E2.
  destruct (merge_parts [(concat (map fst parts), r1)] arr2 out) as [_ X]; cbn [map concat fst snd];
    rewrite ?app_nil_r in *; auto.
  - constructor; [exists K; auto|constructor].
  - cbn [map concat fst snd] in X. rewrite ?app_nil_r in X. auto.
Qed.

Lemma tree_exact_higher : h = true -> forall t out,
  answer G M ex config (mkDatum (Some q) qv) t out ->
  tree_wf t -> no_nan (reached ex score config q t) ->
  distinct_topk (beats h) skey K (reached ex score config q t) out.
Proof.
  intros Hh t out H.
  apply (answer_mut G M ex config (mkDatum (Some q) qv)
    (fun t out _ => tree_wf t -> no_nan (reached ex score config q t) ->
       distinct_topk (beats h) skey K (reached ex score config q t) out)
    (fun ts outs _ => Forall tree_wf ts -> no_nan (flat_map (reached ex score config q) ts) ->
       Forall2 (distinct_topk (beats h) skey K) (map (reached ex score config q) ts) outs)); auto.
  - intros m tick order ts m' local answers arr1 r1 arr2 ord out' HP ES HA IH P1 E1 P2 PO E2 W NN.
    eapply node_exact; eauto. apply IH.
    + apply tree_wf_children in W. tauto.
    + cbn [reached] in NN. apply no_nan_app in NN. tauto.
  - constructor.
  - intros t' ts a l HA IH1 HB IH2 F NN. inversion F; subst. cbn [flat_map] in NN.
    apply no_nan_app in NN. cbn [map]. constructor; tauto.
Qed.

(** Every tree has an answer. *)
Lemma tree_answers : h = true -> HasPrefix (scScoreFuncName config) (bs "Annoy") = false ->
  forall t, tree_wf t -> no_nan (reached ex score config q t) ->
  exists out, answer G M ex config (mkDatum (Some q) qv) t out.
Proof.
  intros Hh HP. induction t as [m tick order ts IH] using calltree_ind2. intros W NN.
  pose proof (tree_wf_children _ _ _ _ W) as (Ws & Wo & Wt).
  cbn [reached] in NN. pose proof NN as NN0. apply no_nan_app in NN. destruct NN as [N1 N2].
  assert (exists answers, answer_all G M ex config (mkDatum (Some q) qv) ts answers) as (answers & HA).
  { clear W NN0. induction ts as [|t ts IHt]; [eexists; constructor|].
    inversion IH; inversion Wt; subst. cbn [flat_map] in N2. apply no_nan_app in N2.
    destruct N2 as [N2 N3].
    destruct (H1 H5 N2) as (a & Ha). destruct IHt as (l & Hl); auto.
    eexists. econstructor; eauto. }
  destruct (search_exact G ex score config q qv tick order m Hlim Hlim1 Ws Wo N1) as (m' & local & ES & T).
  assert (F2 : Forall2 (distinct_topk (beats h) skey K) (map (reached ex score config q) ts) answers).
  { clear IH W NN0. revert Wt N2. induction HA; intros Wt N2; [constructor|].
    inversion Wt; subst. cbn [flat_map] in N2. apply no_nan_app in N2. destruct N2.
    cbn [map]. constructor; [eapply tree_exact_higher; eauto|apply IHHA; auto]. }
  pose proof (reached_shaped _ W) as Sh. cbn [reached] in Sh.
  assert (ER : candidates ex score config q tick m ++ flat_map (reached ex score config q) ts =
    concat (map fst ((candidates ex score config q tick m, local) ::
                     combine (map (reached ex score config q) ts) answers))).
  { cbn [map concat fst]. f_equal.
    rewrite map_fst_combine by (eapply Forall2_len; eauto).
    apply flat_map_concat. }
  rewrite ER in *.
  set (parts := (candidates ex score config q tick m, local) ::
                combine (map (reached ex score config q) ts) answers) in *.
  assert (FP : Forall (fun p => exists kp, (K <= kp)%nat /\
     distinct_topk (beats h) skey kp (fst p) (snd p)) parts).
  { constructor.
    - exists (N.to_nat (scLimit config)). split; [apply limit_reach_K|]. cbn [fst snd].
      eapply local_part; eauto.
    - apply Forall2_combine in F2. rewrite Forall_forall in *. intros p Hp. exists K. split; auto. }
  assert (Es : concat (map snd parts) = local ++ concat answers).
  { unfold parts. cbn [map concat snd].
    rewrite map_snd_combine by (eapply Forall2_len; eauto). reflexivity. }
  destruct (merge_parts parts (local ++ concat answers) []) as [(r1 & E1) _]; auto.
  { rewrite Es. reflexivity. }
  destruct (merge_parts parts (local ++ concat answers) r1) as [_ X1]; auto.
  { rewrite Es. reflexivity. }
  specialize (X1 E1).
  destruct (merge_parts [(concat (map fst parts), r1)] r1 []) as [(o & E2) _];
    cbn [map concat fst snd]; rewrite ?app_nil_r; auto.
  { constructor; [exists K; auto|constructor]. }
  exists o. eapply (answer_node G M ex config _ m tick order ts m' local answers
    (local ++ concat answers) r1 r1 (fun m => m)); eauto.
  unfold MultiMerge. cbn [aggOf aGroupLimit]. rewrite Hgrp. exact E2.
Qed.

(** A node without sources is exact for either direction. *)
Lemma leaf_exact : forall m tick order out,
  tree_wf (CNode m tick order []) ->
  no_nan (candidates ex score config q tick m) ->
  answer G M ex config (mkDatum (Some q) qv) (CNode m tick order []) out ->
  distinct_topk (beats h) skey K (candidates ex score config q tick m) out.
Proof.
  intros m tick order out W NN H. inversion H; subst.
  match goal with X : answer_all _ _ _ _ _ [] _ |- _ => inversion X; subst end.
  cbn [concat] in *. rewrite app_nil_r in *.
  apply tree_wf_children in W. destruct W as (Ws & Wo & _).
  pose proof (local_part tick order m m' local Ws Wo NN H5) as DL.
  pose proof DL as (DLn & DLi & _ & DLl & _).
  pose proof (candidates_shaped tick m Ws) as Sh.
  assert (D1 : distinct_topk (beats h) skey K (candidates ex score config q tick m) r1).
  { destruct (merge_parts [(candidates ex score config q tick m, local)] arr1 r1) as [_ X];
      cbn [map concat fst snd]; rewrite ?app_nil_r; auto.
    - constructor; [|constructor]. exists (N.to_nat (scLimit config)).
      split; [apply limit_reach_K|]. auto.
    - right. exists (map skey local). rewrite map_length. split; auto.
      intros y Hy. apply in_map. eapply Permutation_in; eauto.
    - cbn [map concat fst snd] in X. rewrite ?app_nil_r in X. auto. }
  pose proof D1 as (_ & _ & _ & L1 & _).
  unfold MultiMerge in *. cbn [aggOf aGroupLimit] in *. rewrite Hgrp in *.
  destruct (merge_parts [(candidates ex score config q tick m, r1)] arr2 out) as [_ X];
    cbn [map concat fst snd]; rewrite ?app_nil_r; auto.
  - constructor; [|constructor]. exists K. auto.
  - right. exists (map skey r1). rewrite map_length. split; [pose proof limit_reach_K; lia|].
    intros y Hy. apply in_map. eapply Permutation_in; eauto.
  - cbn [map concat fst snd] in X. rewrite ?app_nil_r in X. auto.
Qed.
End T.
