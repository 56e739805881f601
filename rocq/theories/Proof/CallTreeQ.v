(** Forwarded searches by distance. *)
From Verif.Base Require Import GoBase GoLemmas Assoc Float GoSort.
From Verif.Model Require Import Codec Store Data Vector Search Aggregator CallTree.
From Verif.Spec Require Import Wire StoreSpec TopK TreeSpec MergeSpec NearestSpec.
From Verif.Proof Require Import FloatP TopKP CodecTop StoreP StoreQ SearchP AggP MergeP CallTreeP.
From Verif.Props Require Import SearchProps MergeProps ReadWriteProps.
From Coq Require Import Lia.
Open Scope N_scope.

Lemma firsts_combine : forall A B (a : list A) (b : list B), length a = length b -> map fst (combine a b) = a.
Proof. induction a as [|x a IH]; intros [|y b] H; cbn in *; try discriminate; auto. f_equal. apply IH. lia. Qed.
Lemma seconds_combine : forall A B (a : list A) (b : list B), length a = length b -> map snd (combine a b) = b.
Proof. induction a as [|x a IH]; intros [|y b] H; cbn in *; try discriminate; auto. f_equal. apply IH. lia. Qed.

Section T.
Variables (G : go_sort) (M : mathlib) (ex : bytes -> bytes -> bool) (config : SearchConfig)
  (q : DatumKey) (qv : option DatumValue).
Let score := GetVectorComparisonFunction M (scScoreFuncName config).
Let h := scHigherIsBetter config.
Let K := wanted (scLimit config) (scResultLimit config).
Hypothesis Hlim : scLimit config < M32.
Hypothesis Hlim1 : 1 <= scLimit config.
Hypothesis Hres : scResultLimit config < M63.
Hypothesis Hgrp : scGroupLimit config = 0.
Variable ks : list (option DatumKey).
Hypothesis few : (length ks <= N.to_nat (scLimit config))%nat.
Let listed (l : list ScoredDatum) : Prop := forall y, In y l -> In (skey y) ks.

Lemma topk_incl : forall k l out, distinct_topk (beats h) skey k l out -> incl out l.
Proof. intros k l out (_ & I & _). exact I. Qed.

Lemma node_few : forall m tick order ts m' local answers arr1 r1 arr2 ord out,
  tree_wf (CNode m tick order ts) ->
  no_nan (reached ex score config q (CNode m tick order ts)) -> listed (reached ex score config q (CNode m tick order ts)) ->
  Search G ex score tick order m (Some (mkDatum (Some q) qv)) config = (m', Ok local) ->
  Forall2 (distinct_topk (beats h) skey K) (map (reached ex score config q) ts) answers ->
  Permutation arr1 (local ++ concat answers) ->
  Permutation arr2 r1 ->
  (exists r, Merge G (aggOf M config None) arr1 = Ok r) /\
  (Merge G (aggOf M config None) arr1 = Ok r1 ->
   (exists o, MultiMerge G (aggOf M config None) ord arr2 = Ok o) /\
   (MultiMerge G (aggOf M config None) ord arr2 = Ok out ->
    distinct_topk (beats h) skey K (reached ex score config q (CNode m tick order ts)) out)).
Proof.
  intros m tick order ts m' local answers arr1 r1 arr2 ord out W NN LS ES F2 P1 P2.
  pose proof (reached_shaped M ex config q _ W) as Sh.
  apply tree_wf_children in W. destruct W as (Ws & Wo & Wt).
  assert (ER : reached ex score config q (CNode m tick order ts) =
    concat (map fst ((candidates ex score config q tick m, local) ::
                     combine (map (reached ex score config q) ts) answers))).
  { cbn [reached map concat fst]. f_equal.
    rewrite firsts_combine by (eapply Forall2_len; eauto).
    apply flat_map_concat. }
  fold score in Sh. rewrite ER in *.
  set (parts := (candidates ex score config q tick m, local) ::
                combine (map (reached ex score config q) ts) answers) in *.
  assert (FP : Forall (fun p => exists kp, (K <= kp)%nat /\ distinct_topk (beats h) skey kp (fst p) (snd p)) parts).
  { constructor.
    - exists (N.to_nat (scLimit config)). split; [unfold K, wanted; destruct (scResultLimit config =? 0); lia|]. cbn [fst snd].
      eapply local_part; eauto. unfold parts in NN. cbn [map concat fst] in NN. apply no_nan_app in NN. tauto.
    - apply Forall2_combine in F2. rewrite Forall_forall in *. intros p Hp. exists K. split; auto. }
  assert (Pm : Permutation arr1 (concat (map snd parts))).
  { unfold parts. cbn [map concat snd]. rewrite seconds_combine by (eapply Forall2_len; eauto). exact P1. }
  assert (I1 : incl arr1 (concat (map fst parts))).
  { intros x X. eapply Permutation_in in X; [|exact Pm]. apply in_concat in X. destruct X as (l & A & B).
    apply in_map_iff in A. destruct A as (p & <- & A). apply in_concat. exists (fst p). split; [apply in_map; exact A|].
    rewrite Forall_forall in FP. destruct (FP p A) as (kp & _ & D). apply (topk_incl _ _ _ D), B. }
  destruct (merge_parts G M config q Hlim Hlim1 Hres parts arr1 r1) as [X1 X2]; auto.
  { right. exists ks. split; [exact few|]. intros y Y. apply LS, I1, Y. }
  split; [exact X1|]. intro E1. specialize (X2 E1).
  destruct (merge_parts G M config q Hlim Hlim1 Hres [(concat (map fst parts), r1)] arr2 out) as [Y1 Y2]; cbn [map concat fst snd];
    rewrite ?app_nil_r in *; auto.
  - constructor; [exists K; auto|constructor].
  - right. exists ks. split; [exact few|]. intros y Y. apply LS, (topk_incl _ _ _ X2). eapply Permutation_in; eauto.
  - cbn [map concat fst snd] in Y1, Y2. rewrite app_nil_r in Y2.
    unfold MultiMerge. cbn [aggOf aGroupLimit]. rewrite Hgrp. cbv [N.eqb]. split; [exact Y1|exact Y2].
Qed.

Lemma tree_few : forall t out,
  answer G M ex config (mkDatum (Some q) qv) t out ->
  tree_wf t -> no_nan (reached ex score config q t) -> listed (reached ex score config q t) ->
  distinct_topk (beats h) skey K (reached ex score config q t) out.
Proof.
  intros t out H.
  apply (answer_mut G M ex config (mkDatum (Some q) qv)
    (fun t out _ => tree_wf t -> no_nan (reached ex score config q t) -> listed (reached ex score config q t) ->
       distinct_topk (beats h) skey K (reached ex score config q t) out)
    (fun ts outs _ => Forall tree_wf ts -> no_nan (flat_map (reached ex score config q) ts) ->
       listed (flat_map (reached ex score config q) ts) ->
       Forall2 (distinct_topk (beats h) skey K) (map (reached ex score config q) ts) outs)); auto.
  - intros m tick order ts m' local answers arr1 r1 arr2 ord out' HP ES HA IH P1 E1 P2 PO E2 W NN LS.
    destruct (node_few m tick order ts m' local answers arr1 r1 arr2 ord out') as [_ X]; auto.
    + apply IH.
      * apply tree_wf_children in W. tauto.
      * cbn [reached] in NN. apply no_nan_app in NN. tauto.
      * intros y Y. apply LS. cbn [reached]. apply in_or_app. auto.
    + apply X; auto.
  - constructor.
  - intros t' ts a l HA IH1 HB IH2 F NN LS. inversion F; subst. cbn [flat_map] in NN, LS.
    apply no_nan_app in NN. cbn [map]. constructor; [apply IH1|apply IH2]; try tauto; intros y Y; apply LS, in_or_app; auto.
Qed.

Lemma tree_few_answers : HasPrefix (scScoreFuncName config) (bs "Annoy") = false ->
  forall t, tree_wf t -> no_nan (reached ex score config q t) -> listed (reached ex score config q t) ->
  exists out, answer G M ex config (mkDatum (Some q) qv) t out.
Proof.
  intros HP. induction t as [m tick order ts IH] using calltree_ind2. intros W NN LS.
  pose proof (tree_wf_children _ _ _ _ W) as (Ws & Wo & Wt).
  pose proof NN as NN0. cbn [reached] in NN. apply no_nan_app in NN. destruct NN as [N1 N2].
  assert (L2 : listed (flat_map (reached ex score config q) ts)) by (intros y Y; apply LS; cbn [reached]; apply in_or_app; auto).
  assert (exists answers, answer_all G M ex config (mkDatum (Some q) qv) ts answers) as (answers & HA).
  { clear W NN0 LS. induction ts as [|t ts IHt]; [eexists; constructor|].
    inversion IH as [|? ? H1 H2]; inversion Wt as [|? ? H3 H4]; subst. cbn [flat_map] in N2, L2. apply no_nan_app in N2.
    destruct N2 as [N2 N3].
    destruct (H1 H3 N2) as (a & Ha); [intros y Y; apply L2, in_or_app; auto|].
    destruct IHt as (l & Hl); auto; [intros y Y; apply L2, in_or_app; auto|].
    eexists. econstructor; eauto. }
  destruct (search_exact G ex score config q qv tick order m Hlim Hlim1 Ws Wo N1) as (m' & local & ES & T).
  assert (F2 : Forall2 (distinct_topk (beats h) skey K) (map (reached ex score config q) ts) answers).
  { clear IH W NN0 LS. revert Wt N2 L2. induction HA; intros Wt N2 L2; [constructor|].
    inversion Wt; subst. cbn [flat_map] in N2, L2. apply no_nan_app in N2. destruct N2.
    cbn [map]. constructor; [eapply tree_few; eauto; intros y Y; apply L2, in_or_app; auto|apply IHHA; auto; intros y Y; apply L2, in_or_app; auto]. }
  destruct (node_few m tick order ts m' local answers (local ++ concat answers) [] [] (fun g => g) [] W NN0 LS ES F2 (Permutation_refl _) (Permutation_refl _))
    as [(r1 & E1) _].
  destruct (node_few m tick order ts m' local answers (local ++ concat answers) r1 r1 (fun g => g) [] W NN0 LS ES F2 (Permutation_refl _) (Permutation_refl _))
    as [_ X]. destruct (X E1) as [(o & E2) _].
  exists o. eapply (answer_node G M ex config _ m tick order ts m' local answers
    (local ++ concat answers) r1 r1 (fun m => m)); eauto.
Qed.
End T.

(** ** A limit of one *)
Section One.
Variables (G : go_sort) (M : mathlib) (ex : bytes -> bytes -> bool) (config : SearchConfig)
  (q : DatumKey) (qv : option DatumValue).
Let score := GetVectorComparisonFunction M (scScoreFuncName config).
Hypothesis Hlow : scHigherIsBetter config = false.
Hypothesis Hlim : scLimit config = 1.
Hypothesis Hres : scResultLimit config < M63.
Hypothesis Hgrp : scGroupLimit config = 0.

Lemma merge_one : forall arr out, no_nan arr -> Forall (shaped M config q) arr ->
  Merge G (aggOf M config None) arr = Ok out ->
  (arr = [] /\ out = []) \/ exists w, out = [w] /\ greatest arr w.
Proof.
  intros arr out NN SH E.
  assert (KY : Forall keyed arr) by (eapply Forall_impl; [|exact SH]; apply shaped_keyed).
  assert (OF : forall x, offered (aggOf M config None) x = [sScore x]) by reflexivity.
  destruct (C106_merge G (aggOf M config None) arr) as (ys & R & all & RS & NR & A & E').
  - cbn [aggOf aLimit]. rewrite Hlim. unfold M32. lia.
  - exact Hres.
  - exact KY.
  - exact I.
  - intros x o X O. rewrite OF in O. destruct O as [<-|[]]. unfold no_nan in NN. rewrite Forall_forall in NN. apply NN, X.
  - apply rescored_plain in RS; [|exact I]. subst ys. rewrite E in E'. injection E' as ->.
    cbn [aggOf aHigher aLimit aResultLimit] in *. rewrite Hlow, Hlim in A. change (N.to_nat 1) with 1%nat in A.
    pose proof (news_incl _ _ NR) as NI. pose proof (news_keys _ _ NR) as NK.
    assert (OS : one_score arr) by (eapply shaped_one_score; exact SH).
    assert (CUT : forall w, cut (scResultLimit config) [w] = [w]).
    { intro w. unfold cut. destruct (N.eqb_spec (scResultLimit config) 0); [reflexivity|]. apply firstn_all2. cbn [length]. lia. }
    assert (CUT0 : cut (scResultLimit config) [] = []) by (unfold cut; destruct (scResultLimit config =? 0); [reflexivity|apply firstn_nil]).
    assert (GR : forall w, greatest R w -> greatest arr w).
    { intros w [W1 W2]. split; [apply NI, W1|]. intros y Y. specialize (NK y Y). apply in_map_iff in NK.
      destruct NK as (z & EZ & Z). rewrite <- (OS z y (NI z Z) Y EZ). apply W2, Z. }
    unfold lower_answer in A. destruct (Nat.leb_spec (length R) 1) as [L|L].
    + destruct A as (rest & PR & LL & _). destruct R as [|w [|? ?]]; [| |cbn in L; lia].
      * left. split; [|apply Permutation_nil, app_eq_nil in PR; destruct PR as [-> _]; exact CUT0].
        destruct arr as [|x arr]; [reflexivity|]. destruct (NK x (or_introl eq_refl)).
      * right. exists w. split.
        -- cbn in LL. assert (all = [w]) as ->; [|apply CUT].
           apply Permutation_length_1_inv in PR. destruct all as [|a [|b all]].
           ++ cbn in LL. discriminate LL.
           ++ injection PR as -> _. reflexivity.
           ++ discriminate PR.
        -- apply GR. split; [left; reflexivity|]. intros y [<-|[]]. apply SFltb_irr.
    + destruct A as (kept & w & rest & -> & _ & (rest' & _ & KL & _) & W). right. exists w. split; [|apply GR, W].
      cbn [Nat.sub] in KL. destruct kept as [|a kept]; [apply CUT|]. cbn in KL. lia.
Qed.

(** The candidates of each node of a tree. *)
Definition per_node (t : calltree) (l : list ScoredDatum) : Prop :=
  exists m tick, visits t m tick /\ l = candidates ex score config q tick m.

Lemma nearest_equal : forall l x y, nearest_of l x -> nearest_of l y -> SFltb (sScore x) (sScore y) = false.
Proof. intros l x y [X _] [_ Y]. apply Y, X. Qed.

Lemma reached_visits_nil : forall t, (forall m tick, visits t m tick -> candidates ex score config q tick m = []) ->
  reached ex score config q t = [].
Proof.
  intros t H. destruct (reached ex score config q t) as [|x l] eqn:E; [reflexivity|].
  destruct (reached_visits ex score config q t x) as (m & tick & V & X); [rewrite E; left; reflexivity|].
  rewrite (H _ _ V) in X. destruct X.
Qed.

Lemma local_one : forall tick order m m' local,
  store_wf m -> Permutation order m -> no_nan (candidates ex score config q tick m) ->
  Search G ex score tick order m (Some (mkDatum (Some q) qv)) config = (m', Ok local) ->
  (candidates ex score config q tick m = [] /\ local = []) \/
  exists w, local = [w] /\ nearest_of (candidates ex score config q tick m) w.
Proof.
  intros tick order m m' local W P NN E.
  assert (HL : scLimit config < M32) by (rewrite Hlim; unfold M32; lia).
  assert (HL1 : 1 <= scLimit config) by (rewrite Hlim; lia).
  destruct (search_exact G ex score config q qv tick order m HL HL1 W P NN) as (m2 & l & E2 & rest & PR & LL & _ & B).
  rewrite E in E2. injection E2 as _ <-. rewrite Hlim, Hlow in *. change (N.to_nat 1) with 1%nat in LL.
  destruct (candidates ex score config q tick m) as [|c cs] eqn:EC.
  - left. split; [reflexivity|]. cbn in LL. destruct local; [reflexivity|discriminate LL].
  - right. rewrite <- EC in *. destruct local as [|w [|? ?]]; [|exists w; split; [reflexivity|]|].
    + rewrite EC in LL. cbn in LL. discriminate LL.
    + split; [eapply Permutation_in; [symmetry; exact PR|left; reflexivity]|].
      intros y Y. eapply Permutation_in in Y; [|exact PR]. destruct Y as [<-|Y]; [apply SFltb_irr|].
      apply (B w y (or_introl eq_refl) Y).
    + rewrite EC in LL. cbn in LL. lia.
Qed.

Lemma tree_one : forall t out,
  answer G M ex config (mkDatum (Some q) qv) t out ->
  tree_wf t -> no_nan (reached ex score config q t) ->
  (reached ex score config q t = [] /\ out = []) \/ exists w, out = [w] /\ farthest_nearest (per_node t) w.
Proof.
  intros t out H.
  apply (answer_mut G M ex config (mkDatum (Some q) qv)
    (fun t out _ => tree_wf t -> no_nan (reached ex score config q t) ->
       (reached ex score config q t = [] /\ out = []) \/ exists w, out = [w] /\ farthest_nearest (per_node t) w)
    (fun ts outs _ => Forall tree_wf ts -> no_nan (flat_map (reached ex score config q) ts) ->
       Forall2 (fun t out => (reached ex score config q t = [] /\ out = []) \/ exists w, out = [w] /\ farthest_nearest (per_node t) w) ts outs)); auto.
  - clear t out H. intros m tick order ts m' local answers arr1 r1 arr2 ord out HP ES HA IH P1 E1 P2 PO E2 W NN.
    pose proof (reached_shaped M ex config q _ W) as SH. fold score in SH.
    apply tree_wf_children in W. destruct W as (Ws & Wo & Wt).
    cbn [reached] in NN, SH. apply no_nan_app in NN. destruct NN as [N1 N2]. apply Forall_app in SH. destruct SH as [S1 S2].
    specialize (IH Wt N2).
    pose proof (local_one tick order m m' local Ws Wo N1 ES) as LO.
    (* everything that arrives is the nearest of some node *)
    assert (A1 : forall x, In x arr1 -> exists l, per_node (CNode m tick order ts) l /\ nearest_of l x).
    { intros x X. eapply Permutation_in in X; [|exact P1]. apply in_app_or in X as [X|X].
      - destruct LO as [[_ ->]|(w & -> & NW)]; [destruct X|]. destruct X as [<-|[]].
        eexists. split; [exists m, tick; split; [constructor|reflexivity]|exact NW].
      - apply in_concat in X. destruct X as (a & A & X). clear - IH A X.
        assert (exists t, In t ts /\ exists l, per_node t l /\ nearest_of l x) as (t & T & l & (m1 & t1 & V & E) & NX).
        { induction IH as [|t a' ts as' H F IH]; [destruct A|]. destruct A as [->|A].
          - exists t. split; [left; reflexivity|]. destruct H as [[_ ->]|(w & -> & (l & L1 & L2) & _)]; [destruct X|].
            destruct X as [<-|[]]. exists l. auto.
          - destruct (IH A) as (t' & T & R). exists t'. split; [right; exact T|exact R]. }
        exists l. split; [exists m1, t1; split; [econstructor; eauto|exact E]|exact NX]. }
    (* and every node's nearest is reached by something at least as far *)
    assert (A2 : forall l x, per_node (CNode m tick order ts) l -> nearest_of l x ->
      exists y, In y arr1 /\ SFltb (sScore y) (sScore x) = false).
    { intros l x (m1 & t1 & V & E) NX. inversion V as [|? ? ? ? t ? ? T V']; subst.
      - destruct LO as [[C _]|(w & -> & NW)]; [destruct NX as [NX _]; rewrite C in NX; destruct NX|].
        exists w. split; [eapply Permutation_in; [symmetry; exact P1|apply in_or_app; left; left; reflexivity]|].
        eapply nearest_equal; eauto.
      - assert (exists a y, In a answers /\ In y a /\ SFltb (sScore y) (sScore x) = false) as (a & y & A & Y & L).
        { clear - IH T V' NX. induction IH as [|t' a ts as' H F IH]; [destruct T|]. destruct T as [->|T].
          - destruct H as [[C _]|(w & -> & _ & FW)].
            + exfalso. destruct NX as [NX _]. eapply visits_reached in NX; [|exact V']. rewrite C in NX. destruct NX.
            + exists [w], w. split; [left; reflexivity|]. split; [left; reflexivity|]. eapply FW; [|exact NX]. exists m1, t1. auto.
          - destruct (IH T) as (a1 & y & A & Y & L). exists a1, y. split; [right; exact A|auto]. }
        exists y. split; [|exact L]. eapply Permutation_in; [symmetry; exact P1|]. apply in_or_app. right. apply in_concat. eauto. }
    assert (I1 : incl arr1 (reached ex score config q (CNode m tick order ts))).
    { intros x X. destruct (A1 x X) as (l & (m1 & t1 & V & ->) & [NX _]). eapply visits_reached; eauto. }
    assert (NA : no_nan arr1).
    { unfold no_nan in *. rewrite Forall_forall in *. intros x X. apply I1 in X. cbn [reached] in X.
      apply in_app_or in X as [X|X]; auto. }
    assert (SA : Forall (shaped M config q) arr1).
    { rewrite Forall_forall in *. intros x X. apply I1 in X. cbn [reached] in X. apply in_app_or in X as [X|X]; auto. }
    unfold MultiMerge in E2. cbn [aggOf aGroupLimit] in E2. rewrite Hgrp in E2. cbv [N.eqb] in E2.
    destruct (merge_one arr1 r1 NA SA E1) as [[-> ->]|(w & -> & [GW1 GW2])].
    + left. split.
      * apply reached_visits_nil. intros m1 t1 V.
        destruct (candidates ex score config q t1 m1) as [|c cs] eqn:EC; [reflexivity|exfalso].
        assert (exists x, nearest_of (candidates ex score config q t1 m1) x) as (x & NX).
        { assert (NC : Forall (fun x => is_nan (sScore x) = false) (candidates ex score config q t1 m1)).
          { apply Forall_forall. intros x X. eapply visits_reached in X; [|exact V]. cbn [reached] in X.
            unfold no_nan in N1, N2. rewrite Forall_forall in N1, N2. apply in_app_or in X as [X|X]; auto. }
          rewrite EC in *. clear - NC. revert c NC. induction cs as [|d cs IH]; intros c NC.
          - exists c. split; [left; reflexivity|]. intros y [<-|[]]. apply SFltb_irr.
          - inversion NC as [|? ? Nc NC']; subst. destruct (IH d NC') as (x & X1 & X2).
            assert (Nx : is_nan (sScore x) = false) by (rewrite Forall_forall in NC'; apply NC', X1).
            destruct (SFltb (sScore c) (sScore x)) eqn:B.
            + exists c. split; [left; reflexivity|]. intros y [<-|Y]; [apply SFltb_irr|].
              destruct (SFltb (sScore y) (sScore c)) eqn:F; [|reflexivity].
              rewrite <- (X2 y Y). symmetry. eapply SFltb_trans; eauto.
            + exists x. split; [right; exact X1|]. intros y [<-|Y]; [exact B|apply X2, Y]. }
        destruct (A2 _ x (ex_intro _ m1 (ex_intro _ t1 (conj V eq_refl))) NX) as (y & Y & _). destruct Y.
      * apply Permutation_sym, Permutation_nil in P2. subst arr2.
        destruct (merge_one [] out (Forall_nil _) (Forall_nil _) E2) as [[_ ->]|(w & _ & [[] _])]. reflexivity.
    + right. exists w. split.
      * apply Permutation_sym, Permutation_length_1_inv in P2. subst arr2.
        destruct (merge_one [w] out) as [[C _]|(w' & -> & [[<-|[]] _])]; auto.
        -- constructor; [|constructor]. unfold no_nan in NA. rewrite Forall_forall in NA. apply NA, GW1.
        -- constructor; [|constructor]. rewrite Forall_forall in SA. apply SA, GW1.
        -- discriminate C.
      * split; [apply A1, GW1|]. intros l x L NX. destruct (A2 l x L NX) as (y & Y & LY).
        specialize (GW2 y Y).
        assert (Nx : is_nan (sScore x) = false).
        { destruct L as (m1 & t1 & V & ->). destruct NX as [NX _]. eapply visits_reached in NX; [|exact V]. cbn [reached] in NX.
          unfold no_nan in N1, N2. rewrite Forall_forall in N1, N2. apply in_app_or in NX as [X|X]; auto. }
        unfold no_nan in NA. rewrite Forall_forall in NA.
        eapply SFltb_neg; [apply NA, GW1|apply NA, Y|exact Nx|exact GW2|exact LY].
  - intros t' ts a l HA IH1 HB IH2 F NN. inversion F; subst. cbn [flat_map] in NN. apply no_nan_app in NN.
    constructor; [apply IH1|apply IH2]; tauto.
Qed.
End One.
