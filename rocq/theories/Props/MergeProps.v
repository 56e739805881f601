(** Properties C106 and C107: what merging returns exactly, and search contexts. *)
From Verif.Base Require Import GoBase GoLemmas Assoc Float GoSort.
From Verif.Model Require Import Codec Store Data Vector Search Aggregator.
From Verif.Spec Require Import Wire StoreSpec TopK TreeSpec MergeSpec.
From Verif.Proof Require Import FloatP TopKP CodecTop StoreP StoreQ SearchP AggP MergeP.
From Verif.Props Require Import StoreProps SearchProps.
From Coq Require Import Lia.
Open Scope N_scope.

(** Contexts with complete data. *)
Definition complete_context (P : aggParams) : Prop :=
  match aContext P with Some c => Forall (fun d => dkey d <> None) (ctxDatum c) | None => True end.

(** C106 Exactly what a merge returns.  Each result gets the greatest score that the
    context offers; those that do not raise the score of their key are dropped (the
    others are the news [R]); if higher is better the k best of the news are returned,
    otherwise those of [lower_answer]; then the result limit cuts the list. *)
Theorem C106_merge : forall G P xs,
  1 <= aLimit P < M32 -> aResultLimit P < M63 -> Forall keyed xs -> complete_context P ->
  (forall x o, In x xs -> In o (offered P x) -> is_nan o = false) ->
  exists ys R all, rescored P xs ys /\ news_of ys R /\
    (if aHigher P then topk (beats true) (N.to_nat (aLimit P)) R all else lower_answer (N.to_nat (aLimit P)) R all) /\
    Merge G P xs = Ok (cut (aResultLimit P) all).
Proof.
  intros G P xs [H1 Hn] HR KY KC NN.
  destruct (merge_rescored G P xs agg_empty KY KC NN) as (ys & RS & E).
  destruct (merge_exact G (no_context P) ys) as (s & R & E2 & NR & LI).
  - exact I.
  - exact Hn.
  - exact H1.
  - eapply rescored_nan; eauto.
  - eapply rescored_keyed; eauto.
  - exists ys, R, (agList s). split; auto. split; auto. split.
    + unfold list_inv in LI. cbn [no_context aHigher aLimit] in LI. destruct (aHigher P); auto. apply lower_inv_answer. exact LI.
    + unfold Merge. rewrite E, E2. cbn [bind]. rewrite AggResult_spec by auto. unfold cut. reflexivity.
Qed.
Print Assumptions C106_merge.

(** Without a context nothing is rescored. *)
Lemma rescored_plain : forall P xs ys, plain P -> rescored P xs ys -> ys = xs.
Proof.
  intros P xs ys Pl H. induction H as [|x y xs ys (D & I & _) H IH]; auto. f_equal; auto.
  assert (O : offered P x = [sScore x]).
  { unfold offered, plain in *. destruct (aContext P) as [[[|d ctx] pr]|]; auto. discriminate. }
  rewrite O in I. destruct I as [I|[]]. destruct x, y; cbn in *. subst. reflexivity.
Qed.

(** If all the news fit, a key is listed twice exactly if it came back with a score
    greater than all it had before. *)
Theorem C106_duplicates : forall G P xs R out,
  1 <= aLimit P < M32 -> aResultLimit P < M63 -> plain P -> no_nan xs -> Forall keyed xs ->
  news_of xs R -> (length R <= wanted (aLimit P) (aResultLimit P))%nat -> Merge G P xs = Ok out ->
  Permutation R out /\ (NoDup (map skey out) <-> never_greater xs).
Proof.
  intros G P xs R out H1 HR Pl NN KY NR L E.
  assert (OF : forall x, offered P x = [sScore x]).
  { intro x. unfold offered, plain in *. destruct (aContext P) as [[[|d ctx] pr]|]; auto. discriminate. }
  destruct (C106_merge G P xs H1 HR KY) as (ys & R' & all & RS & NR' & A & E').
  - unfold complete_context, plain in *. destruct (aContext P) as [[c pr]|]; auto. cbn in *. subst c. constructor.
  - intros x o X O. rewrite OF in O. destruct O as [<-|[]]. unfold no_nan in NN. rewrite Forall_forall in NN. apply NN; auto.
  - apply rescored_plain in RS; auto. subst ys. assert (R' = R) by (eapply news_unique; eauto). subst R'.
    rewrite E in E'. injection E' as ->.
    assert (LL : (length R <= N.to_nat (aLimit P))%nat) by (unfold wanted in L; destruct (aResultLimit P =? 0); lia).
    assert (PA : Permutation R all).
    { assert (T : forall h, topk (beats h) (N.to_nat (aLimit P)) R all -> Permutation R all).
      { intros h (rest & P1 & P2 & _). pose proof (Permutation_length P1) as PL. rewrite app_length in PL.
        destruct rest; [rewrite app_nil_r in P1; auto|cbn in PL; lia]. }
      destruct (aHigher P); [apply (T true A)|]. unfold lower_answer in A.
      rewrite (proj2 (Nat.leb_le _ _) LL) in A. apply (T false A). }
    assert (C : cut (aResultLimit P) all = all).
    { unfold cut. destruct (N.eqb_spec (aResultLimit P) 0) as [Z|Z]; auto. apply firstn_all2.
      rewrite <- (Permutation_length PA). unfold wanted in L. destruct (N.eqb_spec (aResultLimit P) 0); [contradiction|]. lia. }
    rewrite C. split; auto. rewrite <- (news_never xs R NR). split; intro Q.
    + eapply Permutation_NoDup; [|exact Q]. apply Permutation_map. symmetry. exact PA.
    + eapply Permutation_NoDup; [|exact Q]. apply Permutation_map. exact PA.
Qed.
Print Assumptions C106_duplicates.

(** Lower is better, limit 2: six results, five of them news (b comes back with 9).
    The answer is the better one of the first two and the worst of all. *)
Definition six : list ScoredDatum := [sd ka 5; sd kb 7; sd ka 5; sd kc 1; sd kb 9; sd kb 4].
Example C106_instance :
  news_of six [sd ka 5; sd kb 7; sd kc 1; sd kb 9] /\
  Merge insertion_sort (aggH false 2) six = Ok [sd ka 5; sd kb 9] /\
  Merge insertion_sort (aggH true 2) six = Ok [sd kb 9; sd kb 7] /\
  Merge insertion_sort (aggH true 9) six = Ok [sd kb 9; sd kb 7; sd ka 5; sd kc 1].
Proof.
  split; [|vm_compute; auto].
  assert (T : forall xs R x, news_of xs R -> news xs x -> news_of (xs ++ [x]) (R ++ [x])) by (intros; apply news_take; auto).
  assert (S : forall xs R x y, news_of xs R -> In y xs -> skey y = skey x -> SFltb (sScore y) (sScore x) = false -> news_of (xs ++ [x]) R).
  { intros xs R x y H1 H2 H3 H4. apply news_skip; auto. intro N. rewrite (N y H2 H3) in H4. discriminate. }
  assert (A1 : news_of [sd ka 5] [sd ka 5]) by (apply (T [] [] (sd ka 5)); [constructor|intros ? []]).
  assert (A2 : news_of [sd ka 5; sd kb 7] [sd ka 5; sd kb 7]).
  { apply (T [sd ka 5] [sd ka 5] (sd kb 7)); [exact A1|]. intros y [<-|[]] Q; vm_compute in Q; discriminate Q. }
  assert (A3 : news_of [sd ka 5; sd kb 7; sd ka 5] [sd ka 5; sd kb 7]).
  { apply (S [sd ka 5; sd kb 7] _ (sd ka 5) (sd ka 5)); [exact A2|left; reflexivity|reflexivity|vm_compute; reflexivity]. }
  assert (A4 : news_of [sd ka 5; sd kb 7; sd ka 5; sd kc 1] [sd ka 5; sd kb 7; sd kc 1]).
  { apply (T [sd ka 5; sd kb 7; sd ka 5] [sd ka 5; sd kb 7] (sd kc 1)); [exact A3|].
    intros y Y Q. destruct Y as [<-|[<-|[<-|[]]]]; vm_compute in Q; discriminate Q. }
  assert (A5 : news_of [sd ka 5; sd kb 7; sd ka 5; sd kc 1; sd kb 9] [sd ka 5; sd kb 7; sd kc 1; sd kb 9]).
  { apply (T [sd ka 5; sd kb 7; sd ka 5; sd kc 1] [sd ka 5; sd kb 7; sd kc 1] (sd kb 9)); [exact A4|].
    intros y Y Q. destruct Y as [<-|[<-|[<-|[<-|[]]]]]; vm_compute in Q; (discriminate Q || (vm_compute; reflexivity)). }
  apply (S [sd ka 5; sd kb 7; sd ka 5; sd kc 1; sd kb 9] _ (sd kb 4) (sd kb 7)); [exact A5|right; left; reflexivity|reflexivity|vm_compute; reflexivity].
Qed.

(** C107 A search context gives each result its best score.  True if higher is
    better... *)
Theorem C107_context_partial : forall P x, keyed x -> complete_context P ->
  (forall o, In o (offered P x) -> is_nan o = false) ->
  exists sc, BestScore P x = Ok sc /\ In sc (offered P x) /\ forall o, In o (offered P x) -> SFltb sc o = false.
Proof. exact best_offered. Qed.
Print Assumptions C107_context_partial.

(** ... but the greatest score is taken for distances, too: a result at distance 0
    from the context gets distance 1 from the second datum of the context. *)
Definition far : Datum := mkDatum (Some (mkKey [0] [] 1 1 1 1)) None.
Definition near_ctx (higher : bool) : aggParams :=
  mkAgg higher 10 0 0 (Some (mkContext [mkDatum (Some ka) None; far] true)) QuickVectorDistance.
Theorem C107_lower_refuted : exists P x sc o,
  aHigher P = false /\ keyed x /\ complete_context P /\ (forall o, In o (offered P x) -> is_nan o = false) /\
  BestScore P x = Ok sc /\ In o (offered P x) /\ SFltb o sc = true /\ forall o', In o' (offered P x) -> SFltb o' o = false.
Proof.
  exists (near_ctx false), (sd ka 3), (QuickVectorDistance (vec ka) (vector far)), (QuickVectorDistance (vec ka) (vec ka)).
  split; [reflexivity|]. split; [apply (keyed_sd 3)|]. split; [repeat constructor; discriminate|].
  split; [intros o [<-|[<-|[]]]; vm_compute; reflexivity|].
  split; [vm_compute; reflexivity|]. split; [left; reflexivity|]. split; [vm_compute; reflexivity|].
  intros o [<-|[<-|[]]]; vm_compute; reflexivity.
Qed.
Print Assumptions C107_lower_refuted.

(** Two context data, higher is better, the own score counts as well. *)
Example C107_instance : let P := mkAgg true 10 0 0 (Some (mkContext [mkDatum (Some ka) None; far] false)) QuickVectorDistance in
  keyed (sd ka 3) /\ complete_context P /\ length (offered P (sd ka 3)) = 3%nat /\
  BestScore P (sd ka 3) = Ok (f64_of_Z 3) /\
  Merge insertion_sort P [sd ka 3; sd kb 0] = Ok [sd ka 3; mkScored (QuickVectorDistance (vec kb) (vec ka)) (kv kb va)].
Proof.
  cbv zeta. split; [apply (keyed_sd 3)|]. split; [repeat constructor; discriminate|]. split; [reflexivity|].
  vm_compute. auto.
Qed.
