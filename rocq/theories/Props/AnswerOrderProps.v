(** Property C174: the answer does not depend on who answers first. *)
From Verif.Base Require Import GoBase GoLemmas Assoc Float GoSort.
From Verif.Model Require Import Codec Store Data Vector Search Aggregator CallTree Flow.
From Verif.Spec Require Import Wire StoreSpec TopK TreeSpec MergeSpec MetaSpec FlowSpec AnswerOrderSpec.
From Verif.Proof Require Import FloatP TopKP CodecTop StoreP SearchP AggP FlowP MergeP.
From Verif.Props Require Import StoreProps SearchProps MetaProps MergeProps FlowProps ArrivalProps.
From Coq Require Import Lia.
Open Scope N_scope.

(** A result reduced to its key and its score. *)
Definition tagged (x : ScoredDatum) : ScoredDatum :=
  mkScored (sScore x) (mkDatum (skey x) None).

Lemma tagged_key : forall x y, tagged x = tagged y -> skey x = skey y.
Proof. intros x y H. unfold tagged in H. injection H as _ H. exact H. Qed.

Lemma sorted_tagged : forall h l, sorted (beats h) l -> sorted (beats h) (map tagged l).
Proof.
  intros h l H. induction H as [|x l A IH B]; cbn [map]; constructor; [exact IH|].
  rewrite Forall_forall in *. intros y Y. apply in_map_iff in Y. destruct Y as (z & <- & Z). exact (B z Z).
Qed.

Lemma topk_tagged : forall h k inp out, topk (beats h) k inp out -> topk (beats h) k (map tagged inp) (map tagged out).
Proof.
  intros h k inp out (rest & P1 & L & S1 & B). exists (map tagged rest). split; [rewrite <- map_app; apply Permutation_map, P1|].
  split; [rewrite !map_length; exact L|]. split; [apply sorted_tagged, S1|].
  intros x y X Y. apply in_map_iff in X, Y. destruct X as (x' & <- & X), Y as (y' & <- & Y). exact (B x' y' X Y).
Qed.

Lemma nodup_tagged : forall l, NoDup (map skey l) -> NoDup (map tagged l).
Proof.
  induction l as [|x l IH]; intro H; [constructor|]. cbn [map] in *. inversion H as [|? ? N1 N2]; subst. constructor; [|apply IH, N2].
  intro X. apply N1. apply in_map_iff in X. destruct X as (y & E & Y). apply in_map_iff. exists y. split; [apply tagged_key, E|exact Y].
Qed.

Lemma level_lists : forall h k inp inp' out out', Permutation inp inp' -> (forall x, In x inp -> good x) ->
  topk (beats h) k inp out -> topk (beats h) k inp' out' -> Forall2 (level h) out out'.
Proof.
  intros h k inp inp' out out' PE GD T1 T2.
  assert (GD' : forall x, In x inp' -> good x) by (intros x X; apply GD; apply (Permutation_in _ (Permutation_sym PE)); exact X).
  assert (P1 : Permutation inp' (inp ++ [])) by (rewrite app_nil_r; symmetry; exact PE).
  assert (P2 : Permutation inp (inp' ++ [])) by (rewrite app_nil_r; exact PE).
  destruct (rank_more (beats h) good (beats_swo _) k k _ _ _ _ _ (le_n k) P1 GD' T1 T2) as [A1 A2].
  destruct (rank_more (beats h) good (beats_swo _) k k _ _ _ _ _ (le_n k) P2 GD T2 T1) as [B1 B2].
  clear - A1 A2 B1 B2. revert out' A1 A2 B1 B2.
  induction out as [|x l1 IH]; intros [|y l2] A1 A2 B1 B2; cbn [length] in *; try lia; constructor.
  - split; [exact (A2 0%nat x y eq_refl eq_refl)|exact (B2 0%nat y x eq_refl eq_refl)].
  - apply IH; try lia.
    + intros i u v U V. exact (A2 (S i) u v U V).
    + intros i u v U V. exact (B2 (S i) u v U V).
Qed.

(** C174 (partial).  Merging the same results in another order, or with other numbers of
    copies, gives an answer with the same scores, rank by rank, if higher scores are better or
    if everything fits; if different keys have different scores it gives the same keys.
    Missing: lower scores are better and not everything fits, refuted below. *)
Theorem C174_same_partial : forall G1 G2 P xs ys,
  1 <= aLimit P < M32 -> aResultLimit P < M63 -> plain P -> same_results xs ys ->
  no_nan xs -> one_score xs -> Forall keyed xs -> Forall keyed ys ->
  aHigher P = true \/ few_keys (N.to_nat (aLimit P)) xs ->
  exists out1 out2, Merge G1 P xs = Ok out1 /\ Merge G2 P ys = Ok out2 /\
    Forall2 (level (aHigher P)) out1 out2 /\
    ((forall x y, In x xs -> In y xs -> level (aHigher P) x y -> skey x = skey y) -> map skey out1 = map skey out2).
Proof.
  intros G1 G2 P xs ys [H1 Hn] HR Pl (C1 & C2) NN OS KX KY FH.
  assert (NN' : no_nan ys).
  { unfold no_nan in *. rewrite Forall_forall in *. intros y Y. destruct (C2 y Y) as (x & X & _ & <-). apply NN, X. }
  assert (OS' : one_score ys).
  { intros y y' Y Y' E. destruct (C2 y Y) as (x & X & K & <-). destruct (C2 y' Y') as (x' & X' & K' & <-). apply OS; congruence. }
  assert (FH' : aHigher P = true \/ exists ks, (length ks <= N.to_nat (aLimit P))%nat /\ forall y, In y ys -> In (skey y) ks).
  { destruct FH as [FH|(ks & L & FH)]; [left; exact FH|right]. exists ks. split; [exact L|]. intros y Y.
    destruct (C2 y Y) as (x & X & <- & _). apply FH, X. }
  destruct (merge_inv G1 P xs Pl Hn H1 HR NN OS KX FH) as (D1 & out1 & E1 & ND1 & ID1 & CD1 & T1).
  destruct (merge_inv G2 P ys Pl Hn H1 HR NN' OS' KY FH') as (D2 & out2 & E2 & ND2 & ID2 & CD2 & T2).
  exists out1, out2. split; [exact E1|]. split; [exact E2|].
  assert (SUB : forall A B DA DB, covered A B -> one_score B -> incl DA A -> incl DB B -> (forall x, In x B -> In (skey x) (map skey DB)) ->
     forall z, In z (map tagged DA) -> In z (map tagged DB)).
  { intros A B DA DB CO OB IA IB CB z Z. apply in_map_iff in Z. destruct Z as (x & <- & X).
    destruct (CO x (IA x X)) as (y & Y & K & S1). pose proof (CB y Y) as Q. apply in_map_iff in Q. destruct Q as (d & KD & ID).
    apply in_map_iff. exists d. split; [|exact ID]. unfold tagged. rewrite KD, K. rewrite (OB d y (IB d ID) Y KD), S1. reflexivity. }
  assert (PE : Permutation (map tagged D1) (map tagged D2)).
  { apply NoDup_Permutation; [apply nodup_tagged, ND1|apply nodup_tagged, ND2|]. intro z. split.
    - apply (SUB xs ys D1 D2); assumption.
    - apply (SUB ys xs D2 D1); assumption. }
  assert (GD : forall x, In x (map tagged D1) -> good x).
  { intros x X. apply in_map_iff in X. destruct X as (d & <- & X). unfold no_nan in NN. rewrite Forall_forall in NN. exact (NN d (ID1 d X)). }
  pose proof (level_lists _ _ _ _ _ _ PE GD (topk_tagged _ _ _ _ T1) (topk_tagged _ _ _ _ T2)) as F.
  assert (O1 : forall x, In x out1 -> In x xs).
  { intros x X. destruct T1 as (rest & P1 & _). apply ID1, (Permutation_in _ (Permutation_sym P1)), in_or_app. left. exact X. }
  assert (O2 : forall x, In x out2 -> In x ys).
  { intros x X. destruct T2 as (rest & P1 & _). apply ID2, (Permutation_in _ (Permutation_sym P1)), in_or_app. left. exact X. }
  clear - F O1 O2 C2. revert out2 F O2. induction out1 as [|x out1 IH]; intros [|y out2] F O2; cbn [map] in F; inversion F as [|? ? ? ? L F']; subst.
  - split; [constructor|reflexivity].
  - destruct (IH ltac:(intros z Z; apply O1; right; exact Z) out2 F' ltac:(intros z Z; apply O2; right; exact Z)) as (A & B).
    split; [constructor; [exact L|exact A]|]. intro U. cbn [map]. f_equal; [|apply B, U].
    destruct (C2 y (O2 y (or_introl eq_refl))) as (z & Z & K & S1). rewrite <- K. apply U; [apply O1; left; reflexivity|exact Z|].
    unfold level, beats in *. cbn [tagged sScore] in L. rewrite S1. exact L.
Qed.
Print Assumptions C174_same_partial.

(** The same for two searches of which nothing is lost: the workers of the first deliver
    work1 and those of the second work2, at whatever pace, and each search ends because all
    have finished. *)
Theorem C174_search_partial : forall G1 G2 P work1 work2 s1 s2,
  1 <= aLimit P < M32 -> aResultLimit P < M63 -> plain P -> same_results (concat work1) (concat work2) ->
  no_nan (concat work1) -> one_score (concat work1) -> Forall keyed (concat work1) -> Forall keyed (concat work2) ->
  aHigher P = true \/ few_keys (N.to_nat (aLimit P)) (concat work1) ->
  flow_runs (flow_init work1) s1 -> fCons s1 = CEnd AllFinished -> flow_runs (flow_init work2) s2 -> fCons s2 = CEnd AllFinished ->
  exists out1 out2, Merge G1 P (fMerged s1) = Ok out1 /\ Merge G2 P (fMerged s2) = Ok out2 /\
    Forall2 (level (aHigher P)) out1 out2 /\
    ((forall x y, In x (concat work1) -> In y (concat work1) -> level (aHigher P) x y -> skey x = skey y) -> map skey out1 = map skey out2).
Proof.
  intros G1 G2 P work1 work2 s1 s2 L HR Pl (C1 & C2) NN OS KX KY FH R1 F1 R2 F2.
  destruct (proj1 (proj2 (C28_fan_in _ work1 s1 R1)) F1) as (_ & P1 & _). destruct (proj1 (proj2 (C28_fan_in _ work2 s2 R2)) F2) as (_ & P2 & _).
  assert (Q1 : forall x, In x (fMerged s1) <-> In x (concat work1)).
  { intro x. split; apply Permutation_in; [exact P1|symmetry; exact P1]. }
  assert (Q2 : forall x, In x (fMerged s2) <-> In x (concat work2)).
  { intro x. split; apply Permutation_in; [exact P2|symmetry; exact P2]. }
  destruct (C174_same_partial G1 G2 P (fMerged s1) (fMerged s2) L HR Pl) as (o1 & o2 & A & B & C & D).
  - split; intros x X.
    + apply Q1 in X. destruct (C1 x X) as (y & Y & E). exists y. split; [apply Q2, Y|exact E].
    + apply Q2 in X. destruct (C2 x X) as (y & Y & E). exists y. split; [apply Q1, Y|exact E].
  - unfold no_nan in *. rewrite Forall_forall in *. intros x X. apply NN, Q1, X.
  - intros x y X Y. apply OS; apply Q1; assumption.
  - rewrite Forall_forall in *. intros x X. apply KX, Q1, X.
  - rewrite Forall_forall in *. intros x X. apply KY, Q2, X.
  - destruct FH as [FH|(ks & LK & FH)]; [left; exact FH|right]. exists ks. split; [exact LK|]. intros x X. apply FH, Q1, X.
  - exists o1, o2. split; [exact A|]. split; [exact B|]. split; [exact C|]. intro U. apply D.
    intros x y X Y. apply U; apply Q1; assumption.
Qed.
Print Assumptions C174_search_partial.

(** ** Lower scores are better *)
Lemma best_of_two : forall h a b kept, beats h a b = true -> topk (beats h) 1 [a; b] kept -> kept = [a].
Proof.
  intros h a b kept B (rest & P1 & L & _ & R). cbn in L. destruct kept as [|z [|? ?]]; try discriminate L. cbn [app] in P1.
  assert (Z : In z [a; b]) by (apply (Permutation_in _ (Permutation_sym P1)); left; reflexivity).
  destruct Z as [->|[->|[]]]; [reflexivity|]. exfalso.
  assert (P2 : Permutation [z; a] (z :: rest)) by (etransitivity; [apply perm_swap|exact P1]).
  apply Permutation_cons_inv in P2. apply Permutation_length_1_inv in P2. subst rest.
  rewrite (R z a) in B; [discriminate B|left; reflexivity|left; reflexivity].
Qed.

Lemma three_news : forall x y z, skey x <> skey y -> skey x <> skey z -> skey y <> skey z -> news_of [x; y; z] [x; y; z].
Proof.
  intros x y z A B C.
  apply (news_take [x; y] [x; y] z); [apply (news_take [x] [x] y); [apply (news_take [] [] x); [constructor|]|]|].
  all: unfold news; intros u U Q; cbn [In] in U; repeat (destruct U as [<-|U]; [congruence|]); destruct U.
Qed.

Lemma three_lower : forall G x y z, Forall keyed [x; y; z] -> no_nan [x; y; z] ->
  skey x <> skey y -> skey x <> skey z -> skey y <> skey z -> beats false x y = true ->
  exists w, Merge G (aggH false 2) [x; y; z] = Ok [x; w] /\ greatest [x; y; z] w.
Proof.
  intros G x y z KY NN A B C L.
  destruct (C106_merge G (aggH false 2) [x; y; z]) as (ys & R & all & RS & NR & AN & E); auto.
  - cbn. unfold M32. lia.
  - cbn. unfold M63. lia.
  - exact Logic.I.
  - intros u o U O. destruct O as [<-|[]]. unfold no_nan in NN. rewrite Forall_forall in NN. apply NN, U.
  - apply rescored_plain in RS; [|exact Logic.I]. subst ys.
    assert (R = [x; y; z]) by (eapply news_unique; [exact NR|apply three_news; assumption]). subst R.
    cbn [aggH aHigher aLimit] in AN. unfold lower_answer in AN. change (N.to_nat 2) with 2%nat in AN. cbn [length Nat.leb Nat.sub firstn] in AN.
    destruct AN as (kept & w & rest & -> & _ & T & GR). apply best_of_two in T; [|exact L]. subst kept.
    exists w. split; [exact E|exact GR].
Qed.

(** C174 refuted if lower scores are better: three results, limit two; the datum at distance
    two is returned or not, depending on when it arrives. *)
Theorem C174_lower_refuted : forall G, exists P xs ys out1 out2,
  aHigher P = false /\ aLimit P = 2 /\ plain P /\ Permutation xs ys /\ no_nan xs /\ one_score xs /\ Forall keyed xs /\
  (forall x y, In x xs -> In y xs -> level false x y -> skey x = skey y) /\
  Merge G P xs = Ok out1 /\ Merge G P ys = Ok out2 /\ map skey out1 <> map skey out2 /\
  exists x y, hd_error out1 = Some x /\ hd_error out2 = Some y /\ beats false x y = true.
Proof.
  intro G.
  assert (KY : Forall keyed [sd ka 1; sd kb 2; sd kc 3]) by (repeat constructor; [apply (keyed_sd 1)|apply (keyed_sd 2)|apply (keyed_sd 3)]).
  assert (KY' : Forall keyed [sd kb 2; sd kc 3; sd ka 1]) by (repeat constructor; [apply (keyed_sd 2)|apply (keyed_sd 3)|apply (keyed_sd 1)]).
  destruct (three_lower G (sd ka 1) (sd kb 2) (sd kc 3)) as (w & E1 & _); [exact KY|repeat constructor|discriminate|discriminate|discriminate|reflexivity|].
  destruct (three_lower G (sd kb 2) (sd kc 3) (sd ka 1)) as (w' & E2 & _); [exact KY'|repeat constructor|discriminate|discriminate|discriminate|reflexivity|].
  exists (aggH false 2), [sd ka 1; sd kb 2; sd kc 3], [sd kb 2; sd kc 3; sd ka 1], [sd ka 1; w], [sd kb 2; w'].
  split; [reflexivity|]. split; [reflexivity|]. split; [exact Logic.I|].
  split; [apply (Permutation_app_comm [sd ka 1] [sd kb 2; sd kc 3])|].
  split; [repeat constructor|]. split; [intros x y [<-|[<-|[<-|[]]]] [<-|[<-|[<-|[]]]] Q; try reflexivity; vm_compute in Q; discriminate Q|].
  split; [exact KY|].
  split; [intros x y [<-|[<-|[<-|[]]]] [<-|[<-|[<-|[]]]] (Q1 & Q2); try reflexivity; vm_compute in Q1; vm_compute in Q2; discriminate|].
  split; [exact E1|]. split; [exact E2|]. split; [discriminate|].
  exists (sd ka 1), (sd kb 2). split; [reflexivity|]. split; reflexivity.
Qed.
Print Assumptions C174_lower_refuted.

(** Three results, one of them from two nodes, in different orders. *)
Example C174_instance : let P := aggH true 2 in let xs := [sd ka 1; sd kb 2; sd kc 3] in let ys := [sd kc 3; sd ka 1; sd kc 3; sd kb 2] in
  same_results xs ys /\ no_nan xs /\ one_score xs /\ Forall keyed xs /\ Forall keyed ys /\
  (forall x y, In x xs -> In y xs -> level true x y -> skey x = skey y) /\
  Merge insertion_sort P xs = Ok [sd kc 3; sd kb 2] /\ Merge insertion_sort P ys = Ok [sd kc 3; sd kb 2].
Proof.
  cbv zeta. split.
  { split; intros x X; exists x; (split; [|split; reflexivity]); cbn [In] in *; tauto. }
  split; [repeat constructor|]. split; [intros x y [<-|[<-|[<-|[]]]] [<-|[<-|[<-|[]]]] Q; try reflexivity; vm_compute in Q; discriminate Q|].
  split; [repeat constructor; apply (keyed_sd 1) || apply (keyed_sd 2) || apply (keyed_sd 3)|].
  split; [repeat constructor; apply (keyed_sd 1) || apply (keyed_sd 2) || apply (keyed_sd 3)|].
  split; [intros x y [<-|[<-|[<-|[]]]] [<-|[<-|[<-|[]]]] (Q1 & Q2); try reflexivity; vm_compute in Q1; vm_compute in Q2; discriminate|].
  split; vm_compute; reflexivity.
Qed.

(** Two searches over nodes that hold the same data, differently spread. *)
Example C174_instance_search : exists (s1 s2 : flow ScoredDatum) out1 out2,
  let P := aggH true 2 in let work1 := [[sd ka 1]; [sd kb 2; sd kc 3]] in let work2 := [[sd kc 3; sd kb 2]; [sd ka 1; sd kc 3]] in
  flow_runs (flow_init work1) s1 /\ fCons s1 = CEnd AllFinished /\ fMerged s1 = [sd kb 2; sd ka 1; sd kc 3] /\
  flow_runs (flow_init work2) s2 /\ fCons s2 = CEnd AllFinished /\ fMerged s2 = [sd ka 1; sd kc 3; sd kc 3; sd kb 2] /\
  Merge insertion_sort P (fMerged s1) = Ok out1 /\ Merge insertion_sort P (fMerged s2) = Ok out2 /\
  map skey out1 = map skey out2 /\ out1 = [sd kc 3; sd kb 2].
Proof.
  assert (I1 : interleaving [[sd ka 1]; [sd kb 2; sd kc 3]] [sd kb 2; sd ka 1; sd kc 3]).
  { apply (il_cons [[sd ka 1]] (sd kb 2) [sd kc 3] []). cbn [app]. apply (il_cons [] (sd ka 1) [] [[sd kc 3]]). cbn [app].
    apply (il_cons [[]] (sd kc 3) [] []). apply il_nil. repeat constructor. }
  assert (I2 : interleaving [[sd kc 3; sd kb 2]; [sd ka 1; sd kc 3]] [sd ka 1; sd kc 3; sd kc 3; sd kb 2]).
  { apply (il_cons [[sd kc 3; sd kb 2]] (sd ka 1) [sd kc 3] []). cbn [app]. apply (il_cons [] (sd kc 3) [sd kb 2] [[sd kc 3]]). cbn [app].
    apply (il_cons [[sd kb 2]] (sd kc 3) [] []). cbn [app]. apply (il_cons [] (sd kb 2) [] [[]]). apply il_nil. repeat constructor. }
  destruct (proj2 (C138_finished _ _ _) I1) as (s1 & R1 & F1 & M1). destruct (proj2 (C138_finished _ _ _) I2) as (s2 & R2 & F2 & M2).
  destruct (C174_search_partial insertion_sort insertion_sort (aggH true 2) [[sd ka 1]; [sd kb 2; sd kc 3]] [[sd kc 3; sd kb 2]; [sd ka 1; sd kc 3]] s1 s2 ltac:(cbn; unfold M32; lia) ltac:(cbn; unfold M63; lia) Logic.I) with (7 := R1) (8 := F1) (9 := R2) (10 := F2)
    as (o1 & o2 & E1 & E2 & _ & K).
  - split; intros x X; exists x; (split; [|split; reflexivity]); cbn [In concat app] in *; tauto.
  - repeat constructor.
  - intros x y [<-|[<-|[<-|[]]]] [<-|[<-|[<-|[]]]] Q; try reflexivity; discriminate Q.
  - repeat constructor; apply (keyed_sd 1) || apply (keyed_sd 2) || apply (keyed_sd 3).
  - repeat constructor; apply (keyed_sd 1) || apply (keyed_sd 2) || apply (keyed_sd 3).
  - left. reflexivity.
  - exists s1, s2, o1, o2. cbv zeta. repeat (split; [assumption|]). split.
    + apply K. intros x y [<-|[<-|[<-|[]]]] [<-|[<-|[<-|[]]]] (Q1 & Q2); try reflexivity; vm_compute in Q1; vm_compute in Q2; discriminate.
    + rewrite M1 in E1. assert (V : Merge insertion_sort (aggH true 2) [sd kb 2; sd ka 1; sd kc 3] = Ok [sd kc 3; sd kb 2]) by (vm_compute; reflexivity).
      rewrite V in E1. injection E1 as <-. reflexivity.
Qed.
