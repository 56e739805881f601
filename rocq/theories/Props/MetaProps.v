(** Property C134: how answers relate to each other. *)
From Verif.Base Require Import GoBase GoLemmas Assoc Float GoSort.
From Verif.Model Require Import Codec Store Data Vector Search.
From Verif.Spec Require Import Wire StoreSpec TopK MetaSpec.
From Verif.Proof Require Import FloatP TopKP CodecTop StoreP StoreQ SearchP.
From Verif.Props Require Import StoreProps SearchProps.
From Coq Require Import Lia.
Open Scope nat_scope.

Section Rank.
Context {A : Type}.
Variable better : A -> A -> bool.
Variable P : A -> Prop.
Hypothesis W : swo better P.

Lemma swo_le_lt : forall e x y, P e -> P x -> P y -> better x e = false -> better x y = true -> better e y = true.
Proof.
  intros e x y Pe Px Py H1 H2. destruct (better e y) eqn:B; [reflexivity|].
  rewrite (swo_neg _ _ W x e y Px Pe Py H1 B) in H2. discriminate H2.
Qed.

Lemma filter_le : forall (f : A -> bool) a b, length (filter f a) <= length (filter f (a ++ b)).
Proof. intros. rewrite filter_app, app_length. lia. Qed.

Lemma filter_perm_len : forall (f : A -> bool) a b, Permutation a b -> length (filter f a) = length (filter f b).
Proof.
  intros f a b H. induction H; cbn; auto; try congruence.
  - destruct (f x); cbn; congruence.
  - destruct (f x), (f y); cbn; reflexivity.
Qed.

Lemma filter_none_len : forall (f : A -> bool) l, (forall x, In x l -> f x = false) -> length (filter f l) = 0.
Proof.
  induction l as [|x l IH]; intro H; [reflexivity|]. cbn. rewrite (H x (or_introl eq_refl)). apply IH. intros. apply H. right. auto.
Qed.

(** The element at a rank is not worse if there is more to choose from and more wanted. *)
Lemma rank_more : forall k k' inp inp' extra out out', k <= k' -> Permutation inp' (inp ++ extra) ->
  (forall x, In x inp' -> P x) -> topk better k inp out -> topk better k' inp' out' ->
  length out <= length out' /\
  forall i x y, nth_error out i = Some x -> nth_error out' i = Some y -> better x y = false.
Proof.
  intros k k' inp inp' extra out out' LE PE PP (rest & P1 & L1 & S1 & B1) (rest' & P2 & L2 & S2 & B2).
  assert (LI : length inp' = length inp + length extra) by (rewrite (Permutation_length PE), app_length; reflexivity).
  split; [rewrite L1, L2; lia|]. intros i x y X Y. destruct (better x y) eqn:B; [|reflexivity]. exfalso.
  assert (PO : forall z, In z out -> P z).
  { intros z I. apply PP. apply (Permutation_in z (Permutation_sym PE)). apply in_or_app. left.
    apply (Permutation_in z (Permutation_sym P1)). apply in_or_app. auto. }
  assert (PO' : forall z, In z out' -> P z).
  { intros z I. apply PP. apply (Permutation_in z (Permutation_sym P2)). apply in_or_app. auto. }
  destruct (nth_error_split _ _ X) as (a & b & E & La). destruct (nth_error_split _ _ Y) as (a' & b' & E' & La').
  subst out out'. assert (Px : P x) by (apply PO, in_elt). assert (Py : P y) by (apply PO', in_elt).
  set (f := fun z => better z y).
  (* many of the first beat y *)
  assert (M : i + 1 <= length (filter f inp')).
  { rewrite (filter_perm_len f _ _ PE). etransitivity; [|apply filter_le].
    rewrite (filter_perm_len f _ _ P1). etransitivity; [|apply filter_le].
    replace (a ++ x :: b) with ((a ++ [x]) ++ b) by (rewrite <- app_assoc; reflexivity).
    etransitivity; [|apply filter_le]. rewrite filter_app, app_length. cbn [filter]. unfold f at 2. rewrite B. cbn [length].
    assert (FA : length (filter f a) = length a); [|lia].
    destruct (sorted_app_inv _ _ _ S1) as (SA & _ & SC).
    assert (Q : forall z, In z a -> f z = true).
    { intros z I. unfold f. apply (swo_le_lt z x y); auto.
      - apply PO, in_or_app. auto.
      - apply SC; [exact I|left; reflexivity]. }
    clear - Q. induction a as [|z a IH]; [reflexivity|]. cbn. rewrite (Q z (or_introl eq_refl)). cbn. f_equal.
    apply IH. intros. apply Q. right. auto. }
  (* few of the second do *)
  assert (F : length (filter f inp') <= i).
  { rewrite (filter_perm_len f _ _ P2), !filter_app, !app_length. cbn [filter]. unfold f at 2.
    rewrite (swo_irr _ _ W y Py).
    destruct (sorted_app_inv _ _ _ S2) as (_ & SB & _).
    rewrite (filter_none_len f b'), (filter_none_len f rest').
    - assert (length (filter f a') <= length a'); [|lia]. clear. induction a' as [|z a' IH]; cbn; [lia|].
      destruct (f z); cbn; lia.
    - intros z I. unfold f. apply B2; [apply in_elt|exact I].
    - intros z I. unfold f. inversion SB as [|? ? SB1 SB2]; subst. rewrite Forall_forall in SB2. auto. }
  lia.
Qed.

Lemma topk_first : forall k k' inp out, k <= k' -> topk better k' inp out -> topk better k inp (firstn k out).
Proof.
  intros k k' inp out LE (rest & P1 & L1 & S1 & B1). exists (skipn k out ++ rest).
  split; [rewrite app_assoc, firstn_skipn; exact P1|]. split; [rewrite firstn_length, L1; lia|].
  split; [apply sorted_firstn; exact S1|]. intros x y X Y. apply in_app_or in Y. destruct Y as [Y|Y].
  - rewrite <- (firstn_skipn k out) in S1. destruct (sorted_app_inv _ _ _ S1) as (_ & _ & C). apply C; auto.
  - apply B1; auto. rewrite <- (firstn_skipn k out). apply in_or_app. auto.
Qed.
End Rank.

Lemma same_candidates : forall ex score c d q tick m, same_question c d ->
  candidates ex score c q tick m = candidates ex score d q tick m.
Proof.
  intros ex score c d q tick m (E1 & E2 & _). unfold candidates. apply flat_map_ext. intros [b e].
  unfold passes. rewrite E1, E2. reflexivity.
Qed.

Lemma store_wf_part : forall m m1 new, store_wf m -> Permutation m (m1 ++ new) -> store_wf m1.
Proof.
  intros m m1 new [W1 W2] P. split.
  - unfold mwf, mkeys in *. assert (N : NoDup (map fst (m1 ++ new))) by (eapply Permutation_NoDup; [apply Permutation_map, P|exact W1]).
    rewrite map_app in N. clear - N. induction (map fst m1) as [|x l IH]; [constructor|]. cbn in N. inversion N; subst.
    constructor; auto. intro I. apply H1. apply in_or_app. auto.
  - intros b e I. apply W2. apply (Permutation_in _ (Permutation_sym P)). apply in_or_app. auto.
Qed.

(** C134.  More data and a greater limit never make an answer worse: at every rank the
    score is at least as good, and no rank is lost. *)
Theorem C134_more : forall G1 G2 ex score c1 c2 q v1 v2 tick o1 o2 m1 new m2,
  same_question c1 c2 -> (1 <= scLimit c1 <= scLimit c2)%N -> (scLimit c2 < M32)%N ->
  store_wf m2 -> Permutation m2 (m1 ++ new) -> Permutation o1 m1 -> Permutation o2 m2 ->
  no_nan (candidates ex score c2 q tick m2) ->
  exists m1' l1 m2' l2,
    Search G1 ex score tick o1 m1 (Some (mkDatum (Some q) v1)) c1 = (m1', Ok l1) /\
    Search G2 ex score tick o2 m2 (Some (mkDatum (Some q) v2)) c2 = (m2', Ok l2) /\
    no_worse (scHigherIsBetter c1) l1 l2.
Proof.
  intros G1 G2 ex score c1 c2 q v1 v2 tick o1 o2 m1 new m2 SQ L LM W P PO1 PO2 NN.
  pose proof (store_wf_part _ _ _ W P) as W1.
  assert (PC : Permutation (candidates ex score c2 q tick m2) (candidates ex score c1 q tick m1 ++ candidates ex score c2 q tick new)).
  { rewrite (same_candidates ex score c1 c2 q tick m1 SQ). etransitivity; [apply candidates_perm, P|].
    unfold candidates. rewrite flat_map_app. reflexivity. }
  assert (NN1 : no_nan (candidates ex score c1 q tick m1)).
  { unfold no_nan in *. rewrite Forall_forall in *. intros x I. apply NN.
    apply (Permutation_in _ (Permutation_sym PC)). apply in_or_app. auto. }
  destruct (C18_local_search_exact G1 ex score c1 q v1 tick o1 m1) as (m1' & l1 & E1 & T1 & _); auto; [lia|].
  destruct (C18_local_search_exact G2 ex score c2 q v2 tick o2 m2) as (m2' & l2 & E2 & T2 & _); auto; [lia|].
  exists m1', l1, m2', l2. split; [exact E1|]. split; [exact E2|].
  destruct SQ as (_ & _ & SH). rewrite <- SH in T2.
  eapply (rank_more (beats (scHigherIsBetter c1)) good (beats_swo _) _ _ _ _ _ _ _ _ PC); [|exact T1|exact T2].
  intros x I. unfold no_nan in NN. rewrite Forall_forall in NN. exact (NN x I).
  Unshelve. lia.
Qed.
Print Assumptions C134_more.

(** Neither the order in which the map is walked nor the way equal scores are sorted
    matters but for results on a level; a smaller limit gives the beginning of the answer. *)
Theorem C134_order : forall G1 G2 ex score c1 c2 q v1 v2 tick o1 o2 m1 m2,
  same_question c1 c2 -> (1 <= scLimit c1 <= scLimit c2)%N -> (scLimit c2 < M32)%N ->
  store_wf m2 -> Permutation m2 m1 -> Permutation o1 m1 -> Permutation o2 m2 ->
  no_nan (candidates ex score c2 q tick m2) ->
  exists m1' l1 m2' l2,
    Search G1 ex score tick o1 m1 (Some (mkDatum (Some q) v1)) c1 = (m1', Ok l1) /\
    Search G2 ex score tick o2 m2 (Some (mkDatum (Some q) v2)) c2 = (m2', Ok l2) /\
    Forall2 (level (scHigherIsBetter c1)) l1 (firstn (N.to_nat (scLimit c1)) l2) /\
    ((forall x y, In x (candidates ex score c2 q tick m2) -> In y (candidates ex score c2 q tick m2) ->
        level (scHigherIsBetter c1) x y -> x = y) -> l1 = firstn (N.to_nat (scLimit c1)) l2).
Proof.
  intros G1 G2 ex score c1 c2 q v1 v2 tick o1 o2 m1 m2 SQ L LM W P PO1 PO2 NN.
  assert (P' : Permutation m2 (m1 ++ [])) by (rewrite app_nil_r; exact P).
  pose proof (store_wf_part _ _ _ W P') as W1.
  assert (PC : Permutation (candidates ex score c2 q tick m2) (candidates ex score c1 q tick m1)).
  { rewrite (same_candidates ex score c1 c2 q tick m1 SQ). apply candidates_perm, P. }
  assert (GD : forall x, In x (candidates ex score c2 q tick m2) -> good x).
  { intros x I. unfold no_nan in NN. rewrite Forall_forall in NN. exact (NN x I). }
  assert (GD1 : forall x, In x (candidates ex score c1 q tick m1) -> good x).
  { intros x I. apply GD, (Permutation_in _ (Permutation_sym PC)), I. }
  assert (NN1 : no_nan (candidates ex score c1 q tick m1)) by (unfold no_nan; rewrite Forall_forall; exact GD1).
  destruct (C18_local_search_exact G1 ex score c1 q v1 tick o1 m1) as (m1' & l1 & E1 & T1 & _); auto; [lia|].
  destruct (C18_local_search_exact G2 ex score c2 q v2 tick o2 m2) as (m2' & l2 & E2 & T2 & _); auto; [lia|].
  exists m1', l1, m2', l2. split; [exact E1|]. split; [exact E2|].
  destruct SQ as (_ & _ & SH). rewrite <- SH in T2.
  set (k := N.to_nat (scLimit c1)) in *.
  assert (T3 := topk_first _ k (N.to_nat (scLimit c2)) _ _ ltac:(subst k; lia) T2).
  assert (PC1 : Permutation (candidates ex score c2 q tick m2) (candidates ex score c1 q tick m1 ++ [])) by (rewrite app_nil_r; exact PC).
  assert (PC2 : Permutation (candidates ex score c1 q tick m1) (candidates ex score c2 q tick m2 ++ [])) by (rewrite app_nil_r; symmetry; exact PC).
  destruct (rank_more (beats (scHigherIsBetter c1)) good (beats_swo _) k k _ _ _ _ _ (le_n k) PC1 GD T1 T3) as [A1 A2].
  destruct (rank_more (beats (scHigherIsBetter c1)) good (beats_swo _) k k _ _ _ _ _ (le_n k) PC2 GD1 T3 T1) as [B1 B2].
  assert (FF : Forall2 (level (scHigherIsBetter c1)) l1 (firstn k l2)).
  { clear - A1 A2 B1 B2. revert A1 A2 B1 B2. generalize (firstn k l2). clear l2. intro l2. revert l2.
    induction l1 as [|x l1 IH]; intros [|y l2] A1 A2 B1 B2; cbn [length] in *; try lia; constructor.
    - split; [exact (A2 0 x y eq_refl eq_refl)|exact (B2 0 y x eq_refl eq_refl)].
    - apply IH; try lia.
      + intros i u v U V. exact (A2 (S i) u v U V).
      + intros i u v U V. exact (B2 (S i) u v U V). }
  split; [exact FF|]. intro D.
  assert (I1 : incl l1 (candidates ex score c2 q tick m2)).
  { destruct T1 as (r & R & _). intros x I. apply (Permutation_in _ (Permutation_sym PC)), (Permutation_in _ (Permutation_sym R)).
    apply in_or_app. auto. }
  assert (I2 : incl (firstn k l2) (candidates ex score c2 q tick m2)).
  { destruct T3 as (r & R & _). intros x I. apply (Permutation_in _ (Permutation_sym R)). apply in_or_app. auto. }
  clear - FF D I1 I2. induction FF as [|x y a b H F IH]; [reflexivity|]. f_equal.
  - apply D; auto; [apply I1|apply I2]; left; reflexivity.
  - apply IH; intros z I; [apply I1|apply I2]; right; exact I.
Qed.
Print Assumptions C134_order.

(** Two data and a limit of one; then a third and a limit of two: the best gets better. *)
Definition store2 : dbmap := [ (wire_key ka, mkEntry 0 (kv ka va)); (wire_key kc, mkEntry 90 (kv kc va)) ].
Example C134_instance :
  same_question (cfg1 false 1) (cfg1 false 2) /\
  Permutation store3 (store2 ++ [(wire_key kb, mkEntry 200 (kv kb va))]) /\
  no_nan (candidates any_filter QuickVectorDistance (cfg1 false 2) kb (fun _ => 80%Z) store3) /\
  (exists x y, snd (Search insertion_sort any_filter QuickVectorDistance (fun _ => 80%Z) store2 store2
                      (Some (mkDatum (Some kb) None)) (cfg1 false 1)) = Ok [x] /\
     snd (Search insertion_sort any_filter QuickVectorDistance (fun _ => 80%Z) (rev store3) store3
            (Some (mkDatum (Some kb) None)) (cfg1 false 2)) = Ok [y; x] /\
     beats false y x = true) /\
  (forall x y, In x (candidates any_filter QuickVectorDistance (cfg1 false 2) kb (fun _ => 80%Z) store2) ->
     In y (candidates any_filter QuickVectorDistance (cfg1 false 2) kb (fun _ => 80%Z) store2) ->
     level false x y -> x = y).
Proof.
  split; [repeat split|]. split; [|split; [|split]].
  - unfold store3, store2. cbn [app]. apply perm_skip. apply perm_swap.
  - repeat constructor.
  - exists (mkScored (QuickVectorDistance (vec ka) (vec kb)) (kv ka va)), (mkScored (S754_zero false) (kv kb va)).
    split; [vm_compute; reflexivity|]. split; vm_compute; reflexivity.
  - replace (candidates any_filter QuickVectorDistance (cfg1 false 2) kb (fun _ => 80%Z) store2) with
      (map (fun k => mkScored (QuickVectorDistance (vec k) (vec kb)) (kv k va)) [ka; kc]) by reflexivity.
    intros x y [<-|[<-|[]]] [<-|[<-|[]]] [L1 L2]; try reflexivity; vm_compute in L1, L2; discriminate.
Qed.
