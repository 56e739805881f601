(** Grouped search. *)
From Verif.Base Require Import GoBase GoLemmas Assoc Float GoSort.
From Verif.Model Require Import Codec Store Data Vector Search Aggregator.
From Verif.Spec Require Import Wire StoreSpec TopK TreeSpec GroupSpec.
From Verif.Proof Require Import FloatP TopKP CodecTop StoreP StoreQ SearchP AggP.
Open Scope N_scope.

(** ** Insertion without any assumption on the scores *)

Lemma list_step_weak : forall G P l D sd,
  aLimit P < M32 -> 1 <= aLimit P ->
  (exists rest, Permutation D (l ++ rest)) -> length l = Nat.min (N.to_nat (aLimit P)) (length D) ->
  exists l', InsertToList G P l sd = Ok l' /\
    (exists rest, Permutation (sd :: D) (l' ++ rest)) /\
    length l' = Nat.min (N.to_nat (aLimit P)) (length (sd :: D)).
Proof.
  intros G P l D sd Hn H1 (rest & HP) HL.
  assert (Eu : u32 (blen l) = blen l).
  { unfold u32. apply N.mod_small. unfold blen, M32 in *. lia. }
  unfold InsertToList. rewrite Eu.
  destruct (blen l <? aLimit P) eqn:E.
  - apply N.ltb_lt in E. eexists. split; [reflexivity|].
    pose proof (sort_perm G _ (less_score (aHigher P)) (l ++ [sd])) as SP. split.
    + exists rest. rewrite <- SP, HP. rewrite <- app_assoc. cbn. apply Permutation_middle.
    + rewrite <- (Permutation_length SP), app_length. cbn. unfold blen in E. lia.
  - apply N.ltb_ge in E.
    assert (l <> []) by (intros ->; unfold blen in E; cbn in E; lia).
    destruct (last_elem_ok l H) as [la Hla]. rewrite Hla. cbn [bind].
    pose proof (last_split l la Hla) as El.
    destruct (IsNewScoredBetter (aHigher P) (sScore la) (sScore sd)).
    + eexists. split; [reflexivity|]. unfold set_last.
      pose proof (sort_perm G _ (less_score (aHigher P)) (removelast l ++ [sd])) as SP.
      assert (HLn : length (removelast l ++ [sd]) = length l).
      { rewrite El at 2. rewrite !app_length. reflexivity. }
      split.
      * exists (la :: rest). rewrite <- SP, HP. rewrite El at 1. rewrite <- !app_assoc. cbn.
        apply Permutation_middle.
      * rewrite <- (Permutation_length SP), HLn. cbn. unfold blen in E. lia.
    + eexists. split; [reflexivity|]. split.
      * exists (sd :: rest). rewrite HP. apply Permutation_middle.
      * cbn. unfold blen in E. lia.
Qed.

(** What holds in every aggregator state reached with a limit of at least one. *)
Definition weak_inv (P : aggParams) (xs : list ScoredDatum) (s : aggState) : Prop :=
  exists D, incl D xs /\ (xs <> [] -> agSeen s <> []) /\ (agSeen s <> [] -> D <> []) /\
    (exists rest, Permutation D (agList s ++ rest)) /\
    length (agList s) = Nat.min (N.to_nat (aLimit P)) (length D).

Lemma weak_inv_empty : forall P, weak_inv P [] agg_empty.
Proof.
  intro P. exists []. split; [intros ? []|]. split; [congruence|]. split; [cbn; congruence|].
  split; [exists []; constructor|]. cbn; lia.
Qed.

Lemma agg_step_weak : forall G P xs s x,
  plain P -> aLimit P < M32 -> 1 <= aLimit P -> keyed x -> weak_inv P xs s ->
  exists s', AggInsert G P s x = Ok s' /\ weak_inv P (xs ++ [x]) s'.
Proof.
  intros G P xs s x Pl Hn H1 (k & Ek & Ok1 & Ok2) (D & ID & NS & ND & HP & HL).
  unfold AggInsert. rewrite BestScore_plain by auto. cbn [bind].
  assert (Ex : mkScored (sScore x) (sDatum x) = x) by (destruct x; reflexivity).
  rewrite Ex. rewrite (keyed_bytes x k) by auto. cbn [bind].
  unfold EncodeToString.
  destruct (list_step_weak G P (agList s) D x Hn H1 HP HL) as (l' & E & HP' & HL').
  assert (W1 : weak_inv P (xs ++ [x]) (mkAggState l' (mstore (agSeen s) (wire_key k) (sScore x)))).
  { exists (x :: D). split. { intros z [<-|Hz]; apply in_or_app; cbn; auto. }
    split; [cbn; unfold mstore; congruence|]. split; [congruence|]. split; auto. }
  destruct (mload (agSeen s) (wire_key k)) as [sc|] eqn:L.
  - destruct (IsNewScoredBetter (aHigher P) sc (sScore x)).
    + rewrite E. cbn [bind]. eexists. split; [reflexivity|]. exact W1.
    + exists s. split; auto. exists D. split. { intros z Hz. apply in_or_app. auto. }
      assert (agSeen s <> []) by (intro C; rewrite C in L; discriminate).
      split; auto.
  - rewrite E. cbn [bind]. eexists. split; [reflexivity|]. exact W1.
Qed.

Lemma agg_all_weak : forall G P, plain P -> aLimit P < M32 -> 1 <= aLimit P ->
  forall ys xs s, Forall keyed ys -> weak_inv P xs s ->
  exists s', AggInsertAll G P s ys = Ok s' /\ weak_inv P (xs ++ ys) s'.
Proof.
  intros G P Pl Hn H1. induction ys as [|y ys IH]; intros xs s KY I.
  - cbn. rewrite app_nil_r. eauto.
  - inversion KY; subst.
    destruct (agg_step_weak G P xs s y) as (s' & E & I'); auto.
    cbn [AggInsertAll]. rewrite E. cbn [bind].
    replace (xs ++ y :: ys) with ((xs ++ [y]) ++ ys) by (rewrite <- app_assoc; reflexivity).
    apply IH; auto.
Qed.

Lemma agg_all_app : forall G P ys zs s, AggInsertAll G P s (ys ++ zs) =
  bind (AggInsertAll G P s ys) (fun s' => AggInsertAll G P s' zs).
Proof.
  induction ys as [|y ys IH]; cbn; intros; auto.
  destruct (AggInsert G P s y); cbn [bind]; auto.
Qed.

(** ** The group map *)

(** The group states are the states of separate aggregators fed with the members
    of each group. *)
Definition group_inv (G : go_sort) (P : aggParams) (xs : list ScoredDatum) (gs : amap aggState) : Prop :=
  mwf gs /\
  forall g, match members g xs with
            | [] => mload gs g = None
            | ys => exists s, mload gs g = Some s /\
                AggInsertAll G (groupParams P) agg_empty ys = Ok s
            end.

Lemma members_app : forall g xs ys, members g (xs ++ ys) = members g xs ++ members g ys.
Proof. intros. unfold members. apply filter_app. Qed.

Lemma members_one : forall g x, members g [x] = if glabel_dec (glabel x) (Some g) then [x] else [].
Proof. intros. cbn. destruct (glabel_dec (glabel x) (Some g)); reflexivity. Qed.

Lemma in_members : forall g xs x, In x (members g xs) <-> In x xs /\ glabel x = Some g.
Proof.
  intros. unfold members. rewrite filter_In.
  destruct (glabel_dec (glabel x) (Some g)); intuition congruence.
Qed.

Lemma members_keyed : forall g xs, Forall keyed xs -> Forall keyed (members g xs).
Proof.
  intros g xs F. rewrite Forall_forall in *. intros x Hx. apply in_members in Hx. apply F. tauto.
Qed.

Lemma group_step : forall G P xs gs x,
  plain P -> aGroupLimit P < M32 -> 1 <= aGroupLimit P -> keyed x -> Forall keyed xs ->
  group_inv G P xs gs ->
  exists gs', GroupInsert G P gs x = Ok gs' /\ group_inv G P (xs ++ [x]) gs'.
Proof.
  intros G P xs gs x Pl Hn H1 Kx KX [W I].
  unfold GroupInsert. rewrite BestScore_plain by auto. cbn [bind].
  assert (Ex : mkScored (sScore x) (sDatum x) = x) by (destruct x; reflexivity).
  rewrite Ex. pose proof Kx as (k & Ek & Ok1 & Ok2).
  change (dkey (sDatum x)) with (skey x). rewrite Ek. unfold EncodeToString.
  assert (Eg : glabel x = Some (groupLabel k)) by (unfold glabel; rewrite Ek; reflexivity).
  set (g := groupLabel k) in *.
  set (s0 := match mload gs g with Some s => s | None => agg_empty end).
  assert (Hs0 : AggInsertAll G (groupParams P) agg_empty (members g xs) = Ok s0).
  { specialize (I g). unfold s0. destruct (members g xs) as [|y ys].
    - rewrite I. reflexivity.
    - destruct I as (s & -> & E). exact E. }
  destruct (agg_all_weak G (groupParams P) Logic.I Hn H1 (members g (xs ++ [x])) [] agg_empty)
    as (s' & E' & _).
  { apply members_keyed. apply Forall_app. auto. }
  { apply weak_inv_empty. }
  pose proof E' as E2. rewrite members_app, members_one in E2.
  destruct (glabel_dec (glabel x) (Some g)) as [_|C]; [|contradiction].
  rewrite agg_all_app, Hs0 in E2. cbn [bind AggInsertAll] in E2.
  destruct (AggInsert G (groupParams P) s0 x) as [s1| |] eqn:E1; cbn [bind] in E2; try discriminate.
  injection E2 as ->. cbn [bind].
  eexists. split; [reflexivity|]. split; [apply mstore_wf; auto|].
  intro g'. destruct (list_eq_dec N.eq_dec g g') as [<-|N].
  - destruct (members g (xs ++ [x])) as [|y ys] eqn:Em.
    + rewrite members_app, members_one in Em.
      destruct (glabel_dec (glabel x) (Some g)); [|contradiction].
      destruct (members g xs); discriminate.
    + exists s'. rewrite mload_mstore_same. auto.
  - rewrite mload_mstore_other by auto.
    rewrite members_app, members_one. destruct (glabel_dec (glabel x) (Some g')) as [C|_].
    { congruence. }
    rewrite app_nil_r. apply I.
Qed.

Lemma group_all : forall G P, plain P -> aGroupLimit P < M32 -> 1 <= aGroupLimit P ->
  forall ys xs gs, Forall keyed (xs ++ ys) -> group_inv G P xs gs ->
  exists gs', GroupInsertAll G P gs ys = Ok gs' /\ group_inv G P (xs ++ ys) gs'.
Proof.
  intros G P Pl Hn H1. induction ys as [|y ys IH]; intros xs gs F I.
  - cbn. rewrite app_nil_r. eauto.
  - replace (xs ++ y :: ys) with ((xs ++ [y]) ++ ys) in * by (rewrite <- app_assoc; reflexivity).
    pose proof F as F0. apply Forall_app in F. destruct F as [F1 F2]. apply Forall_app in F1.
    destruct F1 as [F1 F3]. inversion F3; subst.
    destruct (group_step G P xs gs y) as (gs' & E & I'); auto.
    cbn [GroupInsertAll]. rewrite E. cbn [bind]. apply IH; auto.
Qed.

(** ** One result per group *)

(** The result of one group. *)
Definition is_one (P : aggParams) (xs : list ScoredDatum) (g : bytes) (kept : list ScoredDatum)
  (o : ScoredDatum) : Prop :=
  kept <> [] /\ (length kept <= N.to_nat (aGroupLimit P))%nat /\ incl kept (members g xs) /\
  (exists x, In x kept /\ sDatum o = sDatum x) /\
  sScore o = group_score (aHigher P) (map sScore kept).

Lemma plus_all_fold : forall l acc,
  fold_left (fun a sd => f64add a (sScore sd)) l acc = plus_all acc (map sScore l).
Proof. induction l; cbn; auto. Qed.

Lemma One_spec : forall G P xs g s, aGroupLimit P < M32 -> 1 <= aGroupLimit P ->
  Forall keyed xs -> members g xs <> [] ->
  AggInsertAll G (groupParams P) agg_empty (members g xs) = Ok s ->
  exists o, One (groupParams P) s = Some o /\ is_one P xs g (agList s) o /\ glabel o = Some g /\ keyed o.
Proof.
  intros G P xs g s Hn H1 F NE E.
  destruct (agg_all_weak G (groupParams P) I Hn H1 (members g xs) [] agg_empty)
    as (s' & E' & D & ID & NS & ND & (rest & HP) & HL).
  { apply members_keyed. auto. }
  { apply weak_inv_empty. }
  rewrite E in E'. injection E' as <-. cbn [app] in *.
  specialize (ND (NS NE)).
  assert (HK : incl (agList s) (members g xs)).
  { intros x Hx. apply ID. eapply Permutation_in; [symmetry; exact HP|]. apply in_or_app. auto. }
  assert (HLE : (length (agList s) <= N.to_nat (aGroupLimit P))%nat).
  { rewrite HL. cbn [groupParams aLimit]. lia. }
  destruct (agList s) as [|x l] eqn:El.
  { destruct D; [congruence|]. cbn [groupParams aLimit length] in HL. lia. }
  assert (Hx : In x (members g xs)) by (apply HK; cbn; auto).
  apply in_members in Hx. destruct Hx as [Hx Hg].
  rewrite Forall_forall in F. destruct (F x Hx) as (k & Ek & O1 & O2).
  unfold One. rewrite El. cbn [groupParams aHigher].
  assert (Hsum : sum_scores (x :: l) = plus_all (S754_zero false) (map sScore (x :: l)))
    by apply plus_all_fold.
  assert (Hlen : Z.of_N (blen (x :: l)) = Z.of_nat (length (map sScore (x :: l)))).
  { rewrite map_length. unfold blen. lia. }
  destruct (aHigher P) eqn:Eh; (eexists; split; [reflexivity|]; split; [|split;
    [unfold glabel, skey in *; cbn [sDatum]; exact Hg | exists k; unfold skey in *; cbn [sDatum]; auto]]);
  (split; [congruence|]; split; [exact HLE|]; split; [exact HK|];
   split; [exists x; cbn; auto|]); cbn [sScore]; unfold group_score; rewrite Eh.
  - exact Hsum.
  - rewrite Hsum, Hlen. reflexivity.
Qed.

(** The final aggregation of results with distinct keys. *)
Lemma distinct_all_weak : forall G P, plain P -> aLimit P < M32 -> 1 <= aLimit P ->
  forall ys D s, Forall keyed ys -> NoDup (map skey (ys ++ D)) -> seen_inv (agSeen s) D ->
  (exists rest, Permutation D (agList s ++ rest)) ->
  length (agList s) = Nat.min (N.to_nat (aLimit P)) (length D) ->
  exists s', AggInsertAll G P s ys = Ok s' /\
    (exists rest, Permutation (ys ++ D) (agList s' ++ rest)) /\
    length (agList s') = Nat.min (N.to_nat (aLimit P)) (length (ys ++ D)).
Proof.
  intros G P Pl Hn H1. induction ys as [|y ys IH]; intros D s KY ND SI HP HL.
  - cbn. eauto.
  - inversion KY as [|? ? (k & Ek & O1 & O2) KY']; subst. cbn [app map] in ND. inversion ND; subst.
    cbn [AggInsertAll]. unfold AggInsert. rewrite BestScore_plain by auto. cbn [bind].
    assert (Ex : mkScored (sScore y) (sDatum y) = y) by (destruct y; reflexivity).
    rewrite Ex. rewrite (keyed_bytes y k) by auto. cbn [bind]. unfold EncodeToString.
    pose proof (SI k O1 O2) as Sk. destruct (mload (agSeen s) (wire_key k)) as [sc|] eqn:L.
    { destruct Sk as (z & Hz & Ez & _). exfalso. apply H2. rewrite Ek, <- Ez.
      apply in_map. apply in_or_app. auto. }
    destruct (list_step_weak G P (agList s) D y Hn H1 HP HL) as (l' & E & HP' & HL').
    rewrite E. cbn [bind].
    destruct (IH (y :: D) (mkAggState l' (mstore (agSeen s) (wire_key k) (sScore y))))
      as (s' & E' & (rest & HP2) & HL2); auto.
    + rewrite map_app. cbn [map]. rewrite map_app in H2, H3.
      apply NoDup_Add with (a := skey y) (l := map skey ys ++ map skey D); [apply Add_app|].
      split; auto.
    + apply seen_inv_store; auto.
    + exists s'. split; auto. split.
      * exists rest. rewrite <- HP2. cbn [app]. apply Permutation_middle.
      * rewrite HL2. rewrite !app_length. cbn [length]. f_equal. lia.
Qed.

Lemma firstn_incl : forall A n (l : list A), incl (firstn n l) l.
Proof. intros A n l x Hx. rewrite <- (firstn_skipn n l). apply in_or_app. auto. Qed.

Lemma firstn_NoDup : forall A n (l : list A), NoDup l -> NoDup (firstn n l).
Proof. intros A n l H. rewrite <- (firstn_skipn n l) in H. eapply NoDup_app_l. eauto. Qed.

(** Inserting the results of the groups is inserting a list. *)
Lemma insert_ones_all : forall G P order ones s,
  Forall2 (fun p o => One (groupParams P) (snd p) = Some o) order ones ->
  insert_ones G P s order = AggInsertAll G P s ones.
Proof.
  intros G P order ones s H. revert s. induction H as [|[g st] o order ones Ho Hf IH]; intro s; cbn.
  - reflexivity.
  - cbn in Ho. rewrite Ho. destruct (AggInsert G P s o); cbn [bind]; auto.
Qed.

Lemma groups_in_map : forall G P xs gs, Forall keyed xs -> group_inv G P xs gs ->
  Permutation (map (@Some bytes) (mkeys gs)) (nodup glabel_dec (map glabel xs)).
Proof.
  intros G P xs gs F [W I]. apply NoDup_Permutation.
  - apply FinFun.Injective_map_NoDup; [intros a b C; congruence|exact W].
  - apply NoDup_nodup.
  - intro o. rewrite nodup_In. split.
    + intro H. apply in_map_iff in H. destruct H as (g & <- & Hg).
      unfold mkeys in Hg. apply in_map_iff in Hg. destruct Hg as ([g' s] & <- & Hin). cbn [fst].
      apply in_mload in Hin; auto. specialize (I g').
      destruct (members g' xs) as [|y ys] eqn:E; [congruence|].
      assert (Hy : In y (members g' xs)) by (rewrite E; cbn; auto).
      apply in_members in Hy. destruct Hy as [Hy Hg]. rewrite <- Hg. apply in_map. auto.
    + intro H. apply in_map_iff in H. destruct H as (x & <- & Hx).
      rewrite Forall_forall in F. destruct (F x Hx) as (k & Ek & _).
      assert (Eg : glabel x = Some (groupLabel k)) by (unfold glabel; rewrite Ek; reflexivity).
      rewrite Eg. apply in_map. specialize (I (groupLabel k)).
      destruct (members (groupLabel k) xs) as [|y ys] eqn:E.
      * assert (C : In x (members (groupLabel k) xs)) by (apply in_members; auto).
        rewrite E in C. destruct C.
      * destruct I as (s & L & _). apply mload_in in L. apply (in_map fst) in L. exact L.
Qed.

(** The results of the groups in the order of iteration. *)
Lemma all_ones : forall G P xs gs order, aGroupLimit P < M32 -> 1 <= aGroupLimit P ->
  Forall keyed xs -> group_inv G P xs gs -> Permutation order gs ->
  exists ones,
    Forall2 (fun p o => One (groupParams P) (snd p) = Some o) order ones /\
    map glabel ones = map (@Some bytes) (mkeys order) /\
    Forall keyed ones /\
    Forall (fun o => exists g s, glabel o = Some g /\
      AggInsertAll G (groupParams P) agg_empty (members g xs) = Ok s /\
      is_one P xs g (agList s) o) ones.
Proof.
  intros G P xs gs order Hn H1 F [W I] HP.
  assert (Hin : forall p, In p order -> In p gs) by (intros; eapply Permutation_in; eauto).
  clear HP. induction order as [|[g s] order IH].
  - exists []. repeat split; constructor.
  - destruct IH as (ones & A & B & C & D); [intros; apply Hin; cbn; auto|].
    assert (L : mload gs g = Some s) by (apply in_mload; auto; apply Hin; cbn; auto).
    specialize (I g). destruct (members g xs) as [|y ys] eqn:Em; [congruence|].
    destruct I as (s' & L' & E). rewrite L in L'. injection L' as <-. rewrite <- Em in E.
    destruct (One_spec G P xs g s Hn H1 F) as (o & Eo & Ho & Hg & Hk); auto; [congruence|].
    exists (o :: ones). split; [constructor; auto|]. split; [cbn; rewrite Hg, B; reflexivity|].
    split; [constructor; auto|]. constructor; auto. exists g, s. auto.
Qed.

Lemma NoDup_keys_of_glabel : forall l, NoDup (map glabel l) -> NoDup (map skey l).
Proof.
  induction l as [|x l IH]; cbn; intro H; [constructor|]. inversion H; subst. constructor; auto.
  intro C. apply H2. apply in_map_iff in C. destruct C as (y & E & Hy). unfold glabel at 1.
  rewrite <- E. apply in_map_iff. exists y. auto.
Qed.

Theorem group_merge_spec : forall G P ord xs,
  plain P -> aLimit P < M32 -> 1 <= aLimit P -> aGroupLimit P < M32 -> 1 <= aGroupLimit P ->
  aResultLimit P < M63 -> Forall keyed xs -> (forall m, Permutation (ord m) m) ->
  exists ones out, GroupMerge G P ord xs = Ok out /\
    Permutation (map glabel ones) (nodup glabel_dec (map glabel xs)) /\
    Forall (fun o => exists g s, glabel o = Some g /\
      AggInsertAll G (groupParams P) agg_empty (members g xs) = Ok s /\
      is_one P xs g (agList s) o) ones /\
    Merge G P ones = Ok out /\ Forall keyed ones /\
    (exists rest, Permutation ones (out ++ rest)) /\
    length out = Nat.min (wanted (aLimit P) (aResultLimit P)) (groups xs).
Proof.
  intros G P ord xs Pl Hn H1 Gn G1 HR F Hord.
  destruct (group_all G P Pl Gn G1 xs [] []) as (gs & E & I); auto.
  { split; [constructor|]. intro g. reflexivity. }
  cbn [app] in I.
  destruct (all_ones G P xs gs (ord gs) Gn G1 F I (Hord gs)) as (ones & A & B & C & D).
  assert (PG : Permutation (map glabel ones) (nodup glabel_dec (map glabel xs))).
  { rewrite B. rewrite <- (groups_in_map G P xs gs F I). apply Permutation_map.
    apply Permutation_map. apply Hord. }
  assert (ND : NoDup (map skey ones)).
  { apply NoDup_keys_of_glabel. eapply Permutation_NoDup; [symmetry; exact PG|]. apply NoDup_nodup. }
  destruct (distinct_all_weak G P Pl Hn H1 ones [] agg_empty) as (s & Es & (rest & HP) & HL).
  - auto.
  - rewrite app_nil_r. auto.
  - intros k _ _. cbn. auto.
  - exists []. constructor.
  - cbn. lia.
  - rewrite app_nil_r in *.
    assert (Lo : length ones = groups xs).
    { unfold groups. rewrite <- (Permutation_length PG), map_length. reflexivity. }
    exists ones. eexists. split.
    + unfold GroupMerge. rewrite E. cbn [bind]. unfold GroupResult.
      rewrite (insert_ones_all _ _ _ ones) by auto. rewrite Es. cbn [bind].
      apply AggResult_spec. auto.
    + split; auto. split; auto.
      split. { unfold Merge. rewrite Es. cbn [bind]. apply AggResult_spec. auto. }
      split; auto.
      unfold wanted. destruct (aResultLimit P =? 0) eqn:Z.
      * split; [eauto|]. rewrite HL, Lo. reflexivity.
      * split.
        -- exists (skipn (N.to_nat (aResultLimit P)) (agList s) ++ rest).
           rewrite app_assoc, firstn_skipn. auto.
        -- rewrite firstn_length, HL, Lo. apply N.eqb_neq in Z. lia.
Qed.
