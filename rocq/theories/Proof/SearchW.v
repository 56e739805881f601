(** What holds of searching and merging without any assumption on the scores. *)
From Verif.Base Require Import GoBase GoLemmas Assoc Float GoSort.
From Verif.Model Require Import Codec Store Data Vector Search Aggregator.
From Verif.Spec Require Import Wire StoreSpec TopK TreeSpec.
From Verif.Proof Require Import FloatP TopKP CodecTop StoreP StoreQ SearchP AggP GroupP.
Open Scope N_scope.

Definition some_of (n : nat) (input l : list ScoredDatum) : Prop :=
  (exists rest, Permutation input (l ++ rest)) /\ length l = Nat.min n (length input).

Lemma collector_step_weak : forall G h n l input sd,
  n < M32 -> 1 <= n -> some_of (N.to_nat n) input l ->
  exists l', CollectorInsert G h n l sd = Ok l' /\ some_of (N.to_nat n) (sd :: input) l'.
Proof.
  intros G h n l input sd Hn H1 [(rest & HP) HL].
  assert (Eu : u32 (blen l) = blen l).
  { unfold u32. apply N.mod_small. unfold blen, M32 in *. lia. }
  unfold CollectorInsert. rewrite Eu.
  destruct (blen l <? n) eqn:E.
  - apply N.ltb_lt in E. eexists. split; [reflexivity|].
    pose proof (sort_perm G _ (less_score h) (l ++ [sd])) as SP. split.
    + exists rest. rewrite <- SP, HP. rewrite <- app_assoc. cbn. apply Permutation_middle.
    + rewrite <- (Permutation_length SP), app_length. cbn. unfold blen in E. lia.
  - apply N.ltb_ge in E.
    assert (l <> []) by (intros ->; unfold blen in E; cbn in E; lia).
    destruct (last_elem_ok l H) as [la Hla]. rewrite Hla. cbn [bind].
    pose proof (last_split l la Hla) as El.
    destruct (h && fgtb (sScore sd) (sScore la) || negb h && fltb (sScore sd) (sScore la))%bool.
    + eexists. split; [reflexivity|]. unfold set_last.
      pose proof (sort_perm G _ (less_score h) (removelast l ++ [sd])) as SP.
      assert (HLn : length (removelast l ++ [sd]) = length l).
      { rewrite El at 2. rewrite !app_length. reflexivity. }
      split.
      * exists (la :: rest). rewrite <- SP, HP. rewrite El at 1. rewrite <- !app_assoc. cbn.
        apply Permutation_middle.
      * rewrite <- (Permutation_length SP), HLn. cbn. unfold blen in E. lia.
    + eexists. split; [reflexivity|]. split.
      * exists (sd :: rest). rewrite HP. apply Permutation_middle.
      * cbn. unfold blen in E. lia.
Qed.

Lemma search_loop_weak : forall G ex score config q qv tick,
  scLimit config < M32 -> 1 <= scLimit config ->
  forall order m s input,
  (forall b e, In (b, e) order -> exists k v, edatum e = kv k v) ->
  some_of (N.to_nat (scLimit config)) input s ->
  exists m' l,
    LoopDBMap tick
      (fun s e => (l <- s ;; search_entry G ex score config (Some (mkDatum (Some q) qv)) l e, None))
      order m (Ok s) = (m', Ok l, None) /\
    some_of (N.to_nat (scLimit config)) (candidates ex score config q tick order ++ input) l.
Proof.
  intros G ex score config q qv tick Hn H1. induction order as [|[b e] order IH];
    intros m s input Hs T.
  - cbn. eauto.
  - destruct (Hs b e (or_introl eq_refl)) as (k & v & Ed).
    rewrite (candidates_cons _ _ _ _ _ _ _ _ k v Ed) in *.
    assert (Hs' : forall b e, In (b, e) order -> exists k v, edatum e = kv k v)
      by (intros; eapply Hs; right; eauto).
    cbn [LoopDBMap].
    destruct (expired (tick b) e) eqn:X; cbn [negb andb] in *.
    + cbn [app]. apply IH; auto.
    + cbn [bind]. rewrite (search_entry_spec _ _ _ _ _ _ _ _ k v Ed).
      destruct (passes ex config (kv k v)) eqn:PF.
      * destruct (collector_step_weak G (scHigherIsBetter config) (scLimit config) s input
                    (mkScored (score (vec k) (vec q)) (kv k v))) as (l' & E & T'); auto.
        rewrite E.
        destruct (IH m l' (mkScored (score (vec k) (vec q)) (kv k v) :: input)) as (m' & l & E2 & (rest & HP) & HL); auto.
        exists m', l. split; auto. cbn [app]. split.
        -- exists rest. rewrite <- HP. apply Permutation_middle.
        -- rewrite HL. rewrite app_length. cbn. rewrite app_length. f_equal. lia.
      * cbn [app]. destruct (IH m s input) as (m' & l & E2 & T2); auto.
Qed.

Lemma search_weak : forall G ex score config q qv tick order m,
  scLimit config < M32 -> 1 <= scLimit config -> store_wf m -> Permutation order m ->
  exists m' l,
    Search G ex score tick order m (Some (mkDatum (Some q) qv)) config = (m', Ok l) /\
    some_of (N.to_nat (scLimit config)) (candidates ex score config q tick m) l.
Proof.
  intros G ex score config q qv tick order m Hn H1 [W F] P.
  destruct (search_loop_weak G ex score config q qv tick Hn H1 order m [] []) as (m' & l & E & T).
  - intros b e Hin. eapply Permutation_in in Hin; [|exact P].
    destruct (F b e Hin) as (k & v & _ & _ & Ed). eauto.
  - split; [exists []; constructor|cbn; lia].
  - exists m', l. split.
    + unfold Search. rewrite E. reflexivity.
    + rewrite app_nil_r in T. destruct T as [(rest & HP) HL].
      pose proof (candidates_perm ex score config q tick order m P) as CP. split.
      * exists rest. rewrite <- CP. auto.
      * rewrite <- (Permutation_length CP). auto.
Qed.

Lemma AggInsertAll_no_result_limit : forall G P xs s,
  AggInsertAll G (no_result_limit P) s xs = AggInsertAll G P s xs.
Proof.
  intros G P xs.
  assert (HL : forall l fe o, best_loop (no_result_limit P) fe l o = best_loop P fe l o).
  { induction l as [|y l IH]; intros fe o; cbn [best_loop]; auto.
    destruct (featureOf (Some y)); cbn [bind]; auto. }
  assert (HB : forall sd, BestScore (no_result_limit P) sd = BestScore P sd).
  { intro sd. unfold BestScore. change (aContext (no_result_limit P)) with (aContext P).
    destruct (aContext P) as [c|]; auto. destruct (ctxDatum c) as [|d ds]; auto.
    destruct (featureOf (Some (sDatum sd))) as [fe| |]; auto. cbn [bind].
    rewrite HL. reflexivity. }
  induction xs as [|x xs IH]; intro s; [reflexivity|].
  cbn [AggInsertAll].
  assert (E : AggInsert G (no_result_limit P) s x = AggInsert G P s x).
  { unfold AggInsert. rewrite HB. reflexivity. }
  rewrite E. destruct (AggInsert G P s x); cbn [bind]; auto.
Qed.

Lemma merge_limits : forall G P xs,
  plain P -> aLimit P < M32 -> 1 <= aLimit P -> aResultLimit P < M63 -> Forall keyed xs ->
  exists l out, Merge G (no_result_limit P) xs = Ok l /\ Merge G P xs = Ok out /\
    (length l <= N.to_nat (aLimit P))%nat /\ incl l xs /\
    out = firstn (wanted (aLimit P) (aResultLimit P)) l.
Proof.
  intros G P xs Pl Hn H1 HR F.
  destruct (agg_all_weak G P Pl Hn H1 xs [] agg_empty F (weak_inv_empty P))
    as (s & E & D & ID & _ & _ & (rest & HP) & HL).
  exists (agList s). eexists. split; [|split].
  - unfold Merge. rewrite AggInsertAll_no_result_limit, E. cbn [bind].
    rewrite AggResult_spec; [reflexivity|]. cbn. unfold M63. lia.
  - unfold Merge. rewrite E. cbn [bind]. apply AggResult_spec. auto.
  - split; [lia|]. split.
    { intros x Hx. apply ID. eapply Permutation_in; [symmetry; exact HP|]. apply in_or_app. auto. }
    unfold wanted. destruct (aResultLimit P =? 0).
    + symmetry. apply firstn_all2. lia.
    + destruct (N.min_spec (aLimit P) (aResultLimit P)) as [[A ->]|[A ->]]; auto.
      rewrite !firstn_all2; auto; lia.
Qed.

Definition dup_inv (xs : list ScoredDatum) (s : aggState) : Prop :=
  NoDup (map skey (agList s)) /\ incl (agList s) xs /\
  forall k, key_ok k -> key_fits k ->
    match mload (agSeen s) (wire_key k) with
    | Some sc => exists y, In y xs /\ skey y = Some k /\ sScore y = sc
    | None => ~ In (Some k) (map skey xs)
    end.

Lemma NoDup_removelast : forall A (l : list A), NoDup l -> NoDup (removelast l).
Proof.
  intros A l H. destruct l as [|a l']; [constructor|].
  rewrite (app_removelast_last a) in H by congruence. eapply NoDup_app_l; eauto.
Qed.

Lemma map_removelast : forall A B (f : A -> B) l, map f (removelast l) = removelast (map f l).
Proof.
  intros A B f. induction l as [|x l IH]; auto. cbn [removelast map]. destruct l; auto.
  cbn [map] in *. rewrite <- IH. reflexivity.
Qed.

Lemma InsertToList_dup : forall G P l sd l', InsertToList G P l sd = Ok l' ->
  NoDup (map skey l) -> ~ In (skey sd) (map skey l) ->
  NoDup (map skey l') /\ incl l' (sd :: l).
Proof.
  intros G P l sd l' E ND NI. unfold InsertToList in E.
  assert (Key : forall l0, NoDup (map skey l0) -> incl l0 l ->
    NoDup (map skey (sort_run G (less_score (aHigher P)) (l0 ++ [sd]))) /\
    incl (sort_run G (less_score (aHigher P)) (l0 ++ [sd])) (sd :: l)).
  { intros l0 N0 I0. pose proof (sort_perm G _ (less_score (aHigher P)) (l0 ++ [sd])) as SP. split.
    - eapply Permutation_NoDup; [apply Permutation_map; exact SP|]. rewrite map_app. cbn [map].
      eapply Permutation_NoDup; [apply Permutation_cons_append|]. constructor; auto.
      intro C. apply NI. apply in_map_iff in C. destruct C as (y & Ey & Hy). rewrite <- Ey.
      apply in_map. auto.
    - intros z Hz. eapply Permutation_in in Hz; [|symmetry; exact SP].
      apply in_app_or in Hz. cbn in *. destruct Hz as [Hz|[Hz|[]]]; auto. }
  destruct (u32 (blen l) <? aLimit P).
  - injection E as <-. apply Key; auto. intros z; auto.
  - destruct (last_elem l) as [la| |] eqn:L; cbn [bind] in E; try discriminate.
    pose proof (last_split l la L) as El.
    destruct (IsNewScoredBetter (aHigher P) (sScore la) (sScore sd)); injection E as <-.
    + unfold set_last. apply Key.
      * rewrite map_removelast. apply NoDup_removelast. auto.
      * intros z Hz. rewrite El. apply in_or_app. auto.
    + split; auto. intros z Hz. cbn. auto.
Qed.

Lemma dup_step : forall G P xs s x s',
  plain P -> keyed x -> never_better (xs ++ [x]) -> dup_inv xs s ->
  AggInsert G P s x = Ok s' -> dup_inv (xs ++ [x]) s'.
Proof.
  intros G P xs s x s' Pl (k & Ek & O1 & O2) NB (ND & ID & SI) E.
  unfold AggInsert in E. rewrite BestScore_plain in E by auto. cbn [bind] in E.
  assert (Ex : mkScored (sScore x) (sDatum x) = x) by (destruct x; reflexivity).
  rewrite Ex in E. rewrite (keyed_bytes x k) in E by auto. cbn [bind] in E.
  unfold EncodeToString in E. pose proof (SI k O1 O2) as Sk.
  destruct (mload (agSeen s) (wire_key k)) as [sc|] eqn:L.
  - destruct Sk as (y & Hy & Ey & Es).
    assert (NBy : SFltb (sScore y) (sScore x) = false).
    { clear -NB Hy Ek Ey. induction xs as [|a xs IH]; [destruct Hy|].
      cbn [app] in NB. inversion NB; subst. destruct Hy as [<-|Hy]; [|auto].
      rewrite Forall_forall in H1. apply H1; [apply in_or_app; cbn; auto|congruence]. }
    assert (IsNewScoredBetter (aHigher P) sc (sScore x) = false) as EN.
    { unfold IsNewScoredBetter, fgtb, fltb. rewrite <- Es, NBy. destruct (aHigher P); auto. }
    rewrite EN in E. injection E as <-. split; auto.
    split. { intros z Hz. apply in_or_app. auto. }
    intros k' O1' O2'. specialize (SI k' O1' O2').
    destruct (mload (agSeen s) (wire_key k')) eqn:L'.
    + destruct SI as (z & Hz & A). exists z. split; auto. apply in_or_app. auto.
    + rewrite map_app, in_app_iff. cbn. intros [C|[C|[]]]; auto.
      assert (k = k') by congruence. subst k'. rewrite L in L'. discriminate.
  - destruct (InsertToList G P (agList s) x) as [l'| |] eqn:EI; cbn [bind] in E; try discriminate.
    injection E as <-.
    assert (NI : ~ In (skey x) (map skey (agList s))).
    { rewrite Ek. intro C. apply Sk. apply in_map_iff in C. destruct C as (y & Ey & Hy).
      rewrite <- Ey. apply in_map. auto. }
    destruct (InsertToList_dup G P _ _ _ EI ND NI) as [ND' ID'].
    split; auto. split.
    { intros z Hz. apply in_or_app. destruct (ID' z Hz) as [<-|Hz']; cbn; auto. }
    intros k' O1' O2'. cbn [agSeen]. destruct (DatumKey_eq_dec k k') as [<-|N].
    + rewrite mload_mstore_same. exists x. split; auto. apply in_or_app. cbn. auto.
    + rewrite mload_mstore_other by (intro C; apply N; apply wire_key_inj; auto).
      specialize (SI k' O1' O2'). destruct (mload (agSeen s) (wire_key k')).
      * destruct SI as (z & Hz & A). exists z. split; auto. apply in_or_app. auto.
      * rewrite map_app, in_app_iff. cbn. intros [C|[C|[]]]; auto. congruence.
Qed.

Lemma never_better_app : forall xs ys, never_better (xs ++ ys) -> never_better xs.
Proof.
  induction xs as [|x xs IH]; cbn; intros ys H; [constructor|]. inversion H; subst.
  apply Forall_app in H2. constructor; [tauto|]. eapply IH; eauto.
Qed.

Lemma dup_all : forall G P, plain P -> forall ys xs s s',
  Forall keyed ys -> never_better (xs ++ ys) -> dup_inv xs s ->
  AggInsertAll G P s ys = Ok s' -> dup_inv (xs ++ ys) s'.
Proof.
  intros G P Pl. induction ys as [|y ys IH]; intros xs s s' F NB I E.
  - cbn in E. injection E as <-. rewrite app_nil_r. auto.
  - inversion F; subst. cbn [AggInsertAll] in E.
    destruct (AggInsert G P s y) as [s1| |] eqn:E1; cbn [bind] in E; try discriminate.
    replace (xs ++ y :: ys) with ((xs ++ [y]) ++ ys) in * by (rewrite <- app_assoc; reflexivity).
    eapply IH; eauto. eapply dup_step; eauto. eapply never_better_app; eauto.
Qed.

Lemma merge_no_dup : forall G P xs out,
  plain P -> Forall keyed xs -> never_better xs -> Merge G P xs = Ok out -> NoDup (map skey out).
Proof.
  intros G P xs out Pl F NB E. unfold Merge in E.
  destruct (AggInsertAll G P agg_empty xs) as [s| |] eqn:E1; cbn [bind] in E; try discriminate.
  destruct (dup_all G P Pl xs [] agg_empty s F NB) as (ND & _); auto.
  { split; [constructor|]. split; [intros ? []|]. intros k _ _. cbn. auto. }
  unfold AggResult in E.
  destruct ((0 <? aResultLimit P) && (i64_of_u64 (aResultLimit P) <? Z.of_N (blen (agList s)))%Z)%bool.
  - destruct (aResultLimit P <=? blen (agList s)); [|discriminate]. injection E as <-.
    rewrite <- firstn_map. apply firstn_NoDup. auto.
  - injection E as <-. auto.
Qed.
