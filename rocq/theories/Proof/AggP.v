(** Merging keeps the k best. *)
From Verif.Base Require Import GoBase GoLemmas Assoc Float GoSort.
From Verif.Model Require Import Codec Store Data Vector Search Aggregator.
From Verif.Spec Require Import Wire StoreSpec TopK TreeSpec.
From Verif.Proof Require Import FloatP TopKP CodecTop StoreP StoreQ SearchP.
Open Scope N_scope.

Lemma BestScore_plain : forall P sd, plain P -> BestScore P sd = Ok (sScore sd).
Proof.
  intros P sd H. unfold BestScore, plain in *. destruct (aContext P) as [c|]; auto.
  rewrite H. reflexivity.
Qed.

Lemma keyed_bytes : forall x k, skey x = Some k -> key_fits k ->
  GetKeyAsBytes (Some (sDatum x)) = Ok (wire_key k).
Proof.
  intros x k H F. unfold GetKeyAsBytes, skey in *. rewrite H. apply MarshalKey_spec. auto.
Qed.

Definition seen_inv (seen : amap float) (D : list ScoredDatum) : Prop :=
  forall k, key_ok k -> key_fits k ->
    match mload seen (wire_key k) with
    | Some sc => exists y, In y D /\ skey y = Some k /\ sScore y = sc
    | None => ~ In (Some k) (map skey D)
    end.

Lemma wire_key_inj : forall k k', key_ok k -> key_fits k -> key_ok k' -> key_fits k' ->
  wire_key k = wire_key k' -> k = k'.
Proof.
  intros k k' O F O' F' E. apply (wire_key_prefix_free k k' [] []); auto.
  rewrite !app_nil_r. auto.
Qed.

Lemma seen_inv_store : forall seen D x k, seen_inv seen D ->
  skey x = Some k -> key_ok k -> key_fits k ->
  seen_inv (mstore seen (wire_key k) (sScore x)) (x :: D).
Proof.
  intros seen D x k I E O F k' O' F'.
  destruct (DatumKey_eq_dec k k') as [<-|N].
  - rewrite mload_mstore_same. exists x. cbn. auto.
  - rewrite mload_mstore_other by (intro C; apply N; apply wire_key_inj; auto).
    specialize (I k' O' F'). destruct (mload seen (wire_key k')).
    + destruct I as (y & Hy & A & B). exists y. cbn. auto.
    + cbn. intros [C|C]; [congruence|auto].
Qed.

(** One insertion into the list. *)
Lemma list_step : forall G P l D sd,
  aLimit P < M32 -> 1 <= aLimit P -> no_nan (sd :: D) ->
  (aHigher P = true \/ (length D < N.to_nat (aLimit P))%nat) ->
  topk (beats (aHigher P)) (N.to_nat (aLimit P)) D l ->
  exists l', InsertToList G P l sd = Ok l' /\
    topk (beats (aHigher P)) (N.to_nat (aLimit P)) (sd :: D) l'.
Proof.
  intros G P l D sd Hn H1 NN Hh T. inversion NN as [|? ? Gs Gi]; subst.
  assert (Ll : (length l = Nat.min (N.to_nat (aLimit P)) (length D))%nat)
    by (destruct T as (r & _ & L & _); lia).
  assert (Eu : u32 (blen l) = blen l).
  { unfold u32. apply N.mod_small. unfold blen, M32 in *. lia. }
  unfold InsertToList. rewrite Eu.
  destruct (blen l <? aLimit P) eqn:E.
  - apply N.ltb_lt in E. eexists. split; [reflexivity|].
    apply (topk_append _ G good (beats_swo _)); auto. unfold blen in E. lia.
  - apply N.ltb_ge in E. destruct Hh as [Hh|Hh]; [|unfold blen in E; lia].
    assert (l <> []) by (intros ->; unfold blen in E; cbn in E; lia).
    destruct (last_elem_ok l H) as [la Hla]. rewrite Hla. cbn [bind].
    assert (HE : IsNewScoredBetter (aHigher P) (sScore la) (sScore sd) = beats (aHigher P) sd la)
      by (rewrite Hh; reflexivity).
    rewrite HE. destruct (beats (aHigher P) sd la) eqn:B.
    + eexists. split; [reflexivity|].
      apply (topk_replace _ G good (beats_swo _) _ D l sd la); auto.
      unfold blen in E. lia.
    + eexists. split; [reflexivity|].
      apply (topk_skip _ good (beats_swo _) _ D l sd la); auto.
      unfold blen in E. lia.
Qed.

(** What is known after a sequence of insertions. *)
Definition agg_inv (P : aggParams) (xs : list ScoredDatum) (s : aggState) : Prop :=
  exists D, topk (beats (aHigher P)) (N.to_nat (aLimit P)) D (agList s) /\
    NoDup (map skey D) /\ incl D xs /\ (forall x, In x xs -> In (skey x) (map skey D)) /\
    seen_inv (agSeen s) D.

Lemma agg_step : forall G P xs s x,
  plain P -> aLimit P < M32 -> 1 <= aLimit P ->
  no_nan (xs ++ [x]) -> one_score (xs ++ [x]) -> keyed x ->
  (aHigher P = true \/ exists ks, (length ks <= N.to_nat (aLimit P))%nat /\
     forall y, In y (xs ++ [x]) -> In (skey y) ks) ->
  agg_inv P xs s ->
  exists s', AggInsert G P s x = Ok s' /\ agg_inv P (xs ++ [x]) s'.
Proof.
  intros G P xs s x Pl Hn H1 NN OS (k & Ek & Ok1 & Ok2) Hh (D & T & ND & ID & CD & SI).
  unfold AggInsert. rewrite BestScore_plain by auto. cbn [bind].
  assert (Ex : mkScored (sScore x) (sDatum x) = x) by (destruct x; reflexivity).
  rewrite Ex. rewrite (keyed_bytes x k) by auto. cbn [bind].
  unfold EncodeToString.
  pose proof (SI k Ok1 Ok2) as Sk.
  destruct (mload (agSeen s) (wire_key k)) as [sc|] eqn:L.
  - destruct Sk as (y & Hy & Eky & Esc).
    assert (Es : sScore x = sc).
    { rewrite <- Esc. apply OS; [apply in_or_app; cbn; auto|apply in_or_app; auto|congruence]. }
    rewrite Es. assert (IsNewScoredBetter (aHigher P) sc sc = false) as ->.
    { unfold IsNewScoredBetter, fgtb, fltb. rewrite SFltb_irr. destruct (aHigher P); auto. }
    exists s. split; auto. exists D. split; auto. split; auto.
    split. { intros z Hz. apply in_or_app. auto. }
    split; auto. intros z Hz. apply in_app_or in Hz. destruct Hz as [Hz|[<-|[]]]; auto.
    rewrite Ek, <- Eky. apply in_map. auto.
  - assert (GD : no_nan (x :: D)).
    { unfold no_nan in *. rewrite Forall_forall in *. intros z [<-|Hz]; apply NN;
      apply in_or_app; cbn; auto. }
    assert (ND' : NoDup (map skey (x :: D))) by (cbn; rewrite Ek; constructor; auto).
    assert (ID' : incl (x :: D) (xs ++ [x])).
    { intros z [<-|Hz]; apply in_or_app; cbn; auto. }
    destruct (list_step G P (agList s) D x) as (l' & E & T'); auto.
    { destruct Hh as [Hh|(ks & Hks & Hin)]; auto. right.
      assert (length (map skey (x :: D)) <= length ks)%nat.
      { apply NoDup_incl_length; auto. intros z Hz. apply in_map_iff in Hz.
        destruct Hz as (y & <- & Hy). apply Hin. auto. }
      rewrite map_length in H. cbn in H. lia. }
    rewrite E. cbn [bind]. eexists. split; [reflexivity|].
    exists (x :: D). cbn [agList agSeen]. split; auto. split; auto. split; auto.
    split; [|apply seen_inv_store; auto].
    intros z Hz. apply in_app_or in Hz. destruct Hz as [Hz|[<-|[]]]; cbn; auto.
Qed.

Lemma no_nan_app : forall a b, no_nan (a ++ b) <-> no_nan a /\ no_nan b.
Proof. intros. unfold no_nan. apply Forall_app. Qed.

Lemma agg_all : forall G P,
  plain P -> aLimit P < M32 -> 1 <= aLimit P ->
  forall ys xs s,
  no_nan (xs ++ ys) -> one_score (xs ++ ys) -> Forall keyed ys ->
  (aHigher P = true \/ exists ks, (length ks <= N.to_nat (aLimit P))%nat /\
     forall y, In y (xs ++ ys) -> In (skey y) ks) ->
  agg_inv P xs s ->
  exists s', AggInsertAll G P s ys = Ok s' /\ agg_inv P (xs ++ ys) s'.
Proof.
  intros G P Pl Hn H1. induction ys as [|y ys IH]; intros xs s NN OS KY Hh I.
  - cbn. rewrite app_nil_r. eauto.
  - inversion KY; subst.
    replace (xs ++ y :: ys) with ((xs ++ [y]) ++ ys) in * by (rewrite <- app_assoc; reflexivity).
    destruct (agg_step G P xs s y) as (s' & E & I'); auto.
    + apply no_nan_app in NN. tauto.
    + intros a b Ha Hb. apply OS; apply in_or_app; auto.
    + destruct Hh as [Hh|(ks & Hk & Hin)]; auto. right. exists ks. split; auto.
      intros z Hz. apply Hin. apply in_or_app. auto.
    + cbn [AggInsertAll]. rewrite E. cbn [bind]. apply IH; auto.
Qed.

Lemma agg_inv_empty : forall P, agg_inv P [] agg_empty.
Proof.
  intro P. exists []. split; [apply topk_nil|]. split; [constructor|].
  split; [intros ? []|]. split; [intros ? []|].
  intros k _ _. cbn. auto.
Qed.

(** The result limit. *)
Definition eff (limit resultLimit : N) : N :=
  if resultLimit =? 0 then limit else N.min limit resultLimit.

Lemma AggResult_spec : forall P s,
  aResultLimit P < M63 ->
  AggResult P s = Ok (if aResultLimit P =? 0 then agList s
                      else firstn (N.to_nat (aResultLimit P)) (agList s)).
Proof.
  intros P s H. unfold AggResult.
  destruct (aResultLimit P =? 0) eqn:Z.
  - apply N.eqb_eq in Z. rewrite Z. reflexivity.
  - apply N.eqb_neq in Z.
    assert (E : i64_of_u64 (aResultLimit P) = Z.of_N (aResultLimit P)).
    { unfold i64_of_u64. apply i64_id. unfold is_i64, M63 in *. lia. }
    rewrite E. assert (0 <? aResultLimit P = true) as -> by (apply N.ltb_lt; lia).
    cbn [andb].
    destruct (Z.of_N (aResultLimit P) <? Z.of_N (blen (agList s)))%Z eqn:L.
    + apply Z.ltb_lt in L. assert (aResultLimit P <=? blen (agList s) = true) as ->
        by (apply N.leb_le; lia). reflexivity.
    + apply Z.ltb_ge in L. rewrite firstn_all2; auto. unfold blen in L. lia.
Qed.

Lemma merge_inv : forall G P xs,
  plain P -> aLimit P < M32 -> 1 <= aLimit P -> aResultLimit P < M63 ->
  no_nan xs -> one_score xs -> Forall keyed xs ->
  (aHigher P = true \/ exists ks, (length ks <= N.to_nat (aLimit P))%nat /\
     forall y, In y xs -> In (skey y) ks) ->
  exists D out, Merge G P xs = Ok out /\
    NoDup (map skey D) /\ incl D xs /\ (forall x, In x xs -> In (skey x) (map skey D)) /\
    topk (beats (aHigher P)) (N.to_nat (eff (aLimit P) (aResultLimit P))) D out.
Proof.
  intros G P xs Pl Hn H1 HR NN OS KY Hh.
  destruct (agg_all G P Pl Hn H1 xs [] agg_empty) as (s & E & D & T & ND & ID & CD & _); auto.
  { apply agg_inv_empty. }
  exists D. unfold Merge. rewrite E. cbn [bind]. rewrite AggResult_spec by auto.
  eexists. split; [reflexivity|]. split; auto. split; auto. split; auto.
  unfold eff. destruct (aResultLimit P =? 0) eqn:Z; auto.
  apply N.eqb_neq in Z.
  destruct T as (rest & P1 & L & S & B).
  set (r := N.to_nat (aResultLimit P)) in *.
  rewrite <- (firstn_skipn r (agList s)) in P1, S, B.
  apply sorted_app_inv in S. destruct S as (S1 & S2 & S3).
  exists (skipn r (agList s) ++ rest). rewrite app_assoc. split; auto.
  split; [rewrite firstn_length; unfold r; lia|]. split; auto.
  intros x y Hx Hy. apply in_app_or in Hy. destruct Hy as [Hy|Hy]; [apply S3; auto|].
  apply B; auto. apply in_or_app. auto.
Qed.

Lemma one_score_same : forall xs, one_score xs ->
  forall x y, In x xs -> In y xs -> skey x = skey y -> sScore x = sScore y.
Proof. intros xs H. exact H. Qed.

Lemma same_l : forall h x y z, good x -> good y -> good z ->
  sScore x = sScore y -> beats h x z = beats h y z.
Proof. intros. unfold beats. rewrite H2. reflexivity. Qed.
Lemma same_r : forall h x y z, good x -> good y -> good z ->
  sScore x = sScore y -> beats h z x = beats h z y.
Proof. intros. unfold beats. rewrite H2. reflexivity. Qed.

Lemma skey_dec : forall a b : option DatumKey, {a = b} + {a <> b}.
Proof. decide equality. apply DatumKey_eq_dec. Defined.

(** From the representatives to all results. *)
Lemma reps_distinct_topk : forall h k xs D out,
  no_nan xs -> one_score xs ->
  NoDup (map skey D) -> incl D xs -> (forall x, In x xs -> In (skey x) (map skey D)) ->
  topk (beats h) k D out -> distinct_topk (beats h) skey k xs out.
Proof.
  intros h k xs D out NN OS ND ID CD T.
  destruct (topk_distinct _ _ _ _ _ _ T ND) as (N1 & I & S & L & B).
  split; auto. split; [intros z Hz; auto|]. split; auto. split; auto.
  intros x Hx. destruct (in_map_iff skey D (skey x)) as [F _].
  destruct (F (CD x Hx)) as (y & Ey & Hy).
  destruct (B y Hy) as [Hk|[Hl Hb]].
  - left. rewrite <- Ey. auto.
  - right. split; auto. intros o Ho. unfold no_nan in NN. rewrite Forall_forall in NN.
    rewrite (same_l h x y o); auto; try (apply NN; auto).
Qed.

Lemma merge_distinct_topk : forall G P xs out,
  plain P -> aLimit P < M32 -> 1 <= aLimit P -> aResultLimit P < M63 ->
  no_nan xs -> one_score xs -> Forall keyed xs ->
  (aHigher P = true \/ exists ks, (length ks <= N.to_nat (aLimit P))%nat /\
     forall y, In y xs -> In (skey y) ks) ->
  Merge G P xs = Ok out ->
  distinct_topk (beats (aHigher P)) skey (N.to_nat (eff (aLimit P) (aResultLimit P))) xs out.
Proof.
  intros G P xs out Pl Hn H1 HR NN OS KY Hh E.
  destruct (merge_inv G P xs Pl Hn H1 HR NN OS KY Hh) as (D & o & E' & ND & ID & CD & T).
  rewrite E in E'. injection E' as <-. eapply reps_distinct_topk; eauto.
Qed.
