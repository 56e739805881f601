(** Local search is exact. *)
From Verif.Base Require Import GoBase GoLemmas Assoc Float GoSort.
From Verif.Model Require Import Codec Store Data Vector Search.
From Verif.Spec Require Import Wire StoreSpec TopK.
From Verif.Proof Require Import FloatP TopKP CodecTop StoreP StoreQ.
Open Scope N_scope.

Lemma less_beats : forall h a b, less_score h a b = beats h a b.
Proof. reflexivity. Qed.

Definition good (x : ScoredDatum) : Prop := is_nan (sScore x) = false.

Lemma beats_swo : forall h, swo (beats h) good.
Proof.
  intro h. unfold good. constructor; unfold beats; intros; destruct h.
  - apply SFltb_irr.
  - apply SFltb_irr.
  - eapply SFltb_trans; eauto.
  - eapply SFltb_trans; eauto.
  - eapply SFltb_neg; [| | |eauto|eauto]; auto.
  - eapply SFltb_neg; [| | |eauto|eauto]; auto.
Qed.

(** One step of the collector. *)
Lemma collector_step : forall G h n l input sd,
  n < M32 -> 1 <= n -> no_nan (sd :: input) ->
  topk (beats h) (N.to_nat n) input l ->
  exists l', CollectorInsert G h n l sd = Ok l' /\ topk (beats h) (N.to_nat n) (sd :: input) l'.
Proof.
  intros G h n l input sd Hn H1 NN T. inversion NN as [|? ? Gs Gi]; subst.
  assert (Ll : (length l <= N.to_nat n)%nat) by (destruct T as (r & _ & L & _); lia).
  assert (Eu : u32 (blen l) = blen l).
  { unfold u32. apply N.mod_small. unfold blen, M32 in *. lia. }
  unfold CollectorInsert. rewrite Eu.
  destruct (blen l <? n) eqn:E.
  - apply N.ltb_lt in E. eexists. split; [reflexivity|].
    apply (topk_append _ G good (beats_swo h)); auto. unfold blen in E. lia.
  - apply N.ltb_ge in E.
    assert (l <> []) by (intros ->; unfold blen in E; cbn in E; lia).
    destruct (last_elem_ok l H) as [la Hla]. rewrite Hla. cbn [bind].
    assert (HE : (h && fgtb (sScore sd) (sScore la) || negb h && fltb (sScore sd) (sScore la))%bool
               = beats h sd la).
    { unfold beats, fgtb, fltb. destruct h; cbn; auto. apply orb_false_r. }
    rewrite HE. destruct (beats h sd la) eqn:B.
    + eexists. split; [reflexivity|].
      apply (topk_replace _ G good (beats_swo h) _ input l sd la); auto.
      unfold blen in E. lia.
    + eexists. split; [reflexivity|].
      apply (topk_skip _ good (beats_swo h) _ input l sd la); auto.
      unfold blen in E. lia.
Qed.

(** The filters. *)
Lemma all_exist_forallb : forall ex l fs, all_exist ex l fs = forallb (ex l) fs.
Proof. induction fs as [|f fs IH]; cbn; auto. destruct (ex l f); cbn; auto. Qed.

Lemma PassesFilters_spec : forall ex config k v,
  PassesFilters ex (scFilters config) (scGroupFilters config) (kv k v)
  = Ok (passes ex config (kv k v)).
Proof.
  intros. unfold PassesFilters, passes, kv. cbn [dkey dvalue].
  rewrite !all_exist_forallb.
  destruct (scGroupFilters config) as [|g gs]; cbn [bind forallb andb].
  - destruct (scFilters config); reflexivity.
  - destruct (ex (groupLabel k) g && forallb (ex (groupLabel k)) gs)%bool; cbn [andb];
    [destruct (scFilters config); reflexivity|reflexivity].
Qed.

(** The whole scan: the collector ends with the k best candidates. *)
Lemma candidates_cons : forall ex score config q tick b e m k v,
  edatum e = kv k v ->
  candidates ex score config q tick ((b, e) :: m) =
  (if negb (expired (tick b) e) && passes ex config (kv k v)
   then [mkScored (score (vec k) (vec q)) (kv k v)] else [])
  ++ candidates ex score config q tick m.
Proof.
  intros. unfold candidates. cbn [flat_map]. f_equal. rewrite H. unfold kv.
  assert (E : ((exprireAt e =? 0) || (tick b <? exprireAt e))%Z%bool = negb (expired (tick b) e)).
  { unfold expired. rewrite negb_andb, negb_involutive. f_equal.
    rewrite Z.leb_antisym, negb_involutive. reflexivity. }
  rewrite E. reflexivity.
Qed.

Lemma perm_flat_map : forall A B (f : A -> list B) l l',
  Permutation l l' -> Permutation (flat_map f l) (flat_map f l').
Proof.
  intros A B f l l' P. induction P; cbn.
  - constructor.
  - apply Permutation_app_head. auto.
  - rewrite !app_assoc. apply Permutation_app_tail. apply Permutation_app_comm.
  - etransitivity; eauto.
Qed.

Lemma search_entry_spec : forall G ex score config q qv s e k v, edatum e = kv k v ->
  search_entry G ex score config (Some (mkDatum (Some q) qv)) s e =
  if passes ex config (kv k v)
  then CollectorInsert G (scHigherIsBetter config) (scLimit config) s
         (mkScored (score (vec k) (vec q)) (kv k v))
  else Ok s.
Proof.
  intros. unfold search_entry. rewrite H, PassesFilters_spec. cbn [bind].
  destruct (passes ex config (kv k v)); reflexivity.
Qed.

Lemma search_loop : forall G ex score config q qv tick,
  scLimit config < M32 -> 1 <= scLimit config ->
  forall order m s input,
  (forall b e, In (b, e) order -> exists k v, edatum e = kv k v) ->
  no_nan (candidates ex score config q tick order) -> no_nan input ->
  topk (beats (scHigherIsBetter config)) (N.to_nat (scLimit config)) input s ->
  exists m' l,
    LoopDBMap tick
      (fun s e => (l <- s ;; search_entry G ex score config (Some (mkDatum (Some q) qv)) l e, None))
      order m (Ok s) = (m', Ok l, None) /\
    topk (beats (scHigherIsBetter config)) (N.to_nat (scLimit config))
      (candidates ex score config q tick order ++ input) l.
Proof.
  intros G ex score config q qv tick Hn H1. induction order as [|[b e] order IH];
    intros m s input Hs NN NI T.
  - cbn. eauto.
  - destruct (Hs b e (or_introl eq_refl)) as (k & v & Ed).
    rewrite (candidates_cons _ _ _ _ _ _ _ _ k v Ed) in *.
    assert (Hs' : forall b e, In (b, e) order -> exists k v, edatum e = kv k v)
      by (intros; eapply Hs; right; eauto).
    apply Forall_app in NN. destruct NN as [N1 N2].
    cbn [LoopDBMap].
    destruct (expired (tick b) e) eqn:X; cbn [negb andb] in *.
    + cbn [app]. apply IH; auto.
    + cbn [bind]. rewrite (search_entry_spec _ _ _ _ _ _ _ _ k v Ed).
      destruct (passes ex config (kv k v)) eqn:PF.
      * destruct (collector_step G (scHigherIsBetter config) (scLimit config) s input
                    (mkScored (score (vec k) (vec q)) (kv k v))) as (l' & E & T'); auto.
        { inversion N1; subst. constructor; auto. }
        rewrite E.
        destruct (IH m l' (mkScored (score (vec k) (vec q)) (kv k v) :: input)) as (m' & l & E2 & T2); auto.
        { inversion N1; subst. constructor; auto. }
        exists m', l. split; auto.
        eapply topk_perm; [|exact T2]. cbn [app].
        rewrite <- Permutation_middle. reflexivity.
      * cbn [app]. destruct (IH m s input) as (m' & l & E2 & T2); auto.
Qed.

Lemma candidates_perm : forall ex score config q tick m m',
  Permutation m m' ->
  Permutation (candidates ex score config q tick m) (candidates ex score config q tick m').
Proof. intros. apply perm_flat_map. auto. Qed.

Lemma search_exact : forall G ex score config q qv tick order m,
  scLimit config < M32 -> 1 <= scLimit config ->
  store_wf m -> Permutation order m ->
  no_nan (candidates ex score config q tick m) ->
  exists m' l,
    Search G ex score tick order m (Some (mkDatum (Some q) qv)) config = (m', Ok l) /\
    topk (beats (scHigherIsBetter config)) (N.to_nat (scLimit config))
      (candidates ex score config q tick m) l.
Proof.
  intros G ex score config q qv tick order m Hn H1 [W F] P NN.
  destruct (search_loop G ex score config q qv tick Hn H1 order m [] []) as (m' & l & E & T).
  - intros b e Hin. eapply Permutation_in in Hin; [|exact P].
    destruct (F b e Hin) as (k & v & _ & _ & Ed). eauto.
  - eapply Permutation_Forall; [|exact NN]. apply candidates_perm. symmetry. auto.
  - constructor.
  - apply topk_nil.
  - exists m', l. split.
    + unfold Search. rewrite E. reflexivity.
    + eapply topk_perm; [|exact T]. rewrite app_nil_r. apply candidates_perm. auto.
Qed.

(** Every candidate is a live stored datum that passes, and keys are distinct. *)
Lemma candidates_in : forall ex score config q tick m x,
  In x (candidates ex score config q tick m) <->
  exists b e k v, In (b, e) m /\ edatum e = mkDatum (Some k) v /\
    (exprireAt e = 0 \/ tick b < exprireAt e)%Z /\
    passes ex config (edatum e) = true /\
    x = mkScored (score (vec k) (vec q)) (edatum e).
Proof.
  intros. unfold candidates. rewrite in_flat_map. split.
  - intros ([b e] & Hin & H). destruct (edatum e) as [[k|] v] eqn:Ed; [|destruct H].
    destruct (((exprireAt e =? 0) || (tick b <? exprireAt e))%Z &&
              passes ex config (mkDatum (Some k) v))%bool eqn:C; [|destruct H].
    destruct H as [<-|[]]. apply andb_true_iff in C. destruct C as [C1 C2].
    exists b, e, k, v. rewrite Ed. repeat split; auto.
    apply orb_true_iff in C1. lia.
  - intros (b & e & k & v & Hin & Ed & X & PF & ->). exists (b, e). split; auto.
    rewrite Ed in *. rewrite PF.
    assert (E : ((exprireAt e =? 0) || (tick b <? exprireAt e))%Z%bool = true)
      by (apply orb_true_iff; lia).
    rewrite E. cbn. auto.
Qed.

Lemma candidates_distinct : forall ex score config q tick m,
  store_wf m -> NoDup (map skey (candidates ex score config q tick m)).
Proof.
  intros ex score config q tick m [W F]. unfold mwf, mkeys in W.
  induction m as [|[b e] m IH]; [constructor|].
  inversion W as [|? ? W1 W2]; subst.
  destruct (F b e (or_introl eq_refl)) as (k & v & Hkv & Eb & Ed).
  rewrite (candidates_cons _ _ _ _ _ _ _ _ k v Ed). rewrite map_app.
  assert (IH' : NoDup (map skey (candidates ex score config q tick m))).
  { apply IH; auto. intros. apply F. right. auto. }
  destruct (negb (expired (tick b) e) && passes ex config (kv k v))%bool; cbn [map app]; auto.
  constructor; auto. intro C. apply in_map_iff in C. destruct C as (x & Ex & Hx).
  apply candidates_in in Hx. destruct Hx as (b' & e' & k' & v' & Hin & Ed' & _ & _ & ->).
  cbn [skey sDatum] in Ex.
  destruct (F b' e' (or_intror Hin)) as (k2 & v2 & Hkv2 & Eb2 & Ed2).
  unfold skey in Ex. cbn [sDatum] in Ex. rewrite Ed2 in Ex. cbn in Ex. injection Ex as ->.
  apply W1. subst b b'. apply (in_map fst) in Hin. exact Hin.
Qed.

(** Every history of calls produces a well-formed store. *)
Lemma history_store_wf : forall t0 h t1 m, (10 <= t0)%Z -> history t0 h t1 ->
  run_calls [] h = Ok m -> store_wf m.
Proof.
  intros t0 h t1 m H10 Hh R. destruct (history_inv t0 h t1 H10 Hh) as (m' & R' & W & F & _).
  rewrite R in R'. injection R' as <-. split; auto.
  intros b e Hin. rewrite Forall_forall in F. destruct (F _ Hin) as (k & v & A & B & C & _).
  exists k, v. auto.
Qed.
