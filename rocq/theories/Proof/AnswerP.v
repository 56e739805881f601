(** Proofs about the answers to queries. *)
From Verif.Base Require Import GoBase GoLemmas Assoc Float GoSort.
From Verif.Model Require Import Codec Store Data Vector Search Aggregator CallTree Json QueryCache Annoy Answers.
From Verif.Spec Require Import Wire Text CacheSpec AnswerSpec.
From Verif.Proof Require Import QueryCacheP.
From Coq Require Import Lia Permutation.
Open Scope N_scope.

Section Answers.
Variables (G : go_sort) (M : mathlib) (ex : bytes -> bytes -> bool).

(** ** The local search *)

Lemma removelast_in : forall (l : list ScoredDatum) x, In x (removelast l) -> In x l.
Proof.
  induction l as [|a l IH]; intros x H; [destruct H|]. cbn [removelast] in H.
  destruct l as [|b l]; [destruct H|]. destruct H as [<-|H]; [left; reflexivity|right; auto].
Qed.

Lemma set_last_in : forall (l : list ScoredDatum) sd x, In x (set_last l sd) -> In x l \/ x = sd.
Proof.
  intros l sd x H. unfold set_last in H. apply in_app_iff in H.
  destruct H as [H|[<-|[]]]; auto. left. apply removelast_in. exact H.
Qed.

Lemma sort_in : forall less (l : list ScoredDatum) x, In x (sort_run G less l) <-> In x l.
Proof.
  intros less l x. split; apply Permutation_in; [|apply Permutation_sym]; apply Permutation_sym, sort_perm.
Qed.

Lemma collector_in : forall h n l sd l', CollectorInsert G h n l sd = Ok l' ->
  forall x, In x l' -> In x l \/ x = sd.
Proof.
  intros h n l sd l' H x Hx. unfold CollectorInsert in H.
  destruct (_ <? n).
  - injection H as <-. apply sort_in in Hx. apply in_app_iff in Hx. destruct Hx as [Hx|[<-|[]]]; auto.
  - destruct (last_elem l) as [la| |]; cbn [bind] in H; try discriminate H.
    destruct (_ || _)%bool; injection H as <-; auto. apply sort_in in Hx. apply set_last_in. exact Hx.
Qed.

Lemma filters_match : forall c d, PassesFilters ex (scFilters c) (scGroupFilters c) d = Ok true -> matches ex c d.
Proof.
  intros c d H. unfold PassesFilters in H.
  assert (AE : forall l fs, all_exist ex l fs = true -> forall f, In f fs -> ex l f = true).
  { intros l fs. induction fs as [|f0 fs IH]; cbn; intros A f [].
    - subst. destruct (ex l f); auto; discriminate A.
    - apply IH; auto. destruct (ex l f0); auto; discriminate A. }
  assert (GF : scGroupFilters c = [] \/
    exists k, dkey d = Some k /\ forall f, In f (scGroupFilters c) -> ex (groupLabel k) f = true).
  { destruct (scGroupFilters c) as [|f fs] eqn:E; [left; reflexivity|right].
    destruct (dkey d) as [k|]; [|discriminate H]. exists k. split; [reflexivity|].
    cbn [bind] in H. destruct (all_exist ex (groupLabel k) (f :: fs)) eqn:A; [|discriminate H].
    apply AE. exact A. }
  split; [exact GF|].
  match type of H with bind ?g _ = _ => destruct g as [[|]| |] end; cbn [bind] in H; try discriminate H.
  destruct (scFilters c) as [|f fs] eqn:E; [left; reflexivity|right].
  destruct (dvalue d) as [v|]; [|discriminate H]. exists v. split; [reflexivity|].
  injection H as H. apply AE. exact H.
Qed.

Definition local_ok (L : look) (d : Datum) (c : SearchConfig) (x : ScoredDatum) : Prop :=
  (found_in L (sDatum x) \/ (HasPrefix (scScoreFuncName c) (bs "Annoy") = true /\ listed_in L (sDatum x))) /\
  matches ex c (sDatum x) /\ exists k, dkey d = Some k /\ scores M c (sDatum x) k (sScore x).

Lemma featureOf_some : forall d f, featureOf (Some d) = Ok f -> exists k, dkey d = Some k /\ f = vec k.
Proof. intros [[k|] v] f H; cbn in H; [|discriminate H]. injection H as <-. exists k. auto. Qed.

Lemma search_sound : forall L d c l,
  snd (Search G ex (GetVectorComparisonFunction M (scScoreFuncName c)) (lTick L) (lOrder L) (lStore L) (Some d) c) = Ok l ->
  forall x, In x l -> local_ok L d c x.
Proof.
  intros L d c l H. unfold Search in H.
  destruct (LoopDBMap _ _ _ _ _) as [[m' s] er] eqn:E. cbn [snd] in H. subst s.
  assert (GEN : forall order m s m' er, incl order (lOrder L) ->
    LoopDBMap (lTick L)
      (fun s e => (l <- s ;; search_entry G ex (GetVectorComparisonFunction M (scScoreFuncName c)) c (Some d) l e, None))
      order m s = (m', Ok l, er) ->
    (forall l0, s = Ok l0 -> forall x, In x l0 -> local_ok L d c x) ->
    forall x, In x l -> local_ok L d c x).
  { clear. induction order as [|[b e] order IH]; intros m s m' er IN R P x Hx; cbn in R.
    - injection R as _ -> _. eapply P; eauto.
    - assert (IN' : incl order (lOrder L)) by (intros y Hy; apply IN; right; exact Hy).
      destruct (expired (lTick L b) e) eqn:X; [eapply IH; eauto|].
      eapply IH; [exact IN'|exact R| |exact Hx]. intros l1 E y Hy.
      destruct s as [l0| |]; cbn [bind] in E; try discriminate E.
      unfold search_entry in E.
      destruct (PassesFilters ex (scFilters c) (scGroupFilters c) (edatum e)) as [p| |] eqn:F; cbn [bind] in E; try discriminate E.
      destruct p; [|injection E as <-; eapply P; eauto].
      destruct (featureOf (Some (edatum e))) as [fe| |] eqn:FE; cbn [bind] in E; try discriminate E.
      destruct (featureOf (Some d)) as [fq| |] eqn:FQ; cbn [bind] in E; try discriminate E.
      apply featureOf_some in FE, FQ. destruct FE as (ke & KE & ->), FQ as (kq & KQ & ->).
      destruct (collector_in _ _ _ _ _ E y Hy) as [Y| ->]; [eapply P; eauto|].
      split; [|split].
      + left. exists b, e. split; [apply IN; left; reflexivity|]. auto.
      + apply filters_match. exact F.
      + exists kq. split; [exact KQ|]. exists ke. split; [exact KE|]. left. reflexivity. }
  eapply GEN; [apply incl_refl|exact E|]. intros l0 E0 x Hx. injection E0 as <-. destruct Hx.
Qed.

Lemma collect_sound : forall L d c a kq, lIndex L = Some a -> dkey d = Some kq ->
  HasPrefix (scScoreFuncName c) (bs "Annoy") = true ->
  forall ids n l,
  annoy_collect ex (GetVectorComparisonFunction M (scScoreFuncName c)) c (vec kq) (yFrom a) ids n = Ok l ->
  forall x, In x l -> local_ok L d c x.
Proof.
  intros L d c a kq LI KQ HP. induction ids as [|i ids IH]; intros n l H x Hx; cbn [annoy_collect] in H.
  - injection H as <-. destruct Hx.
  - destruct (nth_error (yFrom a) i) as [[d0|]|] eqn:NE; [| |discriminate H]; [|eapply IH; eauto].
    destruct (PassesFilters ex (scFilters c) (scGroupFilters c) d0) as [p| |] eqn:F; cbn [bind] in H; try discriminate H.
    destruct p; [|eapply IH; eauto].
    destruct (featureOf (Some d0)) as [fe| |] eqn:FE; cbn [bind] in H; try discriminate H.
    apply featureOf_some in FE. destruct FE as (ke & KE & ->).
    match type of H with bind ?g _ = _ => destruct g as [rest| |] eqn:R end; cbn [bind] in H; try discriminate H.
    injection H as <-. destruct Hx as [<-|Hx].
    + split; [|split].
      * right. split; [exact HP|]. exists a. split; [exact LI|]. cbn. eapply nth_error_In. exact NE.
      * apply filters_match. exact F.
      * exists kq. split; [exact KQ|]. exists ke. split; [exact KE|]. right. auto.
    + destruct (_ <=? _); [injection R as <-; destruct Hx|]. eapply IH; eauto.
Qed.

Lemma stream_sound : forall L d c l, StreamSearch G M ex L d c = Ok l -> forall x, In x l -> local_ok L d c x.
Proof.
  intros L d c l H. unfold StreamSearch in H.
  destruct (HasPrefix (scScoreFuncName c) (bs "Annoy")) eqn:HP; [|apply search_sound; exact H].
  unfold SearchAnnoy in H. destruct (lIndex L) as [a|] eqn:LI; [|apply search_sound; exact H].
  destruct (Nat.ltb 0 (length (yFrom a))); [|apply search_sound; exact H].
  cbn [snd] in H. destruct (featureOf (Some d)) as [fq| |] eqn:FQ; cbn [bind] in H; try discriminate H.
  apply featureOf_some in FQ. destruct FQ as (kq & KQ & ->).
  destruct (GetNns _ _ _ _ _ _ _) as [ids| |]; cbn [bind] in H; try discriminate H.
  eapply collect_sound; eauto.
Qed.

(** ** The merges *)

(** x is y with the score that the aggregator gives it. *)
Definition rescore (P : aggParams) (y x : ScoredDatum) : Prop :=
  sDatum x = sDatum y /\ BestScore P y = Ok (sScore x).

Lemma list_in : forall P l sd l', InsertToList G P l sd = Ok l' -> forall x, In x l' -> In x l \/ x = sd.
Proof.
  intros P l sd l' H x Hx. unfold InsertToList in H.
  destruct (_ <? _).
  - injection H as <-. apply sort_in in Hx. apply in_app_iff in Hx. destruct Hx as [Hx|[<-|[]]]; auto.
  - destruct (last_elem l) as [la| |]; cbn [bind] in H; try discriminate H.
    destruct (IsNewScoredBetter _ _ _); injection H as <-; auto. apply sort_in in Hx. apply set_last_in. exact Hx.
Qed.

Lemma agg_in : forall P s y s', AggInsert G P s y = Ok s' ->
  forall x, In x (agList s') -> In x (agList s) \/ rescore P y x.
Proof.
  intros P s y s' H x Hx. unfold AggInsert in H.
  destruct (BestScore P y) as [sc| |] eqn:B; cbn [bind] in H; try discriminate H.
  destruct (GetKeyAsBytes _) as [kb| |]; cbn [bind] in H; try discriminate H.
  assert (ADD : (l <- InsertToList G P (agList s) (mkScored sc (sDatum y)) ;;
     Ok (mkAggState l (mstore (agSeen s) (EncodeToString kb) sc))) = Ok s' -> In x (agList s) \/ rescore P y x).
  { intro A. destruct (InsertToList _ _ _ _) as [l| |] eqn:IL; cbn [bind] in A; try discriminate A.
    injection A as <-. cbn [agList] in Hx. destruct (list_in _ _ _ _ IL x Hx) as [Y| ->]; auto.
    right. split; [reflexivity|]. exact B. }
  cbn [sScore] in H. destruct (mload _ _) as [p|]; [|apply ADD; exact H].
  destruct (IsNewScoredBetter _ _ _); [apply ADD; exact H|]. injection H as <-. auto.
Qed.

Lemma agg_all_in : forall P ys s s', AggInsertAll G P s ys = Ok s' ->
  forall x, In x (agList s') -> In x (agList s) \/ exists y, In y ys /\ rescore P y x.
Proof.
  intros P. induction ys as [|y ys IH]; intros s s' H x Hx; cbn in H.
  - injection H as <-. auto.
  - destruct (AggInsert G P s y) as [s1| |] eqn:A; cbn [bind] in H; try discriminate H.
    destruct (IH _ _ H x Hx) as [X|(z & Z1 & Z2)]; [|right; exists z; split; [right|]; auto].
    destruct (agg_in _ _ _ _ A x X) as [X'|X']; [auto|]. right. exists y. split; [left; reflexivity|exact X'].
Qed.

Lemma result_in : forall P s out, AggResult P s = Ok out -> forall x, In x out -> In x (agList s).
Proof.
  intros P s out H x Hx. unfold AggResult in H.
  destruct (_ && _)%bool; [destruct (_ <=? _); [|discriminate H]|]; injection H as <-; auto.
  rewrite <- (firstn_skipn (N.to_nat (aResultLimit P)) (agList s)). apply in_or_app. auto.
Qed.

Lemma merge_in : forall P ys out, Merge G P ys = Ok out -> forall x, In x out -> exists y, In y ys /\ rescore P y x.
Proof.
  intros P ys out H x Hx. unfold Merge in H.
  destruct (AggInsertAll G P agg_empty ys) as [s| |] eqn:A; cbn [bind] in H; try discriminate H.
  destruct (agg_all_in _ _ _ _ A x (result_in _ _ _ H x Hx)) as [[]|X]. exact X.
Qed.

Definition from (ys : list ScoredDatum) (s : aggState) : Prop :=
  forall x, In x (agList s) -> exists y, In y ys /\ sDatum y = sDatum x.

Lemma group_in : forall P ys0 ys gs gs', incl ys ys0 -> GroupInsertAll G P gs ys = Ok gs' ->
  (forall b s, In (b, s) gs -> from ys0 s) -> forall b s, In (b, s) gs' -> from ys0 s.
Proof.
  intros P ys0. induction ys as [|y ys IH]; intros gs gs' IN H F b s Hb; cbn in H.
  - injection H as <-. eapply F; eauto.
  - destruct (GroupInsert G P gs y) as [g1| |] eqn:A; cbn [bind] in H; try discriminate H.
    eapply IH; [|exact H| |exact Hb]; [intros z Hz; apply IN; right; exact Hz|].
    clear IH H Hb b s. intros b s Hb. unfold GroupInsert in A.
    destruct (BestScore P y) as [sc| |] eqn:B; cbn [bind] in A; try discriminate A.
    cbn [sDatum] in A. destruct (dkey (sDatum y)) as [k|]; [|discriminate A].
    set (ks := EncodeToString (groupLabel k)) in *.
    set (s0 := match mload gs ks with Some s => s | None => agg_empty end) in *.
    destruct (AggInsert G (groupParams P) s0 (mkScored sc (sDatum y))) as [s1| |] eqn:AI;
      cbn [bind] in A; try discriminate A.
    injection A as <-.
    assert (F0 : from ys0 s0).
    { unfold s0. destruct (mload gs ks) as [sx|] eqn:L; [|intros x []]. apply mload_in in L. eapply F; eauto. }
    assert (F1 : from ys0 s1).
    { intros x Hx. destruct (agg_in _ _ _ _ AI x Hx) as [X|(X & _)]; [auto|].
      exists y. split; [apply IN; left; reflexivity|]. cbn in X. auto. }
    destruct Hb as [Hb|Hb]; [injection Hb as <- <-; exact F1|].
    assert (DI : forall g, In (b, s) (mdelete g ks) -> In (b, s) g).
    { clear. induction g as [|[b0 s2] g IH]; cbn; [auto|]. destruct (bytes_eqb b0 ks); [auto|].
      intros [Q|Q]; auto. }
    eapply F. apply DI. exact Hb.
Qed.

Lemma ones_in : forall P ys order s s', (forall b g, In (b, g) order -> from ys g) -> from ys s ->
  insert_ones G P s order = Ok s' -> from ys s'.
Proof.
  intros P ys. induction order as [|[b g] order IH]; intros s s' F FS H; cbn in H.
  - injection H as <-. exact FS.
  - destruct (One (groupParams P) g) as [sd|] eqn:O; [|discriminate H].
    destruct (AggInsert G P s sd) as [s1| |] eqn:A; cbn [bind] in H; try discriminate H.
    eapply IH; [|  |exact H]; [intros b' g' Hb; eapply F; right; exact Hb|].
    intros x Hx. destruct (agg_in _ _ _ _ A x Hx) as [X|(X & _)]; [auto|]. rewrite X.
    unfold One in O. destruct (agList g) as [|x0 l] eqn:GL; [discriminate O|].
    destruct (F b g (or_introl eq_refl) x0) as (y & Y1 & Y2); [rewrite GL; left; reflexivity|].
    exists y. split; [exact Y1|]. destruct (aHigher _); injection O as <-; cbn; exact Y2.
Qed.

Lemma groupmerge_in : forall P ord ys out, (forall gs, Permutation (ord gs) gs) -> GroupMerge G P ord ys = Ok out ->
  forall x, In x out -> exists y, In y ys /\ sDatum y = sDatum x.
Proof.
  intros P ord ys out PO H x Hx. unfold GroupMerge in H.
  destruct (GroupInsertAll G P [] ys) as [gs| |] eqn:GI; cbn [bind] in H; try discriminate H.
  unfold GroupResult in H.
  destruct (insert_ones G P agg_empty (ord gs)) as [s| |] eqn:O; cbn [bind] in H; try discriminate H.
  assert (F : forall b g, In (b, g) (ord gs) -> from ys g).
  { intros b g Hb. eapply group_in; [apply incl_refl|exact GI|intros b' s' []|].
    eapply Permutation_in; [apply PO|exact Hb]. }
  refine (ones_in P ys (ord gs) agg_empty s F _ O x (result_in _ _ _ H x Hx)). intros z [].
Qed.

Lemma best_from : forall P y s, BestScore P y = Ok s ->
  ((match aContext P with Some t => ctxPrioritize t && negb (match ctxDatum t with [] => true | _ => false end) | None => false end) = false
     /\ s = sScore y) \/
  exists t d ky k, aContext P = Some t /\ In d (ctxDatum t) /\ dkey (sDatum y) = Some ky /\ dkey d = Some k /\
    s = aScore P (vec ky) (vec k).
Proof.
  intros P y s H. unfold BestScore in H. destruct (aContext P) as [t|]; [|injection H as <-; auto].
  destruct (ctxDatum t) as [|d0 ds] eqn:E; [injection H as <-; left; rewrite andb_false_r; auto|].
  cbn [negb]. rewrite andb_true_r.
  destruct (featureOf (Some (sDatum y))) as [fe| |] eqn:FE; cbn [bind] in H; try discriminate H.
  apply featureOf_some in FE. destruct FE as (ky & KY & ->).
  assert (NEQ : ctxDatum t <> []) by (rewrite E; discriminate). rewrite <- E in *. clear E.
  assert (GEN : forall l cur r, incl l (ctxDatum t) -> best_loop P (vec ky) l cur = Ok r ->
    (r = cur /\ (l = [] \/ cur <> None)) \/
    exists d k, In d (ctxDatum t) /\ dkey d = Some k /\ r = Some (aScore P (vec ky) (vec k))).
  { clear - KY. induction l as [|d l IH]; intros cur r IN B; cbn in B; [injection B as <-; auto|].
    destruct d as [[k|] v]; cbn [featureOf bind] in B; [|discriminate B].
    assert (IN' : incl l (ctxDatum t)) by (intros z Hz; apply IN; right; exact Hz).
    assert (IK : In (mkDatum (Some k) v) (ctxDatum t)) by (apply IN; left; reflexivity).
    destruct (IH _ _ IN' B) as [(-> & _)|X]; [|right; exact X].
    destruct cur as [c|]; [destruct (IsNewScoredBetter _ _ _); [|left; split; [reflexivity|right; discriminate]]|];
      right; exists (mkDatum (Some k) v), k; auto. }
  destruct (best_loop _ _ _ _) as [r| |] eqn:B; cbn [bind] in H; try discriminate H.
  injection H as <-. destruct (GEN _ _ _ (incl_refl _) B) as [(-> & Q)|(d & k & D & K & ->)].
  - destruct (ctxPrioritize t); [|left; auto].
    exfalso. destruct Q as [Q|Q]; [exact (NEQ Q)|congruence].
  - right. exists t, d, ky, k. auto.
Qed.

(** ** The cluster *)

Variable looks : nat -> look -> Prop.

Definition good_one (d : Datum) (c : SearchConfig) (x : ScoredDatum) : Prop :=
  real looks c (sDatum x) /\ matches ex c (sDatum x) /\
  (scGroupLimit c = 0 -> exists k, dkey d = Some k /\ scores M c (sDatum x) k (sScore x)).

Definition good_all (ds : list Datum) (c : SearchConfig) (ctx : option SearchContext) (x : ScoredDatum) : Prop :=
  real looks c (sDatum x) /\ matches ex c (sDatum x) /\
  (scGroupLimit c = 0 -> justified M c ctx ds x).

Lemma retimed_good : forall d c c' x, retimed c c' -> good_one d c' x -> good_one d c x.
Proof. intros d c c' x (t & u & ->) H. exact H. Qed.

Lemma retimed_all : forall ds c c' ctx x, retimed c c' -> good_all ds c' ctx x -> good_all ds c ctx x.
Proof. intros ds c c' ctx x (t & u & ->) H. exact H. Qed.

Lemma same_good : forall k v v' c c' x, same_config c' c ->
  good_one (mkDatum (Some k) v') c' x -> good_one (mkDatum (Some k) v) c x.
Proof.
  intros k v v' c c' x (E1 & _ & _ & _ & _ & _ & _ & E2 & _ & E3 & _ & E4) (A & B & C).
  unfold good_one, real, matches, scores in *. cbn [dkey] in *. rewrite <- E1, <- E2, <- E3, <- E4. auto.
Qed.

Lemma arrives_in : forall sent got x, arrives sent got -> In x got -> In x sent.
Proof.
  intros sent got x (lost & P) H. eapply Permutation_in; [exact P|]. apply in_or_app. auto.
Qed.

Lemma plain_rescore : forall c y x, rescore (aggOf M c None) y x -> y = x.
Proof. intros c [s d] [s' d'] (A & B). cbn in *. injection B as ->. subst. reflexivity. Qed.

Lemma justified_plain : forall c d x, justified M c None [d] x ->
  exists k, dkey d = Some k /\ scores M c (sDatum x) k (sScore x).
Proof.
  intros c d x [(_ & d0 & k & [<-|[]] & K & S)|(t & _ & _ & Q & _)]; [eauto|discriminate Q].
Qed.

Scheme one_ind' := Induction for one Sort Prop
  with ones_ind' := Induction for ones Sort Prop
  with many_ind' := Induction for many Sort Prop
  with answered_ind' := Induction for answered Sort Prop.
Combined Scheme answers_ind from one_ind', ones_ind', many_ind', answered_ind'.

Theorem answers_good :
  (forall i d c r, one G M ex looks i d c r -> forall x, In x r -> good_one d c x) /\
  (forall i ds c rs, ones G M ex looks i ds c rs -> forall x, In x (concat rs) -> exists d, In d ds /\ good_one d c x) /\
  (forall d c l, many G M ex looks d c l -> forall x, In x (concat l) -> good_one d c x) /\
  (forall i ds c ctx out, answered G M ex looks i ds c ctx out -> forall x, In x out -> good_all ds c ctx x).
Proof.
  apply (answers_ind G M ex looks
    (fun i d c r _ => forall x, In x r -> good_one d c x)
    (fun i ds c rs _ => forall x, In x (concat rs) -> exists d, In d ds /\ good_one d c x)
    (fun d c l _ => forall x, In x (concat l) -> good_one d c x)
    (fun i ds c ctx out _ => forall x, In x out -> good_all ds c ctx x)).
  - intros i L d c local answers got r LK SS _ IH AR MG x Hx.
    destruct (merge_in _ _ _ MG x Hx) as (y & Y & R). apply plain_rescore in R. subst y.
    apply (arrives_in _ _ _ AR) in Y. apply in_app_iff in Y. destruct Y as [Y|Y]; [|apply IH; exact Y].
    destruct (stream_sound _ _ _ _ SS x Y) as (A & B & C). split; [|split; auto].
    exists i, L. auto.
  - intros i k v k' v' c c' b r _ IH Q Q' _ K' K x Hx.
    pose proof Q as (A1 & A2 & A3). pose proof Q' as (B1 & B2 & B3).
    rewrite search_key in K, K' by auto. injection K' as <-. injection K as K.
    apply query_key_inj in K; auto. destruct K as [<- S]. eapply same_good; [|apply IH; exact Hx].
    first [exact S|apply same_config_sym; exact S].
  - intros i c x [].
  - intros i d ds c c' r rs RT _ IH1 _ IH2 x Hx. cbn in Hx. apply in_app_iff in Hx. destruct Hx as [Hx|Hx].
    + exists d. split; [left; reflexivity|]. eapply retimed_good; eauto.
    + destruct (IH2 x Hx) as (d' & D & Y). exists d'. split; [right; exact D|exact Y].
  - intros d c x [].
  - intros j d c c' a l RT _ IH1 _ IH2 x Hx. cbn in Hx. apply in_app_iff in Hx. destruct Hx as [Hx|Hx]; [|auto].
    destruct (retimed_all _ _ _ _ _ RT (IH1 x Hx)) as (A & B & C). split; [exact A|]. split; [exact B|].
    intro GL. apply justified_plain. auto.
  - intros i ds c ctx rs got ord out _ IH AR PO MM x Hx. unfold MultiMerge in MM.
    destruct (0 <? aGroupLimit (aggOf M c ctx)) eqn:GL.
    + destruct (groupmerge_in _ _ _ _ PO MM x Hx) as (y & Y & E). apply (arrives_in _ _ _ AR) in Y.
      destruct (IH y Y) as (d & D & A & B & _). unfold good_all. rewrite <- E. split; [exact A|]. split; [exact B|].
      intro Z. cbn in GL. rewrite Z in GL. discriminate GL.
    + destruct (merge_in _ _ _ MM x Hx) as (y & Y & E & BS). apply (arrives_in _ _ _ AR) in Y.
      destruct (IH y Y) as (d & D & A & B & C). unfold good_all. rewrite E. split; [exact A|]. split; [exact B|].
      intro Z. specialize (C Z). destruct C as (k & K & S).
      unfold justified. rewrite E. apply best_from in BS. cbn [aggOf aContext aScore] in BS.
      destruct BS as [(PR & ->)|(t & d0 & ky & k0 & T & D0 & KY & K0 & ->)].
      * left. split; [exact PR|]. exists d, k. auto.
      * right. exists t, d0, k0. split; [exact T|]. split; [exact D0|]. split; [exact K0|].
        exists ky. split; [exact KY|]. left. reflexivity.
Qed.
End Answers.
