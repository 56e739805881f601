(** A complete search request does not crash the node. *)
From Verif.Base Require Import GoBase GoLemmas Assoc Float GoSort.
From Verif.Model Require Import Codec Store Data Vector Search Aggregator CallTree Json QueryCache SearchStream.
From Verif.Spec Require Import Wire StoreSpec TopK.
From Verif.Proof Require Import CodecTop TopKP SearchP AggP.
From Coq Require Import Lia Permutation.
Open Scope N_scope.

Lemma u32_le : forall n, u32 n <= n.
Proof. intro. unfold u32. apply N.mod_le. discriminate. Qed.

Lemma full_nonempty : forall A (l : list A) n, 1 <= n -> (u32 (blen l) <? n) = false -> l <> [].
Proof.
  intros A l n H E. apply N.ltb_ge in E. intros ->. unfold blen, u32 in E. cbn in E. lia.
Qed.

Lemma sort_in : forall (G : go_sort) A (less : A -> A -> bool) l x, In x (sort_run G less l) <-> In x l.
Proof.
  intros. split; apply Permutation_in; [symmetry|]; apply (sort_perm G).
Qed.

Lemma sort_nonempty : forall (G : go_sort) A (less : A -> A -> bool) l, l <> [] -> sort_run G less l <> [].
Proof.
  intros G A less l H E. pose proof (sort_perm G A less l) as P. rewrite E in P.
  apply Permutation_sym, Permutation_nil in P. auto.
Qed.

Lemma set_last_in : forall A (l : list A) x y, In y (set_last l x) -> y = x \/ In y l.
Proof.
  intros A l x y I. unfold set_last in I. apply in_app_or in I as [I|[<-|[]]]; auto. right.
  destruct l as [|a l]; [destruct I|].
  rewrite (@app_removelast_last A (a :: l) a) by discriminate. apply in_or_app. auto.
Qed.

Lemma collector_safe : forall G h n l sd, 1 <= n -> Forall keyed l -> keyed sd ->
  exists l', CollectorInsert G h n l sd = Ok l' /\ Forall keyed l'.
Proof.
  intros G h n l sd H F K. unfold CollectorInsert. destruct (u32 (blen l) <? n) eqn:E.
  - eexists. split; [reflexivity|]. apply Forall_forall. intros x I. apply sort_in in I.
    rewrite Forall_forall in F. apply in_app_or in I as [I|[<-|[]]]; auto.
  - pose proof (full_nonempty _ _ _ H E) as NE. destruct (last_elem_ok l NE) as [la ->]. cbn [bind].
    destruct (_ || _)%bool; [|eauto].
    eexists. split; [reflexivity|]. apply Forall_forall. intros x I. apply sort_in in I.
    rewrite Forall_forall in F. apply set_last_in in I as [->|I]; auto.
Qed.

Lemma kv_keyed : forall k v s, kv_ok k v -> keyed (mkScored s (kv k v)).
Proof. intros k v s (A & B & _). exists k. split; [reflexivity|]. auto. Qed.

Lemma search_safe : forall G ex score config q qv tick order m,
  1 <= scLimit config ->
  (forall b e, In (b, e) order -> exists k v, kv_ok k v /\ edatum e = kv k v) ->
  exists m' l, Search G ex score tick order m (Some (mkDatum (Some q) qv)) config = (m', Ok l) /\ Forall keyed l.
Proof.
  intros G ex score config q qv tick order m H1 Ho. unfold Search.
  assert (L : forall order m s, Forall keyed s ->
    (forall b e, In (b, e) order -> exists k v, kv_ok k v /\ edatum e = kv k v) ->
    exists m' l er, LoopDBMap tick
      (fun s e => (l <- s ;; search_entry G ex score config (Some (mkDatum (Some q) qv)) l e, None))
      order m (Ok s) = (m', Ok l, er) /\ Forall keyed l).
  { clear Ho order m. induction order as [|[b e] order IH]; intros m s F Ho; cbn [LoopDBMap]; [eauto|].
    assert (Ho' : forall b e, In (b, e) order -> exists k v, kv_ok k v /\ edatum e = kv k v)
      by (intros; eapply Ho; right; eauto).
    destruct (expired (tick b) e); [apply IH; auto|]. cbn [bind].
    destruct (Ho b e (or_introl eq_refl)) as (k & v & O & Ed).
    rewrite (search_entry_spec _ _ _ _ _ _ _ _ k v Ed).
    destruct (passes ex config (kv k v)); [|apply IH; auto].
    destruct (collector_safe G (scHigherIsBetter config) (scLimit config) s
                (mkScored (score (vec k) (vec q)) (kv k v))) as (l' & -> & F'); auto using kv_keyed. }
  destruct (L order m [] (Forall_nil _) Ho) as (m' & l & er & -> & F). eauto.
Qed.

(** * Aggregators *)
Definition ctx_ok (ctx : option SearchContext) : Prop :=
  match ctx with Some c => Forall (fun d => dkey d <> None) (ctxDatum c) | None => True end.

Lemma best_loop_safe : forall P fe ctx cur, Forall (fun d => dkey d <> None) ctx ->
  exists o, best_loop P fe ctx cur = Ok o.
Proof.
  induction ctx as [|d ctx IH]; intros cur F; cbn [best_loop]; [eauto|]. inversion F; subst.
  destruct d as [[k|] v]; [|cbn in *; congruence]. cbn [featureOf bind]. apply IH. auto.
Qed.

Lemma best_safe : forall P sd, ctx_ok (aContext P) -> keyed sd -> exists s, BestScore P sd = Ok s.
Proof.
  intros P sd C (k & K & _). unfold BestScore. destruct (aContext P) as [ctx|]; [|eauto].
  destruct (ctxDatum ctx) as [|d0 ds] eqn:Ec; [eauto|]. cbn in C. rewrite Ec in C.
  unfold skey in K. destruct (sDatum sd) as [dk dv]. cbn in K. subst dk. cbn [featureOf bind].
  destruct (best_loop_safe P (vec k) (d0 :: ds) (if ctxPrioritize ctx then None else Some (sScore sd)) C) as (o & ->).
  cbn [bind]. eauto.
Qed.

Lemma list_safe : forall G P l sd, 1 <= aLimit P -> Forall keyed l -> keyed sd ->
  exists l', InsertToList G P l sd = Ok l' /\ Forall keyed l' /\ l' <> [].
Proof.
  intros G P l sd H F K. unfold InsertToList. destruct (u32 (blen l) <? aLimit P) eqn:E.
  - eexists. split; [reflexivity|]. split.
    + apply Forall_forall. intros x I. apply sort_in in I.
      rewrite Forall_forall in F. apply in_app_or in I as [I|[<-|[]]]; auto.
    + apply sort_nonempty. destruct l; discriminate.
  - pose proof (full_nonempty _ _ _ H E) as NE. destruct (last_elem_ok l NE) as [la ->]. cbn [bind].
    destruct (IsNewScoredBetter _ _ _); [|eauto].
    eexists. split; [reflexivity|]. split.
    + apply Forall_forall. intros x I. apply sort_in in I.
      rewrite Forall_forall in F. apply set_last_in in I as [->|I]; auto.
    + apply sort_nonempty. unfold set_last. destruct (removelast l); discriminate.
Qed.

(** The state of an aggregator that has received something is not empty. *)
Definition agg_safe (s : aggState) : Prop :=
  Forall keyed (agList s) /\ (agSeen s <> [] -> agList s <> []).

Lemma rescore_keyed : forall sd s, keyed sd -> keyed (mkScored s (sDatum sd)).
Proof. intros sd s (k & A & B). exists k. auto. Qed.

Lemma insert_safe : forall G P s sd, 1 <= aLimit P -> ctx_ok (aContext P) -> agg_safe s -> keyed sd ->
  exists s', AggInsert G P s sd = Ok s' /\ agg_safe s' /\ agSeen s' <> [].
Proof.
  intros G P s sd H C [S1 S2] K. unfold AggInsert. destruct (best_safe P sd C K) as (sc & ->). cbn [bind].
  destruct (rescore_keyed sd sc K) as (k & Ek & Ok_ & Fk). cbn [sDatum].
  pose proof (keyed_bytes (mkScored sc (sDatum sd)) k Ek) as Kb. cbn [sDatum] in Kb. rewrite Kb by auto. cbn [bind].
  destruct (list_safe G P (agList s) (mkScored sc (sDatum sd)) H S1) as (l' & -> & F' & N').
  { exists k. auto. }
  cbn [bind]. destruct (mload (agSeen s) _) eqn:L.
  - destruct (IsNewScoredBetter _ _ _); eexists; (split; [reflexivity|]).
    + repeat split; cbn; auto; discriminate.
    + split; [split; auto|]. intro E. rewrite E in L. discriminate.
  - eexists. split; [reflexivity|]. repeat split; cbn; auto; discriminate.
Qed.

Lemma insert_all_safe : forall G P xs s, 1 <= aLimit P -> ctx_ok (aContext P) -> agg_safe s -> Forall keyed xs ->
  exists s', AggInsertAll G P s xs = Ok s' /\ agg_safe s'.
Proof.
  induction xs as [|x xs IH]; intros s H C S F; cbn [AggInsertAll]; [eauto|].
  inversion F; subst. destruct (insert_safe G P s x) as (s' & -> & S' & _); auto. cbn [bind]. auto.
Qed.

Lemma empty_safe : agg_safe agg_empty.
Proof. split; [constructor|]. cbn. congruence. Qed.

Lemma result_safe : forall P s, aResultLimit P < M63 -> agg_safe s ->
  exists out, AggResult P s = Ok out /\ Forall keyed out.
Proof.
  intros P s H [S1 _]. unfold AggResult.
  assert (E : i64_of_u64 (aResultLimit P) = Z.of_N (aResultLimit P)).
  { unfold i64_of_u64. apply i64_id. unfold is_i64, M63 in *. lia. }
  rewrite E. destruct (_ && _)%bool eqn:Q; [|eauto].
  apply andb_true_iff in Q. destruct Q as [_ Q]. apply Z.ltb_lt in Q.
  replace (aResultLimit P <=? blen (agList s)) with true by (symmetry; apply N.leb_le; lia).
  eexists. split; [reflexivity|]. apply Forall_forall. intros x I. rewrite Forall_forall in S1. apply S1.
  rewrite <- (firstn_skipn (N.to_nat (aResultLimit P)) (agList s)). apply in_or_app. auto.
Qed.

Lemma merge_safe : forall G P xs, 1 <= aLimit P -> aResultLimit P < M63 -> ctx_ok (aContext P) -> Forall keyed xs ->
  exists out, Merge G P xs = Ok out /\ Forall keyed out.
Proof.
  intros G P xs H R C F. unfold Merge.
  destruct (insert_all_safe G P xs agg_empty H C empty_safe F) as (s & -> & S). cbn [bind].
  apply result_safe; auto.
Qed.

Lemma group_insert_safe : forall G P xs gs, 1 <= aGroupLimit P -> ctx_ok (aContext P) -> Forall keyed xs ->
  (forall k s, In (k, s) gs -> agg_safe s /\ agSeen s <> []) ->
  exists gs', GroupInsertAll G P gs xs = Ok gs' /\ forall k s, In (k, s) gs' -> agg_safe s /\ agSeen s <> [].
Proof.
  induction xs as [|x xs IH]; intros gs H C F I; cbn [GroupInsertAll]; [eauto|].
  inversion F as [|? ? Kx Fx]; subst. unfold GroupInsert.
  destruct (best_safe P x C Kx) as (sc & ->). cbn [bind].
  destruct Kx as (k & Ek & Kk). unfold skey in Ek. cbn [sDatum]. rewrite Ek.
  set (s0 := match mload gs _ with Some s => s | None => agg_empty end).
  assert (S0 : agg_safe s0).
  { unfold s0. destruct (mload gs _) eqn:L; [|apply empty_safe]. apply mload_in in L. apply (I _ _ L). }
  destruct (insert_safe G (groupParams P) s0 (mkScored sc (sDatum x))) as (s' & -> & S' & N'); auto.
  { cbn. auto. } { exists k. auto. }
  cbn [bind]. apply IH; auto. intros k1 s1 I1. unfold mstore in I1. destruct I1 as [E|I1].
  - injection E as <- <-. auto.
  - apply mdelete_incl in I1. eauto.
Qed.

Lemma ones_safe : forall G P order s, 1 <= aLimit P -> ctx_ok (aContext P) -> agg_safe s ->
  (forall k g, In (k, g) order -> agg_safe g /\ agSeen g <> []) ->
  exists s', insert_ones G P s order = Ok s' /\ agg_safe s'.
Proof.
  induction order as [|[k g] order IH]; intros s H C S I; cbn [insert_ones]; [eauto|].
  destruct (I k g (or_introl eq_refl)) as [[G1 G2] G3]. specialize (G2 G3).
  assert (O : exists sd, One (groupParams P) g = Some sd /\ keyed sd).
  { unfold One. destruct (agList g) as [|x l] eqn:Eg; [congruence|]. rewrite <- Eg.
    inversion G1 as [|? ? K1 K2]; subst.
    destruct (aHigher (groupParams P)); eexists; (split; [reflexivity|]); apply rescore_keyed; auto. }
  destruct O as (sd & -> & Ks).
  destruct (insert_safe G P s sd) as (s' & -> & S' & _); auto. cbn [bind].
  apply IH; auto. intros. eapply I. right. eauto.
Qed.

Lemma multi_safe : forall G P ord xs, 1 <= aLimit P -> aResultLimit P < M63 -> ctx_ok (aContext P) ->
  (forall gs p, In p (ord gs) -> In p gs) -> Forall keyed xs ->
  exists out, MultiMerge G P ord xs = Ok out /\ Forall keyed out.
Proof.
  intros G P ord xs H R C Or F. unfold MultiMerge. destruct (0 <? aGroupLimit P) eqn:Q; [|apply merge_safe; auto].
  apply N.ltb_lt in Q. unfold GroupMerge.
  destruct (group_insert_safe G P xs []) as (gs & -> & I); auto; try lia.
  { intros ? ? []. }
  cbn [bind]. unfold GroupResult.
  destruct (ones_safe G P (ord gs) agg_empty H C empty_safe) as (s & -> & S).
  { intros k g Ig. apply Or in Ig. eauto. }
  cbn [bind]. apply result_safe; auto.
Qed.

(** * The whole request *)
Definition env_ok (E : searchEnv) : Prop :=
  (forall d b e, In (b, e) (eOrder E d) -> exists k v, kv_ok k v /\ edatum e = kv k v) /\
  (forall d l, eAnnoy E d = Some l -> Forall keyed l) /\
  (forall d, Forall keyed (eRemote E d)) /\
  (forall l x, In x (eArrive E l) -> In x l) /\
  (forall gs p, In p (eGroups E gs) -> In p gs).

Definition datum_ok (d : Datum) : Prop := exists k, dkey d = Some k /\ key_ok k /\ key_fits k.

Lemma aggregated_safe : forall E c d, env_ok E -> datum_ok d -> 1 <= scLimit c -> scResultLimit c < M63 ->
  exists out, AggregatedSearch E c d = Ok out /\ Forall keyed out.
Proof.
  intros E c d (E1 & E2 & E3 & E4 & E5) (k & Ek & Ok_ & Fk) L R. unfold AggregatedSearch.
  unfold GetSearchKey, GetKeyAsBytes. rewrite Ek. rewrite MarshalKey_spec by auto. cbn [bind].
  assert (Loc : exists local, LocalResults E d c = Ok local /\ Forall keyed local).
  { unfold LocalResults. destruct d as [dk dv]. cbn in Ek. subst dk.
    destruct (search_safe (eSort E) (eExists E) (GetVectorComparisonFunction (eMath E) (scScoreFuncName c)) c k dv
                (eTick E (mkDatum (Some k) dv)) (eOrder E (mkDatum (Some k) dv)) (eStore E) L)
      as (m' & l & -> & F); [apply E1|]. cbn [snd].
    destruct (HasPrefix _ _); [|eauto]. destruct (eAnnoy E _) eqn:An; eauto. }
  destruct Loc as (local & -> & F). cbn [bind]. apply merge_safe; auto; [exact I|].
  apply Forall_forall. intros x Ix. apply E4 in Ix. apply in_app_or in Ix as [Ix|Ix].
  - rewrite Forall_forall in F. auto.
  - specialize (E3 d). rewrite Forall_forall in E3. auto.
Qed.

Lemma search_request_safe : forall E c ctx ds, env_ok E -> Forall datum_ok ds ->
  1 <= scLimit c -> scResultLimit c < M63 -> ctx_ok ctx ->
  exists out, MultiAggregatedSearch E c ctx ds = Ok out /\ Forall keyed out.
Proof.
  intros E c ctx ds EO F L R C. unfold MultiAggregatedSearch.
  assert (A : exists rs, AggregatedAll E c ds = Ok rs /\ Forall keyed rs).
  { induction F as [|d ds Hd F IH]; cbn [AggregatedAll]; [eauto|].
    destruct (aggregated_safe E c d EO Hd L R) as (r & -> & K). cbn [bind].
    destruct IH as (rs & -> & Ks). cbn [bind]. eexists. split; [reflexivity|]. apply Forall_app. auto. }
  destruct A as (rs & -> & K). cbn [bind]. destruct EO as (_ & _ & _ & E4 & E5). apply multi_safe; auto.
  apply Forall_forall. intros x Ix. apply E4 in Ix. rewrite Forall_forall in K. auto.
Qed.
