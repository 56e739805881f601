(** Property C133: where the sources of a dataset come from. *)
From Verif.Base Require Import GoBase GoLemmas GoSort Assoc Float.
From Verif.Model Require Import Codec Store Data Insert Dataset Node Gossip.
From Verif.Spec Require Import NodeSpec GossipSpec OriginSpec.
From Verif.Proof Require Import NodeP GossipP.
From Verif.Props Require Import GossipProps.
From Coq Require Import Lia.
Open Scope N_scope.

Section Pure.
Variable G : go_sort.
Variable inc : Z -> Z -> Z -> Z.
Variable route : nat -> bytes -> option nat.
Variable Q : Peer -> Prop.
Hypothesis Qsort : forall p, Q p -> Q (sort_peer G p).

(** All records about satisfy Q; every source is named in such a record. *)
Definition pure (w : gworld) : Prop :=
  (forall m, In m (gMail w) -> Q (mPeer m)) /\
  forall i,
    (forall x, In x (nPeers (gState (gNodes w i))) -> Q (piPeer (snd x))) /\
    (forall all rest, In (all, rest) (gSyncs (gNodes w i)) -> Forall Q all /\ Forall Q rest) /\
    (forall name a, In (name, a) (gSources (gNodes w i)) ->
       exists p, Q p /\ In name (map cName (pDataList p)) /\ In a (pAddressList p)).

Lemma pure_change : forall w i g post, pure w ->
  (forall m, In m post -> Q (mPeer m)) ->
  (forall x, In x (nPeers (gState g)) -> Q (piPeer (snd x))) ->
  (forall all rest, In (all, rest) (gSyncs g) -> Forall Q all /\ Forall Q rest) ->
  (forall name a, In (name, a) (gSources g) ->
       exists p, Q p /\ In name (map cName (pDataList p)) /\ In a (pAddressList p)) ->
  pure (mkGW (gNodes (set_g w i g)) post).
Proof.
  intros w i g post [IM IN] P1 P2 P3 P4. split; [exact P1|]. intro j. cbn [gNodes].
  destruct (Nat.eq_dec j i) as [->|NE]; [rewrite set_g_same; auto|rewrite set_g_other by auto; apply IN].
Qed.

Lemma pure_step : forall w e w', pure w -> any_order e ->
  (forall i a now sv cf, e = GJoin i a now sv cf -> Q (GetNodeInfo now (gState (gNodes w i)) sv cf)) ->
  gstep G inc route w e = Some w' -> pure w'.
Proof.
  intros w e w' I AO J H. pose proof I as [IM IN].
  destruct e as [i a now sv cf|k t1 t2|i a|i now ord|i k now|i now|i name a|i]; cbn [gstep] in H.
  - injection H as <-. split; [|exact IN]. intros m H. cbn [gMail] in H. apply in_app_iff in H.
    destruct H as [H|[<-|[]]]; [auto|]. cbn [mPeer]. apply (J i a now sv cf eq_refl).
  - destruct (nth_error (gMail w) k) as [m|] eqn:E; [|discriminate H].
    destruct (route (mFrom m) (mTo m)) as [j|] eqn:R; [|discriminate H].
    destruct (AddPeerElement G inc t1 t2 (gState (gNodes w j)) (Some (mPeer m))) as [n| |] eqn:AD; try discriminate H.
    injection H as <-. destruct (IN j) as (I3 & I4 & I5). apply pure_change; auto. cbn [gState].
    destruct (add_cases G inc _ _ _ _ _ AD) as [->|(q & EQ & _ & _ & _ & ->)]; [exact I3|].
    injection EQ as <-. cbn. intros x [<-|X]; [apply Qsort, IM; eapply nth_error_In; exact E|].
    apply mdelete_incl in X. auto.
  - injection H as <-. destruct (IN i) as (I3 & I4 & I5). apply pure_change; auto. cbn [gState].
    destruct (learn_own (gState (gNodes w i)) a) as (_ & _ & L3 & _). rewrite L3. exact I3.
  - injection H as <-. destruct (IN i) as (I3 & I4 & I5). apply pure_change; auto. cbn [gSyncs].
    intros all rest X. apply in_app_iff in X. destruct X as [X|[X|[]]]; [apply I4; exact X|]. injection X as <- <-.
    assert (F : Forall Q (ord (peer_items now (gState (gNodes w i))))).
    { rewrite Forall_forall. intros p X. apply (Permutation_in p (Permutation_sym (AO _))) in X.
      unfold peer_items in X. apply in_map_iff in X. destruct X as (y & <- & Y). apply filter_In in Y. apply I3. tauto. }
    auto.
  - destruct (nth_error (gSyncs (gNodes w i)) k) as [[all [|p rest]]|] eqn:E; try discriminate H.
    destruct (visit G now (gState (gNodes w i)) all p) as [n acts] eqn:V.
    destruct (perform i (gSources (gNodes w i)) (gMail w) acts) as [src post] eqn:PF.
    destruct (list_set (gSyncs (gNodes w i)) k (all, rest)) as [syncs|] eqn:LS; [|discriminate H].
    injection H as <-. destruct (IN i) as (I3 & I4 & I5).
    destruct (visit_cases _ _ _ _ _ _ _ V) as [-> VA].
    destruct (perform_in _ _ _ _ _ _ PF) as [PS (new & -> & PN)].
    pose proof (nth_error_In _ _ E) as INS. destruct (I4 _ _ INS) as [F1 F2].
    apply pure_change; auto; cbn [gState gSyncs gSources].
    + intros m H. apply in_app_iff in H. destruct H as [H|H]; [auto|].
      apply PN in H. destruct H as (a & q & -> & H). apply VA in H.
      destruct H as (a' & _ & _ & _ & [(s & X & _)|[(q' & X & Y & _)|(c & X & _)]]); try discriminate X.
      injection X as -> ->. cbn [mPeer]. rewrite Forall_forall in F1. auto.
    + intros x X. apply I3. unfold CheckPeer in X. destruct (isPeerSimilarToNode G _ _); [exact X|].
      destruct (IsRecent now (pTimestamp p)); [exact X|]. cbn in X. apply mdelete_incl in X. exact X.
    + intros al re X. destruct (list_set_in _ _ _ _ _ _ LS X) as [Y|Y].
      * injection Y as -> ->. inversion F2; auto.
      * apply I4. exact Y.
    + intros name a X. apply PS in X. destruct X as [X|(c & a' & X & Y)]; [auto|].
      injection X as -> ->. apply VA in Y. destruct Y as (a'' & NE & _ & DA & [(s & Y & _)|[(q' & Y & _)|(c' & Y & Z)]]); try discriminate Y.
      injection Y as -> ->. destruct (fd_split _ _ _ DA NE) as (u & v & EQ & _).
      exists p. split; [inversion F2; auto|]. split; [apply in_map; exact Z|].
      rewrite EQ. apply in_or_app. right. left. reflexivity.
  - injection H as <-. destruct (IN i) as (I3 & I4 & I5). apply pure_change; auto. cbn [gState purge set_peers nPeers].
    intros x X. apply filter_In in X. apply I3. tauto.
  - injection H as <-. destruct (IN i) as (I3 & I4 & I5). apply pure_change; auto. cbn [gSources].
    intros n' a' X. apply filter_In in X. apply I5. tauto.
  - injection H as <-. apply pure_change; auto; cbn [gState gSyncs gSources nPeers]; intros; contradiction.
Qed.
End Pure.

Lemma grun_app : forall G inc route a b w, grun G inc route w (a ++ b) =
  match grun G inc route w a with Some w1 => grun G inc route w1 b | None => None end.
Proof.
  intros G inc route. induction a as [|e a IH]; intros b w; [reflexivity|]. cbn [app grun].
  destruct (gstep G inc route w e) as [w1|]; [apply IH|reflexivity].
Qed.

(** C133.  In a cluster that starts with nothing known, a node has a source for a dataset
    only if some node announced, in a join request and with that address, that it holds
    the dataset: whatever joins, deliveries (repeated, late, lost), synchronisations,
    expiries and restarts happened. *)
Theorem C133_origin : forall G inc route w es w' i name a,
  blank w -> Forall any_order es -> grun G inc route w es = Some w' ->
  In (name, a) (gSources (gNodes w' i)) -> announced G inc route w es name a.
Proof.
  intros G inc route w es w' i name a B AO R S.
  set (Q := fun p => forall n x, In n (map cName (pDataList p)) -> In x (pAddressList p) -> announced G inc route w es n x).
  assert (QS : forall p, Q p -> Q (sort_peer G p)).
  { intros p H n x D X. destruct (sort_peer_same G p) as (_ & _ & P & E). apply H.
    - revert D. destruct E as [_ E]. rewrite E. auto.
    - exact (Permutation_in x P X). }
  assert (P0 : pure Q w).
  { destruct B as [B1 B2]. split; [rewrite B1; intros m []|]. intro j. destruct (B2 j) as (_ & E1 & E2 & E3).
    rewrite E1, E2, E3. repeat split; intros; contradiction. }
  assert (GEN : forall todo done w1, es = done ++ todo -> grun G inc route w done = Some w1 -> pure Q w1 ->
    grun G inc route w1 todo = Some w' -> pure Q w').
  { induction todo as [|e todo IH]; intros done w1 E R1 P1 R2; cbn in R2; [injection R2 as <-; exact P1|].
    destruct (gstep G inc route w1 e) as [w2|] eqn:ST; [|discriminate R2].
    apply (IH (done ++ [e]) w2); auto.
    - rewrite <- app_assoc. exact E.
    - rewrite grun_app, R1. cbn. rewrite ST. reflexivity.
    - eapply (pure_step G inc route Q QS w1 e w2); auto.
      + rewrite Forall_forall in AO. apply AO. rewrite E. apply in_or_app. right. left. reflexivity.
      + intros j t now sv cf -> n x D X. cbn [GetNodeInfo pDataList pAddressList] in D, X.
        exists done, j, t, now, sv, cf, todo, w1. split; [exact E|]. split; [exact R1|]. split; [exact D|].
        cbv zeta. apply unique_mem. exact X. }
  destruct (GEN es [] w eq_refl eq_refl P0 R) as [_ P']. destruct (P' i) as (_ & _ & P5).
  destruct (P5 _ _ S) as (p & Qp & D & X). exact (Qp _ _ D X).
Qed.
Print Assumptions C133_origin.

(** And it stays a source until it expires or the node starts again. *)
Theorem C133_stays : forall G inc route es w w' i name a,
  grun G inc route w es = Some w' -> Forall (leaves i name a) es ->
  In (name, a) (gSources (gNodes w i)) -> In (name, a) (gSources (gNodes w' i)).
Proof.
  intros G inc route. induction es as [|e es IH]; intros w w' i name a R F S; cbn in R; [injection R as <-; exact S|].
  destruct (gstep G inc route w e) as [w1|] eqn:H; [|discriminate R]. inversion F as [|? ? F1 F2]; subst.
  apply (IH w1 w' i name a R F2). clear IH R F F2.
  assert (K : forall j g, (j = i -> incl (gSources (gNodes w i)) (gSources g)) -> In (name, a) (gSources (gNodes (set_g w j g) i))).
  { intros j g C. destruct (Nat.eq_dec i j) as [->|NE]; [rewrite set_g_same; apply C; auto|rewrite set_g_other by auto; exact S]. }
  destruct e as [j t now sv cf|k t1 t2|j t|j now ord|j k now|j now|j n t|j]; cbn [gstep] in H.
  - injection H as <-. exact S.
  - destruct (nth_error (gMail w) k) as [m|]; [|discriminate H].
    destruct (route (mFrom m) (mTo m)) as [j|]; [|discriminate H].
    destruct (AddPeerElement G inc t1 t2 (gState (gNodes w j)) (Some (mPeer m))) as [n| |]; try discriminate H.
    injection H as <-. apply K. intros ->. apply incl_refl.
  - injection H as <-. apply K. intros ->. apply incl_refl.
  - injection H as <-. apply K. intros ->. apply incl_refl.
  - destruct (nth_error (gSyncs (gNodes w j)) k) as [[all [|p rest]]|]; try discriminate H.
    destruct (visit G now (gState (gNodes w j)) all p) as [n acts].
    destruct (perform j (gSources (gNodes w j)) (gMail w) acts) as [src post] eqn:PF.
    destruct (list_set (gSyncs (gNodes w j)) k (all, rest)) as [syncs|]; [|discriminate H].
    injection H as <-. cbn [gNodes]. apply K. intros -> x X. cbn [gSources].
    destruct (perform_in _ _ _ _ _ _ PF) as [PS _]. apply PS. auto.
  - injection H as <-. apply K. intros ->. apply incl_refl.
  - injection H as <-. cbn in F1. destruct (Nat.eq_dec i j) as [<-|NE]; [|rewrite set_g_other by auto; exact S].
    rewrite set_g_same. cbn [gSources]. apply filter_In. split; [exact S|]. cbn [fst snd].
    destruct (bytes_eqb name n) eqn:B1; [|reflexivity]. destruct (bytes_eqb a t) eqn:B2; [|reflexivity].
    apply bytes_eqb_spec in B1, B2. subst. contradiction F1. auto.
  - injection H as <-. cbn in F1. rewrite set_g_other by auto. exact S.
Qed.
Print Assumptions C133_stays.

(** Node 1 has the two addresses of node 0 as sources of "d", which node 0 announced;
    it keeps the one when the other expires, while things go on. *)
Definition goes_on : list gev :=
  [GPurge 1 (gsec 1003); GForget 1 (bs "d") (bs "a:80"); GRestart 0; GJoin 0 (bs "b:80") (gsec 1004) [] [];
   GDeliver 2 (gsec 1004) (gsec 1004); GForget 0 (bs "d") (bs "10.0.0.1:80")].
Example C133_instance :
  blank world2 /\ Forall any_order learns /\
  Forall (leaves 1 (bs "d") (bs "10.0.0.1:80")) goes_on /\
  match grun insertion_sort ginc route2 world2 learns with
  | Some w => In (bs "d", bs "10.0.0.1:80") (gSources (gNodes w 1)) /\
      match grun insertion_sort ginc route2 w goes_on with
      | Some w' => gSources (gNodes w' 1) = [(bs "d", bs "10.0.0.1:80")]
      | None => False
      end
  | None => False
  end.
Proof.
  split; [apply world2_ok|]. split; [repeat constructor; cbn; auto|].
  split; [|vm_compute; auto]. repeat constructor; cbn; try discriminate; intros (E1 & E2 & E3); discriminate.
Qed.
