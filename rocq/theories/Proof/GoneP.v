(** Proofs about a node that is gone. *)
From Verif.Base Require Import GoBase GoLemmas GoSort Assoc Float.
From Verif.Model Require Import Codec Store Data Insert Dataset Node Gossip.
From Verif.Spec Require Import NodeSpec GossipSpec GoneSpec.
From Verif.Proof Require Import SyncP NodeP GossipP SpreadP.
From Coq Require Import Lia.
Open Scope Z_scope.

Lemma recent_spec : forall now ts S, clock now -> 0 <= S -> S + 300 < 18446744073709551616 -> Z.of_N ts <= S ->
  IsRecent now ts = true -> now < (S + 300) * 1000000000.
Proof.
  intros now ts S [C1 C2] H0 H1 H2 H. unfold IsRecent in H. apply N.ltb_lt in H.
  unfold getCurrentTime, u64, M64 in H.
  assert (Q : 0 <= now / 1000000000 < 18446744073709551616).
  { split; [apply Z.div_pos; lia|]. apply Z.div_lt_upper_bound; lia. }
  rewrite Z.mod_small in H by exact Q. rewrite N.mod_small in H by lia.
  assert (now / 1000000000 < S + 300) by lia.
  destruct (Z.lt_ge_cases now ((S + 300) * 1000000000)) as [L|L]; [exact L|].
  apply (Z.div_le_mono _ _ 1000000000) in L; [|lia]. rewrite Z.div_mul in L by lia. lia.
Qed.

Lemma recent_not : forall now ts S, clock now -> 0 <= S -> S + 300 < 18446744073709551616 -> Z.of_N ts <= S ->
  (S + 300) * 1000000000 <= now -> IsRecent now ts = false.
Proof.
  intros now ts S C H0 H1 H2 H. destruct (IsRecent now ts) eqn:E; [|reflexivity].
  pose proof (recent_spec now ts S C H0 H1 H2 E). lia.
Qed.

Section Gone.
Variables (G : go_sort) (inc : Z -> Z -> Z -> Z) (route : nat -> bytes -> option nat).
Variables (X : list bytes) (S : Z).
Hypothesis INC : postpones inc.
Hypothesis S0 : 0 <= S.
Hypothesis S1 : S + 300 < 18446744073709551616.

Definition aged (p : Peer) : Prop := about X p -> Z.of_N (pTimestamp p) <= S.

Definition Anode (g : gnode) : Prop :=
  mwf (nPeers (gState g)) /\
  (forall id it, mload (nPeers (gState g)) id = Some it ->
     id = GetIdOfPeer G (Some (piPeer it)) /\
     aged (piPeer it) /\ (about X (piPeer it) -> 0 < piExpires it < (S + 1200) * 1000000000)) /\
  (forall all rest, In (all, rest) (gSyncs g) -> Forall aged all /\ Forall aged rest).
Definition A (w : gworld) : Prop :=
  (forall m, In m (gMail w) -> aged (mPeer m)) /\ forall i, Anode (gNodes w i).

Lemma aged_sort : forall p, aged p -> aged (sort_peer G p).
Proof.
  intros p H I. destruct (sort_peer_same G p) as (_ & E & P & _). rewrite E. apply H.
  unfold about in *. eapply perm_trans; [apply Permutation_sym; exact P|exact I].
Qed.

Lemma about_sort : forall p, about X (sort_peer G p) -> about X p.
Proof.
  intros p I. destruct (sort_peer_same G p) as (_ & E & P & _).
  unfold about in *. eapply perm_trans; [apply Permutation_sym; exact P|exact I].
Qed.

Lemma A_change : forall w i g, A w -> Anode g -> A (set_g w i g).
Proof.
  intros w i g [M N] H. split; [exact M|]. intro j. destruct (Nat.eq_dec j i) as [->|NE].
  - rewrite set_g_same. exact H.
  - rewrite set_g_other by auto. apply N.
Qed.

Lemma A_step : forall w e w', A w -> hushed X S w e -> gstep G inc route w e = Some w' -> A w'.
Proof.
  intros w e w' I OK H. pose proof I as [IM IN].
  destruct e as [i a now sv cf|k t1 t2|i a|i now ord|i k now|i now|i name a|i]; cbn [gstep] in H; cbn [hushed] in OK.
  - injection H as <-. split; [|exact IN]. intros m Y. cbn [gMail] in Y. apply in_app_iff in Y.
    destruct Y as [Y|[<-|[]]]; [auto|]. destruct OK as [[C1 C2] OK]. intro AB. cbn [mPeer GetNodeInfo pTimestamp].
    unfold getCurrentTime. rewrite Z2N.id by (apply Z.mod_pos_bound; lia).
    rewrite Z.mod_small; [apply OK; exact AB|].
    split; [apply Z.div_pos; lia|]. apply Z.div_lt_upper_bound; lia.
  - destruct (nth_error (gMail w) k) as [m|] eqn:E; [|discriminate H].
    destruct (route (mFrom m) (mTo m)) as [j|] eqn:R; [|discriminate H].
    destruct (AddPeerElement G inc t1 t2 (gState (gNodes w j)) (Some (mPeer m))) as [n| |] eqn:AD; try discriminate H.
    injection H as <-. apply A_change; auto. destruct (IN j) as (I1 & I2 & I3).
    apply nth_error_In in E. specialize (IM _ E).
    destruct (add_cases G inc _ _ _ _ _ AD) as [->|(q & EQ & RC & _ & _ & ->)].
    { exact (conj I1 (conj I2 I3)). }
    injection EQ as <-. split; [apply mstore_wf; exact I1|]. split; [|exact I3].
    cbn [gState set_peers nPeers]. intros id it Y. rewrite mload_mstore in Y.
    destruct (bytes_eqb (GetIdOfPeer G (Some (mPeer m))) id) eqn:B; [|auto].
    apply bytes_eqb_spec in B. injection Y as <-. cbn [piPeer piExpires].
    split; [rewrite id_sort; auto|]. split; [apply aged_sort; exact IM|].
    intro AB. apply about_sort in AB. specialize (IM AB).
    pose proof (recent_spec _ _ _ OK S0 S1 IM RC) as T. destruct OK as [C1 C2].
    pose proof (INC t2 600000000000 (t2 + 300000000000)) as Q. lia.
  - injection H as <-. apply A_change; auto. destruct (IN i) as (I1 & I2 & I3).
    destruct (learn_own (gState (gNodes w i)) a) as (_ & _ & E & _).
    unfold Anode. cbn [gState gSyncs]. rewrite E. exact (conj I1 (conj I2 I3)).
  - injection H as <-. apply A_change; auto. destruct (IN i) as (I1 & I2 & I3).
    refine (conj I1 (conj I2 _)). cbn [gSyncs]. intros all rest Y.
    apply in_app_iff in Y. destruct Y as [Y|[Y|[]]]; [auto|]. injection Y as <- <-.
    assert (F : Forall aged (ord (peer_items now (gState (gNodes w i))))).
    { rewrite Forall_forall. intros p Y. apply (Permutation_in p (Permutation_sym (OK _))) in Y.
      unfold peer_items in Y. apply in_map_iff in Y. destruct Y as ([id it] & <- & Y). apply filter_In in Y.
      destruct Y as [Y _]. apply (in_mload _ _ _ I1) in Y. destruct (I2 _ _ Y) as (_ & Z1 & _). exact Z1. }
    auto.
  - destruct (nth_error (gSyncs (gNodes w i)) k) as [[all [|p rest]]|] eqn:E; try discriminate H.
    destruct (visit G now (gState (gNodes w i)) all p) as [n acts] eqn:V.
    destruct (perform i (gSources (gNodes w i)) (gMail w) acts) as [src post] eqn:PF.
    destruct (list_set (gSyncs (gNodes w i)) k (all, rest)) as [syncs|] eqn:LS; [|discriminate H].
    injection H as <-. destruct (IN i) as (I1 & I2 & I3).
    destruct (visit_cases G _ _ _ _ _ _ V) as [-> VA].
    destruct (check_peers G now _ p I1) as (W' & CP & _).
    destruct (perform_in _ _ _ _ _ _ PF) as [PS (new & -> & PN)].
    pose proof (nth_error_In _ _ E) as INS. destruct (I3 _ _ INS) as [F1 F2].
    set (n' := fst (CheckPeer G now (gState (gNodes w i)) p)) in *.
    assert (JN : Anode (mkG n' syncs src)).
    { split; [exact W'|]. split; [intros id it Y; apply (I2 id), CP, Y|].
      cbn [gSyncs]. intros al re Y. destruct (list_set_in _ _ _ _ _ _ LS Y) as [Z|Z]; [|auto].
      injection Z as -> ->. split; [exact F1|]. apply Forall_inv_tail in F2. exact F2. }
    destruct (A_change _ i _ I JN) as [_ JA]. split; [|exact JA].
    cbn [gMail]. intros m Y. apply in_app_iff in Y. destruct Y as [Y|Y]; [auto|].
    apply PN in Y. destruct Y as (a & q & -> & Y). apply VA in Y.
    destruct Y as (a' & _ & _ & _ & [(s & Y & _)|[(q' & Y & Z & _)|(c & Y & _)]]); try discriminate Y.
    injection Y as -> ->. cbn [mPeer]. rewrite Forall_forall in F1. apply F1. exact Z.
  - injection H as <-. apply A_change; auto. destruct (IN i) as (I1 & I2 & I3).
    refine (conj _ (conj _ I3)); cbn [gState purge set_peers nPeers].
    + apply mwf_filter. exact I1.
    + intros id it Y. apply mload_filter in Y; eauto.
  - injection H as <-. apply A_change; auto. destruct (IN i) as (I1 & I2 & I3). exact (conj I1 (conj I2 I3)).
  - injection H as <-. apply A_change; auto. cbn [gState nPeers gSyncs].
    split; [constructor|]. split; [intros id it Y; discriminate Y|intros all rest []].
Qed.

Lemma A_run : forall es w w', A w -> silent G inc route X S w es -> grun G inc route w es = Some w' -> A w'.
Proof.
  induction es as [|e es IH]; intros w w' I F H; cbn in H; [injection H as <-; exact I|].
  cbn [silent] in F. destruct F as [F1 F2].
  destruct (gstep G inc route w e) as [w1|] eqn:E; [|discriminate H].
  eapply IH; [eapply A_step; eauto|exact F2|exact H].
Qed.

Lemma A_blank : forall w, blank w -> A w.
Proof.
  intros w [BM BN]. split; [intros m Y; rewrite BM in Y; destruct Y|].
  intro i. destruct (BN i) as (_ & B2 & B3 & _). unfold Anode. rewrite B2, B3.
  split; [constructor|]. split; [intros id it Y; discriminate Y|intros all rest []].
Qed.

Lemma A_shown : forall w i now, A w -> (S + 1200) * 1000000000 <= now -> ~ shown X now w i.
Proof.
  intros w i now [_ I] T (id & it & IN & AB & LV). destruct (I i) as (I1 & I2 & _).
  apply (in_mload _ _ _ I1) in IN. destruct (I2 _ _ IN) as (_ & _ & B). specialize (B AB). lia.
Qed.
End Gone.

(** Where no addresses are learned and no node starts again, [silent] can be checked
    event by event. *)
Definition hushed0 (X : list bytes) (S : Z) (w : gworld) (e : gev) : Prop :=
  match e with GReply _ a => a = [] | GRestart _ => False | _ => hushed X S w e end.

Lemma step_ids : forall G inc route w e w', gstep G inc route w e = Some w' ->
  (match e with GReply _ a => a = [] | GRestart _ => False | _ => True end) ->
  forall j, nKnownIds (gState (gNodes w' j)) = nKnownIds (gState (gNodes w j)) /\
    nAdvertisedIds (gState (gNodes w' j)) = nAdvertisedIds (gState (gNodes w j)).
Proof.
  intros G inc route w e w' H OK j.
  destruct e as [i a now sv cf|k t1 t2|i a|i now ord|i k now|i now|i name a|i]; cbn [gstep] in H; try contradiction.
  - injection H as <-. auto.
  - destruct (nth_error (gMail w) k) as [m|]; [|discriminate H].
    destruct (route (mFrom m) (mTo m)) as [j'|]; [|discriminate H].
    destruct (AddPeerElement G inc t1 t2 (gState (gNodes w j')) (Some (mPeer m))) as [n| |] eqn:AD; try discriminate H.
    injection H as <-. cbn [set_g gNodes]. destruct (Nat.eqb_spec j j') as [->|]; [|auto].
    destruct (add_cases G inc _ _ _ _ _ AD) as [->|(q & _ & _ & _ & _ & ->)]; auto.
  - subst a. injection H as <-. cbn [set_g gNodes]. destruct (Nat.eqb_spec j i) as [->|]; auto.
  - injection H as <-. cbn [set_g gNodes]. destruct (Nat.eqb_spec j i) as [->|]; auto.
  - destruct (nth_error (gSyncs (gNodes w i)) k) as [[all [|p rest]]|]; try discriminate H.
    destruct (visit G now (gState (gNodes w i)) all p) as [n acts] eqn:V.
    destruct (perform i (gSources (gNodes w i)) (gMail w) acts) as [src post].
    destruct (list_set (gSyncs (gNodes w i)) k (all, rest)) as [syncs|]; [|discriminate H].
    injection H as <-. cbn [set_g gNodes]. destruct (Nat.eqb_spec j i) as [->|]; [|auto].
    destruct (visit_cases G _ _ _ _ _ _ V) as [-> _].
    destruct (check_ids G now (gState (gNodes w i)) p) as (C0 & C1 & _). auto.
  - injection H as <-. cbn [set_g gNodes]. destruct (Nat.eqb_spec j i) as [->|]; auto.
  - injection H as <-. cbn [set_g gNodes]. destruct (Nat.eqb_spec j i) as [->|]; auto.
Qed.

Lemma silent_static : forall G inc route X S w0 es w,
  (forall j, nKnownIds (gState (gNodes w j)) = nKnownIds (gState (gNodes w0 j)) /\
    nAdvertisedIds (gState (gNodes w j)) = nAdvertisedIds (gState (gNodes w0 j))) ->
  Forall (hushed0 X S w0) es -> silent G inc route X S w es.
Proof.
  intros G inc route X S w0. induction es as [|e es IH]; intros w SM F; cbn [silent]; [exact Logic.I|].
  inversion F as [|? ? F1 F2]; subst. split.
  - destruct e as [i a now sv cf|k t1 t2|i a|i now ord|i k now|i now|i name a|i]; cbn [hushed0 hushed] in *; auto.
    destruct F1 as [C F1]. split; [exact C|]. unfold goes_by in *. destruct (SM i) as [-> ->]. exact F1.
  - destruct (gstep G inc route w e) as [w1|] eqn:E; [|exact Logic.I]. apply IH; [|exact F2]. intro j.
    destruct (step_ids _ _ _ _ _ _ E) with (j := j) as [-> ->]; [|apply SM].
    destruct e; cbn [hushed0] in F1; auto.
Qed.
