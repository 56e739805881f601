(** Lemmas about clusters of nodes whose addresses do not change. *)
From Verif.Base Require Import GoBase GoLemmas GoSort Assoc Float.
From Verif.Model Require Import Codec Store Data Insert Dataset Node Gossip.
From Verif.Spec Require Import NodeSpec GossipSpec.
From Verif.Proof Require Import SyncP NodeP GossipP.
Open Scope N_scope.
Ltac Zify.zify_post_hook ::= Z.div_mod_to_equations.

Section F.
Variable G : go_sort.
Variable inc : Z -> Z -> Z -> Z.
Variable route : nat -> bytes -> option nat.

Section Fixed.
Variables A D : nat -> list bytes.
Variable T : N -> Prop.
Variable L : pitem -> Prop.
Variable S : Peer -> Prop.
Variable Q : nat -> bytes -> Prop.
Hypothesis S_sort : forall p, S (sort_peer G p).

Definition RJ (p : Peer) : Prop := (exists k, record_of A k p) /\ T (pTimestamp p).
Hypothesis Q_visit : forall i p a, RJ p -> S p -> FirstDifferent (A i) (pAddressList p) = a -> a <> [] -> Q i a.

Definition Jnode (i : nat) (g : gnode) : Prop :=
  own_addresses (gState g) = A i /\ nAdvertisedIds (gState g) = D i /\ mwf (nPeers (gState g)) /\
  (forall id it, mload (nPeers (gState g)) id = Some it ->
     RJ (piPeer it) /\ S (piPeer it) /\ L it /\ id = GetIdOfPeer G (Some (piPeer it))) /\
  (forall all rest, In (all, rest) (gSyncs g) ->
     Forall (fun p => RJ p /\ S p) all /\ Forall (fun p => RJ p /\ S p) rest) /\
  (forall name a, In (name, a) (gSources g) -> Q i a).
Definition J (w : gworld) : Prop :=
  (forall m, In m (gMail w) -> RJ (mPeer m)) /\ forall i, Jnode i (gNodes w i).

Definition ev_ok (e : gev) : Prop :=
  any_order e /\ no_reply e /\
  match e with
  | GJoin _ _ now _ _ => T (getCurrentTime now)
  | GDeliver _ _ t2 => forall p, L (mkPI p (inc t2 600000000000 (t2 + 300000000000)%Z))
  | GRestart i => unique (D i) = A i
  | _ => True
  end.

Lemma RJ_sort : forall p, RJ p -> RJ (sort_peer G p).
Proof.
  intros p [[k P] HT]. destruct (sort_peer_same G p) as (_ & E & P' & _). split; [|rewrite E; exact HT].
  exists k. unfold record_of in *. eapply perm_trans; eauto.
Qed.
Lemma id_sort : forall p, GetIdOfPeer G (Some (sort_peer G p)) = GetIdOfPeer G (Some p).
Proof. intro p. apply id_same. destruct (sort_peer_same G p) as (_ & _ & P & _). exact P. Qed.

Lemma J_change : forall w i g, J w -> Jnode i g -> J (set_g w i g).
Proof.
  intros w i g [M N] H. split; [exact M|]. intro j. destruct (Nat.eq_dec j i) as [->|NE].
  - rewrite set_g_same. exact H.
  - rewrite set_g_other by auto. apply N.
Qed.

Lemma J_step : forall w e w', J w -> ev_ok e -> gstep G inc route w e = Some w' -> J w'.
Proof.
  intros w e w' I (AO & NR & OK) H. pose proof I as [IM IN].
  destruct e as [i a now sv cf|k t1 t2|i a|i now ord|i k now|i now|i name a|i]; cbn [gstep] in H.
  - injection H as <-. split; [|exact IN]. intros m X. cbn [gMail] in X. apply in_app_iff in X.
    destruct X as [X|[<-|[]]]; [auto|]. cbn [mPeer]. split; [|exact OK].
    exists i. unfold record_of. cbn [GetNodeInfo pAddressList]. destruct (IN i) as (E & _).
    change (unique (nKnownIds (gState (gNodes w i)) ++ nAdvertisedIds (gState (gNodes w i)))) with (own_addresses (gState (gNodes w i))).
    rewrite E. apply Permutation_refl.
  - destruct (nth_error (gMail w) k) as [m|] eqn:E; [|discriminate H].
    destruct (route (mFrom m) (mTo m)) as [j|] eqn:R; [|discriminate H].
    destruct (AddPeerElement G inc t1 t2 (gState (gNodes w j)) (Some (mPeer m))) as [n| |] eqn:AD; try discriminate H.
    injection H as <-. apply J_change; auto. destruct (IN j) as (I1 & I2 & I3 & I4 & I5 & I6).
    apply nth_error_In in E.
    destruct (add_cases G inc _ _ _ _ _ AD) as [->|(q & EQ & _ & _ & _ & ->)].
    { exact (conj I1 (conj I2 (conj I3 (conj I4 (conj I5 I6))))). }
    injection EQ as <-. split; [exact I1|]. split; [exact I2|]. split; [apply mstore_wf; exact I3|].
    split; [|split; [exact I5|exact I6]]. cbn [gState set_peers nPeers]. intros id it X. rewrite mload_mstore in X.
    destruct (bytes_eqb (GetIdOfPeer G (Some (mPeer m))) id) eqn:B; [|auto].
    apply bytes_eqb_spec in B. injection X as <-. cbn [piPeer].
    split; [apply RJ_sort; auto|]. split; [apply S_sort|]. split; [apply OK|]. rewrite id_sort. auto.
  - injection H as <-. apply J_change; auto. cbn in NR. subst a. cbn [learn join_check].
    destruct (IN i) as (I1 & I2 & I3 & I4 & I5 & I6). exact (conj I1 (conj I2 (conj I3 (conj I4 (conj I5 I6))))).
  - injection H as <-. apply J_change; auto. destruct (IN i) as (I1 & I2 & I3 & I4 & I5 & I6).
    refine (conj I1 (conj I2 (conj I3 (conj I4 (conj _ I6))))). cbn [gSyncs]. intros all rest X.
    apply in_app_iff in X. destruct X as [X|[X|[]]]; [auto|]. injection X as <- <-.
    assert (F : Forall (fun p => RJ p /\ S p) (ord (peer_items now (gState (gNodes w i))))).
    { rewrite Forall_forall. intros p X. apply (Permutation_in p (Permutation_sym (AO _))) in X.
      unfold peer_items in X. apply in_map_iff in X. destruct X as ([id it] & <- & Y). apply filter_In in Y.
      destruct Y as [Y _]. apply (in_mload _ _ _ I3) in Y. destruct (I4 _ _ Y) as (X1 & X2 & _). auto. }
    auto.
  - destruct (nth_error (gSyncs (gNodes w i)) k) as [[all [|p rest]]|] eqn:E; try discriminate H.
    destruct (visit G now (gState (gNodes w i)) all p) as [n acts] eqn:V.
    destruct (perform i (gSources (gNodes w i)) (gMail w) acts) as [src post] eqn:PF.
    destruct (list_set (gSyncs (gNodes w i)) k (all, rest)) as [syncs|] eqn:LS; [|discriminate H].
    injection H as <-. destruct (IN i) as (I1 & I2 & I3 & I4 & I5 & I6).
    destruct (visit_cases G _ _ _ _ _ _ V) as [-> VA].
    destruct (check_ids G now (gState (gNodes w i)) p) as (_ & C0 & C1 & C2).
    destruct (check_peers G now _ p I3) as (W' & CP & _).
    destruct (perform_in _ _ _ _ _ _ PF) as [PS (new & -> & PN)].
    pose proof (nth_error_In _ _ E) as INS. destruct (I5 _ _ INS) as [F1 F2].
    set (n' := fst (CheckPeer G now (gState (gNodes w i)) p)) in *.
    assert (JN : Jnode i (mkG n' syncs src)).
    { split; [cbn [gState]; rewrite C1; exact I1|]. split; [cbn [gState]; rewrite C0; exact I2|].
      split; [exact W'|]. split; [intros id it X; apply I4, CP, X|]. split.
      - cbn [gSyncs]. intros al re X. destruct (list_set_in _ _ _ _ _ _ LS X) as [Y|Y]; [|auto].
        injection Y as -> ->. split; [exact F1|]. apply Forall_inv_tail in F2. exact F2.
      - cbn [gSources]. intros name a X. apply PS in X. destruct X as [X|(c & a' & X & Y)]; [eauto|].
        injection X as -> ->. apply VA in Y.
        destruct Y as (a'' & NE & _ & DA & [(s & Y & _)|[(q' & Y & _)|(c' & Y & _)]]); try discriminate Y.
        injection Y as -> ->. apply Forall_inv in F2. destruct F2 as [F2 F3]. eapply Q_visit; [exact F2|exact F3| |exact NE].
        unfold GetDifferentAddressOf in DA. rewrite C1, I1 in DA. exact DA. }
    destruct (J_change _ _ _ I JN) as [_ JA]. split; [|exact JA].
    cbn [gMail]. intros m X. apply in_app_iff in X. destruct X as [X|X]; [auto|].
    apply PN in X. destruct X as (a & q & -> & X). apply VA in X.
    destruct X as (a' & _ & _ & _ & [(s & X & _)|[(q' & X & Y & _)|(c & X & _)]]); try discriminate X.
    injection X as -> ->. cbn [mPeer]. rewrite Forall_forall in F1. apply F1. exact Y.
  - injection H as <-. apply J_change; auto. destruct (IN i) as (I1 & I2 & I3 & I4 & I5 & I6).
    refine (conj I1 (conj I2 (conj _ (conj _ (conj I5 I6))))); cbn [gState purge set_peers nPeers].
    + apply mwf_filter. exact I3.
    + intros id it X. apply mload_filter in X; auto.
  - injection H as <-. apply J_change; auto. destruct (IN i) as (I1 & I2 & I3 & I4 & I5 & I6).
    refine (conj I1 (conj I2 (conj I3 (conj I4 (conj I5 _))))). cbn [gSources]. intros name' a' X.
    apply filter_In in X. destruct X as [X _]. eauto.
  - injection H as <-. apply J_change; auto. destruct (IN i) as (I1 & I2 & I3 & I4 & I5 & I6). cbn in OK.
    split; [unfold own_addresses; cbn [gState nKnownIds nAdvertisedIds app]; rewrite I2; exact OK|].
    split; [exact I2|]. cbn [gState nPeers gSyncs gSources].
    split; [constructor|]. split; [intros id it X; discriminate X|]. split; [intros all rest []|intros name a []].
Qed.

Lemma J_run : forall es w w', J w -> Forall ev_ok es -> grun G inc route w es = Some w' -> J w'.
Proof.
  induction es as [|e es IH]; intros w w' I F H; cbn in H; [injection H as <-; exact I|].
  inversion F; subst. destruct (gstep G inc route w e) as [w1|] eqn:E; [|discriminate H].
  eapply IH; [eapply J_step; eauto|eauto|exact H].
Qed.
End Fixed.

(** ** Mail only grows *)
Lemma mail_step : forall w e w' k m, gstep G inc route w e = Some w' -> nth_error (gMail w) k = Some m ->
  nth_error (gMail w') k = Some m.
Proof.
  intros w e w' k m H E.
  assert (X : exists new, gMail w' = gMail w ++ new).
  { destruct e as [i a now sv cf|k0 t1 t2|i a|i now ord|i k0 now|i now|i name a|i]; cbn [gstep] in H;
      try (injection H as <-; exists []; rewrite app_nil_r; reflexivity).
    - injection H as <-. eexists. reflexivity.
    - destruct (nth_error (gMail w) k0); [|discriminate H]. destruct (route _ _); [|discriminate H].
      destruct (AddPeerElement _ _ _ _ _ _); try discriminate H. injection H as <-. exists []. rewrite app_nil_r. reflexivity.
    - destruct (nth_error (gSyncs (gNodes w i)) k0) as [[all [|p rest]]|]; try discriminate H.
      destruct (visit G now (gState (gNodes w i)) all p) as [n acts] eqn:V.
      destruct (perform i (gSources (gNodes w i)) (gMail w) acts) as [src post] eqn:PF.
      destruct (list_set _ _ _); [|discriminate H]. injection H as <-.
      destruct (perform_in _ _ _ _ _ _ PF) as [_ (new & -> & _)]. exists new. reflexivity. }
  destruct X as [new ->]. rewrite nth_error_app1; [exact E|]. apply nth_error_Some. congruence.
Qed.
Lemma mail_run : forall es w w' k m, grun G inc route w es = Some w' -> nth_error (gMail w) k = Some m ->
  nth_error (gMail w') k = Some m.
Proof.
  induction es as [|e es IH]; intros w w' k m H E; cbn in H; [injection H as <-; exact E|].
  destruct (gstep G inc route w e) as [w1|] eqn:S; [|discriminate H]. eapply IH; [exact H|]. eapply mail_step; eauto.
Qed.
Lemma run_app : forall es1 es2 w w', grun G inc route w (es1 ++ es2) = Some w' ->
  exists w1, grun G inc route w es1 = Some w1 /\ grun G inc route w1 es2 = Some w'.
Proof.
  induction es1 as [|e es1 IH]; intros es2 w w' H; cbn in *; [eauto|].
  destruct (gstep G inc route w e) as [w1|]; [|discriminate H]. apply IH. exact H.
Qed.

(** ** Knowledge in a window of time *)
Section Window.
Variable A : nat -> list bytes.
Variables lo hi : Z.
Hypothesis lo_pos : (0 <= lo)%Z.
Hypothesis short : (seconds hi < seconds lo + 300)%Z.
Hypothesis range : (seconds hi < 18446744073709551616 - 300)%Z.
Hypothesis inc_ok : forall t old, (old <= inc t 600000000000 old)%Z.
Hypothesis A_plain : forall k, A k <> [] /\ Forall plain (A k).
Hypothesis A_leads : forall k a, In a (A k) -> leads route a k.

Definition T (ts : N) : Prop := IsRecent hi ts = true.
Definition L (it : pitem) : Prop := peer_live hi it = true.
Definition JW (D : nat -> list bytes) := J A D T L (fun _ => True) (fun _ _ => True).

Lemma cur_val : forall now, (lo <= now <= hi)%Z -> Z.of_N (getCurrentTime now) = seconds now /\ (seconds lo <= seconds now <= seconds hi)%Z.
Proof.
  intros now B. unfold getCurrentTime. fold (seconds now).
  assert (M : (seconds lo <= seconds now <= seconds hi)%Z) by (split; apply Z.div_le_mono; lia).
  assert (0 <= seconds lo)%Z by (apply Z.div_pos; lia).
  rewrite Z.mod_small by lia. split; [rewrite Z2N.id; lia|lia].
Qed.
Lemma T_now : forall now, (lo <= now <= hi)%Z -> T (getCurrentTime now).
Proof.
  intros now B. destruct (cur_val now B) as [E M]. unfold T, IsRecent. apply N.ltb_lt.
  destruct (cur_val hi ltac:(lia)) as [Eh _]. rewrite u64_small by (unfold M64; lia). lia.
Qed.
Lemma T_mono : forall now ts, (lo <= now <= hi)%Z -> T ts -> IsRecent now ts = true.
Proof.
  intros now ts B H. unfold T, IsRecent in *. apply N.ltb_lt in H. apply N.ltb_lt.
  destruct (cur_val now B) as [E M]. destruct (cur_val hi ltac:(lia)) as [Eh _]. lia.
Qed.
Lemma L_store : forall t2 p, (lo <= t2 <= hi)%Z -> L (mkPI p (inc t2 600000000000 (t2 + 300000000000)%Z)).
Proof.
  intros t2 p B. unfold L, peer_live. cbn [piExpires]. pose proof (inc_ok t2 (t2 + 300000000000)%Z).
  assert (hi < lo + 300000000000)%Z by (unfold seconds in short; lia).
  apply negb_true_iff, andb_false_iff. right. apply Z.ltb_ge. lia.
Qed.
Lemma L_mono : forall now it, (now <= hi)%Z -> L it -> peer_live now it = true.
Proof.
  intros now it B H. unfold L, peer_live in *. apply negb_true_iff in H. apply negb_true_iff.
  apply andb_false_iff in H. apply andb_false_iff. destruct H as [H|H]; [auto|]. right.
  apply Z.ltb_ge in H. apply Z.ltb_ge. lia.
Qed.
Definition calm (e : gev) : Prop := any_order e /\ no_restart e /\ no_reply e /\ between lo hi e.
Lemma calm_ok : forall D e, calm e -> ev_ok A D T L e.
Proof.
  intros D e (AO & NR & NP & B). split; [exact AO|]. split; [exact NP|].
  destruct e; auto; cbn in B.
  - apply T_now. exact B.
  - intro p. apply L_store. tauto.
  - destruct NR.
Qed.

Lemma sort_fwd : forall l, Forall plain l -> Forall plain (sort_run G string_less l).
Proof. intros l H. rewrite Forall_forall in *. intros x X. apply H. eapply Permutation_in; [|exact X]. apply Permutation_sym, sort_perm. Qed.
(** Equal ids are of the same node. *)
Lemma id_node : forall l l' i k, Permutation l (A i) -> Permutation l' (A k) ->
  snd (SerializeStringArray G l) = snd (SerializeStringArray G l') -> i = k.
Proof.
  intros l l' i k P P' E. unfold SerializeStringArray in E. cbn [snd] in E.
  rewrite (sort_perm_eq G _ _ P), (sort_perm_eq G _ _ P') in E.
  destruct (A_plain i) as [NE Fi]. destruct (A_plain k) as [_ Fk].
  apply join_inj in E; [|apply sort_fwd; auto|apply sort_fwd; auto].
  destruct (A i) as [|x l0] eqn:EA; [congruence|].
  assert (X : In x (A i)) by (rewrite EA; left; reflexivity).
  assert (Y : In x (A k)).
  { eapply Permutation_in; [apply Permutation_sym, sort_perm|]. rewrite <- E. eapply Permutation_in; [apply sort_perm|].
    left. reflexivity. }
  pose proof (A_leads _ _ X i). pose proof (A_leads _ _ Y i). congruence.
Qed.

Lemma knows_listed : forall D w i k id it, JW D w -> mload (nPeers (gState (gNodes w i))) id = Some it ->
  record_of A k (piPeer it) -> knows A hi w i k.
Proof.
  intros D w i k id it [_ N] M R. destruct (N i) as (_ & _ & _ & I4 & _). destruct (I4 _ _ M) as ((_ & H1) & _ & H2 & _).
  exists id, it. auto.
Qed.

Lemma knows_step : forall D w e w' i k, JW D w -> calm e -> gstep G inc route w e = Some w' ->
  knows A hi w i k -> knows A hi w' i k.
Proof.
  intros D w e w' i k JJ C H KN.
  assert (JJ' : JW D w').
  { eapply J_step; [| |exact JJ|apply calm_ok; exact C|exact H]; intros; exact I. }
  destruct C as (AO & NR & NP & B). pose proof JJ as [IM IN]. destruct KN as (id & it & M & R & LV & RC).
  assert (SAME : gState (gNodes w' i) = gState (gNodes w i) -> knows A hi w' i k).
  { intro E. eapply knows_listed; [exact JJ'|rewrite E; exact M|exact R]. }
  destruct e as [i0 a now sv cf|k0 t1 t2|i0 a|i0 now ord|i0 k0 now|i0 now|i0 name a|i0]; cbn [gstep] in H.
  - injection H as <-. apply SAME. reflexivity.
  - destruct (nth_error (gMail w) k0) as [m|] eqn:E; [|discriminate H].
    destruct (route (mFrom m) (mTo m)) as [j|] eqn:RT; [|discriminate H].
    destruct (AddPeerElement G inc t1 t2 (gState (gNodes w j)) (Some (mPeer m))) as [n| |] eqn:AD; try discriminate H.
    injection H as <-. destruct (Nat.eq_dec i j) as [->|NE]; [|apply SAME; rewrite set_g_other by auto; reflexivity].
    destruct (add_cases G inc _ _ _ _ _ AD) as [->|(q & EQ & RQ & _ & _ & EN)]; [apply SAME; rewrite set_g_same; reflexivity|].
    injection EQ as <-.
    destruct (bytes_eqb (GetIdOfPeer G (Some (mPeer m))) id) eqn:BE.
    + apply bytes_eqb_spec in BE. destruct (IN j) as (_ & _ & _ & I4 & _). destruct (I4 _ _ M) as (_ & _ & _ & EI).
      destruct (IM m (nth_error_In _ _ E)) as [[k' RK] _].
      assert (k' = k). { apply (id_node (pAddressList (mPeer m)) (pAddressList (piPeer it))); auto. rewrite EI in BE. exact BE. }
      subst k'. eapply (knows_listed D _ j k id); [exact JJ'| |].
      * rewrite set_g_same. cbn [gState]. rewrite EN. cbn [set_peers nPeers]. rewrite <- BE. apply mload_mstore_same.
      * cbn [piPeer]. destruct (sort_peer_same G (mPeer m)) as (_ & _ & P & _). unfold record_of in *. eapply perm_trans; eauto.
    + apply bytes_eqb_neq in BE. eapply (knows_listed D _ j k id it); [exact JJ'| |exact R].
      rewrite set_g_same. cbn [gState]. rewrite EN. cbn [set_peers nPeers]. rewrite mload_mstore_other by auto. exact M.
  - injection H as <-. cbn in NP. subst a. apply SAME. destruct (Nat.eq_dec i i0) as [->|NE]; [rewrite set_g_same|rewrite set_g_other by auto]; reflexivity.
  - injection H as <-. apply SAME. destruct (Nat.eq_dec i i0) as [->|NE]; [rewrite set_g_same|rewrite set_g_other by auto]; reflexivity.
  - destruct (nth_error (gSyncs (gNodes w i0)) k0) as [[all [|p rest]]|] eqn:E; try discriminate H.
    destruct (visit G now (gState (gNodes w i0)) all p) as [n acts] eqn:V.
    destruct (perform i0 (gSources (gNodes w i0)) (gMail w) acts) as [src post] eqn:PF.
    destruct (list_set (gSyncs (gNodes w i0)) k0 (all, rest)) as [syncs|] eqn:LS; [|discriminate H].
    injection H as <-. apply SAME. destruct (Nat.eq_dec i i0) as [->|NE].
    + cbn [gNodes set_g]. rewrite Nat.eqb_refl. cbn [gState]. destruct (visit_cases G _ _ _ _ _ _ V) as [-> _].
      destruct (IN i0) as (_ & _ & _ & _ & I5 & _). destruct (I5 _ _ (nth_error_In _ _ E)) as [_ F].
      apply Forall_inv in F. destruct F as [[_ TS] _]. unfold CheckPeer. rewrite (T_mono now _ B TS).
      destruct (isPeerSimilarToNode G _ _); reflexivity.
    + cbn [gNodes set_g]. destruct (Nat.eqb_spec i i0); [congruence|]. reflexivity.
  - injection H as <-. destruct (Nat.eq_dec i i0) as [->|NE]; [|apply SAME; rewrite set_g_other by auto; reflexivity].
    eapply (knows_listed D _ i0 k id it); [exact JJ'| |exact R]. rewrite set_g_same. cbn [gState purge set_peers nPeers].
    destruct (IN i0) as (_ & _ & W & _). apply in_mload; [apply mwf_filter; exact W|]. apply filter_In.
    split; [apply mload_in; exact M|]. cbn [snd]. apply L_mono; [cbn in B; lia|exact LV].
  - injection H as <-. apply SAME. destruct (Nat.eq_dec i i0) as [->|NE]; [rewrite set_g_same|rewrite set_g_other by auto]; reflexivity.
  - destruct NR.
Qed.
Lemma J_calm : forall D es w w', JW D w -> Forall calm es -> grun G inc route w es = Some w' -> JW D w'.
Proof.
  intros D es w w' JJ F H. eapply J_run; [| |exact JJ| |exact H]; [intros; exact I|intros; exact I|].
  eapply Forall_impl; [|exact F]. intro e. apply calm_ok.
Qed.
Lemma knows_run : forall D es w w' i k, JW D w -> Forall calm es -> grun G inc route w es = Some w' ->
  knows A hi w i k -> knows A hi w' i k.
Proof.
  intros D. induction es as [|e es IH]; intros w w' i k JJ F H KN; cbn in H; [injection H as <-; exact KN|].
  inversion F; subst. destruct (gstep G inc route w e) as [w1|] eqn:E; [|discriminate H].
  eapply IH; [|eauto|exact H|eapply knows_step; eauto].
  eapply J_step; [| |exact JJ|apply calm_ok; eauto|exact E]; intros; exact I.
Qed.

(** What arrives is known. *)
Lemma deliver_knows : forall D w k t1 t2 w' m j x, JW D w -> calm (GDeliver k t1 t2) ->
  gstep G inc route w (GDeliver k t1 t2) = Some w' -> nth_error (gMail w) k = Some m ->
  route (mFrom m) (mTo m) = Some j -> record_of A x (mPeer m) -> x <> j -> knows A hi w' j x.
Proof.
  intros D w k t1 t2 w' m j x JJ C H E RT R NE.
  assert (JJ' : JW D w').
  { eapply J_step; [| |exact JJ|apply calm_ok; exact C|exact H]; intros; exact I. }
  pose proof JJ as [IM IN]. cbn [gstep] in H. rewrite E, RT in H.
  destruct (AddPeerElement G inc t1 t2 (gState (gNodes w j)) (Some (mPeer m))) as [n| |] eqn:AD; try discriminate H.
  injection H as <-. destruct (IN j) as (I1 & _ & W & I4 & _). destruct C as (_ & _ & _ & B). cbn in B.
  unfold AddPeerElement, peer_check in AD.
  assert (SIM : isPeerSimilarToNode G (gState (gNodes w j)) (Some (mPeer m)) = false).
  { unfold isPeerSimilarToNode. apply bytes_eqb_neq. intro EI. apply NE. symmetry.
    eapply (id_node (own_addresses (gState (gNodes w j))) (pAddressList (mPeer m))); [rewrite I1; apply Permutation_refl|exact R|exact EI]. }
  rewrite SIM in AD.
  assert (LISTED : forall it, mload (nPeers (gState (gNodes w j))) (GetIdOfPeer G (Some (mPeer m))) = Some it ->
    n = gState (gNodes w j) -> knows A hi (set_g w j (mkG n (gSyncs (gNodes w j)) (gSources (gNodes w j)))) j x).
  { intros it M EN. eapply (knows_listed D); [exact JJ'|rewrite set_g_same; cbn [gState]; rewrite EN; exact M|].
    destruct (I4 _ _ M) as (([k' RK] & _) & _ & _ & EI).
    assert (k' = x) by (eapply (id_node (pAddressList (piPeer it)) (pAddressList (mPeer m))); [exact RK|exact R|exact (eq_sym EI)]).
    subst k'. exact RK. }
  assert (STORE : peer_store G inc t2 (gState (gNodes w j)) (Some (mPeer m)) = Ok n ->
    knows A hi (set_g w j (mkG n (gSyncs (gNodes w j)) (gSources (gNodes w j)))) j x).
  { intro ST. unfold peer_store in ST. destruct (IM m (nth_error_In _ _ E)) as [_ TS].
    rewrite (T_mono t2 _ ltac:(lia) TS) in ST. injection ST as ST.
    eapply (knows_listed D _ j x (GetIdOfPeer G (Some (mPeer m)))); [exact JJ'| |].
    - rewrite set_g_same. cbn [gState]. rewrite <- ST. cbn [set_peers nPeers]. apply mload_mstore_same.
    - cbn [piPeer]. destruct (sort_peer_same G (mPeer m)) as (_ & _ & P & _). unfold record_of in *. eapply perm_trans; eauto. }
  unfold PeerList_Get in AD.
  destruct (mload (nPeers (gState (gNodes w j))) (GetIdOfPeer G (Some (mPeer m)))) as [it|] eqn:M.
  - destruct (peer_live t1 it).
    + cbn [bind] in AD. destruct (pTimestamp (mPeer m) <=? pTimestamp (piPeer it)); cbn [negb] in AD.
      * injection AD as <-. apply (LISTED it); reflexivity.
      * apply STORE. exact AD.
    + cbn [bind] in AD. apply STORE. exact AD.
  - cbn [bind] in AD. apply STORE. exact AD.
Qed.

(** j is told about k, and the message arrives. *)
Definition told (es : list gev) (w' : gworld) (j k : nat) : Prop :=
  exists n t1 t2 m, In (GDeliver n t1 t2) es /\ nth_error (gMail w') n = Some m /\
    route (mFrom m) (mTo m) = Some j /\ record_of A k (mPeer m).

Lemma told_knows : forall D es w w' j x, JW D w -> Forall calm es -> grun G inc route w es = Some w' ->
  told es w' j x -> x <> j -> knows A hi w' j x.
Proof.
  intros D es w w' j x JJ F H (n & t1 & t2 & m & IN & M & RT & R) NE.
  apply in_split in IN. destruct IN as (es1 & es2 & ->).
  destruct (run_app _ _ _ _ H) as (w1 & H1 & H2). apply Forall_app in F. destruct F as [F1 F2].
  inversion F2 as [|? ? C F2']; subst. cbn [grun] in H2.
  destruct (gstep G inc route w1 (GDeliver n t1 t2)) as [w2|] eqn:E; [|discriminate H2].
  pose proof (J_calm D _ _ _ JJ F1 H1) as J1.
  assert (J2 : JW D w2). { eapply J_step; [| |exact J1|apply calm_ok; exact C|exact E]; intros; exact I. }
  eapply (knows_run D); [exact J2|exact F2'|exact H2|].
  destruct (nth_error (gMail w1) n) as [m1|] eqn:E1; [|cbn [gstep] in E; rewrite E1 in E; discriminate E].
  assert (m1 = m). { pose proof (mail_run _ _ _ _ _ H2 (mail_step _ _ _ _ _ E E1)). congruence. }
  subst m1. exact (deliver_knows D w1 n t1 t2 w2 m j x J1 C E E1 RT R NE).
Qed.

(** ** A call of SyncWithPeers *)
Lemma syncs_step : forall w e w' i k all rest, calm e -> gstep G inc route w e = Some w' ->
  nth_error (gSyncs (gNodes w i)) k = Some (all, rest) ->
  nth_error (gSyncs (gNodes w' i)) k = Some (all, rest) \/
  exists p rest' now, rest = p :: rest' /\ e = GVisit i k now /\ nth_error (gSyncs (gNodes w' i)) k = Some (all, rest').
Proof.
  intros w e w' i k all rest (AO & NR & NP & B) H E.
  assert (SAME : gSyncs (gNodes w' i) = gSyncs (gNodes w i) ->
    nth_error (gSyncs (gNodes w' i)) k = Some (all, rest) \/
    exists p rest' now, rest = p :: rest' /\ e = GVisit i k now /\ nth_error (gSyncs (gNodes w' i)) k = Some (all, rest')).
  { intros ->. left. exact E. }
  destruct e as [i0 a now sv cf|k0 t1 t2|i0 a|i0 now ord|i0 k0 now|i0 now|i0 name a|i0]; cbn [gstep] in H;
    try (injection H as <-; apply SAME; try reflexivity; cbn [gNodes set_g]; destruct (Nat.eqb_spec i i0); subst; reflexivity).
  - destruct (nth_error (gMail w) k0) as [m|]; [|discriminate H].
    destruct (route (mFrom m) (mTo m)) as [j|]; [|discriminate H].
    destruct (AddPeerElement G inc t1 t2 (gState (gNodes w j)) (Some (mPeer m))) as [n| |]; try discriminate H.
    injection H as <-. apply SAME. cbn [gNodes set_g]. destruct (Nat.eqb_spec i j); subst; reflexivity.
  - injection H as <-. left. cbn [gNodes set_g]. destruct (Nat.eqb_spec i i0) as [->|]; [|exact E]. cbn [gSyncs].
    rewrite nth_error_app1; [exact E|]. apply nth_error_Some. congruence.
  - destruct (nth_error (gSyncs (gNodes w i0)) k0) as [[all0 [|p rest0]]|] eqn:E0; try discriminate H.
    destruct (visit G now (gState (gNodes w i0)) all0 p) as [n acts] eqn:V.
    destruct (perform i0 (gSources (gNodes w i0)) (gMail w) acts) as [src post] eqn:PF.
    destruct (list_set (gSyncs (gNodes w i0)) k0 (all0, rest0)) as [syncs|] eqn:LS; [|discriminate H].
    injection H as <-. cbn [gNodes set_g]. destruct (Nat.eqb_spec i i0) as [->|]; [|left; exact E]. cbn [gSyncs].
    destruct (Nat.eq_dec k k0) as [->|NE].
    + right. rewrite E0 in E. injection E as <- <-. exists p, rest0, now. split; [reflexivity|]. split; [reflexivity|].
      eapply list_set_nth_same; eauto.
    + left. rewrite (list_set_nth_other _ _ _ _ _ LS k NE). exact E.
  - destruct NR.
Qed.

(** The messages about p that have been sent. *)
Definition sent (w : gworld) (base i j x : nat) : Prop :=
  exists n m, nth_error (gMail w) n = Some m /\ (base <= n)%nat /\ mFrom m = i /\ In (mTo m) (A j) /\ record_of A x (mPeer m).
Definition thread (w : gworld) (base i k : nat) (items : list Peer) : Prop :=
  exists visited rest, nth_error (gSyncs (gNodes w i)) k = Some (items, rest) /\ items = visited ++ rest /\
    forall p q j x, In p visited -> record_of A j p -> j <> i -> In q items -> record_of A x q -> x <> j -> sent w base i j x.

Lemma sent_step : forall w e w' base i j x, gstep G inc route w e = Some w' -> sent w base i j x -> sent w' base i j x.
Proof. intros w e w' base i j x H (n & m & E & X). exists n, m. split; [eapply mail_step; eauto|exact X]. Qed.
Lemma sent_run : forall es w w' base i j x, grun G inc route w es = Some w' -> sent w base i j x -> sent w' base i j x.
Proof. intros es w w' base i j x H (n & m & E & X). exists n, m. split; [eapply mail_run; eauto|exact X]. Qed.

Lemma disjoint : forall i j a, In a (A i) -> In a (A j) -> i = j.
Proof. intros i j a X Y. pose proof (A_leads _ _ X i). pose proof (A_leads _ _ Y i). congruence. Qed.

Lemma thread_step : forall D w e w' base i k items, JW D w -> calm e -> gstep G inc route w e = Some w' ->
  (base <= length (gMail w))%nat -> thread w base i k items -> thread w' base i k items.
Proof.
  intros D w e w' base i k items JJ C H LE (visited & rest & E & EQ & SNT).
  destruct (syncs_step _ _ _ _ _ _ _ C H E) as [E'|(p & rest' & now & -> & -> & E')].
  - exists visited, rest. split; [exact E'|]. split; [exact EQ|]. intros p q j x X1 X2 X3 X4 X5 X6.
    eapply sent_step; [exact H|]. eapply SNT; eauto.
  - exists (visited ++ [p]), rest'. split; [exact E'|]. split; [rewrite <- app_assoc; exact EQ|].
    intros p' q j x X1 X2 X3 X4 X5 X6. apply in_app_iff in X1. destruct X1 as [X1|[<-|[]]].
    { eapply sent_step; [exact H|]. eapply SNT; eauto. }
    cbn [gstep] in H. rewrite E in H.
    destruct (visit G now (gState (gNodes w i)) items p) as [n acts] eqn:V.
    destruct (perform i (gSources (gNodes w i)) (gMail w) acts) as [src post] eqn:PF.
    destruct (list_set (gSyncs (gNodes w i)) k (items, rest')) as [syncs|] eqn:LS; [|discriminate H].
    injection H as <-. destruct (visit_cases G _ _ _ _ _ _ V) as [EN VA].
    destruct (perform_in _ _ _ _ _ _ PF) as [_ (new & -> & PN)].
    destruct JJ as [IM IN]. destruct (IN i) as (I1 & _ & _ & _ & I5 & _).
    destruct (I5 _ _ (nth_error_In _ _ E)) as [_ F]. apply Forall_inv in F. destruct F as [[_ TS] _].
    destruct (check_ids G now (gState (gNodes w i)) p) as (_ & _ & CI & _). rewrite <- EN in CI.
    (* the contact address *)
    assert (CA : exists a, a <> [] /\ In a (A j) /\ GetDifferentAddressOf n p = a).
    { unfold GetDifferentAddressOf. rewrite CI, I1. destruct (pAddressList p) as [|a l] eqn:PA.
      - unfold record_of in X2. rewrite PA in X2. apply Permutation_nil in X2. destruct (A_plain j). congruence.
      - assert (IA : In a (A j)) by (eapply Permutation_in; [exact X2|rewrite PA; left; reflexivity]).
        exists a. split; [|split; [exact IA|]].
        + destruct (A_plain j) as [_ F]. rewrite Forall_forall in F. destruct (F a IA) as [Z _]. exact Z.
        + cbn [FirstDifferent]. rewrite (proj2 (existsb_neq a (A i))); [reflexivity|].
          intro Y. apply X3. eapply disjoint; eauto. }
    destruct CA as (a & NE & IA & DA).
    assert (IN' : In (mkMail i a q) new).
    { apply PN. exists a, q. split; [reflexivity|]. apply VA. exists a. split; [exact NE|]. split.
      - apply check_true. split.
        + intro EI. apply X3. symmetry.
          eapply (id_node (own_addresses (gState (gNodes w i))) (pAddressList p)); [rewrite I1; apply Permutation_refl|exact X2|exact EI].
        + apply T_mono; [|exact TS]. destruct C as (_ & _ & _ & B). exact B.
      - split; [exact DA|]. right. left. exists q. split; [reflexivity|]. split; [exact X4|].
        intro Y. apply X6. eapply disjoint; [|exact IA]. eapply Permutation_in; [exact X5|exact Y]. }
    apply In_nth_error in IN'. destruct IN' as [n0 E0]. exists (length (gMail w) + n0)%nat, (mkMail i a q). cbn [gMail mFrom mTo mPeer].
    split; [rewrite nth_error_app2 by lia; replace (length (gMail w) + n0 - length (gMail w))%nat with n0 by lia; exact E0|].
    split; [lia|]. auto.
Qed.

Lemma mail_length_step : forall w e w', gstep G inc route w e = Some w' -> (length (gMail w) <= length (gMail w'))%nat.
Proof.
  intros w e w' H. destruct (Nat.le_gt_cases (length (gMail w)) (length (gMail w'))) as [LE|GT]; [exact LE|]. exfalso.
  destruct (nth_error (gMail w) (length (gMail w'))) as [m|] eqn:E.
  - pose proof (mail_step _ _ _ _ _ H E) as E'. assert (length (gMail w') < length (gMail w'))%nat by (apply nth_error_Some; congruence). lia.
  - apply nth_error_None in E. lia.
Qed.
Lemma mail_length_run : forall es w w', grun G inc route w es = Some w' -> (length (gMail w) <= length (gMail w'))%nat.
Proof.
  induction es as [|e es IH]; intros w w' H; cbn in H; [injection H as <-; auto|].
  destruct (gstep G inc route w e) as [w1|] eqn:S; [|discriminate H].
  pose proof (mail_length_step _ _ _ S). pose proof (IH _ _ H). lia.
Qed.
Lemma thread_run : forall D es w w' base i k items, JW D w -> Forall calm es -> grun G inc route w es = Some w' ->
  (base <= length (gMail w))%nat -> thread w base i k items -> thread w' base i k items.
Proof.
  intros D. induction es as [|e es IH]; intros w w' base i k items JJ F H LE TH; cbn in H; [injection H as <-; exact TH|].
  inversion F; subst. destruct (gstep G inc route w e) as [w1|] eqn:E; [|discriminate H].
  eapply IH; [|eauto|exact H| |].
  - eapply J_step; [| |exact JJ|apply calm_ok; eauto|exact E]; intros; exact I.
  - pose proof (mail_length_step _ _ _ E). lia.
  - eapply thread_step; eauto.
Qed.

(** A round tells everybody. *)
Lemma round_tells : forall D es w w', JW D w -> Forall calm es -> grun G inc route w es = Some w' ->
  round G inc A hi route w es w' -> forall i j, i <> j -> knows A hi w i j ->
  told es w' j i /\ forall k, k <> j -> knows A hi w i k -> told es w' j k.
Proof.
  intros D es w w' JJ F H (R1 & R2 & R3) i j NE KN.
  assert (DEL : forall x, sent w' (length (gMail w)) i j x -> told es w' j x).
  { intros x (n & m & E & LE & FR & TO & RX).
    destruct (R3 n) as (t1 & t2 & IN); [split; [exact LE|]; apply nth_error_Some; congruence|].
    exists n, t1, t2, m. split; [exact IN|]. split; [exact E|]. split; [apply A_leads; exact TO|exact RX]. }
  split.
  - destruct (R1 i j NE KN) as (a & now & sv & cf & IN & IA). apply DEL.
    apply in_split in IN. destruct IN as (es1 & es2 & ->).
    destruct (run_app _ _ _ _ H) as (w1 & H1 & H2). apply Forall_app in F. destruct F as [F1 F2]. cbn [grun gstep] in H2.
    eapply sent_run; [exact H2|].
    exists (length (gMail w1)), (mkMail i a (GetNodeInfo now (gState (gNodes w1 i)) sv cf)). cbn [gMail mFrom mTo mPeer].
    split; [rewrite nth_error_app2, Nat.sub_diag by lia; reflexivity|]. split; [eapply mail_length_run; exact H1|].
    split; [reflexivity|]. split; [exact IA|].
    destruct (J_calm D _ _ _ JJ F1 H1) as [_ IN]. destruct (IN i) as (I1 & _). unfold record_of. cbn [GetNodeInfo pAddressList].
    change (unique (nKnownIds (gState (gNodes w1 i)) ++ nAdvertisedIds (gState (gNodes w1 i)))) with (own_addresses (gState (gNodes w1 i))).
    rewrite I1. apply Permutation_refl.
  - intros k NK KK. apply DEL. destruct (R2 i j NE KN) as (es1 & now & ord & es2 & w1 & all & EQ & H1 & FIN).
    subst es. destruct (run_app _ _ _ _ H) as (w1' & H1' & H2). rewrite H1 in H1'. injection H1' as <-.
    apply Forall_app in F. destruct F as [F1 F2]. inversion F2 as [|? ? C F3]; subst.
    pose proof (J_calm D _ _ _ JJ F1 H1) as J1.
    pose proof (knows_run D _ _ _ _ _ JJ F1 H1 KN) as KN1. pose proof (knows_run D _ _ _ _ _ JJ F1 H1 KK) as KK1.
    cbn [grun] in H2. destruct (gstep G inc route w1 (GStart i now ord)) as [w2|] eqn:E; [|discriminate H2].
    assert (J2 : JW D w2). { eapply J_step; [| |exact J1|apply calm_ok; exact C|exact E]; intros; exact I. }
    cbn [gstep] in E. injection E as E.
    set (items := ord (peer_items now (gState (gNodes w1 i)))) in *.
    assert (TH : thread w2 (length (gMail w)) i (length (gSyncs (gNodes w1 i))) items).
    { exists [], items. split.
      - rewrite <- E, set_g_same. cbn [gSyncs]. rewrite nth_error_app2, Nat.sub_diag by lia. reflexivity.
      - split; [reflexivity|]. intros p q j0 x []. }
    assert (LE : (length (gMail w) <= length (gMail w2))%nat).
    { rewrite <- E. cbn [gMail set_g]. eapply mail_length_run; exact H1. }
    destruct (thread_run D _ _ _ _ _ _ _ J2 F3 H2 LE TH) as (visited & rest & E' & EI & SNT).
    rewrite FIN in E'. injection E' as E1 E2. subst rest all. rewrite app_nil_r in EI.
    destruct C as (AO & _ & _ & B). cbn in AO, B.
    assert (KI : forall x, knows A hi w1 i x -> exists p, In p items /\ record_of A x p).
    { intros x (id & it & M & R & LV & _). exists (piPeer it). split; [|exact R].
      unfold items. eapply Permutation_in; [apply AO|]. unfold peer_items. apply in_map_iff. exists (id, it). split; [reflexivity|].
      apply filter_In. split; [apply mload_in; exact M|]. cbn [snd]. apply L_mono; [lia|exact LV]. }
    destruct (KI j KN1) as (p & IP & RP). destruct (KI k KK1) as (q & IQ & RQ).
    apply (SNT p q j k); auto. rewrite <- EI. exact IP.
Qed.

Lemma round_spreads : forall D es w w', JW D w -> Forall calm es -> grun G inc route w es = Some w' ->
  round G inc A hi route w es w' ->
  (forall i k, knows A hi w i k -> knows A hi w' i k) /\
  (forall i j, i <> j -> knows A hi w i j -> knows A hi w' j i) /\
  (forall i j k, i <> j -> k <> j -> knows A hi w i j -> knows A hi w i k -> knows A hi w' j k).
Proof.
  intros D es w w' JJ F H R. split; [intros i k; eapply knows_run; eauto|]. split.
  - intros i j NE KN. destruct (round_tells D es w w' JJ F H R i j NE KN) as [X _]. eapply told_knows; eauto.
  - intros i j k NE NE' KN KN'. destruct (round_tells D es w w' JJ F H R i j NE KN) as [_ X]. eapply told_knows; eauto.
Qed.

Lemma chain_le : forall w n i k, chain A hi w n i k -> forall m, (n <= m)%nat -> chain A hi w m i k.
Proof.
  intros w n i k C. induction C as [n i|n i j k C IH X]; intros m LE; [constructor|].
  destruct m as [|m]; [lia|]. econstructor; [apply IH; lia|exact X].
Qed.
Lemma chain_app : forall w n i j, chain A hi w n i j -> forall m k, chain A hi w m j k -> chain A hi w (n + m) i k.
Proof.
  intros w n i j C m k C'. revert C. induction C' as [m j|m j x k C' IH X]; intro C; [eapply chain_le; [exact C|lia]|].
  rewrite Nat.add_succ_r. econstructor; [apply IH; exact C|exact X].
Qed.
Lemma chain_sym : forall w n i k, chain A hi w n i k -> chain A hi w n k i.
Proof.
  intros w n i k C. induction C as [n i|n i j k C IH X]; [constructor|].
  change (Datatypes.S n) with (1 + n)%nat. eapply chain_app; [|exact IH]. econstructor; [apply (chain_0 _ _ _ 0)|]. tauto.
Qed.
Lemma chain_split : forall w n i k, chain A hi w n i k -> forall a b, (n <= a + b)%nat ->
  exists x, chain A hi w a i x /\ chain A hi w b x k.
Proof.
  intros w n i k C. induction C as [n i|n i j k C IH X]; intros a b LE; [exists i; split; constructor|].
  destruct b as [|b].
  - exists k. split; [|constructor]. eapply chain_le; [econstructor; eauto|lia].
  - destruct (IH a b ltac:(lia)) as (x & C1 & C2). exists x. split; [exact C1|]. econstructor; eauto.
Qed.

Lemma rounds_J : forall D n w w', JW D w -> rounds G inc A lo hi route n w w' -> JW D w'.
Proof. intros D n w w' JJ R. induction R as [|n w w1 es w2 R IH F H RD]; [exact JJ|]. exact (J_calm D _ _ _ (IH JJ) F H). Qed.

(** After r + 1 rounds, whoever is linked by at most 2^r acquaintances knows each
    other. *)
Lemma rounds_spread : forall D r w w', JW D w -> rounds G inc A lo hi route (Datatypes.S r) w w' ->
  forall i k, i <> k -> chain A hi w (2 ^ r) i k -> knows A hi w' i k.
Proof.
  intros D. induction r as [|r IH]; intros w w' JJ R i k NE C.
  - inversion R as [|n w0 w1 es w2 R0 F H RD]; subst. inversion R0; subst.
    destruct (round_spreads D _ _ _ JJ F H RD) as (S1 & S2 & _).
    cbn in C. inversion C as [|? ? j ? C' X]; subst; [congruence|].
    inversion C' as [|]; subst. destruct X as [X|X]; [auto|]. apply S2; auto.
  - inversion R as [|n w0 w1 es w2 R0 F H RD]; subst.
    pose proof (rounds_J D _ _ _ JJ R0) as J1.
    destruct (round_spreads D _ _ _ J1 F H RD) as (S1 & _ & S3).
    destruct (chain_split _ _ _ _ C (2 ^ r)%nat (2 ^ r)%nat) as (x & C1 & C2); [cbn; lia|].
    destruct (Nat.eq_dec x i) as [->|NI]; [apply S1, (IH w w1 JJ R0); auto|].
    destruct (Nat.eq_dec x k) as [->|NK]; [apply S1, (IH w w1 JJ R0); auto|].
    apply (S3 x i k NI ltac:(auto)).
    + apply (IH w w1 JJ R0); [exact NI|]. apply chain_sym. exact C1.
    + apply (IH w w1 JJ R0); [exact NK|exact C2].
Qed.
End Window.
End F.
