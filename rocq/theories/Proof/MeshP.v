(** Lemmas about clusters in which all nodes have the same dataset. *)
From Verif.Base Require Import GoBase GoLemmas GoSort Assoc Float.
From Verif.Model Require Import Codec Store Data Insert Dataset Node Gossip.
From Verif.Spec Require Import NodeSpec GossipSpec MeshSpec.
From Verif.Proof Require Import SyncP NodeP GossipP SpreadP.
From Coq Require Import Lia.
Open Scope N_scope.

Lemma add_source_nodup : forall l name a, NoDup l -> NoDup (add_source l name a).
Proof.
  intros l name a ND. unfold add_source. destruct (existsb _ l) eqn:B; [exact ND|].
  eapply Permutation_NoDup; [apply Permutation_cons_append|]. constructor; [|exact ND].
  - intro X. assert (F : existsb (fun x => bytes_eqb (fst x) name && bytes_eqb (snd x) a) l = true).
    { apply existsb_exists. exists (name, a). split; [exact X|]. cbn. rewrite !bytes_eqb_refl. reflexivity. }
    congruence.
Qed.
Lemma perform_nodup : forall i acts s post s' post', perform i s post acts = (s', post') -> NoDup s -> NoDup s'.
Proof.
  intros i. induction acts as [|[sv|a p|c a] acts IH]; intros s post s' post' H ND; cbn [perform] in H; eauto.
  - injection H as <- _. exact ND.
  - eapply IH; [exact H|]. apply add_source_nodup. exact ND.
Qed.

Section M.
Variables (G : go_sort) (inc : Z -> Z -> Z -> Z) (route : nat -> bytes -> option nat).
Variables (A D : nat -> list bytes) (lo hi : Z) (members : list nat) (name : bytes).
Hypothesis lo_pos : (0 <= lo)%Z.
Hypothesis short : (seconds hi < seconds lo + 300)%Z.
Hypothesis range : (seconds hi < 18446744073709551616 - 300)%Z.
Hypothesis inc_ok : forall t old, (old <= inc t 600000000000 old)%Z.
Hypothesis A_plain : forall k, A k <> [] /\ Forall plain (A k).
Hypothesis A_leads : forall k a, In a (A k) -> leads route a k.

(** A record of a member, with the dataset. *)
Definition ours (p : Peer) : Prop :=
  exists k, In k members /\ record_of A k p /\ In name (map cName (pDataList p)).
(** In a listed record the addresses are sorted. *)
Definition ordered (p : Peer) : Prop := pAddressList p = sort_run G string_less (pAddressList p).
(** The address by which node i calls node k. *)
Definition contact (i k : nat) : bytes := FirstDifferent (A i) (sort_run G string_less (A k)).

Definition Mnode (i : nat) (g : gnode) : Prop :=
  (forall id it, mload (nPeers (gState g)) id = Some it -> ours (piPeer it) /\ ordered (piPeer it)) /\
  (forall all rest, In (all, rest) (gSyncs g) ->
     Forall (fun p => ours p /\ ordered p) all /\ Forall (fun p => ours p /\ ordered p) rest) /\
  (forall nm a, In (nm, a) (gSources g) -> exists k, In k members /\ k <> i /\ a = contact i k /\ In a (A k)) /\
  NoDup (gSources g).
Definition MI (w : gworld) : Prop :=
  (forall m, In m (gMail w) -> ours (mPeer m)) /\ forall i, Mnode i (gNodes w i).

Lemma ours_sort : forall p, ours p -> ours (sort_peer G p).
Proof.
  intros p (k & M & R & N). exists k. split; [exact M|]. destruct (sort_peer_same G p) as (_ & _ & P & _).
  split; [unfold record_of in *; eapply perm_trans; eauto|exact N].
Qed.
Lemma ordered_sort : forall p, ordered (sort_peer G p).
Proof. intro p. unfold ordered, sort_peer, SerializeStringArray. cbn [pAddressList fst]. apply sort_perm_eq, sort_perm. Qed.

Lemma M_change : forall w i g, MI w -> Mnode i g -> MI (set_g w i g).
Proof.
  intros w i g [M N] H. split; [exact M|]. intro j. destruct (Nat.eq_dec j i) as [->|NE].
  - rewrite set_g_same. exact H.
  - rewrite set_g_other by auto. apply N.
Qed.

Lemma M_step : forall w e w', JW G A hi D w -> MI w -> usual lo hi members name e ->
  gstep G inc route w e = Some w' -> MI w'.
Proof.
  intros w e w' [_ JN] I ((AO & NR & NP & B) & AN) H. pose proof I as [IM IN].
  destruct e as [i a now sv cf|k t1 t2|i a|i now ord|i k now|i now|i nm a|i]; cbn [gstep] in H.
  - injection H as <-. split; [|exact IN]. intros m X. cbn [gMail] in X. apply in_app_iff in X.
    destruct X as [X|[<-|[]]]; [auto|]. cbn [mPeer]. destruct AN as [MB NM]. exists i. split; [exact MB|].
    split; [|exact NM]. unfold record_of. cbn [GetNodeInfo pAddressList]. destruct (JN i) as (E & _).
    change (unique (nKnownIds (gState (gNodes w i)) ++ nAdvertisedIds (gState (gNodes w i)))) with (own_addresses (gState (gNodes w i))).
    rewrite E. apply Permutation_refl.
  - destruct (nth_error (gMail w) k) as [m|] eqn:E; [|discriminate H].
    destruct (route (mFrom m) (mTo m)) as [j|] eqn:R; [|discriminate H].
    destruct (AddPeerElement G inc t1 t2 (gState (gNodes w j)) (Some (mPeer m))) as [n| |] eqn:AD; try discriminate H.
    injection H as <-. apply M_change; auto. destruct (IN j) as (I4 & I5 & I6 & I7). apply nth_error_In in E.
    destruct (add_cases G inc _ _ _ _ _ AD) as [->|(q & EQ & _ & _ & _ & ->)].
    { exact (conj I4 (conj I5 (conj I6 I7))). }
    injection EQ as <-. split; [|exact (conj I5 (conj I6 I7))]. cbn [gState set_peers nPeers]. intros id it X. rewrite mload_mstore in X.
    destruct (bytes_eqb (GetIdOfPeer G (Some (mPeer m))) id) eqn:BB; [|eauto].
    injection X as <-. cbn [piPeer]. split; [apply ours_sort; auto|apply ordered_sort].
  - injection H as <-. apply M_change; auto. cbn in NP. subst a. cbn [learn join_check]. apply (IN i).
  - injection H as <-. apply M_change; auto. destruct (IN i) as (I4 & I5 & I6 & I7). destruct (JN i) as (_ & _ & W & _).
    refine (conj I4 (conj _ (conj I6 I7))). cbn [gSyncs]. intros all rest X.
    apply in_app_iff in X. destruct X as [X|[X|[]]]; [eauto|]. injection X as <- <-.
    assert (F : Forall (fun p => ours p /\ ordered p) (ord (peer_items now (gState (gNodes w i))))).
    { rewrite Forall_forall. intros p X. apply (Permutation_in p (Permutation_sym (AO _))) in X.
      unfold peer_items in X. apply in_map_iff in X. destruct X as ([id it] & <- & Y). apply filter_In in Y.
      destruct Y as [Y _]. apply (in_mload _ _ _ W) in Y. eauto. }
    auto.
  - destruct (nth_error (gSyncs (gNodes w i)) k) as [[all [|p rest]]|] eqn:E; try discriminate H.
    destruct (visit G now (gState (gNodes w i)) all p) as [n acts] eqn:V.
    destruct (perform i (gSources (gNodes w i)) (gMail w) acts) as [src post] eqn:PF.
    destruct (list_set (gSyncs (gNodes w i)) k (all, rest)) as [syncs|] eqn:LS; [|discriminate H].
    injection H as <-. destruct (IN i) as (I4 & I5 & I6 & I7). destruct (JN i) as (J1 & _ & W & _).
    destruct (visit_cases G _ _ _ _ _ _ V) as [-> VA].
    destruct (check_ids G now (gState (gNodes w i)) p) as (_ & _ & C1 & _).
    destruct (check_peers G now _ p W) as (_ & CP & _).
    destruct (perform_in _ _ _ _ _ _ PF) as [PS (new & -> & PN)].
    pose proof (nth_error_In _ _ E) as INS. destruct (I5 _ _ INS) as [F1 F2].
    set (n' := fst (CheckPeer G now (gState (gNodes w i)) p)) in *.
    assert (JM : Mnode i (mkG n' syncs src)).
    { split; [intros id it X; eapply I4, CP, X|]. split; [|split].
      - cbn [gSyncs]. intros al re X. destruct (list_set_in _ _ _ _ _ _ LS X) as [Y|Y]; [|eauto].
        injection Y as -> ->. split; [exact F1|]. apply Forall_inv_tail in F2. exact F2.
      - cbn [gSources]. intros nm a X. apply PS in X. destruct X as [X|(c & a' & X & Y)]; [eauto|].
        injection X as -> ->. apply VA in Y.
        destruct Y as (a'' & NE & CK & DA & [(s & Y & _)|[(q' & Y & _)|(c' & Y & _)]]); try discriminate Y.
        injection Y as -> ->. apply Forall_inv in F2. destruct F2 as [(x & MB & R & NM) OR].
        unfold GetDifferentAddressOf in DA. rewrite C1, J1 in DA.
        destruct (fd_split _ _ _ DA NE) as (u & v & EQ & NI & _).
        assert (IK : In a'' (A x)). { eapply Permutation_in; [exact R|]. rewrite EQ. apply in_or_app. right. left. reflexivity. }
        exists x. split; [exact MB|]. split; [intros ->; auto|]. split; [|exact IK].
        unfold contact. rewrite <- DA. f_equal. rewrite OR. apply sort_perm_eq. exact R.
      - cbn [gSources]. eapply perform_nodup; eauto. }
    destruct (M_change _ _ _ I JM) as [_ JA]. split; [|exact JA].
    cbn [gMail]. intros m X. apply in_app_iff in X. destruct X as [X|X]; [auto|].
    apply PN in X. destruct X as (a & q & -> & X). apply VA in X.
    destruct X as (a' & _ & _ & _ & [(s & X & _)|[(q' & X & Y & _)|(c & X & _)]]); try discriminate X.
    injection X as -> ->. cbn [mPeer]. rewrite Forall_forall in F1. apply F1. exact Y.
  - injection H as <-. apply M_change; auto. destruct (IN i) as (I4 & I5 & I6 & I7). destruct (JN i) as (_ & _ & W & _).
    refine (conj _ (conj I5 (conj I6 I7))); cbn [gState purge set_peers nPeers].
    intros id it X. apply mload_filter in X; eauto.
  - destruct AN.
  - destruct NR.
Qed.

Lemma usual_calm : forall es, Forall (usual lo hi members name) es -> Forall (calm lo hi) es.
Proof. intros es F. eapply Forall_impl; [|exact F]. intros e [X _]. exact X. Qed.

Lemma J_one : forall w e w', JW G A hi D w -> usual lo hi members name e -> gstep G inc route w e = Some w' -> JW G A hi D w'.
Proof.
  intros w e w' JJ U E. apply (J_calm G inc route A lo hi lo_pos short range inc_ok D [e] w w' JJ).
  - constructor; [apply U|constructor].
  - cbn [grun]. rewrite E. reflexivity.
Qed.
Lemma M_run : forall es w w', JW G A hi D w -> MI w -> Forall (usual lo hi members name) es ->
  grun G inc route w es = Some w' -> MI w'.
Proof.
  induction es as [|e es IH]; intros w w' JJ I F H; cbn in H; [injection H as <-; exact I|].
  inversion F as [|? ? F1 F2]; subst. destruct (gstep G inc route w e) as [w1|] eqn:E; [|discriminate H].
  eapply IH; [|eapply M_step; eauto|exact F2|exact H].
  eapply J_one; eauto.
Qed.

(** * A synchronisation makes every listed node a source *)
Definition source_of (w : gworld) (i j : nat) : Prop := exists a, In a (A j) /\ In (name, a) (gSources (gNodes w i)).

Lemma source_step : forall w e w' i j, usual lo hi members name e -> gstep G inc route w e = Some w' ->
  source_of w i j -> source_of w' i j.
Proof.
  intros w e w' i j ((_ & NR & _) & AN) H (a & IA & X).
  assert (SAME : incl (gSources (gNodes w i)) (gSources (gNodes w' i)) -> source_of w' i j) by (intro Y; exists a; auto).
  destruct e as [i0 b now sv cf|k0 t1 t2|i0 b|i0 now ord|i0 k0 now|i0 now|i0 nm b|i0]; cbn [gstep] in H;
    try (injection H as <-; apply SAME; cbn [gNodes set_g]; try destruct (Nat.eqb_spec i i0); subst; intros x Y; exact Y).
  - destruct (nth_error (gMail w) k0) as [m|]; [|discriminate H].
    destruct (route (mFrom m) (mTo m)) as [j0|]; [|discriminate H].
    destruct (AddPeerElement G inc t1 t2 (gState (gNodes w j0)) (Some (mPeer m))) as [n| |]; try discriminate H.
    injection H as <-. apply SAME. cbn [gNodes set_g]. destruct (Nat.eqb_spec i j0); subst; intros x Y; exact Y.
  - destruct (nth_error (gSyncs (gNodes w i0)) k0) as [[all0 [|p rest0]]|]; try discriminate H.
    destruct (visit G now (gState (gNodes w i0)) all0 p) as [n acts].
    destruct (perform i0 (gSources (gNodes w i0)) (gMail w) acts) as [src post] eqn:PF.
    destruct (list_set (gSyncs (gNodes w i0)) k0 (all0, rest0)); [|discriminate H].
    injection H as <-. apply SAME. cbn [gNodes set_g]. destruct (Nat.eqb_spec i i0); subst; [|intros x Y; exact Y].
    cbn [gSources]. destruct (perform_in _ _ _ _ _ _ PF) as [PS _]. intros x Y. apply PS. auto.
  - destruct AN.
  - destruct NR.
Qed.
Lemma source_run : forall es w w' i j, Forall (usual lo hi members name) es -> grun G inc route w es = Some w' ->
  source_of w i j -> source_of w' i j.
Proof.
  induction es as [|e es IH]; intros w w' i j F H S; cbn in H; [injection H as <-; exact S|].
  inversion F as [|? ? F1 F2]; subst. destruct (gstep G inc route w e) as [w1|] eqn:E; [|discriminate H].
  eapply IH; eauto. eapply source_step; eauto.
Qed.

Definition sthread (w : gworld) (i k : nat) (items : list Peer) : Prop :=
  exists seen rest, nth_error (gSyncs (gNodes w i)) k = Some (items, rest) /\ items = seen ++ rest /\
    forall p j, In p seen -> record_of A j p -> j <> i -> source_of w i j.

Lemma sthread_step : forall w e w' i k items, JW G A hi D w -> MI w -> usual lo hi members name e ->
  gstep G inc route w e = Some w' -> sthread w i k items -> sthread w' i k items.
Proof.
  intros w e w' i k items JJ MM C H (seen & rest & E & EQ & SNT).
  destruct (syncs_step _ _ _ lo hi _ _ _ _ _ _ _ (proj1 C) H E) as [E'|(p & rest' & now & -> & -> & E')].
  - exists seen, rest. split; [exact E'|]. split; [exact EQ|]. intros p j X1 X2 X3.
    eapply source_step; [exact C|exact H|]. eapply SNT; eauto.
  - exists (seen ++ [p]), rest'. split; [exact E'|]. split; [rewrite <- app_assoc; exact EQ|].
    intros p' j X1 X2 X3. apply in_app_iff in X1. destruct X1 as [X1|[<-|[]]].
    { eapply source_step; [exact C|exact H|]. eapply SNT; eauto. }
    cbn [gstep] in H. rewrite E in H.
    destruct (visit G now (gState (gNodes w i)) items p) as [n acts] eqn:V.
    destruct (perform i (gSources (gNodes w i)) (gMail w) acts) as [src post] eqn:PF.
    destruct (list_set (gSyncs (gNodes w i)) k (items, rest')) as [syncs|] eqn:LS; [|discriminate H].
    injection H as <-. destruct (visit_cases G _ _ _ _ _ _ V) as [EN VA].
    destruct (perform_in _ _ _ _ _ _ PF) as [PS _].
    destruct JJ as [IM IN]. destruct (IN i) as (I1 & _ & _ & _ & I5 & _).
    destruct (I5 _ _ (nth_error_In _ _ E)) as [_ F]. apply Forall_inv in F. destruct F as [[_ TS] _].
    destruct MM as [_ MN]. destruct (MN i) as (_ & M5 & _). destruct (M5 _ _ (nth_error_In _ _ E)) as [_ F].
    apply Forall_inv in F. destruct F as [(x & _ & _ & NM) _].
    destruct (check_ids G now (gState (gNodes w i)) p) as (_ & _ & CI & _). rewrite <- EN in CI.
    assert (CA : exists a, a <> [] /\ In a (A j) /\ GetDifferentAddressOf n p = a).
    { unfold GetDifferentAddressOf. rewrite CI, I1. destruct (pAddressList p) as [|a l] eqn:PA.
      - unfold record_of in X2. rewrite PA in X2. apply Permutation_nil in X2. destruct (A_plain j). congruence.
      - assert (IA : In a (A j)) by (eapply Permutation_in; [exact X2|rewrite PA; left; reflexivity]).
        exists a. split; [|split; [exact IA|]].
        + destruct (A_plain j) as [_ F]. rewrite Forall_forall in F. destruct (F a IA) as [Z _]. exact Z.
        + cbn [FirstDifferent]. rewrite (proj2 (existsb_neq a (A i))); [reflexivity|].
          intro Y. apply X3. eapply disjoint; eauto. }
    destruct CA as (a & NE & IA & DA). apply in_map_iff in NM. destruct NM as (c & EC & IC).
    exists a. split; [exact IA|]. cbn [gNodes set_g]. rewrite Nat.eqb_refl. cbn [gSources]. apply PS. right.
    exists c, a. rewrite EC. split; [reflexivity|]. apply VA. exists a. split; [exact NE|]. split.
    + apply check_true. split.
      * intro EI. apply X3. symmetry.
        eapply (id_node G route A A_plain A_leads (own_addresses (gState (gNodes w i))) (pAddressList p)); [rewrite I1; apply Permutation_refl|exact X2|exact EI].
      * eapply T_mono; eauto. destruct C as ((_ & _ & _ & B) & _). exact B.
    + split; [exact DA|]. right. right. eauto.
Qed.
Lemma sthread_run : forall es w w' i k items, JW G A hi D w -> MI w -> Forall (usual lo hi members name) es ->
  grun G inc route w es = Some w' -> sthread w i k items -> sthread w' i k items.
Proof.
  induction es as [|e es IH]; intros w w' i k items JJ MM F H S; cbn in H; [injection H as <-; exact S|].
  inversion F as [|? ? F1 F2]; subst. destruct (gstep G inc route w e) as [w1|] eqn:E; [|discriminate H].
  eapply IH; [|eapply M_step; eauto|exact F2|exact H|eapply sthread_step; eauto].
  eapply J_one; eauto.
Qed.

Lemma round_sources : forall es w w' i j, JW G A hi D w -> MI w -> Forall (usual lo hi members name) es ->
  grun G inc route w es = Some w' -> round G inc A hi route w es w' -> i <> j -> knows A hi w i j -> source_of w' i j.
Proof.
  intros es w w' i j JJ MM F H (_ & R2 & _) NE KN.
  destruct (R2 i j NE KN) as (es1 & now & ord & es2 & w1 & all & -> & H1 & FIN).
  destruct (run_app _ _ _ _ _ _ _ H) as (w1' & H1' & H2). rewrite H1 in H1'. injection H1' as <-.
  apply Forall_app in F. destruct F as [F1 F2]. inversion F2 as [|? ? C F3]; subst.
  assert (J1 : JW G A hi D w1) by (eapply J_calm with (es := es1); eauto using usual_calm).
  assert (M1 : MI w1) by (eapply M_run with (es := es1) (w := w); eauto).
  assert (KN1 : knows A hi w1 i j) by (eapply knows_run with (es := es1) (w := w) (D := D); eauto using usual_calm).
  cbn [grun] in H2. destruct (gstep G inc route w1 (GStart i now ord)) as [w2|] eqn:E; [|discriminate H2].
  assert (J2 : JW G A hi D w2).
  { eapply J_one; eauto. }
  assert (M2 : MI w2) by (eapply M_step with (w := w1); eauto).
  cbn [gstep] in E. injection E as E.
  set (items := ord (peer_items now (gState (gNodes w1 i)))) in *.
  assert (TH : sthread w2 i (length (gSyncs (gNodes w1 i))) items).
  { exists [], items. split.
    - rewrite <- E, set_g_same. cbn [gSyncs]. rewrite nth_error_app2, Nat.sub_diag by lia. reflexivity.
    - split; [reflexivity|]. intros p j0 []. }
  destruct (sthread_run _ _ _ _ _ _ J2 M2 F3 H2 TH) as (seen & rest & E' & EI & SNT).
  rewrite FIN in E'. injection E' as E1 E2. subst rest all. rewrite app_nil_r in EI.
  destruct C as ((AO & _ & _ & B) & _). cbn in AO, B.
  destruct KN1 as (id & it & M & R & LV & _).
  apply (SNT (piPeer it) j); auto. rewrite <- EI. unfold items. eapply Permutation_in; [apply AO|].
  unfold peer_items. apply in_map_iff. exists (id, it). split; [reflexivity|].
  apply filter_In. split; [apply mload_in; exact M|]. cbn [snd]. apply (L_mono inc hi inc_ok); [lia|exact LV].
Qed.

(** * After enough rounds *)
Lemma usual_rounds_rounds : forall n w w', usual_rounds G inc A lo hi route members name n w w' ->
  rounds G inc A lo hi route n w w'.
Proof. intros n w w' R. induction R; [constructor|]. econstructor; [exact IHR|apply usual_calm; exact H|exact H0|exact H1]. Qed.
Lemma usual_rounds_M : forall n w w', usual_rounds G inc A lo hi route members name n w w' ->
  JW G A hi D w -> MI w -> JW G A hi D w' /\ MI w'.
Proof.
  intros n w w' R JJ MM. induction R as [|n w w1 es w2 R IH F H RD]; [auto|]. destruct (IH JJ MM) as [J1 M1].
  split; [eapply J_calm with (w := w1) (es := es) (lo := lo); eauto using usual_calm|eapply M_run with (w := w1) (es := es); eauto].
Qed.
Lemma rounds_sources : forall r w w', JW G A hi D w -> MI w ->
  usual_rounds G inc A lo hi route members name (S (S r)) w w' ->
  forall i k, i <> k -> chain A hi w (2 ^ r) i k -> source_of w' i k.
Proof.
  intros r w w' JJ MM R i k NE C. inversion R as [|n w0 w1 es w2 R1 F H RD]; subst.
  destruct (usual_rounds_M _ _ _ R1 JJ MM) as [J1 M1].
  eapply round_sources; [exact J1|exact M1|exact F|exact H|exact RD|exact NE|].
  eapply rounds_spread with (w := w); eauto. apply usual_rounds_rounds. exact R1.
Qed.

Lemma blank_start : forall w, blank w -> (forall k, unique (nAdvertisedIds (gState (gNodes w k))) = A k) ->
  (forall k, nAdvertisedIds (gState (gNodes w k)) = D k) -> JW G A hi D w /\ MI w.
Proof.
  intros w [BM BN] EA ED. split.
  - split; [intros m X; rewrite BM in X; destruct X|]. intro k. destruct (BN k) as (B1 & B2 & B3 & B4).
    split; [unfold own_addresses; rewrite B1; apply EA|]. split; [apply ED|]. rewrite B2, B3, B4.
    split; [constructor|]. split; [intros id it X; discriminate X|]. split; [intros all rest []|intros nm b []].
  - split; [intros m X; rewrite BM in X; destruct X|]. intro k. destruct (BN k) as (B1 & B2 & B3 & B4).
    unfold Mnode. rewrite B2, B3, B4. split; [intros id it X; discriminate X|]. split; [intros all rest []|].
    split; [intros nm b []|constructor].
Qed.

(** * The nodes that a dataset has as sources *)
Lemma map_filter_nodup : forall (B C : Type) (f : B -> C) (l : list B), NoDup l ->
  (forall x y, In x l -> In y l -> f x = f y -> x = y) -> NoDup (map f l).
Proof.
  intros B C f l ND I. induction ND as [|x l NI ND IH]; [constructor|]. cbn [map]. constructor.
  - intro X. apply in_map_iff in X. destruct X as (y & E & Y). apply NI.
    replace x with y; [exact Y|]. apply I; [right; exact Y|left; reflexivity|exact E].
  - apply IH. intros y z Y Z. apply I; right; auto.
Qed.
Lemma mesh_sources : forall w i, MI w -> (forall k, In k members -> i <> k -> source_of w i k) ->
  NoDup (source_nodes route w name (N.of_nat i)) /\
  forall n, In n (source_nodes route w name (N.of_nat i)) <-> exists k, In k members /\ k <> i /\ n = N.of_nat k.
Proof.
  intros w i [_ MN] ALL. destruct (MN i) as (_ & _ & I6 & I7). unfold source_nodes. rewrite Nnat.Nat2N.id.
  set (f := fun x : bytes * bytes => match route i (snd x) with Some k => N.of_nat k | None => N.of_nat i end).
  assert (FK : forall nm a k, In (nm, a) (gSources (gNodes w i)) -> In a (A k) -> f (nm, a) = N.of_nat k).
  { intros nm a k _ IA. unfold f. cbn [snd]. rewrite (A_leads k a IA i). reflexivity. }
  split.
  - apply map_filter_nodup; [apply NoDup_filter; exact I7|].
    intros [n1 a1] [n2 a2] X Y E. apply filter_In in X, Y. destruct X as [X EX], Y as [Y EY].
    cbn [fst] in EX, EY. apply bytes_eqb_spec in EX, EY. subst n1 n2.
    destruct (I6 _ _ X) as (k1 & _ & _ & C1 & A1). destruct (I6 _ _ Y) as (k2 & _ & _ & C2 & A2).
    rewrite (FK _ _ _ X A1), (FK _ _ _ Y A2) in E. apply Nnat.Nat2N.inj in E. subst k2. congruence.
  - intro n. rewrite in_map_iff. split.
    + intros ([nm a] & E & X). apply filter_In in X. destruct X as [X _]. destruct (I6 _ _ X) as (k & MB & NE & _ & IA).
      exists k. split; [exact MB|]. split; [exact NE|]. fold f in E. rewrite (FK _ _ _ X IA) in E. auto.
    + intros (k & MB & NE & ->). destruct (ALL k MB (not_eq_sym NE)) as (a & IA & X).
      exists (name, a). split; [apply (FK _ _ _ X IA)|]. apply filter_In. split; [exact X|]. cbn [fst]. apply bytes_eqb_refl.
Qed.
End M.
