(** Lemmas about clusters of nodes. *)
From Verif.Base Require Import GoBase GoLemmas GoSort Assoc Float.
From Verif.Model Require Import Codec Store Data Insert Dataset Node Gossip.
From Verif.Spec Require Import NodeSpec GossipSpec.
From Verif.Proof Require Import SyncP NodeP.
Open Scope N_scope.
Ltac Zify.zify_post_hook ::= Z.div_mod_to_equations.

Lemma unique_mem : forall l x, In x (unique l) <-> In x l.
Proof. intros l x. unfold unique. rewrite unique_in. cbn. tauto. Qed.

Lemma list_set_in : forall A (l : list A) k x l' y, list_set l k x = Some l' -> In y l' -> y = x \/ In y l.
Proof.
  intros A. induction l as [|z l IH]; intros [|k] x l' y H IN; cbn in H; try discriminate H.
  - injection H as <-. destruct IN as [<-|IN]; cbn; auto.
  - destruct (list_set l k x) as [l1|] eqn:E; [|discriminate H]. injection H as <-.
    destruct IN as [<-|IN]; [cbn; auto|]. destruct (IH _ _ _ _ E IN); cbn; auto.
Qed.

Lemma list_set_nth_same : forall A (l : list A) k x l', list_set l k x = Some l' -> nth_error l' k = Some x.
Proof.
  intros A. induction l as [|z l IH]; intros [|k] x l' H; cbn in H; try discriminate H.
  - injection H as <-. reflexivity.
  - destruct (list_set l k x) as [l1|] eqn:E; [|discriminate H]. injection H as <-. cbn. eauto.
Qed.
Lemma list_set_nth_other : forall A (l : list A) k x l', list_set l k x = Some l' ->
  forall k', k' <> k -> nth_error l' k' = nth_error l k'.
Proof.
  intros A. induction l as [|z l IH]; intros [|k] x l' H k' NE; cbn in H; try discriminate H.
  - injection H as <-. destruct k'; [congruence|reflexivity].
  - destruct (list_set l k x) as [l1|] eqn:E; [|discriminate H]. injection H as <-. destruct k' as [|k']; [reflexivity|].
    cbn. eapply IH; eauto.
Qed.

(** ** The contact address *)
Lemma fd_split : forall l0 l1 a, FirstDifferent l0 l1 = a -> a <> [] ->
  exists u v, l1 = u ++ a :: v /\ ~ In a l0 /\ forall b, In b u -> In b l0.
Proof.
  intros l0. induction l1 as [|x l1 IH]; cbn [FirstDifferent]; intros a E NE; [congruence|].
  destruct (existsb (bytes_eqb x) l0) eqn:B.
  - apply existsb_eq in B. destruct (IH a E NE) as (u & v & -> & N & F).
    exists (x :: u), v. split; [reflexivity|]. split; [exact N|]. intros b [<-|H]; auto.
  - apply existsb_neq in B. subst a. exists [], l1. split; [reflexivity|]. split; [exact B|]. intros b [].
Qed.
Lemma fd_intro : forall l0 u a v, ~ In a l0 -> (forall b, In b u -> In b l0) -> FirstDifferent l0 (u ++ a :: v) = a.
Proof.
  intros l0. induction u as [|x u IH]; intros a v N F; cbn [app FirstDifferent].
  - rewrite (proj2 (existsb_neq a l0) N). reflexivity.
  - rewrite (proj2 (existsb_eq x l0)) by (apply F; left; auto). apply IH; auto. intros b H. apply F. right. auto.
Qed.
Lemma contact_spec : forall n p a, a <> [] -> (GetDifferentAddressOf n p = a <-> contact_of n p a).
Proof.
  intros n p a NE. unfold GetDifferentAddressOf, contact_of, own_addresses. split.
  - intro E. destruct (fd_split _ _ _ E NE) as (u & v & -> & N & F). exists u, v. split; [reflexivity|].
    split; [rewrite <- unique_mem; exact N|]. intros b H. rewrite <- unique_mem. auto.
  - intros (u & v & -> & N & F). apply fd_intro; [rewrite unique_mem; exact N|].
    intros b H. rewrite unique_mem. auto.
Qed.
Lemma fd_one : forall l a, FirstDifferent l [a] = if existsb (bytes_eqb a) l then [] else a.
Proof. reflexivity. Qed.

Section P.
Variable G : go_sort.
Variable inc : Z -> Z -> Z -> Z.

Lemma send_in : forall a p x, In x (SendAddPeerRequest a p) <-> x = ASend a p /\ a <> [] /\ ~ In a (pAddressList p).
Proof.
  intros a p x. unfold SendAddPeerRequest. rewrite fd_one. destruct (existsb (bytes_eqb a) (pAddressList p)) eqn:B.
  - apply existsb_eq in B. cbn. tauto.
  - apply existsb_neq in B. destruct a as [|c a]; cbn.
    + split; [intros []|intros (_ & H & _); congruence].
    + split; [intros [<-|[]]; split; [auto|]; split; [discriminate|auto]|intros [-> _]; auto].
Qed.

Lemma visit_cases : forall now n all p n' acts, visit G now n all p = (n', acts) ->
  n' = fst (CheckPeer G now n p) /\
  forall x, In x acts <->
    exists a, a <> [] /\ snd (CheckPeer G now n p) = true /\ GetDifferentAddressOf n' p = a /\
      ((exists s, x = AService s /\ In s (pServiceList p)) \/
       (exists q, x = ASend a q /\ In q all /\ ~ In a (pAddressList q)) \/
       (exists c, x = ASource c a /\ In c (pDataList p))).
Proof.
  intros now n all p n' acts H. unfold visit in H. destruct (CheckPeer G now n p) as [n1 ok]. cbn [fst snd].
  destruct ok; cbn [negb] in H.
  - destruct (GetDifferentAddressOf n1 p) as [|c a] eqn:E.
    + injection H as <- <-. split; [reflexivity|]. intro x. split; [intros []|].
      intros (a & NE & _ & E' & _). congruence.
    + injection H as <- <-. split; [reflexivity|]. intro x. rewrite !in_app_iff, in_map_iff, in_flat_map, in_map_iff.
      split.
      * intro H. exists (c :: a). split; [discriminate|]. split; [reflexivity|]. split; [exact E|].
        destruct H as [(s & <- & IN)|[(q & IN & H)|(d & <- & IN)]].
        { left. eauto. }
        { apply send_in in H. destruct H as (-> & _ & N). right. left. eauto. }
        { right. right. eauto. }
      * intros (a' & NE & _ & E' & H). rewrite E in E'. subst a'.
        destruct H as [(s & -> & IN)|[(q & -> & IN & N)|(d & -> & IN)]].
        { left. eauto. }
        { right. left. exists q. split; [exact IN|]. apply send_in. auto. }
        { right. right. eauto. }
  - injection H as <- <-. split; [reflexivity|]. intro x. split; [intros []|]. intros (a & _ & X & _). discriminate X.
Qed.

Lemma check_ids : forall now n p, nKnownIds (fst (CheckPeer G now n p)) = nKnownIds n /\
  nAdvertisedIds (fst (CheckPeer G now n p)) = nAdvertisedIds n /\
  own_addresses (fst (CheckPeer G now n p)) = own_addresses n /\
  nPort (fst (CheckPeer G now n p)) = nPort n.
Proof.
  intros. unfold CheckPeer. destruct (isPeerSimilarToNode G n (Some p)); auto.
  destruct (IsRecent now (pTimestamp p)); auto.
Qed.
Lemma check_true : forall now n p, snd (CheckPeer G now n p) = true <->
  own_id G n <> GetIdOfPeer G (Some p) /\ IsRecent now (pTimestamp p) = true.
Proof.
  intros. unfold CheckPeer, isPeerSimilarToNode. destruct (bytes_eqb (own_id G n) (GetIdOfPeer G (Some p))) eqn:B.
  - apply bytes_eqb_spec in B. cbn [snd]. split; [discriminate|]. intros [N _]. contradiction (N B).
  - apply bytes_eqb_neq in B. destruct (IsRecent now (pTimestamp p)); cbn [snd]; split; auto; try discriminate.
    intros [_ X]. discriminate X.
Qed.

Lemma add_source_in : forall l name a x, In x (add_source l name a) <-> In x l \/ x = (name, a).
Proof.
  intros l name a x. unfold add_source. destruct (existsb _ l) eqn:B.
  - apply existsb_exists in B. destruct B as ([u v] & IN & E). cbn in E. apply andb_true_iff in E.
    destruct E as [E1 E2]. apply bytes_eqb_spec in E1, E2. subst. split; [auto|]. intros [H| ->]; auto.
  - rewrite in_app_iff. cbn. intuition.
Qed.

Lemma perform_in : forall i acts s post s' post', perform i s post acts = (s', post') ->
  (forall x, In x s' <-> In x s \/ exists c a, x = (cName c, a) /\ In (ASource c a) acts) /\
  (exists new, post' = post ++ new /\
     forall m, In m new <-> exists a p, m = mkMail i a p /\ In (ASend a p) acts).
Proof.
  intros i. induction acts as [|act acts IH]; intros s post s' post' H; cbn [perform] in H.
  - injection H as <- <-. split.
    + intro x. split; [auto|]. intros [H|(c & a & _ & [])]; auto.
    + exists []. rewrite app_nil_r. split; [reflexivity|]. intro m. split; [intros []|]. intros (a & p & _ & []).
  - destruct act as [sv|a p|c a]; destruct (IH _ _ _ _ H) as [S (new & -> & N)]; split.
    + intro x. rewrite S. split; (intros [X|(c & a & E & X)]; [auto|right; exists c, a; split; [exact E|]]).
      * right. exact X.
      * destruct X as [X|X]; [discriminate X|exact X].
    + exists new. split; [reflexivity|]. intro m. rewrite N.
      split; intros (a & p & E & X); exists a, p; (split; [exact E|]).
      * right. exact X.
      * destruct X as [X|X]; [discriminate X|exact X].
    + intro x. rewrite S. split; (intros [X|(c & a' & E & X)]; [auto|right; exists c, a'; split; [exact E|]]).
      * right. exact X.
      * destruct X as [X|X]; [discriminate X|exact X].
    + exists (mkMail i a p :: new). rewrite <- app_assoc. split; [reflexivity|]. intro m. cbn [In]. rewrite N. split.
      * intros [<-|(a' & p' & E & X)]; [exists a, p; auto|exists a', p'; auto].
      * intros (a' & p' & E & [X|X]); [injection X as <- <-; auto|right; eauto].
    + intro x. rewrite S, add_source_in. split.
      * intros [[X| ->]|(c' & a' & E & X)]; [auto| |].
        { right. exists c, a. cbn. auto. }
        { right. exists c', a'. cbn. auto. }
      * intros [X|(c' & a' & E & [X|X])]; [auto| |].
        { injection X as <- <-. auto. }
        { right. eauto. }
    + exists new. split; [reflexivity|]. intro m. rewrite N.
      split; intros (a' & p & E & X); exists a', p; (split; [exact E|]).
      * right. exact X.
      * destruct X as [X|X]; [discriminate X|exact X].
Qed.

Lemma set_g_same : forall w i g, gNodes (set_g w i g) i = g.
Proof. intros. cbn. rewrite Nat.eqb_refl. reflexivity. Qed.
Lemma set_g_other : forall w i g j, j <> i -> gNodes (set_g w i g) j = gNodes w j.
Proof. intros. cbn. destruct (Nat.eqb_spec j i); congruence. Qed.

Lemma learn_own : forall n a, incl (own_addresses n) (own_addresses (learn n a)) /\
  nAdvertisedIds (learn n a) = nAdvertisedIds n /\ nPeers (learn n a) = nPeers n /\ nPort (learn n a) = nPort n /\
  (forall b, In b (own_addresses (learn n a)) ->
     In b (own_addresses n) \/ (a <> [] /\ b = a ++ colon :: decimal (nPort n))).
Proof.
  intros n a. unfold learn, join_check. destruct a as [|c a].
  - split; [apply incl_refl|]. auto.
  - destruct (negb _); [|split; [apply incl_refl|]; auto].
    unfold join_append, own_addresses. cbn [set_known nKnownIds nAdvertisedIds nPeers nPort]. split.
    { intros x. rewrite !unique_mem, !in_app_iff. tauto. }
    split; [reflexivity|]. split; [reflexivity|]. split; [reflexivity|].
    intros b. rewrite !unique_mem, !in_app_iff. intros [[H|[<-|[]]]|H]; auto. right. split; [discriminate|reflexivity].
Qed.

(** ** SyncWithPeers *)
Definition old_other (now : Z) (n : nstate) (p : Peer) : Prop :=
  own_id G n <> GetIdOfPeer G (Some p) /\ IsRecent now (pTimestamp p) = false.
Lemma own_id_same : forall n n', own_addresses n' = own_addresses n -> own_id G n' = own_id G n.
Proof. intros n n' E. unfold own_id. rewrite E. reflexivity. Qed.
Lemma check_mload : forall now n p id, mload (nPeers (fst (CheckPeer G now n p))) id = mload (nPeers n) id \/
  (mload (nPeers (fst (CheckPeer G now n p))) id = None /\ id = GetIdOfPeer G (Some p) /\ old_other now n p).
Proof.
  intros now n p id. unfold CheckPeer, old_other, isPeerSimilarToNode.
  destruct (bytes_eqb (own_id G n) (GetIdOfPeer G (Some p))) eqn:B; [left; reflexivity|]. apply bytes_eqb_neq in B.
  destruct (IsRecent now (pTimestamp p)); [left; reflexivity|]. cbn [fst set_peers nPeers]. rewrite mload_mdelete.
  destruct (bytes_eqb (GetIdOfPeer G (Some p)) id) eqn:C; [|left; reflexivity]. apply bytes_eqb_spec in C. auto.
Qed.
Lemma check_drop : forall now n p, old_other now n p ->
  mload (nPeers (fst (CheckPeer G now n p))) (GetIdOfPeer G (Some p)) = None.
Proof.
  intros now n p [N R]. unfold CheckPeer, isPeerSimilarToNode. apply bytes_eqb_neq in N. rewrite N, R.
  cbn [fst set_peers nPeers]. apply mload_mdelete_same.
Qed.

Lemma sync_loop_cases : forall now all items n n' acts, sync_loop G now n all items = (n', acts) ->
  own_addresses n' = own_addresses n /\ nKnownIds n' = nKnownIds n /\ nAdvertisedIds n' = nAdvertisedIds n /\
  (forall x, In x acts <-> exists p a, In p items /\
      a <> [] /\ (own_id G n <> GetIdOfPeer G (Some p) /\ IsRecent now (pTimestamp p) = true) /\
      GetDifferentAddressOf n p = a /\
      ((exists s, x = AService s /\ In s (pServiceList p)) \/
       (exists q, x = ASend a q /\ In q all /\ ~ In a (pAddressList q)) \/
       (exists c, x = ASource c a /\ In c (pDataList p)))) /\
  (forall id, (mload (nPeers n') id = mload (nPeers n) id /\
               forall p, In p items -> old_other now n p -> id = GetIdOfPeer G (Some p) -> mload (nPeers n) id = None) \/
     (mload (nPeers n') id = None /\ exists p, In p items /\ old_other now n p /\ id = GetIdOfPeer G (Some p))).
Proof.
  intros now all. induction items as [|p items IH]; intros n n' acts H; cbn [sync_loop] in H.
  - injection H as <- <-. split; [reflexivity|]. split; [reflexivity|]. split; [reflexivity|]. split.
    + intro x. split; [intros []|]. intros (p & a & [] & _).
    + intro id. left. split; [reflexivity|]. intros p [].
  - destruct (visit G now n all p) as [n1 a1] eqn:V. destruct (sync_loop G now n1 all items) as [n2 a2] eqn:SL.
    injection H as <- <-. destruct (IH _ _ _ SL) as (O & K1 & K2 & AC & PE).
    destruct (visit_cases _ _ _ _ _ _ V) as [EN VA]. destruct (check_ids now n p) as (C1 & C2 & C3 & _).
    rewrite <- EN in C1, C2, C3. pose proof (own_id_same _ _ C3) as OI.
    split; [congruence|]. split; [congruence|]. split; [congruence|]. split.
    + intro x. rewrite in_app_iff, VA, AC. unfold GetDifferentAddressOf. rewrite C3, OI.
      setoid_rewrite check_true. split.
      * intros [(a & X)|(q & a & IN & X)]; [exists p, a|exists q, a]; (split; [cbn; auto|tauto]).
      * intros (q & a & [<-|IN] & X); [left; exists a; tauto|right; exists q, a; tauto].
    + intro id. assert (OO : forall q, old_other now n1 q <-> old_other now n q) by (intro q; unfold old_other; rewrite OI; tauto).
      pose proof (check_mload now n p id) as CM. rewrite <- EN in CM.
      destruct (PE id) as [[P1 P2]|[P1 (q & IN & P2 & P3)]].
      * destruct CM as [CM|(CM & E & OLD)].
        { left. split; [congruence|]. intros q [<-|IN] OQ E; [|rewrite <- CM; apply (P2 q); auto; apply OO; exact OQ].
          rewrite <- CM. rewrite E, EN. apply check_drop. exact OQ. }
        { right. split; [congruence|]. exists p. cbn. auto. }
      * right. split; [exact P1|]. exists q. split; [right; exact IN|]. split; [apply OO; exact P2|exact P3].
Qed.

(** ** Addresses may be learned: the invariant of C74 *)
Section Truthful.
Variable route : nat -> bytes -> option nat.
Variable port : nat -> N.

Definition own_of (w : gworld) (k : nat) := own_addresses (gState (gNodes w k)).
Definition some_rec (w : gworld) (p : Peer) : Prop := exists k, incl (pAddressList p) (own_of w k).
Definition Itr (w : gworld) : Prop :=
  (forall m, In m (gMail w) -> some_rec w (mPeer m)) /\
  forall i,
    (forall a, In a (own_of w i) -> leads route a i) /\
    nPort (gState (gNodes w i)) = port i /\
    (forall x, In x (nPeers (gState (gNodes w i))) -> some_rec w (piPeer (snd x))) /\
    (forall all rest, In (all, rest) (gSyncs (gNodes w i)) -> Forall (some_rec w) all /\ Forall (some_rec w) rest) /\
    (forall name a, In (name, a) (gSources (gNodes w i)) -> exists k, k <> i /\ leads route a k).

Definition grows (w w' : gworld) : Prop := forall k, incl (own_of w k) (own_of w' k).
Lemma some_rec_grows : forall w w' p, grows w w' -> some_rec w p -> some_rec w' p.
Proof. intros w w' p H (k & I). exists k. eapply incl_tran; [exact I|apply H]. Qed.
Lemma grows_refl : forall w, grows w w.
Proof. intros w k. apply incl_refl. Qed.

(** A change of node i and of the mail. *)
Lemma Itr_change : forall w w' i g, Itr w ->
  (forall j, j <> i -> gNodes w' j = gNodes w j) -> gNodes w' i = g ->
  incl (own_addresses (gState (gNodes w i))) (own_addresses (gState g)) ->
  (forall m, In m (gMail w') -> In m (gMail w) \/ some_rec w' (mPeer m)) ->
  (forall a, In a (own_addresses (gState g)) -> leads route a i) ->
  nPort (gState g) = port i ->
  (forall x, In x (nPeers (gState g)) -> In x (nPeers (gState (gNodes w i))) \/ some_rec w' (piPeer (snd x))) ->
  (forall all rest, In (all, rest) (gSyncs g) ->
     (exists rest', In (all, rest') (gSyncs (gNodes w i)) /\ incl rest rest') \/ Forall (some_rec w') all /\ Forall (some_rec w') rest) ->
  (forall name a, In (name, a) (gSources g) ->
     In (name, a) (gSources (gNodes w i)) \/ exists k, k <> i /\ leads route a k) ->
  Itr w'.
Proof.
  intros w w' i g [IM IN] OTH SAME GR M OWN PT PE SY SO.
  assert (GRW : grows w w').
  { intro k. unfold own_of. destruct (Nat.eq_dec k i) as [->|NE]; [rewrite SAME; exact GR|rewrite OTH by auto; apply incl_refl]. }
  split.
  - intros m H. destruct (M m H) as [H'|H']; [|exact H']. eapply some_rec_grows; [exact GRW|]. auto.
  - intro j. destruct (IN j) as (I1 & I2 & I3 & I4 & I5). destruct (Nat.eq_dec j i) as [->|NE].
    + unfold own_of. rewrite SAME. split; [exact OWN|]. split; [exact PT|]. split.
      { intros x H. destruct (PE x H) as [H'|H']; [|exact H']. eapply some_rec_grows; [exact GRW|]. auto. }
      split.
      { intros all rest H. destruct (SY all rest H) as [(rest' & H' & INC)|H']; [|exact H'].
        destruct (I4 _ _ H') as [F1 F2]. split.
        - eapply Forall_impl; [|exact F1]. intros p. apply some_rec_grows. exact GRW.
        - rewrite Forall_forall in *. intros p X. eapply some_rec_grows; [exact GRW|]. apply F2, INC, X. }
      intros name a H. destruct (SO name a H) as [H'|H']; eauto.
    + unfold own_of. rewrite (OTH j NE). split; [exact I1|]. split; [exact I2|]. split.
      { intros x H. eapply some_rec_grows; [exact GRW|]. auto. }
      split; [|exact I5]. intros all rest H. destruct (I4 _ _ H) as [F1 F2].
      split; [eapply Forall_impl; [|exact F1]|eapply Forall_impl; [|exact F2]]; intros p; apply some_rec_grows; exact GRW.
Qed.

Lemma Itr_step : forall w e w', Itr w -> any_order e -> no_restart e -> truthful route port e ->
  gstep G inc route w e = Some w' -> Itr w'.
Proof.
  intros w e w' I AO NR TR H. pose proof I as [IM IN].
  destruct e as [i a now sv cf|k t1 t2|i a|i now ord|i k now|i now|i name a|i]; cbn [gstep] in H.
  - injection H as <-. destruct (IN i) as (I1 & I2 & I3 & I4 & I5).
    apply (Itr_change w _ i (gNodes w i) I).
    + auto.
    + reflexivity.
    + apply incl_refl.
    + intros m H. cbn [gMail] in H. apply in_app_iff in H. destruct H as [H|[<-|[]]]; [auto|]. right.
      exists i. unfold own_of. cbn [mPeer GetNodeInfo pAddressList gNodes]. apply incl_refl.
    + exact I1.
    + exact I2.
    + auto.
    + intros all rest H. left. exists rest. split; [exact H|apply incl_refl].
    + auto.
  - destruct (nth_error (gMail w) k) as [m|] eqn:E; [|discriminate H].
    destruct (route (mFrom m) (mTo m)) as [j|] eqn:R; [|discriminate H].
    destruct (AddPeerElement G inc t1 t2 (gState (gNodes w j)) (Some (mPeer m))) as [n| |] eqn:AD; try discriminate H.
    injection H as <-. destruct (IN j) as (I1 & I2 & I3 & I4 & I5).
    assert (C : own_addresses n = own_addresses (gState (gNodes w j)) /\ nPort n = nPort (gState (gNodes w j)) /\
      forall x, In x (nPeers n) -> In x (nPeers (gState (gNodes w j))) \/ exists q, piPeer (snd x) = sort_peer G (mPeer m) /\ q = tt).
    { destruct (add_cases G inc _ _ _ _ _ AD) as [->|(q & EQ & _ & _ & _ & ->)]; [auto|].
      injection EQ as <-. cbn. split; [reflexivity|]. split; [reflexivity|].
      intros x [<-|X]; [right; exists tt; auto|]. apply mdelete_incl in X. auto. }
    destruct C as (C1 & C2 & C3).
    apply (Itr_change w _ j (mkG n (gSyncs (gNodes w j)) (gSources (gNodes w j))) I); cbn [gState gSyncs gSources].
    + intros. apply set_g_other; auto.
    + apply set_g_same.
    + rewrite C1. apply incl_refl.
    + intros m' H. left. exact H.
    + rewrite C1. exact I1.
    + rewrite C2. exact I2.
    + intros x X. destruct (C3 x X) as [X'|(_ & E' & _)]; [auto|]. right. rewrite E'.
      apply nth_error_In in E. destruct (IM m E) as (k' & INC).
      exists k'. unfold own_of. intros b Hb. destruct (sort_peer_same G (mPeer m)) as (_ & _ & P & _).
      pose proof (INC b (Permutation_in b P Hb)) as Z. unfold own_of in Z.
      destruct (Nat.eq_dec k' j) as [->|NE]; [rewrite set_g_same; cbn [gState]; rewrite C1; exact Z|rewrite set_g_other by auto; exact Z].
    + intros all rest X. left. exists rest. split; [exact X|apply incl_refl].
    + intros. left. auto.
  - injection H as <-. destruct (IN i) as (I1 & I2 & I3 & I4 & I5).
    destruct (learn_own (gState (gNodes w i)) a) as (L1 & L2 & L3 & L4 & L5).
    apply (Itr_change w _ i (mkG (learn (gState (gNodes w i)) a) (gSyncs (gNodes w i)) (gSources (gNodes w i))) I);
      cbn [gState gSyncs gSources].
    + intros. apply set_g_other; auto.
    + apply set_g_same.
    + exact L1.
    + intros m' H. left. exact H.
    + intros b Hb. destruct (L5 b Hb) as [X|[NE ->]]; [apply I1; exact X|]. rewrite I2. cbn in TR. auto.
    + rewrite L4. exact I2.
    + rewrite L3. auto.
    + intros all rest X. left. exists rest. split; [exact X|apply incl_refl].
    + intros. left. auto.
  - injection H as <-. destruct (IN i) as (I1 & I2 & I3 & I4 & I5).
    match goal with |- Itr (set_g w i ?g) => apply (Itr_change w _ i g I) end; cbn [gState gSyncs gSources].
    + intros. apply set_g_other; auto.
    + apply set_g_same.
    + apply incl_refl.
    + intros m' H. left. exact H.
    + exact I1.
    + exact I2.
    + auto.
    + intros all rest X. apply in_app_iff in X. destruct X as [X|[X|[]]].
      { left. exists rest. split; [exact X|apply incl_refl]. }
      right. injection X as <- <-.
      assert (F : Forall (some_rec w) (ord (peer_items now (gState (gNodes w i))))).
      { rewrite Forall_forall. intros p X. apply (Permutation_in p (Permutation_sym (AO _))) in X.
        unfold peer_items in X. apply in_map_iff in X. destruct X as (y & <- & Y). apply filter_In in Y. apply I3. tauto. }
      assert (GRW : grows w (set_g w i (mkG (gState (gNodes w i)) (gSyncs (gNodes w i) ++ [(ord (peer_items now (gState (gNodes w i))), ord (peer_items now (gState (gNodes w i))))]) (gSources (gNodes w i))))).
      { intro k. unfold own_of. destruct (Nat.eq_dec k i) as [->|NE]; [rewrite set_g_same|rewrite set_g_other by auto]; apply incl_refl. }
      split; (eapply Forall_impl; [|exact F]); intros p; apply some_rec_grows; exact GRW.
    + intros. left. auto.
  - destruct (nth_error (gSyncs (gNodes w i)) k) as [[all [|p rest]]|] eqn:E; try discriminate H.
    destruct (visit G now (gState (gNodes w i)) all p) as [n acts] eqn:V.
    destruct (perform i (gSources (gNodes w i)) (gMail w) acts) as [src post] eqn:PF.
    destruct (list_set (gSyncs (gNodes w i)) k (all, rest)) as [syncs|] eqn:LS; [|discriminate H].
    injection H as <-. destruct (IN i) as (I1 & I2 & I3 & I4 & I5).
    destruct (visit_cases _ _ _ _ _ _ V) as [-> VA].
    destruct (check_ids now (gState (gNodes w i)) p) as (_ & _ & C1 & C2).
    destruct (perform_in _ _ _ _ _ _ PF) as [PS (new & -> & PN)].
    pose proof (nth_error_In _ _ E) as INS. destruct (I4 _ _ INS) as [F1 F2].
    set (n' := fst (CheckPeer G now (gState (gNodes w i)) p)) in *.
    set (w' := mkGW (gNodes (set_g w i (mkG n' syncs src))) (gMail w ++ new)).
    assert (GRW : grows w w').
    { intro k'. unfold own_of, w'. cbn [gNodes]. destruct (Nat.eq_dec k' i) as [->|NE]; [rewrite set_g_same; cbn [gState]; rewrite C1|rewrite set_g_other by auto]; apply incl_refl. }
    apply (Itr_change w w' i (mkG n' syncs src) I); cbn [gState gSyncs gSources].
    + intros. unfold w'. cbn [gNodes]. apply set_g_other; auto.
    + unfold w'. cbn [gNodes]. apply set_g_same.
    + rewrite C1. apply incl_refl.
    + intros m H. unfold w' in H. cbn [gMail] in H. apply in_app_iff in H. destruct H as [H|H]; [auto|]. right.
      apply PN in H. destruct H as (a & q & -> & H). apply VA in H.
      destruct H as (a' & _ & _ & _ & [(s & X & _)|[(q' & X & Q & _)|(c & X & _)]]); try discriminate X.
      injection X as -> ->. cbn [mPeer]. eapply some_rec_grows; [exact GRW|]. rewrite Forall_forall in F1. auto.
    + rewrite C1. exact I1.
    + rewrite C2. exact I2.
    + intros x X. left. unfold n', CheckPeer in X. destruct (isPeerSimilarToNode G _ _); [exact X|].
      destruct (IsRecent now (pTimestamp p)); [exact X|]. cbn in X. apply mdelete_incl in X. exact X.
    + intros al re X. left. destruct (list_set_in _ _ _ _ _ _ LS X) as [Y|Y].
      * injection Y as -> ->. exists (p :: rest). split; [exact INS|]. apply incl_tl, incl_refl.
      * exists re. split; [exact Y|apply incl_refl].
    + intros name a X. apply PS in X. destruct X as [X|(c & a' & X & Y)]; [auto|]. right.
      injection X as -> ->. apply VA in Y. destruct Y as (a'' & NE & _ & DA & [(s & Y & _)|[(q' & Y & _)|(c' & Y & _)]]); try discriminate Y.
      injection Y as -> ->. apply Forall_inv in F2. destruct F2 as (k' & INC).
      destruct (fd_split _ _ _ DA NE) as (u & v & EQ & NI & _). rewrite C1 in NI.
      assert (IK : In a'' (own_of w k')) by (apply INC; rewrite EQ; apply in_or_app; right; left; reflexivity).
      exists k'. split; [|destruct (IN k') as (J1 & _); apply J1; exact IK].
      intros ->. apply NI. exact IK.
  - injection H as <-. destruct (IN i) as (I1 & I2 & I3 & I4 & I5).
    match goal with |- Itr (set_g w i ?g) => apply (Itr_change w _ i g I) end; cbn [gState gSyncs gSources purge set_peers nPeers nPort].
    + intros. apply set_g_other; auto.
    + apply set_g_same.
    + apply incl_refl.
    + intros m' H. left. exact H.
    + exact I1.
    + exact I2.
    + intros x X. apply filter_In in X. tauto.
    + intros all rest X. left. exists rest. split; [exact X|apply incl_refl].
    + intros. left. auto.
  - injection H as <-. destruct (IN i) as (I1 & I2 & I3 & I4 & I5).
    match goal with |- Itr (set_g w i ?g) => apply (Itr_change w _ i g I) end; cbn [gState gSyncs gSources].
    + intros. apply set_g_other; auto.
    + apply set_g_same.
    + apply incl_refl.
    + intros m' H. left. exact H.
    + exact I1.
    + exact I2.
    + auto.
    + intros all rest X. left. exists rest. split; [exact X|apply incl_refl].
    + intros name' a' X. apply filter_In in X. tauto.
  - contradiction.
Qed.

Lemma Itr_run : forall es w w', Itr w ->
  Forall (fun e => any_order e /\ no_restart e /\ truthful route port e) es ->
  grun G inc route w es = Some w' -> Itr w'.
Proof.
  induction es as [|e es IH]; intros w w' I F H; cbn in H; [injection H as <-; exact I|].
  inversion F as [|? ? (F1 & F2 & F3) F']; subst. destruct (gstep G inc route w e) as [w1|] eqn:E; [|discriminate H].
  eapply IH; [eapply Itr_step; eauto|exact F'|exact H].
Qed.
End Truthful.
End P.
