(** C162: how many requests a synchronisation sends. *)
From Verif.Base Require Import GoBase GoLemmas GoSort Assoc Float.
From Verif.Model Require Import Codec Store Data Insert Dataset Node Gossip.
From Verif.Spec Require Import NodeSpec GossipSpec ChatterSpec.
From Verif.Proof Require Import SyncP NodeP GossipP.
From Verif.Props Require Import GossipProps.
Open Scope nat_scope.

Lemma requests_app : forall l l', requests (l ++ l') = requests l ++ requests l'.
Proof. intros. apply flat_map_app. Qed.
Lemma requests_services : forall l, requests (map AService l) = [].
Proof. induction l; auto. Qed.
Lemma requests_sources : forall a l, requests (map (fun c => ASource c a) l) = [].
Proof. induction l; auto. Qed.
Lemma requests_sends : forall a l, a <> [] ->
  requests (flat_map (SendAddPeerRequest a) l) =
  map (fun q => (a, q)) (filter (fun q => negb (existsb (bytes_eqb a) (pAddressList q))) l).
Proof.
  intros a l N. induction l as [|q l IH]; [reflexivity|]. cbn [flat_map filter]. rewrite requests_app, IH.
  unfold SendAddPeerRequest. rewrite fd_one. destruct (existsb (bytes_eqb a) (pAddressList q)); cbn [negb]; [reflexivity|].
  destruct a; [congruence|reflexivity].
Qed.

(** The requests of a synchronisation, in order. *)
Definition to_peer (G : go_sort) (now : Z) (n : nstate) (all : list Peer) (p : Peer) : list (bytes * Peer) :=
  if negb (isPeerSimilarToNode G n (Some p)) && IsRecent now (pTimestamp p) then
    match GetDifferentAddressOf n p with
    | [] => []
    | a => map (fun q => (a, q)) (filter (fun q => negb (existsb (bytes_eqb a) (pAddressList q))) all)
    end
  else [].

Lemma to_peer_same : forall G now n n' all p, own_addresses n' = own_addresses n ->
  to_peer G now n' all p = to_peer G now n all p.
Proof. intros G now n n' all p E. unfold to_peer, isPeerSimilarToNode, own_id, GetDifferentAddressOf. rewrite E. reflexivity. Qed.

Lemma visit_requests : forall G now n all p n' acts, visit G now n all p = (n', acts) ->
  own_addresses n' = own_addresses n /\ requests acts = to_peer G now n all p.
Proof.
  intros G now n all p n' acts H. unfold visit in H.
  destruct (check_ids G now n p) as (_ & _ & O & _).
  destruct (CheckPeer G now n p) as [n1 ok] eqn:C. cbn [fst] in O.
  assert (OK : ok = negb (isPeerSimilarToNode G n (Some p)) && IsRecent now (pTimestamp p)).
  { unfold CheckPeer in C. destruct (isPeerSimilarToNode G n (Some p)); [injection C as _ <-; reflexivity|].
    destruct (IsRecent now (pTimestamp p)); injection C as _ <-; reflexivity. }
  unfold to_peer. rewrite <- OK. destruct ok; cbn [negb] in H.
  - replace (GetDifferentAddressOf n p) with (GetDifferentAddressOf n1 p) by (unfold GetDifferentAddressOf; rewrite O; reflexivity).
    destruct (GetDifferentAddressOf n1 p) as [|c a]; injection H as <- <-; [split; [exact O|reflexivity]|]. split; [exact O|].
    rewrite !requests_app, requests_services, requests_sources, requests_sends by discriminate. apply app_nil_r.
  - injection H as <- <-. auto.
Qed.

Lemma sync_requests : forall G now all items n n' acts, sync_loop G now n all items = (n', acts) ->
  requests acts = flat_map (to_peer G now n all) items.
Proof.
  intros G now all. induction items as [|p items IH]; intros n n' acts H; cbn [sync_loop] in H.
  - injection H as <- <-. reflexivity.
  - destruct (visit G now n all p) as [n1 a1] eqn:V. destruct (sync_loop G now n1 all items) as [n2 a2] eqn:S.
    injection H as <- <-. destruct (visit_requests _ _ _ _ _ _ _ V) as [O R]. rewrite requests_app, R, (IH _ _ _ S).
    cbn [flat_map]. f_equal. apply flat_map_ext. intro q. apply to_peer_same, O.
Qed.

Lemma fd_in : forall l0 l1 a, FirstDifferent l0 l1 = a -> a <> [] -> In a l1.
Proof. intros l0 l1 a H N. destruct (fd_split _ _ _ H N) as (u & v & -> & _). apply in_elt. Qed.
Lemma filter_shorter : forall A (f : A -> bool) l, length (filter f l) <= length l.
Proof. induction l as [|y l IH]; [reflexivity|]. cbn [filter length]. destruct (f y); cbn [length]; lia. Qed.
Lemma filter_miss : forall A (f : A -> bool) l x, In x l -> f x = false -> S (length (filter f l)) <= length l.
Proof.
  intros A f. induction l as [|y l IH]; intros x [] E; cbn [filter length].
  - subst. rewrite E. pose proof (filter_shorter _ f l). lia.
  - pose proof (IH x H E). destruct (f y); cbn [length]; lia.
Qed.
Lemma to_peer_small : forall G now n all p, In p all -> length (to_peer G now n all p) <= length all - 1.
Proof.
  intros G now n all p I. unfold to_peer. destruct (negb _ && _); [|cbn; lia].
  destruct (GetDifferentAddressOf n p) as [|c a] eqn:D; [cbn; lia|]. rewrite map_length.
  assert (X : In (c :: a) (pAddressList p)) by (eapply fd_in; [exact D|discriminate]).
  pose proof (filter_miss _ (fun q => negb (existsb (bytes_eqb (c :: a)) (pAddressList q))) all p I) as M.
  cbv beta in M. rewrite (proj2 (existsb_eq (c :: a) (pAddressList p)) X) in M. specialize (M eq_refl). lia.
Qed.
Lemma flat_map_small : forall A B (f : A -> list B) k l, (forall x, In x l -> length (f x) <= k) -> length (flat_map f l) <= length l * k.
Proof.
  intros A B f k. induction l as [|x l IH]; intro H; [reflexivity|]. cbn [flat_map length]. rewrite app_length.
  pose proof (H x (or_introl eq_refl)). specialize (IH (fun y Y => H y (or_intror Y))). lia.
Qed.

(** A node that lists p peers sends at most p (p - 1) requests in a synchronisation,
    whatever it lists. *)
Theorem C162_bounded : forall G now n items n' acts,
  SyncWithPeers G now n items = (n', acts) ->
  length (requests acts) <= length items * (length items - 1).
Proof.
  intros G now n items n' acts H. unfold SyncWithPeers in H. rewrite (sync_requests _ _ _ _ _ _ _ H).
  apply flat_map_small. intros p I. apply to_peer_small, I.
Qed.
Print Assumptions C162_bounded.

Lemma told_id : forall G now n p, (0 <= now)%Z -> (seconds now < 18446744073709551616)%Z ->
  Forall plain (pAddressList p) -> (pTimestamp p + 300 < M64)%N -> Forall plain (nKnownIds n ++ nAdvertisedIds n) ->
  forall a, told now n p a <->
  a <> [] /\ negb (isPeerSimilarToNode G n (Some p)) && IsRecent now (pTimestamp p) = true /\ GetDifferentAddressOf n p = a.
Proof.
  intros G now n p P0 P1 FP TS FO a.
  assert (FO' : Forall plain (own_addresses n)).
  { rewrite Forall_forall in *. intros x X. apply FO. unfold own_addresses in X. rewrite unique_mem in X. exact X. }
  assert (OT : ~ Permutation (pAddressList p) (own_addresses n) <-> isPeerSimilarToNode G n (Some p) = false).
  { unfold isPeerSimilarToNode. rewrite bytes_eqb_neq. unfold own_id, GetIdOfPeer, SerializeStringArray. cbn [snd].
    assert (PF : forall l, Forall plain l -> Forall plain (sort_run G string_less l)).
    { intros l F. rewrite Forall_forall in *. intros x X. apply F. eapply Permutation_in; [|exact X]. apply Permutation_sym, sort_perm. }
    split.
    - intros N E. apply N. apply join_inj in E; auto.
      eapply perm_trans; [apply sort_perm|]. rewrite <- E. apply Permutation_sym, sort_perm.
    - intros N PP. apply N. rewrite (sort_perm_eq G _ _ PP). reflexivity. }
  assert (FR : (seconds now < Z.of_N (pTimestamp p) + 300)%Z <-> IsRecent now (pTimestamp p) = true).
  { unfold IsRecent, getCurrentTime. fold (seconds now).
    assert (0 <= seconds now)%Z by (unfold seconds; apply Z.div_pos; lia).
    rewrite Z.mod_small by lia. rewrite u64_small by exact TS. rewrite N.ltb_lt. lia. }
  unfold told. rewrite OT, FR, andb_true_iff, negb_true_iff.
  assert (CO : contact_of n p a -> a <> []).
  { intros (u & v & E & _) ->. rewrite E in FP. apply Forall_app in FP.
    destruct FP as [_ FP]. apply Forall_inv in FP. destruct FP as [X _]. congruence. }
  split.
  - intros (A & B & C). pose proof (CO C) as N. split; [exact N|]. split; [auto|]. apply contact_spec; auto.
  - intros (N & [A B] & C). split; [auto|]. split; [auto|]. apply contact_spec; auto.
Qed.

Lemma forall2_map : forall A B (P : A -> B -> Prop) f l, (forall x, In x l -> P x (f x)) -> Forall2 P l (map f l).
Proof. induction l as [|x l IH]; intro H; constructor; [apply H; left; reflexivity|apply IH; intros y Y; apply H; right; exact Y]. Qed.

(** Which ones: for every listed peer that is told, in the order of the list, one request
    about each listed record that does not contain the address, in the order of the list. *)
Theorem C162_exactly : forall G now n items n' acts,
  SyncWithPeers G now n items = (n', acts) -> ordinary_time now -> ordinary n items ->
  exists per, requests acts = concat per /\
    Forall2 (fun p l =>
      (forall a, told now n p a ->
         exists qs, l = map (fun q => (a, q)) qs /\
           (forall q, In q qs <-> In q items /\ ~ In a (pAddressList q)) /\
           (NoDup items -> NoDup qs)) /\
      ((forall a, ~ told now n p a) -> l = [])) items per.
Proof.
  intros G now n items n' acts H [T0 T1] [OI OO]. unfold SyncWithPeers in H.
  exists (map (to_peer G now n items) items). split; [rewrite (sync_requests _ _ _ _ _ _ _ H); apply flat_map_concat_map|].
  rewrite Forall_forall in OI.
  assert (K : forall p, In p items ->
    (forall a, told now n p a ->
         exists qs, to_peer G now n items p = map (fun q => (a, q)) qs /\
           (forall q, In q qs <-> In q items /\ ~ In a (pAddressList q)) /\ (NoDup items -> NoDup qs)) /\
    ((forall a, ~ told now n p a) -> to_peer G now n items p = [])).
  { intros p I. destruct (OI p I) as [FP TS]. pose proof (told_id G now n p T0 T1 FP TS OO) as TI. unfold to_peer. split.
    - intros a HT. apply TI in HT. destruct HT as (N & R & D). rewrite R, D. destruct a as [|c a]; [congruence|].
      eexists. split; [reflexivity|]. split; [|intro ND; apply NoDup_filter, ND].
      intro q. rewrite filter_In, negb_true_iff, existsb_neq. reflexivity.
    - intro NT. destruct (negb _ && _) eqn:R; [|reflexivity].
      destruct (GetDifferentAddressOf n p) as [|c a] eqn:D; [reflexivity|].
      exfalso. apply (NT (c :: a)), TI. split; [discriminate|auto]. }
  apply (forall2_map _ _ _ _ _ K).
Qed.
Print Assumptions C162_exactly.

Lemma forall2_len : forall A B (P : A -> B -> Prop) l l', Forall2 P l l' -> length l = length l'.
Proof. intros A B P l l' H. induction H; cbn [length]; congruence. Qed.
Lemma filter_all : forall A (f : A -> bool) l, (forall x, In x l -> f x = true) -> filter f l = l.
Proof.
  induction l as [|y l IH]; intro H; [reflexivity|]. cbn [filter]. rewrite (H y) by (left; reflexivity). f_equal.
  apply IH. intros x X. apply H. right. exact X.
Qed.
Lemma flat_map_exact : forall A B (f : A -> list B) k l, (forall x, In x l -> length (f x) = k) -> length (flat_map f l) = length l * k.
Proof.
  intros A B f k. induction l as [|x l IH]; intro H; [reflexivity|]. cbn [flat_map length]. rewrite app_length.
  pose proof (H x (or_introl eq_refl)). specialize (IH (fun y Y => H y (or_intror Y))). lia.
Qed.
Lemma others_length : forall n i, i < n -> length (filter (fun j => negb (Nat.eqb j i)) (seq 0 n)) = n - 1.
Proof.
  intros n i L. destruct (in_split i (seq 0 n)) as (u & v & E); [apply in_seq; lia|].
  pose proof (seq_NoDup n 0) as ND. rewrite E in ND. apply NoDup_remove_2 in ND. rewrite in_app_iff in ND.
  assert (K : forall x, In x u \/ In x v -> negb (Nat.eqb x i) = true).
  { intros x X. apply negb_true_iff, Nat.eqb_neq. intros ->. contradiction. }
  pose proof (seq_length n 0) as LE. rewrite E in LE |- *. rewrite app_length in LE. cbn [length] in LE.
  rewrite filter_app. cbn [filter]. rewrite Nat.eqb_refl. cbn [negb]. rewrite !filter_all by auto. rewrite app_length. lia.
Qed.

(** In a cluster of n nodes with different addresses, a node that lists all the others
    sends (n - 1) (n - 2) requests. *)
Theorem C162_mesh : forall G now A n i s items s' acts,
  SyncWithPeers G now s items = (s', acts) -> ordinary_time now -> ordinary s items ->
  own_places A n -> i < n -> own_addresses s = A i -> lists_others A now n i items ->
  length (requests acts) = (n - 1) * (n - 2).
Proof.
  intros G now A n i s items s' acts H [T0 T1] [OI OO] [AN AD] Li OW (js & PJ & F).
  unfold SyncWithPeers in H. rewrite (sync_requests _ _ _ _ _ _ _ H).
  assert (LJ : length items = n - 1).
  { rewrite <- (forall2_len _ _ _ _ _ F), (Permutation_length PJ). apply others_length, Li. }
  assert (NJ : NoDup js).
  { eapply Permutation_NoDup; [apply Permutation_sym, PJ|]. apply NoDup_filter, seq_NoDup. }
  assert (JJ : forall j, In j js -> j < n /\ j <> i).
  { intros j I. apply (Permutation_in _ PJ) in I. apply filter_In in I. destruct I as [I N].
    apply in_seq in I. apply negb_true_iff, Nat.eqb_neq in N. lia. }
  rewrite (flat_map_exact _ _ _ (n - 2)); [rewrite LJ; reflexivity|].
  intros p I. apply in_split in I. destruct I as (u & v & E). subst items.
  apply Forall2_app_inv_r in F. destruct F as (ju & jv' & FU & FV & EJ).
  inversion FV as [|j p0 jv v0 [RP FR] FV' E1 E2]. subst p0 v0 jv' js. clear FV.
  destruct (JJ j (in_elt j ju jv)) as [Lj Nj].
  assert (D : exists a, GetDifferentAddressOf s p = a /\ In a (A j)).
  { unfold GetDifferentAddressOf. rewrite OW. destruct (pAddressList p) as [|a l] eqn:EP.
    - exfalso. destruct (AN j Lj) as [N _]. apply N. apply Permutation_nil. unfold record_of in RP. rewrite EP in RP. exact RP.
    - exists a. cbn [FirstDifferent]. assert (IA : In a (A j)) by (apply (Permutation_in _ RP); rewrite EP; left; reflexivity).
      split; [|exact IA]. destruct (existsb (bytes_eqb a) (A i)) eqn:B; [|reflexivity].
      apply existsb_eq in B. exfalso. apply Nj. exact (AD j i a Lj Li IA B). }
  destruct D as (a & D & IA).
  rewrite Forall_forall in OI. destruct (OI p (in_elt p u v)) as [FP TS].
  assert (IP : In a (pAddressList p)) by (apply (Permutation_in _ (Permutation_sym RP)), IA).
  assert (NA : a <> []).
  { rewrite Forall_forall in FP. destruct (FP a IP) as [X _]. exact X. }
  assert (TP : told now s p a).
  { split; [|split; [exact FR|apply contact_spec; auto]]. rewrite OW. intro PP. apply Nj.
    apply (AD j i a Lj Li IA). exact (Permutation_in _ PP IP). }
  apply (told_id G now s p T0 T1 FP TS OO) in TP. destruct TP as (_ & R & _). unfold to_peer. rewrite R, D.
  assert (KO : forall jl l q, Forall2 (fun j p => record_of A j p /\ (seconds now < Z.of_N (pTimestamp p) + 300)%Z) jl l ->
    (forall k, In k jl -> k < n /\ k <> j) -> In q l -> negb (existsb (bytes_eqb a) (pAddressList q)) = true).
  { intros jl l q FL K I. induction FL as [|k q0 jl l [RQ _] FL IHF]; [contradiction|]. destruct I as [<-|I].
    - apply negb_true_iff, existsb_neq. intro X. destruct (K k (or_introl eq_refl)) as [Lk Nk].
      apply Nk. apply (AD k j a Lk Lj); [|exact IA]. exact (Permutation_in _ RQ X).
    - apply IHF; [|exact I]. intros k' I'. apply K. right. exact I'. }
  apply NoDup_remove_2 in NJ. rewrite in_app_iff in NJ.
  rewrite app_length in LJ. cbn [length] in LJ.
  destruct a as [|c a]; [congruence|]. rewrite map_length, filter_app. cbn [filter].
  rewrite (proj2 (existsb_eq (c :: a) (pAddressList p)) IP). cbn [negb].
  rewrite !filter_all, app_length; [lia| |].
  - intros q Q. apply (KO jv v q FV'); [|exact Q]. intros k I. split; [apply JJ, in_app_iff; right; right; exact I|].
    intros ->. apply NJ. right. exact I.
  - intros q Q. apply (KO ju u q FU); [|exact Q]. intros k I. split; [apply JJ, in_app_iff; left; exact I|].
    intros ->. apply NJ. left. exact I.
Qed.
Print Assumptions C162_mesh.

(** All nodes of such a cluster together: n (n - 1) (n - 2) requests in a round. *)
Theorem C162_cluster : forall G A n now s items s' acts,
  own_places A n ->
  (forall i, i < n -> SyncWithPeers G (now i) (s i) (items i) = (s' i, acts i) /\
     ordinary_time (now i) /\ ordinary (s i) (items i) /\
     own_addresses (s i) = A i /\ lists_others A (now i) n i (items i)) ->
  list_sum (map (fun i => length (requests (acts i))) (seq 0 n)) = n * (n - 1) * (n - 2).
Proof.
  intros G A n now s items s' acts OP H.
  assert (K : forall l, (forall i, In i l -> i < n) ->
    list_sum (map (fun i => length (requests (acts i))) l) = length l * ((n - 1) * (n - 2))).
  { induction l as [|i l IH]; intro B; [reflexivity|]. cbn [map list_sum fold_right length].
    change (fold_right Nat.add 0 (map (fun i => length (requests (acts i))) l)) with (list_sum (map (fun i => length (requests (acts i))) l)).
    rewrite IH by (intros k I; apply B; right; exact I).
    destruct (H i (B i (or_introl eq_refl))) as (S & T & O & W & L).
    rewrite (C162_mesh G (now i) A n i (s i) (items i) (s' i) (acts i) S T O OP (B i (or_introl eq_refl)) W L). lia. }
  rewrite K by (intros i I; apply in_seq in I; lia). rewrite seq_length. lia.
Qed.
Print Assumptions C162_cluster.

(** Joining: one request for every service and every address of every listed peer that
    is not the node's own; how often an address is listed does matter. *)
Theorem C162_joins : forall n services items,
  length (JoinToPeers n services items) <= length services + list_sum (map (fun p => length (pAddressList p)) items) /\
  ((forall p a, In p items -> In a (pAddressList p) -> ~ In a (nKnownIds n) /\ ~ In a (nAdvertisedIds n)) ->
   length (JoinToPeers n services items) = length services + list_sum (map (fun p => length (pAddressList p)) items)).
Proof.
  intros n services items. unfold JoinToPeers. rewrite app_length. split.
  - apply Nat.add_le_mono_l. induction items as [|p l IH]; [reflexivity|]. cbn [flat_map map list_sum fold_right].
    rewrite app_length. pose proof (filter_shorter _ (fun a => negb (existsb (bytes_eqb a) (own_addresses n))) (pAddressList p)).
    unfold list_sum in IH. lia.
  - intro H. f_equal. induction items as [|p l IH]; [reflexivity|]. cbn [flat_map map list_sum fold_right].
    rewrite app_length. rewrite filter_all.
    + unfold list_sum in IH. rewrite IH; [reflexivity|]. intros q a I. apply H. right. exact I.
    + intros a I. apply negb_true_iff, existsb_neq. unfold own_addresses, unique. rewrite unique_in, in_app_iff.
      destruct (H p a (or_introl eq_refl) I). cbn [In]. tauto.
Qed.
Print Assumptions C162_joins.

(** Four nodes that list each other: node 0 sends six requests. *)
Definition place (i : nat) : list bytes := [bs "n" ++ N.of_nat (48 + i) :: bs ":80"].
Definition heard (i : nat) : Peer := mkPeer [] 900 (place i) [bs "svc"] [].
Definition four_self : nstate := mkN [] 80 [] (place 0) [].
Example C162_instance :
  (exists s' acts, SyncWithPeers insertion_sort (gsec 1000) four_self [heard 2; heard 1; heard 3] = (s', acts) /\
     map (fun x => fst x) (requests acts) = [bs "n2:80"; bs "n2:80"; bs "n1:80"; bs "n1:80"; bs "n3:80"; bs "n3:80"] /\
     requests acts = [(bs "n2:80", heard 1); (bs "n2:80", heard 3); (bs "n1:80", heard 2); (bs "n1:80", heard 3);
                      (bs "n3:80", heard 2); (bs "n3:80", heard 1)]) /\
  ordinary_time (gsec 1000) /\ ordinary four_self [heard 2; heard 1; heard 3] /\ own_places place 4 /\
  own_addresses four_self = place 0 /\ lists_others place (gsec 1000) 4 0 [heard 2; heard 1; heard 3].
Proof.
  split; [eexists; eexists; split; [reflexivity|split; reflexivity]|].
  split; [split; [discriminate|reflexivity]|]. split.
  { split.
    - repeat (constructor; [split; [constructor; [split; [discriminate|intros X; cbn in X; intuition discriminate]|constructor]|reflexivity]|]).
      constructor.
    - constructor; [split; [discriminate|intros X; cbn in X; intuition discriminate]|constructor]. }
  split.
  { split; [intros i _; split; [discriminate|constructor; [intros []|constructor]]|].
    intros i j a Li Lj [<-|[]] [E|[]]. unfold place in E. apply app_inv_head in E.
    pose proof (f_equal (hd 0%N) E) as E'. cbn [hd] in E'. apply Nnat.Nat2N.inj in E'. clear E. lia. }
  split; [reflexivity|]. exists [2; 1; 3]. split; [apply perm_swap|].
  repeat (constructor; [split; [apply Permutation_refl|reflexivity]|]). constructor.
Qed.

(** If records share an address, or are old, fewer requests are sent. *)
Example C162_instance_less :
  exists s' acts, SyncWithPeers insertion_sort (gsec 1000) four_self
      [heard 1; mkPeer [] 900 [bs "n1:80"; bs "n2:80"] [] []; mkPeer [] 500 (place 3) [] []] = (s', acts) /\
    requests acts = [(bs "n1:80", mkPeer [] 500 (place 3) [] []); (bs "n1:80", mkPeer [] 500 (place 3) [] [])].
Proof. eexists; eexists; split; reflexivity. Qed.
Example C162_instance_joins :
  JoinToPeers four_self [bs "svc"] [heard 1; heard 0; heard 1] = [bs "svc"; bs "n1:80"; bs "n1:80"].
Proof. reflexivity. Qed.
