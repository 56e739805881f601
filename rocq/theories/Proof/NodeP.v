(** Lemmas about peers and addresses. *)
From Verif.Base Require Import GoBase GoLemmas GoSort Assoc Float.
From Verif.Model Require Import Codec Store Data Insert Dataset Node.
From Verif.Spec Require Import NodeSpec.
From Verif.Proof Require Import SyncP.
From Coq Require DecimalFacts DecimalN.
Open Scope N_scope.
Ltac Zify.zify_post_hook ::= Z.div_mod_to_equations.

(** ** The order of strings *)
Lemma less_irr : forall a, string_less a a = false.
Proof. induction a as [|x a IH]; cbn; auto. rewrite N.ltb_irrefl. exact IH. Qed.

Ltac lt_cases := repeat match goal with
  | H : (if ?x <? ?y then _ else _) = _ |- _ => destruct (N.ltb_spec x y)
  | |- (if ?x <? ?y then _ else _) = _ => destruct (N.ltb_spec x y)
  end; try discriminate; try lia; auto.

Lemma less_trans : forall a b c, string_less a b = true -> string_less b c = true -> string_less a c = true.
Proof.
  induction a as [|x a IH]; intros [|y b] [|z c] H1 H2; cbn in *; try discriminate; auto.
  lt_cases. eapply IH; eauto.
Qed.
Lemma less_neg : forall a b c, string_less a b = false -> string_less b c = false -> string_less a c = false.
Proof.
  induction a as [|x a IH]; intros [|y b] [|z c] H1 H2; cbn in *; try discriminate; auto.
  lt_cases. eapply IH; eauto.
Qed.
Lemma less_total : forall a b, string_less a b = false -> string_less b a = false -> a = b.
Proof.
  induction a as [|x a IH]; intros [|y b] H1 H2; cbn in *; try discriminate; auto.
  lt_cases. assert (x = y) by lia. subst. f_equal. apply IH; auto.
Qed.
Lemma less_swo : forall P, swo string_less P.
Proof.
  intro P. constructor.
  - intros; apply less_irr.
  - intros x y z _ _ _. apply less_trans.
  - intros x y z _ _ _. apply less_neg.
Qed.

(** A sorted list is determined by its elements. *)
Lemma sorted_unique : forall l l', sorted string_less l -> sorted string_less l' -> Permutation l l' -> l = l'.
Proof.
  induction l as [|x l IH]; intros l' S1 S2 P.
  - apply Permutation_nil in P. auto.
  - destruct l' as [|y l']; [apply Permutation_sym, Permutation_nil in P; discriminate P|].
    assert (E : x = y).
    { inversion S1 as [|? ? S1' F1]; inversion S2 as [|? ? S2' F2]; subst. rewrite Forall_forall in F1, F2.
      assert (IX : In x (y :: l')) by (eapply Permutation_in; [exact P|left; auto]).
      assert (IY : In y (x :: l)) by (eapply Permutation_in; [apply Permutation_sym; exact P|left; auto]).
      destruct IX as [IX|IX]; [auto|]. destruct IY as [IY|IY]; [auto|].
      apply less_total; [apply F2|apply F1]; auto. }
    subst y. apply Permutation_cons_inv in P. f_equal. apply IH; auto.
    + inversion S1; auto.
    + inversion S2; auto.
Qed.

Lemma sort_perm_eq : forall G l l', Permutation l l' -> sort_run G string_less l = sort_run G string_less l'.
Proof.
  intros G l l' P. apply sorted_unique.
  - apply sort_sorted, less_swo.
  - apply sort_sorted, less_swo.
  - eapply perm_trans; [apply Permutation_sym, sort_perm|]. eapply perm_trans; [exact P|apply sort_perm].
Qed.

(** ** Joining *)
Lemma split_plain : forall x rest, ~ In comma x ->
  split_comma (x ++ comma :: rest) = x :: split_comma rest.
Proof.
  induction x as [|c x IH]; intros rest H; cbn [app split_comma].
  - reflexivity.
  - destruct (N.eqb_spec c comma) as [->|NE]; [exfalso; apply H; left; auto|].
    rewrite IH by (intro X; apply H; right; auto). reflexivity.
Qed.
Lemma split_one : forall x, ~ In comma x -> split_comma x = [x].
Proof.
  induction x as [|c x IH]; intro H; cbn [split_comma]; auto.
  destruct (N.eqb_spec c comma) as [->|NE]; [exfalso; apply H; left; auto|].
  rewrite IH by (intro X; apply H; right; auto). reflexivity.
Qed.
Lemma split_join : forall l, l <> [] -> Forall (fun x => ~ In comma x) l -> split_comma (join comma l) = l.
Proof.
  induction l as [|x l IH]; intros NE F; [congruence|]. inversion F; subst.
  destruct l as [|y l]; [apply split_one; auto|].
  change (join comma (x :: y :: l)) with (x ++ comma :: join comma (y :: l)).
  rewrite split_plain by auto. f_equal. apply IH; auto. discriminate.
Qed.
Lemma join_inj : forall l l', Forall plain l -> Forall plain l' -> join comma l = join comma l' -> l = l'.
Proof.
  intros l l' F F' E.
  assert (NE : forall l, Forall plain l -> l <> [] -> join comma l <> []).
  { intros [|x q] Fq N; [congruence|]. inversion Fq as [|? ? [X _] _]; subst. destruct q; cbn; [exact X|].
    destruct x; [congruence|discriminate]. }
  assert (C : forall l, Forall plain l -> Forall (fun x => ~ In comma x) l).
  { intros q Fq. eapply Forall_impl; [|exact Fq]. intros a [_ A]. exact A. }
  destruct l as [|x l].
  - destruct l' as [|y l']; auto. exfalso. apply (NE _ F'); [discriminate|]. auto.
  - destruct l' as [|y l']; [exfalso; apply (NE _ F); [discriminate|auto]|].
    rewrite <- (split_join (x :: l)), <- (split_join (y :: l')); auto; try discriminate. rewrite E. reflexivity.
Qed.

(** ** unique *)
Lemma existsb_eq : forall x l, existsb (bytes_eqb x) l = true <-> In x l.
Proof.
  intros x l. rewrite existsb_exists. split.
  - intros (y & IN & E). apply bytes_eqb_spec in E. subst. auto.
  - intro IN. exists x. split; [auto|apply bytes_eqb_refl].
Qed.
Lemma existsb_neq : forall x l, existsb (bytes_eqb x) l = false <-> ~ In x l.
Proof.
  intros x l. rewrite <- existsb_eq. destruct (existsb _ _); split; intro H; auto; try discriminate. exfalso; auto.
Qed.
Lemma unique_in : forall l keys x, In x (unique_from keys l) <-> In x l /\ ~ In x keys.
Proof.
  induction l as [|y l IH]; intros keys x; cbn [unique_from].
  - cbn. tauto.
  - destruct (existsb (bytes_eqb y) keys) eqn:E.
    + apply existsb_eq in E. rewrite IH. cbn. split; [tauto|]. intros [[->|H] N]; [contradiction|auto].
    + apply existsb_neq in E. cbn. rewrite IH. cbn. split.
      * intros [->|[H N]]; [auto|]. split; [auto|]. intro X. apply N. auto.
      * intros [[->|H] N]; [auto|]. destruct (bytes_eqb y x) eqn:B.
        { apply bytes_eqb_spec in B. auto. }
        right. split; [auto|]. intros [->|X]; [rewrite bytes_eqb_refl in B; discriminate B|contradiction].
Qed.
Lemma unique_nodup : forall l keys, NoDup (unique_from keys l).
Proof.
  induction l as [|y l IH]; intro keys; cbn [unique_from]; [constructor|].
  destruct (existsb (bytes_eqb y) keys); [apply IH|]. constructor; [|apply IH].
  rewrite unique_in. intros [_ H]. apply H. left. reflexivity.
Qed.
Lemma unique_order : forall l keys l1 x l2, l = l1 ++ x :: l2 -> ~ In x l1 -> ~ In x keys ->
  exists u1 u2, unique_from keys l = u1 ++ x :: u2 /\ forall z, In z u1 <-> In z l1 /\ ~ In z keys.
Proof.
  induction l as [|y l IH]; intros keys l1 x l2 E N1 N2; [destruct l1; discriminate E|].
  destruct l1 as [|y' l1].
  - cbn in E. injection E as -> ->. cbn [unique_from]. rewrite (proj2 (existsb_neq x keys) N2).
    exists [], (unique_from (x :: keys) l2). split; [reflexivity|]. cbn. tauto.
  - cbn in E. injection E as <- E. cbn [unique_from].
    assert (N1' : ~ In x l1) by (intro; apply N1; right; auto).
    destruct (existsb (bytes_eqb y) keys) eqn:B.
    + apply existsb_eq in B. destruct (IH keys l1 x l2 E N1' N2) as (u1 & u2 & E1 & E2).
      exists u1, u2. split; [exact E1|]. intro z. rewrite E2. cbn. split; [tauto|]. intros [[->|H] N]; [contradiction|auto].
    + apply existsb_neq in B.
      destruct (IH (y :: keys) l1 x l2 E N1') as (u1 & u2 & E1 & E2).
      { intros [->|X]; [apply N1; left; auto|contradiction]. }
      exists (y :: u1), u2. split; [rewrite E1; reflexivity|]. intro z. cbn. rewrite E2. cbn. split.
      * intros [->|[H N]]; [auto|]. split; [auto|]. intro X. apply N. auto.
      * intros [[->|H] N]; [auto|]. destruct (bytes_eqb y z) eqn:C.
        { apply bytes_eqb_spec in C. auto. }
        right. split; [auto|]. intros [->|X]; [rewrite bytes_eqb_refl in C; discriminate C|contradiction].
Qed.
Lemma unique_spec : forall l, once_each l (unique l).
Proof.
  intro l. split; [apply unique_nodup|]. split.
  - intro x. unfold unique. rewrite unique_in. cbn. tauto.
  - intros l1 x l2 E N. destruct (unique_order l [] l1 x l2 E N ltac:(auto)) as (u1 & u2 & E1 & E2).
    exists u1, u2. split; [exact E1|]. intro z. rewrite E2. cbn. tauto.
Qed.

(** ** FirstDifferent *)
Lemma first_different : forall l0 l1,
  (FirstDifferent l0 l1 = [] /\ (forall a, In a l1 -> a <> [] -> Forall (fun x => x <> []) l1 -> In a l0)) \/
  (In (FirstDifferent l0 l1) l1 /\ ~ In (FirstDifferent l0 l1) l0).
Proof.
  intros l0. induction l1 as [|x l1 IH]; cbn [FirstDifferent].
  - left. split; [auto|]. intros a [].
  - destruct (existsb (bytes_eqb x) l0) eqn:E.
    + apply existsb_eq in E. destruct IH as [[IH1 IH2]|[IH1 IH2]].
      * left. split; [exact IH1|]. intros a [->|IN] NE F; [auto|]. inversion F; auto.
      * right. split; [right; auto|auto].
    + apply existsb_neq in E. right. split; [left; auto|auto].
Qed.
Lemma first_different_none : forall l0 l1, (forall a, In a l1 -> In a l0) -> FirstDifferent l0 l1 = [].
Proof.
  intros l0. induction l1 as [|x l1 IH]; intro H; cbn; auto.
  rewrite (proj2 (existsb_eq x l0)) by (apply H; left; auto). apply IH. intros a IN. apply H. right. auto.
Qed.

(** ** Time *)
Lemma recent_real : forall now ts, (0 <= now)%Z -> (seconds now < 18446744073709551616)%Z -> ts < M64 ->
  IsRecent now ts = true -> (seconds now < Z.of_N ts + 300)%Z.
Proof.
  intros now ts P B L H. unfold IsRecent, getCurrentTime in H. apply N.ltb_lt in H. fold (seconds now) in H.
  assert (0 <= seconds now)%Z by (unfold seconds; apply Z.div_pos; lia).
  rewrite Z.mod_small in H by lia. unfold u64 in H. pose proof (N.mod_le (ts + 300) M64).
  unfold M64 in *. lia.
Qed.

(** ** Sequences of calls *)
Section Calls.
Variable G : go_sort.
Variable inc : Z -> Z -> Z -> Z.

Lemma sort_peer_same : forall p, same_peer (sort_peer G p) p.
Proof.
  intro p. unfold same_peer, sort_peer. cbn. split; [auto|]. split; [auto|]. split; [|auto].
  apply Permutation_sym, sort_perm.
Qed.

Lemma id_same : forall p q, Permutation (pAddressList p) (pAddressList q) ->
  GetIdOfPeer G (Some p) = GetIdOfPeer G (Some q).
Proof. intros p q P. unfold GetIdOfPeer, SerializeStringArray. cbn. rewrite (sort_perm_eq G _ _ P). reflexivity. Qed.

Lemma store_cases : forall now n p n', peer_store G inc now n p = Ok n' ->
  n' = n \/ exists q, p = Some q /\ IsRecent now (pTimestamp q) = true /\
    n' = set_peers n (mstore (nPeers n) (GetIdOfPeer G p)
           (mkPI (sort_peer G q) (inc now 600000000000 (now + 300000000000)%Z))).
Proof.
  intros now n [p|] n' H; unfold peer_store in H.
  - destruct (IsRecent now (pTimestamp p)) eqn:R; injection H as <-; [right|left; auto]. eauto.
  - destruct (IsRecent now 0); [discriminate H|]. injection H as <-. auto.
Qed.

Lemma add_cases : forall t1 t2 n p n', AddPeerElement G inc t1 t2 n p = Ok n' ->
  n' = n \/ exists q, p = Some q /\ IsRecent t2 (pTimestamp q) = true /\
    isPeerSimilarToNode G n p = false /\
    (forall old, PeerList_Get t1 n (GetIdOfPeer G p) = Some old -> pTimestamp old < pTimestamp q) /\
    n' = set_peers n (mstore (nPeers n) (GetIdOfPeer G p)
           (mkPI (sort_peer G q) (inc t2 600000000000 (t2 + 300000000000)%Z))).
Proof.
  intros t1 t2 n p n' H. unfold AddPeerElement, peer_check in H.
  destruct (isPeerSimilarToNode G n p) eqn:SIM; [injection H as <-; auto|].
  destruct (PeerList_Get t1 n (GetIdOfPeer G p)) as [old|] eqn:PG.
  - destruct p as [q|]; [|discriminate H]. cbn [bind] in H.
    destruct (pTimestamp q <=? pTimestamp old) eqn:LE; cbn [negb] in H; [injection H as <-; auto|].
    apply N.leb_gt in LE. destruct (store_cases _ _ _ _ H) as [->|(q' & E & R & ->)]; [auto|].
    injection E as <-. right. exists q. split; [auto|]. split; [auto|]. split; [auto|]. split; [|auto].
    intros o EO. injection EO as <-. exact LE.
  - cbn [bind] in H. destruct (store_cases _ _ _ _ H) as [->|(q' & E & R & ->)]; [auto|].
    right. exists q'. split; [auto|]. split; [auto|]. split; [auto|]. split; [|auto]. intros o EO. discriminate EO.
Qed.

Lemma mload_filter : forall (m : amap pitem) f k i, mwf m -> mload (filter f m) k = Some i -> mload m k = Some i.
Proof.
  intros m f k i W H. apply mload_in in H. apply filter_In in H. destruct H as [H _]. apply in_mload; auto.
Qed.
Lemma mwf_filter : forall (m : amap pitem) f, mwf m -> mwf (filter f m).
Proof.
  intros m f. unfold mwf, mkeys. induction m as [|x m IH]; intro W; cbn; auto.
  inversion W; subst. destruct (f x); cbn; auto. constructor; auto.
  intro IN. apply H1. apply in_map_iff in IN. destruct IN as (y & E & IN). apply filter_In in IN.
  apply in_map_iff. exists y. tauto.
Qed.

(** One call: the record under an id stays, is replaced by a newer one, or
    disappears. *)
Lemma nstep_mono : forall n e n' id i i', mwf (nPeers n) -> nstep G inc n e = Ok n' ->
  mload (nPeers n) id = Some i ->
  match e with SAdd t1 _ _ => peer_live t1 i = true | _ => True end ->
  mload (nPeers n') id = Some i' -> pTimestamp (piPeer i) <= pTimestamp (piPeer i').
Proof.
  intros n e n' id i i' W H L LV L'. destruct e as [t1 t2 p|now p|a|now]; cbn [nstep] in H.
  - destruct (add_cases _ _ _ _ _ H) as [->|(q & -> & _ & _ & LT & ->)].
    { rewrite L in L'. injection L' as <-. lia. }
    cbn [set_peers nPeers] in L'. rewrite mload_mstore in L'.
    destruct (bytes_eqb (GetIdOfPeer G (Some q)) id) eqn:B; [|rewrite L in L'; injection L' as <-; lia].
    apply bytes_eqb_spec in B. injection L' as <-. cbn [piPeer].
    specialize (LT (piPeer i)). unfold PeerList_Get in LT. rewrite B, L, LV in LT. specialize (LT eq_refl).
    destruct (sort_peer_same q) as (_ & -> & _). lia.
  - injection H as <-. unfold CheckPeer in L'. destruct (isPeerSimilarToNode G n (Some p)); cbn [fst] in L';
      [rewrite L in L'; injection L' as <-; lia|].
    destruct (IsRecent now (pTimestamp p)); cbn [fst] in L'; [rewrite L in L'; injection L' as <-; lia|].
    cbn [set_peers nPeers] in L'. rewrite mload_mdelete in L'. destruct (bytes_eqb _ _); [discriminate L'|].
    rewrite L in L'. injection L' as <-. lia.
  - injection H as <-. unfold learn in L'. destruct (join_check n a); cbn in L'; rewrite L in L'; injection L' as <-; lia.
  - injection H as <-. cbn [purge set_peers nPeers] in L'. apply mload_filter in L'; auto.
    rewrite L in L'. injection L' as <-. lia.
Qed.

Lemma nstep_wf : forall n e n', mwf (nPeers n) -> nstep G inc n e = Ok n' -> mwf (nPeers n').
Proof.
  intros n e n' W H. destruct e as [t1 t2 p|now p|a|now]; cbn [nstep] in H.
  - destruct (add_cases _ _ _ _ _ H) as [->|(q & -> & _ & _ & _ & ->)]; auto. cbn. apply mstore_wf. exact W.
  - injection H as <-. unfold CheckPeer. destruct (isPeerSimilarToNode G n (Some p)); auto.
    destruct (IsRecent now (pTimestamp p)); auto. cbn. apply mdelete_wf. exact W.
  - injection H as <-. unfold learn. destruct (join_check n a); auto.
  - injection H as <-. cbn. apply mwf_filter. exact W.
Qed.

Lemma nrun_mono : forall id es n n' i i', mwf (nPeers n) -> nrun G inc n es = Ok n' ->
  kept G inc id n es -> mload (nPeers n) id = Some i -> mload (nPeers n') id = Some i' ->
  pTimestamp (piPeer i) <= pTimestamp (piPeer i').
Proof.
  intros id. induction es as [|e es IH]; intros n n' i i' W R K L L'; cbn in R.
  - injection R as <-. rewrite L in L'. injection L' as <-. lia.
  - destruct (nstep G inc n e) as [n1| |] eqn:E; try discriminate R. cbn [bind] in R.
    cbn [kept] in K. rewrite E in K. destruct K as [(i0 & L0 & LV) K].
    rewrite L in L0. injection L0 as <-.
    destruct (mload (nPeers n1) id) as [i1|] eqn:L1.
    + pose proof (nstep_mono _ _ _ _ _ _ W E L LV L1).
      pose proof (IH n1 n' i1 i' (nstep_wf _ _ _ W E) R K L1 L'). lia.
    + destruct es as [|e' es]; [cbn in R; injection R as <-; rewrite L1 in L'; discriminate L'|].
      cbn [kept] in K. destruct K as [(i1 & L2 & _) _]. rewrite L1 in L2. discriminate L2.
Qed.

(** ** Concurrent calls: where the records come from *)
Definition came (es : list pev) (id : bytes) (p : Peer) : Prop :=
  exists es1 now k es2 q, es = es1 ++ PStep now k :: es2 /\ In (PRecv (Some q)) es1 /\
    IsRecent now (pTimestamp q) = true /\ same_peer p q /\ id = GetIdOfPeer G (Some q).

Definition Jrec (es : list pev) (s : pstate) : Prop :=
  mwf (nPeers (psNode s)) /\
  (forall id i, mload (nPeers (psNode s)) id = Some i -> came es id (piPeer i)) /\
  (forall k q, nth_error (psThreads s) k = Some (AStart (Some q)) \/ nth_error (psThreads s) k = Some (AStore (Some q)) ->
     In (PRecv (Some q)) es).

Lemma came_app : forall es e id p, came es id p -> came (es ++ [e]) id p.
Proof.
  intros es e id p (es1 & now & k & es2 & q & -> & H). exists es1, now, k, (es2 ++ [e]), q.
  rewrite <- app_assoc. auto.
Qed.

Lemma check_peers : forall now n p, mwf (nPeers n) -> mwf (nPeers (fst (CheckPeer G now n p))) /\
  (forall id i, mload (nPeers (fst (CheckPeer G now n p))) id = Some i -> mload (nPeers n) id = Some i) /\
  nKnownIds (fst (CheckPeer G now n p)) = nKnownIds n /\
  nAdvertisedIds (fst (CheckPeer G now n p)) = nAdvertisedIds n.
Proof.
  intros now n p W. unfold CheckPeer. destruct (isPeerSimilarToNode G n (Some p)); [auto|].
  destruct (IsRecent now (pTimestamp p)); [auto|]. cbn. split; [apply mdelete_wf; exact W|]. split; [|auto].
  intros id i L. rewrite mload_mdelete in L. destruct (bytes_eqb _ _); [discriminate L|exact L].
Qed.

(** The step of one thread. *)
Lemma thread_cases : forall s now k s', pstep G inc s (PStep now k) = Ok s' ->
  s' = s \/
  exists pc r, nth_error (psThreads s) k = Some pc /\ list_set (psThreads s) k (snd r) = Some (psThreads s') /\
    psNode s' = fst r /\
    ((exists p, pc = AStart p /\ fst r = psNode s /\
        ((snd r = AStore p /\ peer_check G now (psNode s) p = Ok true) \/ snd r = ADone)) \/
     (exists p, pc = AStore p /\ snd r = ADone /\ peer_store G inc now (psNode s) p = Ok (fst r)) \/
     (exists a, pc = JStart a /\ fst r = psNode s /\
        ((snd r = JAppend a /\ join_check (psNode s) a = true) \/ snd r = ADone)) \/
     (exists a, pc = JAppend a /\ snd r = ADone /\ fst r = join_append (psNode s) a)).
Proof.
  intros s now k s' H. cbn [pstep] in H.
  destruct (nth_error (psThreads s) k) as [pc|] eqn:N; [|injection H as <-; auto].
  destruct pc as [p|p|a|a|].
  - cbn [bind] in H. destruct (peer_check G now (psNode s) p) as [b| |] eqn:PC; try discriminate H.
    cbn [bind snd fst] in H.
    destruct (list_set (psThreads s) k (if b then AStore p else ADone)) as [l|] eqn:LS; [|discriminate H].
    injection H as <-. right. exists (AStart p), (psNode s, if b then AStore p else ADone).
    split; [auto|]. split; [exact LS|]. split; [auto|]. left. exists p. split; [auto|]. split; [auto|].
    destruct b; [left|right]; auto.
  - destruct (peer_store G inc now (psNode s) p) as [n| |] eqn:PS; try discriminate H. cbn [bind snd fst] in H.
    destruct (list_set (psThreads s) k ADone) as [l|] eqn:LS; [|discriminate H].
    injection H as <-. right. exists (AStore p), (n, ADone). split; [auto|]. split; [exact LS|]. split; [auto|].
    right. left. exists p. auto.
  - cbn [bind snd fst] in H.
    destruct (list_set (psThreads s) k (if join_check (psNode s) a then JAppend a else ADone)) as [l|] eqn:LS; [|discriminate H].
    injection H as <-. right. exists (JStart a), (psNode s, if join_check (psNode s) a then JAppend a else ADone).
    split; [auto|]. split; [exact LS|]. split; [auto|]. right. right. left. exists a. split; [auto|]. split; [auto|].
    destruct (join_check (psNode s) a); [left|right]; auto.
  - cbn [bind snd fst] in H. destruct (list_set (psThreads s) k ADone) as [l|] eqn:LS; [|discriminate H].
    injection H as <-. right. exists (JAppend a), (join_append (psNode s) a, ADone).
    split; [auto|]. split; [exact LS|]. split; [auto|]. right. right. right. exists a. auto.
  - injection H as <-. auto.
Qed.

Lemma Jrec_step : forall es s e s', Jrec es s -> pstep G inc s e = Ok s' -> Jrec (es ++ [e]) s'.
Proof.
  intros es s e s' (W & A & B) H.
  assert (A' : forall id i, mload (nPeers (psNode s)) id = Some i -> came (es ++ [e]) id (piPeer i)).
  { intros id i L. apply came_app. eauto. }
  assert (B' : forall k q, nth_error (psThreads s) k = Some (AStart (Some q)) \/ nth_error (psThreads s) k = Some (AStore (Some q)) ->
     In (PRecv (Some q)) (es ++ [e])).
  { intros k q N. apply in_app_iff. left. eauto. }
  destruct e as [p|a|now k|now p|now].
  - injection H as <-. split; [exact W|]. split; [exact A'|]. cbn [psThreads]. intros k q N.
    destruct (Nat.lt_ge_cases k (length (psThreads s))) as [LT|GE].
    + rewrite nth_error_app1 in N by auto. eauto.
    + rewrite nth_error_app2 in N by auto. destruct (k - length (psThreads s))%nat as [|j].
      * cbn in N. destruct N as [N|N]; [|discriminate N]. injection N as ->. apply in_app_iff. right. left. auto.
      * cbn in N. destruct j; destruct N as [N|N]; discriminate N.
  - injection H as <-. split; [exact W|]. split; [exact A'|]. cbn [psThreads]. intros k q N.
    destruct (Nat.lt_ge_cases k (length (psThreads s))) as [LT|GE].
    + rewrite nth_error_app1 in N by auto. eauto.
    + rewrite nth_error_app2 in N by auto. destruct (k - length (psThreads s))%nat as [|j]; cbn in N;
        [|destruct j]; destruct N as [N|N]; discriminate N.
  - destruct (thread_cases _ _ _ _ H) as [->|(pc & r & N & LS & EN & C)]; [split; [exact W|split; [exact A'|exact B']]|].
    assert (TH : forall q k', nth_error (psThreads s') k' = Some (AStart (Some q)) \/ nth_error (psThreads s') k' = Some (AStore (Some q)) ->
       In (PRecv (Some q)) (es ++ [PStep now k])).
    { intros q k' N'. rewrite (nth_set _ _ _ _ _ k' LS) in N'. destruct (Nat.eqb_spec k k') as [EQ|NE]; [subst k'|eauto].
      destruct C as [(p & -> & _ & [[E _]|E])|[(p & -> & E & _)|[(a & -> & _ & [[E _]|E])|(a & -> & E & _)]]];
        rewrite E in N'; destruct N' as [N'|N']; try discriminate N'.
      injection N' as ->. eapply B'; eauto. }
    destruct C as [(p & -> & E & _)|[(p & -> & _ & PS)|[(a & -> & E & _)|(a & -> & _ & E)]]].
    + rewrite E in EN. unfold Jrec. rewrite EN. split; [exact W|split; [exact A'|intros k' q; apply TH]].
    + destruct (store_cases _ _ _ _ PS) as [E|(q & -> & RC & E)]; rewrite E in EN; unfold Jrec; rewrite EN.
      { split; [exact W|split; [exact A'|intros k' q; apply TH]]. }
      cbn [set_peers nPeers]. split; [apply mstore_wf; exact W|]. split; [|intros k' q'; apply TH].
      intros id i L. rewrite mload_mstore in L. destruct (bytes_eqb _ id) eqn:BE; [|eauto].
      apply bytes_eqb_spec in BE. injection L as <-. cbn [piPeer].
      exists es, now, k, [], q. split; [reflexivity|]. split; [eapply B; eauto|]. split; [exact RC|].
      split; [apply sort_peer_same|auto].
    + rewrite E in EN. unfold Jrec. rewrite EN. split; [exact W|split; [exact A'|intros k' q; apply TH]].
    + rewrite E in EN. unfold Jrec. rewrite EN. split; [exact W|split; [exact A'|intros k' q; apply TH]].
  - injection H as <-. destruct (check_peers now (psNode s) p W) as (X1 & X2 & _).
    split; [exact X1|]. split; [intros id i L; apply A'; apply X2; exact L|exact B'].
  - injection H as <-. cbn [psNode psThreads]. split; [apply mwf_filter; exact W|]. split; [|exact B'].
    intros id i L. cbn [psNode purge set_peers nPeers] in L. apply mload_filter in L; auto.
Qed.

Lemma Jrec_run : forall es past s s', Jrec past s -> prun G inc s es = Ok s' -> Jrec (past ++ es) s'.
Proof.
  induction es as [|e es IH]; intros past s s' J R; cbn in R.
  - injection R as <-. rewrite app_nil_r. exact J.
  - destruct (pstep G inc s e) as [s1| |] eqn:E; try discriminate R. cbn [bind] in R.
    replace (past ++ e :: es) with ((past ++ [e]) ++ es) by (rewrite <- app_assoc; reflexivity).
    eapply IH; [eapply Jrec_step; eauto|exact R].
Qed.

(** ** The node itself *)
Definition Jself (n0 : nstate) (s : pstate) : Prop :=
  mwf (nPeers (psNode s)) /\ own_addresses (psNode s) = own_addresses n0 /\
  (forall i, mload (nPeers (psNode s)) (own_id G n0) <> Some i) /\
  (forall k p, nth_error (psThreads s) k = Some (AStore p) -> GetIdOfPeer G p <> own_id G n0) /\
  (forall k a, nth_error (psThreads s) k = Some (JAppend a) -> False) /\
  (forall k a, nth_error (psThreads s) k = Some (JStart a) -> a = []).


Lemma own_id_eq : forall n n0, own_addresses n = own_addresses n0 -> own_id G n = own_id G n0.
Proof. intros n n0 E. unfold own_id. rewrite E. reflexivity. Qed.

Lemma Jself_step : forall n0 s e s', Jself n0 s -> silent e -> pstep G inc s e = Ok s' -> Jself n0 s'.
Proof.
  intros n0 s e s' (W & OA & NS & B & C & D) SI H. pose proof (own_id_eq _ _ OA) as OI.
  destruct e as [p|a|now k|now p|now].
  - injection H as <-. unfold Jself. cbn [psNode psThreads]. split; [exact W|]. split; [exact OA|]. split; [exact NS|].
    split; [|split]; intros k x N; (destruct (Nat.lt_ge_cases k (length (psThreads s))) as [LT|GE];
      [rewrite nth_error_app1 in N by auto; eauto|
       rewrite nth_error_app2 in N by auto; destruct (k - length (psThreads s))%nat as [|[|j]]; discriminate N]).
  - injection H as <-. unfold Jself. cbn [psNode psThreads]. split; [exact W|]. split; [exact OA|]. split; [exact NS|].
    split; [|split]; intros k x N; (destruct (Nat.lt_ge_cases k (length (psThreads s))) as [LT|GE];
      [rewrite nth_error_app1 in N by auto; eauto|
       rewrite nth_error_app2 in N by auto; destruct (k - length (psThreads s))%nat as [|[|j]]; try discriminate N]).
    cbn in N. injection N as <-. exact SI.
  - destruct (thread_cases _ _ _ _ H) as [->|(pc & r & N & LS & EN & CC)]; [unfold Jself; auto 10|].
    assert (T1 : forall k' p, nth_error (psThreads s') k' = Some (AStore p) -> GetIdOfPeer G p <> own_id G n0).
    { intros k' p N'. rewrite (nth_set _ _ _ _ _ k' LS) in N'. destruct (Nat.eqb_spec k k') as [EQ|NE]; [subst k'|eauto].
      destruct CC as [(p' & -> & _ & [[E PC]|E])|[(p' & -> & E & _)|[(a & -> & _ & [[E _]|E])|(a & -> & E & _)]]];
        rewrite E in N'; try discriminate N'.
      injection N' as ->. unfold peer_check in PC. destruct (isPeerSimilarToNode G (psNode s) p) eqn:SIM; [discriminate PC|].
      unfold isPeerSimilarToNode in SIM. rewrite OI in SIM. intro X. rewrite X, bytes_eqb_refl in SIM. discriminate SIM. }
    assert (T2 : forall k' a, nth_error (psThreads s') k' = Some (JAppend a) -> False).
    { intros k' a N'. rewrite (nth_set _ _ _ _ _ k' LS) in N'. destruct (Nat.eqb_spec k k') as [EQ|NE]; [subst k'|eauto].
      destruct CC as [(p' & -> & _ & [[E PC]|E])|[(p' & -> & E & _)|[(a' & -> & _ & [[E JC]|E])|(a' & -> & E & _)]]];
        rewrite E in N'; try discriminate N'.
      rewrite (D _ _ N) in JC. discriminate JC. }
    assert (T3 : forall k' a, nth_error (psThreads s') k' = Some (JStart a) -> a = []).
    { intros k' a N'. rewrite (nth_set _ _ _ _ _ k' LS) in N'. destruct (Nat.eqb_spec k k') as [EQ|NE]; [subst k'|eauto].
      destruct CC as [(p' & -> & _ & [[E PC]|E])|[(p' & -> & E & _)|[(a' & -> & _ & [[E JC]|E])|(a' & -> & E & _)]]];
        rewrite E in N'; discriminate N'. }
    unfold Jself. destruct CC as [(p & -> & E & _)|[(p & -> & _ & PS)|[(a & -> & E & _)|(a & -> & _ & E)]]].
    + rewrite E in EN. rewrite EN. auto 10.
    + destruct (store_cases _ _ _ _ PS) as [E|(q & -> & RC & E)]; rewrite E in EN; rewrite EN; [auto 10|].
      cbn [set_peers nPeers]. split; [apply mstore_wf; exact W|]. split; [exact OA|]. split; [|auto].
      intros i L. rewrite mload_mstore in L. destruct (bytes_eqb _ (own_id G n0)) eqn:BE; [|eapply NS; eauto].
      apply bytes_eqb_spec in BE. apply (B _ _ N). exact BE.
    + rewrite E in EN. rewrite EN. auto 10.
    + exfalso. eapply C; eauto.
  - injection H as <-. destruct (check_peers now (psNode s) p W) as (X1 & X2 & X3 & X4).
    unfold Jself. cbn [psNode psThreads]. split; [exact X1|]. split; [unfold own_addresses in *; rewrite X3, X4; exact OA|].
    split; [|auto]. intros i L. apply (NS i). apply X2. exact L.
  - injection H as <-. unfold Jself. cbn [psNode psThreads purge set_peers nPeers]. split; [apply mwf_filter; exact W|].
    split; [exact OA|]. split; [|auto]. intros i L. apply mload_filter in L; auto. exact (NS i L).
Qed.

Lemma Jself_run : forall n0 es s s', Jself n0 s -> Forall silent es -> prun G inc s es = Ok s' -> Jself n0 s'.
Proof.
  induction es as [|e es IH]; intros s s' J F R; cbn in R.
  - injection R as <-. exact J.
  - inversion_clear F. destruct (pstep G inc s e) as [s1| |] eqn:E; try discriminate R. cbn [bind] in R.
    eapply IH; [eapply Jself_step; eauto|auto|exact R].
Qed.

(** ** Known addresses *)
Lemma learn_nodup : forall n a, NoDup (nKnownIds n) -> NoDup (nKnownIds (learn n a)).
Proof.
  intros n a ND. unfold learn. destruct (join_check n a) eqn:E; auto. cbn.
  unfold join_check in E. destruct a as [|c a]; [discriminate E|]. apply negb_true_iff in E. apply existsb_neq in E.
  eapply Permutation_NoDup; [apply Permutation_cons_append|]. constructor; auto.
Qed.
End Calls.

(** ** Learned addresses *)
Section Learn.
Variable G : go_sort.
Variable inc : Z -> Z -> Z -> Z.

Lemma nstep_known : forall n e n', nstep G inc n e = Ok n' ->
  nPort n' = nPort n /\ nAdvertisedIds n' = nAdvertisedIds n /\
  (NoDup (nKnownIds n) -> NoDup (nKnownIds n')) /\ incl (nKnownIds n) (nKnownIds n') /\
  match e with SLearn a => a <> [] -> In (feedback n a) (nKnownIds n') | _ => True end.
Proof.
  intros n e n' H. destruct e as [t1 t2 p|now p|a|now]; cbn [nstep] in H.
  - destruct (add_cases _ _ _ _ _ _ _ H) as [->|(q & -> & _ & _ & _ & ->)]; cbn; auto using incl_refl.
  - injection H as <-. unfold CheckPeer. destruct (isPeerSimilarToNode G n (Some p)); cbn; auto using incl_refl.
    destruct (IsRecent now (pTimestamp p)); cbn; auto using incl_refl.
  - injection H as <-. split; [|split; [|split; [apply learn_nodup|split]]];
      unfold learn; destruct (join_check n a) eqn:E; cbn; auto using incl_refl, incl_appl.
    + intro. apply in_app_iff. right. left. auto.
    + intro NE. unfold join_check in E. destruct a as [|c a]; [congruence|].
      apply negb_false_iff in E. apply existsb_eq in E. exact E.
  - injection H as <-. cbn. auto using incl_refl.
Qed.

Lemma nrun_known : forall es n n', nrun G inc n es = Ok n' ->
  nPort n' = nPort n /\ nAdvertisedIds n' = nAdvertisedIds n /\
  (NoDup (nKnownIds n) -> NoDup (nKnownIds n')) /\ incl (nKnownIds n) (nKnownIds n') /\
  forall a, In (SLearn a) es -> a <> [] -> In (feedback n a) (nKnownIds n').
Proof.
  induction es as [|e es IH]; intros n n' H; cbn in H.
  - injection H as <-. repeat (split; [auto using incl_refl|]). intros a [].
  - destruct (nstep G inc n e) as [n1| |] eqn:E; try discriminate H. cbn [bind] in H.
    destruct (nstep_known _ _ _ E) as (P1 & A1 & D1 & I1 & L1).
    destruct (IH _ _ H) as (P2 & A2 & D2 & I2 & L2).
    split; [congruence|]. split; [congruence|]. split; [auto|]. split; [eapply incl_tran; eauto|].
    intros a [->|IN] NE; [apply I2; auto|]. unfold feedback. rewrite <- P1. apply (L2 a); auto.
Qed.

(** Concurrently: what is known stays known. *)
Lemma pstep_known : forall s e s', pstep G inc s e = Ok s' ->
  nAdvertisedIds (psNode s') = nAdvertisedIds (psNode s) /\ incl (nKnownIds (psNode s)) (nKnownIds (psNode s')).
Proof.
  intros s e s' H. destruct e as [p|a|now k|now p|now].
  - injection H as <-. cbn. auto using incl_refl.
  - injection H as <-. cbn. auto using incl_refl.
  - destruct (thread_cases _ _ _ _ _ _ H) as [->|(pc & r & N & LS & EN & C)]; [auto using incl_refl|].
    rewrite EN. destruct C as [(p & -> & E & _)|[(p & -> & _ & PS)|[(a & -> & E & _)|(a & -> & _ & E)]]].
    + rewrite E. auto using incl_refl.
    + destruct (store_cases _ _ _ _ _ _ PS) as [E|(q & -> & RC & E)]; rewrite E; cbn; auto using incl_refl.
    + rewrite E. auto using incl_refl.
    + rewrite E. cbn. auto using incl_refl, incl_appl.
  - injection H as <-. cbn. unfold CheckPeer. destruct (isPeerSimilarToNode G (psNode s) (Some p)); cbn; auto using incl_refl.
    destruct (IsRecent now (pTimestamp p)); cbn; auto using incl_refl.
  - injection H as <-. cbn. auto using incl_refl.
Qed.
Lemma prun_known : forall es s s', prun G inc s es = Ok s' ->
  nAdvertisedIds (psNode s') = nAdvertisedIds (psNode s) /\ incl (nKnownIds (psNode s)) (nKnownIds (psNode s')).
Proof.
  induction es as [|e es IH]; intros s s' H; cbn in H.
  - injection H as <-. auto using incl_refl.
  - destruct (pstep G inc s e) as [s1| |] eqn:E; try discriminate H. cbn [bind] in H.
    destruct (pstep_known _ _ _ E), (IH _ _ H). split; [congruence|eapply incl_tran; eauto].
Qed.

(** ** Crashes *)
Definition no_nil (s : pstate) : Prop :=
  forall k, nth_error (psThreads s) k <> Some (AStart None) /\ nth_error (psThreads s) k <> Some (AStore None).

Lemma set_some : forall A (l : list A) i x y, nth_error l i = Some x -> exists l', list_set l i y = Some l'.
Proof.
  induction l as [|z l IH]; intros [|i] x y H; try discriminate H; cbn; [eauto|].
  destruct (IH i x y H) as (l' & ->). eauto.
Qed.

Lemma check_ok : forall now n p, exists b, peer_check G now n (Some p) = Ok b.
Proof.
  intros now n p. unfold peer_check. destruct (isPeerSimilarToNode G n (Some p)); [eauto|].
  destruct (PeerList_Get now n _); eauto.
Qed.

Lemma nil_free_step : forall s e, no_nil s -> present e -> exists s', pstep G inc s e = Ok s' /\ no_nil s'.
Proof.
  intros s e NN PR.
  assert (APP : forall pc, pc <> AStart None -> pc <> AStore None -> no_nil (mkP (psNode s) (psThreads s ++ [pc]))).
  { intros pc X Y k. cbn [psThreads]. destruct (Nat.lt_ge_cases k (length (psThreads s))) as [LT|GE].
    - rewrite nth_error_app1 by auto. apply NN.
    - rewrite nth_error_app2 by auto. destruct (k - length (psThreads s))%nat as [|[|j]]; cbn; split; congruence. }
  destruct e as [p|a|now k|now p|now].
  - eexists. split; [reflexivity|]. apply APP; cbn in PR; congruence.
  - eexists. split; [reflexivity|]. apply APP; congruence.
  - assert (E : exists s', pstep G inc s (PStep now k) = Ok s').
    { cbn [pstep]. destruct (nth_error (psThreads s) k) as [pc|] eqn:N; [|eauto]. destruct (NN k) as [N1 N2].
      destruct pc as [[p|]|[p|]|a|a|]; [ | congruence | | congruence | | | eauto].
      - destruct (check_ok now (psNode s) p) as (b & ->). cbn [bind snd fst].
        destruct (set_some _ _ _ _ (if b then AStore (Some p) else ADone) N) as (l' & ->). eauto.
      - cbn [peer_store]. destruct (set_some _ _ _ _ ADone N) as (l' & E).
        destruct (IsRecent now (pTimestamp p)); cbn [bind snd fst]; rewrite E; eauto.
      - cbn [bind snd fst].
        destruct (set_some _ _ _ _ (if join_check (psNode s) a then JAppend a else ADone) N) as (l' & ->). eauto.
      - cbn [bind snd fst]. destruct (set_some _ _ _ _ ADone N) as (l' & ->). eauto. }
    destruct E as (s' & E). exists s'. split; [exact E|].
    destruct (thread_cases _ _ _ _ _ _ E) as [->|(pc & r & N & LS & EN & C)]; [exact NN|].
    intro k'. rewrite (nth_set _ _ _ _ _ k' LS). destruct (Nat.eqb_spec k k') as [EQ|NE]; [|apply NN].
    destruct C as [(p & -> & _ & [[-> _]| ->])|[(p & -> & -> & _)|[(a & -> & _ & [[-> _]| ->])|(a & -> & -> & _)]]];
      split; try congruence. intro X. injection X as ->. apply (proj1 (NN k)). exact N.
  - eexists. split; [reflexivity|]. exact NN.
  - eexists. split; [reflexivity|]. exact NN.
Qed.
Lemma nil_free_run : forall es s, no_nil s -> Forall present es -> exists s', prun G inc s es = Ok s'.
Proof.
  induction es as [|e es IH]; intros s NN F; cbn; [eauto|]. inversion_clear F.
  destruct (nil_free_step s e NN) as (s1 & -> & NN1); auto. cbn [bind]. apply IH; auto.
Qed.
End Learn.

(** ** Addresses of callers *)
Lemma last_index_none : forall c s, ~ In c s -> last_index c s = None.
Proof.
  induction s as [|x s IH]; intro H; cbn; auto. rewrite IH by (intro; apply H; right; auto).
  destruct (N.eqb_spec x c); auto. exfalso. apply H. left. auto.
Qed.
Lemma last_index_app : forall c s t, ~ In c t -> last_index c (s ++ c :: t) = Some (length s).
Proof.
  induction s as [|x s IH]; intros t H; cbn [app last_index length].
  - rewrite last_index_none by auto. rewrite N.eqb_refl. reflexivity.
  - rewrite IH by auto. reflexivity.
Qed.
Lemma join_address_eq : forall lb host port, host <> [] -> ~ In colon port ->
  Join_address lb (Some (host ++ colon :: port)) =
    if lb (no_brackets host) then bs "localhost" else if blen host <=? 1 then [] else host.
Proof.
  intros lb host port NE NC. unfold Join_address. rewrite last_index_app by auto.
  destruct host as [|c host]; [congruence|]. cbn [length].
  change (S (length host)) with (length (c :: host)). rewrite firstn_app, Nat.sub_diag, firstn_all, firstn_O, app_nil_r.
  destruct (lb (no_brackets (c :: host))); [reflexivity|]. reflexivity.
Qed.

(** ** Decimal numbers *)
Lemma digits_range : forall u, Forall (fun b => 48 <= b <= 57) (digits u).
Proof. induction u; cbn [digits]; constructor; auto; lia. Qed.
Lemma digits_pos : forall u acc,
  fold_left (fun a b => a * 10 + (b - 48)) (digits u) (Npos acc) = Npos (Pos.of_uint_acc u acc).
Proof.
  assert (M : forall p, Npos p * 10 = Npos (10 * p)) by (intro p; lia).
  induction u; intro acc; cbn [digits fold_left Pos.of_uint_acc]; [reflexivity|..]; rewrite <- IHu; f_equal; lia.
Qed.
Lemma digits_value : forall u, fold_left (fun a b => a * 10 + (b - 48)) (digits u) 0 = N.of_uint u.
Proof.
  unfold N.of_uint. induction u; cbn [digits fold_left Pos.of_uint]; [reflexivity|exact IHu|..]; apply digits_pos.
Qed.
Lemma decimal_text : forall n, number_text n (decimal n).
Proof.
  intro n. unfold number_text, decimal. split; [apply digits_range|]. split.
  - pose proof (DecimalN.Unsigned.of_to n) as E. pose proof (DecimalN.Unsigned.to_of (N.to_uint n)) as U. rewrite E in U.
    destruct (N.to_uint n) as [|u|u|u|u|u|u|u|u|u|u]; cbn [digits];
      try (right; eexists; eexists; split; [reflexivity|discriminate]).
    + exfalso. discriminate U.
    + left. cbn in U. unfold Decimal.unorm in U. cbn in U. destruct (Decimal.nzhead u) eqn:H; inversion U; subst; try reflexivity;
        exfalso; apply (DecimalFacts.nzhead_nonzero _ _ H).
  - rewrite digits_value. apply DecimalN.Unsigned.of_to.
Qed.

(** ** Configured addresses *)
Lemma broadcast_eq : forall l port, l <> [] -> Forall plain l ->
  broadcastAddresses (join comma l) port =
    map (fun a => if existsb (N.eqb colon) a then a else a ++ colon :: decimal port) l.
Proof.
  intros l port NE F. unfold broadcastAddresses.
  destruct (join comma l) as [|c q] eqn:E.
  - exfalso. destruct l as [|x l]; [congruence|]. inversion F as [|? ? [X _] _]; subst.
    destruct l; cbn in E; [congruence|]. destruct x; [congruence|discriminate E].
  - rewrite <- E. rewrite split_join; auto. eapply Forall_impl; [|exact F]. intros a [_ A]. exact A.
Qed.

(** ** Life cycle *)
Lemma lrun_app : forall es1 es2 s, lrun s (es1 ++ es2) = lrun (lrun s es1) es2.
Proof. induction es1; intros; cbn; auto. Qed.
Lemma drain_stays : forall es s, lDrain s = true ->
  lDrain (lrun s es) = true /\ incl (lAdmitted (lrun s es)) (lAdmitted s).
Proof.
  induction es as [|e es IH]; intros s D; cbn [lrun]; [auto using incl_refl|].
  assert (X : lDrain (fst (lstep s e)) = true /\ incl (lAdmitted (fst (lstep s e))) (lAdmitted s)).
  { destruct e; cbn; rewrite ?D; cbn; auto using incl_refl. split; [auto|]. intros y H. apply filter_In in H. tauto. }
  destruct X as [X1 X2]. destruct (IH _ X1) as [Y1 Y2]. split; [auto|eapply incl_tran; eauto].
Qed.
Lemma ready_stays : forall es s, lReady s = false -> ~ In LSync es -> lReady (lrun s es) = false.
Proof.
  induction es as [|e es IH]; intros s D N; cbn [lrun]; auto. apply IH; [|intro; apply N; right; auto].
  destruct e; cbn; auto.
  - exfalso. apply N. left. auto.
  - destruct (lDrain s); auto.
Qed.
