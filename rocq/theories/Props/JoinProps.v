(** C118: whom a node asks to let it join, and what that achieves. *)
From Verif.Base Require Import GoBase GoLemmas GoSort Assoc Float.
From Verif.Model Require Import Codec Store Data Insert Dataset Node Gossip.
From Verif.Spec Require Import NodeSpec GossipSpec.
From Verif.Proof Require Import SyncP NodeP GossipP SpreadP.
From Verif.Props Require Import GossipProps.
Open Scope N_scope.

(** C118 A node makes itself known to everybody it knows: in a round of joining it
    asks every configured service and every address of every known peer, but never
    itself, and whoever gets its request lists it afterwards. *)

(** False: a service that leads to the node itself is asked as well. *)
Theorem C118_self_refuted : exists n services items a,
  In a (own_addresses n) /\ In a (JoinToPeers n services items).
Proof. exists (mkN [] 80 [] [bs "a:80"] []), [bs "a:80"], [], (bs "a:80"). cbn. auto. Qed.

(** Exactly these addresses are asked. *)
Theorem C118_asked_partial : forall n services items a,
  In a (JoinToPeers n services items) <->
  In a services \/
  (exists p, In p items /\ In a (pAddressList p)) /\ ~ In a (nKnownIds n) /\ ~ In a (nAdvertisedIds n).
Proof.
  intros n services items a. unfold JoinToPeers. rewrite in_app_iff, in_flat_map.
  assert (O : In a (own_addresses n) <-> In a (nKnownIds n) \/ In a (nAdvertisedIds n)).
  { unfold own_addresses, unique. rewrite unique_in, in_app_iff. cbn [In]. tauto. }
  split; (intros [H|H]; [left; exact H|right]).
  - destruct H as (p & I & J). apply filter_In in J. destruct J as [J E]. apply negb_true_iff, existsb_neq in E.
    split; [eauto|]. rewrite O in E. tauto.
  - destruct H as ((p & I & J) & K1 & K2). exists p. split; auto. apply filter_In. split; auto.
    apply negb_true_iff, existsb_neq. rewrite O. tauto.
Qed.

(** A request that reaches another node while its time is recent: that node lists the
    sender, under the addresses the sender had and not older than the request,
    whatever it knew before. *)
Theorem C118_known_partial : forall G inc route w i a now services configs t j,
  (t <= inc t 600000000000 (t + 300000000000))%Z ->
  route i a = Some j ->
  let p := GetNodeInfo now (gState (gNodes w i)) services configs in
  IsRecent t (pTimestamp p) = true ->
  own_id G (gState (gNodes w j)) <> GetIdOfPeer G (Some p) ->
  exists w' q, grun G inc route w [GJoin i a now services configs; GDeliver (length (gMail w)) t t] = Some w' /\
    PeerList_Get t (gState (gNodes w' j)) (GetIdOfPeer G (Some p)) = Some q /\ pTimestamp p <= pTimestamp q /\
    (forall old, PeerList_Get t (gState (gNodes w j)) (GetIdOfPeer G (Some p)) = Some old ->
       pTimestamp old < pTimestamp p -> pServiceList q = services /\ pDataList q = configs).
Proof.
  intros G inc route w i a now services configs t j INC R p REC OTHER.
  cbn [grun gstep]. fold p. cbn [gMail gNodes].
  rewrite nth_error_app2, Nat.sub_diag by lia. cbn [nth_error mFrom mTo mPeer]. rewrite R.
  unfold AddPeerElement, peer_check, isPeerSimilarToNode.
  destruct (bytes_eqb (own_id G (gState (gNodes w j))) (GetIdOfPeer G (Some p))) eqn:S.
  { apply bytes_eqb_spec in S. contradiction. }
  destruct (PeerList_Get t (gState (gNodes w j)) (GetIdOfPeer G (Some p))) as [old|] eqn:PG; cbn [bind].
  - destruct (N.leb_spec (pTimestamp p) (pTimestamp old)) as [LE|LT]; cbn [negb bind].
    + eexists. exists old. split; [reflexivity|]. cbn [set_g gNodes]. rewrite Nat.eqb_refl. cbn [gState]. split; auto. split; auto.
      intros o E X. injection E as <-. lia.
    + unfold peer_store. rewrite REC. eexists. eexists. split; [reflexivity|]. cbn [set_g gNodes]. rewrite Nat.eqb_refl.
      cbn [gState set_peers nPeers]. unfold PeerList_Get. cbn [set_peers nPeers]. rewrite mload_mstore_same.
      unfold peer_live. cbn [piExpires piPeer]. destruct (_ && _)%bool eqn:B.
      * apply andb_true_iff in B. destruct B as [_ B]. apply Z.ltb_lt in B. lia.
      * split; [reflexivity|]. split; [cbn; lia|]. intros. cbn. auto.
  - unfold peer_store. rewrite REC. eexists. eexists. split; [reflexivity|]. cbn [set_g gNodes]. rewrite Nat.eqb_refl.
    cbn [gState set_peers nPeers]. unfold PeerList_Get. cbn [set_peers nPeers]. rewrite mload_mstore_same.
    unfold peer_live. cbn [piExpires piPeer]. destruct (_ && _)%bool eqn:B.
    + apply andb_true_iff in B. destruct B as [_ B]. apply Z.ltb_lt in B. lia.
    + split; [reflexivity|]. split; [cbn; lia|]. intros. discriminate.
Qed.

(** A node whose peer has an address in common with it. *)
Definition shared_peer : Peer := mkPeer [] 5 [bs "b:80"; bs "a:80"; bs "c:80"] [] [].
Example C118_instance :
  JoinToPeers (mkN [] 80 [bs "x:80"] [bs "a:80"] []) [bs "s:80"] [shared_peer] = [bs "s:80"; bs "b:80"; bs "c:80"] /\
  (let p := GetNodeInfo (gsec 1000) (gState (gNodes world2 0)) [bs "s:80"] [gcfg (bs "d")] in
   route2 0 (bs "b:80") = Some 1%nat /\ IsRecent (gsec 1000) (pTimestamp p) = true /\
   bytes_eqb (own_id insertion_sort (gState (gNodes world2 1))) (GetIdOfPeer insertion_sort (Some p)) = false /\
   match grun insertion_sort ginc route2 world2 [GJoin 0 (bs "b:80") (gsec 1000) [bs "s:80"] [gcfg (bs "d")]; GDeliver 0 (gsec 1000) (gsec 1000)] with
   | Some w => PeerList_Get (gsec 1000) (gState (gNodes w 1)) (bs "a:80") = Some p
   | None => False
   end).
Proof. vm_compute. repeat split. Qed.

Print Assumptions C118_self_refuted.
Print Assumptions C118_asked_partial.
Print Assumptions C118_known_partial.
