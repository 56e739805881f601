(** Property C109: a node that is gone is forgotten. *)
From Verif.Base Require Import GoBase GoLemmas GoSort Assoc Float.
From Verif.Model Require Import Codec Store Data Insert Dataset Node Gossip.
From Verif.Spec Require Import NodeSpec GossipSpec GoneSpec.
From Verif.Proof Require Import SyncP NodeP GossipP SpreadP GoneP.
From Verif.Props Require Import GossipProps.
From Coq Require Import Lia.
Open Scope Z_scope.

(** C109 A node that has not introduced itself after second S is shown by no node from
    second S + 1200 on.  S is by the clock of the node that is gone.  Missing: the same
    for a node whose clock is ahead, refuted below. *)
Theorem C109_forgotten_partial : forall G inc route X S w es w' i now,
  postpones inc -> 0 <= S -> S + 300 < 18446744073709551616 ->
  blank w -> silent G inc route X S w es -> grun G inc route w es = Some w' ->
  (S + 1200) * 1000000000 <= now -> ~ shown X now w' i.
Proof.
  intros G inc route X S w es w' i now INC S0 S1 B SI R T. apply (A_shown G route X S); [|exact T].
  eapply A_run; eauto. apply A_blank. exact B.
Qed.
Print Assumptions C109_forgotten_partial.

(** From second S + 300 on, records of the node are no longer taken over, and a node
    that comes across one neither sends anything nor adds a source and, unless it takes
    the record for its own, removes it. *)
Theorem C109_ignored_partial : forall G inc route X S w es w',
  postpones inc -> 0 <= S -> S + 300 < 18446744073709551616 ->
  blank w -> silent G inc route X S w es -> grun G inc route w es = Some w' ->
  (forall k m t1 now w'', nth_error (gMail w') k = Some m -> about X (mPeer m) ->
     clock now -> (S + 300) * 1000000000 <= now -> gstep G inc route w' (GDeliver k t1 now) = Some w'' ->
     gMail w'' = gMail w' /\ forall j, gNodes w'' j = gNodes w' j) /\
  (forall i k all p rest now w'', nth_error (gSyncs (gNodes w' i)) k = Some (all, p :: rest) -> about X p ->
     clock now -> (S + 300) * 1000000000 <= now -> gstep G inc route w' (GVisit i k now) = Some w'' ->
     gMail w'' = gMail w' /\ gSources (gNodes w'' i) = gSources (gNodes w' i) /\
     (own_id G (gState (gNodes w' i)) <> GetIdOfPeer G (Some p) -> forall now', ~ shown X now' w'' i)).
Proof.
  intros G inc route X S w es w' INC S0 S1 B SI R.
  assert (I : A G X S w'). { eapply A_run; eauto. apply A_blank. exact B. }
  destruct I as [IM IN]. split.
  - intros k m t1 now w'' E AB C T H. cbn [gstep] in H. rewrite E in H.
    destruct (route (mFrom m) (mTo m)) as [j|]; [|discriminate H].
    destruct (AddPeerElement G inc t1 now (gState (gNodes w' j)) (Some (mPeer m))) as [n| |] eqn:AD; try discriminate H.
    injection H as <-. split; [reflexivity|]. intro j'.
    destruct (Nat.eq_dec j' j) as [->|NE]; [|apply set_g_other; auto]. rewrite set_g_same.
    destruct (add_cases G inc _ _ _ _ _ AD) as [->|(q & EQ & RC & _)]; [destruct (gNodes w' j); reflexivity|].
    injection EQ as <-. apply nth_error_In in E.
    rewrite (recent_not now (pTimestamp (mPeer m)) S C S0 S1 (IM _ E AB) T) in RC. discriminate RC.
  - intros i k all p rest now w'' E AB C T H. cbn [gstep] in H. rewrite E in H.
    destruct (IN i) as (I1 & I2 & I3). pose proof (nth_error_In _ _ E) as INS.
    destruct (I3 _ _ INS) as [_ F2]. apply Forall_inv in F2.
    pose proof (recent_not now (pTimestamp p) S C S0 S1 (F2 AB) T) as RN.
    assert (V : visit G now (gState (gNodes w' i)) all p = (fst (CheckPeer G now (gState (gNodes w' i)) p), [])).
    { unfold visit, CheckPeer. rewrite RN. destruct (isPeerSimilarToNode G (gState (gNodes w' i)) (Some p)); reflexivity. }
    rewrite V in H. cbn [perform] in H.
    destruct (list_set (gSyncs (gNodes w' i)) k (all, rest)) as [syncs|]; [|discriminate H].
    injection H as <-. cbn [gMail gNodes set_g]. rewrite Nat.eqb_refl. split; [reflexivity|]. split; [reflexivity|].
    intros NE now' (id & it & L & AB' & _). cbn [gNodes set_g] in L. rewrite Nat.eqb_refl in L. cbn [gState] in L.
    unfold CheckPeer, isPeerSimilarToNode in L. rewrite RN in L.
    destruct (bytes_eqb (own_id G (gState (gNodes w' i))) (GetIdOfPeer G (Some p))) eqn:EB.
    { apply bytes_eqb_spec in EB. contradiction. }
    cbn [fst set_peers nPeers] in L.
    apply (in_mload _ _ _ (mdelete_wf (nPeers (gState (gNodes w' i))) (GetIdOfPeer G (Some p)) I1)) in L.
    rewrite mload_mdelete in L.
    destruct (bytes_eqb (GetIdOfPeer G (Some p)) id) eqn:EI; [discriminate L|].
    destruct (I2 _ _ L) as (ID & _). apply bytes_eqb_neq in EI. apply EI. rewrite ID. apply id_same.
    unfold about in *. eapply perm_trans; [exact AB|apply Permutation_sym; exact AB'].
Qed.
Print Assumptions C109_ignored_partial.

(** Nodes 0 ("a:80"), 1 ("b:80") and 2 ("x:80"). *)
Definition routex (i : nat) (a : bytes) : option nat :=
  if bytes_eqb a (bs "a:80") then Some 0%nat
  else if bytes_eqb a (bs "b:80") then Some 1%nat
  else if bytes_eqb a (bs "x:80") then Some 2%nat
  else None.
Definition worldx : gworld :=
  mkGW (fun i => match i with
                 | 0 => gnew (bs "a:80")
                 | 1 => gnew (bs "b:80")
                 | 2 => gnew (bs "x:80")
                 | _ => mkG (mkN [] 80 [] [] []) [] []
                 end%nat) [].
Lemma worldx_blank : blank worldx.
Proof. split; [reflexivity|]. intros [|[|[|i]]]; cbn; auto. Qed.
Lemma ginc_postpones : postpones ginc.
Proof. intros now d old H1 H2. unfold ginc. lia. Qed.

(** Node 2 introduces itself to node 0 when its clock shows [t], at second 1000.  Nodes
    0 and 1 carry on: node 0 tells node 1 at 1800 what it knows, and node 1 tells node 0
    at 2600. *)
Definition comes (t : Z) : list gev := [GJoin 2 (bs "a:80") (gsec t) [] []; GDeliver 0 (gsec 1000) (gsec 1000)].
Definition carry_on : list gev :=
  [GJoin 1 (bs "a:80") (gsec 1800) [] []; GDeliver 1 (gsec 1800) (gsec 1800);
   GStart 0 (gsec 1800) (fun l => l); GVisit 0 0 (gsec 1800); GVisit 0 0 (gsec 1800)].
Definition reteach : list gev :=
  [GDeliver 2 (gsec 1800) (gsec 1800); GPurge 0 (gsec 2600);
   GJoin 0 (bs "b:80") (gsec 2600) [] []; GDeliver 4 (gsec 2600) (gsec 2600);
   GStart 1 (gsec 2600) (fun l => l); GVisit 1 0 (gsec 2600); GVisit 1 0 (gsec 2600);
   GDeliver 5 (gsec 2600) (gsec 2600)].


(** With right clocks node 0 still shows node 2 at 1800 and then removes it; its record,
    which node 0 sends to node 1 at 1800 all the same, is not taken over there. *)
Lemma not_x : forall S i, (i < 2)%nat -> goes_by worldx i [bs "x:80"] -> S.
Proof.
  intros S i H P. exfalso. destruct i as [|[|i]]; [| |lia]; cbn in P; apply Permutation_length_1_inv in P; vm_compute in P; discriminate P.
Qed.
Lemma comes_silent : silent insertion_sort ginc routex [bs "x:80"] 1000 worldx (comes 1000 ++ carry_on).
Proof.
  apply silent_static with (w0 := worldx); [auto|].
  repeat constructor; unfold gsec; cbn [hushed0 hushed]; try (unfold clock; lia); try (apply not_x; lia).
  all: try (intros _; vm_compute; discriminate); try (intro l; apply Permutation_refl).
Qed.
Example C109_instance : exists w1 w2,
  postpones ginc /\ blank worldx /\ silent insertion_sort ginc routex [bs "x:80"] 1000 worldx (comes 1000 ++ carry_on) /\
  grun insertion_sort ginc routex worldx (comes 1000) = Some w1 /\ shown [bs "x:80"] (gsec 1800) w1 0 /\
  grun insertion_sort ginc routex worldx (comes 1000 ++ carry_on) = Some w2 /\
  (exists m, nth_error (gMail w2) 2 = Some m /\ about [bs "x:80"] (mPeer m) /\ mTo m = bs "b:80") /\
  map (fun x => pAddressList (piPeer (snd x))) (nPeers (gState (gNodes w2 0))) = [[bs "b:80"]] /\
  (forall i, ~ shown [bs "x:80"] (gsec 2200) w2 i).
Proof.
  assert (X1 : match grun insertion_sort ginc routex worldx (comes 1000) with
               | Some w => nPeers (gState (gNodes w 0)) =
                   [(bs "x:80", mkPI (mkPeer [] 1000 [bs "x:80"] [] []) (gsec 1900))]
               | None => False end) by (vm_compute; reflexivity).
  assert (X2 : match grun insertion_sort ginc routex worldx (comes 1000 ++ carry_on) with
               | Some w => nth_error (gMail w) 2 = Some (mkMail 0 (bs "b:80") (mkPeer [] 1000 [bs "x:80"] [] [])) /\
                   map (fun x => pAddressList (piPeer (snd x))) (nPeers (gState (gNodes w 0))) = [[bs "b:80"]]
               | None => False end) by (vm_compute; split; reflexivity).
  destruct (grun insertion_sort ginc routex worldx (comes 1000)) as [w1|] eqn:E1; [|destruct X1].
  destruct (grun insertion_sort ginc routex worldx (comes 1000 ++ carry_on)) as [w2|] eqn:E2; [|destruct X2].
  exists w1, w2. split; [exact ginc_postpones|]. split; [exact worldx_blank|]. split; [exact comes_silent|].
  split; [reflexivity|]. split.
  { exists (bs "x:80"), (mkPI (mkPeer [] 1000 [bs "x:80"] [] []) (gsec 1900)). rewrite X1.
    split; [left; reflexivity|]. split; [apply Permutation_refl|]. right. unfold gsec. cbn [piExpires]. lia. }
  split; [reflexivity|]. destruct X2 as [X2 X3]. split.
  { eexists. split; [exact X2|]. split; [apply Permutation_refl|reflexivity]. }
  split; [exact X3|]. intro i.
  apply (C109_forgotten_partial insertion_sort ginc routex [bs "x:80"] 1000 worldx (comes 1000 ++ carry_on) w2);
    try exact ginc_postpones; try exact worldx_blank; try exact comes_silent; try exact E2; unfold gsec; lia.
Qed.

(** C109 refuted: the clock of node 2 is ahead.  It introduces itself once, at second
    1000 of the others, and nobody hears of it again.  At second 3400, forty minutes
    later, it is shown: nodes 0 and 1 keep telling each other about it. *)
Theorem C109_forgotten_refuted : exists G inc route X w es1 es2 w1 w2,
  postpones inc /\ blank w /\ grun G inc route w es1 = Some w1 /\
  Forall (fun e => match e with GJoin i _ _ _ _ => goes_by w i X | _ => between (gsec 1000) (gsec 1000) e end) es1 /\
  grun G inc route w1 es2 = Some w2 /\ Forall (between (gsec 1000) (gsec 2600)) es2 /\ Forall any_order es2 /\
  Forall (fun e => match e with GJoin i _ _ _ _ => ~ goes_by w i X | GReply _ _ | GRestart _ => False | _ => True end) es2 /\
  shown X (gsec 3400) w2 0.
Proof.
  exists insertion_sort, ginc, routex, [bs "x:80"], worldx, (comes 90000), (carry_on ++ reteach).
  assert (X2 : match grun insertion_sort ginc routex worldx (comes 90000) with
               | Some w => match grun insertion_sort ginc routex w (carry_on ++ reteach) with
                   | Some w => nth_error (nPeers (gState (gNodes w 0))) 0 =
                       Some (bs "x:80", mkPI (mkPeer [] 90000 [bs "x:80"] [] []) (gsec 3500))
                   | None => False end
               | None => False end) by (vm_compute; reflexivity).
  destruct (grun insertion_sort ginc routex worldx (comes 90000)) as [w1|] eqn:E1; [|destruct X2].
  destruct (grun insertion_sort ginc routex w1 (carry_on ++ reteach)) as [w2|] eqn:E2; [|destruct X2].
  exists w1, w2. split; [exact ginc_postpones|]. split; [exact worldx_blank|]. split; [reflexivity|]. split.
  { repeat constructor; cbn [between]; unfold gsec; lia. }
  split; [exact E2|]. split; [repeat constructor; cbn [between]; unfold gsec; lia|].
  split; [repeat constructor; cbn [any_order]; try intro l; apply Permutation_refl|]. split.
  { repeat constructor; intro P; apply (not_x False _) in P; auto. }
  exists (bs "x:80"), (mkPI (mkPeer [] 90000 [bs "x:80"] [] []) (gsec 3500)).
  split; [eapply nth_error_In; exact X2|]. split; [apply Permutation_refl|]. right. unfold gsec. cbn [piExpires]. lia.
Qed.
Print Assumptions C109_forgotten_refuted.
