(** Property C84, and C56 for the insert handler: inserts in a cluster. *)
From Verif.Base Require Import GoBase GoLemmas Assoc Float.
From Verif.Model Require Import Codec Store Data Insert.
From Verif.Spec Require Import Wire StoreSpec InsertSpec.
From Verif.Proof Require Import CodecP CodecTop StoreP StoreQ InsertP InsertClusterP.
From Verif.Props Require Import StoreProps InsertProps.
Open Scope N_scope.

(** C56, the handler: whatever request arrives at whatever node, a node in drain
    mode is exactly as before, and the client gets an error if it asked that node. *)
Theorem C56_drained_insert : forall E fuel w i d config w' e,
  NodeInsert E fuel w i d config = (w', e) ->
  (forall j, nDrain (wNodes w j) = true -> wNodes w' j = wNodes w j) /\
  (nDrain (wNodes w i) = true -> e <> None /\ wNodes w' = wNodes w).
Proof.
  intros E fuel w i d config w' e H. split.
  - intros j D. pose proof (drained_kept E fuel w i d config j D) as X. rewrite H in X. exact X.
  - intro D. destruct fuel as [|fuel]; cbn [NodeInsert] in H.
    + injection H as <- <-. split; [discriminate|reflexivity].
    + rewrite D in H. destruct (negb (nRunning (wNodes w i))); injection H as <- <-; (split; [discriminate|reflexivity]).
Qed.
Print Assumptions C56_drained_insert.

(** C84 A successful insert has its copies on different nodes.  If different
    sources of the dataset lead to different nodes, none of them the node itself,
    success means that as many nodes as configured hold the datum, and none of
    them is in drain mode. *)
Theorem C84_copies_partial : forall E fuel w i k v config w' dc srcs,
  (2 <= fuel)%nat -> kv_ok k v -> (forall j, slot_fine (dDBMap (nData (wNodes w j))) k) -> count_of config = 0 ->
  dInitialized (nData (wNodes w i)) = true -> dSources (nData (wNodes w i)) = Some srcs ->
  dConfig (nData (wNodes w i)) = Some dc -> cEnforceReplicationOnInsert dc = true ->
  (forall n l, Permutation (eOrder E n l) l) -> NoDup srcs ->
  (forall s t j, In s srcs -> In t srcs -> eResolve E s = Some j -> eResolve E t = Some j -> s = t) ->
  (forall s, In s srcs -> eResolve E s <> Some i) ->
  NodeInsert E fuel w i (Some (kv k v)) config = (w', None) ->
  exists nodes, NoDup nodes /\ cReplicationOnInsert dc <= blen nodes /\ In i nodes /\
    Forall (fun j => holds (dDBMap (nData (wNodes w' j))) k v /\ nDrain (wNodes w' j) = false) nodes.
Proof.
  intros E fuel w i k v config w' dc srcs HF K F HC IN SR DC EN PO ND INJ SELF H.
  destruct (node_insert_nodes E fuel w i k v config w' None HF K F HC H) as (_ & X).
  destruct (X eq_refl) as (H1 & H2 & dc' & items & DC' & IT & Y). rewrite DC in DC'. injection DC' as <-.
  destruct (Y IN EN) as (ok & O1 & O2 & O3 & O4). rewrite SR in IT. subst items.
  assert (NDo : NoDup ok) by (apply O2; eapply Permutation_NoDup; [apply Permutation_sym, PO|exact ND]).
  assert (INo : incl ok srcs) by (intros x I; eapply Permutation_in; [apply PO|apply O1, I]).
  assert (Z : exists js, map (eResolve E) ok = map Some js /\
    Forall (fun j => holds (dDBMap (nData (wNodes w' j))) k v /\ nDrain (wNodes w' j) = false) js).
  { clear - O4. induction O4 as [|s l (j & R & A & B) _ (js & M & FJ)]; [exists []; auto|].
    exists (j :: js). cbn. rewrite R, M. split; auto. }
  destruct Z as (js & M & FJ). exists (i :: js).
  assert (LEN : blen js = blen ok).
  { apply (f_equal (@length _)) in M. rewrite !map_length in M. unfold blen. congruence. }
  split; [|split; [|split; [left; reflexivity|constructor; auto]]].
  - constructor.
    + intro I. apply (in_map Some) in I. rewrite <- M in I. apply in_map_iff in I. destruct I as (s & R & I).
      apply (SELF s (INo s I) R).
    + assert (NDS : NoDup (map Some js)).
      { rewrite <- M. clear - INJ INo NDo O4. induction ok as [|s l IH]; [constructor|]. cbn.
        inversion NDo; subst. inversion O4 as [|? ? (j & R & _) O5]; subst. constructor.
        - intro I. apply in_map_iff in I. destruct I as (t & E1 & I). apply H1.
          rewrite (INJ s t j); auto; [apply INo; left; auto|apply INo; right; auto|congruence].
        - apply IH; auto. intros x X. apply INo. right. exact X. }
      apply NoDup_map_inv in NDS. exact NDS.
  - rewrite blen_cons. lia.
Qed.
Print Assumptions C84_copies_partial.

(** False in general: a node that is listed under two of its addresses (C77)
    counts as two replicas, and so does the inserting node itself (C74). *)
Definition aliases (table : list (bytes * N)) : env :=
  mkEnv (fun n => Z.of_nat n) (fun _ l => l) (fun _ => Deliver)
    (fun s => match find (fun p => bytes_eqb s (fst p)) table with Some p => Some (snd p) | None => None end).
Definition with_srcs (r : N) (srcs : list bytes) : node := mkNode true false (dt_ex 0 true r srcs).
Definition start_of (r : N) (srcs : list bytes) : world :=
  mkWorld (fun j => if j =? 0 then with_srcs r srcs else with_srcs r []) 0 [] false.
Theorem C84_copies_refuted :
  (exists E w w', NodeInsert E 2 w 0 (Some (kv ka va)) None = (w', None) /\
     dConfig (nData (wNodes w 0)) = Some (cfg_ex 0 true 3) /\
     forall nodes, NoDup nodes -> Forall (fun j => holds (dDBMap (nData (wNodes w' j))) ka va) nodes -> blen nodes <= 2) /\
  (exists E w w', NodeInsert E 2 w 0 (Some (kv ka va)) None = (w', None) /\
     dConfig (nData (wNodes w 0)) = Some (cfg_ex 0 true 2) /\
     forall nodes, NoDup nodes -> Forall (fun j => holds (dDBMap (nData (wNodes w' j))) ka va) nodes -> blen nodes <= 1).
Proof.
  split.
  - exists (aliases [(bs "a:1", 1); (bs "b:1", 1)]), (start_of 3 [bs "a:1"; bs "b:1"]).
    eexists. split; [vm_compute; reflexivity|]. split; [reflexivity|].
    intros nodes ND F. assert (I : incl nodes [0; 1]).
    { intros j J. rewrite Forall_forall in F. destruct (F j J) as (e & L & _).
      destruct (N.eq_dec j 0) as [->|]; [left; auto|]. destruct (N.eq_dec j 1) as [->|]; [right; left; auto|].
      exfalso. revert L. destruct j as [|[p|p|]]; cbn; try discriminate; congruence. }
    apply (NoDup_incl_length ND) in I. cbn in I. unfold blen. lia.
  - exists (aliases [(bs "me:1", 0)]), (start_of 2 [bs "me:1"]).
    eexists. split; [vm_compute; reflexivity|]. split; [reflexivity|].
    intros nodes ND F. assert (I : incl nodes [0]).
    { intros j J. rewrite Forall_forall in F. destruct (F j J) as (e & L & _).
      destruct (N.eq_dec j 0) as [->|]; [left; auto|].
      exfalso. revert L. destruct j as [|[p|p|]]; cbn; try discriminate; congruence. }
    apply (NoDup_incl_length ND) in I. cbn in I. unfold blen. lia.
Qed.
Print Assumptions C84_copies_refuted.

(** Three sources, one of them draining, replication 3. *)
Definition copies_env : env := aliases [(bs "a:1", 1); (bs "b:1", 2); (bs "c:1", 3)].
Definition copies_start : world :=
  mkWorld (fun j => if j =? 0 then with_srcs 3 [bs "a:1"; bs "b:1"; bs "c:1"]
                    else if j =? 1 then mkNode true true (dt_ex 0 true 3 [])
                    else with_srcs 3 []) 0 [] false.
Example C84_instance : exists w', NodeInsert copies_env 2 copies_start 0 (Some (kv ka va)) None = (w', None) /\
  exists nodes, NoDup nodes /\ 3 <= blen nodes /\ In 0 nodes /\
    Forall (fun j => holds (dDBMap (nData (wNodes w' j))) ka va /\ nDrain (wNodes w' j) = false) nodes.
Proof.
  eexists. split; [vm_compute; reflexivity|].
  apply (C84_copies_partial copies_env 2 copies_start 0 ka va None _ (cfg_ex 0 true 3) [bs "a:1"; bs "b:1"; bs "c:1"]); try reflexivity.
  - apply kva_ok.
  - intros j e L. exfalso. revert L. cbn. destruct (j =? 0); [discriminate|]. destruct (j =? 1); discriminate.
  - repeat constructor; cbn; intuition discriminate.
  - intros s t j [<-|[<-|[<-|[]]]] [<-|[<-|[<-|[]]]]; vm_compute; congruence.
  - intros s [<-|[<-|[<-|[]]]]; vm_compute; discriminate.
Qed.
Example C56_instance_insert : exists w', NodeInsert copies_env 2 copies_start 1 (Some (kv ka va)) None = (w', Some errDrain) /\
  wNodes w' 1 = wNodes copies_start 1.
Proof. eexists. split; reflexivity. Qed.
