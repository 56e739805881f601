(** C170: copies of a key that clients leave alone. *)
From Verif.Base Require Import GoBase GoLemmas Assoc Float.
From Verif.Model Require Import Codec Store Data Insert Vector Dataset Sync Cluster.
From Verif.Spec Require Import SyncSpec ClusterSpec ProvenanceSpec DeletedSpec AgreeSpec.
From Verif.Proof Require Import VectorP StoreP SyncP SyncQ ClusterP ProvenanceP AgreeP.
From Verif.Props Require Import StoreProps SyncProps DeletedProps.
From Coq Require Import Lia.
Open Scope N_scope.

Lemma leaves_no_insert : forall k w e now d c i, leaves_alone k w e -> e = CLocal i (YInsert now (Some d) c) -> ~ has_key d k.
Proof. intros k w e now d c i L ->. exact L. Qed.

Lemma leaves_scans : forall k w e, leaves_alone k w e -> scans_store w e.
Proof.
  intros k w [i [P f|? ?|now [d|] c|?|?|]|? ? ? ?] L; try exact I. cbn in *. intros x H. eapply Permutation_in; eauto.
Qed.

Lemma all_ok_copies : forall (V : Datum -> Prop) w k,
  all_ok (fun d => has_key d k -> V d) w <-> forall d, copy w k d -> V d.
Proof.
  intros V w k. split.
  - intros A d (K & i & X). destruct (A i) as (S1 & S2). destruct X as [(b & e & H & <-)|(r & R & X)]; [exact (S1 b e H K)|].
    rewrite Forall_forall in S2. destruct (S2 r R) as (S3 & S4).
    destruct X as [(c & X)|[(c & ids & X)|(c & id & ids & X)]]; [exact (S3 d c X K)| |]; rewrite X in S4; exact (S4 K).
  - intros A i. split.
    + intros b e H K. apply A. split; [exact K|]. exists i. left. exists b, e. auto.
    + apply Forall_forall. intros r R. split.
      * intros d c H K. apply A. split; [exact K|]. exists i. right. exists r. split; [exact R|]. left. exists c. exact H.
      * destruct (rPc r) as [|d c ids|d c id ids] eqn:PC; [exact I| |]; intro K; apply A; (split; [exact K|]); exists i; right; exists r;
          (split; [exact R|]); right; [left; exists c, ids|right; exists c, id, ids]; exact PC.
Qed.

(** C170 Whatever the nodes do, they invent no value: while clients leave the key alone,
    every copy of it - stored or on its way - was a copy at the beginning.
    Missing: that one of several values wins, refuted below. *)
Theorem C170_values_partial : forall M undef resolve k es w w',
  always M undef resolve (leaves_alone k) w es -> cluster_run M undef resolve w es = Some w' ->
  forall d, copy w' k d -> copy w k d.
Proof.
  intros M undef resolve k. induction es as [|e es IH]; intros w w' A R d H; cbn in *.
  - injection R as <-. exact H.
  - destruct A as (A1 & A2). destruct (cluster_step M undef resolve w e) as [w1|] eqn:E; [|discriminate R].
    pose proof (IH _ _ A2 R d H) as H1. clear IH A2 R H w'. revert d H1. apply all_ok_copies.
    eapply (run_from M undef resolve _ [e]).
    + apply all_ok_copies. intros d X. exact X.
    + intros i now d c [X|[]] K. exfalso. exact (leaves_no_insert k w e now d c i A1 X K).
    + cbn. rewrite E. split; [eapply leaves_scans; exact A1|exact I].
    + cbn. rewrite E. reflexivity.
Qed.
Print Assumptions C170_values_partial.

(** So once all copies agree, they agree for ever. *)
Theorem C170_agree_partial : forall M undef resolve k es w w' D,
  (forall d, copy w k d -> d = D) ->
  always M undef resolve (leaves_alone k) w es -> cluster_run M undef resolve w es = Some w' ->
  forall i d, has_key d k -> shows w' i k d -> d = D.
Proof.
  intros M undef resolve k es w w' D C A R i d K (e & L & X). apply C.
  eapply C170_values_partial; [exact A|exact R|]. split; [exact K|]. exists i. left. exists k, e. split; [|exact X].
  apply mload_in. exact L.
Qed.
Print Assumptions C170_agree_partial.

(** An offer that is acknowledged makes the receiver's value the offered one. *)
Theorem C170_delivered_partial : forall M undef resolve w w' i j now r r' d c id ids t k,
  nth_error (ySenders (w i)) j = Some r -> rPc r = Visit d c (id :: ids) -> resolve id = Some t -> has_key d k ->
  cluster_step M undef resolve w (COffer i j now Deliver) = Some w' ->
  nth_error (ySenders (w' i)) j = Some r' -> rPc r' = Acked d c id ids ->
  exists d', shows w' t k d' /\ GetValueAsBytes (Some d') = GetValueAsBytes (Some d).
Proof.
  intros M undef resolve w w' i j now r r' d c id ids t k N PC RT K H N' PC'. cbn [cluster_step] in H.
  rewrite N, PC, RT in H. unfold receive in H.
  assert (REJ : forall w1 ok, nth_error (ySenders (w1 i)) j = Some r ->
    match sync_step M undef (w1 i) (YSend j (SOffer ok)) with Some s => Some (set_sync w1 i s) | None => None end = Some w' ->
    ok = true /\ forall n, store (w' n) = store (w1 n)).
  { intros w1 ok N1 S1. cbn [sync_step] in S1. rewrite N1 in S1. unfold sender_step in S1. rewrite PC in S1.
    destruct (serves (yData (w1 i)) r id); [|discriminate S1].
    destruct (list_set (ySenders (w1 i)) j _) as [l|] eqn:LS; [|discriminate S1]. injection S1 as <-.
    rewrite set_sync_same in N'. cbn [ySenders] in N'. rewrite (nth_set _ _ _ _ _ j LS), Nat.eqb_refl in N'. injection N' as <-.
    split; [destruct ok; [reflexivity|cbn in PC'; discriminate PC']|].
    intro n. unfold set_sync. destruct (Nat.eqb_spec n i) as [->|_]; reflexivity. }
  assert (SAME : forall dt, nth_error (ySenders (set_sync w t (mkSync dt (ySenders (w t))) i)) j = Some r).
  { intro dt. unfold set_sync. destruct (Nat.eqb_spec i t) as [<-|_]; exact N. }
  assert (SAME2 : nth_error (ySenders (set_sync w t (w t) i)) j = Some r).
  { unfold set_sync. destruct (Nat.eqb_spec i t) as [<-|_]; exact N. }
  destruct (InsertLocal now (yData (w t)) (Some d) (Some c)) as [[dt [o|]]| |] eqn:IL.
  { destruct (REJ _ _ (SAME dt) H) as (X & _). discriminate X. }
  2,3: destruct (REJ _ _ SAME2 H) as (X & _); discriminate X.
  destruct (REJ _ _ (SAME dt) H) as (_ & ST). clear REJ H.
  unfold shows. rewrite ST, set_sync_same. unfold store. cbn [yData].
  unfold InsertLocal in IL. destruct (match dConfig (yData (w t)) with Some c => _ | None => false end); [discriminate IL|].
  set (dt0 := if dInitialized (yData (w t)) then yData (w t) else InitData (yData (w t))) in *.
  unfold InsertBDMap in IL. unfold has_key in K. rewrite K in IL. cbn [bind] in IL. unfold EncodeToString in IL.
  destruct (mload (dDBMap dt0) k) as [old|] eqn:L; cbn [bind] in IL.
  - destruct (GetValueAsBytes (Some d)) as [v1| |] eqn:G1; cbn [bind] in IL; try discriminate IL.
    destruct (GetValueAsBytes (Some (edatum old))) as [v2| |] eqn:G2; cbn [bind] in IL; try discriminate IL.
    destruct (negb (bytes_eqb v1 v2 && CloseEnough (expireAtOf now (Some c)) (exprireAt old))) eqn:CL; injection IL as <-;
      cbn [set_dirty set_recent set_map dDBMap].
    + exists d. split; [|exact G1]. eexists. split; [apply mload_mstore_same|reflexivity].
    + exists (edatum old). split; [exists old; split; [exact L|reflexivity]|]. rewrite G2.
      destruct (bytes_eqb v1 v2) eqn:B; [|discriminate CL]. apply bytes_eqb_spec in B. congruence.
  - injection IL as <-. cbn [set_dirty set_recent set_map dDBMap]. exists d. split; [|reflexivity].
    eexists. split; [apply mload_mstore_same|reflexivity].
Qed.
Print Assumptions C170_delivered_partial.

(** Copies without a time to live are not offered, so they never change: every node keeps
    exactly the entry it has, whatever the nodes do. *)
Theorem C170_permanent : forall M undef resolve k es w w',
  (forall i, mwf (store (w i)) /\ keyed (store (w i))) ->
  (forall i e, mload (store (w i)) k = Some e -> exprireAt e = 0%Z) -> (forall i, ~ offering w k i) ->
  always M undef resolve (leaves_alone k) w es -> cluster_run M undef resolve w es = Some w' ->
  forall i, mload (store (w' i)) k = mload (store (w i)) k.
Proof.
  intros M undef resolve k es w w' W Z NO A R i.
  assert (ST : forall n, still k (mload (store (w n)) k) (w n)).
  { intro n. destruct (W n) as (W1 & W2). split; [exact W1|]. split; [exact W2|]. split; [reflexivity|]. split; [intros e; apply (Z n e)|].
    intros m r d N X K. apply (NO n). exists r, d. split; [eapply nth_error_In; exact N|]. split; [exact K|].
    destruct X as [X|X]; [left; exact X|right]. destruct (rPc r) as [|d' c ids|d' c id ids]; [destruct X| |]; subst d';
      [left; exists c, ids|right; exists c, id, ids]; reflexivity. }
  destruct (still_run M undef resolve k _ es w w' ST A R i) as (_ & _ & E & _). exact E.
Qed.
Print Assumptions C170_permanent.

(** ** Two nodes with different values *)
Definition rivals (exp : Z) : cluster :=
  fun i => match i with
           | O => mkSync (dt_s (cfg_s 0 true) 1 [(K1, mkEntry exp D1)] [B1]) []
           | 1%nat => mkSync (dt_s (cfg_s 0 true) 1 [(K1, mkEntry exp D1b)] [A1]) []
           | _ => mkSync (dt_s (cfg_s 0 true) 0 [] []) []
           end.

Lemma rivals_wf : forall exp i, mwf (store (rivals exp i)) /\ keyed (store (rivals exp i)) /\ ySenders (rivals exp i) = [].
Proof.
  intros exp i. assert (X : forall d, has_key d K1 -> mwf [(K1, mkEntry exp d)] /\ keyed [(K1, mkEntry exp d)]).
  { intros d H. split; [repeat constructor; auto|]. intros k e L. cbn [mload] in L. destruct (bytes_eqb K1 k) eqn:B; [|discriminate L].
    apply bytes_eqb_spec in B. injection L as <-. rewrite <- B. exact H. }
  destruct i as [|[|i]]; unfold store; cbn [rivals yData dt_s dDBMap ySenders].
  - destruct (X D1 eq_refl). auto.
  - destruct (X D1b eq_refl). auto.
  - split; [constructor|]. split; [intros k e L; discriminate L|reflexivity].
Qed.

(** C170 refuted: two nodes that are each other's source hold different values of the key
    for ever - no execution in which clients leave the key alone brings them together. *)
Theorem C170_apart_refuted : exists w k d0 d1,
  (forall i, mwf (store (w i)) /\ keyed (store (w i)) /\ ySenders (w i) = []) /\
  dSources (yData (w 0%nat)) = Some [B1] /\ dSources (yData (w 1%nat)) = Some [A1] /\
  GetValueAsBytes (Some d0) <> GetValueAsBytes (Some d1) /\ shows w 0 k d0 /\ shows w 1 k d1 /\
  forall M undef es w', always M undef who (leaves_alone k) w es -> cluster_run M undef who w es = Some w' ->
    shows w' 0 k d0 /\ shows w' 1 k d1.
Proof.
  exists (rivals 0), K1, D1, D1b. split; [apply rivals_wf|]. split; [reflexivity|]. split; [reflexivity|].
  split; [vm_compute; discriminate|]. split; [eexists; split; reflexivity|]. split; [eexists; split; reflexivity|].
  intros M undef es w' A R.
  assert (P : forall i, mload (store (w' i)) K1 = mload (store (rivals 0 i)) K1).
  { eapply C170_permanent; [| | |exact A|exact R].
    - intro i. destruct (rivals_wf 0 i) as (X & Y & _). auto.
    - intros i e L. destruct i as [|[|i]]; vm_compute in L; try discriminate L; injection L as <-; reflexivity.
    - intros i (r & d & I & _). destruct (rivals_wf 0 i) as (_ & _ & N). rewrite N in I. destruct I. }
  split; eexists; rewrite P; split; reflexivity.
Qed.
Print Assumptions C170_apart_refuted.

(** C170 refuted for data with a time to live: two nodes offer their values to each other
    at the same time and exchange them - both offers are acknowledged, and they disagree as before. *)
Definition exchange : list cev :=
  [CLocal 0 (YProcess (pe [B1] 1 [(K1, mkEntry 100000 D1)]) false); CLocal 1 (YProcess (pe [A1] 1 [(K1, mkEntry 100000 D1b)]) false);
   CLocal 0 (YSend 0 (STake [B1])); CLocal 1 (YSend 0 (STake [A1]));
   COffer 0 0 1000 Deliver; COffer 1 0 1000 Deliver;
   CLocal 0 (YSend 0 SDecide); CLocal 1 (YSend 0 SDecide)].

Theorem C170_swap_refuted : exists w k d0 d1 es w',
  (forall i, mwf (store (w i)) /\ keyed (store (w i)) /\ ySenders (w i) = []) /\
  GetValueAsBytes (Some d0) <> GetValueAsBytes (Some d1) /\ shows w 0 k d0 /\ shows w 1 k d1 /\
  always mathlib_ex 0 who (leaves_alone k) w es /\ cluster_run mathlib_ex 0 who w es = Some w' /\
  shows w' 0 k d1 /\ shows w' 1 k d0.
Proof.
  assert (E0 : forall (x : option cluster), x = None \/ exists w, x = Some w) by (intros [w|]; eauto).
  exists (rivals 100000), K1, D1, D1b, exchange.
  destruct (E0 (cluster_run mathlib_ex 0 who (rivals 100000) exchange)) as [E|[w' E]].
  { exfalso. vm_compute in E. discriminate E. }
  exists w'. split; [apply rivals_wf|]. split; [vm_compute; discriminate|].
  split; [eexists; split; reflexivity|]. split; [eexists; split; reflexivity|]. split.
  { unfold exchange. cbn [always]. split; [apply Permutation_refl|].
    repeat match goal with
    | |- match ?x with _ => _ end => destruct x eqn:S1; [|exact I]; vm_compute in S1; injection S1 as <-
    | |- leaves_alone _ _ _ /\ _ => split; [first [exact I|apply Permutation_refl]|]
    end. exact I. }
  split; [exact E|]. vm_compute in E. injection E as <-. split; eexists; split; reflexivity.
Qed.
Print Assumptions C170_swap_refuted.

(** One of the two offers alone: the receiver takes the value over. *)
Example C170_instance : exists w',
  always mathlib_ex 0 who (leaves_alone K1) (rivals 100000) (hand 0 B1 [(K1, mkEntry 100000 D1)]) /\
  cluster_run mathlib_ex 0 who (rivals 100000) (hand 0 B1 [(K1, mkEntry 100000 D1)]) = Some w' /\
  shows w' 0 K1 D1 /\ shows w' 1 K1 D1 /\ (forall d, copy w' K1 d -> copy (rivals 100000) K1 d).
Proof.
  assert (E0 : forall (x : option cluster), x = None \/ exists w, x = Some w) by (intros [w|]; eauto).
  destruct (E0 (cluster_run mathlib_ex 0 who (rivals 100000) (hand 0 B1 [(K1, mkEntry 100000 D1)]))) as [E|[w' E]].
  { exfalso. vm_compute in E. discriminate E. }
  exists w'.
  assert (AL : always mathlib_ex 0 who (leaves_alone K1) (rivals 100000) (hand 0 B1 [(K1, mkEntry 100000 D1)])).
  { unfold hand. cbn [always]. split; [apply Permutation_refl|].
    repeat match goal with
    | |- match ?x with _ => _ end => destruct x eqn:S1; [|exact I]; vm_compute in S1; injection S1 as <-
    | |- leaves_alone _ _ _ /\ _ => split; [exact I|]
    end. exact I. }
  split; [exact AL|]. split; [exact E|].
  assert (C : forall d, copy w' K1 d -> copy (rivals 100000) K1 d) by (eapply C170_values_partial; eauto).
  vm_compute in E. injection E as <-. split; [eexists; split; reflexivity|]. split; [eexists; split; reflexivity|exact C].
Qed.

(** Node 0 has the only value; the others can only take it over. *)
Definition sole : cluster :=
  fun i => match i with
           | O => mkSync (dt_s (cfg_s 0 true) 1 [(K1, mkEntry 100000 D1)] [B1]) []
           | _ => mkSync (dt_s (cfg_s 0 true) 0 [] []) []
           end.

Example C170_instance_agree : exists w', (forall d, copy sole K1 d -> d = D1) /\
  always mathlib_ex 0 who (leaves_alone K1) sole (hand 0 B1 [(K1, mkEntry 100000 D1)]) /\
  cluster_run mathlib_ex 0 who sole (hand 0 B1 [(K1, mkEntry 100000 D1)]) = Some w' /\
  shows w' 1 K1 D1 /\ forall i d, has_key d K1 -> shows w' i K1 d -> d = D1.
Proof.
  assert (E0 : forall (x : option cluster), x = None \/ exists w, x = Some w) by (intros [w|]; eauto).
  destruct (E0 (cluster_run mathlib_ex 0 who sole (hand 0 B1 [(K1, mkEntry 100000 D1)]))) as [E|[w' E]].
  { exfalso. vm_compute in E. discriminate E. }
  exists w'.
  assert (C : forall d, copy sole K1 d -> d = D1).
  { intros d (_ & i & [(b & e & H & <-)|(r & H & _)]).
    - destruct i as [|i]; unfold store in H; cbn in H; [|destruct H]. destruct H as [H|[]]. injection H as _ <-. reflexivity.
    - destruct i; destruct H. }
  assert (AL : always mathlib_ex 0 who (leaves_alone K1) sole (hand 0 B1 [(K1, mkEntry 100000 D1)])).
  { unfold hand. cbn [always]. split; [apply Permutation_refl|].
    repeat match goal with
    | |- match ?x with _ => _ end => destruct x eqn:S1; [|exact I]; vm_compute in S1; injection S1 as <-
    | |- leaves_alone _ _ _ /\ _ => split; [exact I|]
    end. exact I. }
  split; [exact C|]. split; [exact AL|]. split; [exact E|]. split; [|eapply C170_agree_partial; eauto].
  vm_compute in E. injection E as <-. eexists; split; reflexivity.
Qed.

(** Both nodes run their statistics on data without a time to live: nothing is offered. *)
Definition permanent_scan : list cev :=
  [CLocal 0 (YProcess (pe [B1] 1 [(K1, mkEntry 0 D1)]) false); CLocal 1 (YProcess (pe [A1] 1 [(K1, mkEntry 0 D1b)]) false)].

Example C170_instance_permanent : exists w',
  (forall i, mwf (store (rivals 0 i)) /\ keyed (store (rivals 0 i))) /\
  (forall i e, mload (store (rivals 0 i)) K1 = Some e -> exprireAt e = 0%Z) /\ (forall i, ~ offering (rivals 0) K1 i) /\
  always mathlib_ex 0 who (leaves_alone K1) (rivals 0) permanent_scan /\
  cluster_run mathlib_ex 0 who (rivals 0) permanent_scan = Some w' /\
  length (ySenders (w' 0%nat)) = 1%nat /\ mload (store (w' 1%nat)) K1 = Some (mkEntry 0 D1b).
Proof.
  assert (E0 : forall (x : option cluster), x = None \/ exists w, x = Some w) by (intros [w|]; eauto).
  destruct (E0 (cluster_run mathlib_ex 0 who (rivals 0) permanent_scan)) as [E|[w' E]].
  { exfalso. vm_compute in E. discriminate E. }
  exists w'. split; [intro i; destruct (rivals_wf 0 i) as (X & Y & _); auto|].
  split; [intros i e L; destruct i as [|[|i]]; vm_compute in L; try discriminate L; injection L as <-; reflexivity|].
  split; [intros i (r & d & I & _); destruct (rivals_wf 0 i) as (_ & _ & N); rewrite N in I; destruct I|]. split.
  { unfold permanent_scan. cbn [always]. split; [apply Permutation_refl|].
    match goal with |- match ?x with _ => _ end => destruct x eqn:S1; [|exact I]; vm_compute in S1; injection S1 as <- end.
    split; [apply Permutation_refl|]. match goal with |- match ?x with _ => _ end => destruct x; exact I end. }
  split; [exact E|]. vm_compute in E. injection E as <-. split; reflexivity.
Qed.

(** The step of an acknowledged offer. *)
Example C170_instance_delivered : exists w w' r r' c,
  cluster_run mathlib_ex 0 who (rivals 100000) (firstn 2 (hand 0 B1 [(K1, mkEntry 100000 D1)])) = Some w /\
  nth_error (ySenders (w 0%nat)) 0 = Some r /\ rPc r = Visit D1 c [B1] /\ who B1 = Some 1%nat /\ has_key D1 K1 /\
  cluster_step mathlib_ex 0 who w (COffer 0 0 1000 Deliver) = Some w' /\
  nth_error (ySenders (w' 0%nat)) 0 = Some r' /\ rPc r' = Acked D1 c B1 [] /\
  shows w 1 K1 D1b /\ shows w' 1 K1 D1.
Proof.
  assert (E0 : forall (x : option cluster), x = None \/ exists w, x = Some w) by (intros [w|]; eauto).
  destruct (E0 (cluster_run mathlib_ex 0 who (rivals 100000) (firstn 2 (hand 0 B1 [(K1, mkEntry 100000 D1)])))) as [E|[w E]].
  { exfalso. vm_compute in E. discriminate E. }
  destruct (E0 (cluster_step mathlib_ex 0 who w (COffer 0 0 1000 Deliver))) as [E1|[w' E1]].
  { exfalso. vm_compute in E. injection E as <-. vm_compute in E1. discriminate E1. }
  exists w, w'. pose proof E as E'. pose proof E1 as E1'. vm_compute in E'. injection E' as <-. vm_compute in E1'. injection E1' as <-.
  eexists. eexists. eexists. split; [exact E|]. split; [reflexivity|]. split; [reflexivity|]. split; [reflexivity|].
  split; [reflexivity|]. split; [exact E1|]. split; [reflexivity|]. split; [reflexivity|].
  split; eexists; split; reflexivity.
Qed.
