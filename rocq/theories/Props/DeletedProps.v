(** C160: deleted data stay deleted. *)
From Verif.Base Require Import GoBase GoLemmas Assoc Float GoSort.
From Verif.Model Require Import Codec Store Data Insert Vector Search Aggregator CallTree Json QueryCache Dataset Sync Cluster Annoy Answers.
From Verif.Spec Require Import Wire Text CacheSpec SyncSpec ClusterSpec AnswerSpec ProvenanceSpec DeletedSpec.
From Verif.Proof Require Import VectorP SyncP ClusterP AnswerP ProvenanceP.
From Verif.Props Require Import QueryProps AnswerProps SyncProps.
From Coq Require Import Lia Permutation.
Open Scope N_scope.

Definition without (k : bytes) (d : Datum) : Prop := ~ has_key d k.

Lemma without_iff : forall w k, all_ok (without k) w <-> (forall i, ~ stores w k i) /\ (forall i, ~ offering w k i).
Proof.
  intros w k. split.
  - intro A. split.
    + intros i (b & e & H & K). destruct (A i) as (S & _). exact (S b e H K).
    + intros i (r & d & R & K & X). destruct (A i) as (_ & S). rewrite Forall_forall in S. destruct (S r R) as (S1 & S2).
      destruct X as [(c & X)|[(c & ids & X)|(c & id & ids & X)]]; [exact (S1 d c X K)| |]; rewrite X in S2; exact (S2 K).
  - intros (A & B) i. split.
    + intros b e H K. apply (A i). exists b, e. auto.
    + apply Forall_forall. intros r R. split.
      * intros d c H K. apply (B i). exists r, d. split; [exact R|]. split; [exact K|]. left. exists c. exact H.
      * destruct (rPc r) as [|d c ids|d c id ids] eqn:PC; [exact I| |]; intro K; apply (B i); exists r, d;
          (split; [exact R|]); (split; [exact K|]); right; [left; exists c, ids|right; exists c, id, ids]; exact PC.
Qed.

(** C160 What no node stores and no statistics run has still to offer stays away: nothing
    but an insert of a client brings the key back, whatever the nodes do. *)
Theorem C160_away_partial : forall M undef resolve w es w' k,
  (forall i, ~ stores w k i) -> (forall i, ~ offering w k i) ->
  always M undef resolve scans_store w es -> ~ inserts_key k es ->
  cluster_run M undef resolve w es = Some w' ->
  (forall i, ~ stores w' k i) /\ (forall i, ~ offering w' k i).
Proof.
  intros M undef resolve w es w' k A B V NI R. apply without_iff.
  eapply run_from; [|intros i now d c H K; apply NI; exists i, now, d, c; split; [exact H|exact K]|exact V|exact R].
  apply without_iff. auto.
Qed.
Print Assumptions C160_away_partial.

Lemma away_sometime : forall M undef resolve w es u k,
  (forall i, ~ stores w k i) -> (forall i, ~ offering w k i) ->
  always M undef resolve scans_store w es -> ~ inserts_key k es ->
  sometime M undef resolve w es u -> forall i, ~ stores u k i.
Proof.
  intros M undef resolve w es u k A B V NI (es1 & es2 & -> & R).
  apply (C160_away_partial M undef resolve w es1 u k A B (always_start _ _ _ _ _ _ _ V)); [|exact R].
  intros (i & now & d & c & H & K). apply NI. exists i, now, d, c. split; [apply in_or_app; left; exact H|exact K].
Qed.

(** No query answers it either: the nodes search states that they go through after
    the deletion, with approximate indexes that were built after it. *)
Theorem C160_answers_partial : forall I M undef resolve w es k,
  (forall i, ~ stores w k i) -> (forall i, ~ offering w k i) ->
  always M undef resolve scans_store w es -> ~ inserts_key k es ->
  forall G ex i ds c ctx out x,
  answered G M ex (looks_of I M undef resolve w es) i ds c ctx out -> In x out -> ~ has_key (sDatum x) k.
Proof.
  intros I M undef resolve w es k A B V NI G ex i ds c ctx out x AN Hx K.
  destruct (C112_real _ _ _ _ _ _ _ _ _ _ AN Hx) as ((j & L & ((u & SU & IN) & IX) & [F|(_ & F)]) & _ & _).
  - destruct F as (b & e & F & _ & E). apply (away_sometime M undef resolve w es u k A B V NI SU j).
    exists b, e. rewrite E. split; [apply IN; exact F|exact K].
  - destruct F as (a & LA & D). destruct (index_from_in _ _ _ IX a _ LA D) as (order & b & e & (u' & SU' & IN') & F & E).
    apply (away_sometime M undef resolve w es u' k A B V NI SU' j).
    exists b, e. rewrite E. split; [apply IN'; exact F|exact K].
Qed.
Print Assumptions C160_answers_partial.

Lemma delete_local : forall M undef resolve w i d k w', has_key d k -> mwf (store (w i)) -> keyed (store (w i)) ->
  cluster_step M undef resolve w (CLocal i (YDelete (Some d))) = Some w' ->
  ~ stores w' k i /\ (forall j, j <> i -> w' j = w j) /\ ySenders (w' i) = ySenders (w i) /\
  mwf (store (w' i)) /\ keyed (store (w' i)).
Proof.
  intros M undef resolve w i d k w' HK W KD H. cbn [cluster_step sync_step] in H. unfold DeleteBDMap in H.
  unfold has_key in HK. rewrite HK in H. cbn [bind] in H. injection H as <-.
  rewrite set_sync_same.
  split; [|split; [intros j NJ; apply set_sync_other; exact NJ|split; [reflexivity|split; [exact (mdelete_wf _ k W)|exact (keyed_delete _ k KD)]]]].
  intros (b & e & Hb & K). rewrite set_sync_same in Hb. unfold store in Hb. cbn [yData set_map dDBMap] in Hb.
  apply in_mload in Hb; [|apply mdelete_wf; exact W]. rewrite mload_mdelete in Hb.
  destruct (bytes_eqb k b) eqn:EB; [discriminate Hb|]. apply KD in Hb. unfold has_key in Hb, K.
  rewrite Hb in K. injection K as K. subst b. rewrite (proj2 (bytes_eqb_spec k k) eq_refl) in EB. discriminate EB.
Qed.

Lemma delete_all : forall M undef resolve d k l w w', has_key d k ->
  (forall i, mwf (store (w i)) /\ keyed (store (w i))) ->
  cluster_run M undef resolve w (delete_at d l) = Some w' ->
  (forall i, In i l -> ~ stores w' k i) /\ (forall i, ~ stores w k i -> ~ stores w' k i) /\
  (forall i, ySenders (w' i) = ySenders (w i)).
Proof.
  intros M undef resolve d k l. induction l as [|i l IH]; intros w w' HK WF R.
  - cbn in R. injection R as <-. split; [intros i []|]. auto.
  - cbn [delete_at map cluster_run] in R.
    destruct (cluster_step M undef resolve w (CLocal i (YDelete (Some d)))) as [w1|] eqn:S1; [|discriminate R].
    destruct (WF i) as (W & KD). destruct (delete_local _ _ _ _ _ _ _ _ HK W KD S1) as (A1 & A2 & A3 & A4 & A5).
    destruct (IH w1 w' HK) as (B1 & B2 & B3); [|exact R|].
    { intro j. destruct (Nat.eq_dec j i) as [->|NJ]; [auto|]. rewrite (A2 j NJ). apply WF. }
    split; [intros j [<-|J]; auto|]. split.
    + intros j NS. apply B2. destruct (Nat.eq_dec j i) as [->|NJ]; [exact A1|].
      intros (b & e & X). apply NS. exists b, e. rewrite <- (A2 j NJ). exact X.
    + intro j. rewrite B3. destruct (Nat.eq_dec j i) as [->|NJ]; [exact A3|rewrite (A2 j NJ); reflexivity].
Qed.

(** Deleting a datum at every node that stores it, while no statistics run has it to
    offer, deletes it for good: afterwards only an insert of a client brings its key back. *)
Theorem C160_deleted_partial : forall M undef resolve w d k l w1 es w',
  has_key d k -> (forall i, mwf (store (w i)) /\ keyed (store (w i))) ->
  (forall i, stores w k i -> In i l) -> (forall i, ~ offering w k i) ->
  cluster_run M undef resolve w (delete_at d l) = Some w1 ->
  always M undef resolve scans_store w1 es -> ~ inserts_key k es ->
  cluster_run M undef resolve w1 es = Some w' -> forall i, ~ stores w' k i.
Proof.
  intros M undef resolve w d k l w1 es w' HK WF ALL NO R1 V NI R.
  destruct (delete_all M undef resolve d k l w w1 HK WF R1) as (A1 & A2 & A3).
  apply (C160_away_partial M undef resolve w1 es w' k); auto.
  - intro i. destruct (in_dec Nat.eq_dec i l) as [X|X]; [apply A1; exact X|]. apply A2. intro S. apply X. apply ALL. exact S.
  - intros i (r & d0 & X & Y). apply (NO i). exists r, d0. rewrite <- A3. auto.
Qed.
Print Assumptions C160_deleted_partial.

(** An instance: both nodes store the datum and it is deleted at both.  Then node 0
    gets another datum and runs its statistics. *)
Definition D2 : Datum := dn 2.
Definition cleared : cluster :=
  match cluster_run mathlib_ex 0 who (two (stock 100000 [1])) (delete_at D1 [0; 1]%nat) with Some w => w | None => two [] end.
Definition afterwards : list cev :=
  [CLocal 0 (YInsert 500 (Some D2) (Some (mkInsertConfig 0 0))); CLocal 0 (YProcess (pe [B1] 1 (stock 0 [2])) true)].
Definition finally : cluster :=
  match cluster_run mathlib_ex 0 who cleared afterwards with Some w => w | None => cleared end.

Lemma no_senders : forall w k, (forall i, ySenders (w i) = []) -> forall i, ~ offering w k i.
Proof. intros w k H i (r & d & R & _). rewrite H in R. destruct R. Qed.

Lemma two_wf : forall i, mwf (store (two (stock 100000 [1]) i)) /\ keyed (store (two (stock 100000 [1]) i)).
Proof.
  destruct stock_wf as (A & B). intros [|[|i]]; [exact (conj A B)|exact (conj A B)|].
  split; [constructor|intros k e L; discriminate L].
Qed.

Lemma cleared_is : cluster_run mathlib_ex 0 who (two (stock 100000 [1])) (delete_at D1 [0; 1]%nat) = Some cleared.
Proof.
  unfold cleared.
  assert (X : match cluster_run mathlib_ex 0 who (two (stock 100000 [1])) (delete_at D1 [0; 1]%nat) with Some _ => True | None => False end)
    by (vm_compute; exact I).
  destruct (cluster_run mathlib_ex 0 who (two (stock 100000 [1])) (delete_at D1 [0; 1]%nat)); [reflexivity|destruct X].
Qed.

Lemma finally_is : cluster_run mathlib_ex 0 who cleared afterwards = Some finally.
Proof.
  unfold finally.
  assert (X : match cluster_run mathlib_ex 0 who cleared afterwards with Some _ => True | None => False end)
    by (vm_compute; exact I).
  destruct (cluster_run mathlib_ex 0 who cleared afterwards); [reflexivity|destruct X].
Qed.

Lemma afterwards_scans : always mathlib_ex 0 who scans_store cleared afterwards.
Proof.
  unfold afterwards. cbn [always]. split; [exact I|].
  destruct (cluster_step mathlib_ex 0 who cleared _) as [w1|] eqn:S1; [|exact I].
  assert (E : store (w1 0%nat) = stock 0 [2]) by (vm_compute in S1; injection S1 as <-; reflexivity).
  clear S1. split; [|destruct (cluster_step _ _ _ w1 _); exact I].
  unfold scans_store. rewrite E. apply incl_refl.
Qed.

Example C160_instance :
  has_key D1 K1 /\ (forall i, mwf (store (two (stock 100000 [1]) i)) /\ keyed (store (two (stock 100000 [1]) i))) /\
  stores (two (stock 100000 [1])) K1 0 /\ stores (two (stock 100000 [1])) K1 1 /\
  (forall i, stores (two (stock 100000 [1])) K1 i -> In i [0; 1]%nat) /\
  (forall i, ~ offering (two (stock 100000 [1])) K1 i) /\
  cluster_run mathlib_ex 0 who (two (stock 100000 [1])) (delete_at D1 [0; 1]%nat) = Some cleared /\
  always mathlib_ex 0 who scans_store cleared afterwards /\ ~ inserts_key K1 afterwards /\
  cluster_run mathlib_ex 0 who cleared afterwards = Some finally /\
  store (finally 0%nat) = stock 0 [2].
Proof.
  split; [reflexivity|]. split; [exact two_wf|].
  split. { exists K1, (mkEntry 100000 D1). split; [vm_compute; auto|reflexivity]. }
  split. { exists K1, (mkEntry 100000 D1). split; [vm_compute; auto|reflexivity]. }
  split. { intros [|[|i]] (b & e & H & _); [left; reflexivity|right; left; reflexivity|destruct H]. }
  split. { apply no_senders. intros [|[|i]]; reflexivity. }
  split; [exact cleared_is|]. split; [exact afterwards_scans|].
  split. { intros (i & now & d & c & [H|[H|[]]] & K); [|discriminate H]. injection H as <- <- <- <-. vm_compute in K. discriminate K. }
  split; [exact finally_is|]. vm_compute. reflexivity.
Qed.

(** C160 refuted: the datum is deleted at every node and nobody inserts it, but it is
    back: node 0 was about to offer it to node 1 when it was deleted. *)
Definition offered : list cev := [CLocal 0 (YProcess (pe [B1] 1 (stock 100000 [1])) false); CLocal 0 (YSend 0 (STake [B1]))].
Theorem C160_offered_refuted : exists M undef resolve w d k l w0 w1 es w' i,
  has_key d k /\ (forall i, mwf (store (w i)) /\ keyed (store (w i)) /\ ySenders (w i) = []) /\
  always M undef resolve scans_store w offered /\ cluster_run M undef resolve w offered = Some w0 /\
  cluster_run M undef resolve w0 (delete_at d l) = Some w1 /\ (forall i, ~ stores w1 k i) /\
  always M undef resolve scans_store w1 es /\ ~ inserts_key k es /\
  cluster_run M undef resolve w1 es = Some w' /\ stores w' k i.
Proof.
  assert (E0 : forall (x : option cluster), x = None \/ exists w, x = Some w) by (intros [w|]; eauto).
  exists mathlib_ex, 0, who, (two []), D1, K1, [0; 1]%nat.
  destruct (E0 (cluster_run mathlib_ex 0 who (two []) offered)) as [E|[w0 E]].
  { exfalso. vm_compute in E. discriminate E. }
  exists w0.
  destruct (E0 (cluster_run mathlib_ex 0 who w0 (delete_at D1 [0; 1]%nat))) as [F|[w1 F]].
  { exfalso. vm_compute in E. injection E as <-. vm_compute in F. discriminate F. }
  exists w1, [COffer 0 0 1000 Deliver].
  destruct (E0 (cluster_run mathlib_ex 0 who w1 [COffer 0 0 1000 Deliver])) as [H|[w' H]].
  { exfalso. vm_compute in E. injection E as <-. vm_compute in F. injection F as <-. vm_compute in H. discriminate H. }
  exists w', 1%nat. split; [reflexivity|]. split.
  { destruct stock_wf as [A B]. intros [|[|i]]; cbn [two node_s ySenders].
    - auto.
    - split; [constructor|]. split; [intros k e L; discriminate L|reflexivity].
    - split; [constructor|]. split; [intros k e L; discriminate L|reflexivity]. }
  split.
  { unfold offered. cbn [always]. split; [apply incl_refl|].
    destruct (cluster_step _ _ _ (two []) _) as [x|]; [|exact I]. split; [exact I|]. destruct (cluster_step _ _ _ x _); exact I. }
  split; [exact E|]. split; [exact F|]. vm_compute in E. injection E as <-. vm_compute in F. injection F as <-.
  split. { intros [|[|i]] (b & e & X & _); destruct X. }
  split. { cbn [always]. split; [exact I|]. match goal with |- match ?x with _ => _ end => destruct x; exact I end. }
  split. { intros (i & now & d & c & [X|[]] & _). discriminate X. }
  split; [exact H|]. vm_compute in H. injection H as <-. exists K1, (mkEntry 100000 D1). split; [vm_compute; auto|reflexivity].
Qed.
Print Assumptions C160_offered_refuted.

(** C160 refuted for a deletion at one node: the other node stores the datum too and
    sends it back. *)
Theorem C160_replica_refuted : exists M undef resolve w d k w1 es w' i,
  has_key d k /\ (forall i, mwf (store (w i)) /\ keyed (store (w i)) /\ ySenders (w i) = []) /\ stores w k i /\
  cluster_run M undef resolve w (delete_at d [i]) = Some w1 /\ ~ stores w1 k i /\
  always M undef resolve scans_store w1 es /\ ~ inserts_key k es /\
  cluster_run M undef resolve w1 es = Some w' /\ stores w' k i.
Proof.
  assert (E0 : forall (x : option cluster), x = None \/ exists w, x = Some w) by (intros [w|]; eauto).
  exists mathlib_ex, 0, who, (two (stock 100000 [1])), D1, K1.
  destruct (E0 (cluster_run mathlib_ex 0 who (two (stock 100000 [1])) (delete_at D1 [0]%nat))) as [F|[w1 F]].
  { exfalso. vm_compute in F. discriminate F. }
  exists w1, (hand 1 A1 (stock 100000 [1])).
  destruct (E0 (cluster_run mathlib_ex 0 who w1 (hand 1 A1 (stock 100000 [1])))) as [H|[w' H]].
  { exfalso. vm_compute in F. injection F as <-. vm_compute in H. discriminate H. }
  exists w', 0%nat. split; [reflexivity|]. split.
  { intro i. destruct (two_wf i) as (A & B). split; [exact A|]. split; [exact B|]. destruct i as [|[|i]]; reflexivity. }
  split. { exists K1, (mkEntry 100000 D1). split; [vm_compute; auto|reflexivity]. }
  split; [exact F|]. vm_compute in F. injection F as <-.
  split. { intros (b & e & X & _). destruct X. }
  split.
  { unfold hand. cbn [always]. split; [apply incl_refl|].
    match goal with |- match ?x with _ => _ end => destruct x as [x1|]; [|exact I] end. split; [exact I|].
    destruct (cluster_step _ _ _ x1 _) as [x2|]; [|exact I]. split; [exact I|].
    destruct (cluster_step _ _ _ x2 _) as [x3|]; [|exact I]. split; [exact I|]. destruct (cluster_step _ _ _ x3 _); exact I. }
  split. { intros (i & now & d & c & X & _). unfold hand in X. destruct X as [X|[X|[X|[X|[]]]]]; discriminate X. }
  split; [exact H|]. vm_compute in H. injection H as <-. exists K1, (mkEntry 100000 D1). split; [vm_compute; auto|reflexivity].
Qed.
Print Assumptions C160_replica_refuted.

(** An instance for queries: the nodes of C112, where the key K1 is not stored; a query
    answers another datum. *)
Example C160_answers_instance : forall I,
  (forall i, ~ stores start K1 i) /\ (forall i, ~ offering start K1 i) /\
  always mathlib_ex 0 (fun _ => None) scans_store start puts /\ ~ inserts_key K1 puts /\
  answered insertion_sort mathlib_ex ex_all (looks_of I mathlib_ex 0 (fun _ => None) start puts) 0
    [mkDatum (Some qk) None] (qc 60 (bs "u2")) (Some ctx1) [mkScored (near d1 d1) d1].
Proof.
  intro I. split; [intros i (b & e & H & _); destruct H|]. split; [apply no_senders; reflexivity|].
  split; [exact (proj1 (proj2 (C112_instance I)))|]. split; [|apply answer_ex].
  intros (i & now & d & c & [H|[H|[]]] & K); injection H as <- <- <- <-; vm_compute in K; discriminate K.
Qed.
