(** C112: what queries answer is real. *)
From Verif.Base Require Import GoBase GoLemmas Assoc Float GoSort.
From Verif.Model Require Import Codec Store Data Insert Vector Search Aggregator CallTree Json QueryCache Dataset Sync Cluster Annoy Answers.
From Verif.Spec Require Import Wire Text CacheSpec SyncSpec ClusterSpec AnswerSpec ProvenanceSpec.
From Verif.Proof Require Import VectorP AnswerP ProvenanceP.
From Verif.Props Require Import QueryProps.
From Coq Require Import Lia Permutation.
Open Scope N_scope.

(** C112 What queries answer is real: whatever timers, lost connections, caches,
    search contexts, groups and approximate indexes do to a query, every datum
    in the answer is a stored datum that some node looked at while it had not
    expired (or that the node's index lists), and has the properties that the
    request asks for.  Without groups its score is the score for one of the query
    data or one of the data of the context. *)
Theorem C112_real : forall G M ex looks i ds c ctx out x,
  answered G M ex looks i ds c ctx out -> In x out ->
  real looks c (sDatum x) /\ matches ex c (sDatum x) /\ (scGroupLimit c = 0 -> justified M c ctx ds x).
Proof.
  intros G M ex looks i ds c ctx out x A Hx.
  destruct (answers_good G M ex looks) as (_ & _ & _ & H). exact (H i ds c ctx out A x Hx).
Qed.
Print Assumptions C112_real.

(** The states in which node i searches during the execution (w, es): any order in
    which entries of its store can be visited, with an index that its earlier
    scans left behind. *)
Definition looks_of (I : imbalance) (M : mathlib) (undef : N) (resolve : bytes -> option nat) (w : cluster) (es : list cev)
  (i : nat) (L : look) : Prop :=
  (exists u, sometime M undef resolve w es u /\ incl (lOrder L) (store (u i))) /\
  index_from I (fun order => exists u, sometime M undef resolve w es u /\ incl order (store (u i))) (lIndex L).

(** Data are not made up either: while the nodes insert, delete, expire and hand
    over data in any way, every datum in an answer was inserted by a client. *)
Theorem C112_inserted : forall I M undef resolve w es,
  (forall i, ySenders (w i) = []) -> always M undef resolve scans_store w es ->
  forall G ex i ds c ctx out x,
  answered G M ex (looks_of I M undef resolve w es) i ds c ctx out -> In x out ->
  put_in w es (sDatum x).
Proof.
  intros I M undef resolve w es NS V G ex i ds c ctx out x A Hx.
  destruct (C112_real _ _ _ _ _ _ _ _ _ _ A Hx) as ((j & L & ((u & SU & IN) & IX) & [F|(_ & F)]) & _ & _).
  - destruct F as (b & e & B & _ & <-). eapply sometime_put; eauto.
  - destruct F as (a & LA & D). destruct (index_from_in _ _ _ IX a _ LA D) as (order & b & e & (u' & SU' & IN') & B & <-).
    eapply sometime_put; eauto.
Qed.
Print Assumptions C112_inserted.

(** An instance.  Node 1 gets a datum, node 0 another one.  A client asks node 0
    for data near qk with a context that has priority.  Node 1 answers from its
    cache; what node 0 finds itself is cut off by the timer. *)
Definition v1 : DatumValue := mkValue 1 (bs "red").
Definition k1 : DatumKey := mkKey [1073741824] (bs "h") 1 1 1 1.
Definition d0 : Datum := mkDatum (Some qk) (Some v1).
Definition d1 : Datum := mkDatum (Some k1) (Some v1).
Definition ex_all : bytes -> bytes -> bool := fun _ _ => true.
Definition dt0 : Data :=
  mkData (Some (mkDataConfig (bs "db") 0 9 fzero true 1 false 0)) [] 0 fzero [] 0 0 false (Some []) true true 0 [] 0.
Definition start : cluster := fun _ => mkSync dt0 [].
Definition puts : list cev := [CLocal 1 (YInsert 100 (Some d1) None); CLocal 0 (YInsert 100 (Some d0) None)].
Definition ends : cluster :=
  match cluster_run mathlib_ex 0 (fun _ => None) start puts with Some w => w | None => start end.
Definition look_at (i : nat) : look := mkLook (store (ends i)) (fun _ => 100%Z) (store (ends i)) None (fun _ => 0%nat).
Definition near (d d' : Datum) : float := VectorDistance mathlib_ex (features d) (features d').

Lemma start_end : cluster_run mathlib_ex 0 (fun _ => None) start puts = Some ends.
Proof.
  unfold ends. assert (X : match cluster_run mathlib_ex 0 (fun _ => None) start puts with Some _ => True | None => False end)
    by (vm_compute; exact I).
  destruct (cluster_run mathlib_ex 0 (fun _ => None) start puts); [reflexivity|destruct X].
Qed.

Lemma look_ok : forall I i, looks_of I mathlib_ex 0 (fun _ => None) start puts i (look_at i).
Proof.
  intros I i. split; [|apply from_none]. exists ends. split; [|apply incl_refl].
  exists puts, []. split; [reflexivity|exact start_end].
Qed.

Definition ctx1 : SearchContext := mkContext [d1] true.
Lemma answer_ex : forall I,
  answered insertion_sort mathlib_ex ex_all (looks_of I mathlib_ex 0 (fun _ => None) start puts) 0
    [mkDatum (Some qk) None] (qc 60 (bs "u2")) (Some ctx1) [mkScored (near d1 d1) d1].
Proof.
  intro I. apply (answered_by _ _ _ _ 0 _ _ _ [[mkScored (near d1 d0) d1]] [mkScored (near d1 d0) d1] (fun gs => gs)).
  - apply (ones_more _ _ _ _ _ _ _ _ (qc 60 (bs "u2"))); [exists 1000, (bs "u2"); reflexivity| |constructor].
    apply (one_search _ _ _ _ 0 (look_at 0) _ _ [mkScored (near d0 d0) d0] [[mkScored (near d1 d0) d1]] [mkScored (near d1 d0) d1]).
    + apply look_ok.
    + vm_compute. reflexivity.
    + apply (many_more _ _ _ _ 1 _ _ (qc 60 (bs "u2"))); [exists 1000, (bs "u2"); reflexivity| |constructor].
      apply (answered_by _ _ _ _ 1 _ _ _ [[mkScored (near d1 d0) d1]] [mkScored (near d1 d0) d1] (fun gs => gs)).
      * apply (ones_more _ _ _ _ _ _ _ _ (qc 60 (bs "u2"))); [exists 1000, (bs "u2"); reflexivity| |constructor].
        apply (one_cached _ _ _ _ 1 qk None qk None (qc 60 (bs "u2")) (qc 60 (bs "u1"))
          (match GetSearchKey (Some (mkDatum (Some qk) None)) (qc 60 (bs "u1")) with Ok b => b | _ => [] end));
          [|apply qc_ok; reflexivity|apply qc_ok; reflexivity|reflexivity|vm_compute; reflexivity|vm_compute; reflexivity].
        apply (one_search _ _ _ _ 1 (look_at 1) _ _ [mkScored (near d1 d0) d1] [] [mkScored (near d1 d0) d1]).
        -- apply look_ok.
        -- vm_compute. reflexivity.
        -- constructor.
        -- exists []. apply Permutation_refl.
        -- vm_compute. reflexivity.
      * exists []. apply Permutation_refl.
      * auto.
      * vm_compute. reflexivity.
    + exists [mkScored (near d0 d0) d0]. apply perm_swap.
    + vm_compute. reflexivity.
  - exists []. apply Permutation_refl.
  - auto.
  - vm_compute. reflexivity.
Qed.

Example C112_instance : forall I,
  (forall i, ySenders (start i) = []) /\ always mathlib_ex 0 (fun _ => None) scans_store start puts /\
  near d1 d0 <> near d1 d1 /\
  answered insertion_sort mathlib_ex ex_all (looks_of I mathlib_ex 0 (fun _ => None) start puts) 0
    [mkDatum (Some qk) None] (qc 60 (bs "u2")) (Some ctx1) [mkScored (near d1 d1) d1] /\
  put_in start puts d1 /\
  matches ex_all (qc 60 (bs "u2")) d1 /\ scFilters (qc 60 (bs "u2")) <> [].
Proof.
  intro I. split; [reflexivity|]. split.
  { cbn [always puts]. split; [exact Logic.I|]. destruct (cluster_step _ _ _ _ _); [|exact Logic.I].
    split; [exact Logic.I|]. destruct (cluster_step _ _ _ _ _); exact Logic.I. }
  split; [intro H; vm_compute in H; discriminate H|]. split; [apply answer_ex|].
  pose proof (answer_ex I) as A.
  split; [|split; [|discriminate]].
  - refine (C112_inserted I _ _ _ _ _ _ _ _ _ _ _ _ _ _ (mkScored (near d1 d1) d1) A _); [reflexivity| |left; reflexivity].
    cbn [always puts]. split; [exact Logic.I|]. destruct (cluster_step _ _ _ _ _); [|exact Logic.I].
    split; [exact Logic.I|]. destruct (cluster_step _ _ _ _ _); exact Logic.I.
  - apply (C112_real _ _ _ _ _ _ _ _ _ (mkScored (near d1 d1) d1) A). left. reflexivity.
Qed.
