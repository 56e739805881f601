(** Property C108: how long the copies of a datum live. *)
From Verif.Base Require Import GoBase GoLemmas Assoc Float.
From Verif.Model Require Import Codec Store Data Insert Vector Search Dataset Sync Cluster.
From Verif.Spec Require Import Wire StoreSpec SyncSpec ClusterSpec LifetimeSpec.
From Verif.Proof Require Import VectorP StoreP SyncP SyncQ ClusterP LifetimeP.
From Verif.Props Require Import StoreProps SyncProps.
From Coq Require Import Lia.
Open Scope Z_scope.

(** C108 Copies of a datum expire when the datum does.  In any execution, every copy
    expires at the earliest when the first insert said and at the latest when the last
    insert said plus the time that handed over data waited between the scan that chose
    them and their arrival.  Missing: that this waiting adds nothing, refuted below. *)
Theorem C108_copies_partial : forall M undef resolve k A B t w es w',
  0 < A -> 0 <= t -> blank w -> timed M undef resolve k A B t w es ->
  B + lateness M undef resolve w (fun _ => []) es < 9223372036854775808 ->
  cluster_run M undef resolve w (map snd es) = Some w' ->
  forall i e, mload (store (w' i)) k = Some e ->
    A <= exprireAt e <= B + lateness M undef resolve w (fun _ => []) es /\
    (forall T, T < A -> expired T e = false) /\
    (forall T, B + lateness M undef resolve w (fun _ => []) es <= T -> expired T e = true).
Proof.
  intros M undef resolve k A B t w es w' HA H0 BL TM HL R i e L.
  assert (X : A <= exprireAt e <= B + lateness M undef resolve w (fun _ => []) es).
  { eapply (timed_ok M undef resolve k A B es t B); eauto; [lia|]. intro j. apply blank_ok. exact BL. }
  split; [exact X|]. unfold expired. split; intros T HT.
  - destruct (Z.leb_spec (exprireAt e) T); [lia|]. apply Bool.andb_false_r.
  - destruct (Z.eqb_spec (exprireAt e) 0); [lia|]. destruct (Z.leb_spec (exprireAt e) T); [reflexivity|lia].
Qed.
Print Assumptions C108_copies_partial.

(** Data that arrive in the second of their scan expire exactly as inserted. *)
Theorem C108_prompt_partial : forall M undef resolve k E t w es w',
  0 < E < 9223372036854775808 -> 0 <= t -> blank w -> timed M undef resolve k E E t w es ->
  lateness M undef resolve w (fun _ => []) es = 0 ->
  cluster_run M undef resolve w (map snd es) = Some w' ->
  forall i e, mload (store (w' i)) k = Some e -> exprireAt e = E.
Proof.
  intros M undef resolve k E t w es w' HE H0 BL TM HL R i e L.
  destruct (C108_copies_partial M undef resolve k E E t w es w') with (i := i) (e := e) as (X & _); auto; lia.
Qed.
Print Assumptions C108_prompt_partial.

(** Node 0 gets the datum at 1000 with 100 seconds to live, looks at its data twice and
    hands it to node 1, where it arrives at [t]. *)
Definition empty2 : cluster := fun i => match i with
  | O => mkSync (dt_s (cfg_s 2 true) 0 [] [B1]) []
  | _ => mkSync (dt_s (cfg_s 2 true) 0 [] [A1]) []
  end.
Definition late (t : Z) : list (Z * cev) :=
  [(1000, CLocal 0 (YInsert 1000 (Some D1) (Some (mkInsertConfig 100 1))));
   (1000, CLocal 0 (YProcess (pe [B1] 5 (stock 1100 [1%N])) true));
   (1000, CLocal 0 (YProcess (pe [B1] 5 (stock 1100 [1%N])) true));
   (1000, CLocal 0 (YSend 0 (STake [B1])));
   (t, COffer 0 0 t Deliver)].

Lemma late_timed : forall t, 1000 <= t < 9223372036854775808 -> timed mathlib_ex 0 who K1 1100 1100 1000 empty2 (late t).
Proof.
  intros t Ht. unfold late. cbn [timed].
  split; [lia|]. split; [split; [reflexivity|]; intros d0 _ _; eexists; split; [reflexivity|cbn; lia]|].
  destruct (cluster_step _ _ _ empty2 _) as [w1|] eqn:S1; [|exact I]. vm_compute in S1. injection S1 as <-.
  split; [lia|]. split; [split; [apply Permutation_refl|split; reflexivity]|].
  match goal with |- match ?x with _ => _ end => destruct x as [w2|] eqn:S2; [|exact I] end. vm_compute in S2. injection S2 as <-.
  split; [lia|]. split; [split; [apply Permutation_refl|split; reflexivity]|].
  match goal with |- match ?x with _ => _ end => destruct x as [w3|] eqn:S3; [|exact I] end. vm_compute in S3. injection S3 as <-.
  split; [lia|]. split; [exact I|].
  match goal with |- match ?x with _ => _ end => destruct x as [w4|] eqn:S4; [|exact I] end. clear S4.
  split; [lia|]. split; [reflexivity|].
  match goal with |- match ?x with _ => _ end => destruct x; exact I end.
Qed.

Lemma blank2 : blank empty2.
Proof. intros [|i]; split; reflexivity. Qed.

Example C108_instance : exists w', blank empty2 /\ timed mathlib_ex 0 who K1 1100 1100 1000 empty2 (late 1007) /\
  lateness mathlib_ex 0 who empty2 (fun _ => []) (late 1007) = 7 /\
  cluster_run mathlib_ex 0 who empty2 (map snd (late 1007)) = Some w' /\
  mload (store (w' 0%nat)) K1 = Some (mkEntry 1100 D1) /\ mload (store (w' 1%nat)) K1 = Some (mkEntry 1107 D1).
Proof.
  assert (E0 : forall (x : option cluster), x = None \/ exists w, x = Some w) by (intros [w|]; eauto).
  destruct (E0 (cluster_run mathlib_ex 0 who empty2 (map snd (late 1007)))) as [E|[w' E]].
  { exfalso. vm_compute in E. discriminate E. }
  exists w'. split; [exact blank2|]. split; [apply late_timed; lia|]. split; [vm_compute; reflexivity|]. split; [exact E|].
  vm_compute in E. injection E as <-. vm_compute. auto.
Qed.

(** The datum waits half an hour in the queue of the sender (which may hold thousands of
    data and waits up to ten seconds for each offer): at 3000 it arrives at the other
    node, with 100 seconds to live again.  The only insert said 1100. *)
Theorem C108_outlives_refuted : exists M undef resolve k E t w es w' i e,
  blank w /\ timed M undef resolve k E E t w es /\ cluster_run M undef resolve w (map snd es) = Some w' /\
  mload (store (w' i)) k = Some e /\ expired (E + 1999) e = false.
Proof.
  assert (E0 : forall (x : option cluster), x = None \/ exists w, x = Some w) by (intros [w|]; eauto).
  destruct (E0 (cluster_run mathlib_ex 0 who empty2 (map snd (late 3000)))) as [E|[w' E]].
  { exfalso. vm_compute in E. discriminate E. }
  exists mathlib_ex, 0%N, who, K1, 1100, 1000, empty2, (late 3000), w', 1%nat, (mkEntry 3100 D1).
  split; [exact blank2|]. split; [apply late_timed; lia|]. split; [exact E|].
  vm_compute in E. injection E as <-. vm_compute. auto.
Qed.
Print Assumptions C108_outlives_refuted.
