(** C90: services are remembered while configured and forgotten afterwards. *)
From Verif.Base Require Import GoBase GoLemmas Assoc.
From Verif.Model Require Import Services.
Open Scope Z_scope.

(** ** Vocabulary *)

(** The node has the service for good. *)
Definition permanent (m : services) (s : bytes) : Prop := mload m s = Some 0.

(** The service is configured nowhere: no permanent entry. *)
Definition nowhere_permanent (w : nat -> services) (s : bytes) : Prop :=
  forall i, ~ permanent (w i) s.

(** Events at node i: restarts. *)
Definition no_restart (i : nat) (l : list vev) : Prop :=
  Forall (fun e => match e with VRestart j _ => j <> i | _ => True end) l.

(** ** Lemmas *)

Lemma add_other : forall inc now m s s', s <> s' -> mload (AddService inc now m s) s' = mload m s'.
Proof.
  intros inc now m s s' N. unfold AddService.
  set (m1 := if listed now m s then m else mstore m s (now + service_life)).
  assert (E : mload m1 s' = mload m s').
  { unfold m1. destruct (listed now m s); auto. apply mload_mstore_other. auto. }
  destruct (mload m1 s); auto. rewrite mload_mstore_other; auto.
Qed.

Lemma add_same : forall inc now m s,
  mload (AddService inc now m s) s =
  Some (inc now service_increment
          (if listed now m s then match mload m s with Some e => e | None => 0 end else now + service_life)).
Proof.
  intros inc now m s. unfold AddService. destruct (listed now m s) eqn:L.
  - unfold listed in L. destruct (mload m s) as [e|] eqn:E; [|discriminate].
    apply mload_mstore_same.
  - rewrite mload_mstore_same. apply mload_mstore_same.
Qed.

Lemma adds_permanent : forall inc now s l m, (forall n d, inc n d 0 = 0) -> permanent m s ->
  permanent (fold_left (AddService inc now) l m) s.
Proof.
  intros inc now s l. induction l as [|x l IH]; intros m H P; cbn; auto.
  apply IH; auto. unfold permanent in *. destruct (bytes_eqb x s) eqn:E.
  - apply bytes_eqb_spec in E. subst x. rewrite add_same. unfold listed. rewrite P. cbn.
    rewrite H. reflexivity.
  - apply bytes_eqb_neq in E. rewrite add_other; auto.
Qed.

Lemma clean_permanent : forall t m s, permanent m s ->
  permanent (filter (fun p => (snd p =? 0) || (t <=? snd p)) m) s.
Proof.
  intros t m s. unfold permanent. induction m as [|[k e] m IH]; cbn; [discriminate|].
  destruct (bytes_eqb k s) eqn:E; intro H.
  - injection H as ->. cbn. rewrite E. reflexivity.
  - destruct ((e =? 0) || (t <=? e)); cbn; [rewrite E|]; auto.
Qed.

(** C90 A service is known exactly as long as it is configured somewhere: a
    configured service is never lost, and a service that is configured nowhere
    any more is forgotten.

    The first half holds if IncrementExpiration of the go-cache fork leaves
    entries without expiration alone; this is all that is assumed of it. *)
Theorem C90_configured_partial : forall inc w i s l t,
  (forall n d, inc n d 0 = 0) -> permanent (w i) s -> no_restart i l ->
  listed t (vrun inc w l i) s = true.
Proof.
  intros inc w i s l t H P N.
  assert (Q : permanent (vrun inc w l i) s).
  { revert w P N. induction l as [|e l IH]; intros w P N; [exact P|].
    inversion N as [|? ? Ne N']; subst. cbn [vrun fold_left]. apply IH; auto.
    destruct e as [a b t1 t2|a t1|a l1]; cbn [vstep]; unfold set_services;
      (destruct (Nat.eqb_spec i b) as [->|] || destruct (Nat.eqb_spec i a) as [->|]); auto.
    - apply adds_permanent; auto.
    - apply clean_permanent; auto.
    - congruence. }
  unfold listed. unfold permanent in Q. rewrite Q. reflexivity.
Qed.
Print Assumptions C90_configured_partial.

(** A restart with the service in the configuration makes it permanent. *)
Theorem C90_restart : forall inc w i s l rest t,
  (forall n d, inc n d 0 = 0) -> In s l -> no_restart i rest ->
  listed t (vrun inc w (VRestart i l :: rest) i) s = true.
Proof.
  intros inc w i s l rest t H I N. cbn [vrun fold_left]. apply C90_configured_partial; auto.
  cbn [vstep]. unfold set_services. rewrite Nat.eqb_refl. unfold permanent.
  assert (K : forall l (m : services), (In s l \/ mload m s = Some 0) -> mload (fold_left AddStaticService l m) s = Some 0).
  { clear. induction l as [|x l IH]; intros m [I|P]; cbn; auto; try (destruct I; fail).
    - apply IH. destruct I as [->|I]; [right; apply mload_mstore_same|left; auto].
    - apply IH. right. unfold AddStaticService. rewrite mload_mstore.
      destruct (bytes_eqb x s); auto. }
  apply K. auto.
Qed.
Print Assumptions C90_restart.

(** The second half holds when nobody who is heard lists the service: an entry is
    not renewed and is gone after its expiration time. *)
Definition unheard (inc : Z -> Z -> Z -> Z) (s : bytes) (i : nat) : (nat -> services) -> list vev -> Prop :=
  fix go w l := match l with
  | [] => True
  | e :: l' =>
      match e with
      | VShare a b t1 _ => b = i -> listed t1 (w a) s = false
      | VRestart a l1 => a = i -> ~ In s l1
      | VClean _ _ => True
      end /\ go (vstep inc w e) l'
  end.

Lemma in_mstore_other : forall (m : services) k x s e, k <> s -> In (s, e) (mstore m k x) -> In (s, e) m.
Proof.
  intros m k x s e N [H|H]; [congruence|]. eapply mdelete_incl; eauto.
Qed.

Theorem C90_forgotten_partial : forall inc w i s l e t,
  mwf (w i) -> mload (w i) s = Some e -> e <> 0 -> unheard inc s i w l -> e < t ->
  listed t (vrun inc w l i) s = false.
Proof.
  intros inc w i s l e t W P NZ U L.
  assert (Q : forall l w, (forall e', In (s, e') (w i) -> e' = e) -> unheard inc s i w l ->
    forall e', In (s, e') (vrun inc w l i) -> e' = e).
  { clear w l W P U. induction l as [|ev l IH]; intros w P U; [exact P|]. destruct U as [U1 U2].
    cbn [vrun fold_left]. apply IH; auto. clear IH U2.
    destruct ev as [a b t1 t2|a t1|a l1]; cbn [vstep]; unfold set_services.
    - destruct (Nat.eqb_spec i b) as [->|]; auto. specialize (U1 eq_refl).
      assert (N : ~ In s (ServiceListKeys t1 (w a))).
      { intro I. apply filter_In in I. destruct I. congruence. }
      generalize dependent (w b). intros m P. generalize dependent (ServiceListKeys t1 (w a)).
      intros ks N. revert m P. induction ks as [|k ks IHk]; intros m P; cbn; auto.
      apply IHk; [intro; apply N; right; auto|]. intros e' I.
      assert (Ks : k <> s) by (intro; subst; apply N; left; auto). apply P. unfold AddService in I.
      destruct (listed t2 m k).
      + destruct (mload m k); [apply (in_mstore_other _ _ _ _ _ Ks) in I|]; auto.
      + rewrite mload_mstore_same in I. apply (in_mstore_other _ _ _ _ _ Ks) in I.
        apply (in_mstore_other _ _ _ _ _ Ks) in I. auto.
    - destruct (Nat.eqb_spec i a) as [->|]; auto. intros e' I. apply filter_In in I. apply P. tauto.
    - destruct (Nat.eqb_spec i a) as [->|]; auto. specialize (U1 eq_refl).
      assert (K : forall l1 (m : services) e', ~ In s l1 -> In (s, e') (fold_left AddStaticService l1 m) -> In (s, e') m).
      { clear. induction l1 as [|x l1 IH]; intros m e' N I; cbn in *; auto.
        apply IH in I; [|intro; apply N; right; auto]. eapply in_mstore_other; [|exact I].
        intro; subst. apply N. left. auto. }
      intros e' I. apply K in I; auto. destruct I. }
  unfold listed. destruct (mload (vrun inc w l i) s) as [e'|] eqn:E; auto.
  apply mload_in in E. apply Q in E; auto; [subst; lia|].
  intros e2 I. apply in_mload in I; auto. congruence.
Qed.
Print Assumptions C90_forgotten_partial.

(** Refuted: two nodes that list each other's services renew them for ever.  It is
    only assumed that IncrementExpiration, applied to an entry that is alive,
    gives it at least the increment from now on. *)
Definition minute : Z := 60000000000.
(** Every minute each of the nodes 0 and 1 hears the other. *)
Definition talk (k : nat) : list vev :=
  let t := Z.of_nat k * minute in [VShare 0 1 t t; VShare 1 0 t t].
Definition talks (n : nat) : list vev := flat_map talk (seq 1 n).
(** The service was heard of at time 0. *)
Definition heard : nat -> services := fun _ => [(bs "gone:1", service_life)].

Lemma talks_snoc : forall n, talks (S n) = talks n ++ talk (S n).
Proof.
  intro n. unfold talks. rewrite seq_S, flat_map_app. cbn [flat_map]. rewrite app_nil_r.
  replace (1 + n)%nat with (S n) by lia. reflexivity.
Qed.

Theorem C90_forgotten_refuted : forall inc,
  (forall now d old, old <> 0 -> now <= old -> now + d <= inc now d old) ->
  exists w s, nowhere_permanent w s /\
    forall n, no_restart 0 (talks n) /\ no_restart 1 (talks n) /\
      nowhere_permanent (vrun inc w (talks n)) s /\
      listed (Z.of_nat n * minute) (vrun inc w (talks n) 0%nat) s = true /\
      listed (Z.of_nat n * minute) (vrun inc w (talks n) 1%nat) s = true.
Proof.
  intros inc H. exists heard, (bs "gone:1"). split.
  { intros i P. vm_compute in P. discriminate. }
  assert (F : forall n i, no_restart i (talks n)).
  { intros n i. apply Forall_forall. intros e I. apply in_flat_map in I.
    destruct I as (k & _ & [<-|[<-|[]]]); exact I. }
  assert (A : forall now m s e, In s (mkeys m) -> mload m s = Some e -> now <= e -> e <> 0 -> 0 < now ->
    forall m2 e2, mload m2 s = Some e2 -> now <= e2 -> e2 <> 0 -> NoDup (mkeys m) ->
    exists e3, mload (fold_left (AddService inc now) (ServiceListKeys now m) m2) s = Some e3 /\
      now + service_increment <= e3).
  { intros now m s e I E L NZ T m2 e2 E2 L2 NZ2 ND.
    unfold ServiceListKeys.
    assert (Is : In s (filter (listed now m) (mkeys m))).
    { apply filter_In. split; auto. unfold listed. rewrite E. lia. }
    assert (NDf : NoDup (filter (listed now m) (mkeys m))) by (apply NoDup_filter; auto).
    revert Is NDf. generalize (filter (listed now m) (mkeys m)). clear - H E2 L2 NZ2. intros l Is ND.
    revert m2 e2 E2 L2 NZ2. induction l as [|x l IH]; intros m2 e2 E2 L2 NZ2; [destruct Is|].
    inversion ND as [|? ? NI ND']; subst. cbn [fold_left].
    destruct Is as [->|Is].
    - exists (inc now service_increment e2). split; [|apply H; auto].
      assert (K : forall l m, ~ In s l -> mload (fold_left (AddService inc now) l m) s = mload m s).
      { clear. induction l as [|y l IH]; intros m N; cbn; auto.
        rewrite IH by (intro; apply N; right; auto). apply add_other. intro; subst. apply N. left. auto. }
      rewrite K; auto. rewrite add_same. unfold listed. rewrite E2.
      replace ((e2 =? 0) || (now <=? e2))%bool with true by lia. reflexivity.
    - assert (x <> s) by (intro; subst; auto). apply (IH Is ND' _ e2); auto. rewrite add_other; auto. }
  assert (WF : forall now l m, NoDup (mkeys m) -> NoDup (mkeys (fold_left (AddService inc now) l m))).
  { clear. intros now. induction l as [|x l IH]; intros m W; cbn; auto. apply IH.
    unfold AddService. destruct (listed now m x).
    - destruct (mload m x); auto. apply mstore_wf; auto.
    - rewrite mload_mstore_same. apply mstore_wf. apply mstore_wf. auto. }
  assert (Q : forall n, (forall i, (2 <= i)%nat -> vrun inc heard (talks n) i = heard i) /\
    forall i, (i < 2)%nat -> NoDup (mkeys (vrun inc heard (talks n) i)) /\
     exists e, mload (vrun inc heard (talks n) i) (bs "gone:1") = Some e /\
      Z.of_nat n * minute + service_life <= e).
  { induction n as [|n (IH0 & IH)].
    - split; [reflexivity|]. intros i _. split; [repeat constructor; intros []|].
      exists service_life. split; [reflexivity|]. cbn. lia.
    - rewrite talks_snoc. unfold vrun in *. rewrite fold_left_app.
      set (w := fold_left (vstep inc) (talks n) heard) in *. unfold talk. cbn [fold_left].
      destruct (IH 0%nat ltac:(lia)) as (D0 & e0 & E0 & L0). destruct (IH 1%nat ltac:(lia)) as (D1 & e1 & E1 & L1).
      set (t := Z.of_nat (S n) * minute).
      assert (Ht : 0 < t /\ t <= Z.of_nat n * minute + service_life) by (unfold t, minute, service_life; lia).
      assert (IK : forall (m : services) e, mload m (bs "gone:1") = Some e -> In (bs "gone:1") (mkeys m)).
      { intros m e X. apply mload_in in X. apply (in_map fst) in X. exact X. }
      destruct (A t (w 0%nat) (bs "gone:1") e0) with (m2 := w 1%nat) (e2 := e1) as (e3 & E3 & L3); auto; try lia; eauto.
      unfold vstep at 2. set (w1 := set_services w 1 _).
      assert (W1 : w1 1%nat = fold_left (AddService inc t) (ServiceListKeys t (w 0%nat)) (w 1%nat)) by reflexivity.
      assert (W0 : w1 0%nat = w 0%nat) by reflexivity.
      assert (Q3 : mload (w1 1%nat) (bs "gone:1") = Some e3) by (rewrite W1; exact E3).
      assert (ND1 : NoDup (mkeys (w1 1%nat))) by (rewrite W1; apply WF; auto).
      assert (L3' : t <= e3 /\ e3 <> 0) by (unfold service_increment in L3; lia).
      destruct (A t (w1 1%nat) (bs "gone:1") e3) with (m2 := w 0%nat) (e2 := e0) as (e4 & E4 & L4); auto; try lia; eauto.
      unfold vstep, set_services. split.
      + intros i Hi. destruct (Nat.eqb_spec i 0); [lia|]. unfold w1, set_services.
        destruct (Nat.eqb_spec i 1); [lia|]. apply IH0. auto.
      + intros i Hi. destruct (Nat.eqb_spec i 0) as [->|].
        * split; [exact (WF t (ServiceListKeys t (w1 1%nat)) (w 0%nat) D0)|]. exists e4. split; [exact E4|].
          fold t. unfold service_life, service_increment in *. lia.
        * assert (i = 1%nat) by lia. subst i. split; [exact ND1|]. exists e3. split; [exact Q3|].
          fold t. unfold service_life, service_increment in *. lia. }
  intro n. destruct (Q n) as (Q0 & Q1).
  split; [apply F|]. split; [apply F|]. split.
  - intros i P. unfold permanent in P. destruct (Nat.lt_ge_cases i 2) as [Hi|Hi].
    + destruct (Q1 i Hi) as (_ & e & E & L). rewrite E in P. injection P as ->.
      unfold minute, service_life in L. lia.
    + rewrite Q0 in P by auto. vm_compute in P. discriminate.
  - split; [destruct (Q1 0%nat ltac:(lia)) as (_ & e & E & L)|destruct (Q1 1%nat ltac:(lia)) as (_ & e & E & L)];
      unfold listed; rewrite E; unfold minute, service_life in *; lia.
Qed.
Print Assumptions C90_forgotten_refuted.

(** Both readings of IncrementExpiration satisfy what is assumed. *)
Definition inc_now (now d old : Z) : Z := if old =? 0 then 0 else now + d.
Definition inc_old (now d old : Z) : Z := if old =? 0 then 0 else old + d.
Example C90_instance :
  (forall n d, inc_now n d 0 = 0) /\ (forall n d, inc_old n d 0 = 0) /\
  permanent (vrun inc_now (fun _ => []) [VRestart 0 [bs "s:1"]; VShare 0 1 5 6; VShare 1 0 7 8] 0%nat) (bs "s:1") /\
  listed 9 (vrun inc_now (fun _ => []) [VRestart 0 [bs "s:1"]; VShare 0 1 5 6] 1%nat) (bs "s:1") = true /\
  (* node 1 hears it once, then node 0 restarts without it *)
  let w := vrun inc_now (fun _ => []) [VRestart 0 [bs "s:1"]; VShare 0 1 5 6] in
  mload (w 1%nat) (bs "s:1") = Some 600000000006 /\
  unheard inc_now (bs "s:1") 1 w [VRestart 0 []; VShare 0 1 20 30; VClean 1 600000000007] /\
  listed 600000000007 (vrun inc_now w [VRestart 0 []; VShare 0 1 20 30; VClean 1 600000000007] 1%nat) (bs "s:1") = false.
Proof.
  split; [reflexivity|]. split; [reflexivity|]. vm_compute. repeat split; intros; discriminate.
Qed.
Example C90_instance_inc : forall now d old, old <> 0 -> now <= old -> now + d <= inc_now now d old /\ now + d <= inc_old now d old.
Proof. intros. unfold inc_now, inc_old. destruct (old =? 0) eqn:E; lia. Qed.
