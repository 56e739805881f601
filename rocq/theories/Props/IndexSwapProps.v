(** Property C122: approximate searches while the index is replaced. *)
From Verif.Base Require Import GoBase.
From Verif.Model Require Import IndexSwap.
From Verif.Proof Require Import IndexSwapP.
From Coq Require Import Permutation.
Open Scope nat_scope.

(** ** C122 *)

(** A goroutine that has nothing left to do. *)
Definition over (p : spot) : Prop := p = QDone \/ p = QFallback \/ p = PDone.

Lemma reach_inv : forall s ts, swap_run (annoy_fresh, []) (s, ts) -> Inv s ts.
Proof. intros s ts R. apply (run_inv _ _ R). exact inv_fresh. Qed.

Lemma reach_all : forall s ts, Inv s ts -> exists o c, all s o c /\
  (sUnloaded s = sDeleted s \/ exists i, c = [i] /\ sUnloaded s = i :: sDeleted s).
Proof.
  intros s ts (A & B & C & D & E & F). destruct (sWriter s) eqn:W.
  - destruct (filter inW ts) as [|p l] eqn:FL; [unfold count in B; rewrite FL in B; discriminate|].
    assert (IN : In p (filter inW ts)) by (rewrite FL; left; auto). apply filter_In in IN. destruct IN as [IN WP].
    specialize (E p IN WP). exists (flat_map own ts).
    destruct p; try discriminate; cbn [ph] in E.
    + destruct E as (E1 & E2 & E3). exists (opt (sIndex s)). auto.
    + destruct E as (E1 & _ & E2 & E3). exists (opt (sIndex s)). auto.
    + destruct E as (E1 & (j & J1 & J2) & E3). exists (opt (sIndex s)). split; [auto|]. rewrite J1. right. exists j. auto.
    + destruct E as (E1 & E2 & E3). exists []. auto.
    + destruct E as (E1 & E2 & E3). exists [i]. auto.
    + destruct E as (E1 & E2 & E3). exists (opt (sIndex s)). auto.
  - destruct (F eq_refl) as (F1 & F2 & F3). exists (flat_map own ts), (opt (sIndex s)). auto.
Qed.

Lemma NoDup_app_r : forall (A : Type) (l l' : list A), NoDup (l ++ l') -> NoDup l'.
Proof. induction l as [|a l IH]; cbn [app]; auto. intros l' H. inversion H. auto. Qed.

Lemma all_nodup : forall s o c, all s o c -> NoDup (o ++ c ++ sDeleted s).
Proof. intros s o c H. apply (Permutation_NoDup (Permutation_sym H)). apply seq_NoDup. Qed.

Lemma reader_calm : forall s ts p, Inv s ts -> In p ts -> inR p = true -> calm s (flat_map own ts).
Proof.
  intros s ts p (A & B & C & D & E & F) IN R. apply F. destruct (sWriter s); auto. specialize (C eq_refl).
  rewrite C in A. rewrite (count_none inR ts p A IN) in R. discriminate.
Qed.

(** In every interleaving of searches and rebuilds nothing crashes, the index that is
    asked has not been unloaded or deleted, and its numbers are looked up in the list
    that was made with it. *)
Theorem C122_consistent : forall s ts, swap_run (annoy_fresh, []) (s, ts) ->
  ~ In Crashed ts /\
  (forall d i, In (QIn d i) ts -> ~ In i (sUnloaded s) /\ ~ In i (sDeleted s)) /\
  (forall d i, In (QIn d i) ts \/ In (QLook d i) ts -> d = i).
Proof.
  intros s ts R. pose proof (reach_inv _ _ R) as I0. pose proof I0 as (A & B & C & D & E & F). split; [|split].
  - intro X. exact (D _ X).
  - intros d i IN. destruct (reader_calm _ _ _ I0 IN eq_refl) as (F1 & F2 & F3). rewrite F2.
    destruct (D _ IN) as (_ & X). rewrite X in F3. pose proof (NoDup_app_r _ _ _ (all_nodup _ _ _ F3)) as ND. cbn [opt app] in ND.
    inversion ND. auto.
  - intros d i [IN|IN]; [exact (proj1 (D _ IN))|exact (D _ IN)].
Qed.
Print Assumptions C122_consistent.

(** No index is unloaded or deleted twice; when nobody is at work, every index ever
    built is deleted except the one in use. *)
Theorem C122_freed_once : forall s ts, swap_run (annoy_fresh, []) (s, ts) ->
  NoDup (sUnloaded s) /\ NoDup (sDeleted s) /\
  ((forall p, In p ts -> over p) ->
   sIndex s = sData s /\ (forall i, i < sNext s -> (In i (sDeleted s) <-> sIndex s <> Some i)) /\
   forall i, In i (sDeleted s) <-> In i (sUnloaded s)).
Proof.
  intros s ts R. pose proof (reach_inv _ _ R) as I0. destruct (reach_all _ _ I0) as (o & c & AL & U).
  pose proof (NoDup_app_r _ _ _ (all_nodup _ _ _ AL)) as ND. split; [|split].
  - destruct U as [->|(i & -> & ->)]; [apply (NoDup_app_r _ c)|]; exact ND.
  - apply (NoDup_app_r _ c). exact ND.
  - intro O. destruct I0 as (A & B & C & D & E & F).
    assert (OW : flat_map own ts = [] /\ count inW ts = 0).
    { clear - O. induction ts as [|p ts IH]; [auto|]. destruct IH as [IH1 IH2]; [intros; apply O; right; auto|].
      rewrite count_cons, IH2. cbn [flat_map]. rewrite IH1. destruct (O p (or_introl eq_refl)) as [-> | [-> | ->]]; auto. }
    destruct OW as [O1 O2]. rewrite O2 in B. destruct (sWriter s); [discriminate|]. destruct (F eq_refl) as (F1 & F2 & F3).
    rewrite O1 in F3. unfold all in F3. cbn [app] in F3. split; [exact F1|]. rewrite F2. split; [|tauto].
    intros i L. pose proof (all_nodup s [] _ F3) as N2. cbn [app] in N2.
    assert (IN : In i (opt (sIndex s) ++ sDeleted s)).
    { apply (Permutation_in _ (Permutation_sym F3)). apply in_seq. lia. }
    split.
    + intros X Y. rewrite Y in N2. cbn in N2. inversion N2. contradiction.
    + intro X. apply in_app_or in IN. destruct IN as [IN|IN]; [|exact IN]. destruct (sIndex s) as [j|]; [|destruct IN].
      destruct IN as [->|[]]. congruence.
Qed.
Print Assumptions C122_freed_once.

(** Steps left to a goroutine. *)
Definition steps_left (p : spot) : nat :=
  match p with
  | QIndex => 9 | QData => 8 | QLen => 7 | QLock => 6 | QTake => 5 | QAsk _ => 4 | QIn _ _ => 3 | QLook _ _ => 2 | QUnlock => 1
  | PBuild => 8 | PLock _ => 7 | PTest _ => 6 | PUnload _ => 5 | PDelete _ => 4 | PIndex _ => 3 | PData _ => 2 | PUnlock => 1
  | QFallback | QDone | PDone | Crashed => 0
  end.

(** Searches and rebuilds do not wait for each other for ever: somebody can always
    move until all are done, and everybody is done after at most nine steps of its own. *)
Theorem C122_finishes : forall s ts, swap_run (annoy_fresh, []) (s, ts) ->
  ((forall p, In p ts -> over p) \/ exists p s' p', In p ts /\ swap s p s' p') /\
  (forall p, steps_left p <= 9) /\
  forall p s' p', swap s p s' p' -> steps_left p' < steps_left p.
Proof.
  intros s ts R. pose proof (reach_inv _ _ R) as I0. split; [|split].
  2: intro p; destruct p; cbn; lia.
  2: intros p s' p' SW; destruct SW; cbn; lia.
  destruct I0 as (A & B & C & D & E & F).
  destruct (filter inW ts) as [|p l] eqn:FW.
  - assert (W0 : sWriter s = false) by (unfold count in B; rewrite FW in B; destruct (sWriter s); [discriminate|auto]).
    destruct (filter inR ts) as [|p l] eqn:FR.
    + assert (R0 : sReaders s = 0) by (unfold count in A; rewrite FR in A; auto).
      assert (X : forall l, (forall p, In p l -> In p ts) -> (forall p, In p l -> over p) \/ exists p s' p', In p ts /\ swap s p s' p').
      { induction l as [|p l IH]; intro SUB; [left; intros p []|].
        destruct IH as [IH|IH]; [intros; apply SUB; right; auto| |auto].
        assert (IN : In p ts) by (apply SUB; left; auto). pose proof (D _ IN) as DP.
        assert (WP : inW p = false) by (apply (count_none inW ts); [unfold count; rewrite FW; auto|auto]).
        assert (RP : inR p = false) by (apply (count_none inR ts); [unfold count; rewrite FR; auto|auto]).
        destruct p; try discriminate WP; try discriminate RP; cbn in DP;
          try (right; destruct (sIndex s) as [j|] eqn:EI; [eexists _, _, _; split; [exact IN|eapply sw_index; eauto]|eexists _, _, _; split; [exact IN|eapply sw_index_nil; eauto]]; fail).
        - right. destruct (sData s) as [j|] eqn:EI; [eexists _, _, _; split; [exact IN|eapply sw_data; eauto]|eexists _, _, _; split; [exact IN|eapply sw_data_nil; eauto]].
        - right. destruct (sData s) as [j|] eqn:EI; [eexists _, _, _; split; [exact IN|eapply sw_len; eauto]|eexists _, _, _; split; [exact IN|eapply sw_len_nil; eauto]].
        - right. eexists _, _, _; split; [exact IN|eapply sw_rlock; eauto].
        - left. intros q [<-|Q]; [right; left; auto|auto].
        - left. intros q [<-|Q]; [left; auto|auto].
        - right. eexists _, _, _; split; [exact IN|eapply sw_nothing; eauto].
        - right. eexists _, _, _; split; [exact IN|eapply sw_lock; eauto].
        - left. intros q [<-|Q]; [right; right; auto|auto].
        - contradiction. }
      apply X. auto.
    + assert (IN : In p (filter inR ts)) by (rewrite FR; left; auto). apply filter_In in IN. destruct IN as [IN RP].
      right. destruct p; try discriminate RP.
      * destruct (sData s) as [j|] eqn:EI; [eexists _, _, _; split; [exact IN|eapply sw_take; eauto]|eexists _, _, _; split; [exact IN|eapply sw_take_nil; eauto]].
      * destruct (sIndex s) as [j|] eqn:EI; [eexists _, _, _; split; [exact IN|eapply sw_ask; eauto]|eexists _, _, _; split; [exact IN|eapply sw_ask_nil; eauto]].
      * eexists _, _, _; split; [exact IN|apply sw_in].
      * eexists _, _, _; split; [exact IN|apply sw_look].
      * eexists _, _, _; split; [exact IN|apply sw_runlock].
  - assert (IN : In p (filter inW ts)) by (rewrite FW; left; auto). apply filter_In in IN. destruct IN as [IN WP].
    specialize (E p IN WP). right. destruct p; try discriminate WP; cbn [ph] in E.
    + destruct (sData s) as [j|] eqn:EI; [eexists _, _, _; split; [exact IN|eapply sw_test; eauto]|eexists _, _, _; split; [exact IN|eapply sw_test_nil; eauto]].
    + destruct (sIndex s) as [j|] eqn:EI; [eexists _, _, _; split; [exact IN|eapply sw_unload; eauto]|eexists _, _, _; split; [exact IN|eapply sw_unload_nil; eauto]].
    + destruct E as (_ & (j & J & _) & _). eexists _, _, _; split; [exact IN|eapply sw_delete; eauto].
    + eexists _, _, _; split; [exact IN|apply sw_set_index].
    + eexists _, _, _; split; [exact IN|apply sw_set_data].
    + eexists _, _, _; split; [exact IN|apply sw_unlock].
Qed.
Print Assumptions C122_finishes.

(** Once there is an index there always is one: later searches do not fall back. *)
Theorem C122_stays : forall s ts s' ts', swap_run (annoy_fresh, []) (s, ts) ->
  sData s <> None -> swap_run (s, ts) (s', ts') ->
  sIndex s' <> None /\ sData s' <> None /\ ~ swap s' QIndex s' QFallback /\ ~ swap s' QData s' QFallback.
Proof.
  intros s ts s' ts' R H R'.
  assert (H0 : sIndex s <> None).
  { pose proof (reach_inv _ _ R) as (A & B & C & D & E & F). destruct (sWriter s) eqn:W.
    - destruct (filter inW ts) as [|p l] eqn:FL; [unfold count in B; rewrite FL in B; discriminate|].
      assert (IN : In p (filter inW ts)) by (rewrite FL; left; auto). apply filter_In in IN. destruct IN as [IN WP].
      specialize (E p IN WP). destruct p; try discriminate; cbn [ph] in E; destruct E as (E1 & _); congruence.
    - destruct (F eq_refl) as (F1 & _). congruence. }
  assert (X : sIndex s' <> None /\ sData s' <> None).
  { clear R. remember (s, ts) as w. remember (s', ts') as w'. revert s' ts' Heqw'. revert s ts Heqw H H0.
    induction R' as [w|w1 w2 w3 R IH S]; intros s ts -> H H0 s' ts' Q.
    - injection Q as <- <-. auto.
    - subst w3. inversion S as [s2 ts2 p P Q1 Q2|s2 ts1 p ts2 s3 p' SW Q1 Q2]; subst w2.
      + subst s2. eapply IH; eauto.
      + assert (X : sIndex s2 <> None /\ sData s2 <> None) by (eapply IH; eauto). clear IH S R.
        destruct X. destruct SW; cbn; auto; split; auto; discriminate. }
  destruct X as [X1 X2]. repeat split; auto; intro SW; inversion SW; congruence.
Qed.
Print Assumptions C122_stays.

(** Two rebuilds and a search: the search asks the second index, the first is gone. *)
Example C122_instance : swap_run (annoy_fresh, [])
  (mkAS (Some 1) (Some 1) false 1 [0] [0] 2, [PDone; PDone; QIn 1 1]).
Proof.
  assert (M : forall w w1 w2, swap_step w w1 -> swap_run w1 w2 -> swap_run w w2).
  { intros w w1 w2 S R. induction R; [eapply sr_step; [apply sr_here|exact S]|eapply sr_step; eauto]. }
  eapply M; [apply (ss_come _ _ PBuild); auto|]. cbn [app].
  eapply M; [apply (ss_come _ _ PBuild); auto|]. cbn [app].
  eapply M; [apply (ss_come _ _ QIndex); auto|]. cbn [app].
  do 2 (eapply M; [apply (ss_move _ []); constructor; reflexivity|]; cbn).
  eapply M; [apply (ss_move _ []); apply sw_test_nil; reflexivity|]; cbn.
  do 3 (eapply M; [apply (ss_move _ []); constructor|]; cbn).
  do 2 (eapply M; [apply (ss_move _ [PDone]); constructor; reflexivity|]; cbn).
  eapply M; [apply (ss_move _ [PDone]); eapply sw_test; reflexivity|]; cbn.
  eapply M; [apply (ss_move _ [PDone]); eapply sw_unload; reflexivity|]; cbn.
  eapply M; [apply (ss_move _ [PDone]); eapply sw_delete; reflexivity|]; cbn.
  do 3 (eapply M; [apply (ss_move _ [PDone]); constructor|]; cbn).
  eapply M; [apply (ss_move _ [PDone; PDone]); eapply sw_index; reflexivity|]; cbn.
  eapply M; [apply (ss_move _ [PDone; PDone]); eapply sw_data; reflexivity|]; cbn.
  eapply M; [apply (ss_move _ [PDone; PDone]); eapply sw_len; reflexivity|]; cbn.
  eapply M; [apply (ss_move _ [PDone; PDone]); eapply sw_rlock; reflexivity|]; cbn.
  eapply M; [apply (ss_move _ [PDone; PDone]); eapply sw_take; reflexivity|]; cbn.
  eapply M; [apply (ss_move _ [PDone; PDone]); eapply sw_ask; reflexivity|]; cbn.
  apply sr_here.
Qed.
