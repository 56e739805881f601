(** Proofs about the configurations of datasets in a cluster. *)
From Verif.Base Require Import GoBase GoLemmas Assoc Float.
From Verif.Model Require Import Codec Store Data Dataset Json Index DatasetAll ConfigFlow.
From Verif.Spec Require Import RegistrySpec HousekeepingSpec ConfigSpec.
From Verif.Proof Require Import StoreConcP DatasetP RegistryP DatasetAllP.
From Coq Require Import Lia Permutation.
Open Scope N_scope.

(** Objects of [s'] are those of [s], with the same or a later configuration of P, and
    new ones with a configuration of P. *)
Definition grown (P : DataConfig -> Prop) (s s' : dstate) : Prop :=
  (length (dsObjs s) <= length (dsObjs s'))%nat /\
  forall a dt', nth_error (dsObjs s') a = Some dt' ->
    match nth_error (dsObjs s) a with
    | Some dt => forall c, dConfig dt = Some c -> exists c', dConfig dt' = Some c' /\
        (c' = c \/ cVersion c < cVersion c' /\ P c')
    | None => exists c', dConfig dt' = Some c' /\ P c'
    end.

Lemma grown_refl : forall P s, grown P s s.
Proof. intros P s. split; [lia|]. intros a dt E. rewrite E. intros c H. exists c. auto. Qed.

Lemma grown_trans : forall P s1 s2 s3, grown P s1 s2 -> grown P s2 s3 -> grown P s1 s3.
Proof.
  intros P s1 s2 s3 [L1 H1] [L2 H2]. split; [lia|]. intros a dt3 E3. specialize (H2 _ _ E3).
  destruct (nth_error (dsObjs s2) a) as [dt2|] eqn:E2.
  - specialize (H1 _ _ E2). destruct (nth_error (dsObjs s1) a) as [dt1|].
    + intros c E. destruct (H1 _ E) as (c2 & X & Y). destruct (H2 _ X) as (c3 & X3 & Y3). exists c3. split; [exact X3|].
      destruct Y as [->|[Y1 Y2]]; [exact Y3|]. destruct Y3 as [->|[Y3 Y4]]; right; split; auto; lia.
    + destruct H1 as (c2 & X & Y). destruct (H2 _ X) as (c3 & X3 & Y3). exists c3. split; [exact X3|].
      destruct Y3 as [->|[_ Y4]]; auto.
  - destruct (nth_error (dsObjs s1) a) as [dt1|] eqn:E1; [|exact H2].
    apply nth_error_None in E2. assert (a < length (dsObjs s1))%nat by (apply nth_error_Some; congruence). lia.
Qed.

Lemma grown_mono : forall (P Q : DataConfig -> Prop) s s', (forall c, P c -> Q c) -> grown P s s' -> grown Q s s'.
Proof.
  intros P Q s s' PQ [L H]. split; [exact L|]. intros a dt' E. specialize (H _ _ E).
  destruct (nth_error (dsObjs s) a).
  - intros c X. destruct (H _ X) as (c' & A & [B|[B C]]); exists c'; auto.
  - destruct H as (c' & A & B). exists c'. auto.
Qed.

Lemma grown_same : forall P s s', dsObjs s' = dsObjs s -> grown P s s'.
Proof. intros P s s' E. destruct (grown_refl P s) as [A B]. split; rewrite E; auto. Qed.

Lemma grown_added : forall (P : DataConfig -> Prop) now s c, P c -> grown P s (added now s c).
Proof.
  intros P now s c H. unfold added. split; cbn [dsObjs]; [rewrite app_length; lia|].
  intros a dt E. destruct (nth_error (dsObjs s) a) as [dt0|] eqn:E0.
  - rewrite nth_error_app1 in E by (apply nth_error_Some; congruence). rewrite E0 in E. injection E as <-. eauto.
  - apply nth_error_None in E0. rewrite nth_error_app2 in E by exact E0.
    destruct (a - length (dsObjs s))%nat as [|k]; cbn in E; [injection E as <-; exists c; auto|destruct k; discriminate E].
Qed.

Section R.
Variable L : floatlib.
Variable inc : Z -> Z -> Z -> Z.
Variable closed : Data -> Data.
Hypothesis KC : keeps_config closed.
Hypothesis NS : no_shorter inc.

Lemma grown_created : forall (P : DataConfig -> Prop) now s c s', inv s -> created now s c s' -> P c -> grown P s s'.
Proof.
  intros P now s c s' I C H. unfold created in C. destruct (dl_get now s (cName c)) as [a|] eqn:G.
  2: { subst. apply grown_added. exact H. }
  destruct C as (_ & U & O). destruct (get_some _ _ _ _ G) as (i & Ei & <- & _).
  destruct I as [_ I]. destruct (I _ _ Ei) as (dt0 & c0 & A & B & N). specialize (U _ _ A B).
  split.
  - destruct (Nat.le_gt_cases (length (dsObjs s)) (length (dsObjs s'))) as [X|X]; [exact X|]. exfalso.
    destruct (Nat.eq_dec (length (dsObjs s')) (diObj i)) as [Q|Q].
    + rewrite <- Q in U. assert (Y : (length (dsObjs s') < length (dsObjs s'))%nat) by (apply nth_error_Some; congruence). lia.
    + specialize (O _ Q). destruct (nth_error (dsObjs s) (length (dsObjs s'))) eqn:Y.
      * assert (Z : (length (dsObjs s') < length (dsObjs s'))%nat) by (apply nth_error_Some; congruence). lia.
      * apply nth_error_None in Y. lia.
  - intros a dt' E. destruct (Nat.eq_dec a (diObj i)) as [->|Q].
    + rewrite U in E. injection E as <-. rewrite A. intros c1 E1. rewrite B in E1. injection E1 as <-.
      destruct (cVersion c0 <? cVersion c) eqn:V; [|exists c0; auto]. apply N.ltb_lt in V.
      exists c. split; [reflexivity|]. right. auto.
    + rewrite (O _ Q) in E. rewrite E. eauto.
Qed.

Lemma grown_closed : forall P s a, grown P s (close_obj closed s a).
Proof.
  intros P s a. split.
  - unfold close_obj. destruct (nth_error (dsObjs s) a) as [dt|]; [|lia].
    destruct (list_set (dsObjs s) a (closed dt)) as [l|] eqn:S; [|lia]. cbn [dsObjs].
    clear - S. revert a l S. generalize (dsObjs s) as l0. induction l0 as [|x l0 IH]; intros [|a] l S; cbn in S; try discriminate S.
    + injection S as <-. cbn. lia.
    + destruct (list_set l0 a (closed dt)) as [l1|] eqn:E; [|discriminate S]. injection S as <-. cbn. specialize (IH _ _ E). lia.
  - intros b dt' E. rewrite close_nth in E. destruct (Nat.eqb_spec a b) as [<-|].
    + destruct (nth_error (dsObjs s) a) as [dt|]; [|discriminate E]. cbn in E. injection E as <-.
      intros c X. exists c. rewrite KC. auto.
    + rewrite E. eauto.
Qed.

Lemma grown_delete : forall P s n, grown P s (dl_delete closed s n).
Proof.
  intros P s n. unfold dl_delete. destruct (mload (dsList s) n) as [i|]; [|apply grown_refl].
  eapply grown_trans; [apply grown_closed|apply grown_same; reflexivity].
Qed.

(** The dataset of [name] is the same one, if it is there. *)
Definition same (T : Z) (name : bytes) (s s' : dstate) : Prop :=
  forall i i', mload (dsList s) name = Some i -> item_live T i = true ->
    mload (dsList s') name = Some i' -> diObj i' = diObj i.

Definition goodP (es : list DataConfig) (c : DataConfig) : Prop := c = GetDefaultConfig (cName c) \/ In c es.

Lemma get_step : forall (P : DataConfig -> Prop) now s n s' a, inv s -> (forall m, P (GetDefaultConfig m)) ->
  Get inc deep now s n = Ok (s', a) ->
  inv s' /\ grown P s s' /\ forall m i, mload (dsList s) m = Some i -> item_live now i = true ->
    exists i', mload (dsList s') m = Some i' /\ diObj i' = diObj i /\ item_live now i' = true.
Proof.
  intros P now s n s' a I PD E. destruct (dl_get now s n) as [b|] eqn:G.
  - destruct (get_there inc now s n b I G) as (i & dt & c & A1 & A2 & A3 & A4 & A5 & A6 & A7).
    rewrite E in A7. injection A7 as -> ->.
    destruct (get_ok inc deep now s n I) as (s1 & a1 & E1 & I1 & _); [unfold deep; lia|].
    rewrite E in E1. injection E1 as <- <-. split; [exact I1|]. split; [apply grown_same; reflexivity|].
    cbn [dsList]. intros m j Ej Lj. destruct (bytes_dec n m) as [<-|N].
    + rewrite mload_mstore_same. eexists. split; [reflexivity|]. rewrite A1 in Ej. injection Ej as <-. cbn [diObj].
      split; [auto|]. apply live_iff. cbn [diExpires]. apply NS. apply live_iff. exact Lj.
    + rewrite mload_mstore_other by auto. exists j. auto.
  - destruct (get_ok inc deep now s n I) as (s1 & a1 & E1 & I1 & H); [unfold deep; lia|].
    rewrite E in E1. injection E1 as <- <-. split; [exact I1|]. destruct H as [[G' _]|[_ [_ T]]]; [congruence|].
    pose proof T as (T1 & T2 & _). split.
    + eapply grown_trans; [apply grown_added; apply (PD n)|apply grown_same; exact T1].
    + intros m j Ej Lj. destruct (bytes_dec n m) as [<-|N].
      * unfold dl_get in G. rewrite Ej, Lj in G. discriminate G.
      * exists j. split; [|auto]. rewrite T2 by auto. unfold added. cbn [dsList].
        rewrite mload_mstore_other; auto.
Qed.

Lemma live_le : forall t T i, (t <= T)%Z -> item_live T i = true -> item_live t i = true.
Proof. intros t T i H X. apply live_iff. apply live_iff in X. lia. Qed.

Lemma save_step : forall (P : DataConfig -> Prop) now names s s' text, inv s -> (forall m, P (GetDefaultConfig m)) ->
  SaveIndex L inc now s names = Ok (s', text) ->
  inv s' /\ grown P s s' /\ forall m i, mload (dsList s) m = Some i -> item_live now i = true ->
    exists i', mload (dsList s') m = Some i' /\ diObj i' = diObj i /\ item_live now i' = true.
Proof.
  intros P now. unfold SaveIndex. induction names as [|k names IH]; intros s s' text I PD E; cbn [save_lines] in E.
  - injection E as <- <-. split; [auto|]. split; [apply grown_refl|]. eauto.
  - destruct (Get inc deep now s k) as [[s1 a]| |] eqn:G; try discriminate E. cbn [bind] in E.
    destruct (get_step P _ _ _ _ _ I PD G) as (I1 & G1 & K1).
    destruct (nth_error (dsObjs s1) a) as [dt|]; [|discriminate E].
    destruct (save_lines L inc now s1 names) as [[s2 t2]| |] eqn:SL; try discriminate E. cbn [bind] in E.
    injection E as <- <-. destruct (IH _ _ _ I1 PD SL) as (I2 & G2 & K2). split; [exact I2|].
    split; [eapply grown_trans; eauto|]. intros m i A B. destruct (K1 _ _ A B) as (i1 & A1 & <- & B1). eauto.
Qed.

Definition all_obj (Q : DataConfig -> Prop) (s : dstate) : Prop :=
  forall a dt, nth_error (dsObjs s) a = Some dt -> exists c, dConfig dt = Some c /\ Q c.

Lemma all_grown : forall (Q : DataConfig -> Prop) s s', all_obj Q s -> grown Q s s' -> all_obj Q s'.
Proof.
  intros Q s s' A [_ H] a dt E. specialize (H _ _ E). destruct (nth_error (dsObjs s) a) as [dt0|] eqn:E0; [|exact H].
  destruct (A _ _ E0) as (c & B & C). destruct (H _ B) as (c' & D & [->|[_ F]]); eauto.
Qed.

Lemma list_step : forall (P : DataConfig -> Prop) now names s s' l, inv s -> all_obj P s -> (forall m, P (GetDefaultConfig m)) ->
  DataConfigList inc now s names = Ok (s', l) ->
  inv s' /\ grown P s s' /\ (forall m i, mload (dsList s) m = Some i -> item_live now i = true ->
    exists i', mload (dsList s') m = Some i' /\ diObj i' = diObj i /\ item_live now i' = true) /\
  Forall P (somes l).
Proof.
  intros P now. unfold DataConfigList. induction names as [|k names IH]; intros s s' l I AO PD E; cbn [config_list] in E.
  - injection E as <- <-. split; [auto|]. split; [apply grown_refl|]. split; [eauto|]. constructor.
  - destruct (Get inc deep now s k) as [[s1 a]| |] eqn:G; try discriminate E. cbn [bind] in E.
    destruct (get_step P _ _ _ _ _ I PD G) as (I1 & G1 & K1). pose proof (all_grown _ _ _ AO G1) as AO1.
    destruct (nth_error (dsObjs s1) a) as [dt|] eqn:N1; [|discriminate E].
    destruct (config_list inc now s1 names) as [[s2 l2]| |] eqn:SL; try discriminate E. cbn [bind] in E.
    injection E as <- <-. destruct (IH _ _ _ I1 AO1 PD SL) as (I2 & G2 & K2 & C2). split; [exact I2|].
    split; [eapply grown_trans; eauto|]. split.
    { intros m i A B. destruct (K1 _ _ A B) as (i1 & A1 & <- & B1). eauto. }
    destruct (AO1 _ _ N1) as (c & -> & Q). cbn [somes]. constructor; auto.
Qed.

Lemma goc_step : forall (P : DataConfig -> Prop) now s c s' a, inv s -> P c ->
  GetOrCreateIfNotExists inc deep now s c = Ok (s', a) ->
  inv s' /\ grown P s s' /\ (forall m i, mload (dsList s) m = Some i -> item_live now i = true ->
    exists i', mload (dsList s') m = Some i' /\ diObj i' = diObj i) /\
  (exists i, mload (dsList s') (cName c) = Some i /\ diObj i = a) /\
  (forall i dt c0, mload (dsList s) (cName c) = Some i -> item_live now i = true ->
     nth_error (dsObjs s) (diObj i) = Some dt -> dConfig dt = Some c0 ->
     exists dt', nth_error (dsObjs s') (diObj i) = Some dt' /\
       dConfig dt' = Some (if cVersion c0 <? cVersion c then c else c0)) /\
  (dl_get now s (cName c) = None -> exists dt, nth_error (dsObjs s') a = Some dt /\ dConfig dt = Some c).
Proof.
  intros P now s c s' a I H E.
  destruct (getorcreate_ok inc deep now s c I) as (s1 & s2 & a1 & E1 & I1 & I2 & C & G & T); [unfold deep; lia|].
  rewrite E in E1. injection E1 as <- <-. split; [exact I2|]. pose proof T as (T1 & T2 & T3 & _).
  split; [eapply grown_trans; [eapply grown_created; eauto|apply grown_same; exact T1]|].
  destruct (get_some _ _ _ _ G) as (j & Ej & Ja & _). split; [|split; [|split]].
  4: { intro G0. unfold created in C. rewrite G0 in C. subst s1. rewrite T1. rewrite get_added in G. injection G as <-.
       exists (InitData (NewPreData c)). unfold added. cbn [dsObjs]. rewrite nth_error_app2, Nat.sub_diag by lia. auto. }
  - intros m i A B. unfold created in C. destruct (bytes_dec (cName c) m) as [<-|N].
    + destruct (dl_get now s (cName c)) as [b|] eqn:G0.
      2: { unfold dl_get in G0. rewrite A, B in G0. discriminate G0. }
      destruct C as (CL & _ & _). rewrite <- CL in A. destruct (T3 _ A) as [e X]. eexists. split; [exact X|reflexivity].
    + destruct (dl_get now s (cName c)) as [b|] eqn:G0.
      * destruct C as (CL & _ & _). rewrite T2 by auto. rewrite CL. eauto.
      * subst s1. rewrite T2 by auto. unfold added. cbn [dsList]. rewrite mload_mstore_other by auto. eauto.
  - destruct (T3 _ Ej) as [e X]. eexists. split; [exact X|exact Ja].
  - intros i dt c0 A B X Y. unfold created in C.
    assert (G0 : dl_get now s (cName c) = Some (diObj i)) by (unfold dl_get; rewrite A, B; reflexivity).
    rewrite G0 in C. destruct C as (_ & U & _). rewrite T1. eexists. split; [apply U; eauto|].
    destruct (cVersion c0 <? cVersion c); [reflexivity|exact Y].
Qed.

Lemma reload_step : forall P info now items s s', inv s -> ReloadRuns closed info now s items = Ok s' ->
  inv s' /\ grown P s s' /\ forall m i, mload (dsList s') m = Some i -> mload (dsList s) m = Some i.
Proof.
  intros P info now items s s' I E. unfold ReloadRuns in E.
  destruct (reload_scan closed info s items) as [[s1 l]| |] eqn:R; try discriminate E. cbn [bind] in E. injection E as <-.
  assert (X : inv s1 /\ grown P s s1 /\ dsList s1 = dsList s).
  { clear - I R KC. revert s s1 l I R. induction items as [|[n i] items IH]; intros s s1 l I R; cbn [reload_scan] in R.
    - injection R as <- <-. split; [auto|]. split; [apply grown_refl|reflexivity].
    - destruct (nth_error (dsObjs s) (diObj i)) as [dt|]; [|discriminate R].
      destruct (CheckIfActive info dt) as [act| |]; try discriminate R. cbn [bind] in R. destruct act; [eauto|].
      destruct (reload_scan closed info (close_obj closed s (diObj i)) items) as [[s2 l2]| |] eqn:R2; try discriminate R.
      cbn [bind] in R. injection R as <- <-. destruct (IH _ _ _ (close_inv closed KC s (diObj i) I) R2) as (A & B & C).
      split; [exact A|]. split; [eapply grown_trans; [apply grown_closed|exact B]|]. rewrite C. apply close_list. }
  destruct X as (I1 & G1 & L1). rewrite <- L1. assert (Y : grown P s1 s1) by apply grown_refl.
  assert (Z : inv (fold_left (dl_delete closed) l s1) /\ grown P s1 (fold_left (dl_delete closed) l s1) /\
    forall m i, mload (dsList (fold_left (dl_delete closed) l s1)) m = Some i -> mload (dsList s1) m = Some i).
  { clear - I1 KC. revert s1 I1. induction l as [|n l IH]; intros s I; cbn [fold_left].
    - split; [exact I|]. split; [apply grown_refl|auto].
    - destruct (IH (dl_delete closed s n) (delete_inv closed KC s n I)) as (A & B & C). split; [exact A|].
      split; [eapply grown_trans; [apply grown_delete|exact B]|]. intros m i X. apply C in X.
      destruct (bytes_dec n m) as [<-|N].
      + unfold dl_delete in X. destruct (mload (dsList s) n) as [j|] eqn:E; [|congruence].
        cbn [dsList] in X. rewrite mload_mdelete_same in X. discriminate X.
      + destruct (delete_others closed s n I) as [O _]. rewrite O in X by auto. exact X. }
  destruct Z as (A & B & C). split; [exact A|]. split; [eapply grown_trans; eauto|exact C].
Qed.

Lemma own_step : forall (P : DataConfig -> Prop) s e s', inv s -> all_obj P s -> own e = true -> (forall m, P (GetDefaultConfig m)) ->
  hstep L inc closed s e = Ok s' ->
  inv s' /\ grown P s s' /\ forall T name, (forall i, before T (FOwn i e)) -> same T name s s'.
Proof.
  intros P s e s' I AO O PD E. destruct e as [now names|now names|now info items|e]; cbn [hstep] in E.
  - destruct (SaveIndex L inc now s names) as [[s1 t]| |] eqn:R; try discriminate E. cbn [bind fst] in E. injection E as <-.
    destruct (save_step P _ _ _ _ _ I PD R) as (A & B & C). split; [exact A|]. split; [exact B|].
    intros T name BT i i' X Y Z. specialize (BT 0%nat now eq_refl).
    destruct (C _ _ X (live_le _ _ _ BT Y)) as (i2 & U & V & _). congruence.
  - destruct (DataConfigList inc now s names) as [[s1 t]| |] eqn:R; try discriminate E. cbn [bind fst] in E. injection E as <-.
    destruct (list_step P _ _ _ _ _ I AO PD R) as (A & B & C & _). split; [exact A|]. split; [exact B|].
    intros T name BT i i' X Y Z. specialize (BT 0%nat now eq_refl).
    destruct (C _ _ X (live_le _ _ _ BT Y)) as (i2 & U & V & _). congruence.
  - destruct (reload_step P _ _ _ _ _ I E) as (A & B & C). split; [exact A|]. split; [exact B|].
    intros T name BT i i' X Y Z. apply C in Z. congruence.
  - destruct (step_all inc closed KC s e I) as (s1 & E1 & I1 & H1 & H2). rewrite E in E1. injection E1 as <-.
    split; [exact I1|].
    assert (SM : forall T name, (forall i, before T (FOwn i (HOther e))) -> same T name s s').
    { intros T name BT i i' X Y Z. destruct (event_name e) as [n|] eqn:EN.
      - destruct (H1 n eq_refl) as [[O1 _] K]. destruct (bytes_dec name n) as [->|NE]; [|rewrite O1 in Z by auto; congruence].
        destruct e as [now m|now m|now c|now c|now m|now m|a f]; cbn [event_name] in EN; try discriminate O; try discriminate EN;
          injection EN as ->; cbn [event_time] in K; cbn [before fev_time event_time] in BT; specialize (BT 0%nat now eq_refl).
        1,2,4: (assert (KK : kept n s s') by (apply K; [intros t Q; discriminate Q|];
          intros t Q; injection Q as <-; exists (diObj i); unfold dl_get; rewrite X, (live_le _ _ _ BT Y); reflexivity);
          destruct (KK _ X) as [[ex Q] _]; rewrite Q in Z; injection Z as <-; reflexivity).
        cbn [dstep] in E. injection E as <-. exfalso. unfold Delete, dl_get in Z. rewrite X, (live_le _ _ _ BT Y) in Z. cbn [fst] in Z.
        unfold dl_delete in Z. rewrite close_list, X in Z. cbn [dsList] in Z. rewrite mload_mdelete_same in Z. discriminate Z.
      - destruct e as [now m|now m|now c|now c|now m|now m|a f]; cbn [event_name] in EN; try discriminate EN.
        destruct (H2 a f eq_refl) as [Q _]. rewrite Q in Z. congruence. }
    split; [|exact SM]. destruct e as [now n|now n|now c|now c|now n|now n|a f]; cbn [dstep] in E; try discriminate O.
    + destruct (Get inc deep now s n) as [[s1 a]| |] eqn:R; try discriminate E. cbn [bind fst] in E. injection E as <-.
      apply (get_step P _ _ _ _ _ I PD R).
    + destruct (getnoop_ok inc deep now s n I) as (s1 & a & R & _ & H); [unfold deep; lia|]. rewrite R in E. cbn [bind fst] in E.
      injection E as <-. destruct H as [[_ (T & _)]|[_ [_ (T & _)]]]; [apply grown_same; exact T|].
      eapply grown_trans; [apply grown_added; apply (PD n)|apply grown_same; exact T].
    + injection E as <-. unfold Delete. destruct (dl_get now s n) as [a|]; cbn [fst]; [|apply grown_refl].
      eapply grown_trans; [apply grown_closed|apply grown_delete].
    + destruct (dl_get now s n) as [a|]; injection E as <-; [apply grown_refl|apply grown_delete].
    + destruct (H2 a f eq_refl) as (_ & O1 & O2). split.
      * destruct (nth_error (dsObjs s) a) as [dt|]; [|injection E as <-; lia].
        destruct (list_set (dsObjs s) a (match dConfig dt with Some c => set_config (f dt) c | None => f dt end)) as [l|] eqn:S;
          injection E as <-; [|lia]. cbn [dsObjs]. clear - S. revert S. generalize (match dConfig dt with Some c => set_config (f dt) c | None => f dt end) as x.
        intro x. revert a l. generalize (dsObjs s) as l0. induction l0 as [|y l0 IH]; intros [|a] l S; cbn in S; try discriminate S.
        { injection S as <-. cbn. lia. }
        destruct (list_set l0 a x) as [l1|] eqn:E; [|discriminate S]. injection S as <-. cbn. specialize (IH _ _ E). lia.
      * intros b dt' X. destruct (Nat.eq_dec b a) as [->|N].
        -- destruct (nth_error (dsObjs s) a) as [dt|] eqn:Y.
           ++ destruct (O2 _ eq_refl) as (dt2 & U & V). rewrite X in U. injection U as <-. intros c W. exists c. auto.
           ++ injection E as <-. congruence.
        -- rewrite (O1 _ N) in X. rewrite X. eauto.
Qed.

(** ** The cluster *)
Definition Wok (Q : DataConfig -> Prop) (w : fworld) : Prop :=
  (forall i, inv (fNodes w i) /\ all_obj Q (fNodes w i)) /\ Forall Q (fMail w).

Lemma set_f_same : forall w i s, fNodes (set_f w i s) i = s.
Proof. intros. cbn. rewrite Nat.eqb_refl. reflexivity. Qed.
Lemma set_f_other : forall w i s j, j <> i -> fNodes (set_f w i s) j = fNodes w j.
Proof. intros. cbn. destruct (Nat.eqb_spec j i); congruence. Qed.

Lemma same_refl : forall T n s, same T n s s.
Proof. intros T n s i i' A _ B. congruence. Qed.

Definition moved (Q : DataConfig -> Prop) (e : fev) (w w' : fworld) : Prop :=
  Wok Q w' /\ forall j, grown Q (fNodes w j) (fNodes w' j) /\
    forall T name, before T e -> same T name (fNodes w j) (fNodes w' j).

Lemma moved_set : forall Q e w i s, Wok Q w -> inv s -> grown Q (fNodes w i) s ->
  (forall T name, before T e -> same T name (fNodes w i) s) -> moved Q e w (set_f w i s).
Proof.
  intros Q e w i s [WN WM] I G SM. destruct (WN i) as [_ AO]. split.
  - split; [|exact WM]. intro j. destruct (Nat.eq_dec j i) as [->|N].
    + rewrite set_f_same. split; [exact I|]. eapply all_grown; eauto.
    + rewrite set_f_other by auto. apply WN.
  - intro j. destruct (Nat.eq_dec j i) as [->|N].
    + rewrite set_f_same. auto.
    + rewrite set_f_other by auto. split; [apply grown_refl|]. intros T name _. apply same_refl.
Qed.

Lemma f_step : forall (Q : DataConfig -> Prop) w e w', (forall m, Q (GetDefaultConfig m)) ->
  Wok Q w -> (forall i now c, e = FCreate i now c -> Q c) -> fstep L inc closed w e = Some w' -> moved Q e w w'.
Proof.
  intros Q w e w' QD W QC E. pose proof W as [WN WM]. destruct e as [i now c|i now names|i k now|i e]; cbn [fstep] in E.
  - destruct (GetOrCreateIfNotExists inc deep now (fNodes w i) c) as [[s a]| |] eqn:R; try discriminate E. injection E as <-.
    destruct (WN i) as [I AO]. destruct (goc_step Q _ _ _ _ _ I (QC _ _ _ eq_refl) R) as (A & B & C & _).
    apply moved_set; auto. intros T name BT j j' X Y Z. specialize (BT now eq_refl).
    destruct (C _ _ X (live_le _ _ _ BT Y)) as (j2 & U & V). congruence.
  - destruct (DataConfigList inc now (fNodes w i) names) as [[s l]| |] eqn:R; try discriminate E. injection E as <-.
    destruct (WN i) as [I AO]. destruct (list_step Q _ _ _ _ _ I AO QD R) as (A & B & C & D).
    destruct (moved_set Q (FTell i now names) w i s W A B) as [[M1 M2] M3].
    { intros T name BT j j' X Y Z. specialize (BT now eq_refl).
      destruct (C _ _ X (live_le _ _ _ BT Y)) as (j2 & U & V & _). congruence. }
    split; [|exact M3]. split; [exact M1|]. cbn [fMail]. apply Forall_app. auto.
  - destruct (nth_error (fMail w) k) as [c|] eqn:N; [|discriminate E].
    destruct (GetOrCreateIfNotExists inc deep now (fNodes w i) c) as [[s a]| |] eqn:R; try discriminate E. injection E as <-.
    destruct (WN i) as [I AO]. apply nth_error_In in N. rewrite Forall_forall in WM.
    destruct (goc_step Q _ _ _ _ _ I (WM _ N) R) as (A & B & C & _).
    apply moved_set; auto. intros T name BT j j' X Y Z. specialize (BT now eq_refl).
    destruct (C _ _ X (live_le _ _ _ BT Y)) as (j2 & U & V). congruence.
  - destruct (own e) eqn:O; [|discriminate E].
    destruct (hstep L inc closed (fNodes w i) e) as [s| |] eqn:R; try discriminate E. injection E as <-.
    destruct (WN i) as [I AO]. destruct (own_step Q _ _ _ I AO O QD R) as (A & B & C).
    apply moved_set; auto.
Qed.

Lemma Wok_run : forall (Q : DataConfig -> Prop) es w w', (forall m, Q (GetDefaultConfig m)) ->
  (forall c, requested es c -> Q c) -> Wok Q w -> frun L inc closed w es = Some w' -> Wok Q w'.
Proof.
  intros Q. induction es as [|e es IH]; intros w w' QD QR W E; cbn [frun] in E; [injection E as <-; exact W|].
  destruct (fstep L inc closed w e) as [w1|] eqn:F; [|discriminate E].
  assert (M : moved Q e w w1).
  { apply f_step; auto. intros i now c ->. apply QR. exists i, now. left. reflexivity. }
  eapply IH; [exact QD| |apply M|exact E]. intros c (i & now & X). apply QR. exists i, now. right. exact X.
Qed.

Lemma empty_ok : forall Q w, empty w -> Wok Q w.
Proof.
  intros Q w [M N]. split; [|rewrite M; constructor]. intro i. rewrite N. split.
  - split; [constructor|]. cbn. discriminate.
  - intros a dt E. destruct a; discriminate E.
Qed.

Lemma configured_iff : forall now w i name c, inv (fNodes w i) -> configured now w i name c <->
  exists j dt, mload (dsList (fNodes w i)) name = Some j /\ item_live now j = true /\
    nth_error (dsObjs (fNodes w i)) (diObj j) = Some dt /\ dConfig dt = Some c.
Proof.
  intros now w i name c I. unfold configured. split.
  - intros (a & m & H & dt & A & B & _). apply get_holds in H; [|exact I].
    destruct (get_some _ _ _ _ H) as (j & X & <- & Y). eauto 6.
  - intros (j & dt & X & Y & A & B). exists (diObj j), (dDBMap dt). split; [|exists dt; auto].
    apply get_holds; [exact I|]. unfold dl_get. rewrite X, Y. reflexivity.
Qed.

Lemma keep_run : forall (Q : DataConfig -> Prop) T i name c es w w', (forall m, Q (GetDefaultConfig m)) ->
  (forall c', requested es c' -> Q c') -> Wok Q w ->
  (forall c', Q c' -> cName c' = name -> cVersion c' <= cVersion c) ->
  throughout L inc closed T i name w es -> frun L inc closed w es = Some w' ->
  configured T w i name c -> configured T w' i name c.
Proof.
  intros Q T i name c. induction es as [|e es IH]; intros w w' QD QR W QV TH E C; cbn [frun] in E; [injection E as <-; exact C|].
  destruct (fstep L inc closed w e) as [w1|] eqn:F; [|discriminate E].
  assert (M : moved Q e w w1).
  { apply f_step; auto. intros k now c0 ->. apply QR. exists k, now. left. reflexivity. }
  cbn [throughout] in TH. rewrite F in TH. destruct TH as (_ & BT & TH).
  destruct M as [W1 M]. destruct (M i) as [G SM].
  eapply IH; [exact QD| |exact W1|exact QV|exact TH|exact E|].
  { intros c0 (k & now & X). apply QR. exists k, now. right. exact X. }
  destruct W as [WN _]. destruct (WN i) as [I _]. destruct W1 as [WN1 _]. destruct (WN1 i) as [I1 _].
  apply (configured_iff T w i name c I) in C. destruct C as (j & dt & C1 & C2 & C3 & C4).
  assert (H1 : exists a, holds T (fNodes w1 i) name a) by (destruct es; exact (proj1 TH)).
  destruct H1 as [a H1]. apply get_holds in H1; [|exact I1]. destruct (get_some _ _ _ _ H1) as (j1 & D1 & D2 & D3).
  pose proof (SM T name BT j j1 C1 C2 D1) as SO. apply configured_iff; [exact I1|].
  destruct I1 as [_ I1]. destruct (I1 _ _ D1) as (dt1 & c1 & U1 & U2 & U3).
  exists j1, dt1. split; [exact D1|]. split; [exact D3|]. split; [exact U1|].
  destruct G as [_ G]. specialize (G _ _ U1). rewrite SO, C3 in G. destruct (G _ C4) as (c2 & V1 & [->|[V2 V3]]); [exact V1|].
  rewrite U2 in V1. injection V1 as <-. specialize (QV _ V3 U3). lia.
Qed.

Lemma reach_step : forall (Q : DataConfig -> Prop) T i c w e w',
  Wok Q w -> Wok Q w' -> (forall c', Q c' -> cName c' = cName c -> c' = c \/ cVersion c' < cVersion c) ->
  fstep L inc closed w e = Some w' -> reaches w e i c -> Q c ->
  (exists a, holds T (fNodes w' i) (cName c) a) -> configured T w' i (cName c) c.
Proof.
  intros Q T i c w e w' [WN WM] [WN1 _] QV F R QC [a H].
  assert (X : exists now s b, GetOrCreateIfNotExists inc deep now (fNodes w i) c = Ok (s, b) /\ fNodes w' i = s).
  { destruct R as [(now & ->)|(k & now & -> & N)]; cbn [fstep] in F; [|rewrite N in F];
      (destruct (GetOrCreateIfNotExists inc deep now (fNodes w i) c) as [[s b]| |] eqn:R0; try discriminate F; injection F as <-;
       exists now, s, b; split; [exact R0|apply set_f_same]). }
  destruct X as (now & s & b & R0 & ES). destruct (WN i) as [I AO]. destruct (WN1 i) as [I1 _].
  destruct (goc_step Q _ _ _ _ _ I QC R0) as (_ & _ & K & (j & J1 & J2) & U & V).
  apply get_holds in H; [|exact I1]. rewrite ES in H. destruct (get_some _ _ _ _ H) as (j1 & D1 & D2 & D3).
  rewrite J1 in D1. injection D1 as <-. apply configured_iff; [exact I1|]. rewrite ES.
  destruct (dl_get now (fNodes w i) (cName c)) as [d|] eqn:G.
  - destruct (get_some _ _ _ _ G) as (j0 & E0 & E1 & E2). pose proof I as [_ I0].
    destruct (I0 _ _ E0) as (dt & c0 & X1 & X2 & X3). destruct (U _ _ _ E0 E2 X1 X2) as (dt' & Y1 & Y2).
    destruct (K _ _ E0 E2) as (j' & K1 & K2). rewrite J1 in K1. injection K1 as <-. rewrite <- K2 in Y1.
    exists j, dt'. split; [exact J1|]. split; [exact D3|]. split; [exact Y1|]. rewrite Y2.
    destruct (AO _ _ X1) as (c1 & Z1 & Z2). rewrite X2 in Z1. injection Z1 as <-.
    destruct (QV _ Z2 X3) as [->|LT]; [destruct (cVersion c <? cVersion c); reflexivity|].
    apply N.ltb_lt in LT. rewrite LT. reflexivity.
  - destruct (V eq_refl) as (dt & Y1 & Y2). exists j, dt. rewrite J2. auto.
Qed.
End R.
