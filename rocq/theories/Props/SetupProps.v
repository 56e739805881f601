(** Requests around the creation of a dataset, and its end. *)
From Verif.Base Require Import GoBase.
From Verif.Model Require Import Setup.
From Verif.Spec Require Import SetupSpec.
From Verif.Proof Require Import SetupP.

(** Anybody may come. *)
Definition anybody (a : asking) : Prop := True.
(** Nobody asks for a report. *)
Definition no_report (a : asking) : Prop := a <> AskReport.
(** Nobody closes the dataset, directly or in housekeeping. *)
Definition no_close (a : asking) : Prop := a <> AskClose /\ a <> AskCheck.



(** C115 Requests during the creation of a dataset.

    However the creation of a dataset and requests for it are interleaved: nothing
    crashes, the dataset is set up once, no source and no cached answer is lost. *)

(** False because of the report: it reads Sources of a listed dataset that has not
    been set up. *)
Theorem C115_report_refuted : exists w, wrun anybody published w /\ In Crashed (snd w).
Proof.
  exists (fresh_setup, [ILock ByCreate] ++ Crashed :: [] ++ []). split; [|cbn; auto].
  eapply wr_step; [apply wrun_one; apply w_come with (a := AskReport); exact I|].
  apply (w_act _ fresh_setup [ILock ByCreate] WReport []). apply a_report_nil. reflexivity.
Qed.

(** Inserts, searches, new sources, removals and housekeeping never crash, at
    whatever moment of the creation they come. *)
Theorem C115_safe_partial : forall w, wrun no_report published w -> ~ In Crashed (snd w).
Proof.
  intros w R.
  enough (~ In Crashed (snd w) /\ ~ In WReport (snd w)) by tauto.
  remember published as w0 eqn:E0. induction R as [w|w1 w2 w3 R IH S].
  - subst. cbn. intuition congruence.
  - subst. destruct (IH eq_refl) as [H1 H2].
    pose proof (wrun_inv _ _ _ R published_inv) as V.
    destruct S as [u ts a M|u a p b u' p' new A]; cbn [fst snd] in *.
    + split; intro H; apply in_app_or in H; destruct H as [H|[H|[]]]; auto; destruct a; cbn in H; try discriminate.
      apply M. reflexivity.
    + assert (PW : p <> WReport) by (intros ->; apply H2; apply in_or_app; cbn; auto).
      destruct (act_safe _ _ _ _ _ _ _ V A PW) as (S1 & S2 & S3 & S4).
      split; intro H; apply in_mid in H; destruct H as [H|[H|H]]; try congruence.
      * apply H1, in_or_app; auto.
      * apply in_app_or in H. destruct H; auto. apply H1, in_or_app. cbn; auto.
      * apply H2, in_or_app; auto.
      * apply in_app_or in H. destruct H; auto. apply H2, in_or_app. cbn; auto.
Qed.

(** With the list of sources in place reports are safe as well. *)
Theorem C115_later_partial : forall w w', wrun anybody published w -> uSources (fst w) <> None ->
  ~ In Crashed (snd w) -> wrun anybody w w' -> ~ In Crashed (snd w').
Proof.
  intros w w' R0 D N R.
  enough (uSources (fst w') <> None /\ ~ In Crashed (snd w')) by tauto.
  induction R as [w|w1 w2 w3 R IH S]; auto. destruct (IH R0 D N) as [H1 H2].
  pose proof (wrun_inv _ _ _ (wrun_trans _ _ _ _ R0 R) published_inv) as V.
  destruct S as [u ts a M|u a p b u' p' new A]; cbn [fst snd] in *.
  - split; auto. intro H. apply in_app_or in H. destruct H as [H|[H|[]]]; auto. destruct a; discriminate.
  - assert (H1' : uSources u' <> None) by (destruct A; cbn; auto; discriminate).
    split; auto. intro H.
    assert (Q : p' <> Crashed /\ ~ In Crashed new).
    { destruct (classic_place p) as [->|PW].
      - inversion A; subst; [split; [discriminate|auto]|congruence].
      - destruct (act_safe _ _ _ _ _ _ _ V A PW) as (S1 & _ & S3 & _). auto. }
    destruct Q as [Q1 Q2]. apply in_mid in H. destruct H as [H|[H|H]]; try congruence.
    + apply H2, in_or_app; auto.
    + apply in_app_or in H. destruct H; auto. apply H2, in_or_app. cbn; auto.
Qed.

(** The background task is started by the creation once, and once the dataset is
    marked as set up it has been started. *)
Theorem C115_once_partial : forall w, wrun anybody published w ->
  (uStarted (fst w) <= 1)%nat /\ (uInit (fst w) = true -> uStarted (fst w) = 1%nat).
Proof.
  intros w R. pose proof (wrun_inv _ _ _ R published_inv) as V. split; [|apply V].
  destruct (uInit (fst w)) eqn:I; [rewrite (proj2 (proj2 (si_init _ _ V I))); lia|].
  destruct (existsb late (snd w)) eqn:L.
  - apply existsb_exists in L. destruct L as (p & J & L). pose proof (si_known _ _ V p J) as K.
    destruct p; cbn in *; try discriminate; destruct K as (_ & _ & _ & ->); lia.
  - destruct (si_blank _ _ V I) as (_ & _ & ->); [|lia]. intros p J. destruct (late p) eqn:E; auto.
    assert (existsb late (snd w) = true) by (apply existsb_exists; eauto). congruence.
Qed.

(** A source added and an answer kept while the dataset is being set up, or later, stay. *)
Theorem C115_kept_partial : forall w w', wrun anybody published w -> wrun anybody w w' ->
  within (uSources (fst w)) (uSources (fst w')) /\ within (uCache (fst w)) (uCache (fst w')).
Proof. intros w w' R0 R. exact (wrun_keeps _ _ _ R (wrun_inv _ _ _ R0 published_inv)). Qed.

(** An insert finds the dataset before its creator has set it up and does it itself;
    meanwhile the creator waits, a source comes; then a search runs and its answer is
    kept. *)
Ltac mv i c := eapply wrun_cons; [eapply (w_at _ i); [reflexivity|eapply c; cbn; auto; try discriminate; try lia]|cbn].
Ltac come x := eapply wrun_cons; [apply (w_come _ _ _ x); try exact Logic.I; unfold no_report, no_close; try discriminate|cbn].

Example C115_instance : exists w, wrun no_report published w /\
  uSources (fst w) = Some [7] /\ uCache (fst w) = Some [3] /\ uInit (fst w) = true /\ uStarted (fst w) = 1%nat /\
  snd w = [Finished; Finished; Finished; TAlive; Finished].
Proof.
  eexists. split.
  { unfold published.
    come AskInsert. mv 1%nat a_insert_init. mv 1%nat a_lock. come (AskSource 7).
    mv 2%nat a_source_init. mv 1%nat a_begin. mv 1%nat a_sources. mv 1%nat a_cache. mv 1%nat a_alive. mv 1%nat a_go.
    mv 3%nat a_load. mv 1%nat a_mark. mv 1%nat a_unlock. mv 0%nat a_lock. mv 0%nat a_skip. mv 0%nat a_unlock.
    mv 2%nat a_lock. mv 2%nat a_skip. mv 2%nat a_unlock. mv 2%nat a_source_add.
    mv 1%nat a_spread. mv 3%nat a_add. come (AskSearch 3). mv 4%nat a_search_ready. mv 4%nat a_look_miss.
    mv 4%nat a_ask. mv 4%nat a_keep. apply wr_here. }
  cbn. repeat split.
Qed.

(** C116 A dataset that was closed stops working.

    After a dataset was closed (it was removed, it expired or the node ends) its
    background task comes to an end: no statistics are computed and nothing is sent
    to other nodes any more. *)

(** False for a dataset closed while it is being created: the creation brings it back
    to life, and its task goes on for ever although it is in no list any more and
    nobody will close it again. *)
Theorem C116_revived_refuted : exists u, wrun anybody published (u, [Finished; Finished; TAlive]) /\
  (exists u1, wrun anybody published (u1, [ILock ByCreate; LClose]) /\
     wrun no_close (u1, [ILock ByCreate; LClose]) (u, [Finished; Finished; TAlive])) /\
  forall w, wrun no_close (u, [Finished; Finished; TAlive]) w ->
    uAlive (fst w) = true /\
    exists p, nth_error (snd w) 2 = Some p /\ (p = TAlive \/ p = TProcess).
Proof.
  assert (G : exists u, uAlive u = true /\ uInit u = true /\
    wrun no_close (fresh_setup, [ILock ByCreate; LClose]) (u, [Finished; Finished; TAlive])).
  { eexists. split; [|split]; cycle 2.
    { mv 1%nat a_close. mv 1%nat a_close_end. mv 0%nat a_lock. mv 0%nat a_begin. mv 0%nat a_sources.
      mv 0%nat a_cache. mv 0%nat a_alive. mv 0%nat a_go. mv 0%nat a_mark. mv 0%nat a_unlock.
      mv 2%nat a_load. mv 2%nat a_add. apply wr_here. }
    all: reflexivity. }
  destruct G as (u & A & I & G).
  assert (P : wrun anybody published (fresh_setup, [ILock ByCreate; LClose])).
  { come AskClose. apply wr_here. }
  assert (G' : wrun anybody published (u, [Finished; Finished; TAlive])).
  { eapply wrun_trans; [exact P|]. eapply wrun_mono; [|exact G]. intros; exact Logic.I. }
  exists u. split; auto. split; [eauto|].
  intros w R. pose proof (wrun_inv _ _ _ G' published_inv) as V0.
  assert (Q : uAlive (fst w) = true /\ uInit (fst w) = true /\
    (forall p, In p (snd w) -> p <> LClose /\ p <> KCheck) /\
    exists p, nth_error (snd w) 2 = Some p /\ (p = TAlive \/ p = TProcess)).
  { clear G G' P. remember (u, [Finished; Finished; TAlive]) as w0 eqn:E0. induction R as [w|w1 w2 w3 R IH S].
    - subst. cbn. repeat split; auto; try (intro; subst; intuition discriminate); eauto.
    - subst. destruct (IH eq_refl V0) as (A2 & I2 & N2 & p2 & E2 & P2). clear IH.
      pose proof (wrun_inv _ _ _ R V0) as V.
      destruct S as [v ts a M|v a p b v' p' new T]; cbn [fst snd] in *.
      + split; auto. split; auto. split.
        * intros q H. apply in_app_or in H. destruct H as [H|[<-|[]]]; [apply (N2 _ H)|].
          destruct M. destruct a; cbn; split; congruence.
        * exists p2. split; auto. rewrite nth_error_app1; auto. apply nth_error_Some. congruence.
      + assert (PN : p <> LClose /\ p <> KCheck) by (apply N2; apply in_or_app; cbn; auto).
        destruct (act_alive _ _ _ _ _ _ _ V T I2) as [I3 _].
        assert (A3 : uAlive v' = true) by (destruct T; cbn in *; auto; destruct PN; congruence).
        split; auto. split; auto. split.
        * intros q H. apply in_mid in H. destruct H as [->|[H|H]].
          -- destruct T; try (split; discriminate); destruct PN; try congruence. destruct c; split; discriminate.
          -- apply N2, in_or_app; auto.
          -- apply in_app_or in H. destruct H as [H|H]; [apply N2, in_or_app; cbn; auto|].
             destruct T; cbn in H; try contradiction; destruct H as [<-|[]]; split; discriminate.
        * destruct (Nat.lt_ge_cases 2 (length a)) as [L|L].
          { exists p2. split; auto. rewrite nth_error_app1 in E2 |- *; auto. }
          rewrite nth_error_app2 in E2 |- *; auto. destruct (2 - length a)%nat as [|k].
          -- cbn in E2 |- *. injection E2 as ->. exists p'. split; auto.
             destruct P2 as [-> | ->]; inversion T; subst; auto; try congruence.
             exfalso. destruct (si_init _ _ V I2) as (X & _). unfold made in X. congruence.
          -- cbn in E2 |- *. exists p2. split; auto. rewrite nth_error_app1; auto. apply nth_error_Some. congruence. }
  tauto.
Qed.

(** A dataset that has been set up stays closed once it was closed, whatever comes:
    no task begins another statistics run; one that is about to look ends. *)
Theorem C116_stops_partial : forall u a b w,
  wrun anybody published (u, a ++ LClose :: b) -> uInit u = true ->
  act u LClose (set_alive false u) LTest [] /\
  (wrun anybody (set_alive false u, a ++ LTest :: b) w ->
   uAlive (fst w) = false /\
   none_begins (fun p => p = TProcess) (a ++ LClose :: b) (snd w) /\
   forall c p' d u' new, snd w = c ++ TAlive :: d -> act (fst w) TAlive u' p' new -> p' = TEnd).
Proof.
  intros u a b w R0 I. split; [constructor|]. intro R.
  pose proof (wrun_inv _ _ _ R0 published_inv) as V. cbn [fst snd] in V.
  pose proof (act_inv _ _ _ _ _ _ _ V (a_close u)) as V1. rewrite app_nil_r in V1.
  destruct (closed_stays _ _ _ R V1 I eq_refl) as (I2 & A2 & B). split; auto. split.
  - intros i x N E. destruct (B i x N E) as (y & Y & ->). exists TProcess. split; auto. cbn [snd] in Y.
    destruct (Nat.lt_ge_cases i (length a)) as [L|L].
    + rewrite nth_error_app1 in Y |- *; auto.
    + rewrite nth_error_app2 in Y |- *; auto. destruct (i - length a)%nat; [discriminate|exact Y].
  - intros c p' d u' new E T. inversion T; subst; congruence.
Qed.

Example C116_instance : exists u w, wrun anybody published (u, [Finished; TProcess] ++ LClose :: []) /\
  uInit u = true /\ uAlive u = true /\ wrun anybody (set_alive false u, [Finished; TProcess] ++ LTest :: []) w /\
  snd w = [Finished; Finished; Finished].
Proof.
  eexists. eexists. split; [|split; [|split; [|split]]].
  { unfold published. mv 0%nat a_lock. mv 0%nat a_begin. mv 0%nat a_sources.
    mv 0%nat a_cache. mv 0%nat a_alive. mv 0%nat a_go. mv 0%nat a_mark. mv 0%nat a_unlock.
    mv 1%nat a_load. mv 1%nat a_add. mv 1%nat a_loop. come AskClose. apply wr_here. }
  1-2: reflexivity.
  { cbn. mv 2%nat a_close_end. eapply wrun_cons; [eapply (w_at _ 1%nat); [reflexivity|apply a_process with (l := []) (n := true); reflexivity]|cbn]. mv 1%nat a_stop. mv 1%nat a_end. apply wr_here. }
  reflexivity.
Qed.

(** A task is under way: it looks whether it goes on, computes, or is ending. *)
Definition under_way (p : place) : Prop := p = TAlive \/ p = TProcess \/ p = TEnd.

(** C116 (partial).  Once the dataset is closed for good every task that is under way
    and not in the middle of a statistics run can end at once, without anything else
    having to happen, and each one that ends is no longer counted. *)
Theorem C116_ends_partial : forall u a b, uAlive u = false ->
  exists u', wrun (fun _ => False) (u, a ++ TAlive :: b) (u', a ++ Finished :: b) /\
    uRuns u' = (uRuns u - 1)%Z /\ uAlive u' = false.
Proof.
  intros u a b A. exists (set_runs (uRuns u - 1)%Z u). split; [|split; [reflexivity|exact A]].
  eapply wrun_cons; [apply w_act; apply a_stop; exact A|]. rewrite app_nil_r.
  eapply wrun_cons; [apply w_act; apply a_end|]. rewrite app_nil_r. apply wr_here.
Qed.

(** C64 (partial).  A task that looks while another one is under way goes away without
    doing anything; one that looks while none is under way goes on - also after earlier
    ones have ended. *)
Theorem C64_look_partial : forall u a b,
  wrun anybody published (u, a ++ TLoad :: b) -> ~ In Crashed (a ++ b) ->
  ((exists p, In p (a ++ b) /\ under_way p) ->
     act u TLoad u Finished [] /\
     forall u' p' new, act u TLoad u' p' new -> u' = u /\ p' = Finished /\ new = []) /\
  ((forall p, In p (a ++ b) -> ~ under_way p) ->
     exists u2, wrun (fun _ => False) (u, a ++ TLoad :: b) (u2, a ++ TAlive :: b) /\
     forall u' p' new, act u TLoad u' p' new -> u' = u /\ p' = TAdd /\ new = []).
Proof.
  intros u a b R C.
  assert (N : uRuns u = Z.of_nat (workers (a ++ b))).
  { pose proof (wrun_workers _ _ R) as E. cbn [fst snd] in E. rewrite E.
    - rewrite !workers_app, workers_cons. cbn. f_equal.
    - intro H. apply C. apply in_app_or in H. destruct H as [H|[H|H]]; [|discriminate H|];
        apply in_or_app; auto. }
  assert (W : forall p, under_way p <-> at_work p = true).
  { unfold under_way. intro p. destruct p; cbn; split; intro H; try discriminate; auto;
      destruct H as [H|[H|H]]; discriminate. }
  split.
  - intros (p & I & P). assert (L : (1 <= workers (a ++ b))%nat).
    { apply workers_some. exists p. split; [exact I|]. apply W. exact P. }
    split; [apply a_load_busy; lia|]. intros u' p' new T. inversion T; subst; auto. exfalso. lia.
  - intro F. assert (L : ~ (1 <= workers (a ++ b))%nat).
    { intro L. apply workers_some in L. destruct L as (p & I & P). apply (F p I). apply W. exact P. }
    eexists. split.
    + eapply wrun_cons; [apply w_act; apply a_load; lia|]. rewrite app_nil_r.
      eapply wrun_cons; [apply w_act; apply a_add|]. rewrite app_nil_r. apply wr_here.
    + intros u' p' new T. inversion T; subst; auto. exfalso. lia.
Qed.

(** The hypotheses are met by the second task of a dataset, once while the first one is
    under way and once after it was closed and ended. *)
Example C64_instance_look :
  (exists u, wrun anybody published (u, [Finished; TAlive; Finished; TLoad]) /\ uAlive u = true) /\
  (exists u, wrun anybody published (u, [Finished; Finished; Finished; Finished; TLoad]) /\ uAlive u = false).
Proof.
  split.
  - eexists. split.
    { unfold published. mv 0%nat a_lock. mv 0%nat a_begin. mv 0%nat a_sources.
      mv 0%nat a_cache. mv 0%nat a_alive. mv 0%nat a_go. mv 0%nat a_mark. mv 0%nat a_unlock.
      mv 1%nat a_load. mv 1%nat a_add. mv 1%nat a_loop.
      eapply wrun_cons; [eapply (w_at _ 1%nat); [reflexivity|apply a_process with (l := []) (n := true); reflexivity]|cbn].
      come AskCheck. eapply wrun_cons; [eapply (w_at _ 2%nat); [reflexivity|apply a_check_run; left; reflexivity]|cbn].
      apply wr_here. }
    reflexivity.
  - eexists. split.
    { unfold published. mv 0%nat a_lock. mv 0%nat a_begin. mv 0%nat a_sources.
      mv 0%nat a_cache. mv 0%nat a_alive. mv 0%nat a_go. mv 0%nat a_mark. mv 0%nat a_unlock.
      mv 1%nat a_load. mv 1%nat a_add. mv 1%nat a_loop.
      eapply wrun_cons; [eapply (w_at _ 1%nat); [reflexivity|apply a_process with (l := []) (n := true); reflexivity]|cbn].
      come AskClose. mv 2%nat a_close. mv 2%nat a_close_end. mv 1%nat a_stop. mv 1%nat a_end.
      come AskCheck. eapply wrun_cons; [eapply (w_at _ 3%nat); [reflexivity|apply a_check_run; left; reflexivity]|cbn].
      apply wr_here. }
    reflexivity.
Qed.

Print Assumptions C115_report_refuted.
Print Assumptions C115_safe_partial.
Print Assumptions C115_later_partial.
Print Assumptions C115_once_partial.
Print Assumptions C115_kept_partial.
Print Assumptions C116_revived_refuted.
Print Assumptions C116_stops_partial.
Print Assumptions C116_ends_partial.
Print Assumptions C64_look_partial.

(** C115 (partial).  What is kept was brought: a search that is answered from the cache
    repeats one with the same key that has been through, and a source that is known was
    added. *)
Theorem C115_brought_partial : forall may u a b q u' new,
  wrun may published (u, a ++ HLook q :: b) -> act u (HLook q) u' Finished new ->
  exists u0 a0 b0 l, wrun may published (u0, a0 ++ HKeep q :: b0) /\ uCache u0 = Some l /\
    wrun may (set_cache (Some (q :: l)) u0, a0 ++ Finished :: b0 ++ []) (u, a ++ HLook q :: b).
Proof.
  intros may u a b q u' new R A.
  assert (G : forall w, wrun may published w -> forall c, uCache (fst w) = Some c -> In q c ->
    exists u0 a0 b0 l, wrun may published (u0, a0 ++ HKeep q :: b0) /\ uCache u0 = Some l /\
      wrun may (set_cache (Some (q :: l)) u0, a0 ++ Finished :: b0 ++ []) w).
  { clear. intros w R. remember published as w0 eqn:E0. induction R as [w|w1 w2 w3 R IH S]; intros c C I; subst w1 || subst w.
    - discriminate C.
    - assert (D : (exists c', uCache (fst w2) = Some c' /\ In q c') \/
                  exists u0 a0 b0 l, w2 = (u0, a0 ++ HKeep q :: b0) /\ uCache u0 = Some l /\
                    w3 = (set_cache (Some (q :: l)) u0, a0 ++ Finished :: b0 ++ [])).
      { destruct S as [u ts x M|u a p b u' p' new A]; cbn [fst snd] in *; [left; eauto|].
        destruct A; cbn [uCache set_lock set_sources set_cache set_alive set_started set_init set_n set_runs] in C; try (left; eauto; fail).
        - injection C as <-. destruct I.
        - injection C as <-. destruct I as [->|I]; [|left; eauto]. right. exists u, a, b, l. auto. }
      destruct D as [(c' & C' & I')|(u0 & a0 & b0 & l & -> & L & ->)].
      + destruct (IH eq_refl c' C' I') as (u0 & a0 & b0 & l & R1 & L & R2). exists u0, a0, b0, l.
        split; [exact R1|]. split; [exact L|]. eapply wr_step; [exact R2|exact S].
      + exists u0, a0, b0, l. split; [exact R|]. split; [exact L|apply wr_here]. }
  inversion A; subst. match goal with H : uCache ?x = Some ?l, I : In q ?l |- _ => exact (G _ R l H I) end.
Qed.

Theorem C115_sources_partial : forall may w i l, wrun may published w -> uSources (fst w) = Some l -> In i l ->
  exists u0 a0 b0 l0, wrun may published (u0, a0 ++ ASource2 i :: b0) /\ uSources u0 = Some l0 /\ ~ In i l0 /\
    wrun may (set_sources (Some (i :: l0)) u0, a0 ++ Finished :: b0 ++ []) w.
Proof.
  intros may w i l R. revert l. remember published as w0 eqn:E0. induction R as [w|w1 w2 w3 R IH S]; intros c C I; subst w1 || subst w.
  - discriminate C.
  - assert (D : (exists c', uSources (fst w2) = Some c' /\ In i c') \/
                exists u0 a0 b0 l, w2 = (u0, a0 ++ ASource2 i :: b0) /\ uSources u0 = Some l /\ ~ In i l /\
                  w3 = (set_sources (Some (i :: l)) u0, a0 ++ Finished :: b0 ++ [])).
    { destruct S as [u ts x M|u a p b u' p' new A]; cbn [fst snd] in *; [left; eauto|].
      destruct A; cbn [uSources set_lock set_sources set_cache set_alive set_started set_init set_n set_runs] in C; try (left; eauto; fail).
      - injection C as <-. destruct I.
      - injection C as <-. destruct I as [->|I]; [|left; eauto]. right. exists u, a, b, l. auto. }
    destruct D as [(c' & C' & I')|(u0 & a0 & b0 & l & -> & L & N & ->)].
    + destruct (IH eq_refl c' C' I') as (u0 & a0 & b0 & l & R1 & L & N & R2). exists u0, a0, b0, l.
      split; [exact R1|]. split; [exact L|]. split; [exact N|]. eapply wr_step; [exact R2|exact S].
    + exists u0, a0, b0, l. split; [exact R|]. split; [exact L|]. split; [exact N|apply wr_here].
Qed.

(** Runs all of whose moments are as [I] says. *)
Inductive wpath (may : asking -> Prop) (I : setup -> Prop) : world -> world -> Prop :=
| wp_here : forall w, I (fst w) -> wpath may I w w
| wp_step : forall w1 w2 w3, wpath may I w1 w2 -> wstep may w2 w3 -> I (fst w3) -> wpath may I w1 w3.

(** C116 (partial).  As long as a dataset has no data, or no source to give them to, its
    closing computes and sends nothing: it ends at once. *)
Theorem C116_at_once_partial : forall may w,
  wpath may (fun u => uN u = false \/ uSources u = None \/ uSources u = Some []) published w ->
  ~ In LProcess (snd w).
Proof.
  intros may w R. assert (G : ~ In LProcess (snd w) /\ (uN (fst w) = false \/ uSources (fst w) = None \/ uSources (fst w) = Some [])); [|apply G].
  remember published as w0 eqn:E0. induction R as [w|w1 w2 w3 R IH S J]; subst.
  - split; [|assumption]. intros [E|[]]. discriminate E.
  - split; [|exact J]. destruct (IH eq_refl) as [H1 H2].
    destruct S as [u ts a M|u a p b u' p' new A]; cbn [fst snd] in *.
    + intro H. apply in_app_or in H. destruct H as [H|[H|[]]]; auto. destruct a; discriminate H.
    + intro H. apply in_mid in H. destruct H as [H|[H|H]].
      * subst p'. inversion A; subst; try (match goal with H : resume ?c = LProcess |- _ => destruct c; discriminate H end).
        destruct H2 as [H2|[H2|H2]]; congruence.
      * apply H1, in_or_app; auto.
      * apply in_app_or in H. destruct H as [H|H]; [apply H1, in_or_app; cbn; auto|].
        destruct A; cbn in H; try contradiction; destruct H as [H|[]]; discriminate H.
Qed.

(** A second search with the same key is answered from the cache; a dataset with data but
    without sources, and one without data but with a source, are being closed. *)
Example C115_instance_brought : exists u, wrun anybody published (u, [Finished; TLoad; Finished; Finished] ++ HLook 3 :: []) /\
  act u (HLook 3) u Finished [] /\ uSources u = Some [7].
Proof.
  eexists. split; [|split].
  { unfold published. mv 0%nat a_lock. mv 0%nat a_begin. mv 0%nat a_sources.
    mv 0%nat a_cache. mv 0%nat a_alive. mv 0%nat a_go. mv 0%nat a_mark. mv 0%nat a_unlock.
    come (AskSource 7). mv 2%nat a_source_ready. mv 2%nat a_source_add.
    come (AskSearch 3). mv 3%nat a_search_ready. mv 3%nat a_look_miss. mv 3%nat a_ask. mv 3%nat a_keep.
    come (AskSearch 3). mv 4%nat a_search_ready. apply wr_here. }
  - eapply a_look_hit; [reflexivity|cbn; auto].
  - reflexivity.
Qed.

Lemma wpath_cons : forall may (I : setup -> Prop) w1 w2 w3, I (fst w1) -> wstep may w1 w2 -> wpath may I w2 w3 -> wpath may I w1 w3.
Proof.
  intros may I w1 w2 w3 H S R. induction R as [w J|w2 w w3 R IH S' J].
  - eapply wp_step; [apply wp_here; exact H|exact S|exact J].
  - eapply wp_step; [apply IH, S|exact S'|exact J].
Qed.
Example C116_instance_at_once : exists u, uN u = true /\ uAlive u = false /\
  wpath anybody (fun u => uN u = false \/ uSources u = None \/ uSources u = Some []) published (u, [Finished; TAlive; LTest]).
Proof.
  eexists. split; [|split].
  3: { unfold published.
    Ltac pv i c := eapply wpath_cons; [cbn; tauto|eapply (w_at _ i); [reflexivity|eapply c; cbn; auto; try discriminate; try lia]|cbn].
    pv 0%nat a_lock. pv 0%nat a_begin. pv 0%nat a_sources.
    pv 0%nat a_cache. pv 0%nat a_alive. pv 0%nat a_go. pv 0%nat a_mark. pv 0%nat a_unlock.
    pv 1%nat a_load. pv 1%nat a_add. pv 1%nat a_loop.
    eapply wpath_cons; [cbn; tauto|eapply (w_at _ 1%nat); [reflexivity|apply a_process with (l := []) (n := true); reflexivity]|cbn].
    eapply wpath_cons; [cbn; tauto|apply (w_come _ _ _ AskClose); exact Logic.I|cbn].
    pv 2%nat a_close. apply wp_here. cbn. tauto. }
  all: reflexivity.
Qed.
Print Assumptions C115_brought_partial.
Print Assumptions C115_sources_partial.
Print Assumptions C116_at_once_partial.
