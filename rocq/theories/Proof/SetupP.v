(** Invariants of the creation of a dataset (Model/Setup.v). *)
From Verif.Base Require Import GoBase.
From Verif.Model Require Import Setup.
From Verif.Spec Require Import SetupSpec.

(** Inside the critical section. *)
Definition crit (p : place) : bool :=
  match p with
  | ITest _ | ISources _ | ICache _ | IAlive _ | IGo _ | IMark _ | IUnlock _ => true
  | _ => false
  end.
Fixpoint crits (ts : list place) : nat :=
  match ts with [] => O | p :: ts => (if crit p then 1 else 0) + crits ts end%nat.

Lemma crits_app : forall a b, crits (a ++ b) = (crits a + crits b)%nat.
Proof. induction a as [|p a IH]; intro b; cbn [crits app]; auto. rewrite IH. lia. Qed.
Lemma crits_zero : forall ts p, crits ts = O -> In p ts -> crit p = false.
Proof.
  induction ts as [|q ts IH]; cbn; intros p H J; [destruct J|].
  destruct (crit q) eqn:C; [lia|]. destruct J as [<-|J]; eauto.
Qed.

(** InitData has written something but not yet its mark. *)
Definition late (p : place) : bool :=
  match p with ICache _ | IAlive _ | IGo _ | IMark _ => true | _ => false end.

Definition made {A} (o : option A) : Prop := o <> None.

Definition known (u : setup) (p : place) : Prop :=
  match p with
  | ISources _ => uInit u = false
  | ICache _ => uInit u = false /\ made (uSources u) /\ uCache u = None /\ uStarted u = O
  | IAlive _ | IGo _ => uInit u = false /\ made (uSources u) /\ made (uCache u) /\ uStarted u = O
  | IMark _ => uInit u = false /\ made (uSources u) /\ made (uCache u) /\ uStarted u = 1%nat
  | IUnlock _ => uInit u = true
  | NSpread | LProcess | TLoad | TAdd | TAlive | TProcess | TEnd => made (uSources u)
  | HLook _ | HSources _ | HKeep _ => made (uCache u)
  | _ => True
  end.

Record sinv (u : setup) (ts : list place) : Prop := {
  si_crit : crits ts = if uLock u then 1%nat else O;
  si_known : forall p, In p ts -> known u p;
  si_cache : made (uCache u) -> made (uSources u);
  si_n : uN u = true -> made (uSources u);
  si_init : uInit u = true -> made (uSources u) /\ made (uCache u) /\ uStarted u = 1%nat;
  si_blank : uInit u = false -> (forall p, In p ts -> late p = false) ->
    uSources u = None /\ uCache u = None /\ uStarted u = O
}.

Lemma late_crit : forall p, crit p = false -> late p = false.
Proof. destruct p; cbn; congruence. Qed.

(** What others know about the fields only becomes truer when the goroutine outside
    of the critical section moves. *)
Record grows (u u' : setup) : Prop := {
  gr_s : made (uSources u) -> made (uSources u');
  gr_c : made (uCache u) -> made (uCache u');
}.

Lemma known_grows : forall u u' p, grows u u' -> crit p = false -> known u p -> known u' p.
Proof. intros u u' p [S C] K. destruct p; cbn in *; try discriminate; auto. Qed.

Lemma in_mid : forall (p q : place) a b, In q (a ++ p :: b) -> q = p \/ In q a \/ In q b.
Proof. intros p q a b H. apply in_app_or in H. destruct H as [H|[H|H]]; auto. Qed.

(** A step that does not enter, leave or move inside the critical section. *)
Lemma outside : forall u u' a p b p' new, sinv u (a ++ p :: b) ->
  grows u u' -> uLock u' = uLock u -> uInit u' = uInit u -> uStarted u' = uStarted u ->
  (uSources u = None -> uSources u' = None) -> (uCache u = None -> uCache u' = None) ->
  (uN u' = true -> made (uSources u')) ->
  crit p = false -> crit p' = false -> known u' p' ->
  (forall q, In q new -> crit q = false /\ known u' q) ->
  (made (uCache u') -> made (uSources u')) ->
  sinv u' (a ++ p' :: b ++ new).
Proof.
  intros u u' a p b p' new V G L I T BS BC N C C' K' W CS.
  assert (CN : crits new = O).
  { clear -W. induction new as [|q new IH]; cbn; auto. destruct (W q (or_introl eq_refl)) as [-> _].
    apply IH. intros r R. apply W. right; auto. }
  constructor; auto.
  - rewrite L, <- (si_crit _ _ V), !crits_app. cbn [crits]. rewrite !crits_app, C, C', CN. lia.
  - intros q H. apply in_mid in H. destruct H as [->|H]; auto.
    assert (M : known u q \/ (crit q = false /\ known u' q)).
    { destruct H as [H|H]; [left; apply (si_known _ _ V); apply in_or_app; auto|].
      apply in_app_or in H. destruct H as [H|H]; [left; apply (si_known _ _ V); apply in_or_app; cbn; auto|].
      right; auto. }
    destruct M as [M|[_ M]]; auto. destruct (crit q) eqn:CQ; [|eapply known_grows; eauto].
    destruct G as [GS GC]. destruct q; cbn in *; try discriminate; rewrite ?I, ?T; auto;
      repeat match goal with H : _ /\ _ |- _ => destruct H end; auto 6.
  - rewrite I, T. intro H. destruct (si_init _ _ V H) as (? & ? & ?). destruct G. auto.
  - rewrite I, T. intros H Q. destruct (si_blank _ _ V H) as (A1 & A2 & A3); auto.
    intros q J. apply in_mid in J. destruct J as [->|J]; [apply late_crit; auto|].
    apply Q. apply in_or_app. cbn. destruct J; auto. right; right. apply in_or_app; auto.
Qed.

(** A step inside the critical section: nobody else is inside. *)
Lemma inside_alone : forall u a p b, sinv u (a ++ p :: b) -> crit p = true ->
  uLock u = true /\ crits a = O /\ crits b = O.
Proof.
  intros u a p b V C. pose proof (si_crit _ _ V) as H. rewrite crits_app in H. cbn [crits] in H.
  rewrite C in H. destruct (uLock u); lia.
Qed.

Lemma inside : forall u u' a p b p' new, sinv u (a ++ p :: b) -> grows u u' -> crit p = true ->
  uLock u' = crit p' -> known u' p' -> (forall q, In q new -> crit q = false /\ known u' q) ->
  (made (uCache u') -> made (uSources u')) -> (uN u' = true -> made (uSources u')) ->
  (uInit u' = true -> made (uSources u') /\ made (uCache u') /\ uStarted u' = 1%nat) ->
  (uInit u' = false -> late p' = false -> uSources u' = None /\ uCache u' = None /\ uStarted u' = O) ->
  sinv u' (a ++ p' :: b ++ new).
Proof.
  intros u u' a p b p' new V G C L K W CS N I B.
  destruct (inside_alone _ _ _ _ V C) as (UL & CA & CB).
  assert (CN : crits new = O).
  { clear -W. induction new as [|q new IH]; cbn; auto. destruct (W q (or_introl eq_refl)) as [-> _].
    apply IH. intros r R. apply W. right; auto. }
  constructor; auto.
  - rewrite crits_app. cbn [crits]. rewrite crits_app, CA, CB, CN, L. destruct (crit p'); lia.
  - intros q H. apply in_mid in H. destruct H as [->|H]; auto.
    assert (M : (crit q = false /\ known u q) \/ known u' q).
    { destruct H as [H|H].
      - left. split; [apply (crits_zero _ _ CA H)|]. apply (si_known _ _ V). apply in_or_app; auto.
      - apply in_app_or in H. destruct H as [H|H]; [left|right; apply W; auto].
        split; [apply (crits_zero _ _ CB H)|]. apply (si_known _ _ V). apply in_or_app; cbn; auto. }
    destruct M as [[M1 M2]|M]; auto. eapply known_grows; eauto.
  - intros H Q. apply B; auto. apply Q. apply in_or_app. cbn; auto.
Qed.

Lemma grows_refl : forall u, grows u u.
Proof. intro u. split; auto. Qed.

Lemma enter : forall u a c b, sinv u (a ++ ILock c :: b) -> uLock u = false ->
  sinv (set_lock true u) (a ++ ITest c :: b ++ []).
Proof.
  intros u a c b V L. rewrite app_nil_r. pose proof (si_crit _ _ V) as H. rewrite L, crits_app in H. cbn in H.
  constructor; cbn; try apply V.
  - rewrite crits_app. cbn. lia.
  - intros q J. apply in_mid in J. destruct J as [->|J]; [exact Logic.I|].
    assert (M : known u q) by (apply (si_known _ _ V); apply in_or_app; cbn; destruct J; auto).
    clear -M. destruct q; exact M.
  - intros I Q. apply (si_blank _ _ V I). intros q J. apply in_mid in J. destruct J as [->|J]; auto.
    apply Q. apply in_or_app. cbn. destruct J; auto.
Qed.

Lemma act_inv : forall u a p b u' p' new, sinv u (a ++ p :: b) -> act u p u' p' new ->
  sinv u' (a ++ p' :: b ++ new).
Proof.
  intros u a p b u' p' new V A.
  assert (KN : known u p) by (apply (si_known _ _ V); apply in_or_app; cbn; auto).
  pose proof (si_cache _ _ V) as VC. pose proof (si_n _ _ V) as VN. pose proof (si_init _ _ V) as VI.
  destruct A; try (eapply enter; eassumption).
  all: try (eapply outside; [exact V|split; cbn; auto| | | | | | | | | | |]; cbn; unfold made in *; auto; try congruence;
    try (intros ? []; fail); fail).
  all: cbn [known] in KN.
  - (* already set up *)
    eapply inside; [exact V|split; cbn; auto| | | | | | | |]; cbn; auto; try (intros ? []; fail).
    + apply (inside_alone _ _ _ _ V eq_refl).
    + intros E. congruence.
  - (* begins *)
    eapply inside; [exact V|split; cbn; auto| | | | | | | |]; cbn; auto; try (intros ? []; fail).
    + apply (inside_alone _ _ _ _ V eq_refl).
    + intros _ _. apply (si_blank _ _ V H). intros q J. apply in_mid in J.
      destruct (inside_alone _ _ _ _ V eq_refl) as (_ & CA & CB).
      destruct J as [->|[J|J]]; auto; apply late_crit.
      * apply (crits_zero _ _ CA J).
      * apply (crits_zero _ _ CB J).
  - (* Sources *)
    assert (BL : uSources u = None /\ uCache u = None /\ uStarted u = O).
    { apply (si_blank _ _ V KN). intros q J. apply in_mid in J.
      destruct (inside_alone _ _ _ _ V eq_refl) as (_ & CA & CB).
      destruct J as [->|[J|J]]; auto; apply late_crit.
      - apply (crits_zero _ _ CA J).
      - apply (crits_zero _ _ CB J). }
    destruct BL as (BS & BC & BT). unfold made in *.
    eapply inside; [exact V|split; cbn; unfold made; auto; congruence| | | | | | | |]; cbn; unfold made; auto;
      try (intros ? []; fail); try congruence.
    + apply (inside_alone _ _ _ _ V eq_refl).
    + repeat split; auto. discriminate.
  - (* QueryCache *)
    destruct KN as (KI & KS & KC & KT).
    eapply inside; [exact V|split; cbn; unfold made in *; auto; congruence| | | | | | | |]; cbn; auto;
      try (intros ? []; fail); try congruence.
    + apply (inside_alone _ _ _ _ V eq_refl).
    + repeat split; auto. unfold made. discriminate.
  - (* Alive *)
    destruct KN as (KI & KS & KC & KT).
    eapply inside; [exact V|split; cbn; unfold made in *; auto; congruence| | | | | | | |]; cbn; auto;
      try (intros ? []; fail); try congruence.
    apply (inside_alone _ _ _ _ V eq_refl).
  - (* go *)
    destruct KN as (KI & KS & KC & KT).
    eapply inside; [exact V|split; cbn; unfold made in *; auto; congruence| | | | | | | |]; cbn; auto;
      try congruence.
    + apply (inside_alone _ _ _ _ V eq_refl).
    + intros q [<-|[]]. auto.
  - (* mark *)
    destruct KN as (KI & KS & KC & KT).
    eapply inside; [exact V|split; cbn; unfold made in *; auto; congruence| | | | | | | |]; cbn; auto;
      try (intros ? []; fail); try congruence.
    apply (inside_alone _ _ _ _ V eq_refl).
  - (* unlock *)
    destruct (VI KN) as (KS & KC & KT).
    eapply inside; [exact V|split; cbn; unfold made in *; auto; congruence| | | | | | | |]; cbn; auto;
      try (intros ? []; fail); try congruence; destruct c; cbn; auto.
  - destruct (VI H) as (KS & KC & KT).
    eapply outside; [exact V|split; cbn; auto| | | | | | | | | | |]; cbn; auto. intros ? [].
  - eapply outside; [exact V|split; cbn; auto| | | | | | | | | | |]; cbn; auto. intros q [<-|[]]. split; auto. cbn.
    destruct H as [H|(l & H & _)]; auto. unfold made. congruence.
Qed.

Lemma come_inv : forall u ts a, sinv u ts -> sinv u (ts ++ [entry a]).
Proof.
  intros u ts a V. constructor; try apply V.
  - rewrite crits_app, (si_crit _ _ V). destruct a; cbn; lia.
  - intros p H. apply in_app_or in H. destruct H as [H|[<-|[]]]; [apply V; auto|]. destruct a; cbn; auto.
  - intros I Q. apply (si_blank _ _ V I). intros p H. apply Q. apply in_or_app; auto.
Qed.

Lemma published_inv : sinv fresh_setup [ILock ByCreate].
Proof.
  constructor; cbn; auto; unfold made; try discriminate; try congruence.
  intros p [<-|[]]. cbn. auto.
Qed.

Lemma wrun_inv : forall may w w', wrun may w w' -> sinv (fst w) (snd w) -> sinv (fst w') (snd w').
Proof.
  intros may w w' R V. induction R as [|w1 w2 w3 R IH S]; auto. specialize (IH V).
  destruct S as [u ts a M|u a p b u' p' new A]; cbn [fst snd] in *; [apply come_inv; auto|].
  eapply act_inv; eauto.
Qed.

(** Nobody crashes except a report. *)
Lemma act_safe : forall u a p b u' p' new, sinv u (a ++ p :: b) -> act u p u' p' new ->
  p <> WReport -> p' <> Crashed /\ p' <> WReport /\ ~ In Crashed new /\ ~ In WReport new.
Proof.
  intros u a p b u' p' new V A W.
  assert (KN : known u p) by (apply (si_known _ _ V); apply in_or_app; cbn; auto).
  pose proof (si_cache _ _ V) as VC.
  destruct A; cbn [known In] in *; unfold made in *; try congruence;
    try (repeat split; try congruence; intuition congruence).
  destruct c; cbn [resume]; repeat split; try congruence; auto.
Qed.

(** Sources and answers are never thrown away. *)
Lemma act_keeps : forall u a p b u' p' new, sinv u (a ++ p :: b) -> act u p u' p' new ->
  within (uSources u) (uSources u') /\ within (uCache u) (uCache u').
Proof.
  intros u a p b u' p' new V A.
  assert (KN : known u p) by (apply (si_known _ _ V); apply in_or_app; cbn; auto).
  assert (BL : forall c, p = ISources c -> uSources u = None).
  { intros c ->. apply (si_blank _ _ V KN). intros q J. apply in_mid in J.
    destruct (inside_alone _ _ _ _ V eq_refl) as (_ & CA & CB).
    destruct J as [->|[J|J]]; auto; apply late_crit.
    - apply (crits_zero _ _ CA J).
    - apply (crits_zero _ _ CB J). }
  assert (SAME : forall A (o : option (list A)), within o o) by (intros ? ? l x E J; eauto).
  destruct A; cbn [uSources uCache set_sources set_cache set_alive set_init set_lock set_n set_runs set_started];
    try (split; apply SAME).
  - split; [|apply SAME]. intros l x E. rewrite (BL c eq_refl) in E. discriminate.
  - split; [apply SAME|]. cbn in KN. destruct KN as (_ & _ & KC & _). intros l x E. congruence.
  - split; [apply SAME|]. intros l' x E J. rewrite H in E. injection E as <-. exists (q :: l). cbn; auto.
  - split; [|apply SAME]. intros l' x E J. rewrite H in E. injection E as <-. exists (i :: l). cbn; auto.
Qed.

Lemma within_trans : forall A (x y z : option (list A)), within x y -> within y z -> within x z.
Proof. intros A x y z H G l v E J. destruct (H l v E J) as (l' & E' & J'). eauto. Qed.

Lemma wrun_keeps : forall may w w', wrun may w w' -> sinv (fst w) (snd w) ->
  within (uSources (fst w)) (uSources (fst w')) /\ within (uCache (fst w)) (uCache (fst w')).
Proof.
  intros may w w' R V. induction R as [|w1 w2 w3 R IH S].
  - split; intros l x E J; eauto.
  - destruct (IH V) as [H1 H2]. pose proof (wrun_inv _ _ _ R V) as V2.
    destruct S as [u ts a M|u a p b u' p' new A]; cbn [fst snd] in *; auto.
    destruct (act_keeps _ _ _ _ _ _ _ V2 A) as [G1 G2]. split; eapply within_trans; eauto.
Qed.

(** Once InitData is through, only Close writes Alive. *)
Lemma act_alive : forall u a p b u' p' new, sinv u (a ++ p :: b) -> act u p u' p' new ->
  uInit u = true -> uInit u' = true /\ (uAlive u = false -> uAlive u' = false).
Proof.
  intros u a p b u' p' new V A I.
  assert (KN : known u p) by (apply (si_known _ _ V); apply in_or_app; cbn; auto).
  destruct A; cbn in *; auto. destruct KN as (E & _). congruence.
Qed.

Lemma wrun_trans : forall may w1 w2 w3, wrun may w1 w2 -> wrun may w2 w3 -> wrun may w1 w3.
Proof.
  intros may w1 w2 w3 H R. induction R as [w|x y z R IH S]; auto.
  eapply wr_step; [apply IH; exact H|exact S].
Qed.
Lemma wrun_mono : forall (may may' : asking -> Prop) w w', (forall a, may a -> may' a) ->
  wrun may w w' -> wrun may' w w'.
Proof.
  intros may may' w w' H R. induction R; [constructor|]. eapply wr_step; [exact IHR|].
  destruct H0; [apply w_come; auto|apply w_act; auto].
Qed.
Lemma wrun_one : forall may w w', wstep may w w' -> wrun may w w'.
Proof. intros. eapply wr_step; [constructor|auto]. Qed.
Lemma classic_place : forall p, p = WReport \/ p <> WReport.
Proof. destruct p; auto; right; discriminate. Qed.

(** Runs step by step. *)
Lemma wrun_cons : forall may w1 w2 w3, wstep may w1 w2 -> wrun may w2 w3 -> wrun may w1 w3.
Proof. intros. eapply wrun_trans; [apply wrun_one; eassumption|assumption]. Qed.
Lemma w_at : forall may i u ts p u' p' new, nth_error ts i = Some p -> act u p u' p' new ->
  wstep may (u, ts) (u', firstn i ts ++ p' :: skipn (S i) ts ++ new).
Proof.
  intros may i u ts p u' p' new N A.
  assert (E : ts = firstn i ts ++ p :: skipn (S i) ts).
  { revert ts N. induction i as [|i IH]; intros [|q ts] N; cbn in N; try discriminate.
    - injection N as ->. reflexivity.
    - cbn. f_equal. apply IH. auto. }
  rewrite E at 1. apply w_act. exact A.
Qed.

(** Once InitData is through and the dataset is closed it stays closed, and no task
    begins another statistics run. *)
Lemma closed_stays : forall may w w', wrun may w w' -> sinv (fst w) (snd w) ->
  uInit (fst w) = true -> uAlive (fst w) = false ->
  uInit (fst w') = true /\ uAlive (fst w') = false /\
  none_begins (fun p => p = TProcess) (snd w) (snd w').
Proof.
  intros may w w' R V I A. induction R as [w|w1 w2 w3 R IH S].
  - repeat split; auto. intros i x N ->. eauto.
  - destruct (IH V I A) as (I2 & A2 & B). pose proof (wrun_inv _ _ _ R V) as V2. clear IH.
    destruct S as [u ts a M|u a p b u' p' new T]; cbn [fst snd] in *.
    + repeat split; auto. intros i x N ->. apply B with (x := TProcess); auto.
      destruct (Nat.lt_ge_cases i (length ts)) as [L|L]; [rewrite nth_error_app1 in N; auto|].
      rewrite nth_error_app2 in N; auto. destruct (i - length ts)%nat as [|k]; cbn in N.
      * injection N as N. destruct a; discriminate.
      * destruct k; discriminate.
    + destruct (act_alive _ _ _ _ _ _ _ V2 T I2) as [I3 A3]. repeat split; auto.
      intros i x N ->. apply B with (x := TProcess); auto.
      assert (NP : p' <> TProcess /\ forall k, nth_error new k <> Some TProcess).
      { destruct T; split; try discriminate; try congruence; try (intros [|[|]]; discriminate).
        destruct c; discriminate. }
      destruct NP as [NP NN].
      destruct (Nat.lt_ge_cases i (length a)) as [L|L].
      * rewrite nth_error_app1 in N |- *; auto.
      * rewrite nth_error_app2 in N |- *; auto. destruct (i - length a)%nat as [|k]; cbn in N |- *; [congruence|].
        destruct (Nat.lt_ge_cases k (length b)) as [L2|L2]; [rewrite nth_error_app1 in N; auto|].
        rewrite nth_error_app2 in N; auto. destruct (NN _ N).
Qed.

(** Runs counts the tasks between their add and their end. *)
Definition at_work (p : place) : bool :=
  match p with TAlive | TProcess | TEnd => true | _ => false end.
Definition workers (ts : list place) : nat := length (filter at_work ts).
Lemma workers_app : forall a b, workers (a ++ b) = (workers a + workers b)%nat.
Proof. intros. unfold workers. rewrite filter_app, app_length. reflexivity. Qed.
Lemma workers_cons : forall p b, workers (p :: b) = ((if at_work p then 1 else 0) + workers b)%nat.
Proof. intros. unfold workers. cbn. destruct (at_work p); reflexivity. Qed.
Lemma crashed_stays : forall may w w', wrun may w w' -> In Crashed (snd w) -> In Crashed (snd w').
Proof.
  intros may w w' R. induction R as [w|w1 w2 w3 R IH S]; auto. intro H. specialize (IH H). clear H.
  destruct S as [u ts a M|u a p b u' p' new T]; cbn [fst snd] in *.
  - apply in_or_app. auto.
  - apply in_app_or in IH. destruct IH as [H|[H|H]].
    + apply in_or_app. auto.
    + subst p. inversion T.
    + apply in_or_app. right. right. apply in_or_app. auto.
Qed.
Lemma wrun_workers : forall may w, wrun may published w -> ~ In Crashed (snd w) ->
  uRuns (fst w) = Z.of_nat (workers (snd w)).
Proof.
  intros may w R. remember published as w0 eqn:E0. induction R as [w|w1 w2 w3 R IH S]; subst.
  - reflexivity.
  - intro C. assert (C2 : ~ In Crashed (snd w2)).
    { intro H. apply C. eapply crashed_stays; [apply wrun_one; exact S|exact H]. }
    specialize (IH eq_refl C2). clear C2 R. destruct S as [u ts a M|u a p b u' p' new T]; cbn [fst snd] in *.
    + rewrite IH, workers_app. destruct a; cbn [entry]; rewrite workers_cons; cbn; f_equal; lia.
    + rewrite workers_app, workers_cons, workers_app. rewrite workers_app, workers_cons in IH.
      destruct T; cbn [at_work uRuns set_lock set_sources set_cache set_alive set_init set_n set_runs set_started] in *;
        change (workers []) with 0%nat; change (workers [TLoad]) with 0%nat;
        try (rewrite IH; clear; lia);
        try (exfalso; apply C; apply in_or_app; right; left; reflexivity).
      destruct c; cbn [resume at_work]; rewrite IH; clear; lia.
Qed.
Lemma workers_some : forall ts, (1 <= workers ts)%nat <-> exists p, In p ts /\ at_work p = true.
Proof.
  induction ts as [|p ts IH]; split.
  - cbn. lia.
  - intros (p & [] & _).
  - rewrite workers_cons. destruct (at_work p) eqn:W; intro H.
    + exists p. split; [left; reflexivity|exact W].
    + apply IH in H. destruct H as (q & I & Q). exists q. split; [right|]; auto.
  - intros (q & [->|I] & Q); rewrite workers_cons.
    + rewrite Q. lia.
    + assert ((1 <= workers ts)%nat) by (apply IH; eauto). lia.
Qed.
