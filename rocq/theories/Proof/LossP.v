(** Queries of which messages are lost. *)
From Verif.Base Require Import GoBase GoLemmas Assoc Float GoSort.
From Verif.Model Require Import Codec Store QueryCache Flood Search CallTree Spread Lossy.
From Verif.Spec Require Import TopK TreeSpec ReachSpec LossSpec.
From Verif.Proof Require Import SpreadQ.
From Coq Require Import Lia.
Open Scope nat_scope.

Section P.
Context {D : Type}.
Variable undef : N.
Variable sources : N -> list N.

Lemma lossy_log : forall o s lost (s' : spread D), lossy_runs undef sources s lost s' -> log_ok o s -> log_ok o s'.
Proof.
  intros o s lost s' R. induction R as [s|s s1 lost s2 St R IH|seen r1 e r2 log lost s2 R IH]; intro L; auto.
  - apply IH. eapply log_step; eauto.
  - apply IH. destruct L as (later & E & P & Q). exists later. cbn [sLog sReqs] in *. split; [exact E|]. split; [exact P|].
    intros x X. apply Q. apply in_or_app. apply in_app_or in X. destruct X as [X|X]; [left; exact X|right; right; exact X].
Qed.

Lemma runs_lossy : forall s s' : spread D, spread_runs undef sources s s' -> lossy_runs undef sources s [] s'.
Proof. intros s s' R. induction R as [s|s s1 s2 St R IH]; [constructor|]. eapply lr_step; eauto. Qed.
Lemma lossy_app : forall s l s1 l' (s2 : spread D), lossy_runs undef sources s l s1 -> lossy_runs undef sources s1 l' s2 ->
  lossy_runs undef sources s (l ++ l') s2.
Proof.
  intros s l s1 l' s2 R R'. induction R as [s|s s1 lost s3 St R IH|seen r1 e r2 log lost s3 R IH]; auto.
  - eapply lr_step; eauto.
  - cbn [app]. constructor. auto.
Qed.

(** Whatever an execution asked for took place, is under way or was lost. *)
Definition accounted (acc : list (nat * request D)) (s : spread D) : Prop :=
  (forall n, In n (sSeen s) -> executed n (sLog s)) /\
  forall n, executed n (sLog s) -> exists i p T, nth_error (rev (sLog s)) i = Some (n, p) /\ asked sources n T /\
    forall m, In m T -> executed m (sLog s) \/ exists r, In (i, r) (sReqs s ++ acc) /\ rTo r = m.

Lemma sent_split : forall n t (d : D) i reqs, sent undef sources n t d i reqs ->
  exists T, asked sources n T /\ forall m, In m T -> exists r, In (i, r) reqs /\ rTo r = m.
Proof.
  intros n t d i reqs S. destruct S as [targets times A L F]. exists targets. split; [exact A|]. intros m M.
  clear A F. revert times L. induction targets as [|x l IH]; intros times L; [destruct M|].
  destruct times as [|y times]; [discriminate L|]. cbn [combine map fst snd]. destruct M as [->|M].
  - eexists. split; [left; reflexivity|reflexivity].
  - destruct (IH M times ltac:(cbn in L; lia)) as (r & R & E). exists r. split; [right; exact R|exact E].
Qed.

Lemma accounted_start : forall o d timeout given s, spread_start undef sources o d timeout given s -> accounted [] s.
Proof.
  intros o d timeout given s St. destruct St as [reqs S]. split; cbn [sSeen sLog sReqs].
  - intros n. destruct given; [intros [<-|[]]; left; reflexivity|intros []].
  - intros n [<-|[]]. destruct (sent_split _ _ _ _ _ S) as (T & A & B). exists 0, 0, T. split; [reflexivity|].
    split; [exact A|]. intros m M. right. destruct (B m M) as (r & R & E). exists r. split; [|exact E]. rewrite app_nil_r. exact R.
Qed.

Lemma accounted_step : forall acc s s', accounted acc s -> spread_step undef sources s s' -> accounted acc s'.
Proof.
  intros acc s s' [A B] St. destruct St as [seen r1 i r r2 log I|seen r1 i r r2 log reqs I S]; cbn [sSeen sReqs sLog] in *.
  - split; cbn [sSeen sReqs sLog]; [exact A|]. intros n N. destruct (B n N) as (j & p & T & X & Y & Z). exists j, p, T.
    split; [exact X|]. split; [exact Y|]. intros m M. destruct (Z m M) as [W|(q & W & E)]; [left; exact W|].
    rewrite <- app_assoc in W. apply in_app_or in W. destruct W as [W|[W|W]].
    + right. exists q. split; [rewrite <- app_assoc; apply in_or_app; left; exact W|exact E].
    + injection W as -> ->. left. subst m. apply A, I.
    + right. exists q. split; [rewrite <- app_assoc; apply in_or_app; right; exact W|exact E].
  - split; cbn [sSeen sReqs sLog].
    + intros n [<-|N]; [left; reflexivity|right; apply A, N].
    + intros n [E|N].
      * cbn [fst] in E. subst n. destruct (sent_split _ _ _ _ _ S) as (T & X & Y). exists (length log), i, T. split.
        { cbn [rev]. rewrite nth_error_app2 by (rewrite rev_length; lia). rewrite rev_length, Nat.sub_diag. reflexivity. }
        split; [exact X|]. intros m M. right. destruct (Y m M) as (q & Q & E). exists q. split; [|exact E].
        rewrite <- !app_assoc. apply in_or_app. right. apply in_or_app. right. apply in_or_app. left. exact Q.
      * destruct (B n N) as (j & p & T & X & Y & Z). exists j, p, T. split.
        { cbn [rev]. rewrite nth_error_app1; [exact X|]. apply nth_error_Some. rewrite X. discriminate. }
        split; [exact Y|]. intros m M. destruct (Z m M) as [W|(q & W & E)]; [left; right; exact W|].
        rewrite <- app_assoc in W. apply in_app_or in W. destruct W as [W|[W|W]].
        -- right. exists q. split; [rewrite <- !app_assoc; apply in_or_app; left; exact W|exact E].
        -- injection W as -> ->. left. left. exact E.
        -- right. exists q. split; [|exact E]. rewrite <- !app_assoc. apply in_or_app. right.
           apply in_app_or in W. apply in_or_app. destruct W as [W|W]; [left; exact W|right; apply in_or_app; right; exact W].
Qed.

Lemma accounted_runs : forall s lost s', lossy_runs undef sources s lost s' -> forall acc, accounted acc s -> accounted (acc ++ lost) s'.
Proof.
  intros s lost s' R. induction R as [s|s s1 lost s2 St R IH|seen r1 e r2 log lost s2 R IH]; intros acc A.
  - rewrite app_nil_r. exact A.
  - apply IH. eapply accounted_step; eauto.
  - replace (acc ++ e :: lost) with ((acc ++ [e]) ++ lost) by (rewrite <- app_assoc; reflexivity). apply IH.
    destruct A as [A B]. split; cbn [sSeen sReqs sLog] in *; [exact A|].
    intros n N. destruct (B n N) as (j & p & T & X & Y & Z). exists j, p, T. split; [exact X|]. split; [exact Y|].
    intros m M. destruct (Z m M) as [W|(q & W & E)]; [left; exact W|]. right. exists q. split; [|exact E].
    rewrite <- app_assoc in *. cbn [app] in W. apply in_app_or in W. apply in_or_app. destruct W as [W|[W|W]].
    + left. exact W.
    + right. apply in_or_app. right. apply in_or_app. right. left. exact W.
    + right. apply in_app_or in W. apply in_or_app. destruct W as [W|W]; [left; exact W|right; apply in_or_app; left; exact W].
Qed.
End P.

Section Cut.
Variables (store : N -> dbmap) (tick : N -> bytes -> Z) (order : N -> list (bytes * entry)).
Variables (ex : bytes -> bytes -> bool) (f : list float -> list float -> float) (config : SearchConfig) (q : Codec.DatumKey).
Variables (log : list (N * nat)) (lost : list nat).
Let found := fun n => candidates ex f config q (tick n) (store n).
Let all := reached ex f config q.
Let tree := cut_tree store tick order (tl log) lost.

Lemma cut_unfold : forall g i n, all (tree (S g) i n) =
  found n ++ flat_map all (map (fun c => tree g (fst c) (snd c))
    (filter (fun c => negb (existsb (Nat.eqb (fst c)) lost)) (children_of (tl log) 1 i))).
Proof. reflexivity. Qed.

Lemma cut_child : forall i j n, In (j, n) (filter (fun c => negb (existsb (Nat.eqb (fst c)) lost)) (children_of (tl log) 1 i)) <->
  exists k, j = S k /\ nth_error log j = Some (n, i) /\ ~ In j lost.
Proof.
  intros i j n. rewrite filter_In, children_of_in. cbn [fst].
  assert (X : negb (existsb (Nat.eqb j) lost) = true <-> ~ In j lost).
  { rewrite negb_true_iff. split.
    - intros E I. assert (existsb (Nat.eqb j) lost = true); [|congruence]. apply existsb_exists. exists j. split; [exact I|apply Nat.eqb_refl].
    - intro NI. destruct (existsb (Nat.eqb j) lost) eqn:E; [|reflexivity]. apply existsb_exists in E. destruct E as (x & I & E).
      apply Nat.eqb_eq in E. subst x. contradiction. }
  rewrite X. split.
  - intros [(k & E & ->) NI]. exists k. split; [lia|]. split; [|exact NI]. cbn [Nat.add].
    destruct log as [|y l]; cbn [tl] in E; [destruct k; discriminate E|exact E].
  - intros (k & -> & E & NI). split; [|exact NI]. exists k. split; [|lia].
    destruct log as [|y l]; [discriminate E|exact E].
Qed.

Lemma cut_within : forall g i n x, contributes log lost i n -> In x (all (tree g i n)) ->
  exists j m, contributes log lost j m /\ In x (found m).
Proof.
  induction g as [|g IH]; intros i n x C H.
  - cbn in H. rewrite app_nil_r in H. eauto.
  - rewrite cut_unfold in H. apply in_app_or in H as [H|H]; [eauto|].
    apply in_flat_map in H. destruct H as (t & T & H). apply in_map_iff in T. destruct T as ((j, m) & <- & T).
    cbn [fst snd] in H. apply cut_child in T. destruct T as (k & -> & E & NI). eapply IH; [|exact H].
    eapply contributes_child; eauto.
Qed.

Lemma cut_covers : forall o p0 fuel, nth_error log 0 = Some (o, p0) ->
  (forall k n p, nth_error log (S k) = Some (n, p) -> p <= k) -> length log <= fuel ->
  forall j n, contributes log lost j n -> exists g, fuel <= g + j /\ incl (all (tree g j n)) (all (tree fuel 0 o)).
Proof.
  intros o p0 fuel O P L j n C. induction C as [n p E|i n j m C IH E NI].
  - rewrite O in E. injection E as -> ->. exists fuel. split; [lia|apply incl_refl].
  - destruct IH as (g & G & I). pose proof (P _ _ _ E) as LE.
    assert (J : S j < length log) by (apply nth_error_Some; congruence).
    destruct g as [|g]; [lia|]. exists g. split; [lia|]. intros x X. apply I. rewrite cut_unfold. apply in_or_app. right.
    apply in_flat_map. exists (tree g (S j) m). split; [|exact X]. apply in_map_iff. exists (S j, m). split; [reflexivity|].
    apply cut_child. exists j. auto.
Qed.
End Cut.

Lemma log_facts : forall D o (s : spread D), log_ok o s ->
  nth_error (rev (sLog s)) 0 = Some (o, 0) /\ (forall k n p, nth_error (rev (sLog s)) (S k) = Some (n, p) -> p <= k).
Proof.
  intros D o s (later & E & P & _). rewrite E, rev_app_distr. cbn [rev app nth_error]. split; [reflexivity|].
  intros k n p H. apply nth_error_split in H. destruct H as (l1 & l2 & H & <-).
  apply (f_equal (@rev _)) in H. rewrite rev_involutive, rev_app_distr in H. cbn [rev] in H.
  rewrite <- app_assoc in H. apply P in H. rewrite rev_length in H. exact H.
Qed.

Lemma cut_reached : forall store tick order ex f config q lost D o (s : spread D), log_ok o s -> forall x,
  In x (reached ex f config q (cut_calls store tick order lost o s)) <->
  exists j n, contributes (rev (sLog s)) lost j n /\ In x (candidates ex f config q (tick n) (store n)).
Proof.
  intros store tick order ex f config q lost D o s L x. destruct (log_facts _ _ _ L) as [O P]. unfold cut_calls. split.
  - intro H. eapply cut_within; [|exact H]. eapply contributes_first; eauto.
  - intros (j & n & C & H).
    destruct (cut_covers store tick order ex f config q (rev (sLog s)) lost o 0 (length (sLog s)) O P
      ltac:(rewrite rev_length; lia) j n C) as (g & _ & I).
    apply I. destruct g; apply in_or_app; left; exact H.
Qed.

Lemma cut_wf : forall store tick order lost, (forall n, store_wf (store n)) -> (forall n, Permutation (order n) (store n)) ->
  forall D o (s : spread D), tree_wf (cut_calls store tick order lost o s).
Proof.
  intros store tick order lost W O D o s. unfold cut_calls. generalize (tl (rev (sLog s))), (length (sLog s)), 0%nat. intros rest fuel.
  revert o. induction fuel as [|fuel IH]; intros n i; cbn [cut_tree tree_wf]; split; auto; split; auto.
  induction (filter _ (children_of rest 1 i)) as [|c l IHl]; cbn [map]; auto.
Qed.
