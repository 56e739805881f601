(** C139: exactly what a client of DataStream may receive. *)
From Verif.Base Require Import GoBase.
From Verif.Model Require Import Flow.
From Verif.Spec Require Import FlowSpec.
From Verif.Proof Require Import FlowP.
From Coq Require Import Permutation Lia.
Open Scope nat_scope.

(** [late l d]: [d] is [l] where again and again one element is overtaken by those
    behind it, and never two at a time; the last one that is overtaken may be missing. *)
Inductive late {X} : list X -> list X -> Prop :=
| late_none : late [] []
| late_one : forall x over l d, late l d -> late (x :: over ++ l) (over ++ x :: d)
| late_lost : forall x l, late (x :: l) l.

Section D.
Context {X : Type}.

(** The datum a goroutine is sending. *)
Definition in_hand (k : sender X) : list X := match k with SSending x => [x] | _ => [] end.

(** The invariant: while the dataset is read one goroutine sends, in order; afterwards
    what is in hand and in the channel decides what may still come. *)
Definition delivers (data : list X) (s : dstream X) : Prop :=
  match dHandler s with
  | HStream todo =>
      dOpen s = true /\ dBack s <> SEnd /\ length (dBuf s) <= 100 /\
      data = dSent s ++ in_hand (dBack s) ++ dBuf s ++ todo
  | HFlush h =>
      dOpen s = false /\
      exists a t d hs, data = a ++ t /\ length t <= 101 /\ dSent s = a ++ d /\
        Permutation hs (in_hand (dBack s) ++ in_hand h) /\
        (forall e, late (hs ++ dBuf s) e -> late t (d ++ e))
  | HReturned =>
      exists a t d, data = a ++ t /\ length t <= 101 /\ dSent s = a ++ d /\ late t d
  end.

Lemma two_cases : forall (hs : list X) x y, Permutation hs [x; y] -> hs = [x; y] \/ hs = [y; x].
Proof. intros. apply Permutation_length_2_inv. apply Permutation_sym. assumption. Qed.

Lemma one_case : forall (hs : list X) x, Permutation hs [x] -> hs = [x].
Proof. intros. apply Permutation_length_1_inv. apply Permutation_sym. assumption. Qed.

(** One of at most two data in hand is sent. *)
Lemma sent_one : forall (hs rest buf t d : list X) x, Permutation hs (x :: rest) -> length rest <= 1 ->
  (forall e, late (hs ++ buf) e -> late t (d ++ e)) ->
  exists hs', Permutation hs' rest /\ (forall e, late (hs' ++ buf) e -> late t ((d ++ [x]) ++ e)).
Proof.
  intros hs rest buf t d x P L C. exists rest. split; [apply Permutation_refl|].
  intros e R. rewrite <- app_assoc. apply C. cbn [app].
  destruct rest as [|y [|z rest]]; [| |cbn in L; lia].
  - apply one_case in P. subst hs. exact (late_one x [] buf e R).
  - apply two_cases in P. destruct P as [-> | ->]; cbn [app] in *.
    + exact (late_one x [] (y :: buf) e R).
    + inversion R as [|y' over l d' R' E1 E2|y' l E1 E2]; subst.
      * exact (late_one y (x :: over) l d' R').
      * exact (late_lost y (x :: e)).
Qed.

Lemma delivers_step : forall data s s', delivers data s -> ds_step s s' -> delivers data s'.
Proof.
  intros data s s' I St. unfold delivers in *. destruct St; cbn [dHandler dOpen dBack dBuf dSent] in *.
  - destruct I as (_ & E & L & D). split; [reflexivity|]. split; [exact E|].
    unfold chan_cap in *. rewrite app_length. cbn [length]. split; [lia|].
    rewrite D, <- !app_assoc. reflexivity.
  - destruct I as (_ & E & L & D). split; [reflexivity|].
    exists s, (in_hand k ++ b), [], (in_hand k). rewrite !app_nil_r in *.
    split; [exact D|]. split; [destruct k; cbn in *; lia|]. split; [reflexivity|].
    split; [apply Permutation_refl|]. intros e R. exact R.
  - destruct h as [todo|h|].
    + destruct I as (O & E & L & D). split; [exact O|]. split; [discriminate|].
      split; [cbn in L; lia|exact D].
    + destruct I as (O & a & t & d & hs & D & L & S & P & C). split; [exact O|].
      exists a, t, d, (hs ++ [x]). split; [exact D|]. split; [exact L|]. split; [exact S|].
      split; [|intros e R; apply C; rewrite <- app_assoc in R; exact R].
      cbn [in_hand app] in *. eapply Permutation_trans; [apply Permutation_app_comm|].
      cbn. constructor. exact P.
    + exact I.
  - destruct h as [todo|h|]; [| |congruence].
    + destruct I as (O & E & L & D). split; [exact O|]. split; [discriminate|]. split; [exact L|].
      rewrite D. cbn [in_hand app]. rewrite <- app_assoc. reflexivity.
    + destruct I as (O & a & t & d & hs & D & L & S & P & C). split; [exact O|].
      cbn [in_hand app] in *.
      assert (LL : length (in_hand h) <= 1) by (destruct h; cbn; lia).
      destruct (sent_one hs (in_hand h) b t d x P LL C) as (hs' & P' & C').
      exists a, t, (d ++ [x]), hs'. split; [exact D|]. split; [exact L|].
      split; [rewrite S, <- app_assoc; reflexivity|]. split; [exact P'|exact C'].
  - exact I.
  - destruct h as [todo|h|].
    + destruct I as (O & _). discriminate.
    + destruct I as (O & I). split; [exact O|exact I].
    + exact I.
  - destruct I as (O & a & t & d & hs & D & L & S & P & C). split; [exact O|].
    exists a, t, d, (hs ++ [x]). split; [exact D|]. split; [exact L|]. split; [exact S|].
    split; [|intros e R; apply C; rewrite <- app_assoc in R; exact R].
    cbn [in_hand] in *. rewrite app_nil_r in P. apply Permutation_app_tail. exact P.
  - destruct I as (O & a & t & d & hs & D & L & S & P & C). split; [exact O|].
    cbn [in_hand] in *.
    assert (P1 : Permutation hs (x :: in_hand k)).
    { eapply Permutation_trans; [exact P|]. apply (Permutation_app_comm (in_hand k) [x]). }
    assert (LL : length (in_hand k) <= 1) by (destruct k; cbn; lia).
    destruct (sent_one hs (in_hand k) b t d x P1 LL C) as (hs' & P' & C').
    exists a, t, (d ++ [x]), hs'. split; [exact D|]. split; [exact L|].
    split; [rewrite S, <- app_assoc; reflexivity|]. rewrite app_nil_r. split; [exact P'|exact C'].
  - destruct I as (_ & a & t & d & hs & D & L & S & P & C).
    exists a, t, d. split; [exact D|]. split; [exact L|]. split; [exact S|].
    rewrite <- (app_nil_r d). apply C. cbn [in_hand] in P. rewrite !app_nil_r in *.
    destruct k as [|x|]; cbn [in_hand] in P.
    + apply Permutation_sym, Permutation_nil in P. subst hs. constructor.
    + apply one_case in P. subst hs. apply late_lost.
    + apply Permutation_sym, Permutation_nil in P. subst hs. constructor.
Qed.

Lemma delivers_runs : forall data s s', ds_runs s s' -> delivers data s -> delivers data s'.
Proof. induction 1 as [|s1 s2 s3 St R IH]; auto. intro I. apply IH. eapply delivers_step; eauto. Qed.

Lemma ds_trans : forall a b c : dstream X, ds_runs a b -> ds_runs b c -> ds_runs a c.
Proof. induction 1 as [|s1 s2 s3 St R IH]; auto. intro Q. eapply dr_step; [exact St|auto]. Qed.

(** Data go through in order while the dataset is read. *)
Lemma in_order : forall (a t s : list X),
  ds_runs (mkDS [] true (HStream (a ++ t)) SIdle s) (mkDS [] true (HStream t) SIdle (s ++ a)).
Proof.
  induction a as [|x a IH]; intros t s; [rewrite app_nil_r; constructor|].
  cbn [app]. eapply dr_step; [apply d_push; cbn; unfold chan_cap; lia|]. cbn [app].
  eapply dr_step; [apply d_back_recv|]. eapply dr_step; [apply d_back_sent; discriminate|].
  specialize (IH t (s ++ [x])). rewrite <- app_assoc in IH. exact IH.
Qed.

Lemma fill : forall (r b : list X) k s, length b + length r <= 100 ->
  ds_runs (mkDS b true (HStream r) k s) (mkDS (b ++ r) false (HFlush SIdle) k s).
Proof.
  induction r as [|x r IH]; intros b k s L.
  - rewrite app_nil_r. eapply dr_step; [apply d_close|]. constructor.
  - cbn in L. eapply dr_step; [apply d_push; unfold chan_cap; lia|].
    specialize (IH (b ++ [x]) k s). rewrite <- app_assoc in IH. apply IH. rewrite app_length. cbn. lia.
Qed.

(** The handler sends what is in the channel. *)
Lemma flush : forall (u b : list X) k s,
  ds_runs (mkDS (u ++ b) false (HFlush SIdle) k s) (mkDS b false (HFlush SIdle) k (s ++ u)).
Proof.
  induction u as [|x u IH]; intros b k s; [rewrite app_nil_r; constructor|].
  cbn [app]. eapply dr_step; [apply d_flush_recv|]. eapply dr_step; [apply d_flush_sent|].
  specialize (IH b k (s ++ [x])). rewrite <- app_assoc in IH. exact IH.
Qed.

Lemma finish : forall (t d : list X), late t d -> forall s,
  exists k, ds_runs (mkDS t false (HFlush SIdle) SIdle s) (mkDS [] false HReturned k (s ++ d)).
Proof.
  induction 1 as [|x over l d R IH|x l]; intro s.
  - exists SIdle. rewrite app_nil_r. eapply dr_step; [apply d_return|]. constructor.
  - destruct (IH (s ++ over ++ [x])) as (k & Q). exists k.
    eapply dr_step; [apply d_back_recv|].
    eapply ds_trans; [apply flush|]. eapply dr_step; [apply d_back_sent; discriminate|].
    rewrite <- !app_assoc in *. exact Q.
  - exists (SSending x). eapply dr_step; [apply d_back_recv|].
    pose proof (flush l [] (SSending x) s) as F. rewrite app_nil_r in F.
    eapply ds_trans; [exact F|]. eapply dr_step; [apply d_return|]. constructor.
Qed.

(** The same with the first datum already in the hand of the other goroutine. *)
Lemma finish_held : forall x (l d : list X), late (x :: l) d -> forall s,
  exists k, ds_runs (mkDS l false (HFlush SIdle) (SSending x) s) (mkDS [] false HReturned k (s ++ d)).
Proof.
  intros x l d R s. inversion R as [|x' over l' d' R' E1 E2|x' l' E1 E2]; subst.
  - destruct (finish _ _ R' (s ++ over ++ [x])) as (k & Q). exists k.
    eapply ds_trans; [apply flush|]. eapply dr_step; [apply d_back_sent; discriminate|].
    rewrite <- !app_assoc in *. exact Q.
  - exists (SSending x). pose proof (flush d [] (SSending x) s) as F. rewrite app_nil_r in F.
    eapply ds_trans; [exact F|]. eapply dr_step; [apply d_return|]. constructor.
Qed.
End D.

(** C139 What a client has received when DataStream returns can be exactly this: the data
    in the order in which they were read, except that among the last 101 one datum at a
    time may be overtaken by those behind it, and the last datum that is overtaken may be
    missing. *)
Theorem C139_delivered : forall X (data got : list X),
  (exists s, ds_runs (ds_init data) s /\ dHandler s = HReturned /\ dSent s = got) <->
  exists front back d, data = front ++ back /\ length back <= 101 /\ late back d /\ got = front ++ d.
Proof.
  intros X data got. split.
  - intros (s & R & H & <-).
    assert (I : delivers data s).
    { apply (delivers_runs data _ _ R). unfold delivers, ds_init. cbn.
      split; [reflexivity|]. split; [discriminate|]. split; [lia|reflexivity]. }
    unfold delivers in I. rewrite H in I. destruct I as (a & t & d & D & L & S & Q).
    exists a, t, d. auto.
  - intros (a & t & d & -> & L & R & ->).
    assert (Q : exists k, ds_runs (mkDS [] true (HStream t) SIdle a) (mkDS [] false HReturned k (a ++ d))).
    { destruct t as [|x t].
      - destruct (finish _ _ R a) as (k & Q). exists k. eapply dr_step; [apply d_close|exact Q].
      - destruct (finish_held x t d R a) as (k & Q). exists k.
        eapply dr_step; [apply d_push; cbn; unfold chan_cap; lia|]. cbn [app].
        eapply dr_step; [apply d_back_recv|].
        eapply ds_trans; [apply (fill t []); cbn in *; lia|exact Q]. }
    destruct Q as (k & Q). exists (mkDS [] false HReturned k (a ++ d)). split; [|split; reflexivity].
    eapply ds_trans; [|exact Q]. exact (in_order a t []).
Qed.
Print Assumptions C139_delivered.

(** In particular a datum may be missing, with all others received in order, exactly if
    at most 100 data were read after it. *)
Theorem C139_missing : forall X (before after : list X) x, NoDup (before ++ x :: after) ->
  (exists s, ds_runs (ds_init (before ++ x :: after)) s /\ dHandler s = HReturned /\
    dSent s = before ++ after) <-> length after <= 100.
Proof.
  intros X before after x ND. rewrite C139_delivered. split.
  - intros (a & t & d & D & L & _ & E).
    assert (NI : ~ In x a).
    { intro I. apply (NoDup_remove_2 _ _ _ ND). rewrite E. apply in_or_app. auto. }
    assert (LE : length a <= length before).
    { destruct (le_lt_dec (length a) (length before)) as [Q|Q]; [exact Q|exfalso]. apply NI.
      assert (N : nth_error (a ++ t) (length before) = Some x).
      { rewrite <- D, nth_error_app2 by lia. rewrite Nat.sub_diag. reflexivity. }
      rewrite nth_error_app1 in N by exact Q. exact (nth_error_In _ _ N). }
    apply (f_equal (@length X)) in D. rewrite !app_length in D. cbn in D. lia.
  - intro L. exists before, (x :: after), after. split; [reflexivity|]. split; [cbn; lia|].
    split; [apply late_lost|reflexivity].
Qed.
Print Assumptions C139_missing.

(** Three data: they may arrive in order, with the first overtaken by one or both, with
    the second overtaken, or with one missing; never in the order 3, 2, 1 and never only
    one of them. *)
Example C139_instance :
  (forall got, In got [[1; 2; 3]; [2; 1; 3]; [2; 3; 1]; [1; 3; 2]; [2; 3]; [1; 3]; [1; 2]; [2; 1]] ->
     exists s, ds_runs (ds_init [1; 2; 3]) s /\ dHandler s = HReturned /\ dSent s = got) /\
  (forall got, got = [3; 2; 1] \/ got = [3; 1; 2] \/ length got <= 1 ->
     ~ exists s, ds_runs (ds_init [1; 2; 3]) s /\ dHandler s = HReturned /\ dSent s = got).
Proof.
  split.
  - intros got I. apply C139_delivered. exists [], [1; 2; 3], got.
    split; [reflexivity|]. split; [cbn; lia|]. split; [|reflexivity].
    cbn in I.
    destruct I as [<-|[<-|[<-|[<-|[<-|[<-|[<-|[<-|[]]]]]]]]].
    + apply (late_one 1 []), (late_one 2 []), (late_one 3 []), late_none.
    + apply (late_one 1 [2]), (late_one 3 []), late_none.
    + apply (late_one 1 [2; 3] []), late_none.
    + apply (late_one 1 []), (late_one 2 [3] []), late_none.
    + apply late_lost.
    + apply (late_one 1 []), late_lost.
    + apply (late_one 1 []), (late_one 2 []), late_lost.
    + apply (late_one 1 [2]), late_lost.
  - intros got W Q. apply C139_delivered in Q. destruct Q as (a & t & d & D & _ & R & ->).
    assert (G : forall X (l e : list X), late l e -> length l <= S (length e)).
    { induction 1; cbn in *; rewrite ?app_length in *; cbn in *; lia. }
    pose proof (G _ _ _ R) as G1. pose proof (f_equal (@length nat) D) as L3.
    rewrite app_length in L3. cbn in L3.
    destruct W as [W|[W|W]].
    + destruct a as [|a0 a]; [|cbn in D, W; congruence].
      cbn in D, W. subst t d. inversion R as [|x over l d R' E1 E2|]; subst x.
      destruct over as [|o over]; cbn in *; congruence.
    + destruct a as [|a0 a]; [|cbn in D, W; congruence].
      cbn in D, W. subst t d. inversion R as [|x over l d R' E1 E2|]; subst x.
      destruct over as [|o over]; cbn in *; congruence.
    + rewrite app_length in W. lia.
Qed.
