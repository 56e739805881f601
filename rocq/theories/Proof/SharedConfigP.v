(** The shared configuration of the goroutines of a query. *)
From Verif.Base Require Import GoBase GoLemmas Assoc Float.
From Verif.Model Require Import Codec Store Data Vector Search Json QueryCache SharedConfig.
From Verif.Proof Require Import QueryCacheP.
From Coq Require Import Lia.
Open Scope N_scope.

Section S.
Variable undef : N.
Notation shrink := (ShrinkTimeout undef).
Notation left_after j t := (Nat.iter j shrink t).

Lemma shrink_zero : shrink 0 = 0.
Proof. vm_compute. reflexivity. Qed.

Lemma shrink_le : forall t, t < M64 -> shrink t <= t.
Proof.
  intros t H. destruct (N.eq_dec t 0) as [->|]; [rewrite shrink_zero; lia|].
  pose proof (shrink_timeout undef t). lia.
Qed.

Lemma left_le : forall j t, t < M64 -> left_after j t <= t.
Proof.
  induction j as [|j IH]; intros t H; cbn [Nat.iter]; [cbn; lia|].
  specialize (IH t H). change (Nat.iter (S j) shrink t) with (shrink (left_after j t)).
  pose proof (shrink_le (left_after j t)). unfold M64 in *. lia.
Qed.

Lemma left_mono : forall j k t, t < M64 -> (j <= k)%nat -> left_after k t <= left_after j t.
Proof.
  intros j k t H L. induction L as [|k L IH]; [lia|].
  change (Nat.iter (S k) shrink t) with (shrink (left_after k t)).
  pose proof (left_le k t H). pose proof (shrink_le (left_after k t)). unfold M64 in *. lia.
Qed.

Lemma left_reaches_zero : forall t, t < M64 -> left_after (N.to_nat t) t = 0.
Proof.
  assert (G : forall j t, t < M64 -> left_after j t <= t - N.of_nat j).
  { induction j as [|j IH]; intros t H; [cbn; lia|].
    change (Nat.iter (S j) shrink t) with (shrink (left_after j t)).
    specialize (IH t H). set (u := left_after j t) in *. destruct (N.eq_dec u 0) as [->|NZ].
    - rewrite shrink_zero. lia.
    - pose proof (shrink_timeout undef u). unfold M64 in *. lia. }
  intros t H. specialize (G (N.to_nat t) t H). lia.
Qed.

(** Only the timeout of the shared configuration changes. *)
Lemma with_timeout_same : forall c, with_timeout c (scTimeout c) = c.
Proof. intros []. reflexivity. Qed.
Lemma with_timeout_twice : forall c a b, with_timeout (with_timeout c a) b = with_timeout c b.
Proof. reflexivity. Qed.
Lemma with_timeout_timeout : forall c t, scTimeout (with_timeout c t) = t.
Proof. reflexivity. Qed.

Definition written (gs : list vgo) : nat := length (filter v_done gs).

Lemma written_le : forall gs, (written gs <= length gs)%nat.
Proof.
  induction gs as [|g gs IH]; unfold written in *; cbn [filter length]; [lia|].
  destruct (v_done g); cbn [length]; lia.
Qed.

Lemma written_app : forall a b, written (a ++ b) = (written a + written b)%nat.
Proof. intros. unfold written. rewrite filter_app, app_length. lia. Qed.

(** The invariant: the timeout has been shrunk at most once per finished
    goroutine, and everything read from it is an earlier value. *)
Definition v_good (c0 : SearchConfig) (w : nat) (g : vgo) : Prop :=
  (forall l, given_time g = Some l -> exists j, (j <= w)%nat /\ l = time_limit (left_after j (scTimeout c0))) /\
  (forall k, cache_key g = Some k -> exists j, (j <= w)%nat /\
     GetSearchKey (Some (v_datum g)) (with_timeout c0 (left_after j (scTimeout c0))) = Ok k) /\
  (forall d l k t, g = VRead d l k t -> exists j, (j <= w)%nat /\ t = left_after j (scTimeout c0)).

Definition others (gs1 gs2 : list vgo) : nat := (length gs1 + length gs2)%nat.

Definition vinv (c0 : SearchConfig) (s : SearchConfig * list vgo) : Prop :=
  (exists j, (j <= written (snd s))%nat /\ fst s = with_timeout c0 (left_after j (scTimeout c0))) /\
  forall gs1 g gs2, snd s = gs1 ++ g :: gs2 -> v_good c0 (written gs1 + written gs2) g.

Lemma v_good_more : forall c0 w w' g, (w <= w')%nat -> v_good c0 w g -> v_good c0 w' g.
Proof.
  intros c0 w w' g L (A & B & C). split; [|split].
  - intros l E. destruct (A l E) as (j & Lj & H). exists j. split; [lia|auto].
  - intros k E. destruct (B k E) as (j & Lj & H). exists j. split; [lia|auto].
  - intros d l k t E. destruct (C d l k t E) as (j & Lj & H). exists j. split; [lia|auto].
Qed.

Lemma vstep_datum : forall c g c' g', vstep undef c g c' g' -> v_datum g' = v_datum g.
Proof. intros c g c' g' H. destruct H; reflexivity. Qed.

Lemma vstep_inv : forall c0 c gs1 g gs2 c' g', vstep undef c g c' g' ->
  vinv c0 (c, gs1 ++ g :: gs2) -> vinv c0 (c', gs1 ++ g' :: gs2).
Proof.
  intros c0 c gs1 g gs2 c' g' St [(j & Lj & Ec) F]. cbn [fst snd] in *.
  assert (Fg := F gs1 g gs2 eq_refl). destruct Fg as (A & B & C).
  assert (ND : v_done g = false) by (destruct St; reflexivity).
  assert (Wg : written (gs1 ++ g :: gs2) = (written gs1 + written gs2)%nat).
  { rewrite written_app. unfold written at 2. cbn [filter]. rewrite ND. reflexivity. }
  rewrite Wg in Lj.
  assert (W' : (written (gs1 ++ g' :: gs2) >= written gs1 + written gs2)%nat).
  { rewrite written_app. unfold written at 2. cbn [filter]. destruct (v_done g'); cbn [length]; unfold written; lia. }
  split; cbn [fst snd].
  - destruct St; cbn [fst snd].
    + exists j. split; [lia|auto].
    + exists j. split; [lia|auto].
    + exists j. split; [lia|auto].
    + destruct (C d l k t eq_refl) as (i & Li & ->). exists (S i). split.
      * rewrite written_app. unfold written at 2. cbn [filter v_done length]. unfold written in *. lia.
      * rewrite Ec, with_timeout_twice. reflexivity.
  - intros a h b E.
    (* the moved goroutine, or another one *)
    assert (Split : (a = gs1 /\ h = g' /\ b = gs2) \/
              (exists m, gs1 = a ++ h :: m /\ b = m ++ g' :: gs2) \/
              (exists m, gs2 = m ++ h :: b /\ a = gs1 ++ g' :: m)).
    { clear -E. revert a E. induction gs1 as [|x gs1 IH]; intros a E.
      - destruct a as [|y a]; cbn in E; injection E as E1 E2; subst.
        + left. auto.
        + right. right. exists a. auto.
      - destruct a as [|y a]; cbn in E; injection E as E1 E2; subst.
        + right. left. exists gs1. auto.
        + destruct (IH a E2) as [(-> & -> & ->)|[(m & -> & ->)|(m & -> & ->)]].
          * left. auto.
          * right. left. exists m. auto.
          * right. right. exists m. auto. }
    destruct Split as [(-> & -> & ->)|[(m & -> & ->)|(m & -> & ->)]].
    + rewrite Ec in St. remember (with_timeout c0 (left_after j (scTimeout c0))) as cc eqn:Ecc.
      destruct St.
      * split; [|split]; cbn [given_time cache_key v_datum]; try discriminate.
        intros l E'. injection E' as <-. exists j. split; [lia|]. subst; first [reflexivity|assumption].
      * split; [|split]; cbn [given_time cache_key v_datum]; try discriminate.
        -- apply A.
        -- intros k' E'. injection E' as <-. exists j. split; [lia|]. subst; first [reflexivity|assumption].
      * split; [|split]; cbn [given_time cache_key v_datum]; auto.
        intros d' l' k' t' E'. injection E' as _ _ _ <-. exists j. split; [lia|]. subst; first [reflexivity|assumption].
      * split; [|split]; cbn [given_time cache_key v_datum]; auto. discriminate.
    + eapply v_good_more; [|apply (F a h (m ++ g :: gs2))].
      * rewrite !written_app. unfold written. cbn [filter]. rewrite ND. destruct (v_done g'); cbn [length]; lia.
      * rewrite <- app_assoc. reflexivity.
    + eapply v_good_more; [|apply (F (gs1 ++ g :: m) h b)].
      * rewrite !written_app. unfold written. cbn [filter]. rewrite ND. destruct (v_done g'); cbn [length]; lia.
      * rewrite <- app_assoc. reflexivity.
Qed.

Lemma vinv_start : forall c ds, vinv c (query_start c ds).
Proof.
  intros c ds. split; cbn [query_start fst snd].
  - exists 0%nat. split; [lia|]. cbn. symmetry. apply with_timeout_same.
  - intros gs1 g gs2 E. assert (Hg : In g (map VStart ds)) by (rewrite E; apply in_or_app; right; left; auto).
    apply in_map_iff in Hg. destruct Hg as (d & <- & _). split; [|split]; cbn; discriminate.
Qed.

Lemma vruns_inv : forall c0 s s', vruns undef s s' -> vinv c0 s -> vinv c0 s'.
Proof.
  intros c0 s s' R. induction R; auto. intro I. apply IHR. eapply vstep_inv; eauto.
Qed.

Lemma vruns_data : forall s s', vruns undef s s' -> map v_datum (snd s') = map v_datum (snd s).
Proof.
  intros s s' R. induction R as [|c gs1 g gs2 c' g' s St R IH]; auto. rewrite IH. cbn [snd].
  rewrite !map_app. cbn [map]. rewrite (vstep_datum _ _ _ _ St). reflexivity.
Qed.

Lemma vruns_trans : forall a b c, vruns undef a b -> vruns undef b c -> vruns undef a c.
Proof. intros a b c H. induction H; intro; auto. econstructor; eauto. Qed.

Lemma vruns_frame : forall s s', vruns undef s s' -> forall more,
  vruns undef (fst s, snd s ++ more) (fst s', snd s' ++ more).
Proof.
  intros s s' R more. induction R as [s|c gs1 g gs2 c' g' s St R IH]; [apply vr_refl|].
  cbn [fst snd] in *. rewrite <- app_assoc in *. cbn [app] in *. eapply vr_step; eauto.
Qed.

(** The goroutines may run one after the other. *)
Lemma one_goroutine : forall c d k gs1 gs2, GetSearchKey (Some d) c = Ok k ->
  vruns undef (c, gs1 ++ VStart d :: gs2)
    (with_timeout c (shrink (scTimeout c)), gs1 ++ VRuns d (time_limit (scTimeout c)) k :: gs2).
Proof.
  intros c d k gs1 gs2 E.
  eapply vr_step; [apply v_timed|]. eapply vr_step; [apply v_keyed; eauto|].
  eapply vr_step; [apply v_read|]. eapply vr_step; [apply v_write|]. apply vr_refl.
Qed.
End S.
