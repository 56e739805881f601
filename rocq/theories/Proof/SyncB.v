(** What one sender removes in any environment, and which data are streamed. *)
From Verif.Base Require Import GoBase GoLemmas Assoc Float.
From Verif.Model Require Import Codec Store Data Insert Vector Dataset Sync.
From Verif.Spec Require Import SyncSpec.
From Verif.Proof Require Import StoreP InsertP DatasetP SyncP SyncQ.
Open Scope N_scope.
Ltac Zify.zify_post_hook ::= Z.div_mod_to_equations.

Definition budget (undef : N) (r : sender) : Prop :=
  rDeleted r = 0 \/ (cNoTarget (rConf r) = false /\
    lowerThreshold undef (rInfo r) (rConf r) + rDeleted r <= iN (rInfo r) + 1).

Definition Jb (undef : N) (i : nat) (li : DataInfo) (cf : DataConfig) (s : sync) : Prop :=
  dAlive (yData s) = true /\ mwf (store s) /\
  exists r, nth_error (ySenders s) i = Some r /\ rInfo r = li /\ rConf r = cf /\ budget undef r.

Definition deleted_at (s : sync) (i : nat) : N :=
  match nth_error (ySenders s) i with Some r => rDeleted r | None => 0 end.

Lemma sender_same : forall undef dt r e dt' r', sender_step undef dt r e = Some (dt', r') ->
  rInfo r' = rInfo r /\ rConf r' = rConf r /\
  ((dt' = dt /\ rDeleted r' = rDeleted r) \/
   (exists k, dt' = set_map dt (mdelete (dDBMap dt) k) /\ rDeleted r' = u64 (rDeleted r + 1) /\
      (negb (dAlive dt) || isEvictionOn undef (rInfo r) (rConf r) (rDeleted r)) = true)).
Proof.
  intros undef dt r e dt' r' H. unfold sender_step in H.
  destruct e as [order| |ok|]; destruct (rPc r) as [|d c [|id ids]|d c id ids]; try discriminate H.
  - destruct (rQueue r) as [|[d c] q]; [discriminate H|]. injection H as <- <-. cbn. auto.
  - injection H as <- <-. cbn. auto.
  - destruct (serves dt r id); [discriminate H|]. injection H as <- <-. cbn. auto.
  - destruct (serves dt r id); [|discriminate H]. injection H as <- <-. cbn. auto.
  - destruct (negb (dAlive dt) || _) eqn:X.
    + destruct (DeleteBDMap (dDBMap dt) (Some d)) as [m| |] eqn:DB; try discriminate H. injection H as <- <-.
      destruct (delete_inv _ _ _ DB) as (k & _ & ->). cbn [rInfo rConf rDeleted].
      split; [auto|]. split; [auto|]. right. exists k. split; [reflexivity|]. split; [reflexivity|]. reflexivity.
    + injection H as <- <-. cbn. auto.
Qed.

Lemma Jb_step : forall M undef i li cf s e s', iN li < M64 -> 1 <= lowerThreshold undef li cf ->
  Jb undef i li cf s -> not_close e -> sync_step M undef s e = Some s' ->
  Jb undef i li cf s' /\
  (if mentions i e then N.of_nat (length (store s) - length (store s')) else 0)
  + deleted_at s i <= deleted_at s' i.
Proof.
  intros M undef i li cf s e s' SM1 SM2 (AL & W & ri & NI & EI & EC & B) NC H.
  assert (W' : mwf (store s')) by (eapply step_wf; eauto).
  assert (KEEP : dAlive (yData s') = true -> nth_error (ySenders s') i = nth_error (ySenders s) i ->
     mentions i e = false ->
     Jb undef i li cf s' /\
     (if mentions i e then N.of_nat (length (store s) - length (store s')) else 0)
     + deleted_at s i <= deleted_at s' i).
  { intros A E X. split.
    - split; [exact A|]. split; [exact W'|]. exists ri. rewrite E. auto.
    - rewrite X. unfold deleted_at. rewrite E. lia. }
  destruct e as [P force|j e|now d0 c0|d0|l|]; cbn [sync_step] in H.
  - destruct (Process M P (yData s) force) as [[dt r0]| |] eqn:PR; try discriminate H.
    destruct (process_spec _ _ _ _ _ _ PR) as (li0 & cf0 & limit & dm & _ & _ & _ & _ & EA & _ & _).
    destruct r0 as [r0|]; injection H as <-; apply KEEP; cbn [yData ySenders]; try reflexivity; try congruence.
    apply nth_error_app1. apply nth_error_Some. congruence.
  - destruct (nth_error (ySenders s) j) as [r|] eqn:N; [|discriminate H].
    destruct (sender_step undef (yData s) r e) as [[dt r']|] eqn:SS; [|discriminate H].
    destruct (list_set (ySenders s) j r') as [l|] eqn:LS; [|discriminate H]. injection H as <-.
    destruct (sender_same _ _ _ _ _ _ SS) as (E1 & E2 & E3).
    assert (AL' : dAlive dt = true) by (destruct E3 as [[-> _]|(k & -> & _)]; exact AL).
    destruct (Nat.eqb_spec i j) as [<-|NE].
    2:{ apply KEEP; cbn [yData ySenders mentions]; auto.
        - rewrite (nth_set _ _ _ _ _ i LS). destruct (Nat.eqb_spec j i); [congruence|reflexivity].
        - apply Nat.eqb_neq. auto. }
    rewrite NI in N. injection N as <-.
    assert (BR : budget undef r' /\ N.of_nat (length (dDBMap (yData s)) - length (dDBMap dt)) + rDeleted ri <= rDeleted r').
    { destruct E3 as [[-> E3]|(k & -> & E3 & X)].
      - split; [unfold budget; rewrite E1, E2, E3; exact B|lia].
      - rewrite AL in X. cbn [negb orb] in X. unfold isEvictionOn in X. apply andb_prop in X. destruct X as [X1 X2].
        apply N.leb_le in X2. destruct (cNoTarget (rConf ri)) eqn:NT; [discriminate X1|].
        rewrite EI, EC in *.
        assert (LE : rDeleted ri <= iN li).
        { destruct B as [Z0|[_ Z0]]; [|rewrite EI, EC in Z0]; lia. }
        rewrite sub64_small in X2 by auto.
        assert (U : u64 (rDeleted ri + 1) = rDeleted ri + 1) by (unfold u64; apply N.mod_small; lia).
        split.
        + unfold budget. rewrite E1, E2, E3, U. right. split; [exact NT|]. lia.
        + rewrite E3, U. cbn [set_map dDBMap]. pose proof (mdelete_length _ (dDBMap (yData s)) k W). lia. }
    destruct BR as [BR1 BR2]. split.
    + split; [exact AL'|]. split; [exact W'|]. exists r'. cbn [ySenders]. rewrite (nth_set _ _ _ _ _ i LS), Nat.eqb_refl.
      split; [reflexivity|]. split; [congruence|]. split; [congruence|exact BR1].
    + cbn [mentions]. rewrite Nat.eqb_refl. unfold deleted_at. cbn [ySenders].
      rewrite (nth_set _ _ _ _ _ i LS), Nat.eqb_refl, NI. exact BR2.
  - destruct (InsertLocal now (yData s) d0 c0) as [[dt o]| |] eqn:IL; try discriminate H. injection H as <-.
    apply KEEP; auto. cbn. eapply insert_alive; eauto.
  - destruct (DeleteBDMap (dDBMap (yData s)) d0); try discriminate H. injection H as <-. apply KEEP; auto.
  - injection H as <-. apply KEEP; auto.
  - contradiction NC. reflexivity.
Qed.

Lemma Jb_run : forall M undef i li cf es s s', iN li < M64 -> 1 <= lowerThreshold undef li cf ->
  Jb undef i li cf s -> Forall not_close es -> sync_run M undef s es = Some s' ->
  Jb undef i li cf s' /\ removed_by M undef i s es + deleted_at s i <= deleted_at s' i.
Proof.
  induction es as [|e es IH]; intros s s' A B J F R; cbn in R.
  - injection R as <-. cbn. split; [exact J|lia].
  - inversion_clear F. destruct (sync_step M undef s e) as [s1|] eqn:E; [|discriminate R].
    destruct (Jb_step _ _ _ _ _ _ _ _ A B J H E) as [J1 X].
    destruct (IH s1 s' A B J1 H0 R) as [J2 Y]. split; [exact J2|]. cbn [removed_by]. rewrite E. lia.
Qed.

(** Which data are streamed: every live entry with more than 10 seconds to live,
    if the draws and the limit allow it. *)
Lemma stream_all : forall M E (l : list (bytes * entry)) s,
  eAlive E = false \/ ((forall n, fltb (eRand E n) (eFraction E) = true) /\
     sCounter s + blen l <= eLimit E /\ eLimit E < M64) ->
  (forall d c, In (d, c) (sOut s) -> In (d, c) (sOut (scan_fold M E l s))) /\
  forall k e, In (k, e) l ->
    (forall n, 10 < TTL (InsertConfigFromExpireAt (eClock E n) (u64_of_i64 (exprireAt e)))) ->
    exists c, In (edatum e, c) (sOut (scan_fold M E l s)).
Proof.
  intros M E. induction l as [|[k0 e0] l IH]; intros s H; unfold scan_fold; cbn [fold_left].
  - split; [auto|intros ? ? []].
  - set (s1 := fst (scan_entry M E s (snd (k0, e0)))).
    assert (GO : (negb (eAlive E) || ((sCounter s <? eLimit E) && fltb (eRand E (u64 (sN s + 1))) (eFraction E))) = true).
    { destruct H as [->|(D & L & _)]; [reflexivity|]. rewrite D. unfold blen in L. cbn [length] in L.
      rewrite (proj2 (N.ltb_lt _ _)) by lia. destruct (eAlive E); reflexivity. }
    assert (H1 : (forall d c, In (d, c) (sOut s) -> In (d, c) (sOut s1)) /\
       ((forall n, 10 < TTL (InsertConfigFromExpireAt (eClock E n) (u64_of_i64 (exprireAt e0)))) ->
          exists c, In (edatum e0, c) (sOut s1)) /\ sCounter s1 <= sCounter s + 1).
    { unfold s1, scan_entry. cbn [snd]. rewrite GO.
      destruct (10 <? TTL _) eqn:T; cbn [fst sOut sCounter].
      - split; [intros; apply in_app_iff; auto|]. split.
        + intros _. eexists. apply in_app_iff. right. left. reflexivity.
        + unfold u64. pose proof (N.mod_le (sCounter s + 1) M64). unfold M64 in *. lia.
      - split; [auto|]. split; [|lia]. intro X. specialize (X (u64 (sN s + 1))). apply N.ltb_ge in T. lia. }
    destruct H1 as (K1 & K2 & K3).
    assert (H2 : eAlive E = false \/ ((forall n, fltb (eRand E n) (eFraction E) = true) /\
       sCounter s1 + blen l <= eLimit E /\ eLimit E < M64)).
    { destruct H as [H|(D & L & L2)]; [auto|right]. split; [exact D|]. split; [|exact L2]. unfold blen in *. cbn [length] in L. lia. }
    destruct (IH s1 H2) as [I1 I2]. unfold scan_fold in I1, I2. split.
    + intros d c IN. apply I1. apply K1. exact IN.
    + intros k e [IN|IN] X.
      * injection IN as <- <-. destruct (K2 X) as [c IN]. exists c. apply I1. exact IN.
      * eapply I2; eauto.
Qed.
