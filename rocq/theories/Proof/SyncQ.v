(** Quotas, the utilization target and what gets streamed. *)
From Verif.Base Require Import GoBase GoLemmas Assoc Float.
From Verif.Model Require Import Codec Store Data Insert Vector Dataset Sync.
From Verif.Spec Require Import Wire StoreSpec InsertSpec SyncSpec.
From Verif.Proof Require Import CodecP CodecTop StoreP StoreQ InsertP DatasetP SyncP.
Open Scope N_scope.

(** ** The store along executions *)

Lemma mdelete_le : forall V (m : amap V) k, (length (mdelete m k) <= length m)%nat.
Proof.
  induction m as [|[k' v] m IH]; intro k; [auto|]. cbn [mdelete].
  specialize (IH k). destruct (bytes_eqb _ _); cbn [length]; lia.
Qed.

Lemma mdelete_length : forall V (m : amap V) k, mwf m ->
  (length m <= S (length (mdelete m k)))%nat.
Proof.
  intros V m k W. destruct (mload m k) as [v|] eqn:L.
  - rewrite (mdelete_length_in m k v W L). auto.
  - rewrite mdelete_notin by (apply mload_none; exact L). auto.
Qed.

Lemma mstore_length : forall V (m : amap V) k v, mwf m -> (length m <= length (mstore m k v))%nat.
Proof.
  intros V m k v W. unfold mstore. cbn [length]. apply mdelete_length. exact W.
Qed.

Lemma sender_store : forall undef dt r e dt' r', sender_step undef dt r e = Some (dt', r') ->
  dt' = dt \/ exists d c id ids k, rPc r = Acked d c id ids /\ e = SDecide /\ has_key d k /\
    dt' = set_map dt (mdelete (dDBMap dt) k).
Proof.
  intros undef dt r e dt' r' SS. unfold sender_step in SS.
  destruct e as [order| |ok|]; destruct (rPc r) as [|d c [|id ids]|d c id ids] eqn:PC; try discriminate SS.
  - destruct (rQueue r) as [|[d c] q]; [discriminate SS|]. injection SS as <- <-. auto.
  - injection SS as <- <-. auto.
  - destruct (serves dt r id); [discriminate SS|]. injection SS as <- <-. auto.
  - destruct (serves dt r id); [|discriminate SS]. injection SS as <- <-. auto.
  - destruct (negb (dAlive dt) || _).
    + destruct (DeleteBDMap (dDBMap dt) (Some d)) as [m| |] eqn:DB; try discriminate SS.
      injection SS as <- <-. destruct (delete_inv _ _ _ DB) as (k & HK & ->).
      right. exists d, c, id, ids, k. auto.
    + injection SS as <- <-. auto.
Qed.

Lemma step_wf : forall M undef s e s', sync_step M undef s e = Some s' -> mwf (store s) -> mwf (store s').
Proof.
  intros M undef s e s' H W. unfold store in *.
  destruct e as [P force|i e|now d c|d|l|]; cbn [sync_step] in H.
  - destruct (Process M P (yData s) force) as [[dt r]| |] eqn:PR; try discriminate H.
    destruct (process_spec _ _ _ _ _ _ PR) as (li & cf & limit & dm & _ & _ & _ & _ & _ & _ & C).
    assert (ST : yData s' = dt) by (destruct r; injection H as <-; reflexivity). rewrite ST.
    destruct C as [(_ & E1 & _)|(_ & E1 & _)]; rewrite E1; [apply wf_fold_delete|]; exact W.
  - destruct (nth_error (ySenders s) i) as [r|]; [|discriminate H].
    destruct (sender_step undef (yData s) r e) as [[dt r']|] eqn:SS; [|discriminate H].
    destruct (list_set (ySenders s) i r') as [l|]; [|discriminate H]. injection H as <-. cbn [yData].
    apply sender_store in SS. destruct SS as [->|(d & c & id & ids & k & _ & _ & _ & ->)]; [exact W|].
    apply mdelete_wf. exact W.
  - destruct (InsertLocal now (yData s) d c) as [[dt o]| |] eqn:IL; try discriminate H. injection H as <-.
    cbn [yData]. destruct (insert_shape _ _ _ _ _ _ IL) as [E|(d0 & k0 & _ & _ & E)]; rewrite E; auto.
    apply mstore_wf. exact W.
  - destruct (DeleteBDMap (dDBMap (yData s)) d) as [m| |] eqn:DB; try discriminate H. injection H as <-.
    unfold DeleteBDMap in DB. destruct (GetKeyAsBytes d) as [k0| |]; try discriminate DB. injection DB as <-.
    apply mdelete_wf. exact W.
  - injection H as <-. exact W.
  - injection H as <-. exact W.
Qed.

(** ** The utilization target *)

Lemma sub64_small : forall a b, b <= a -> a < M64 -> sub64 a b = a - b.
Proof.
  intros a b H H1. unfold sub64. unfold M64 in *.
  assert (E : b mod 18446744073709551616 = b) by (apply N.mod_small; lia). rewrite E.
  replace (a + (18446744073709551616 - b)) with ((a - b) + 1 * 18446744073709551616) by lia.
  rewrite N.mod_add by lia. apply N.mod_small. lia.
Qed.

(** Sender i and the clients that insert: nobody else removes. *)
Definition one_run (i : nat) (e : yev) : Prop :=
  match e with YSend j _ => j = i | YInsert _ _ _ | YSources _ => True | _ => False end.

Definition J47 (undef : N) (i : nat) (li : DataInfo) (cf : DataConfig) (m0 : dbmap) (s : sync) : Prop :=
  exists r, nth_error (ySenders s) i = Some r /\ rInfo r = li /\ rConf r = cf /\
    dAlive (yData s) = true /\ mwf (store s) /\
    (rDeleted r = 0 \/ (cNoTarget cf = false /\
       (1 <= lowerThreshold undef li cf -> lowerThreshold undef li cf + rDeleted r <= iN li + 1))) /\
    (1 <= lowerThreshold undef li cf -> blen m0 <= blen (store s) + rDeleted r) /\
    ((cNoTarget cf = true \/ 1 <= lowerThreshold undef li cf) -> rDeleted r = 0 ->
       forall k, mload m0 k <> None -> mload (store s) k <> None).

Lemma J47_step : forall M undef i li cf m0 s e s',
  iN li < M64 ->
  J47 undef i li cf m0 s -> one_run i e -> sync_step M undef s e = Some s' -> J47 undef i li cf m0 s'.
Proof.
  intros M undef i li cf m0 s e s' LN (r & N & RI & RC & AL & W & B1 & B2 & B3) OR H.
  pose proof (step_wf _ _ _ _ _ H W) as W'.
  destruct e as [P force|j e|now d c|d|l|]; try (destruct OR; fail); cbn [sync_step] in H.
  - cbn in OR. subst j. rewrite N in H.
    destruct (sender_step undef (yData s) r e) as [[dt r']|] eqn:SS; [|discriminate H].
    destruct (list_set (ySenders s) i r') as [l|] eqn:LS; [|discriminate H]. injection H as <-.
    exists r'. cbn [ySenders yData]. rewrite (nth_set _ _ _ _ _ i LS), Nat.eqb_refl.
    split; [reflexivity|]. unfold store in *. cbn [yData] in *.
    unfold sender_step in SS.
    destruct e as [order| |ok|]; destruct (rPc r) as [|d c [|id ids]|d c id ids] eqn:PC; try discriminate SS.
    + destruct (rQueue r) as [|[d c] q]; [discriminate SS|]. injection SS as <- <-. repeat split; auto.
    + injection SS as <- <-. repeat split; auto.
    + destruct (serves (yData s) r id); [discriminate SS|]. injection SS as <- <-. repeat split; auto.
    + destruct (serves (yData s) r id); [|discriminate SS]. injection SS as <- <-. repeat split; auto.
    + rewrite AL in SS. cbn [negb orb] in SS.
      destruct (isEvictionOn undef (rInfo r) (rConf r) (rDeleted r)) eqn:EV.
      * destruct (DeleteBDMap (dDBMap (yData s)) (Some d)) as [m| |] eqn:DB; try discriminate SS.
        injection SS as <- <-. destruct (delete_inv _ _ _ DB) as (k & HK & ->).
        cbn [set_map rInfo rConf rDeleted dAlive dDBMap] in *.
        split; [exact RI|]. split; [exact RC|]. split; [exact AL|]. split; [exact W'|].
        rewrite RI, RC in EV. unfold isEvictionOn in EV. apply andb_true_iff in EV. destruct EV as [NT LE].
        apply negb_true_iff in NT. apply N.leb_le in LE.
        assert (STEP : 1 <= lowerThreshold undef li cf ->
                  rDeleted r + 1 < M64 /\ lowerThreshold undef li cf + (rDeleted r + 1) <= iN li + 1).
        { intro T.
          assert (D : rDeleted r <= iN li) by (destruct B1 as [B1|[_ B1]]; [lia|specialize (B1 T); lia]).
          rewrite sub64_small in LE by auto. unfold M64 in *. lia. }
        assert (U : 1 <= lowerThreshold undef li cf -> u64 (rDeleted r + 1) = rDeleted r + 1).
        { intro T. destruct (STEP T). unfold u64. apply N.mod_small. auto. }
        split; [right; split; [exact NT|]; intro T; rewrite (U T); apply STEP; exact T|].
        split.
        { intro T. rewrite (U T). specialize (B2 T).
          pose proof (mdelete_length _ (dDBMap (yData s)) k W). unfold blen in *. lia. }
        { intros [X|T] Z; [congruence|]. rewrite (U T) in Z. lia. }
      * injection SS as <- <-. repeat split; auto.
  - destruct (InsertLocal now (yData s) d c) as [[dt o]| |] eqn:IL; try discriminate H. injection H as <-.
    exists r. cbn [ySenders yData]. unfold store in *. cbn [yData] in *.
    split; [exact N|]. split; [exact RI|]. split; [exact RC|]. split; [eapply insert_alive; eauto|].
    split; [exact W'|]. split; [exact B1|].
    destruct (insert_shape _ _ _ _ _ _ IL) as [E|(d0 & k0 & _ & HK & E)]; rewrite E.
    + split; auto.
    + split.
      * intro T. specialize (B2 T). pose proof (mstore_length _ (dDBMap (yData s)) k0 (mkEntry (expireAtOf now c) d0) W).
        unfold blen in *. lia.
      * intros T Z k L. rewrite mload_mstore. destruct (bytes_eqb k0 k); [discriminate|]. apply B3; auto.
  - injection H as <-. exists r. cbn [ySenders yData]. repeat split; auto.
Qed.

Lemma J47_run : forall M undef i li cf m0 es s s',
  iN li < M64 ->
  J47 undef i li cf m0 s -> Forall (one_run i) es -> sync_run M undef s es = Some s' ->
  J47 undef i li cf m0 s'.
Proof.
  induction es as [|e es IH]; intros s s' LN J F R; cbn in R.
  - injection R as <-. exact J.
  - destruct (sync_step M undef s e) as [s1|] eqn:E; [|discriminate R]. inversion F; subst.
    eapply IH; [exact LN| |eassumption|exact R]. eapply J47_step; eauto.
Qed.

(** ** Quotas *)

Lemma sources_visited : forall (A : Type) (f : A -> bytes -> A * option err) items limit s,
  (forall s id, snd (f s id) = None) ->
  RunOnRandomSources limit items f s =
  (fold_left (fun s id => fst (f s id)) (firstn (Z.to_nat (limit + 1)) items) s, None).
Proof.
  intros A f. induction items as [|id items IH]; intros limit s F.
  - rewrite firstn_nil. reflexivity.
  - cbn [RunOnRandomSources]. destruct (Z.ltb_spec limit 0).
    + replace (Z.to_nat (limit + 1)) with 0%nat by lia. reflexivity.
    + pose proof (F s id) as E. destruct (f s id) as [s' o] eqn:Fs. cbn in E. subst o.
      rewrite IH by auto. replace (Z.to_nat (limit + 1)) with (S (Z.to_nat (limit - 1 + 1))) by lia.
      cbn [firstn fold_left]. rewrite Fs. reflexivity.
Qed.

Lemma quota_bounds : forall M li i, iN li < M64 -> iN i < M64 ->
  quota M li i <= 1000 /\
  (iN i <= iN li -> quota M li i <= (iN li - iN i) / 2 + 1) /\
  (iN li < iN i -> quota M li i <= 1).
Proof.
  intros M li i A B. unfold quota. cbv zeta.
  set (cond := fleb _ _). set (fr := fltb _ _). clearbody cond fr.
  assert (X : iN i <= iN li -> u64 (sub64 (iN li) (iN i) / 2 + 1) = (iN li - iN i) / 2 + 1).
  { intro L. rewrite sub64_small by auto. unfold u64. apply N.mod_small. unfold M64 in *.
    pose proof (N.div_le_upper_bound (iN li - iN i) 2 9223372036854775807). lia. }
  destruct cond.
  - split; [destruct fr; lia|]. split; intros; destruct fr; lia.
  - destruct (N.ltb_spec (iN li) (iN i)).
    + split; [lia|]. split; intros; lia.
    + split; [lia|]. split; intro L; [|lia]. rewrite X by lia. lia.
Qed.

(** The accumulation of DataSourceDiffMap. *)
Definition diff_step (M : mathlib) (info : bytes -> option DataInfo) (li : DataInfo)
  (p : amap N * N) (id : bytes) : amap N * N :=
  match info id with
  | None => p
  | Some i => (mstore (fst p) id (quota M li i), u64 (snd p + quota M li i))
  end.

Lemma fold_ext : forall A B (f g : A -> B -> A), (forall a x, f a x = g a x) ->
  forall l a, fold_left f l a = fold_left g l a.
Proof.
  intros A B f g H. induction l as [|x l IH]; intro a; [reflexivity|]. cbn. rewrite H. apply IH.
Qed.

Lemma diffmap_fold : forall M items info li,
  DataSourceDiffMap M items info li = fold_left (diff_step M info li) (firstn 6 items) ([], 0).
Proof.
  intros. unfold DataSourceDiffMap. rewrite sources_visited.
  - cbn [fst]. change (Z.to_nat (5 + 1)) with 6%nat.
    apply fold_ext. intros [a b] id. unfold diff_step. destruct (info id); reflexivity.
  - intros [a b] id. destruct (info id); reflexivity.
Qed.

Lemma total_mstore_new : forall (m : amap N) k v, ~ In k (mkeys m) -> total (mstore m k v) = v + total m.
Proof. intros m k v H. unfold mstore. rewrite mdelete_notin by auto. reflexivity. Qed.

Lemma diff_fold_spec : forall M info li l dm sum dm' sum',
  iN li < M64 -> (forall id i, info id = Some i -> iN i < M64) ->
  fold_left (diff_step M info li) l (dm, sum) = (dm', sum') ->
  NoDup l -> (forall id, In id l -> ~ In id (mkeys dm)) ->
  mwf dm -> sum = total dm -> total dm + 1000 * blen l < M64 ->
  mwf dm' /\ sum' = total dm' /\ total dm' <= total dm + 1000 * blen l /\
  (length dm' <= length dm + length l)%nat /\
  (forall id q, mload dm' id = Some q -> mload dm id = Some q \/
     (In id l /\ exists i, info id = Some i /\ q = quota M li i)).
Proof.
  intros M info li. induction l as [|id l IH]; intros dm sum dm' sum' LN LI F ND NI W S0 B.
  - cbn in F. injection F as <- <-. cbn [blen length] in *. unfold blen. cbn.
    repeat split; auto; try lia.
  - cbn [fold_left] in F. inversion ND as [|? ? N1 N2]; subst.
    assert (BL : blen (id :: l) = 1 + blen l) by (unfold blen; cbn [length]; lia). rewrite BL in *.
    unfold diff_step in F at 2. destruct (info id) as [i|] eqn:I.
    + cbn [fst snd] in F.
      assert (NK : ~ In id (mkeys dm)) by (apply NI; left; reflexivity).
      destruct (quota_bounds M li i LN (LI _ _ I)) as (Q & _).
      pose proof (total_mstore_new dm id (quota M li i) NK) as TS.
      destruct (IH _ _ _ _ LN LI F) as (R1 & R2 & R3 & R4 & R5).
      * exact N2.
      * intros id' IN C. unfold mstore, mkeys in C. cbn [map fst] in C.
        destruct C as [C|C]; [subst id'; contradiction|].
        apply (NI id'); [right; exact IN|]. unfold mkeys. eapply mdelete_keys_incl. exact C.
      * apply mstore_wf. exact W.
      * rewrite TS. unfold u64. rewrite N.mod_small by lia. lia.
      * rewrite TS. lia.
      * split; [exact R1|]. split; [exact R2|]. split; [lia|]. split.
        { unfold mstore in R4. rewrite mdelete_notin in R4 by auto. cbn [length] in *. lia. }
        { intros id' q L. destruct (R5 id' q L) as [L1|(A & B')]; [|right; split; [right; exact A|exact B']].
          rewrite mload_mstore in L1. destruct (bytes_eqb id id') eqn:E; [|auto].
          apply bytes_eqb_spec in E. subst id'. injection L1 as <-. right.
          split; [left; reflexivity|]. eauto. }
    + destruct (IH _ _ _ _ LN LI F) as (R1 & R2 & R3 & R4 & R5).
      * exact N2.
      * intros id' IN. apply NI. right. exact IN.
      * exact W.
      * reflexivity.
      * lia.
      * split; [exact R1|]. split; [exact R2|]. split; [lia|]. split; [cbn [length]; lia|].
        intros id' q L. destruct (R5 id' q L) as [L1|(A & B')]; [auto|right; split; [right; exact A|exact B']].
Qed.

Lemma firstn_NoDup : forall A n (l : list A), NoDup l -> NoDup (firstn n l).
Proof.
  induction n as [|n IH]; intros [|x l] H; cbn; try constructor.
  - inversion H; subst. intro C. apply H2. rewrite <- (firstn_skipn n l). apply in_app_iff. auto.
  - inversion H; auto.
Qed.

Lemma firstn_In : forall A n (l : list A) x, In x (firstn n l) -> In x l.
Proof. intros A n l x H. rewrite <- (firstn_skipn n l). apply in_app_iff. auto. Qed.

Lemma diffmap_spec : forall M items info li dm sum,
  iN li < M64 -> (forall id i, info id = Some i -> iN i < M64) -> NoDup items ->
  DataSourceDiffMap M items info li = (dm, sum) ->
  mwf dm /\ sum = total dm /\ total dm <= 6000 /\ (length dm <= 6)%nat /\
  (forall id q, mload dm id = Some q ->
     In id items /\ exists i, info id = Some i /\ q = quota M li i).
Proof.
  intros M items info li dm sum LN LI ND H. rewrite diffmap_fold in H.
  assert (L6 : blen (firstn 6 items) <= 6).
  { unfold blen. pose proof (firstn_le_length 6 items). lia. }
  destruct (diff_fold_spec M info li (firstn 6 items) [] 0 dm sum LN LI H) as (A & B & C & D & E).
  - apply firstn_NoDup. exact ND.
  - intros id _ [].
  - constructor.
  - reflexivity.
  - cbn [total fold_right]. unfold M64. lia.
  - split; [exact A|]. split; [exact B|]. cbn [total fold_right length] in *. split; [lia|].
    split; [unfold blen in L6; lia|]. intros id q L. destruct (E id q L) as [X|(X & Y)]; [discriminate X|].
    split; [eapply firstn_In; eauto|exact Y].
Qed.

(** ** What is streamed *)

Definition scan_fold (M : mathlib) (E : senv) (l : list (bytes * entry)) (s : scan) : scan :=
  fold_left (fun s p => fst (scan_entry M E s (snd p))) l s.

Lemma scan_n : forall M E s e, sN (fst (scan_entry M E s e)) = u64 (sN s + 1).
Proof.
  intros. unfold scan_entry. cbv zeta.
  destruct (negb (eAlive E) || _); [destruct (10 <? _)|]; reflexivity.
Qed.

Lemma scan_fold_n : forall M E l s, sN s < M64 -> sN (scan_fold M E l s) = u64 (sN s + blen l).
Proof.
  intros M E. induction l as [|p l IH]; intros s H.
  - cbn. unfold blen. cbn. rewrite N.add_0_r. unfold u64. symmetry. apply N.mod_small. exact H.
  - unfold scan_fold in *. cbn [fold_left]. rewrite IH; rewrite scan_n.
    + unfold u64, blen, M64 in *. cbn [length]. rewrite N.add_mod_idemp_l by lia. f_equal. lia.
    + unfold u64. apply N.mod_lt. discriminate.
Qed.

Lemma scan_bounded : forall M E l s, eAlive E = true -> eLimit E < M64 ->
  sCounter s = blen (sOut s) -> sCounter s <= eLimit E ->
  let s' := scan_fold M E l s in sCounter s' = blen (sOut s') /\ sCounter s' <= eLimit E.
Proof.
  intros M E. induction l as [|p l IH]; intros s A L C B; [cbn; auto|].
  unfold scan_fold in *. cbn [fold_left]. apply IH; auto;
    unfold scan_entry; cbv zeta; rewrite A; cbn [negb orb];
    destruct ((sCounter s <? eLimit E) && _) eqn:X; auto;
    destruct (10 <? _); auto; cbn [fst sCounter sOut];
    apply andb_true_iff in X; destruct X as [X _]; apply N.ltb_lt in X;
    unfold u64; rewrite N.mod_small by lia; [|lia].
  unfold blen in *. rewrite app_length. cbn [length]. lia.
Qed.

(** ** Offers *)

Fixpoint times (id : bytes) (l : list bytes) : N :=
  match l with [] => 0 | x :: l' => (if bytes_eqb id x then 1 else 0) + times id l' end.

Lemma times_notin : forall id l, ~ In id l -> times id l = 0.
Proof.
  induction l as [|x l IH]; intro H; [reflexivity|]. cbn [times].
  destruct (bytes_eqb id x) eqn:E.
  - apply bytes_eqb_spec in E. subst. exfalso. apply H. left. reflexivity.
  - rewrite IH; [reflexivity|]. intro C. apply H. right. exact C.
Qed.

Lemma times_nodup : forall id l, NoDup l -> times id l <= 1.
Proof.
  induction l as [|x l IH]; intro H; [cbn; lia|]. inversion H; subst. cbn [times].
  destruct (bytes_eqb id x) eqn:E.
  - apply bytes_eqb_spec in E. subst. rewrite times_notin by auto. lia.
  - specialize (IH H3). lia.
Qed.

Definition left_of (id : bytes) (pc : spc) : N :=
  match pc with Idle => 0 | Visit _ _ ids => times id ids | Acked _ _ _ ids => times id ids end.

Definition J49 (s : sync) (t : list obs) : Prop :=
  dN (yData s) < M64 /\ dAlive (yData s) = true /\
  (forall i id, (length (ySenders s) <= i)%nat -> offers i id t = 0) /\
  (forall i r, nth_error (ySenders s) i = Some r ->
     mwf (rDiff r) /\ total (rDiff r) <= 6000 /\
     forall id, offers i id t + blen (rQueue r) + left_of id (rPc r) <= total (rDiff r)).

Definition ok49 (s : sync) (e : yev) : Prop := order_ok s e /\ env_ok e /\ not_close e.

Lemma offers_app : forall i id t t', offers i id (t ++ t') = offers i id t + offers i id t'.
Proof. intros. unfold offers. rewrite filter_app, blen_app. reflexivity. Qed.

Lemma insert_dN : forall now dt d c dt' e, InsertLocal now dt d c = Ok (dt', e) -> dN dt' = dN dt.
Proof.
  intros now dt d c dt' e H. unfold InsertLocal in H.
  destruct (match dConfig dt with Some c => _ | None => false end); [injection H as <- _; auto|].
  assert (A0 : dN (if dInitialized dt then dt else InitData dt) = dN dt)
    by (unfold InitData; destruct (dInitialized dt); reflexivity).
  destruct (InsertBDMap _ _ _ _) as [[m f]|e0|]; [| injection H as <- _; exact A0 | discriminate H].
  destruct f; injection H as <- _; exact A0.
Qed.

Lemma info_N : forall dt li, GetDataInfo dt = Ok li -> iN li = dN dt.
Proof.
  intros dt li H. unfold GetDataInfo in H. destruct (dConfig dt); [|discriminate H].
  injection H as <-. reflexivity.
Qed.

Lemma J49_step : forall M undef s t e s',
  J49 s t -> ok49 s e -> sync_step M undef s e = Some s' -> J49 s' (t ++ observe s e).
Proof.
  intros M undef s t e s' (LN & AL & FR & SD) (OO & EO & NC) H.
  destruct e as [P force|i e|now d c|d|l|]; cbn [sync_step] in H; try (exfalso; apply NC; reflexivity).
  - cbn [observe]. rewrite app_nil_r.
    destruct (Process M P (yData s) force) as [[dt r]| |] eqn:PR; try discriminate H.
    destruct (process_spec _ _ _ _ _ _ PR) as (li & cf & limit & dm & GI & _ & DM & _ & AL' & _ & C).
    pose proof (info_N _ _ GI) as IN. destruct EO as [ND LI].
    destruct (diffmap_spec M (pItems P) (pInfo P) li dm limit) as (D1 & D2 & D3 & _ & _); auto; [lia|].
    assert (DA : dAlive dt = true) by congruence.
    assert (DN : dN dt < M64).
    { destruct C as [(_ & C)|(_ & _ & _ & C)]; [|lia]. cbv zeta in C. destruct C as (_ & C & _).
      rewrite C. fold (scan_fold M (senv_of P (yData s) limit) (live_of (pTick P) (pOrder P)) scan0).
      rewrite scan_fold_n by reflexivity. unfold u64. apply N.mod_lt. discriminate. }
    destruct r as [r|]; injection H as <-; unfold J49; cbn [yData ySenders].
    + split; [exact DN|]. split; [exact DA|]. rewrite app_length. cbn [length].
      split; [intros; apply FR; lia|]. intros i r0 N0.
      destruct (Nat.lt_ge_cases i (length (ySenders s))) as [LT|GE].
      { rewrite nth_error_app1 in N0 by auto. apply (SD i). exact N0. }
      rewrite nth_error_app2 in N0 by auto.
      destruct (i - length (ySenders s))%nat as [|j]; [|destruct j; discriminate N0].
      cbn in N0. injection N0 as <-.
      destruct C as [(_ & C)|(_ & _ & C & _)]; [|discriminate C].
      cbv zeta in C. destruct C as (_ & _ & _ & _ & _ & C).
      destruct (0 <? dN (yData s)); [|discriminate C]. injection C as ->.
      cbn [rDiff rQueue rPc left_of]. split; [exact D1|]. split; [exact D3|].
      intro id. rewrite FR by exact GE.
      fold (scan_fold M (senv_of P (yData s) limit) (live_of (pTick P) (pOrder P)) scan0).
      destruct (scan_bounded M (senv_of P (yData s) limit) (live_of (pTick P) (pOrder P)) scan0) as [S1 S2].
      * exact AL.
      * cbn [senv_of eLimit]. unfold M64. lia.
      * reflexivity.
      * cbn. lia.
      * cbn [senv_of eLimit] in S2. rewrite <- S1. lia.
    + split; [exact DN|]. split; [exact DA|]. split; [exact FR|exact SD].
  - destruct (nth_error (ySenders s) i) as [r|] eqn:N; [|discriminate H].
    destruct (sender_step undef (yData s) r e) as [[dt r']|] eqn:SS; [|discriminate H].
    destruct (list_set (ySenders s) i r') as [l|] eqn:LS; [|discriminate H]. injection H as <-.
    assert (DT : dN dt = dN (yData s) /\ dAlive dt = dAlive (yData s)).
    { destruct (sender_store _ _ _ _ _ _ SS) as [->|(d & c & id & ids & k & _ & _ & _ & ->)]; auto. }
    destruct DT as [DT1 DT2].
    assert (LL : length l = length (ySenders s)).
    { clear - LS. revert i l LS. induction (ySenders s) as [|x xs IH]; intros [|i] l LS; try discriminate LS.
      - cbn in LS. injection LS as <-. reflexivity.
      - cbn in LS. destruct (list_set xs i r') eqn:E; [|discriminate LS]. injection LS as <-.
        cbn. f_equal. eapply IH; eauto. }
    assert (OB : forall j id, j <> i -> offers j id (observe s (YSend i e)) = 0).
    { intros j id NE. cbn [observe]. destruct e; try reflexivity. rewrite N.
      destruct (rPc r) as [|d c [|x ids]|]; try reflexivity. cbn [offers filter].
      unfold offers. cbn [filter]. destruct (Nat.eqb_spec j i); [congruence|]. reflexivity. }
    unfold J49. cbn [yData ySenders]. split; [lia|]. split; [congruence|]. rewrite LL. split.
    { intros j id G. rewrite offers_app, FR by exact G. rewrite OB; [reflexivity|].
      intro; subst. assert (nth_error (ySenders s) i = None) by (apply nth_error_None; exact G). congruence. }
    intros j r0 N0. rewrite (nth_set _ _ _ _ _ j LS) in N0. destruct (Nat.eqb_spec i j) as [<-|NE].
    2:{ destruct (SD j r0 N0) as (A & B & C). split; [exact A|]. split; [exact B|].
        intro id. rewrite offers_app, OB by auto. specialize (C id). lia. }
    injection N0 as <-. destruct (SD i r N) as (A & B & C).
    unfold sender_step in SS.
    destruct e as [order| |ok|]; destruct (rPc r) as [|d c [|id0 ids]|d c id0 ids] eqn:PC; try discriminate SS.
    + destruct (rQueue r) as [|[d c] q] eqn:QE; [discriminate SS|]. injection SS as <- <-.
      cbn [rDiff rQueue rPc left_of observe]. rewrite app_nil_r. split; [exact A|]. split; [exact B|].
      intro id. specialize (C id). cbn [left_of] in C.
      assert (T : times id order <= 1).
      { apply times_nodup. eapply Permutation_NoDup; [apply Permutation_sym; apply (OO r N)|exact A]. }
      unfold blen in *. cbn [length] in C. lia.
    + injection SS as <- <-. cbn [set_pc rDiff rQueue rPc left_of observe]. rewrite app_nil_r.
      split; [exact A|]. split; [exact B|]. intro id. specialize (C id). cbn in C. lia.
    + destruct (serves (yData s) r id0); [discriminate SS|]. injection SS as <- <-.
      cbn [set_pc rDiff rQueue rPc left_of observe]. rewrite app_nil_r. split; [exact A|]. split; [exact B|].
      intro id. specialize (C id). cbn [left_of times] in C. lia.
    + destruct (serves (yData s) r id0); [|discriminate SS]. injection SS as <- <-.
      cbn [set_pc rDiff rQueue rPc]. split; [exact A|]. split; [exact B|].
      intro id. specialize (C id). cbn [left_of times] in C. rewrite offers_app.
      assert (OF : offers i id (observe s (YSend i (SOffer ok))) = if bytes_eqb id id0 then 1 else 0).
      { cbn [observe]. rewrite N, PC. unfold offers. cbn [filter]. rewrite Nat.eqb_refl. cbn [andb].
        destruct (bytes_eqb id id0); reflexivity. }
      rewrite OF. destruct ok; cbn [left_of]; lia.
    + destruct (negb (dAlive (yData s)) || _).
      * destruct (DeleteBDMap (dDBMap (yData s)) (Some d)) as [m| |] eqn:DB; try discriminate SS.
        injection SS as <- <-. cbn [rDiff rQueue rPc left_of observe]. rewrite app_nil_r.
        split; [exact A|]. split; [exact B|]. intro id. specialize (C id). cbn [left_of] in C. exact C.
      * injection SS as <- <-. cbn [set_pc rDiff rQueue rPc left_of observe]. rewrite app_nil_r.
        split; [exact A|]. split; [exact B|]. intro id. specialize (C id). cbn [left_of] in C. exact C.
  - cbn [observe]. rewrite app_nil_r.
    destruct (InsertLocal now (yData s) d c) as [[dt o]| |] eqn:IL; try discriminate H. injection H as <-.
    unfold J49. cbn [yData ySenders]. rewrite (insert_dN _ _ _ _ _ _ IL). split; [exact LN|].
    split; [eapply insert_alive; eauto|]. split; [exact FR|exact SD].
  - cbn [observe]. rewrite app_nil_r.
    destruct (DeleteBDMap (dDBMap (yData s)) d) as [m| |] eqn:DB; try discriminate H. injection H as <-.
    split; [exact LN|]. split; [exact AL|]. split; [exact FR|exact SD].
  - cbn [observe]. rewrite app_nil_r. injection H as <-.
    split; [exact LN|]. split; [exact AL|]. split; [exact FR|exact SD].
Qed.

(** ** Removals per source *)

Definition counted (s : sync) (i : nat) (id : bytes) : N :=
  match nth_error (ySenders s) i with Some r => count_at (rCount r) id | None => 0 end.

Definition J49c (s : sync) : Prop :=
  mwf (store s) /\
  forall i r, nth_error (ySenders s) i = Some r ->
    (forall id, count_at (rCount r) id <= count_at (rDiff r) id) /\
    match rPc r with
    | Acked _ _ id _ => count_at (rCount r) id < count_at (rDiff r) id
    | _ => True
    end.

Lemma count_store : forall m id n id', count_at (mstore m id n) id' =
  if bytes_eqb id id' then n else count_at m id'.
Proof. intros. unfold count_at. rewrite mload_mstore. destruct (bytes_eqb id id'); reflexivity. Qed.

Lemma J49c_step : forall M undef s e s' i id,
  J49c s -> sync_step M undef s e = Some s' ->
  J49c s' /\
  (if mentions i e && serving s i id then N.of_nat (length (store s) - length (store s')) else 0)
  + counted s i id <= counted s' i id.
Proof.
  intros M undef s e s' i0 id (W & SD) H.
  pose proof (step_wf _ _ _ _ _ H W) as W'.
  destruct e as [P force|i e|now d c|d|l|]; cbn [sync_step] in H; cbn [mentions andb].
  - destruct (Process M P (yData s) force) as [[dt r]| |] eqn:PR; try discriminate H.
    destruct (process_spec _ _ _ _ _ _ PR) as (li & cf & limit & dm & _ & _ & _ & _ & _ & _ & C).
    destruct r as [r|]; injection H as <-; (split; [split; [exact W'|]|]); unfold counted; cbn [ySenders].
    + intros i r0 N0. destruct (Nat.lt_ge_cases i (length (ySenders s))) as [LT|GE].
      { rewrite nth_error_app1 in N0 by auto. apply (SD i). exact N0. }
      rewrite nth_error_app2 in N0 by auto.
      destruct (i - length (ySenders s))%nat as [|j]; [|destruct j; discriminate N0].
      cbn in N0. injection N0 as <-.
      destruct C as [(_ & C)|(_ & _ & C & _)]; [|discriminate C].
      cbv zeta in C. destruct C as (_ & _ & _ & _ & _ & C).
      destruct (0 <? dN (yData s)); [|discriminate C]. injection C as ->.
      cbn. split; [intro; lia|exact I].
    + destruct (nth_error (ySenders s) i0) as [r1|] eqn:N1.
      * rewrite nth_error_app1 by (apply nth_error_Some; congruence). rewrite N1. lia.
      * lia.
    + exact SD.
    + lia.
  - destruct (nth_error (ySenders s) i) as [r|] eqn:N; [|discriminate H].
    destruct (sender_step undef (yData s) r e) as [[dt r']|] eqn:SS; [|discriminate H].
    destruct (list_set (ySenders s) i r') as [l|] eqn:LS; [|discriminate H]. injection H as <-.
    destruct (SD i r N) as [A B].
    assert (KEY : ((forall id, count_at (rCount r') id <= count_at (rDiff r') id) /\
                   match rPc r' with
                   | Acked _ _ id _ => count_at (rCount r') id < count_at (rDiff r') id
                   | _ => True
                   end) /\
                  (if serving s i id then N.of_nat (length (store s) - length (dDBMap dt)) else 0)
                  + count_at (rCount r) id <= count_at (rCount r') id).
    { unfold serving. rewrite N. unfold sender_step in SS.
      destruct e as [order| |ok|]; destruct (rPc r) as [|d c [|id0 ids]|d c id0 ids] eqn:PC; try discriminate SS.
      - destruct (rQueue r) as [|[d c] q]; [discriminate SS|]. injection SS as <- <-. cbn. split; [auto|lia].
      - injection SS as <- <-. cbn. split; [auto|lia].
      - destruct (serves (yData s) r id0); [discriminate SS|]. injection SS as <- <-. cbn. split; [auto|lia].
      - destruct (serves (yData s) r id0) eqn:SV; [|discriminate SS]. injection SS as <- <-.
        unfold serves in SV. apply andb_true_iff in SV. destruct SV as [SV _]. apply N.ltb_lt in SV.
        destruct ok; cbn; (split; [split; [exact A|auto]|lia]).
      - destruct (negb (dAlive (yData s)) || _).
        + destruct (DeleteBDMap (dDBMap (yData s)) (Some d)) as [m| |] eqn:DB; try discriminate SS.
          injection SS as <- <-. destruct (delete_inv _ _ _ DB) as (k & HK & ->).
          cbn [rCount rDiff rPc set_map dDBMap]. split.
          * split; [|exact I]. intro id'. rewrite count_store.
            destruct (bytes_eqb id0 id') eqn:E; [|apply A]. apply bytes_eqb_spec in E. subst id'. lia.
          * rewrite count_store. pose proof (mdelete_length _ (dDBMap (yData s)) k W). unfold store.
            destruct (bytes_eqb id id0) eqn:E.
            -- apply bytes_eqb_spec in E. subst id0. rewrite bytes_eqb_refl. lia.
            -- destruct (bytes_eqb id0 id) eqn:E2; [|lia].
               apply bytes_eqb_spec in E2. subst. rewrite bytes_eqb_refl in E. discriminate E.
        + injection SS as <- <-. cbn [set_pc rCount rDiff rPc]. split; [split; [exact A|exact I]|].
          unfold store. rewrite Nat.sub_diag. destruct (bytes_eqb id id0); lia. }
    destruct KEY as [K1 K2]. split.
    + split; [exact W'|]. intros j r0 N0. cbn [ySenders] in N0. rewrite (nth_set _ _ _ _ _ j LS) in N0.
      destruct (Nat.eqb_spec i j) as [<-|NE]; [injection N0 as <-; exact K1|apply (SD j); exact N0].
    + unfold counted. cbn [ySenders]. rewrite (nth_set _ _ _ _ _ i0 LS). rewrite (Nat.eqb_sym i0 i).
      destruct (Nat.eqb_spec i i0) as [<-|NE].
      * cbn [andb]. rewrite N. unfold store at 2. cbn [yData]. exact K2.
      * cbn [andb]. lia.
  - destruct (InsertLocal now (yData s) d c) as [[dt o]| |] eqn:IL; try discriminate H. injection H as <-.
    split; [split; [exact W'|exact SD]|]. cbn. unfold counted. cbn. lia.
  - destruct (DeleteBDMap (dDBMap (yData s)) d) as [m| |] eqn:DB; try discriminate H. injection H as <-.
    split; [split; [exact W'|exact SD]|]. cbn. unfold counted. cbn. lia.
  - injection H as <-. split; [split; [exact W'|exact SD]|]. cbn. unfold counted. cbn. lia.
  - injection H as <-. split; [split; [exact W'|exact SD]|]. cbn. unfold counted. cbn. lia.
Qed.

Lemma removals_counted : forall M undef i id es s s',
  J49c s -> sync_run M undef s es = Some s' ->
  J49c s' /\ removals M undef i id s es + counted s i id <= counted s' i id.
Proof.
  intros M undef i id. induction es as [|e es IH]; intros s s' J R; cbn in R.
  - injection R as <-. split; [exact J|]. cbn. lia.
  - cbn [removals]. destruct (sync_step M undef s e) as [s1|] eqn:E; [|discriminate R].
    destruct (J49c_step M undef s e s1 i id J E) as [J1 B]. destruct (IH s1 s' J1 R) as [J2 B2].
    split; [exact J2|]. lia.
Qed.
