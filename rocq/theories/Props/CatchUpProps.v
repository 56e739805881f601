(** C173: exactly when a statistics run can bring a datum to a replica that lacks it. *)
From Verif.Base Require Import GoBase GoLemmas Assoc Float.
From Verif.Model Require Import Codec Store Data Insert Vector Search Dataset Sync Cluster.
From Verif.Spec Require Import StoreSpec VectorSpec SyncSpec SettleSpec ClusterSpec ReplicaSpec.
From Verif.Proof Require Import StoreP VectorP SyncP SyncQ SyncR ClusterP QuotaP ReplicaP.
From Verif.Props Require Import StoreProps SyncProps SettleProps AgreeProps ReplicaProps.
From Coq Require Import Lia.
Open Scope N_scope.

Lemma surplus_pos : forall n n', 1 <= surplus n n' <= 1000.
Proof. intros n n'. unfold surplus. destruct (n <? n'); lia. Qed.

Lemma quota_differs : forall M li i, iN li < 9007199254740991 -> iN i < 9223372036854775808 ->
  (quota M li i = 0 <-> ~ differs M li i).
Proof.
  intros M li i A B. rewrite quota_exact by assumption. unfold differs. pose proof (surplus_pos (iN li) (iN i)) as S1.
  destruct (alike M li i).
  - destruct (N.leb_spec (100 * surplus (iN li) (iN i)) (iN li)).
    + split; [intros _ X; specialize (X eq_refl); lia|reflexivity].
    + split; [discriminate|]. intro X. exfalso. apply X. intros _. assumption.
  - split; [|intro X; exfalso; apply X; discriminate]. destruct (iN li <? iN i); intro X; [discriminate X|lia].
Qed.

(** C173 (one half of it): if no report differs enough, the run offers nothing. *)
Theorem C173_quiet : forall M P dt dt' r force li,
  dAlive dt = true -> dN dt < 9007199254740991 -> NoDup (pItems P) -> GetDataInfo dt = Ok li ->
  (forall id i, pInfo P id = Some i -> iN i < 9223372036854775808 /\ ~ differs M li i) ->
  Process M P dt force = Ok (dt', Some r) -> rQueue r = [].
Proof.
  intros M P dt dt' r force li AL SM ND GI AG PR.
  destruct (process_spec _ _ _ _ _ _ PR) as (li' & cf & limit & dm & GI' & _ & DM & _ & _ & _ & C).
  rewrite GI in GI'. injection GI' as <-.
  assert (IN : iN li = dN dt) by (eapply info_N; eauto).
  destruct C as [(_ & C)|(_ & _ & C & _)]; [|discriminate C].
  cbv zeta in C. destruct C as (_ & _ & _ & _ & _ & ER).
  destruct (0 <? dN dt); [|discriminate ER]. injection ER as ->. cbn [rQueue].
  assert (INF' : forall id i, pInfo P id = Some i -> iN i < M64).
  { intros id0 i0 I0. destruct (AG _ _ I0) as (X & _). unfold M64. lia. }
  destruct (diffmap_spec M (pItems P) (pInfo P) li dm limit ltac:(rewrite IN; unfold M64; lia) INF' ND DM) as (W & S1 & _ & _ & S4).
  assert (Z0 : limit = 0).
  { rewrite S1. apply total_zero; [exact W|]. intros id q L. destruct (S4 id q L) as (_ & i & I & ->).
    destruct (AG _ _ I) as (A1 & A2). apply quota_differs; [rewrite IN; exact SM|exact A1|exact A2]. }
  clear S1 DM. subst limit.
  destruct (scan_bounded M (senv_of P dt 0) (live_of (pTick P) (pOrder P)) scan0) as [X1 X2].
  - exact AL.
  - cbn [senv_of eLimit]. unfold M64. lia.
  - reflexivity.
  - cbn. lia.
  - unfold scan_fold in *. cbn [senv_of eLimit] in X2. rewrite X1 in X2.
    destruct (sOut _) as [|x l]; [reflexivity|]. unfold blen in X2. cbn [length] in X2. lia.
Qed.
Print Assumptions C173_quiet.

(** What was put into the stream stays at its head. *)
Lemma out_head : forall M E (l : list (bytes * entry)) s x q, sOut s = x :: q ->
  exists q', sOut (fold_left (fun s p => fst (scan_entry M E s (snd p))) l s) = x :: q'.
Proof.
  intros M E. induction l as [|[k e] l IH]; intros s x q H; [exists q; exact H|]. cbn [fold_left snd].
  assert (X : exists q', sOut (fst (scan_entry M E s e)) = x :: q').
  { unfold scan_entry. cbv zeta. destruct (negb (eAlive E) || _); [destruct (10 <? _)|]; cbn [fst sOut]; rewrite H; cbn [app]; eauto. }
  destruct X as (q' & X). eapply IH. exact X.
Qed.

Lemma diff_others : forall M info li l p, (forall id, In id l -> info id = None) -> fold_left (diff_step M info li) l p = p.
Proof.
  intros M info li. induction l as [|id l IH]; intros p H; [reflexivity|]. cbn [fold_left]. unfold diff_step at 2.
  rewrite (H id) by (left; reflexivity). apply IH. intros id' IN. apply H. right. exact IN.
Qed.

Lemma remaining : forall now e, (Z.of_N now + 10 < exprireAt e < 9223372036854775808)%Z ->
  TTL (InsertConfigFromExpireAt now (u64_of_i64 (exprireAt e))) = Z.to_N (exprireAt e) - now.
Proof.
  intros now e H. unfold InsertConfigFromExpireAt. cbn [TTL].
  assert (U : u64_of_i64 (exprireAt e) = Z.to_N (exprireAt e)).
  { unfold u64_of_i64. rewrite Z.mod_small; [reflexivity|]. unfold Z.of_N, M64; lia. }
  rewrite U. destruct (N.ltb_spec 0 (Z.to_N (exprireAt e))); [|lia]. apply sub64_small; [lia|]. unfold M64. lia.
Qed.

(** The other half: if the report of one source differs enough, then any datum that it
    lacks and that has more than ten seconds to live can be brought to it by the next run,
    with its expiry. *)
Theorem C173_brought_partial : forall M undef resolve w i t id src k e now li info c,
  mwf (store (w i)) -> keyed (store (w i)) -> dAlive (yData (w i)) = true -> 0 < dN (yData (w i)) < 9007199254740991 ->
  dSources (yData (w i)) = Some src -> NoDup src -> In id src -> resolve id = Some t -> t <> i ->
  GetDataInfo (yData (w i)) = Ok li -> GetDataInfo (yData (w t)) = Ok info -> iN info < 9223372036854775808 -> differs M li info ->
  (forall k' e', In (k', e') (store (w i)) -> expired (Z.of_N now) e' = false) ->
  mload (store (w i)) k = Some e -> (Z.of_N now + 10 < exprireAt e < 9223372036854775808)%Z ->
  mload (store (w t)) k = None -> dConfig (yData (w t)) = Some c -> cNoTarget c = true ->
  exists P w', Permutation (pItems P) src /\
    let es := [CLocal i (YProcess P true); CLocal i (YSend (length (ySenders (w i))) (STake [id])); COffer i (length (ySenders (w i))) (Z.of_N now) Deliver] in
    always M undef resolve (left_alone resolve) w es /\ cluster_run M undef resolve w es = Some w' /\
    mload (store (w' t)) k = Some e.
Proof.
  intros M undef resolve w i t id src k e now li info c W KY AL DN SRC ND IN RT NE GI GT BI DF EX LK LT NK CT NT.
  destruct (in_split _ _ (mload_in _ _ _ LK)) as (l1 & l2 & SP).
  set (items := id :: filter (fun x => negb (bytes_eqb x id)) src).
  set (P := mkPenv now now now items (fun x => if bytes_eqb x id then Some info else None) ((k, e) :: l1 ++ l2) (fun _ => Z.of_N now) (fun _ => now) (fun _ => fzero) 0).
  assert (NI : NoDup items).
  { constructor; [|apply NoDup_filter, ND]. intro X. apply filter_In in X. destruct X as (_ & X). rewrite bytes_eqb_refl in X. discriminate X. }
  assert (PI : Permutation items src).
  { apply NoDup_Permutation; [exact NI|exact ND|]. intro x. unfold items. cbn [In]. rewrite filter_In. split.
    - intros [<-|(X & _)]; assumption.
    - intro X. destruct (bytes_eqb x id) eqn:B; [left; apply bytes_eqb_spec in B; auto|right; auto]. }
  assert (QZ : quota M li info <> 0).
  { intro X. apply quota_differs in X; [exact (X DF)| |exact BI]. rewrite (info_N _ _ GI). lia. }
  assert (IL : iN li = dN (yData (w i))) by (apply info_N; exact GI).
  destruct (quota_bounds M li info) as (QB & _); [unfold M64; lia|unfold M64; lia|].
  assert (DM : DataSourceDiffMap M (pItems P) (pInfo P) li = ([(id, quota M li info)], quota M li info)).
  { rewrite diffmap_fold. cbn [pItems pInfo P]. unfold items. cbn [firstn fold_left]. rewrite diff_others.
    - unfold diff_step. rewrite bytes_eqb_refl. cbn [fst snd mstore mdelete filter]. unfold u64, M64. rewrite N.mod_small by lia. reflexivity.
    - intros x X. assert (X' : In x (filter (fun x => negb (bytes_eqb x id)) src)).
      { rewrite <- (firstn_skipn 5). apply in_or_app. left. exact X. }
      apply filter_In in X'. destruct X' as (_ & X'). destruct (bytes_eqb x id); [discriminate X'|reflexivity]. }
  set (ic := InsertConfigFromExpireAt now (u64_of_i64 (exprireAt e))).
  assert (TT : TTL ic = Z.to_N (exprireAt e) - now) by (apply remaining; exact LT).
  assert (PR : exists dt q cf, Process M P (yData (w i)) true = Ok (dt, Some (mkSender li cf [(id, quota M li info)] ((edatum e, ic) :: q) Idle [] 0)) /\
     dSources dt = Some src).
  { unfold Process. rewrite GI, SRC, DM. unfold GetDataInfo in GI. destruct (dConfig (yData (w i))) as [cf|]; [|discriminate GI].
    unfold process_due. rewrite orb_true_r. rewrite loop_scan.
    destruct (N.ltb_spec 0 (dN (yData (w i)))); [|lia].
    assert (LV : live_of (pTick P) (pOrder P) = (k, e) :: live_of (pTick P) (l1 ++ l2)).
    { cbn [pOrder P live_of filter fst snd pTick]. rewrite (EX k e (mload_in _ _ _ LK)). reflexivity. }
    rewrite LV. cbn [fold_left snd].
    assert (SC : sOut (fst (scan_entry M (senv_of P (yData (w i)) (quota M li info)) scan0 e)) = [(edatum e, ic)]).
    { unfold scan_entry. cbv zeta. cbn [senv_of eAlive eLimit eFraction eRand eClock pRand pClock P sCounter scan0]. rewrite AL.
      destruct (N.ltb_spec 0 (quota M li info)); [|lia]. destruct (N.ltb_spec 0 (dN (yData (w i)))); [|lia].
      rewrite div_positive by (try change (2 ^ 53)%Z with 9007199254740992%Z; lia). cbn [negb orb andb]. fold ic.
      rewrite TT. destruct (N.ltb_spec 10 (Z.to_N (exprireAt e) - now)); [|lia]. reflexivity. }
    destruct (out_head M (senv_of P (yData (w i)) (quota M li info)) (live_of (pTick P) (l1 ++ l2)) _ _ _ SC) as (q & Q).
    rewrite Q. do 3 eexists. split; [reflexivity|reflexivity]. }
  destruct PR as (dt & q & cf & PR & SRC').
  set (j := length (ySenders (w i))).
  set (r0 := mkSender li cf [(id, quota M li info)] ((edatum e, ic) :: q) Idle [] 0) in *.
  set (w1 := set_sync w i (mkSync dt (ySenders (w i) ++ [r0]))).
  assert (E1 : cluster_step M undef resolve w (CLocal i (YProcess P true)) = Some w1).
  { cbn [cluster_step sync_step]. rewrite PR. reflexivity. }
  set (r1 := mkSender li cf [(id, quota M li info)] q (Visit (edatum e) ic [id]) [] 0).
  assert (SET : forall x y, list_set (ySenders (w i) ++ [x]) j y = Some (ySenders (w i) ++ [y])).
  { intros x y. unfold j. generalize (ySenders (w i)) as l. induction l as [|z l IHl]; [reflexivity|]. cbn [app length list_set]. rewrite IHl. reflexivity. }
  assert (NTH : forall x, nth_error (ySenders (w i) ++ [x]) j = Some x).
  { intro x. unfold j. rewrite nth_error_app2 by lia. rewrite Nat.sub_diag. reflexivity. }
  set (w2 := set_sync w1 i (mkSync dt (ySenders (w i) ++ [r1]))).
  assert (E2 : cluster_step M undef resolve w1 (CLocal i (YSend j (STake [id]))) = Some w2).
  { cbn [cluster_step sync_step]. unfold w1 at 1 2 3 4. rewrite set_sync_same. cbn [ySenders yData]. rewrite NTH. unfold sender_step. cbn [rPc r0 rQueue].
    rewrite SET. reflexivity. }
  set (s' := fst (receive (Z.of_N now) (w t) (edatum e) ic)).
  assert (KE : GetKeyAsBytes (Some (edatum e)) = Ok k) by (apply (KY k e LK)).
  assert (RC : snd (receive (Z.of_N now) (w t) (edatum e) ic) = true /\ mload (store s') k = Some e).
  { unfold s', receive, InsertLocal. rewrite CT, NT. cbn [negb andb].
    set (dt0 := if dInitialized (yData (w t)) then yData (w t) else InitData (yData (w t))).
    assert (D0 : mload (dDBMap dt0) k = None).
    { unfold dt0, InitData. destruct (dInitialized (yData (w t))); exact NK. }
    unfold InsertBDMap. rewrite KE. cbn [bind]. unfold EncodeToString. rewrite D0. cbn [bind fst snd]. split; [reflexivity|].
    unfold store. cbn [yData set_dirty set_recent set_map dDBMap]. rewrite mload_mstore_same. f_equal.
    destruct e as [ex d]. cbn [edatum exprireAt] in *. f_equal. unfold expireAtOf. rewrite TT.
    destruct (N.eqb_spec (Z.to_N ex - now) 0); [lia|]. unfold i64_of_u64. rewrite !i64_id; unfold is_i64; rewrite ?i64_id; unfold is_i64; lia. }
  destruct RC as (RC1 & RC2).
  set (w3 := set_sync w2 t s').
  set (r2 := mkSender li cf [(id, quota M li info)] q (Acked (edatum e) ic id []) [] 0).
  assert (WT : w2 t = w t).
  { unfold w2, w1, set_sync. destruct (Nat.eqb_spec t i); [contradiction|reflexivity]. }
  assert (WI : w3 i = mkSync dt (ySenders (w i) ++ [r1])).
  { unfold w3, w2, set_sync. destruct (Nat.eqb_spec i t) as [X|_]; [congruence|]. rewrite Nat.eqb_refl. reflexivity. }
  set (w4 := set_sync w3 i (mkSync dt (ySenders (w i) ++ [r2]))).
  assert (E3 : cluster_step M undef resolve w2 (COffer i j (Z.of_N now) Deliver) = Some w4).
  { cbn [cluster_step]. unfold w2 at 1. rewrite set_sync_same. cbn [ySenders]. rewrite NTH. cbn [rPc r1]. rewrite RT, WT.
    unfold w3, s' in *. destruct (receive (Z.of_N now) (w t) (edatum e) ic) as [s1 ok]. cbn [fst snd] in *. subst ok.
    cbn [sync_step]. rewrite WI. cbn [ySenders yData]. rewrite NTH. unfold sender_step. cbn [rPc r1].
    assert (SV : serves dt r1 id = true).
    { unfold serves. rewrite SRC'. cbn [rCount rDiff r1]. unfold count_at. cbn [mload]. rewrite bytes_eqb_refl. cbn [is_source].
      apply andb_true_intro. split; [apply N.ltb_lt; lia|]. apply existsb_exists. exists id. split; [exact IN|apply bytes_eqb_refl]. }
    fold r1. rewrite SV. rewrite SET. reflexivity. }
  exists P, w4. split; [exact PI|]. cbv zeta. split; [|split].
  - cbn [always]. split.
    { cbn [left_alone]. split; [cbn [pOrder P]; rewrite SP; apply Permutation_middle|]. split; [exact NI|]. split.
      - intros k' e' IN'. apply (EX k' e' IN').
      - intros id' info' Q. cbn [pInfo P] in Q. destruct (bytes_eqb id' id) eqn:B; [|discriminate Q]. apply bytes_eqb_spec in B.
        subst id'. injection Q as <-. exists t. split; assumption. }
    rewrite E1. split; [exact Logic.I|]. fold j. rewrite E2. split; [exact Logic.I|]. rewrite E3. exact Logic.I.
  - cbn [cluster_run]. rewrite E1. fold j. rewrite E2, E3. reflexivity.
  - unfold w4, w3, set_sync. destruct (Nat.eqb_spec t i) as [|_]; [contradiction|]. rewrite Nat.eqb_refl. exact RC2.
Qed.
Print Assumptions C173_brought_partial.

(** ** Concrete cases *)

(** The two nodes of C173_strangers_refuted: their reports do not differ. *)
Definition queued (x : res (Data * option sender)) : option nat :=
  match x with Ok (_, Some r) => Some (length (rQueue r)) | _ => None end.
Lemma queued_some : forall x n, queued x = Some n -> exists dt' r, x = Ok (dt', Some r).
Proof. intros [[dt' [r|]]| |] n H; try discriminate H. eauto. Qed.
Definition strangers_run : res (Data * option sender) := Process mathlib_ex (strangers_env B1 1 0) (yData (strangers 0%nat)) true.
Lemma strangers_queued : queued strangers_run = Some 0%nat.
Proof. vm_compute. reflexivity. Qed.
Lemma strangers_alike : alike mathlib_ex (strangers_info 0) (strangers_info 1) = true.
Proof. vm_compute. reflexivity. Qed.

Local Strategy 1000 [stock_of].
Example C173_instance_quiet : exists dt' r,
  dAlive (yData (strangers 0%nat)) = true /\ GetDataInfo (yData (strangers 0%nat)) = Ok (strangers_info 0) /\
  NoDup (pItems (strangers_env B1 1 0)) /\ dN (yData (strangers 0%nat)) = 128 /\
  (forall id i, pInfo (strangers_env B1 1 0) id = Some i -> iN i = 128 /\ ~ differs mathlib_ex (strangers_info 0) i) /\
  strangers_run = Ok (dt', Some r) /\ rQueue r = [].
Proof.
  destruct (queued_some _ _ strangers_queued) as (dt' & r & PR).
  exists dt', r. split; [reflexivity|]. split; [reflexivity|].
  assert (ND : NoDup (pItems (strangers_env B1 1 0))) by (constructor; [intros []|constructor]). split; [exact ND|]. split; [reflexivity|].
  assert (DI : forall id i, pInfo (strangers_env B1 1 0) id = Some i -> iN i = 128 /\ ~ differs mathlib_ex (strangers_info 0) i).
  { intros id i H. cbn [strangers_env pInfo] in H. destruct (bytes_eqb id B1); [|discriminate H]. injection H as <-.
    split; [reflexivity|]. intro D. specialize (D strangers_alike). change (128 < 100 * surplus 128 128) in D. vm_compute in D. discriminate D. }
  split; [exact DI|]. split; [exact PR|].
  unfold strangers_run in PR.
  apply (C173_quiet mathlib_ex (strangers_env B1 1 0) (yData (strangers 0%nat)) dt' r true (strangers_info 0)); [reflexivity|reflexivity|exact ND|reflexivity| |exact PR].
  intros id i H. destruct (DI id i H) as (A & B). split; [rewrite A; reflexivity|exact B].
Qed.

(** A node with one datum and an empty one. *)
Example C173_instance_brought : exists P w', Permutation (pItems P) [B1] /\
  let es := [CLocal 0 (YProcess P true); CLocal 0 (YSend 0 (STake [B1])); COffer 0 0 1000 Deliver] in
  always mathlib_ex 0 who (left_alone who) sole es /\ cluster_run mathlib_ex 0 who sole es = Some w' /\
  mload (store (sole 1%nat)) K1 = None /\ mload (store (w' 1%nat)) K1 = Some (mkEntry 100000 D1).
Proof.
  destruct (C173_brought_partial mathlib_ex 0 who sole 0%nat 1%nat B1 [B1] K1 (mkEntry 100000 D1) 1000
    (match GetDataInfo (yData (sole 0%nat)) with Ok x => x | _ => info_s 0 end) (match GetDataInfo (yData (sole 1%nat)) with Ok x => x | _ => info_s 0 end) (cfg_s 0 true))
    as (P & w' & A & B & C & D); try reflexivity; try (repeat constructor; intros []; fail).
  - intros k e L. cbn in L. destruct (bytes_eqb _ k) eqn:BE; [|discriminate L]. injection L as <-. apply bytes_eqb_spec in BE. rewrite <- BE. reflexivity.
  - discriminate.
  - intros k e [H|[]]. injection H as _ <-. reflexivity.
  - exists P, w'. split; [exact A|]. cbv zeta. split; [exact B|]. split; [exact C|]. split; [reflexivity|exact D].
Qed.
