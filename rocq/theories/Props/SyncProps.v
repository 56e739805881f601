(** Properties C46-C52: the background synchronisation. *)
From Verif.Base Require Import GoBase GoLemmas Assoc Float.
From Verif.Model Require Import Codec Store Data Insert Vector Search Dataset Sync Cluster.
From Verif.Spec Require Import Wire StoreSpec InsertSpec SyncSpec ClusterSpec.
From Verif.Proof Require Import StoreP InsertP VectorP DatasetP SyncP SyncQ SyncR SyncStat SyncB ClusterP.
From Verif.Props Require Import StoreProps.
Open Scope N_scope.
Ltac Zify.zify_post_hook ::= Z.div_mod_to_equations.

(** ** Concrete datasets *)
Definition keyof (d : Datum) : bytes := match GetKeyAsBytes (Some d) with Ok k => k | _ => [] end.
Definition half : float := S754_finite false 1 (-1).
Definition kn (n : N) : DatumKey := mkKey [n] (bs "g") 1 1 1 1.
Definition dn (n : N) : Datum := kv (kn n) va.
(** n data that expire at [exp]. *)
Definition stock (exp : Z) (ns : list N) : dbmap := map (fun n => (keyof (dn n), mkEntry exp (dn n))) ns.
Definition cfg_s (target : N) (noTarget : bool) : DataConfig :=
  mkDataConfig (bs "x") 0 target half noTarget 1 true 0.
Definition dt_s (c : DataConfig) (n : N) (m : dbmap) (src : list bytes) : Data :=
  mkData (Some c) [] n fzero [] 0 0 false (Some src) true true 0 m 0.
Definition info_s (n : N) : DataInfo := mkDataInfo (bs "x") 0 0 [] [] n fzero 2 half false 0 false 0.
Definition pe (src : list bytes) (n : N) (m : dbmap) : penv :=
  mkPenv 1000 1000 1000 src (fun _ => Some (info_s n)) m (fun _ => 1000%Z) (fun _ => 1000) (fun _ => fzero) 0.
Definition A1 : bytes := bs "a".
Definition B1 : bytes := bs "b".
Definition D1 : Datum := dn 1.
Definition K1 : bytes := keyof D1.

(** One datum with a target of two, half of which is to be used: eviction is on. *)
Definition s_one : sync := mkSync (dt_s (cfg_s 2 false) 1 (stock 100000 [1]) [A1]) [].
Definition p_one : penv := pe [A1] 5 (stock 100000 [1]).

(** ** C46 *)

(** The key's value does not change: a sender removes a datum only after a source
    acknowledged that very datum.  Missing: executions in which a client stores
    another value under the key at the wrong moment, refuted below. *)
Theorem C46_acknowledged_partial :
  forall M undef s es e s1 s2 k ent,
  ySenders s = [] -> mwf (store s) -> keyed (store s) ->
  every M undef range_ok s (es ++ [e]) -> background e ->
  sync_run M undef s es = Some s1 -> sync_step M undef s1 e = Some s2 ->
  lost (store s1) (store s2) k ent ->
  (exists P force, e = YProcess P force /\ expired (pTick P k) ent = true) \/
  (is_send e /\ (exists d, has_key d k /\ acknowledged d (messages M undef s es)) /\
   ((forall e0, mload (store s) k = Some e0 -> edatum e0 = edatum ent) ->
    only_inserts k (edatum ent) es ->
    acknowledged (edatum ent) (messages M undef s es))).
Proof.
  intros M undef s es e s1 s2 k ent NS W KD RO BG R ST L.
  assert (RO1 : every M undef range_ok s es /\ range_ok s1 e).
  { clear - RO R. revert s RO R. induction es as [|x es IH]; intros s RO R; cbn in *.
    - injection R as ->. tauto.
    - destruct RO as [A RO]. destruct (sync_step M undef s x) as [s'|]; [|discriminate R].
      destruct (IH _ RO R). tauto. }
  destruct RO1 as [RO1 RO2].
  assert (GEN : forall Q : Datum -> Prop, (forall k e, mload (store s) k = Some e -> Q (edatum e)) ->
     (forall now d c, In (YInsert now (Some d) c) es -> Q d) -> J46 Q s1 (messages M undef s es)).
  { intros Q Q0 QI. apply (run_inv M undef (J46 Q) (ok46 Q) (J46_step M undef Q) es s [] s1).
    - split; [exact W|]. split; [exact KD|]. split; [exact Q0|]. intros i r N. rewrite NS in N. destruct i; discriminate N.
    - apply every_and; [exact RO1|]. apply (every_of M undef (fun e => forall now d c, e = YInsert now (Some d) c -> Q d)).
      intros x IN now d c E. subst x. eapply QI; eauto.
    - exact R. }
  destruct (removal_cases M undef (fun _ => True) s1 _ e s2 k ent
              (GEN (fun _ => True) (fun _ _ _ => I) (fun _ _ _ _ => I)) RO2 ST BG L) as [X|[IS (d & HK & _ & AK)]]; [left; exact X|].
  right. split; [exact IS|]. split; [eauto|]. intros INI ONLY.
  destruct (removal_cases M undef (fun d => has_key d k -> d = edatum ent) s1 _ e s2 k ent
              (GEN (fun d => has_key d k -> d = edatum ent)
                 (fun k0 e0 M0 HK0 => ltac:(
                    assert (k0 = k) by (pose proof (KD _ _ M0) as X; unfold has_key in *; congruence);
                    subst k0; exact (INI _ M0)))
                 (fun now d c IN HK0 => ONLY now d c IN HK0)) RO2 ST BG L) as [(P & f & E & _)|[_ (d' & HK' & Q' & AK')]].
  - subst e. destruct IS.
  - rewrite (Q' HK') in AK'. exact AK'.
Qed.
Print Assumptions C46_acknowledged_partial.

(** A datum is streamed, acknowledged and removed. *)
Definition es_one : list yev := [YProcess p_one false; YSend 0 (STake [A1]); YSend 0 (SOffer true)].
Example C46_instance : exists s1 s2,
  ySenders s_one = [] /\ mwf (store s_one) /\ keyed (store s_one) /\
  every mathlib_ex 0 range_ok s_one (es_one ++ [YSend 0 SDecide]) /\
  sync_run mathlib_ex 0 s_one es_one = Some s1 /\
  sync_step mathlib_ex 0 s1 (YSend 0 SDecide) = Some s2 /\
  lost (store s1) (store s2) K1 (mkEntry 100000 D1) /\
  acknowledged D1 (messages mathlib_ex 0 s_one es_one).
Proof.
  eexists. eexists. split; [reflexivity|]. split.
  { vm_compute. repeat constructor; auto. }
  split.
  { intros k e L. cbn in L. destruct (bytes_eqb _ k) eqn:B; [|discriminate L]. injection L as <-.
    apply bytes_eqb_spec in B. rewrite <- B. reflexivity. }
  split; [|split; [vm_compute; reflexivity|split; [vm_compute; reflexivity|split]]].
  - cbn [every app es_one]. split; [cbn; apply Permutation_refl|].
    destruct (sync_step _ _ _ _); [|exact I]. split; [exact I|].
    destruct (sync_step _ _ _ _); [|exact I]. split; [exact I|].
    destruct (sync_step _ _ _ _); [|exact I]. split; [exact I|].
    destruct (sync_step _ _ _ _); exact I.
  - split; vm_compute; reflexivity.
  - exists 0%nat, A1. vm_compute. auto.
Qed.

(** C46 refuted: between the acknowledgement and the deletion a client stores
    another value under the same key; the sender deletes the new value, which was
    never offered to anybody. *)
Definition D1b : Datum := kv (kn 1) vb.
Definition es_race : list yev := es_one ++ [YInsert 1001 (Some D1b) (Some (mkInsertConfig 5000 1))].
Theorem C46_refuted : exists M undef s es s1 s2 k ent,
  ySenders s = [] /\ mwf (store s) /\ keyed (store s) /\ every M undef range_ok s es /\
  sync_run M undef s es = Some s1 /\ sync_step M undef s1 (YSend 0 SDecide) = Some s2 /\
  lost (store s1) (store s2) k ent /\ expired 1001 ent = false /\
  forall i id ok, ~ In (Offered i id (edatum ent) ok) (messages M undef s es).
Proof.
  exists mathlib_ex, 0, s_one, es_race. eexists. eexists. exists K1, (mkEntry 6001 D1b).
  destruct C46_instance as (s1 & s2 & A & B & C & D & _).
  split; [exact A|]. split; [exact B|]. split; [exact C|]. split; [|split; [vm_compute; reflexivity|split; [vm_compute; reflexivity|split; [|split]]]].
  - cbn [every app es_race es_one]. split; [cbn; apply Permutation_refl|].
    destruct (sync_step _ _ _ _); [|exact I]. split; [exact I|].
    destruct (sync_step _ _ _ _); [|exact I]. split; [exact I|].
    destruct (sync_step _ _ _ _); [|exact I]. split; [exact I|].
    destruct (sync_step _ _ _ _); exact I.
  - split; vm_compute; reflexivity.
  - reflexivity.
  - intros i id ok IN. vm_compute in IN. destruct IN as [IN|[]]. discriminate IN.
Qed.
Print Assumptions C46_refuted.

(** ** C47 *)

(** One run, its sender undisturbed by other senders and by deletions: without a
    target or below the level nothing is removed; otherwise, if the store holds at
    least the reported number of data, at least level - 1 data stay.  Missing: a
    reported number that is out of date, and several senders; refuted below. *)
Theorem C47_floor_partial :
  forall M undef P force dt dt' r senders es s' c,
  dConfig dt = Some c -> dAlive dt = true -> mwf (dDBMap dt) -> dN dt < M64 ->
  Process M P dt force = Ok (dt', Some r) ->
  let s := mkSync dt' (senders ++ [r]) in
  let lvl := level undef (cTargetN c) (cTargetUtilization c) in
  Forall (one_run (length senders)) es ->
  sync_run M undef s es = Some s' ->
  (cNoTarget c = true \/ dN dt < lvl ->
     forall k, mload (store s) k <> None -> mload (store s') k <> None) /\
  (cNoTarget c = false -> lvl <= dN dt -> dN dt <= blen (store s) -> lvl - 1 <= blen (store s')).
Proof.
  intros M undef P force dt dt' r senders es s' c DC AL W SM PR s lvl F R.
  destruct (process_spec _ _ _ _ _ _ PR) as (li & cf & limit & dm & GI & DC' & _ & _ & EA & _ & C).
  rewrite DC in DC'. injection DC' as <-.
  assert (IN : iN li = dN dt) by (eapply info_N; eauto).
  assert (LV : lowerThreshold undef li c = lvl).
  { unfold lowerThreshold, lvl, level. unfold GetDataInfo in GI. rewrite DC in GI. injection GI as <-. reflexivity. }
  destruct C as [(_ & C)|(_ & _ & C & _)]; [|discriminate C].
  cbv zeta in C. destruct C as (EM & _ & _ & _ & _ & ER).
  destruct (0 <? dN dt); [|discriminate ER]. injection ER as ER.
  assert (WF : mwf (store s)).
  { unfold s, store. cbn [yData]. rewrite EM. apply wf_fold_delete. exact W. }
  assert (J : J47 undef (length senders) li c (store s) s).
  { exists r. unfold s at 1. cbn [ySenders]. rewrite nth_error_app2, Nat.sub_diag by lia.
    split; [reflexivity|]. rewrite ER. cbn [rInfo rConf rDeleted].
    split; [reflexivity|]. split; [reflexivity|]. split; [unfold s; cbn; congruence|]. split; [exact WF|].
    split; [left; reflexivity|]. split; [intros; lia|]. auto. }
  destruct (J47_run M undef _ li c (store s) es s s' ltac:(rewrite IN; exact SM) J F R)
    as (r' & _ & _ & _ & _ & _ & X1 & X2 & X3).
  rewrite LV, IN in *. split.
  - intros H. assert (Z0 : rDeleted r' = 0).
    { destruct X1 as [X1|[X1 X1']]; [exact X1|]. destruct H as [H|H]; [congruence|]. lia. }
    intros k L. apply X3; auto. destruct H as [H|H]; [left; exact H|right; lia].
  - intros NT LE LE2. destruct (N.eq_0_gt_0_cases lvl) as [->|GT]; [lia|].
    specialize (X2 ltac:(lia)). destruct X1 as [X1|[_ X1]]; lia.
Qed.
Print Assumptions C47_floor_partial.

(** Three data, of which one has to stay; two are removed. *)
Definition s_three : Data := dt_s (cfg_s 4 false) 3 (stock 100000 [1; 2; 3]) [A1; B1].
Definition p_three : penv := pe [A1; B1] 1 (stock 100000 [1; 2; 3]).
Definition give (i : nat) (id : bytes) : list yev :=
  [YSend i (STake [id]); YSend i (SOffer true); YSend i SDecide; YSend i SSkip].
Example C47_instance : exists dt' r s',
  dN s_three < M64 /\ mwf (dDBMap s_three) /\
  Process mathlib_ex p_three s_three false = Ok (dt', Some r) /\
  Forall (one_run 0) (give 0 A1 ++ give 0 B1) /\
  sync_run mathlib_ex 0 (mkSync dt' [r]) (give 0 A1 ++ give 0 B1) = Some s' /\
  level 0 4 half = 2 /\ blen (dDBMap dt') = 3 /\ blen (store s') = 1.
Proof.
  eexists. eexists. eexists. split; [reflexivity|]. split.
  { vm_compute. repeat constructor; cbn; intros H; repeat (destruct H as [H|H]; [discriminate H|]); destruct H. }
  split; [vm_compute; reflexivity|]. split; [repeat constructor|]. vm_compute. auto.
Qed.

(** In any environment, as long as the dataset is not closed, one sender removes
    at most N + 1 - level data. *)
Theorem C47_budget_partial :
  forall M undef i s r es s' c,
  dAlive (yData s) = true -> mwf (store s) ->
  nth_error (ySenders s) i = Some r -> rDeleted r = 0 -> rConf r = c ->
  iN (rInfo r) < M64 ->
  let lvl := level undef (iTargetN (rInfo r)) (cTargetUtilization c) in
  1 <= lvl ->
  Forall not_close es -> sync_run M undef s es = Some s' ->
  removed_by M undef i s es <= iN (rInfo r) + 1 - lvl.
Proof.
  intros M undef i s r es s' c AL W N Z0 EC SM lvl LV F R.
  assert (LT : lowerThreshold undef (rInfo r) c = lvl) by reflexivity.
  destruct (Jb_run M undef i (rInfo r) c es s s' SM ltac:(rewrite LT; exact LV)) as [(_ & _ & r' & N' & E1 & E2 & B) X]; auto.
  { split; [exact AL|]. split; [exact W|]. exists r. split; [exact N|]. split; [reflexivity|]. split; [exact EC|]. left. exact Z0. }
  unfold deleted_at in X. rewrite N, N', Z0 in X. unfold budget in B. rewrite E1, E2, LT in B.
  destruct B as [B|[_ B]]; lia.
Qed.
Print Assumptions C47_budget_partial.

Example C47_budget_instance : exists dt' r s',
  Process mathlib_ex p_three s_three false = Ok (dt', Some r) /\
  dAlive dt' = true /\ rDeleted r = 0 /\ iN (rInfo r) = 3 /\
  level 0 (iTargetN (rInfo r)) (cTargetUtilization (rConf r)) = 2 /\
  sync_run mathlib_ex 0 (mkSync dt' [r]) (give 0 A1 ++ give 0 B1) = Some s' /\
  removed_by mathlib_ex 0 0 (mkSync dt' [r]) (give 0 A1 ++ give 0 B1) = 2.
Proof. eexists. eexists. eexists. split; [vm_compute; reflexivity|]. vm_compute. auto 10. Qed.

(** C47 refuted by an outdated number: three data are reported, but only the two
    stored now are left; the level is two, and both are removed. *)
Theorem C47_stale_refuted : exists M undef P dt dt' r es s' c,
  dConfig dt = Some c /\ dAlive dt = true /\ mwf (dDBMap dt) /\ cNoTarget c = false /\
  Process M P dt false = Ok (dt', Some r) /\ Forall (one_run 0) es /\
  sync_run M undef (mkSync dt' [r]) es = Some s' /\
  level undef (cTargetN c) (cTargetUtilization c) = 2 /\ blen (dDBMap dt') = 2 /\ store s' = [].
Proof.
  exists mathlib_ex, 0, (pe [A1; B1] 1 (stock 100000 [1; 2])), (dt_s (cfg_s 4 false) 3 (stock 100000 [1; 2]) [A1; B1]).
  eexists. eexists. exists (give 0 A1 ++ give 0 B1). eexists. exists (cfg_s 4 false).
  split; [reflexivity|]. split; [reflexivity|]. split.
  { vm_compute. repeat constructor; cbn; intros H; repeat (destruct H as [H|H]; [discriminate H|]); destruct H. }
  split; [reflexivity|]. split; [vm_compute; reflexivity|]. split; [repeat constructor|]. vm_compute. auto.
Qed.
Print Assumptions C47_stale_refuted.

(** C47 refuted for runs that overlap: Process does not wait for its sender.  Two
    runs start with three data and level two; each removes up to two, together
    they remove all. *)
Theorem C47_overlap_refuted : exists M undef P1 P2 dt es s' c,
  dConfig dt = Some c /\ dAlive dt = true /\ mwf (dDBMap dt) /\ cNoTarget c = false /\
  dN dt = blen (dDBMap dt) /\
  sync_run M undef (mkSync dt []) (YProcess P1 true :: YProcess P2 true :: es) = Some s' /\
  Forall is_send es /\
  level undef (cTargetN c) (cTargetUtilization c) = 2 /\ blen (dDBMap dt) = 3 /\ store s' = [].
Proof.
  exists mathlib_ex, 0, p_three, (pe [A1; B1] 1 (rev (stock 100000 [1; 2; 3]))), s_three.
  exists (give 0 A1 ++ give 1 A1 ++ give 0 B1 ++ give 1 B1).
  eexists. exists (cfg_s 4 false). split; [reflexivity|]. split; [reflexivity|]. split.
  { vm_compute. repeat constructor; cbn; intros H; repeat (destruct H as [H|H]; [discriminate H|]); destruct H. }
  split; [reflexivity|]. split; [reflexivity|]. split; [vm_compute; reflexivity|].
  split; [repeat constructor|]. vm_compute. auto.
Qed.
Print Assumptions C47_overlap_refuted.

(** ** C48 *)

(** As long as hand-overs of the key do not overlap, no node is its own source,
    the key's value does not change, nobody deletes it and it does not expire, the
    datum stays in the cluster.  Missing: overlapping hand-overs, refuted below. *)
Theorem C48_never_lost_partial :
  forall M undef resolve k D w es w',
  has_key D k -> held w k D ->
  (forall i, mwf (store (w i)) /\ keyed (store (w i)) /\ ySenders (w i) = []) ->
  (forall i e, mload (store (w i)) k = Some e -> edatum e = D) ->
  always M undef resolve (fun w e => alone w k /\ peaceful resolve k D w e) w es ->
  cluster_run M undef resolve w es = Some w' ->
  held w' k D.
Proof.
  intros M undef resolve k D w es w' HD (i0 & e0 & L0 & _) WF VAL AW R.
  assert (J : JC k D w).
  { split; [|split].
    - intro i. exists []. destruct (WF i) as (A & B & C). split; [exact A|]. split; [exact B|]. split.
      + intros k' e L HK. pose proof (B _ _ L) as HK'. unfold has_key in *.
        assert (k' = k) by congruence. subst k'. eapply VAL; eauto.
      + intros j r N. rewrite C in N. destruct j; discriminate N.
    - exists i0. rewrite L0. discriminate.
    - intros i j (r & d & c & id & ids & N & _). destruct (WF i) as (_ & _ & C). rewrite C in N. destruct j; discriminate N. }
  destruct (JC_run _ _ _ _ _ _ _ _ HD J AW R) as (A & [i L] & _).
  destruct (mload (store (w' i)) k) as [e|] eqn:E; [|congruence].
  exists i, e. split; [exact E|]. destruct (A i) as (t & _ & B & C & _). exact (C k e E (B _ _ E)).
Qed.
Print Assumptions C48_never_lost_partial.

(** Two nodes with the same datum, both above their level. *)
Definition node_s (src : bytes) : sync := mkSync (dt_s (cfg_s 2 false) 1 (stock 100000 [1]) [src]) [].
Definition two (m : dbmap) : cluster :=
  fun i => match i with
           | O => node_s B1
           | 1%nat => mkSync (dt_s (cfg_s 2 false) 1 m [A1]) []
           | _ => mkSync (dt_s (cfg_s 2 false) 0 [] []) []
           end.
Definition who (id : bytes) : option nat :=
  if bytes_eqb id A1 then Some 0%nat else if bytes_eqb id B1 then Some 1%nat else None.
(** Node 0 hands its datum over to node 1. *)
Definition hand (i : nat) (src : bytes) (m : dbmap) : list cev :=
  [CLocal i (YProcess (pe [src] 1 m) false); CLocal i (YSend 0 (STake [src])); COffer i 0 1000 Deliver; CLocal i (YSend 0 SDecide)].

Lemma stock_wf : mwf (stock 100000 [1]) /\ keyed (stock 100000 [1]).
Proof.
  split; [vm_compute; repeat constructor; auto|].
  intros k e L. cbn in L. destruct (bytes_eqb _ k) eqn:B; [|discriminate L]. injection L as <-.
  apply bytes_eqb_spec in B. rewrite <- B. reflexivity.
Qed.

Lemma empty_alone : forall (w : cluster) k, (forall i j r d c id ids, nth_error (ySenders (w i)) j = Some r ->
  rPc r = Acked d c id ids -> i = 0%nat /\ j = 0%nat) -> alone w k.
Proof.
  intros w k H i j i' j' (r & d & c & id & ids & N & P & _) (r' & d' & c' & id' & ids' & N' & P' & _).
  destruct (H _ _ _ _ _ _ _ N P), (H _ _ _ _ _ _ _ N' P'). subst. auto.
Qed.

Example C48_instance : exists w', has_key D1 K1 /\ held (two []) K1 D1 /\
  (forall i, mwf (store (two [] i)) /\ keyed (store (two [] i)) /\ ySenders (two [] i) = []) /\
  always mathlib_ex 0 who (fun w e => alone w K1 /\ peaceful who K1 D1 w e) (two []) (hand 0 B1 (stock 100000 [1])) /\
  cluster_run mathlib_ex 0 who (two []) (hand 0 B1 (stock 100000 [1])) = Some w' /\
  store (w' 0%nat) = [] /\ held w' K1 D1.
Proof.
  assert (E0 : forall (x : option cluster), x = None \/ exists w, x = Some w) by (intros [w|]; eauto).
  destruct (E0 (cluster_run mathlib_ex 0 who (two []) (hand 0 B1 (stock 100000 [1])))) as [E|[w' E]].
  { exfalso. vm_compute in E. discriminate E. }
  exists w'. split; [reflexivity|]. split.
  { exists 0%nat, (mkEntry 100000 D1). vm_compute. auto. }
  split.
  { destruct stock_wf as [A B]. intros [|[|i]]; cbn [two node_s ySenders].
    - auto.
    - split; [constructor|]. split; [intros k e L; discriminate L|reflexivity].
    - split; [constructor|]. split; [intros k e L; discriminate L|reflexivity]. }
  assert (AL : always mathlib_ex 0 who (fun w e => alone w K1 /\ peaceful who K1 D1 w e) (two []) (hand 0 B1 (stock 100000 [1]))).
  { unfold hand. cbn [always].
    split; [split|].
    { apply empty_alone. intros i j r d c id ids N. destruct i as [|[|i]]; cbn in N; destruct j; discriminate N. }
    { cbn [peaceful]. split; [apply Permutation_refl|]. intros e L. vm_compute in L. injection L as <-. reflexivity. }
    destruct (cluster_step _ _ _ (two []) _) as [w1|] eqn:S1; [|exact I]. vm_compute in S1. injection S1 as <-.
    split; [split; [|exact I]|].
    { apply empty_alone. intros i j r d c id ids N P. destruct i as [|[|i]]; cbn in N; destruct j as [|[|j]]; try discriminate N.
      injection N as <-. discriminate P. }
    match goal with |- match ?x with _ => _ end => destruct x as [w2|] eqn:S2; [|exact I] end. vm_compute in S2. injection S2 as <-.
    split; [split|].
    { apply empty_alone. intros i j r d c id ids N P. destruct i as [|[|i]]; cbn in N; destruct j as [|[|j]]; try discriminate N.
      injection N as <-. discriminate P. }
    { intros r d' c id ids N P. cbn in N. injection N as <-. cbn in P. injection P as <- <- <- <-. vm_compute. discriminate. }
    match goal with |- match ?x with _ => _ end => destruct x as [w3|] eqn:S3; [|exact I] end. vm_compute in S3. injection S3 as <-.
    split; [split; [|exact I]|].
    { apply empty_alone. intros i j r d c id ids N P. destruct i as [|[|i]]; cbn in N; destruct j as [|[|j]]; try discriminate N; auto. }
    match goal with |- match ?x with _ => _ end => destruct x; exact I end. }
  split; [exact AL|]. split; [exact E|]. split; [vm_compute in E; injection E as <-; reflexivity|].
  vm_compute in E. injection E as <-. exists 1%nat, (mkEntry 100000 D1). vm_compute. auto.
Qed.

(** C48 refuted: both nodes hold the datum and offer it to each other at the same
    time; both are told that it is stored, both delete it. *)
Definition cross : list cev :=
  [CLocal 0 (YProcess (pe [B1] 1 (stock 100000 [1])) false); CLocal 1 (YProcess (pe [A1] 1 (stock 100000 [1])) false);
   CLocal 0 (YSend 0 (STake [B1])); CLocal 1 (YSend 0 (STake [A1]));
   COffer 0 0 1000 Deliver; COffer 1 0 1000 Deliver;
   CLocal 0 (YSend 0 SDecide); CLocal 1 (YSend 0 SDecide)].
Theorem C48_refuted : exists M undef resolve w w' k D es,
  has_key D k /\ held w k D /\
  (forall i, mwf (store (w i)) /\ keyed (store (w i)) /\ ySenders (w i) = []) /\
  (forall i e, mload (store (w i)) k = Some e -> edatum e = D /\ expired 1000 e = false) /\
  cluster_run M undef resolve w es = Some w' /\ forall i, store (w' i) = [].
Proof.
  assert (E0 : forall (x : option cluster), x = None \/ exists w, x = Some w) by (intros [w|]; eauto).
  exists mathlib_ex, 0, who, (two (stock 100000 [1])).
  destruct (E0 (cluster_run mathlib_ex 0 who (two (stock 100000 [1])) cross)) as [E|[w' E]].
  { exfalso. vm_compute in E. discriminate E. }
  exists w', K1, D1, cross. split; [reflexivity|]. split.
  { exists 0%nat, (mkEntry 100000 D1). vm_compute. auto. }
  split.
  { destruct stock_wf as [A B]. intros [|[|i]]; cbn [two node_s ySenders]; auto.
    split; [constructor|]. split; [intros k e L; discriminate L|reflexivity]. }
  split.
  { intros [|[|i]] e L; vm_compute in L; try discriminate L; injection L as <-; auto. }
  split; [exact E|]. vm_compute in E. injection E as <-. intros [|[|i]]; reflexivity.
Qed.
Print Assumptions C48_refuted.

(** C48 refuted for two values: each node holds its own value of the key; the
    hand-over overwrites the receiver's. *)
Theorem C48_overwrite_refuted : exists M undef resolve w w' k D D' es,
  has_key D k /\ has_key D' k /\ D <> D' /\ held w k D /\ held w k D' /\
  cluster_run M undef resolve w es = Some w' /\
  held w' k D /\ ~ held w' k D'.
Proof.
  assert (E0 : forall (x : option cluster), x = None \/ exists w, x = Some w) by (intros [w|]; eauto).
  exists mathlib_ex, 0, who, (two [(K1, mkEntry 100000 D1b)]).
  destruct (E0 (cluster_run mathlib_ex 0 who (two [(K1, mkEntry 100000 D1b)]) (hand 0 B1 (stock 100000 [1])))) as [E|[w' E]].
  { exfalso. vm_compute in E. discriminate E. }
  exists w', K1, D1, D1b, (hand 0 B1 (stock 100000 [1])).
  split; [reflexivity|]. split; [reflexivity|]. split; [vm_compute; discriminate|]. split.
  { exists 0%nat, (mkEntry 100000 D1). vm_compute. auto. }
  split. { exists 1%nat, (mkEntry 100000 D1b). vm_compute. auto. }
  split; [exact E|]. vm_compute in E. injection E as <-. split.
  - exists 1%nat, (mkEntry 100000 D1). vm_compute. auto.
  - intros (i & e & L & X). destruct i as [|[|i]]; vm_compute in L; try discriminate L. injection L as <-. discriminate X.
Qed.
Print Assumptions C48_overwrite_refuted.

(** ** C49 *)

(** What one run grants its sources: at most six sources; each at most 1000 data,
    at most half the surplus plus one, at most one if it holds more data; the
    total is their sum; a run of a living dataset streams at most the total. *)
Theorem C49_quota_partial :
  forall M P dt dt' r force,
  dN dt < M64 -> dAlive dt = true -> NoDup (pItems P) ->
  (forall id i, pInfo P id = Some i -> iN i < M64) ->
  Process M P dt force = Ok (dt', Some r) ->
  (length (rDiff r) <= 6)%nat /\ total (rDiff r) <= 6000 /\ blen (rQueue r) <= total (rDiff r) /\
  forall id q, mload (rDiff r) id = Some q ->
    In id (pItems P) /\ exists i, pInfo P id = Some i /\ q <= 1000 /\
      (iN i <= dN dt -> q <= (dN dt - iN i) / 2 + 1) /\ (dN dt < iN i -> q <= 1).
Proof.
  intros M P dt dt' r force SM AL ND INF PR.
  destruct (process_spec _ _ _ _ _ _ PR) as (li & cf & limit & dm & GI & _ & DM & _ & _ & _ & C).
  assert (IN : iN li = dN dt) by (eapply info_N; eauto).
  destruct C as [(_ & C)|(_ & _ & C & _)]; [|discriminate C].
  cbv zeta in C. destruct C as (_ & _ & _ & _ & _ & ER).
  destruct (0 <? dN dt); [|discriminate ER]. injection ER as ->. cbn [rDiff rQueue].
  destruct (diffmap_spec M (pItems P) (pInfo P) li dm limit ltac:(rewrite IN; exact SM) INF ND DM) as (_ & S1 & S2 & S3 & S4).
  split; [exact S3|]. split; [exact S2|]. split.
  - destruct (scan_bounded M (senv_of P dt limit) (live_of (pTick P) (pOrder P)) scan0) as [X1 X2].
    + exact AL.
    + cbn [senv_of eLimit]. unfold M64. lia.
    + reflexivity.
    + cbn. lia.
    + unfold scan_fold in *. cbn [senv_of eLimit] in X2. rewrite <- X1. lia.
  - intros id q L. destruct (S4 id q L) as (I1 & i & I2 & ->). split; [exact I1|]. exists i. split; [exact I2|].
    rewrite <- IN. apply quota_bounds; [rewrite IN; exact SM|eauto].
Qed.
Print Assumptions C49_quota_partial.

(** Offers: a sender of a dataset that is not closed makes at most as many offers
    to one source as the total of the quotas of its run, which is at most 6000. *)
Theorem C49_offers_partial :
  forall M undef s es s',
  ySenders s = [] -> dN (yData s) < M64 -> dAlive (yData s) = true ->
  every M undef order_ok s es -> Forall env_ok es -> Forall not_close es ->
  sync_run M undef s es = Some s' ->
  forall i r id, nth_error (ySenders s') i = Some r ->
    offers i id (messages M undef s es) <= total (rDiff r) /\ total (rDiff r) <= 6000.
Proof.
  intros M undef s es s' NS SM AL OO F1 F2 R i r id N.
  assert (J : J49 s' (messages M undef s es)).
  { apply (run_inv M undef J49 ok49 (J49_step M undef) es s [] s').
    - split; [exact SM|]. split; [exact AL|]. split; [reflexivity|]. intros j r0 N0. rewrite NS in N0. destruct j; discriminate N0.
    - apply every_and; [exact OO|]. apply (every_of M undef (fun e => env_ok e /\ not_close e)).
      intros e IN. rewrite Forall_forall in F1, F2. auto.
    - exact R. }
  destruct J as (_ & _ & _ & J). destruct (J i r N) as (_ & J1 & J2). specialize (J2 id). lia.
Qed.
Print Assumptions C49_offers_partial.

(** Removals: on behalf of one source a sender removes at most the source's
    quota. *)
Theorem C49_removals_partial :
  forall M undef s es s',
  ySenders s = [] -> mwf (store s) -> sync_run M undef s es = Some s' ->
  forall i r id, nth_error (ySenders s') i = Some r ->
    removals M undef i id s es <= count_at (rDiff r) id.
Proof.
  intros M undef s es s' NS W R i r id N.
  destruct (removals_counted M undef i id es s s') as [[_ J] X]; auto.
  { split; [exact W|]. intros j r0 N0. rewrite NS in N0. destruct j; discriminate N0. }
  unfold counted in X. rewrite N in X. destruct (J i r N) as [J1 _]. specialize (J1 id). lia.
Qed.
Print Assumptions C49_removals_partial.

(** Two data, a source that holds more and one that holds less: each has quota 1. *)
Definition mixed (id : bytes) : option DataInfo := Some (info_s (if bytes_eqb id A1 then 9 else 1)).
Definition p_mixed : penv :=
  mkPenv 1000 1000 1000 [A1; B1] mixed (stock 100000 [1; 2]) (fun _ => 1000%Z) (fun _ => 1000) (fun _ => fzero) 0.
Definition s_mixed (noTarget : bool) : sync := mkSync (dt_s (cfg_s 2 noTarget) 2 (stock 100000 [1; 2]) [A1; B1]) [].
Definition visit : list yev :=
  [YSend 0 (STake [A1; B1]); YSend 0 (SOffer true); YSend 0 SDecide; YSend 0 (SOffer false); YSend 0 SSkip].

Example C49_instance : exists s' r,
  NoDup (pItems p_mixed) /\
  sync_run mathlib_ex 0 (s_mixed false)
    ([YProcess p_mixed false] ++ visit ++ [YSend 0 (STake [A1; B1]); YSend 0 SSkip; YSend 0 (SOffer true)]) = Some s' /\
  nth_error (ySenders s') 0 = Some r /\ rDiff r = [(B1, 1); (A1, 1)] /\
  offers 0 A1 (messages mathlib_ex 0 (s_mixed false)
    ([YProcess p_mixed false] ++ visit ++ [YSend 0 (STake [A1; B1]); YSend 0 SSkip; YSend 0 (SOffer true)])) = 1 /\
  removals mathlib_ex 0 0 A1 (s_mixed false)
    ([YProcess p_mixed false] ++ visit ++ [YSend 0 (STake [A1; B1]); YSend 0 SSkip; YSend 0 (SOffer true)]) = 1.
Proof.
  eexists. eexists. split.
  { repeat constructor; cbn; intuition discriminate. }
  split; [vm_compute; reflexivity|]. vm_compute. auto 10.
Qed.

(** C49 refuted: without eviction countMap is never increased, so the source that
    holds more data than the dataset, with quota 1, is offered two data in one
    run. *)
Theorem C49_refuted : exists M undef s P es s' r id i,
  ySenders s = [] /\ dAlive (yData s) = true /\ NoDup (pItems P) /\
  every M undef order_ok s (YProcess P false :: es) /\ Forall is_send es /\
  sync_run M undef s (YProcess P false :: es) = Some s' /\ ySenders s' = [r] /\
  pInfo P id = Some i /\ dN (yData s) < iN i /\ count_at (rDiff r) id = 1 /\
  offers 0 id (messages M undef s (YProcess P false :: es)) = 2.
Proof.
  exists mathlib_ex, 0, (s_mixed true), p_mixed, (visit ++ visit). eexists. eexists. exists A1, (info_s 9).
  split; [reflexivity|]. split; [reflexivity|]. split.
  { repeat constructor; cbn; intuition discriminate. }
  split.
  { cbn [every]. split; [exact I|].
    match goal with |- match ?x with _ => _ end => destruct x as [w1|] eqn:S1; [|exact I] end. vm_compute in S1. injection S1 as <-.
    cbn [visit app every]. split.
    { intros r N. cbn in N. injection N as <-. vm_compute. apply perm_swap. }
    do 4 (match goal with |- match ?x with _ => _ end => destruct x as [w2|] eqn:S2; [|exact I] end;
          vm_compute in S2; injection S2 as <-; split; [exact I|]).
    match goal with |- match ?x with _ => _ end => destruct x as [w2|] eqn:S2; [|exact I] end;
          vm_compute in S2; injection S2 as <-. split.
    { intros r N. cbn in N. injection N as <-. vm_compute. apply perm_swap. }
    do 4 (match goal with |- match ?x with _ => _ end => destruct x as [w2|] eqn:S2; [|exact I] end;
          vm_compute in S2; injection S2 as <-; split; [exact I|]).
    match goal with |- match ?x with _ => _ end => destruct x; exact I end. }
  split; [repeat constructor|]. split; [vm_compute; reflexivity|]. vm_compute. auto 10.
Qed.
Print Assumptions C49_refuted.

(** ** C50 *)

(** A datum that is only ever stored without TTL is never offered to anybody. *)
Theorem C50_never_offered :
  forall M undef s es s' d,
  ySenders s = [] -> mwf (store s) ->
  (forall k e, mload (store s) k = Some e -> edatum e = d -> exprireAt e = 0%Z) ->
  every M undef range_ok s es ->
  (forall now c, In (YInsert now (Some d) c) es -> ttl_of c = 0) ->
  sync_run M undef s es = Some s' ->
  forall i id ok, ~ In (Offered i id d ok) (messages M undef s es).
Proof.
  intros M undef s es s' d NS W Z0 RO ON R.
  assert (J : J50 d s' (messages M undef s es)).
  { apply (run_inv M undef (J50 d) (ok50 d) (J50_step M undef d) es s [] s').
    - split; [exact W|]. split; [exact Z0|]. split; [|intros i id ok []].
      intros i r N. rewrite NS in N. destruct i; discriminate N.
    - apply every_and; [exact RO|].
      apply (every_of M undef (fun e => forall now c, e = YInsert now (Some d) c -> ttl_of c = 0)).
      intros e IN now c E. subst e. eauto.
    - exact R. }
  apply J.
Qed.
Print Assumptions C50_never_offered.

(** C50 refuted: of two data, one without TTL, only the other is offered although
    the source has room for both and all draws are favourable. *)
Definition mix0 : dbmap := stock 0 [1] ++ stock 100000 [2].
Definition p_mix0 : penv := pe [A1; B1] 1 mix0.
Definition s_mix0 : sync := mkSync (dt_s (cfg_s 9 false) 2 mix0 [A1; B1]) [].
Definition es_mix0 : list yev := [YProcess p_mix0 false; YSend 0 (STake [A1; B1]); YSend 0 (SOffer true)].
Lemma s_mix0_ok : ySenders s_mix0 = [] /\ mwf (store s_mix0) /\ every mathlib_ex 0 range_ok s_mix0 es_mix0.
Proof.
  split; [reflexivity|]. split.
  { vm_compute. repeat constructor; cbn; intros H; repeat (destruct H as [H|H]; [discriminate H|]); destruct H. }
  cbn [every es_mix0]. split; [apply Permutation_refl|].
  do 2 (match goal with |- match ?x with _ => _ end => destruct x; [|exact I] end; split; [exact I|]).
  match goal with |- match ?x with _ => _ end => destruct x; exact I end.
Qed.
Theorem C50_refuted : exists M undef s P es s' r,
  ySenders s = [] /\ mwf (store s) /\ store s = stock 0 [1] ++ stock 100000 [2] /\
  sync_run M undef s (YProcess P false :: es) = Some s' /\
  nth_error (ySenders s') 0 = Some r /\ rQueue r = [] /\ total (rDiff r) = 2 /\
  (forall n, fltb (pRand P n) (f64_of_Z 1) = true) /\
  messages M undef s (YProcess P false :: es) = [Offered 0 A1 (dn 2) true].
Proof.
  exists mathlib_ex, 0, s_mix0, p_mix0, [YSend 0 (STake [A1; B1]); YSend 0 (SOffer true)]. eexists. eexists.
  destruct s_mix0_ok as (A & B & C). split; [exact A|]. split; [exact B|]. split; [reflexivity|].
  split; [vm_compute; reflexivity|]. split; [reflexivity|]. split; [reflexivity|]. split; [reflexivity|].
  split; [intro; reflexivity|]. vm_compute. reflexivity.
Qed.
Print Assumptions C50_refuted.

Example C50_instance : exists s', sync_run mathlib_ex 0 s_mix0 es_mix0 = Some s' /\
  (forall k e, mload (store s_mix0) k = Some e -> edatum e = D1 -> exprireAt e = 0%Z) /\
  forall i id ok, ~ In (Offered i id D1 ok) (messages mathlib_ex 0 s_mix0 es_mix0).
Proof.
  destruct s_mix0_ok as (A & B & C).
  assert (X : forall k e, mload (store s_mix0) k = Some e -> edatum e = D1 -> exprireAt e = 0%Z).
  { intros k e L E. apply mload_in in L. vm_compute in L. destruct L as [L|[L|[]]]; injection L as _ <-; [reflexivity|discriminate E]. }
  eexists. split; [vm_compute; reflexivity|]. split; [exact X|].
  eapply C50_never_offered; eauto.
  - intros now c IN. cbn in IN. intuition discriminate.
  - vm_compute. reflexivity.
Qed.

(** Data with a TTL: in a run of a closed dataset, or one with favourable draws
    and enough quota, every live datum with more than 10 seconds to live is
    streamed to the sender.  Missing: data without TTL. *)
Theorem C50_streamed_partial :
  forall M P dt dt' r force k e,
  Process M P dt force = Ok (dt', Some r) ->
  NoDup (pItems P) -> dN dt < M64 -> (forall id i, pInfo P id = Some i -> iN i < M64) ->
  In (k, e) (pOrder P) -> expired (pTick P k) e = false ->
  (0 < exprireAt e < 9223372036854775808)%Z ->
  (forall n, Z.of_N (pClock P n) + 10 < exprireAt e)%Z ->
  (dAlive dt = false \/
   (blen (pOrder P) <= total (rDiff r) /\
    forall n, fltb (pRand P n) (f64div (f64_of_Z (Z.of_N (total (rDiff r)))) (f64_of_Z (Z.of_N (dN dt)))) = true)) ->
  exists c, In (edatum e, c) (rQueue r).
Proof.
  intros M P dt dt' r force k e PR ND SM INF IN LV RG CK GO.
  destruct (process_spec _ _ _ _ _ _ PR) as (li & cf & limit & dm & GI & _ & DM & _ & _ & _ & C).
  assert (IL : iN li = dN dt) by (eapply info_N; eauto).
  destruct C as [(_ & C)|(_ & _ & C & _)]; [|discriminate C].
  cbv zeta in C. destruct C as (_ & _ & _ & _ & _ & ER).
  destruct (0 <? dN dt) eqn:POS; [|discriminate ER]. injection ER as ->. cbn [rDiff rQueue] in *.
  destruct (diffmap_spec M (pItems P) (pInfo P) li dm limit ltac:(rewrite IL; exact SM) INF ND DM) as (_ & S1 & S2 & _).
  rewrite <- S1 in *.
  destruct (stream_all M (senv_of P dt limit) (live_of (pTick P) (pOrder P)) scan0) as [_ X].
  - destruct GO as [GO|[GO1 GO2]]; [left; exact GO|right]. split; [|split].
    + intro n. cbn [senv_of eRand eFraction]. rewrite POS. apply GO2.
    + cbn [scan0 sCounter senv_of eLimit]. unfold live_of, blen in *.
      assert ((length (filter (fun p => negb (expired (pTick P (fst p)) (snd p))) (pOrder P)) <= length (pOrder P))%nat)
        by (clear; induction (pOrder P) as [|x l IH]; cbn; auto; destruct (negb _); cbn; lia).
      lia.
    + cbn. unfold M64. lia.
  - apply (X k e).
    + unfold live_of. apply filter_In. split; [exact IN|]. cbn. rewrite LV. reflexivity.
    + intro n. cbn [senv_of eClock]. unfold InsertConfigFromExpireAt. cbn [TTL].
      specialize (CK n). unfold u64_of_i64, sub64, M64. destruct (0 <? Z.to_N (exprireAt e mod _)) eqn:T; [apply N.ltb_lt in T|apply N.ltb_ge in T]; lia.
Qed.
Print Assumptions C50_streamed_partial.

Example C50_streamed_instance : exists dt' r,
  Process mathlib_ex p_mix0 (yData s_mix0) false = Ok (dt', Some r) /\
  In (keyof (dn 2), mkEntry 100000 (dn 2)) (pOrder p_mix0) /\
  blen (pOrder p_mix0) <= total (rDiff r) /\
  fltb fzero (f64div (f64_of_Z (Z.of_N (total (rDiff r)))) (f64_of_Z 2)) = true.
Proof.
  eexists. eexists. split; [vm_compute; reflexivity|]. split; [vm_compute; auto|].
  split; [vm_compute; discriminate|reflexivity].
Qed.

(** ** C14, hand-overs *)

(** What the background synchronisation hands over does not spread further by
    itself: whichever node receives it, in whatever cluster, the insert is
    executed at most once, there, and no other node changes. *)
Theorem C14_handover :
  forall M P dt dt' r force d c,
  Process M P dt force = Ok (dt', Some r) -> In (d, c) (rQueue r) ->
  forall E fuel w j w' e,
  NodeInsert E (S fuel) w j (Some d) (Some c) = (w', e) ->
  wFuelOut w' = wFuelOut w /\
  (wExecs w' = wExecs w \/ wExecs w' = (j, Count c) :: wExecs w) /\
  (forall i, i <> j -> wNodes w' i = wNodes w i).
Proof.
  intros M P dt dt' r force d c PR IN E fuel w j w' e NI.
  destruct (process_spec _ _ _ _ _ _ PR) as (li & cf & limit & dm & _ & _ & _ & _ & _ & _ & C).
  destruct C as [(_ & C)|(_ & _ & C & _)]; [|discriminate C].
  cbv zeta in C. destruct C as (_ & _ & _ & _ & _ & ER).
  destruct (0 <? dN dt) eqn:POS; [|discriminate ER]. injection ER as ->. cbn [rQueue] in IN.
  apply fold_out in IN. destruct IN as [[]|(k & en & _ & _ & _ & n & ->)].
  assert (CZ : Count (InsertConfigFromExpireAt (eClock (senv_of P dt limit) n) (u64_of_i64 (exprireAt en))) =? 0 = false)
    by reflexivity.
  remember (InsertConfigFromExpireAt (eClock (senv_of P dt limit) n) (u64_of_i64 (exprireAt en))) as c eqn:Ec.
  clear Ec. cbn [NodeInsert] in NI.
  assert (OTH : forall w x i, i <> j -> wNodes (set_node w j x) i = wNodes w i).
  { intros w0 x i NE. unfold set_node. cbn [wNodes]. destruct (i =? j) eqn:Q; [apply N.eqb_eq in Q; congruence|reflexivity]. }
  destruct (negb (nRunning (wNodes w j))); [injection NI as <- <-; auto|].
  destruct (nDrain (wNodes w j)) eqn:DR; [injection NI as <- <-; auto|].
  destruct (InsertLocal _ _ _ _) as [[dt1 [e1|]]|e1|] eqn:IL.
  1,3,4: injection NI as <- <-; cbn [set_node log_exec wFuelOut wExecs]; split; [reflexivity|];
    split; [right; reflexivity|]; intros i NE; rewrite OTH by exact NE; reflexivity.
  unfold Replicate in NI. destruct (dConfig dt1) as [dc|].
  - rewrite CZ, andb_false_r in NI. cbn [rW rErr] in NI. injection NI as <- <-.
    cbn [next_step set_node log_exec wFuelOut wExecs]. split; [reflexivity|].
    split; [right; reflexivity|]. intros i NE. apply (OTH (log_exec w j (Count c)) _ i NE).
  - injection NI as <- <-. cbn [next_step set_node log_exec wFuelOut wExecs]. split; [reflexivity|].
    split; [right; reflexivity|]. intros i NE. rewrite OTH by exact NE.
    apply (OTH (log_exec w j (Count c)) _ i NE).
Qed.
Print Assumptions C14_handover.

(** An instance: the receiver enforces four copies and has three sources. *)
Example C14_handover_instance : exists dt' r c w' e,
  Process mathlib_ex p_mix0 (yData s_mix0) false = Ok (dt', Some r) /\ In (dn 2, c) (rQueue r) /\
  let nd := mkNode true false (mkData (Some (mkDataConfig (bs "x") 0 9 half true 4 true 0)) [] 0 fzero [] 0 0
              false (Some [bs "0"; bs "1"; bs "2"]) true true 0 [] 0) in
  let E := mkEnv (fun _ => 1000%Z) (fun _ l => l) (fun _ => Deliver) (fun _ => Some 2) in
  NodeInsert E 5 (mkWorld (fun _ => nd) 0 [] false) 0 (Some (dn 2)) (Some c) = (w', e) /\
  wExecs w' = [(0, 1)].
Proof.
  exists (match Process mathlib_ex p_mix0 (yData s_mix0) false with Ok (x, _) => x | _ => yData s_mix0 end).
  eexists. exists (mkInsertConfig 99000 1). eexists. eexists.
  split; [vm_compute; reflexivity|]. split; [vm_compute; auto|]. cbv zeta.
  split; [vm_compute; reflexivity|vm_compute; reflexivity].
Qed.

(** ** C51 *)

(** When the loop of Close ends, every datum that was there was acknowledged by a
    source or found expired.  Hypotheses: no clients, and the reported number was
    not zero.  Missing: that the loop ends, and a reported number of zero; both
    refuted below. *)
Theorem C51_handed_over_partial :
  forall M undef s es s' k e,
  ySenders s = [] -> mwf (store s) -> keyed (store s) -> blen (store s) < M64 -> 0 < dN (yData s) ->
  mload (store s) k = Some e ->
  every M undef range_ok s es -> Forall background es ->
  sync_run M undef s es = Some s' -> close_loops s' = false ->
  acknowledged (edatum e) (messages M undef s es) \/
  exists P force, In (YProcess P force) es /\ expired (pTick P k) e = true.
Proof.
  intros M undef s es s' k e NS W KD SM POS L RO BG R CL.
  assert (J : Jfate k e [] s []).
  { split; [|split; [exact SM|split; [|split]]].
    - split; [exact W|]. split; [exact KD|]. split.
      + intros k' e' L' HK. pose proof (KD _ _ L') as HK'. unfold has_key in *.
        assert (k' = k) by congruence. subst k'. congruence.
      + intros i r N. rewrite NS in N. destruct i; discriminate N.
    - intros e1 L1. congruence.
    - intro Z0. lia.
    - left. exact L. }
  destruct (Jfate_run M undef k e es [] s [] s' J RO BG R) as (_ & _ & _ & Z0 & X).
  unfold close_loops in CL. apply N.ltb_ge in CL. rewrite (Z0 ltac:(lia)) in X.
  destruct X as [X|X]; [discriminate X|exact X].
Qed.
Print Assumptions C51_handed_over_partial.

(** A closed dataset hands its datum over; the second scan finds nothing left. *)
Definition s_closed (m : dbmap) (n : N) : sync := mkSync (set_alive (dt_s (cfg_s 2 false) n m [A1]) false) [].
Definition es_closed : list yev :=
  [YProcess (pe [A1] 0 (stock 100000 [1])) true] ++ give 0 A1 ++ [YProcess (pe [A1] 0 []) true].
Example C51_instance : exists s',
  every mathlib_ex 0 range_ok (s_closed (stock 100000 [1]) 1) es_closed /\ Forall background es_closed /\
  sync_run mathlib_ex 0 (s_closed (stock 100000 [1]) 1) es_closed = Some s' /\ close_loops s' = false.
Proof.
  eexists. split; [|split; [repeat constructor|split; [vm_compute; reflexivity|reflexivity]]].
  cbn [every es_closed give app]. split; [apply Permutation_refl|].
  do 4 (match goal with |- match ?x with _ => _ end => destruct x as [w2|] eqn:S2; [|exact I] end;
        vm_compute in S2; injection S2 as <-; split; [exact I|]).
  match goal with |- match ?x with _ => _ end => destruct x as [w2|] eqn:S2; [|exact I] end;
        vm_compute in S2; injection S2 as <-. split; [apply Permutation_refl|].
  match goal with |- match ?x with _ => _ end => destruct x; exact I end.
Qed.

(** C51 refuted, termination: a dataset that holds a datum without TTL never
    leaves the loop of Close, whatever the sources do. *)
Theorem C51_termination_refuted : exists s,
  ySenders s = [] /\ dAlive (yData s) = false /\ blen (store s) = 1 /\
  forall M undef es s', every M undef range_ok s es -> Forall background es ->
    sync_run M undef s es = Some s' -> close_loops s' = true.
Proof.
  exists (s_closed (stock 0 [1]) 1). split; [reflexivity|]. split; [reflexivity|]. split; [reflexivity|].
  intros M undef es s' RO BG R.
  assert (J : Jstay K1 (mkEntry 0 D1) (s_closed (stock 0 [1]) 1) []).
  { split; [vm_compute; reflexivity|]. split; [cbn; lia|]. split; [vm_compute; reflexivity|]. split.
    - split; [vm_compute; repeat constructor; auto|]. split; [|split].
      + intros k e L E. apply mload_in in L. vm_compute in L. destruct L as [L|[]]. injection L as _ <-. reflexivity.
      + intros i r N. destruct i; discriminate N.
      + intros i id ok [].
    - split.
      + intros k e L. cbn in L. destruct (bytes_eqb _ k) eqn:B; [|discriminate L]. injection L as <-.
        apply bytes_eqb_spec in B. rewrite <- B. reflexivity.
      + intros i r d N. destruct i; discriminate N. }
  destruct (Jstay_run M undef K1 (mkEntry 0 D1) es _ [] s' eq_refl J RO BG R) as (_ & P & _).
  unfold close_loops. apply N.ltb_lt. exact P.
Qed.
Print Assumptions C51_termination_refuted.

(** C51 refuted, hand-over: data inserted since the last statistics run of an
    empty dataset: the reported number is zero, so the loop of Close does nothing
    and the live datum was offered to nobody. *)
Theorem C51_handed_over_refuted : exists s k e,
  ySenders s = [] /\ dAlive (yData s) = false /\ dSources (yData s) = Some [A1] /\
  mload (store s) k = Some e /\ expired 1000 e = false /\ close_loops s = false.
Proof.
  exists (s_closed (stock 100000 [1]) 0), K1, (mkEntry 100000 D1). vm_compute. auto 10.
Qed.
Print Assumptions C51_handed_over_refuted.

(** ** C52 *)

(** After a statistics run: the number of live data, the largest distance to the
    previous centre, the histogram, and the mean if the previous number was the
    number of live data and all have the same dimension.  Missing: the mean with
    another previous number, refuted below. *)
Theorem C52_statistics_partial :
  forall M P dt dt' r force,
  Process M P dt force = Ok (dt', r) -> blen (pOrder P) < M64 ->
  (exists li, GetDataInfo dt = Ok li /\ dN dt' = dN dt /\
     process_due dt (pNow P) (snd (DataSourceDiffMap M (pItems P) (pInfo P) li)) force = false) \/
  let xs := live_data (pTick P) (pOrder P) in
  let ds := map (fun d => VectorDistance M (dAvg dt) (features d)) xs in
  dN dt' = blen xs /\
  largest (dMaxDistance dt') ds /\
  length (dHist dt') = 64%nat /\
  (dMaxDistance dt = fzero -> dHist dt' = repeat fzero 64) /\
  (feqb (dMaxDistance dt) fzero = false ->
     exists b : float -> nat, (forall d, right_bucket d (dMaxDistance dt) (b d)) /\
       forall i, (i < 64)%nat ->
         nth i (dHist dt') fzero =
         pile (f32div (f32_of_Z 1) (f32_of_Z (Z.of_N (N.max 1 (dN dt))))) (in_bucket b i ds)) /\
  (forall dim, dN dt = blen xs -> xs <> [] -> Forall (fun d => length (features d) = dim) xs ->
     length (dAvg dt') = dim /\
     forall j, (j < dim)%nat ->
       nth j (dAvg dt') fzero = float_mean (map (fun d => nth j (features d) fzero) xs)).
Proof.
  intros M P dt dt' r force PR SM.
  destruct (process_spec _ _ _ _ _ _ PR) as (li & cf & limit & dm & GI & _ & DM & _ & _ & _ & C).
  destruct C as [(_ & C)|(C & _ & _ & CN)]; [right|left; exists li; rewrite DM; auto].
  cbv zeta in C. destruct C as (_ & EN & EAV & EMX & EH & _).
  set (l := live_of (pTick P) (pOrder P)) in *. set (E := senv_of P dt limit) in *.
  fold (scan_fold M E l scan0) in EN, EAV, EMX, EH.
  intros xs ds.
  assert (XS : xs = map (fun p => edatum (snd p)) l) by reflexivity.
  assert (DS : ds = map (dist M E) l).
  { unfold ds. rewrite XS, map_map. reflexivity. }
  assert (LEN : blen xs = blen l) by (rewrite XS; unfold blen; rewrite map_length; reflexivity).
  assert (LE : (length l <= length (pOrder P))%nat).
  { unfold l, live_of. clear. induction (pOrder P) as [|x q IH]; cbn; auto. destruct (negb _); cbn; lia. }
  assert (NF : feqb (eNFloat E) fzero = false /\ eNFloat E = f32_of_Z (Z.of_N (N.max 1 (dN dt)))).
  { unfold E. cbn [senv_of eNFloat]. destruct (dN dt) as [|p] eqn:DN.
    - cbn. auto.
    - change (Z.of_N (Npos p)) with (Zpos p). rewrite f32_of_pos_nonzero.
      split; [apply f32_of_pos_nonzero|]. rewrite N.max_r by lia. reflexivity. }
  destruct NF as [NF1 NF2].
  split; [|split; [|split; [|split; [|split]]]].
  - rewrite EN, scan_fold_n by (cbn; unfold M64; lia). cbn [scan0 sN]. rewrite N.add_0_l, LEN.
    unfold u64. apply N.mod_small. unfold blen in *. lia.
  - destruct (max_fold M E l scan0 eq_refl) as (_ & X1 & _ & X2). rewrite EMX, DS. split; [exact X1|exact X2].
  - rewrite EH. destruct (feqb (eMax E) fzero) eqn:Z0.
    + rewrite hist_fold_zero by exact Z0. reflexivity.
    + apply (hist_fold M E l scan0 Z0 eq_refl).
  - intro Z0. rewrite EH, hist_fold_zero; [reflexivity|]. unfold E. cbn [senv_of eMax]. rewrite Z0. reflexivity.
  - intro Z0. exists (fun d => bucket (eUndef E) d (eMax E)). split; [intro; apply bucket_right|].
    intros i LT. rewrite EH. destruct (hist_fold M E l scan0 Z0 eq_refl) as [_ X].
    rewrite (X (fun _ => 0%nat)); [| |exact LT].
    + rewrite NF2, Nat.add_0_r, DS. f_equal. unfold in_bucket. clear.
      induction l as [|x q IH]; cbn; auto. destruct (Nat.eqb _ _); cbn; auto.
    + intros i0 LT0. cbn [scan0 sHist pile]. apply nth_repeat.
  - intros dim DN NE FA. destruct (avg_fold M E dim l scan0 NF1) as (_ & X1 & X2).
    + rewrite XS, Forall_map in FA. exact FA.
    + right. reflexivity.
    + rewrite EAV. split.
      * apply X1. intro Z0. apply NE. rewrite XS, Z0. reflexivity.
      * intros j LT. rewrite (X2 j LT). unfold float_mean. rewrite map_length.
        assert (NN : f32_of_Z (Z.of_nat (length xs)) = eNFloat E).
        { rewrite NF2. f_equal. assert (length xs <> 0%nat) by (intro Z0; apply NE; apply length_zero_iff_nil; exact Z0).
          unfold blen in DN. lia. }
        rewrite NN, XS, map_map. cbn [scan0 sAvg]. replace (nth j [] fzero) with fzero by (destruct j; reflexivity). reflexivity.
Qed.
Print Assumptions C52_statistics_partial.

(** Two data of one dimension, counted before: features 1 and 3. *)
Definition stat_map : dbmap := stock 100000 [1065353216; 1077936128].
Definition stat_dt (n : N) : Data :=
  mkData (Some (cfg_s 9 true)) [] n (f64_of_Z 1) [] 0 0 false (Some []) true true 0 stat_map 0.
Example C52_instance : exists dt' r,
  Process mathlib_ex (pe [] 0 stat_map) (stat_dt 2) true = Ok (dt', r) /\
  process_due (stat_dt 2) 1000 0 true = true /\
  live_data (fun _ => 1000%Z) stat_map = [dn 1065353216; dn 1077936128] /\
  dN dt' = 2 /\ dAvg dt' = [f32_of_Z 2] /\ nth 0 (dHist dt') fzero = f32_of_Z 1.
Proof. eexists. eexists. split; [vm_compute; reflexivity|]. vm_compute. auto 10. Qed.

(** C52 refuted, mean: in the first run of a new dataset the previous number is
    zero, and the features 1 and 3 are reported with "average" 4. *)
Theorem C52_mean_refuted : exists M P dt dt' r,
  process_due dt (pNow P) 0 true = true /\
  Process M P dt true = Ok (dt', r) /\ dN dt = 0 /\
  map features (live_data (pTick P) (pOrder P)) = [[f32_of_Z 1]; [f32_of_Z 3]] /\
  float_mean [f32_of_Z 1; f32_of_Z 3] = f32_of_Z 2 /\ dAvg dt' = [f32_of_Z 4].
Proof.
  exists mathlib_ex, (pe [] 0 stat_map), (stat_dt 0). eexists. eexists.
  split; [reflexivity|]. split; [vm_compute; reflexivity|]. vm_compute. auto 10.
Qed.
Print Assumptions C52_mean_refuted.

(** ** C119 *)

(** What the sources asked in one round (at most six) may be granted together. *)
Definition granted (M : mathlib) (P : penv) (li : DataInfo) : N :=
  fold_right N.add 0 (map (fun id => match pInfo P id with Some i => quota M li i | None => 0 end)
                          (firstn 6 (pItems P))).

(** When a round has to refresh the statistics: it is forced; the clock was set back
    behind the last refresh; or that was a minute ago and there were inserts, or
    more than a tenth of the data may be transferred, or it was ten minutes ago. *)
Definition refresh_due (count inserts last now granted : N) (force : bool) : Prop :=
  force = true \/ now < last \/
  last + 60 <= now /\ (inserts <> 0 \/ count < 10 * granted \/ last + 600 <= now).

Lemma granted_sum : forall M P li l dm sum dm' sum',
  iN li < M64 -> (forall id i, pInfo P id = Some i -> iN i < M64) ->
  sum + 1000 * blen l < M64 ->
  fold_left (diff_step M (pInfo P) li) l (dm, sum) = (dm', sum') ->
  sum' = sum + fold_right N.add 0 (map (fun id => match pInfo P id with Some i => quota M li i | None => 0 end) l).
Proof.
  intros M P li. induction l as [|id l IH]; intros dm sum dm' sum' LN LI B F.
  - cbn in F. injection F as _ <-. cbn. lia.
  - cbn [fold_left] in F. assert (BL : blen (id :: l) = 1 + blen l) by (unfold blen; cbn [length]; lia). rewrite BL in B.
    unfold diff_step in F at 2. cbn [map fold_right]. destruct (pInfo P id) as [i|] eqn:I; cbn [fst snd] in F.
    + destruct (quota_bounds M li i LN (LI _ _ I)) as (Q & _).
      rewrite (IH _ _ _ _ LN LI) in F || (apply IH in F; auto).
      * rewrite F. unfold u64. rewrite N.mod_small by lia. lia.
      * unfold u64. rewrite N.mod_small by lia. lia.
    + apply IH in F; auto; lia.
Qed.

Lemma due_exact : forall M P dt force li dm limit,
  GetDataInfo dt = Ok li -> dN dt < M63 -> dLastRunTimestamp dt < M63 -> pNow P < M63 ->
  (forall id i, pInfo P id = Some i -> iN i < M63) ->
  DataSourceDiffMap M (pItems P) (pInfo P) li = (dm, limit) ->
  (process_due dt (pNow P) limit force = true <->
   refresh_due (dN dt) (dRecentInsertCount dt) (dLastRunTimestamp dt) (pNow P) (granted M P li) force).
Proof.
  intros M P dt force li dm limit GI B1 B2 B3 INF D.
  assert (IN : iN li = dN dt) by (eapply info_N; eauto).
  assert (L : limit = granted M P li /\ limit <= 6000).
  { rewrite diffmap_fold in D. unfold granted.
    assert (L6 : blen (firstn 6 (pItems P)) <= 6).
    { unfold blen. pose proof (firstn_le_length 6 (pItems P)). lia. }
    assert (INF' : forall id i, pInfo P id = Some i -> iN i < M64).
    { intros id i H. apply INF in H. unfold M63, M64 in *. lia. }
    assert (LN : iN li < M64) by (rewrite IN; unfold M63, M64 in *; lia).
    apply granted_sum in D; auto; [|unfold M64; lia]. rewrite N.add_0_l in D. split; [exact D|]. subst limit.
    clear - INF' LN L6. revert L6. generalize (firstn 6 (pItems P)). intro l.
    assert (X : fold_right N.add 0 (map (fun id => match pInfo P id with Some i => quota M li i | None => 0 end) l) <= 1000 * blen l).
    { induction l as [|x l IH]; [cbn; lia|]. cbn [map fold_right].
      assert (BL : blen (x :: l) = 1 + blen l) by (unfold blen; cbn [length]; lia). rewrite BL.
      destruct (pInfo P x) as [i|] eqn:I; [|lia]. destruct (quota_bounds M li i LN (INF' _ _ I)) as (Q & _). lia. }
    intro. lia. }
  destruct L as [L LB].
  unfold process_due, refresh_due. rewrite <- L. cbv zeta.
    assert (DV : dN dt / 10 < limit <-> dN dt < 10 * limit).
    { split; intro H.
      - pose proof (N.mul_succ_div_gt (dN dt) 10). lia.
      - apply N.div_lt_upper_bound; lia. }
    assert (A : dLastRunTimestamp dt <= pNow P -> sub64 (pNow P) (dLastRunTimestamp dt) = pNow P - dLastRunTimestamp dt).
    { intro H. apply sub64_small; auto. unfold M63, M64 in *. lia. }
    assert (A' : pNow P < dLastRunTimestamp dt -> 600 <= sub64 (pNow P) (dLastRunTimestamp dt)).
    { intro H. unfold sub64, u64, M63, M64 in *. rewrite N.mod_small; lia. }
    rewrite orb_true_iff, andb_true_iff, !orb_true_iff, !N.leb_le, !N.ltb_lt, DV.
    destruct (N.le_gt_cases (dLastRunTimestamp dt) (pNow P)) as [H|H].
    - rewrite (A H). intuition lia.
    - specialize (A' H). split; [tauto|]. intros _. left. split; [lia|]. right. exact A'.
Qed.

(** Exactly when a round refreshes the statistics, and what it does otherwise. *)
Theorem C119_refresh : forall M P dt dt' r force li,
  Process M P dt force = Ok (dt', r) -> GetDataInfo dt = Ok li ->
  dN dt < M63 -> dLastRunTimestamp dt < M63 -> pNow P < M63 -> blen (pOrder P) < M63 ->
  (forall id i, pInfo P id = Some i -> iN i < M63) ->
  let due := refresh_due (dN dt) (dRecentInsertCount dt) (dLastRunTimestamp dt) (pNow P) (granted M P li) force in
  (due -> dN dt' = blen (live_data (pTick P) (pOrder P)) /\ dLastRunTimestamp dt' = pNow2 P /\
          dRecentInsertCount dt' = 0) /\
  (~ due -> r = None /\ dDBMap dt' = dDBMap dt /\ dN dt' = dN dt /\ dAvg dt' = dAvg dt /\
          dMaxDistance dt' = dMaxDistance dt /\ dHist dt' = dHist dt /\
          dLastRunTimestamp dt' = dLastRunTimestamp dt /\ dRecentInsertCount dt' = dRecentInsertCount dt) /\
  (due \/ ~ due) /\ dTimestamp dt' = pNow3 P.
Proof.
  intros M P dt dt' r force li PR GI B1 B2 B3 B4 INF due.
  assert (IN : iN li = dN dt) by (eapply info_N; eauto).
  unfold Process in PR. rewrite GI in PR. destruct (dConfig dt) as [cf|] eqn:C; [|discriminate PR].
  destruct (dSources dt) as [src|] eqn:S; [|discriminate PR].
  destruct (DataSourceDiffMap M (pItems P) (pInfo P) li) as [dm limit] eqn:D.
  assert (E : process_due dt (pNow P) limit force = true <-> due) by (exact (due_exact M P dt force li dm limit GI B1 B2 B3 INF D)).
  destruct (process_due dt (pNow P) limit force) eqn:PD.
  - assert (DUE : due) by (apply E; reflexivity).
    rewrite loop_scan in PR. injection PR as <- <-. cbn [dN dLastRunTimestamp dRecentInsertCount dTimestamp].
    split; [|split; [intro X; contradiction|split; [left; exact DUE|reflexivity]]].
    intros _. split; [|auto]. fold (scan_fold M (senv_of P dt limit) (live_of (pTick P) (pOrder P)) scan0).
    rewrite scan_fold_n by (cbn; unfold M64; lia). cbn [scan0 sN]. rewrite N.add_0_l.
    unfold live_data. fold (live_of (pTick P) (pOrder P)).
    assert (LE : (length (live_of (pTick P) (pOrder P)) <= length (pOrder P))%nat).
    { unfold live_of. clear. induction (pOrder P) as [|x q IH]; cbn; auto. destruct (negb _); cbn; lia. }
    unfold u64. rewrite N.mod_small; [unfold blen; rewrite map_length; reflexivity|]. unfold blen, M63, M64 in *. lia.
  - assert (DUE : ~ due) by (rewrite <- E; discriminate).
    injection PR as <- <-. cbn. split; [intro X; contradiction|]. repeat split; auto.
Qed.
Print Assumptions C119_refresh.

(** So the age of what is reported is bounded: after any round the last refresh is
    less than ten minutes ago, and less than one if data were inserted since. *)
Theorem C119_age : forall M P dt dt' r force li,
  Process M P dt force = Ok (dt', r) -> GetDataInfo dt = Ok li ->
  dN dt < M63 -> dLastRunTimestamp dt < M63 -> pNow P < M63 -> blen (pOrder P) < M63 ->
  (forall id i, pInfo P id = Some i -> iN i < M63) -> pNow P <= pNow2 P ->
  pNow P < dLastRunTimestamp dt' + (if dRecentInsertCount dt' =? 0 then 600 else 60).
Proof.
  intros M P dt dt' r force li PR GI B1 B2 B3 B4 INF MON.
  destruct (C119_refresh M P dt dt' r force li PR GI B1 B2 B3 B4 INF) as (A & B & D & _).
  destruct D as [D|D].
  - destruct (A D) as (_ & -> & ->). cbn. lia.
  - destruct (B D) as (_ & _ & _ & _ & _ & _ & -> & ->). unfold refresh_due in D.
    destruct (dRecentInsertCount dt =? 0) eqn:Z; [apply N.eqb_eq in Z|apply N.eqb_neq in Z]; lia.
Qed.
Print Assumptions C119_age.

(** The first round of a dataset is never put off: whatever was inserted since it was
    made, and with no insert and no source as well, it counts what it reads. *)
Theorem C119_first : forall M P c dt dt' r force li,
  Process M P dt force = Ok (dt', r) -> GetDataInfo dt = Ok li ->
  dLastRunTimestamp dt = dLastRunTimestamp (NewData c) -> dN dt = dN (NewData c) ->
  600 <= pNow P < M63 -> blen (pOrder P) < M63 ->
  (forall id i, pInfo P id = Some i -> iN i < M63) ->
  dN dt' = blen (live_data (pTick P) (pOrder P)) /\ dLastRunTimestamp dt' = pNow2 P.
Proof.
  intros M P c dt dt' r force li PR GI LR LN T O INF. cbn in LR, LN.
  destruct (C119_refresh M P dt dt' r force li PR GI) as (A & _); auto; try (rewrite ?LR, ?LN; unfold M63 in *; lia).
  destruct A as (A1 & A2 & _); [|auto]. unfold refresh_due. rewrite LR. right. right. split; lia.
Qed.
Print Assumptions C119_first.

(** Ten seconds after the first round of a new dataset the next one is not due. *)
Example C119_instance_first :
  let dt := set_map (NewData (cfg_s 9 true)) stat_map in
  let P := pe [] 0 stat_map in
  exists dt' r, Process mathlib_ex P dt false = Ok (dt', r) /\ dN dt' = 2 /\
  ~ refresh_due (dN dt') 1 (dLastRunTimestamp dt') (pNow2 P + 10) 0 false.
Proof.
  cbv zeta. eexists. eexists. split; [vm_compute; reflexivity|]. split; [reflexivity|].
  unfold refresh_due. cbn. intros [X|[X|X]]; [discriminate X|lia|lia].
Qed.

(** A refresh 70 seconds after the last one: due after an insert, not without one. *)
Example C119_instance :
  let dt n i := mkData (Some (cfg_s 9 true)) [] n (f64_of_Z 1) [] 0 930 false (Some []) true true 0 stat_map i in
  let P := pe [] 0 stat_map in
  (exists dt' r, Process mathlib_ex P (dt 50 1) false = Ok (dt', r) /\ dN dt' = 2) /\
  (exists dt' r, Process mathlib_ex P (dt 50 0) false = Ok (dt', r) /\ dN dt' = 50) /\
  pNow P = 1000 /\ refresh_due 50 1 930 1000 0 false /\ ~ refresh_due 50 0 930 1000 0 false /\
  (exists li, GetDataInfo (dt 50 1) = Ok li).
Proof.
  cbv zeta. split; [eexists; eexists; split; vm_compute; reflexivity|].
  split; [eexists; eexists; split; vm_compute; reflexivity|]. split; [reflexivity|].
  unfold refresh_due. split; [right; right; split; lia|]. split; [intros [X|[X|X]]; [discriminate X|lia|lia]|].
  eexists. vm_compute. reflexivity.
Qed.
