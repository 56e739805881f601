(** Property C132: inserts between two statistics runs. *)
From Verif.Base Require Import GoBase GoLemmas Assoc Float.
From Verif.Model Require Import Codec Store Data Insert Vector Dataset Sync.
From Verif.Spec Require Import Wire StoreSpec InsertSpec SyncSpec SeriesSpec.
From Verif.Proof Require Import CodecP CodecTop StoreP StoreQ InsertP VectorP.
From Verif.Props Require Import StoreProps InsertProps SyncProps.
From Coq Require Import Lia.
Open Scope N_scope.

(** No entry ever expires. *)
Definition lasting (m : dbmap) : Prop := Forall (fun p => exprireAt (snd p) = 0%Z) m.

(** One insert into a dataset below its target. *)
Lemma insert_below : forall W (send : W -> bytes -> option Datum -> InsertConfig -> W * option err)
    now items w dt k v config,
  kv_ok k v -> slot_fine (dDBMap dt) k -> dConfig dt <> None -> ~ over_target dt ->
  exists o, Insert send now items w dt (Some (kv k v)) config = Ok o /\
    (oErr o = None \/ oErr o = Some errReplicas) /\
    dConfig (oData o) = dConfig dt /\ dN (oData o) = dN dt /\
    dLastRunTimestamp (oData o) = dLastRunTimestamp dt /\
    holds (dDBMap (oData o)) k v /\
    (forall k', key_ok k' -> key_fits k' -> k' <> k ->
       mload (dDBMap (oData o)) (wire_key k') = mload (dDBMap dt) (wire_key k')) /\
    (mload (dDBMap dt) (wire_key k) = None -> length (dDBMap (oData o)) = S (length (dDBMap dt))) /\
    (forall c, dConfig dt = Some c -> cEnforceReplicationOnInsert c = false -> oErr o = None) /\
    (ttl_of config = 0 -> lasting (dDBMap dt) -> lasting (dDBMap (oData o))).
Proof.
  intros W send now items w dt k v config Hkv SF DC NOT.
  destruct (local_spec now dt k v config Hkv SF) as [[X _]|(_ & dt' & m & fresh & E & E1 & E2 & E3 & E4 & E5)];
    [contradiction|].
  assert (EN : dN dt' = dN dt /\ dLastRunTimestamp dt' = dLastRunTimestamp dt).
  { unfold InsertLocal in E. destruct (match dConfig dt with Some c => _ | None => false end); [discriminate|].
    destruct (InsertBDMap _ _ _ _) as [[m1 f1]|e1|]; try discriminate. injection E as <-.
    destruct f1; unfold InitData; destruct (dInitialized dt); split; reflexivity. }
  assert (EL : mload (dDBMap dt) (wire_key k) = None -> length (dDBMap dt') = S (length (dDBMap dt))).
  { intro N0. destruct (insert_spec now (dDBMap dt) k v config Hkv SF) as (m' & f & F & R).
    rewrite E1 in F. injection F as <- <-. rewrite E2. destruct fresh.
    - rewrite R. unfold mstore. cbn [length]. f_equal. f_equal. apply mdelete_notin, mload_none, N0.
    - destruct R as (_ & e & L & _). congruence. }
  assert (EX : ttl_of config = 0 -> lasting (dDBMap dt) -> lasting m).
  { intros T0 La. destruct (insert_spec now (dDBMap dt) k v config Hkv SF) as (m' & f & F & R).
    rewrite E1 in F. injection F as <- <-. destruct fresh; [|destruct R as (-> & _); exact La].
    rewrite R. unfold mstore. constructor.
    - cbn [snd exprireAt]. unfold expireAtOf. destruct config as [cf|]; [|reflexivity]. cbn in T0. rewrite T0. reflexivity.
    - apply Forall_forall. intros p I. apply mdelete_incl in I. revert p I. apply Forall_forall. exact La. }
  unfold Insert. rewrite E, E3. destruct (dConfig dt) as [dc|] eqn:DC'; [|congruence]. unfold Replicate.
  set (cf := match config with Some c => c | None => mkInsertConfig 0 0 end).
  destruct (cEnforceReplicationOnInsert dc && (Count cf =? 0)) eqn:RE.
  - destruct (RunOnRandomSources _ _ _ _) as [[w1 c1] e1].
    assert (EF : cEnforceReplicationOnInsert dc = true) by (apply andb_true_iff in RE; tauto).
    destruct (c1 <? cReplicationOnInsert dc); eexists; (split; [reflexivity|]); cbn [oErr oData rErr rW rConfig];
      (split; [auto|]); rewrite E2; repeat split; try tauto; try (intros; congruence); auto; try (rewrite <- E2; exact EL);
      try (intros c F1 F2; injection F1 as <-; congruence).
  - eexists. split; [reflexivity|]. cbn [oErr oData rErr rW rConfig].
    split; [auto|]. rewrite E2. repeat split; try tauto; auto. rewrite <- E2. exact EL.
Qed.

Lemma over_same : forall a b, dConfig a = dConfig b -> dN a = dN b -> over_target a -> over_target b.
Proof. intros a b E1 E2 (c & A & B & C). exists c. rewrite <- E1, <- E2. auto. Qed.

(** C132.  Between two statistics runs a dataset refuses every insert or none for its
    target, however many there are: either nothing at all happens, or every inserted key
    holds the value of its last insert (and the only error is that of too few replicas). *)
Theorem C132_all_or_none : forall W (send : W -> bytes -> option Datum -> InsertConfig -> W * option err) l w dt,
  Forall (fun q => kv_ok (qKey q) (qValue q)) l -> (forall q, In q l -> slot_fine (dDBMap dt) (qKey q)) ->
  dConfig dt <> None ->
  exists w' dt' es, series send w dt l = Ok (w', dt', es) /\ length es = length l /\
    (over_target dt -> Forall (eq (Some errOverTarget)) es /\ dt' = dt /\ w' = w) /\
    (~ over_target dt -> Forall (fun e => e = None \/ e = Some errReplicas) es /\ ~ over_target dt' /\
       (forall k v, last_value l k = Some v -> holds (dDBMap dt') k v) /\
       (forall k, key_ok k -> key_fits k -> last_value l k = None ->
          mload (dDBMap dt') (wire_key k) = mload (dDBMap dt) (wire_key k))).
Proof.
  intros W send. induction l as [|q l IH]; intros w dt F SF DC.
  - exists w, dt, []. cbn. repeat split; auto; intros; discriminate.
  - inversion F as [|? ? F1 F2]; subst. cbn [series].
    assert (D : over_target dt \/ ~ over_target dt).
    { rewrite <- over_target_dec. destruct (match dConfig dt with Some c => _ | None => false end); [left|right]; congruence. }
    destruct D as [OT|NOT].
    + destruct (local_spec (qTime q) dt (qKey q) (qValue q) (qConfig q) F1 (SF q (or_introl eq_refl))) as [[_ E]|[X _]]; [|contradiction].
      assert (EI : Insert send (qTime q) (qItems q) w dt (Some (kv (qKey q) (qValue q))) (qConfig q) =
        Ok (mkOut w dt (qConfig q) (Some errOverTarget))) by (unfold Insert; rewrite E; reflexivity).
      rewrite EI. cbn [bind oW oData oErr].
      destruct (IH w dt F2 (fun q' I => SF q' (or_intror I)) DC) as (w' & dt' & es & R & L & A & _).
      rewrite R. cbn [bind]. exists w', dt', (Some errOverTarget :: es). split; [reflexivity|].
      destruct (A OT) as (A1 & -> & ->). cbn [length]. split; [lia|]. split; [|intro X; contradiction].
      intros _. split; [constructor; auto|auto].
    + destruct (insert_below W send (qTime q) (qItems q) w dt (qKey q) (qValue q) (qConfig q) F1 (SF q (or_introl eq_refl)) DC NOT)
        as (o & EI & Er & Ec & En & _ & Ho & Hk & _). rewrite EI. cbn [bind].
      assert (NOT' : ~ over_target (oData o)) by (intro X; apply NOT; revert X; apply over_same; auto).
      destruct (IH (oW o) (oData o) F2) as (w' & dt' & es & R & L & _ & A).
      { intros q' I e Le. destruct F1 as (K1 & K2 & K3). destruct (DatumKey_eq_dec (qKey q') (qKey q)) as [Q|Q].
        - rewrite Q in *. destruct Ho as (e' & Le' & Ed). rewrite Le' in Le. injection Le as <-.
          exists (qValue q). split; [split; [|split]; auto|exact Ed].
        - rewrite Forall_forall in F2. destruct (F2 q' I) as (K1' & K2' & _).
          rewrite (Hk (qKey q') K1' K2' Q) in Le. exact (SF q' (or_intror I) e Le). }
      { rewrite Ec. exact DC. }
      rewrite R. cbn [bind]. exists w', dt', (oErr o :: es). split; [reflexivity|]. cbn [length]. split; [lia|].
      split; [intro X; contradiction|]. intros _. destruct (A NOT') as (A1 & A2 & A3 & A4).
      split; [constructor; auto|]. split; [exact A2|]. split.
      * intros k v. cbn [last_value]. destruct (last_value l k) as [v'|] eqn:LV; [intro H; injection H as <-; apply A3, LV|].
        destruct (DatumKey_eq_dec (qKey q) k) as [<-|Q]; [|discriminate]. intro H. injection H as <-.
        destruct F1 as (K1 & K2 & _). destruct Ho as (e & Le & Ed). exists e. split; [|exact Ed].
        rewrite (A4 _ K1 K2 LV). exact Le.
      * intros k K1 K2. cbn [last_value]. destruct (last_value l k) as [v'|] eqn:LV; [discriminate|].
        destruct (DatumKey_eq_dec (qKey q) k) as [Q|Q]; [discriminate|]. intros _.
        rewrite (A4 k K1 K2 LV). apply Hk; auto.
Qed.
Print Assumptions C132_all_or_none.

Lemma series_fresh : forall W (send : W -> bytes -> option Datum -> InsertConfig -> W * option err) l w dt c,
  Forall (fun q => kv_ok (qKey q) (qValue q)) l -> NoDup (map qKey l) ->
  (forall q, In q l -> mload (dDBMap dt) (wire_key (qKey q)) = None) ->
  dConfig dt = Some c -> cEnforceReplicationOnInsert c = false -> ~ over_target dt ->
  exists w' dt' es, series send w dt l = Ok (w', dt', es) /\ Forall (eq None) es /\
    length (dDBMap dt') = (length l + length (dDBMap dt))%nat /\
    dConfig dt' = Some c /\ dN dt' = dN dt /\ dLastRunTimestamp dt' = dLastRunTimestamp dt /\
    (Forall (fun q => ttl_of (qConfig q) = 0) l -> lasting (dDBMap dt) -> lasting (dDBMap dt')).
Proof.
  intros W send. induction l as [|q l IH]; intros w dt c F ND A DC NE NOT.
  - exists w, dt, []. cbn. auto 10.
  - inversion F as [|? ? F1 F2]; subst. inversion ND as [|? ? N1 N2]; subst. cbn [series].
    pose proof (A q (or_introl eq_refl)) as L0.
    destruct (insert_below W send (qTime q) (qItems q) w dt (qKey q) (qValue q) (qConfig q) F1) as (o & EI & _ & Ec & En & Er & _ & Hk & El & Eo & Ex); auto.
    { intros e Le. congruence. } { congruence. }
    rewrite EI. cbn [bind]. destruct (IH (oW o) (oData o) c F2 N2) as (w' & dt' & es & R & Fe & L & C' & N' & T' & X'); auto.
    { intros q' I. rewrite Forall_forall in F2. destruct (F2 q' I) as (K1 & K2 & _). rewrite Hk; auto.
      - apply A. right. exact I.
      - intro Q. apply N1. rewrite <- Q. apply in_map, I. }
    { congruence. } { intro X; apply NOT; revert X; apply over_same; auto. }
    rewrite R. cbn [bind]. exists w', dt', (oErr o :: es). split; [reflexivity|].
    split; [constructor; [symmetry; exact (Eo c DC NE)|exact Fe]|]. rewrite L, El by exact L0. cbn [length].
    split; [lia|]. repeat split; try congruence. intros Ft La. inversion Ft; subst. apply X'; auto.
Qed.

(** So no target bounds what a dataset stores: into a new dataset with any target of at
    least one, any number of data with different keys goes before the first run; a target
    of zero (without the wish for no target) admits nothing, ever. *)
Theorem C132_any_number : forall W (send : W -> bytes -> option Datum -> InsertConfig -> W * option err) l w c,
  Forall (fun q => kv_ok (qKey q) (qValue q)) l -> NoDup (map qKey l) ->
  cEnforceReplicationOnInsert c = false -> cNoTarget c = false ->
  exists w' dt' es, series send w (NewData c) l = Ok (w', dt', es) /\
    (1 <= cTargetN c -> Forall (eq None) es /\ length (dDBMap dt') = length l) /\
    (cTargetN c = 0 -> Forall (eq (Some errOverTarget)) es /\ dDBMap dt' = []).
Proof.
  intros W send l w c F ND NE NT. destruct (N.eq_dec (cTargetN c) 0) as [Z|Z].
  - destruct (C132_all_or_none W send l w (NewData c) F) as (w' & dt' & es & R & _ & A & _).
    { intros q _ e Le. discriminate Le. } { discriminate. }
    exists w', dt', es. split; [exact R|]. split; [intro; lia|]. intros _.
    destruct A as (A1 & -> & _); [|auto]. exists c. cbn. split; [reflexivity|]. split; [exact NT|lia].
  - destruct (series_fresh W send l w (NewData c) c F ND) as (w' & dt' & es & R & Fe & L & _); auto.
    { intros (c' & E & _ & B). cbn in E, B. injection E as <-. lia. }
    exists w', dt', es. split; [exact R|]. split; [|intro; lia]. intros _. split; [exact Fe|].
    rewrite L. cbn. lia.
Qed.
Print Assumptions C132_any_number.

(** The first run afterwards counts them, and from then on everything is refused exactly
    if there are at least as many as the target (data without a time to live). *)
Theorem C132_then : forall W (send : W -> bytes -> option Datum -> InsertConfig -> W * option err) l w c w' dt' es
    M P dt'' r force,
  Forall (fun q => kv_ok (qKey q) (qValue q)) l -> NoDup (map qKey l) ->
  Forall (fun q => ttl_of (qConfig q) = 0) l -> N.of_nat (length l) < M63 ->
  cEnforceReplicationOnInsert c = false -> cNoTarget c = false -> 1 <= cTargetN c ->
  series send w (NewData c) l = Ok (w', dt', es) ->
  Process M P dt' force = Ok (dt'', r) -> Permutation (pOrder P) (dDBMap dt') ->
  600 <= pNow P < M63 -> (forall id i, pInfo P id = Some i -> iN i < M63) ->
  over_target dt'' <-> cTargetN c <= N.of_nat (length l).
Proof.
  intros W send l w c w' dt' es M P dt'' r force F ND FT LL NE NT T1 R PR PO T INF.
  destruct (series_fresh W send l w (NewData c) c F ND) as (w1 & dt1 & es1 & R1 & _ & LN & C1 & N1 & L1 & X1); auto.
  { intros (c' & E & _ & B). cbn in E, B. injection E as <-. lia. }
  rewrite R in R1. injection R1 as <- <- <-. cbn [dDBMap NewData InitData NewPreData length] in LN.
  assert (LO : length (pOrder P) = length l).
  { rewrite (Permutation_length PO), LN. cbn. lia. }
  assert (LIVE : blen (live_data (pTick P) (pOrder P)) = N.of_nat (length l)).
  { rewrite <- LO. unfold live_data, blen. rewrite map_length. f_equal.
    assert (La : lasting (pOrder P)).
    { apply Forall_forall. intros p I. assert (X : lasting (dDBMap dt')) by (apply X1; [exact FT|constructor]).
      unfold lasting in X. rewrite Forall_forall in X. apply X, (Permutation_in _ PO I). }
    revert La. generalize (pOrder P). intro o. induction o as [|p o IH]; intro La; [reflexivity|].
    inversion La as [|? ? La1 La2]; subst. cbn [filter]. unfold expired. rewrite La1. cbn [Z.eqb negb andb length].
    f_equal. apply IH, La2. }
  assert (O : blen (pOrder P) < M63) by (unfold blen; rewrite LO; exact LL).
  assert (GI : exists li, GetDataInfo dt' = Ok li) by (unfold GetDataInfo; rewrite C1; eexists; reflexivity).
  destruct GI as [li GI].
  destruct (C119_first M P c dt' dt'' r force li PR GI L1 N1 T O INF) as [E _]. rewrite LIVE in E.
  assert (EC : dConfig dt'' = Some c).
  { unfold Process in PR. rewrite GI, C1 in PR. destruct (dSources dt'); [|discriminate].
    destruct (DataSourceDiffMap _ _ _ _) as [dm lim]. destruct (process_due _ _ _ _).
    - destruct (LoopDBMap _ _ _ _ _) as [[m s] x]. injection PR as <- <-. reflexivity.
    - injection PR as <- <-. reflexivity. }
  unfold over_target. rewrite EC, E. split; [intros (c' & Q & _ & B); injection Q as <-; exact B|].
  intro B. exists c. auto.
Qed.
Print Assumptions C132_then.

(** Target 2: three inserts of different keys go in; the run counts three; the next
    insert is refused, of a stored key too. *)
Definition two_target : DataConfig := mkDataConfig (bs "set1") 0 2 half false 0 false 0.
Definition three : list request_in :=
  [mkIn 100 ka va None []; mkIn 101 kb va None []; mkIn 102 (mkKey [7] (bs "g") 1 1 1 1) vb (Some (mkInsertConfig 0 1)) []].
Example C132_instance :
  Forall (fun q => kv_ok (qKey q) (qValue q)) three /\ NoDup (map qKey three) /\
  Forall (fun q => ttl_of (qConfig q) = 0) three /\
  exists dt' es, series (ack_only []) tt (NewData two_target) three = Ok (tt, dt', es) /\
    es = [None; None; None] /\ length (dDBMap dt') = 3%nat /\
    exists dt'' r, Process mathlib_ex (pe [] 0 (dDBMap dt')) dt' false = Ok (dt'', r) /\ over_target dt'' /\
      exists dt3, series (ack_only []) tt dt'' [mkIn 1001 ka vb None []; mkIn 1002 (mkKey [8] [] 0 0 0 0) vb None []] =
        Ok (tt, dt3, [Some errOverTarget; Some errOverTarget]) /\ dt3 = dt''.
Proof.
  split. { unfold three. constructor; [|constructor; [|constructor; [|constructor]]]; cbn [qKey qValue]; try apply kva_ok.
    unfold kv_ok, key_ok, value_ok, is_bytes, is_u32, is_u64, is_byte, M8, M32, M64.
    repeat split; repeat constructor; vm_compute; congruence. }
  split. { repeat constructor; cbn; intuition discriminate. }
  split; [repeat constructor|].
  eexists. eexists. split; [vm_compute; reflexivity|]. split; [reflexivity|]. split; [reflexivity|].
  eexists. eexists. split; [vm_compute; reflexivity|].
  split; [eexists; split; [reflexivity|split; [reflexivity|cbn; lia]]|].
  eexists. split; [vm_compute; reflexivity|reflexivity].
Qed.
