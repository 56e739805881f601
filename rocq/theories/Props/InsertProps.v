(** Properties C12-C16: inserts and their replication. *)
From Verif.Base Require Import GoBase GoLemmas Assoc Float.
From Verif.Model Require Import Codec Store Data Insert.
From Verif.Spec Require Import Wire StoreSpec InsertSpec.
From Verif.Proof Require Import CodecP CodecTop StoreP StoreQ InsertP.
From Verif.Props Require Import StoreProps.
Open Scope N_scope.

(** Concrete configurations and datasets. *)
Definition cfg_ex (target : N) (noTarget : bool) (r : N) : DataConfig :=
  mkDataConfig (bs "set1") 0 target (S754_finite false 1 (-1)) noTarget r true 0.
Definition dt_ex (target : N) (noTarget : bool) (r : N) (src : list bytes) : Data :=
  set_sources (NewData (cfg_ex target noTarget r)) (Some src).

(** Sources that acknowledge exactly the ids of a list. *)
Definition ack_only (l : list bytes) (w : unit) (id : bytes) (d : option Datum) (c : InsertConfig)
  : unit * option err :=
  (tt, if existsb (bytes_eqb id) l then None else Some errLink).

(** C12, admission: a well-formed insert is refused with "Number of elements is
    over the target" exactly when a target is enforced and the last computed
    count has reached it, and then nothing changes.  Missing: that the number
    of stored data stays within the target, refuted below. *)
Theorem C12_admission_partial :
  forall W (send : W -> bytes -> option Datum -> InsertConfig -> W * option err)
    now items w dt k v config,
  kv_ok k v -> slot_fine (dDBMap dt) k -> dConfig dt <> None ->
  exists o, Insert send now items w dt (Some (kv k v)) config = Ok o /\
    (oErr o = Some errOverTarget <-> over_target dt) /\
    (over_target dt -> oW o = w /\ oData o = dt /\ oConfig o = config).
Proof.
  intros W send now items w dt k v config Hkv SF DC. unfold Insert.
  destruct (local_spec now dt k v config Hkv SF) as
    [[OT E]|(NOT & dt' & m & fresh & E & E2 & E3 & E4 & _)]; rewrite E.
  - eexists. split; [reflexivity|]. cbn. split; [split; auto|auto].
  - rewrite E4. destruct (dConfig dt) as [dc|] eqn:DC'; [|congruence].
    destruct (Replicate send items w (Some dc) (Some (kv k v)) config) as [r|er|] eqn:R.
    + eexists. split; [reflexivity|]. cbn. split; [|intro; contradiction].
      split; [|intro; contradiction]. intro C. exfalso.
      unfold Replicate in R.
      destruct (_ && _) in R.
      * destruct (RunOnRandomSources _ _ _ _) as [[w1 c1] e1] in R.
        destruct (c1 <? _) in R; injection R as <-; cbn in C; discriminate.
      * injection R as <-. discriminate.
    + exfalso. unfold Replicate in R. destruct (_ && _) in R; [|discriminate].
      destruct (RunOnRandomSources _ _ _ _) as [[w1 c1] e1] in R.
      destruct (c1 <? _) in R; discriminate.
    + exfalso. unfold Replicate in R. destruct (_ && _) in R; [|discriminate].
      destruct (RunOnRandomSources _ _ _ _) as [[w1 c1] e1] in R.
      destruct (c1 <? _) in R; discriminate.
Qed.
Print Assumptions C12_admission_partial.

Example C12_instance :
  kv_ok ka va /\ over_target (mkData (Some (cfg_ex 5 false 1)) [] 5 (S754_zero false) [] 0 0 false
     None false false 0 [] 0) /\
  ~ over_target (dt_ex 5 false 1 []).
Proof.
  split; [apply kva_ok|]. split.
  - eexists. split; [reflexivity|]. split; [reflexivity|]. cbn. lia.
  - intros (c & E & A & B). injection E as <-. cbn in *. lia.
Qed.

(** The same insert into a dataset of reported size 5 with target 5, and into an
    empty one. *)
Example C12_instance_calls :
  let full := mkData (Some (cfg_ex 5 false 0)) [] 5 (S754_zero false) [] 0 0 false None false false 0 [] 0 in
  slot_fine (dDBMap full) ka /\ dConfig full <> None /\
  (exists o, Insert (ack_only []) 100 [] tt full (Some (kv ka va)) None = Ok o /\
     oErr o = Some errOverTarget) /\
  (exists o, Insert (ack_only []) 100 [] tt (dt_ex 5 false 0 []) (Some (kv ka va)) None = Ok o /\
     oErr o = None).
Proof.
  cbv zeta. split; [intros e H; discriminate|]. split; [discriminate|].
  split; eexists; (split; [vm_compute; reflexivity|reflexivity]).
Qed.

(** C12 refuted: with target 1, two inserts of different keys are accepted
    between two statistics runs, so two data are stored. *)
Theorem C12_target_bound_refuted :
  exists dt0 dt1 dt2 o1 o2, dt0 = dt_ex 1 false 0 [] /\
    Insert (ack_only []) 100 [] tt dt0 (Some (kv ka va)) None = Ok o1 /\ oErr o1 = None /\
    dt1 = oData o1 /\
    Insert (ack_only []) 101 [] tt dt1 (Some (kv kb va)) None = Ok o2 /\ oErr o2 = None /\
    dt2 = oData o2 /\
    holds (dDBMap dt2) ka va /\ holds (dDBMap dt2) kb va /\ blen (dDBMap dt2) = 2.
Proof.
  eexists. eexists. eexists. eexists. eexists.
  split; [reflexivity|]. split; [vm_compute; reflexivity|]. split; [reflexivity|].
  split; [reflexivity|]. split; [vm_compute; reflexivity|]. split; [reflexivity|].
  split; [reflexivity|]. split; [|split; [|reflexivity]].
  - eexists. split; [vm_compute; reflexivity|reflexivity].
  - eexists. split; [vm_compute; reflexivity|reflexivity].
Qed.
Print Assumptions C12_target_bound_refuted.

(** C13: for every behaviour of the sources (any state, any acknowledgement
    pattern) and every iteration order, an original insert with enforced
    replication contacts at most six sources, each at most once and only sources
    of the dataset, always with the same datum, the same TTL and count 1; it
    stops as soon as enough acknowledgements arrived (after the first contact:
    with a replication number of 0 or 1 one source is still contacted); it
    returns success only if the datum is stored locally and at least
    ReplicationOnInsert - 1 sources acknowledged, and the replication error
    exactly when fewer did, in which case every source (up to six) was asked. *)
Theorem C13_replicated :
  forall W (send : W -> bytes -> option Datum -> InsertConfig -> W * option err)
    now items w dt dc k v config o,
  kv_ok k v -> slot_fine (dDBMap dt) k -> dConfig dt = Some dc ->
  cEnforceReplicationOnInsert dc = true -> count_of config = 0 -> NoDup items ->
  ~ over_target dt ->
  Insert (logged send) now items (w, []) dt (Some (kv k v)) config = Ok o ->
  let log := snd (oW o) in
  (length log <= 6)%nat /\ NoDup (map toSource log) /\ incl (map toSource log) items /\
  Forall (fun x => sentDatum x = Some (kv k v) /\
                   sentConfig x = mkInsertConfig (ttl_of config) 1) log /\
  (forall p q, log = p ++ q -> p <> [] -> q <> [] -> 1 + acks p < cReplicationOnInsert dc) /\
  (oErr o = None -> holds (dDBMap (oData o)) k v /\ cReplicationOnInsert dc <= 1 + acks log) /\
  (oErr o <> None -> oErr o = Some errReplicas /\ 1 + acks log < cReplicationOnInsert dc /\
     length log = Nat.min (length items) 6).
Proof.
  intros W send now items w dt dc k v config o Hkv SF DC HE HC ND NOT H log.
  unfold Insert in H.
  destruct (local_spec now dt k v config Hkv SF) as
    [[OT E]|(_ & dt' & m & fresh & E & E2 & E3 & E4 & E5 & _)]; [contradiction|].
  rewrite E in H. rewrite E4, DC in H.
  destruct (Replicate (logged send) items (w, []) (Some dc) (Some (kv k v)) config)
    as [r|er|] eqn:R; try discriminate.
  injection H as <-. subst log. cbn [oW oErr oData].
  apply replicate_spec in R; auto. cbv zeta in R.
  destruct R as (A1 & A2 & A3 & A4 & A5 & A6).
  split; [auto|]. split; [|split; [|split; [auto|split; [auto|split]]]].
  - rewrite A1. rewrite <- (firstn_skipn (length (snd (rW r))) items) in ND.
    apply NoDup_app_l in ND. exact ND.
  - rewrite A1. intros x Hx. rewrite <- (firstn_skipn (length (snd (rW r))) items).
    apply in_or_app. auto.
  - rewrite A6. intro Hn. split; [rewrite E3; exact E5|].
    destruct (1 + acks (snd (rW r)) <? cReplicationOnInsert dc) eqn:L; [discriminate|].
    apply N.ltb_ge in L. exact L.
  - rewrite A6. intro Hn.
    destruct (1 + acks (snd (rW r)) <? cReplicationOnInsert dc) eqn:L; [|congruence].
    apply N.ltb_lt in L. auto.
Qed.
Print Assumptions C13_replicated.

(** An instance: replication 3, seven sources of which the second, fifth and
    sixth acknowledge: five are contacted and the insert succeeds. *)
Definition srcs7 : list bytes := [bs "a"; bs "b"; bs "c"; bs "d"; bs "e"; bs "f"; bs "g"].
Example C13_instance :
  NoDup srcs7 /\ ~ over_target (dt_ex 0 true 3 srcs7) /\
  exists o, Insert (logged (ack_only [bs "b"; bs "e"; bs "f"])) 100 srcs7 (tt, [])
    (dt_ex 0 true 3 srcs7) (Some (kv ka va)) None = Ok o /\ oErr o = None /\
    map acked (snd (oW o)) = [false; true; false; false; true].
Proof.
  split; [|split].
  - repeat constructor; cbn; intuition discriminate.
  - intros (c & E & A & B). injection E as <-. cbn in A. discriminate.
  - eexists. split; [vm_compute; reflexivity|]. split; reflexivity.
Qed.

(** C14: whatever the nodes, the peer graph (who resolves to whom, cycles and
    self references included), the link behaviour, the clocks and the iteration
    orders, one client insert causes at most seven insert executions in the
    cluster; all but the first carry forwarding count 1; a request that was
    already forwarded is executed once and not forwarded; and the nesting of
    remote calls is at most two (no run needs more fuel). *)
Theorem C14_replication_terminates : forall E fuel w i d config w' e,
  (2 <= fuel)%nat -> wFuelOut w = false ->
  NodeInsert E fuel w i d config = (w', e) ->
  wFuelOut w' = false /\
  exists new, wExecs w' = new ++ wExecs w /\ (length new <= 7)%nat /\
    (forall fwd first, new = fwd ++ [first] ->
       fst first = i /\ Forall (fun x => snd x = 1) fwd) /\
    (count_of config <> 0 -> (length new <= 1)%nat).
Proof.
  intros E fuel w i d config w' e HF F0 H.
  destruct (node_insert_execs E fuel w i d config w' e HF H) as (A & [B|(fwd & B & C & D & G)]).
  - split; [congruence|]. exists []. cbn. split; [auto|]. split; [lia|]. split; [|lia].
    intros fwd first X. destruct fwd; discriminate.
  - split; [congruence|]. exists (fwd ++ [(i, count_of config)]).
    split. { rewrite B, <- app_assoc. reflexivity. }
    rewrite app_length. cbn [length]. split; [lia|]. split.
    + intros fwd' first X. apply app_inj_tail in X. destruct X as [<- <-]. auto.
    + intro HC. rewrite (G HC). cbn. lia.
Qed.
Print Assumptions C14_replication_terminates.

(** An instance: three nodes, each having all three as sources (itself
    included), replication 4: four executions, one of them at the origin again. *)
Definition node_ex : node := mkNode true false (dt_ex 0 true 4 [bs "0"; bs "1"; bs "2"]).
Definition env_ex : env :=
  mkEnv (fun n => 100 + Z.of_nat n)%Z (fun _ l => l) (fun _ => Deliver)
    (fun id => if bytes_eqb id (bs "0") then Some 0 else if bytes_eqb id (bs "1") then Some 1
               else if bytes_eqb id (bs "2") then Some 2 else None).
Example C14_instance :
  exists w' e, NodeInsert env_ex 2 (mkWorld (fun _ => node_ex) 0 [] false) 0 (Some (kv ka va)) None
    = (w', e) /\ e = None /\ wExecs w' = [(2, 1); (1, 1); (0, 1); (0, 0)].
Proof. eexists. eexists. split; [vm_compute; reflexivity|]. split; vm_compute; reflexivity. Qed.

(** C15: an insert that fails for any other reason than missing replicas leaves
    the store as it was; after missing replicas only the inserted key differs. *)
Theorem C15_failed_insert_partial :
  forall W (send : W -> bytes -> option Datum -> InsertConfig -> W * option err)
    now items w dt d config o e,
  Insert send now items w dt d config = Ok o -> oErr o = Some e ->
  (e <> errReplicas -> dDBMap (oData o) = dDBMap dt) /\
  (forall k v k', d = Some (kv k v) -> kv_ok k v -> slot_fine (dDBMap dt) k ->
     key_ok k' -> key_fits k' -> k' <> k ->
     mload (dDBMap (oData o)) (wire_key k') = mload (dDBMap dt) (wire_key k')).
Proof.
  intros W send now items w dt d config o e H HE. split.
  - intro NE. unfold Insert in H.
    destruct (InsertLocal now dt d config) as [[dt' [er|]]|er|] eqn:IL; try discriminate.
    + injection H as <-. cbn [oData]. unfold InsertLocal in IL.
      destruct (match dConfig dt with Some c => _ | None => false end);
        [injection IL as <- <-; reflexivity|].
      destruct (InsertBDMap _ _ _ _) as [[m fr]|er'|]; try discriminate.
      injection IL as <- <-. unfold InitData. destruct (dInitialized dt); reflexivity.
    + exfalso.
      destruct (Replicate send items w (dConfig dt') d config) as [r|er|] eqn:R; try discriminate.
      injection H as <-. cbn [oErr] in HE. unfold Replicate in R.
      destruct (dConfig dt') as [dc|]; [|discriminate].
      destruct (_ && _) in R; [|injection R as <-; discriminate].
      destruct (RunOnRandomSources _ _ _ _) as [[w1 c1] e1] in R.
      destruct (c1 <? _) in R; injection R as <-; cbn [rErr] in HE; congruence.
  - intros k v k' -> Hkv SF K1 K2 Hne. unfold Insert in H.
    destruct (local_spec now dt k v config Hkv SF) as
      [[OT E]|(NOT & dt' & m & fresh & E & E2 & E3 & E4 & E5 & E6)]; rewrite E in H.
    + injection H as <-. reflexivity.
    + destruct (Replicate _ _ _ _ _ _); try discriminate. injection H as <-. cbn [oData].
      rewrite E3. auto.
Qed.
Print Assumptions C15_failed_insert_partial.

Example C15_instance :
  exists o, Insert (ack_only []) 100 [] tt
    (mkData (Some (cfg_ex 5 false 1)) [] 5 (S754_zero false) [] 0 0 false (Some []) true true 0
       [(wire_key ka, mkEntry 0 (kv ka va))] 0) (Some (kv ka vb)) None = Ok o /\
    oErr o = Some errOverTarget /\ errOverTarget <> errReplicas /\
    holds (dDBMap (oData o)) ka va.
Proof.
  eexists. split; [vm_compute; reflexivity|]. split; [reflexivity|]. split; [discriminate|].
  eexists. split; [vm_compute; reflexivity|reflexivity].
Qed.

(** C15 refuted: an insert that reports missing replicas has stored the datum
    locally, and at the sources that acknowledged. *)
Theorem C15_failed_insert_refuted :
  exists dt o, mload (dDBMap dt) (wire_key ka) = None /\
    Insert (logged (ack_only [bs "b"])) 100 [bs "a"; bs "b"] (tt, []) dt (Some (kv ka va)) None = Ok o /\
    oErr o = Some errReplicas /\ holds (dDBMap (oData o)) ka va /\ acks (snd (oW o)) = 1.
Proof.
  exists (dt_ex 0 true 3 [bs "a"; bs "b"]). eexists. split; [reflexivity|].
  split; [vm_compute; reflexivity|]. split; [reflexivity|]. split; [|reflexivity].
  eexists. split; [vm_compute; reflexivity|reflexivity].
Qed.
Print Assumptions C15_failed_insert_refuted.

(** C16, the part that holds: a complete, well-formed request never crashes the
    node if what is stored under its key is complete. *)
Theorem C16_complete_request_partial :
  forall W (send : W -> bytes -> option Datum -> InsertConfig -> W * option err)
    now items w dt k v config,
  kv_ok k v -> slot_fine (dDBMap dt) k -> dConfig dt <> None ->
  Insert send now items w dt (Some (kv k v)) config <> Panic.
Proof.
  intros. destruct (C12_admission_partial W send now items w dt k v config) as (o & E & _); auto.
  rewrite E. discriminate.
Qed.
Print Assumptions C16_complete_request_partial.

(** A complete request that replaces a stored value. *)
Example C16_instance :
  let dt := mkData (Some (cfg_ex 5 false 1)) [] 1 (S754_zero false) [] 0 0 false (Some []) true true 0
              [(wire_key ka, mkEntry 0 (kv ka va))] 0 in
  kv_ok ka vb /\ slot_fine (dDBMap dt) ka /\ dConfig dt <> None /\
  exists o, Insert (ack_only []) 100 [] tt dt (Some (kv ka vb)) None = Ok o /\
    oErr o = None /\ holds (dDBMap (oData o)) ka vb.
Proof.
  cbv zeta. split; [apply kva_ok|]. split.
  { intros e H. vm_compute in H. injection H as <-. exists va. split; [apply kva_ok|reflexivity]. }
  split; [discriminate|]. eexists. split; [vm_compute; reflexivity|]. split; [reflexivity|].
  eexists. split; vm_compute; reflexivity.
Qed.

(** C16 refuted: below the target, a request without a datum or without a key
    always crashes the process; one without a value is accepted, and the next
    insert of the same key, although well formed, crashes it. *)
Theorem C16_malformed_insert_refuted :
  (forall W (send : W -> bytes -> option Datum -> InsertConfig -> W * option err)
     now items w dt config, ~ over_target dt ->
     Insert send now items w dt None config = Panic /\
     forall v, Insert send now items w dt (Some (mkDatum None v)) config = Panic) /\
  exists dt o, Insert (ack_only []) 100 [] tt dt (Some (mkDatum (Some ka) None)) None = Ok o /\
    oErr o = None /\
    Insert (ack_only []) 101 [] tt (oData o) (Some (kv ka va)) None = Panic.
Proof.
  split.
  - intros W send now items w dt config NOT.
    assert (F : match dConfig dt with
      | Some c => negb (cNoTarget c) && (cTargetN c <=? dN dt)
      | None => false end = false).
    { apply not_true_iff_false. rewrite over_target_dec. exact NOT. }
    unfold Insert, InsertLocal. rewrite F. split; [reflexivity|]. intro v. reflexivity.
  - exists (dt_ex 0 true 1 []). eexists. split; [vm_compute; reflexivity|].
    split; [reflexivity|]. vm_compute. reflexivity.
Qed.
Print Assumptions C16_malformed_insert_refuted.

(** The same seen from the cluster: one malformed request kills the node. *)
Example C16_node_dies :
  exists w' e, NodeInsert env_ex 2 (mkWorld (fun _ => node_ex) 0 [] false) 0 None None = (w', e) /\
    nRunning (wNodes w' 0) = false.
Proof. eexists. eexists. split; vm_compute; reflexivity. Qed.
