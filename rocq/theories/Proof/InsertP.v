(** Lemmas about inserts and replication. *)
From Verif.Base Require Import GoBase GoLemmas Assoc Float.
From Verif.Model Require Import Codec Store Data Insert.
From Verif.Spec Require Import Wire StoreSpec InsertSpec.
From Verif.Proof Require Import CodecP CodecTop StoreP StoreQ.
Open Scope N_scope.

Lemma over_target_dec : forall dt,
  match dConfig dt with
  | Some c => negb (cNoTarget c) && (cTargetN c <=? dN dt)
  | None => false
  end = true <-> over_target dt.
Proof.
  intro dt. unfold over_target. destruct (dConfig dt) as [c|].
  - rewrite andb_true_iff, negb_true_iff, N.leb_le. split.
    + intros [A B]. exists c. auto.
    + intros (c' & E & A & B). injection E as <-. auto.
  - split; [discriminate|]. intros (c' & E & _). discriminate.
Qed.

(** The local part on well-formed data. *)
Lemma local_spec : forall now dt k v config,
  kv_ok k v -> slot_fine (dDBMap dt) k ->
  (over_target dt /\ InsertLocal now dt (Some (kv k v)) config = Ok (dt, Some errOverTarget)) \/
  (~ over_target dt /\ exists dt' m fresh,
     InsertLocal now dt (Some (kv k v)) config = Ok (dt', None) /\
     InsertBDMap now (dDBMap dt) (Some (kv k v)) config = Ok (m, fresh) /\
     dDBMap dt' = m /\ dConfig dt' = dConfig dt /\ holds m k v /\
     (forall k', key_ok k' -> key_fits k' -> k' <> k ->
        mload m (wire_key k') = mload (dDBMap dt) (wire_key k'))).
Proof.
  intros now dt k v config Hkv SF. unfold InsertLocal.
  destruct (match dConfig dt with Some c => _ | None => false end) eqn:OT.
  - left. split; auto. apply over_target_dec. auto.
  - right. split. { rewrite <- over_target_dec. rewrite OT. discriminate. }
    set (dt0 := if dInitialized dt then dt else InitData dt).
    assert (E0 : dDBMap dt0 = dDBMap dt /\ dConfig dt0 = dConfig dt).
    { unfold dt0, InitData. destruct (dInitialized dt); auto. }
    destruct E0 as [E0 E1].
    destruct (insert_spec now (dDBMap dt) k v config Hkv SF) as (m & fresh & E & R).
    rewrite E0, E. eexists. exists m, fresh. split; [reflexivity|]. split; [reflexivity|].
    split. { destruct fresh; reflexivity. }
    split. { destruct fresh; exact E1. }
    split.
    + unfold holds. destruct fresh.
      * subst m. rewrite mload_mstore_same. eexists. split; reflexivity.
      * destruct R as (-> & e & L & Ed & _). eauto.
    + intros k' A B Hne. destruct fresh.
      * subst m. apply mload_mstore_other. intro C. apply Hne. symmetry.
        destruct Hkv as (C1 & C2 & _).
        destruct (wire_key_prefix_free k k' [] [] C1 A C2 B); auto. rewrite !app_nil_r. auto.
      * destruct R as (-> & _). reflexivity.
Qed.

Lemma acks_app : forall a b, acks (a ++ b) = acks a + acks b.
Proof. intros. unfold acks. rewrite filter_app, blen_app. reflexivity. Qed.

Lemma acks_le : forall l, acks l <= blen l.
Proof.
  induction l as [|c l IH]; [reflexivity|]. unfold acks in *. cbn [filter].
  destruct (acked c); rewrite ?blen_cons; lia.
Qed.

(** The loop over the sources. *)
Section Loop.
Context {W : Type}.
Variable send : W -> bytes -> option Datum -> InsertConfig -> W * option err.
Variable datum : option Datum.
Variable cfg : InsertConfig.
Variable R : N.

Definition body : (W * list contact) * N -> bytes -> ((W * list contact) * N) * option err :=
  fun '(w, counter) source =>
  let '(w, e) := logged send w source datum cfg in
  let counter := match e with None => u32 (counter + 1) | Some _ => counter end in
  ((w, counter), if R <=? counter then Some errReached else None).

Lemma loop_log : forall items limit w log c w' log' c' e,
  (0 <= limit + 1)%Z -> (Z.of_N c + limit + 1 < 4294967296)%Z ->
  RunOnRandomSources limit items body ((w, log), c) = (((w', log'), c'), e) ->
  exists new, log' = log ++ new /\
    map toSource new = firstn (length new) items /\
    Forall (fun x => sentDatum x = datum /\ sentConfig x = cfg) new /\
    (Z.of_nat (length new) <= limit + 1)%Z /\
    c' = c + acks new /\
    (forall p q, new = p ++ q -> p <> [] -> q <> [] -> c + acks p < R) /\
    (c' < R -> length new = Nat.min (length items) (Z.to_nat (limit + 1))).
Proof.
  induction items as [|id items IH]; intros limit w log c w' log' c' e HL HC H.
  - cbn in H. injection H as <- <- <- <-. exists []. cbn.
    split; [rewrite app_nil_r; reflexivity|]. repeat split; auto; try lia.
    intros p q E P. destruct p; [congruence|discriminate].
  - cbn [RunOnRandomSources] in H. destruct (limit <? 0)%Z eqn:LZ.
    { injection H as <- <- <- <-. exists []. cbn.
      split; [rewrite app_nil_r; reflexivity|]. apply Z.ltb_lt in LZ.
      repeat split; auto; try lia.
      - intros p q E P. destruct p; [congruence|discriminate].
      - replace (limit + 1)%Z with 0%Z by lia. reflexivity. }
    apply Z.ltb_ge in LZ.
    destruct (body (w, log, c) id) as [st oe] eqn:B.
    unfold body, logged in B. destruct (send w id datum cfg) as [w1 e1] eqn:SE.
    set (ct := mkContact id datum cfg (match e1 with None => true | Some _ => false end)) in *.
    assert (CT : acks [ct] = match e1 with None => 1 | Some _ => 0 end).
    { unfold acks, ct. destruct e1; reflexivity. }
    assert (C1 : match e1 with None => u32 (c + 1) | Some _ => c end = c + acks [ct]).
    { rewrite CT. destruct e1; [lia|]. unfold u32. rewrite N.mod_small; unfold M32; lia. }
    rewrite C1 in B. injection B as <- <-.
    destruct (R <=? c + acks [ct]) eqn:RL.
    + injection H as <- <- <- <-. apply N.leb_le in RL. exists [ct].
      split; [reflexivity|]. split; [reflexivity|].
      split. { repeat constructor. }
      split. { cbn [length]. lia. }
      split; [reflexivity|]. split; [|lia].
      intros p q E P Q. destruct p as [|x [|y p]]; [congruence| |discriminate].
      injection E as -> E. congruence.
    + apply N.leb_gt in RL.
      destruct (IH (limit - 1)%Z w1 (log ++ [ct]) (c + acks [ct]) w' log' c' e) as
        (new & E1 & E2 & E3 & E4 & E5 & E6 & E7); auto; try lia.
      { pose proof (acks_le [ct]) as A. unfold blen in A. cbn in A. lia. }
      exists (ct :: new). rewrite E1, <- app_assoc. split; [reflexivity|].
      split. { cbn [map firstn length]. f_equal. exact E2. }
      split. { constructor; [split; reflexivity|auto]. }
      split. { cbn [length]. lia. }
      change (ct :: new) with ([ct] ++ new). split. { rewrite acks_app. lia. }
      split.
      * intros p q E P Q. destruct p as [|x p]; [congruence|]. cbn [app] in E.
        injection E as <- E.
        change (ct :: p) with ([ct] ++ p). rewrite acks_app.
        destruct p as [|y p].
        -- unfold acks at 2. cbn. lia.
        -- rewrite N.add_assoc. eapply E6; eauto. discriminate.
      * intro HR. cbn [app length]. rewrite (E7 HR).
        replace (Z.to_nat (limit + 1)) with (S (Z.to_nat (limit - 1 + 1))) by lia.
        reflexivity.
Qed.

End Loop.

(** What a call of Replicate does, as seen on the log. *)
Lemma replicate_spec : forall W (send : W -> _) items w dc datum config r,
  cEnforceReplicationOnInsert dc = true -> count_of config = 0 ->
  Replicate (logged send) items (w, []) (Some dc) datum config = Ok r ->
  let log := snd (rW r) in
  map toSource log = firstn (length log) items /\
  Forall (fun x => sentDatum x = datum /\ sentConfig x = mkInsertConfig (ttl_of config) 1) log /\
  (length log <= 6)%nat /\
  (forall p q, log = p ++ q -> p <> [] -> q <> [] -> 1 + acks p < cReplicationOnInsert dc) /\
  (1 + acks log < cReplicationOnInsert dc -> length log = Nat.min (length items) 6) /\
  rErr r = (if 1 + acks log <? cReplicationOnInsert dc then Some errReplicas else None).
Proof.
  intros W send items w dc datum config r HE HC H. unfold Replicate in H.
  set (cfg0 := match config with Some c => c | None => mkInsertConfig 0 0 end) in *.
  assert (C0 : Count cfg0 = 0) by (unfold cfg0; destruct config; auto).
  assert (T0 : TTL cfg0 = ttl_of config) by (unfold cfg0; destruct config; auto).
  rewrite HE, C0, T0 in H. cbn [N.eqb andb] in H. change (u64 (0 + 1)) with 1 in H.
  set (cfg := mkInsertConfig (ttl_of config) 1) in *.
  match type of H with context [RunOnRandomSources 5 items ?f (w, [], 1)] =>
    change f with (body send datum cfg (cReplicationOnInsert dc)) in H end.
  destruct (RunOnRandomSources 5 items (body send datum cfg (cReplicationOnInsert dc)) (w, [], 1))
    as [[[w1 log1] c1] e1] eqn:L.
  apply loop_log in L; [|lia|lia].
  destruct L as (new & -> & E2 & E3 & E4 & E5 & E6 & E7). cbn [app] in *.
  assert (RW : rW r = (w1, new) /\
     rErr r = if c1 <? cReplicationOnInsert dc then Some errReplicas else None).
  { destruct (c1 <? cReplicationOnInsert dc); injection H as <-; cbn; auto. }
  destruct RW as [RW RE]. rewrite RW, RE. cbn [snd].
  split; [auto|]. split; [auto|]. split; [lia|]. split; [auto|].
  split. { intro HR. rewrite E7 by lia. reflexivity. }
  rewrite E5. reflexivity.
Qed.

(** A request that is not an original one is not forwarded. *)
Lemma replicate_count : forall W (send : W -> _) items w dcfg datum config,
  count_of config <> 0 ->
  Replicate send items w dcfg datum config =
    match dcfg with None => Panic | Some _ => Ok (mkRep w config None) end.
Proof.
  intros W send items w dcfg datum config H. unfold Replicate.
  destruct dcfg as [dc|]; [|reflexivity].
  assert (E : (Count match config with Some c => c | None => mkInsertConfig 0 0 end =? 0) = false).
  { apply N.eqb_neq. destruct config; exact H. }
  rewrite E, andb_false_r. reflexivity.
Qed.

(** * The cluster *)

Lemma forwarded : forall E fuel w j d cfg w' e, Count cfg <> 0 ->
  NodeInsert E (S fuel) w j d (Some cfg) = (w', e) ->
  wFuelOut w' = wFuelOut w /\
  (wExecs w' = wExecs w \/ wExecs w' = (j, Count cfg) :: wExecs w).
Proof.
  intros E fuel w j d cfg w' e HC H. cbn [NodeInsert] in H.
  destruct (nRunning (wNodes w j)); cbn [negb] in H; [|injection H as <- <-; auto].
  destruct (nDrain (wNodes w j)) eqn:DR; [injection H as <- <-; auto|].
  destruct (InsertLocal _ _ _ _) as [[dt' [er|]]|er|] eqn:IL;
    try (injection H as <- <-; cbn; auto; fail).
  rewrite replicate_count in H by exact HC.
  destruct (dConfig dt'); injection H as <- <-; cbn; auto.
Qed.

Definition fwd_log (w w' : world) (n : Z) : Prop :=
  wFuelOut w' = wFuelOut w /\
  exists new, wExecs w' = new ++ wExecs w /\ (Z.of_nat (length new) <= n)%Z /\
    Forall (fun x => snd x = 1) new.

Lemma loop_execs : forall E fuel dc cfg datum, Count cfg = 1 ->
  let send := (fun w src d cfg =>
                 let lk := eLink E (wStep w) in
                 let w := next_step w in
                 match eResolve E src with
                 | None => (w, Some errLink)
                 | Some j =>
                     match lk with
                     | DropRequest => (w, Some errLink)
                     | Deliver => NodeInsert E (S fuel) w j d (Some cfg)
                     | DropReply => (fst (NodeInsert E (S fuel) w j d (Some cfg)), Some errLink)
                     end
                 end) in
  let f := (fun '(w, counter) source =>
            let '(w, e) := send w source datum cfg in
            let counter := match e with
                           | None => u32 (counter + 1)
                           | Some _ => counter
                           end in
            ((w, counter),
             if cReplicationOnInsert dc <=? counter then Some errReached else None)) in
  forall items limit w c w' c' e, (0 <= limit + 1)%Z ->
  RunOnRandomSources limit items f (w, c) = ((w', c'), e) ->
  fwd_log w w' (limit + 1).
Proof.
  intros E fuel dc cfg datum HC send f.
  assert (S1 : forall w src w' e, send w src datum cfg = (w', e) -> fwd_log w w' 1).
  { intros w src w' e H. unfold send in H.
    assert (N0 : fwd_log w (next_step w) 1).
    { split; [reflexivity|]. exists []. cbn. split; [reflexivity|]. split; [lia|constructor]. }
    destruct (eResolve E src) as [j|]; [|injection H as <- <-; auto].
    assert (D : forall w1 e1, NodeInsert E (S fuel) (next_step w) j datum (Some cfg) = (w1, e1) ->
                fwd_log w w1 1).
    { intros w1 e1 HD. apply forwarded in HD; [|lia]. destruct HD as [A [B|B]].
      - split; [exact A|]. exists []. cbn. split; [exact B|]. split; [lia|constructor].
      - split; [exact A|]. exists [(j, Count cfg)]. split; [exact B|]. split; [cbn; lia|].
        repeat constructor. exact HC. }
    destruct (eLink E (wStep w)).
    - exact (D _ _ H).
    - injection H as <- <-. auto.
    - apply (f_equal fst) in H. change (fst (NodeInsert E (S fuel) (next_step w) j datum (Some cfg)) = w') in H.
      rewrite <- H. apply (D _ (snd (NodeInsert E (S fuel) (next_step w) j datum (Some cfg)))).
      apply surjective_pairing. }
  induction items as [|id items IH]; intros limit w c w' c' e HL H.
  - cbn in H. injection H as <- <- <-. split; [reflexivity|]. exists [].
    split; [reflexivity|]. split; [cbn; lia|constructor].
  - cbn [RunOnRandomSources] in H. destruct (limit <? 0)%Z eqn:LZ.
    { injection H as <- <- <-. split; [reflexivity|]. exists [].
      split; [reflexivity|]. split; [cbn; lia|constructor]. }
    apply Z.ltb_ge in LZ.
    destruct (f (w, c) id) as [[w1 c1] oe] eqn:B. unfold f in B.
    destruct (send w id datum cfg) as [w2 e2] eqn:SE. apply S1 in SE.
    injection B as <- <- <-. destruct SE as (A & n1 & A1 & A2 & A3).
    destruct (cReplicationOnInsert dc <=? _).
    + injection H as <- <- <-. split; [exact A|]. exists n1. split; [auto|]. split; [lia|auto].
    + apply IH in H; [|lia]. destruct H as (B & n2 & B1 & B2 & B3).
      split; [congruence|]. exists (n2 ++ n1). rewrite B1, A1, app_assoc. split; [reflexivity|].
      rewrite app_length. split; [lia|]. apply Forall_app. auto.
Qed.

Lemma node_insert_execs : forall E fuel w i d config w' e,
  (2 <= fuel)%nat -> NodeInsert E fuel w i d config = (w', e) ->
  wFuelOut w' = wFuelOut w /\
  (wExecs w' = wExecs w \/
   exists fwd, wExecs w' = fwd ++ (i, count_of config) :: wExecs w /\ (length fwd <= 6)%nat /\
     Forall (fun x => snd x = 1) fwd /\ (count_of config <> 0 -> fwd = [])).
Proof.
  intros E fuel w i d config w' e HF H.
  destruct fuel as [|[|fuel]]; [lia|lia|].
  change (NodeInsert E (S (S fuel)) w i d config) with
   (let n := wNodes w i in
      if negb (nRunning n) then (w, Some errLink)
      else if nDrain n then (w, Some errDrain)
      else
        let w := log_exec w i (match config with Some c => Count c | None => 0 end) in
        let now := eNow E (wStep w) in
        match InsertLocal now (nData n) d config with
        | Panic | Err _ => (set_node w i (mkNode false (nDrain n) (nData n)), Some errLink)
        | Ok (dt', Some e) => (set_node w i (mkNode true (nDrain n) dt'), Some e)
        | Ok (dt', None) =>
            let items := eOrder E (wStep w)
                           (match dSources dt' with Some l => l | None => [] end) in
            let w := next_step (set_node w i (mkNode true (nDrain n) dt')) in
            match Replicate
              (fun w src d cfg =>
                 let lk := eLink E (wStep w) in
                 let w := next_step w in
                 match eResolve E src with
                 | None => (w, Some errLink)
                 | Some j =>
                     match lk with
                     | DropRequest => (w, Some errLink)
                     | Deliver => NodeInsert E (S fuel) w j d (Some cfg)
                     | DropReply => (fst (NodeInsert E (S fuel) w j d (Some cfg)), Some errLink)
                     end
                 end)
              items w (dConfig dt') d config
            with
            | Ok r => (rW r, rErr r)
            | Panic | Err _ =>
                (set_node w i (mkNode false (nDrain n) (nData n)), Some errLink)
            end
        end) in H.
  cbv zeta in H.
  destruct (nRunning (wNodes w i)); cbn [negb] in H; [|injection H as <- <-; auto].
  destruct (nDrain (wNodes w i)) eqn:DR; [injection H as <- <-; auto|].
  change (match config with Some c => Count c | None => 0 end) with (count_of config) in H.
  assert (SIMPLE : forall w1, wFuelOut w1 = wFuelOut w -> wExecs w1 = (i, count_of config) :: wExecs w ->
    wFuelOut w1 = wFuelOut w /\
    (wExecs w1 = wExecs w \/
     exists fwd, wExecs w1 = fwd ++ (i, count_of config) :: wExecs w /\ (length fwd <= 6)%nat /\
     Forall (fun x => snd x = 1) fwd /\ (count_of config <> 0 -> fwd = []))).
  { intros w1 A B. split; [auto|]. right. exists []. cbn. split; [auto|]. split; [lia|].
    split; [constructor|auto]. }
  destruct (InsertLocal _ _ _ _) as [[dt' [er|]]|er|] eqn:IL;
    try (injection H as <- <-; apply SIMPLE; reflexivity).
  destruct (N.eq_dec (count_of config) 0) as [C0|C0].
  2:{ rewrite replicate_count in H by exact C0.
      destruct (dConfig dt'); injection H as <- <-; apply SIMPLE; reflexivity. }
  unfold Replicate in H. destruct (dConfig dt') as [dc|]; [|injection H as <- <-; apply SIMPLE; reflexivity].
  destruct (cEnforceReplicationOnInsert dc && _); [|injection H as <- <-; apply SIMPLE; reflexivity].
  set (cfg := mkInsertConfig _ (u64 (_ + 1))) in H.
  assert (HC : Count cfg = 1).
  { unfold cfg. cbn [Count]. destruct config as [c|]; cbn in *; [rewrite C0|]; reflexivity. }
  match type of H with context [RunOnRandomSources 5 ?it ?f ?s] =>
    destruct (RunOnRandomSources 5 it f s) as [[w1 c1] e1] eqn:L end.
  eapply (loop_execs E fuel dc cfg d HC) in L; [|lia].
  destruct L as (A & new & B & C & D).
  assert (HW : w' = w1).
  { destruct (c1 <? cReplicationOnInsert dc); injection H as <- <-; reflexivity. }
  subst w1. split; [exact A|]. right. exists new. split; [exact B|]. split; [lia|].
  split; [auto|]. congruence.
Qed.
