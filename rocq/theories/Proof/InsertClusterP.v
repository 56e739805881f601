(** What an insert does to the nodes of a cluster. *)
From Verif.Base Require Import GoBase GoLemmas Assoc Float.
From Verif.Model Require Import Codec Store Data Insert.
From Verif.Spec Require Import Wire StoreSpec InsertSpec.
From Verif.Proof Require Import CodecP CodecTop StoreP StoreQ InsertP.
Open Scope N_scope.

(** The node i holds (k, v). *)
Definition node_holds (w : world) (i : N) (k : DatumKey) (v : DatumValue) : Prop :=
  holds (dDBMap (nData (wNodes w i))) k v.

(** Every node's slot for k is well formed. *)
Definition all_fine (w : world) (k : DatumKey) : Prop := forall i, slot_fine (dDBMap (nData (wNodes w i))) k.

Lemma holds_fine : forall m k v, kv_ok k v -> holds m k v -> slot_fine m k.
Proof. intros m k v K (e & L & D) e' L'. rewrite L in L'. injection L' as <-. eauto. Qed.

(** What a step between two worlds may do. *)
Definition good_step (k : DatumKey) (v : DatumValue) (w w' : world) : Prop :=
  (forall i, nDrain (wNodes w' i) = nDrain (wNodes w i)) /\
  (forall i, nDrain (wNodes w i) = true -> wNodes w' i = wNodes w i) /\
  (forall i, nRunning (wNodes w i) = false -> wNodes w' i = wNodes w i) /\
  (forall i, node_holds w i k v -> node_holds w' i k v) /\
  (all_fine w k -> all_fine w' k).

Lemma good_refl : forall k v w w', wNodes w' = wNodes w -> good_step k v w w'.
Proof. intros k v w w' E. unfold good_step, node_holds, all_fine. rewrite E. repeat split; auto. Qed.
Lemma good_trans : forall k v a b c, good_step k v a b -> good_step k v b c -> good_step k v a c.
Proof.
  intros k v a b c (A1 & A2 & A3 & A4 & A5) (B1 & B2 & B3 & B4 & B5). repeat split; auto.
  - intro i. rewrite B1. auto.
  - intros i D. rewrite B2; auto. rewrite A1. auto.
  - intros i D. rewrite B3; auto. rewrite A3; auto.
Qed.

(** A change of one running node that keeps what it holds. *)
Lemma good_set : forall k v w i n, kv_ok k v ->
  nDrain (wNodes w i) = false -> nRunning (wNodes w i) = true -> nDrain n = false ->
  (dDBMap (nData n) = dDBMap (nData (wNodes w i)) \/ holds (dDBMap (nData n)) k v) ->
  good_step k v w (set_node w i n).
Proof.
  intros k v w i n K D R D' H. unfold good_step, node_holds, all_fine, set_node. cbn [wNodes].
  repeat split.
  - intro j. destruct (N.eqb_spec j i) as [->|]; congruence.
  - intros j J. destruct (N.eqb_spec j i) as [->|]; congruence.
  - intros j J. destruct (N.eqb_spec j i) as [->|]; congruence.
  - intros j J. destruct (N.eqb_spec j i) as [->|]; auto. destruct H as [-> |H]; auto.
  - intros F j. destruct (N.eqb_spec j i) as [->|]; auto. destruct H as [-> |H]; auto. eapply holds_fine; eauto.
Qed.
Lemma good_next : forall k v w, good_step k v w (next_step w).
Proof. intros. apply good_refl. reflexivity. Qed.

Lemma local_keeps : forall now dt k v config dt' e, kv_ok k v -> slot_fine (dDBMap dt) k ->
  InsertLocal now dt (Some (kv k v)) config = Ok (dt', e) ->
  (e = None /\ holds (dDBMap dt') k v /\ dConfig dt' = dConfig dt) \/ (e <> None /\ dt' = dt).
Proof.
  intros now dt k v config dt' e K F E.
  destruct (local_spec now dt k v config K F) as [[_ E1]|(_ & d1 & m & fr & E1 & _ & E2 & E3 & H & _)]; rewrite E in E1.
  - injection E1 as -> ->. right. split; congruence.
  - injection E1 as -> ->. left. rewrite E2. auto.
Qed.

(** A forwarded insert: only node j can change; acknowledged means stored. *)
Lemma forwarded_nodes : forall E fuel w j k v cfg w' e, Count cfg <> 0 -> kv_ok k v -> all_fine w k ->
  NodeInsert E (S fuel) w j (Some (kv k v)) (Some cfg) = (w', e) ->
  good_step k v w w' /\ (forall i, i <> j -> wNodes w' i = wNodes w i) /\
  (e = None -> node_holds w' j k v /\ nRunning (wNodes w j) = true /\ nDrain (wNodes w j) = false).
Proof.
  intros E fuel w j k v cfg w' e HC K F H. cbn [NodeInsert] in H.
  destruct (nRunning (wNodes w j)) eqn:RN; cbn [negb] in H.
  2: { injection H as <- <-. split; [apply good_refl; auto|]. split; auto. discriminate. }
  destruct (nDrain (wNodes w j)) eqn:DR.
  { injection H as <- <-. split; [apply good_refl; auto|]. split; auto. discriminate. }
  set (w1 := log_exec w j _) in *.
  assert (SN : forall n i, i <> j -> wNodes (set_node w1 j n) i = wNodes w i).
  { intros n i N. cbn. destruct (N.eqb_spec i j); [contradiction|reflexivity]. }
  assert (GS : forall n, nDrain n = false ->
    (dDBMap (nData n) = dDBMap (nData (wNodes w j)) \/ holds (dDBMap (nData n)) k v) -> good_step k v w (set_node w1 j n)).
  { intros n D X. apply (good_trans k v w w1); [apply good_refl; reflexivity|]. apply good_set; auto. }
  destruct (InsertLocal _ _ _ _) as [[dt' [er|]]|er|] eqn:IL.
  - injection H as <- <-. destruct (local_keeps _ _ _ _ _ _ _ K (F j) IL) as [[X _]|[_ ->]]; [discriminate|].
    split; [apply GS; cbn; auto|]. split; [auto|discriminate].
  - destruct (local_keeps _ _ _ _ _ _ _ K (F j) IL) as [(_ & HH & CC)|[X _]]; [|congruence].
    rewrite replicate_count in H by exact HC.
    destruct (dConfig dt'); injection H as <- <-.
    + split; [apply (good_trans k v w (set_node w1 j (mkNode true false dt'))); [|apply good_next]; apply GS; cbn; auto|].
      split; [exact (SN _)|]. intros _. split; auto. unfold node_holds. cbn. rewrite N.eqb_refl. exact HH.
    + split.
      2: { split; [|discriminate]. intros i N. cbn. destruct (N.eqb_spec i j); [contradiction|].
           destruct (N.eqb_spec i j); [contradiction|reflexivity]. }
      pose proof (GS (mkNode false false (nData (wNodes w j))) eq_refl (or_introl eq_refl)) as G.
      unfold good_step, node_holds, all_fine, set_node, next_step in *. cbn [wNodes] in *.
      destruct G as (A & B & C & D & F').
      repeat split.
      * intro i. specialize (A i). destruct (N.eqb_spec i j); auto.
      * intros i X. specialize (B i X). destruct (N.eqb_spec i j); auto.
      * intros i X. specialize (C i X). destruct (N.eqb_spec i j); auto.
      * intros i X. specialize (D i X). destruct (N.eqb_spec i j); auto.
      * intros X i. specialize (F' X i). destruct (N.eqb_spec i j); auto.
  - injection H as <- <-. split; [apply GS; cbn; auto|]. split; [auto|discriminate].
  - injection H as <- <-. split; [apply GS; cbn; auto|]. split; [auto|discriminate].
Qed.

(** One remote call of the replication loop. *)
Definition remote (E : env) (fuel : nat) (w : world) (src : bytes) (d : option Datum) (cfg : InsertConfig)
  : world * option err :=
  let lk := eLink E (wStep w) in
  let w := next_step w in
  match eResolve E src with
  | None => (w, Some errLink)
  | Some j =>
      match lk with
      | DropRequest => (w, Some errLink)
      | Deliver => NodeInsert E (S fuel) w j d (Some cfg)
      | DropReply => (fst (NodeInsert E (S fuel) w j d (Some cfg)), Some errLink)
      end
  end.

Lemma remote_nodes : forall E fuel w src k v cfg w' e, Count cfg <> 0 -> kv_ok k v -> all_fine w k ->
  remote E fuel w src (Some (kv k v)) cfg = (w', e) ->
  good_step k v w w' /\
  (forall i, eResolve E src <> Some i -> wNodes w' i = wNodes w i) /\
  (e = None -> exists j, eResolve E src = Some j /\ node_holds w' j k v /\ nDrain (wNodes w j) = false).
Proof.
  intros E fuel w src k v cfg w' e HC K F H. unfold remote in H.
  destruct (eResolve E src) as [j|].
  2: { injection H as <- <-. split; [apply good_next|]. split; auto. discriminate. }
  destruct (NodeInsert E (S fuel) (next_step w) j (Some (kv k v)) (Some cfg)) as [w1 e1] eqn:NI.
  destruct (forwarded_nodes _ _ _ _ _ _ _ _ _ HC K (F : all_fine (next_step w) k) NI) as (A & B & C).
  assert (A' : good_step k v w w1) by (eapply good_trans; [apply good_next|exact A]).
  assert (B' : forall i, Some j <> Some i -> wNodes w1 i = wNodes w i).
  { intros i X. apply B. congruence. }
  destruct (eLink E (wStep w)).
  - injection H as <- <-. split; auto. split; auto. intro X. destruct (C X) as (C1 & _ & C3). exists j. auto.
  - injection H as <- <-. split; [apply good_next|]. split; auto. discriminate.
  - cbn [fst] in H. injection H as <- <-. split; auto. split; auto. discriminate.
Qed.

(** The loop over the sources: every acknowledgement that was counted is a source
    whose node holds the datum. *)
Lemma loop_nodes : forall E fuel dc cfg k v, Count cfg <> 0 -> kv_ok k v ->
  let f := (fun '(w, counter) source =>
            let '(w, e) := remote E fuel w source (Some (kv k v)) cfg in
            let counter := match e with
                           | None => u32 (counter + 1)
                           | Some _ => counter
                           end in
            ((w, counter),
             if cReplicationOnInsert dc <=? counter then Some errReached else None)) in
  forall items limit w c w' c' e, all_fine w k ->
  RunOnRandomSources limit items f (w, c) = ((w', c'), e) ->
  good_step k v w w' /\
  (forall i, (forall src, In src items -> eResolve E src <> Some i) -> wNodes w' i = wNodes w i) /\
  exists srcs, incl srcs items /\ (NoDup items -> NoDup srcs) /\ c' <= c + blen srcs /\
    Forall (fun s => exists j, eResolve E s = Some j /\ node_holds w' j k v /\ nDrain (wNodes w' j) = false) srcs.
Proof.
  intros E fuel dc cfg k v HC K f. induction items as [|id items IH]; intros limit w c w' c' e F H.
  - cbn in H. injection H as <- <- <-. split; [apply good_refl; auto|]. split; auto.
    exists []. cbn. split; [intros ? []|]. split; [constructor|]. split; [lia|constructor].
  - cbn [RunOnRandomSources] in H. destruct (limit <? 0)%Z.
    { injection H as <- <- <-. split; [apply good_refl; auto|]. split; auto.
      exists []. cbn. split; [intros ? []|]. split; [constructor|]. split; [lia|constructor]. }
    destruct (f (w, c) id) as [[w1 c1] oe] eqn:B. unfold f in B.
    destruct (remote E fuel w id (Some (kv k v)) cfg) as [w2 e2] eqn:SE.
    destruct (remote_nodes _ _ _ _ _ _ _ _ _ HC K F SE) as (G & O & A). injection B as -> <- <-.
    assert (U : u32 (c + 1) <= c + 1) by (unfold u32; apply N.mod_le; discriminate).
    destruct (cReplicationOnInsert dc <=? _).
    + injection H as <- <- <-. split; auto. split. { intros i N. apply O, N. left. reflexivity. }
      destruct e2 as [e2|].
      * exists []. split; [intros ? []|]. split; [constructor|]. split; [cbn; lia|constructor].
      * exists [id]. split; [intros x [->|[]]; left; auto|]. split; [repeat constructor; intros []|].
        split; [exact U|]. constructor; [|constructor]. destruct (A eq_refl) as (j & R & HH & D).
        exists j. repeat split; auto. destruct G as (G1 & _). rewrite G1. auto.
    + assert (F1 : all_fine w1 k) by (destruct G as (_ & _ & _ & _ & G5); auto).
      destruct (IH _ _ _ _ _ _ F1 H) as (G2 & O2 & srcs & S1 & S2 & S3 & S4).
      split; [eapply good_trans; eauto|]. split.
      { intros i N. rewrite O2; [|intros; apply N; right; auto]. apply O, N. left. reflexivity. }
      destruct e2 as [e2|].
      * exists srcs. split; [intros x X; right; auto|]. split; [intro ND; inversion ND; auto|]. split; auto.
      * exists (id :: srcs). split; [intros x [->|X]; [left|right]; auto|]. split.
        { intro ND. inversion ND; subst. constructor; auto. }
        split; [rewrite blen_cons; lia|]. constructor; auto. destruct (A eq_refl) as (j & R & HH & D).
        exists j. destruct G as (G1 & _). destruct G2 as (G21 & _ & _ & G24 & _).
        repeat split; auto. rewrite G21, G1. auto.
Qed.

(** The whole insert. *)
Lemma node_insert_nodes : forall E fuel w i k v config w' e,
  (2 <= fuel)%nat -> kv_ok k v -> all_fine w k -> count_of config = 0 ->
  NodeInsert E fuel w i (Some (kv k v)) config = (w', e) ->
  good_step k v w w' /\
  (e = None -> node_holds w' i k v /\ nDrain (wNodes w' i) = false /\
     exists dc items, dConfig (nData (wNodes w i)) = Some dc /\
       items = eOrder E (wStep w) (match dSources (nData (wNodes w i)) with Some l => l | None => [] end) /\
       (dInitialized (nData (wNodes w i)) = true -> cEnforceReplicationOnInsert dc = true ->
        exists srcs, incl srcs items /\ (NoDup items -> NoDup srcs) /\
          cReplicationOnInsert dc <= 1 + blen srcs /\
          Forall (fun s => exists j, eResolve E s = Some j /\ node_holds w' j k v /\ nDrain (wNodes w' j) = false) srcs)).
Proof.
  intros E fuel w i k v config w' e HF K F HC H.
  destruct fuel as [|[|fuel]]; [lia|lia|].
  change (NodeInsert E (S (S fuel)) w i (Some (kv k v)) config) with
   (let n := wNodes w i in
      if negb (nRunning n) then (w, Some errLink)
      else if nDrain n then (w, Some errDrain)
      else
        let w := log_exec w i (match config with Some c => Count c | None => 0 end) in
        let now := eNow E (wStep w) in
        match InsertLocal now (nData n) (Some (kv k v)) config with
        | Panic | Err _ => (set_node w i (mkNode false (nDrain n) (nData n)), Some errLink)
        | Ok (dt', Some e) => (set_node w i (mkNode true (nDrain n) dt'), Some e)
        | Ok (dt', None) =>
            let items := eOrder E (wStep w)
                           (match dSources dt' with Some l => l | None => [] end) in
            let w := next_step (set_node w i (mkNode true (nDrain n) dt')) in
            match Replicate (remote E fuel) items w (dConfig dt') (Some (kv k v)) config
            with
            | Ok r => (rW r, rErr r)
            | Panic | Err _ =>
                (set_node w i (mkNode false (nDrain n) (nData n)), Some errLink)
            end
        end) in H.
  cbv zeta in H.
  destruct (nRunning (wNodes w i)) eqn:RN; cbn [negb] in H.
  2: { injection H as <- <-. split; [apply good_refl; auto|]. discriminate. }
  destruct (nDrain (wNodes w i)) eqn:DR.
  { injection H as <- <-. split; [apply good_refl; auto|]. discriminate. }
  set (w1 := log_exec w i _) in *.
  assert (GS : forall n, nDrain n = false ->
    (dDBMap (nData n) = dDBMap (nData (wNodes w i)) \/ holds (dDBMap (nData n)) k v) -> good_step k v w (set_node w1 i n)).
  { intros n D X. apply (good_trans k v w w1); [apply good_refl; reflexivity|]. apply good_set; auto. }
  destruct (InsertLocal _ _ _ _) as [[dt' [er|]]|er|] eqn:IL.
  - injection H as <- <-. destruct (local_keeps _ _ _ _ _ _ _ K (F i) IL) as [[X _]|[_ ->]]; [discriminate|].
    split; [apply GS; cbn; auto|discriminate].
  - destruct (local_keeps _ _ _ _ _ _ _ K (F i) IL) as [(_ & HH & CC)|[X _]]; [|congruence].
    assert (SRC : dInitialized (nData (wNodes w i)) = true -> dSources dt' = dSources (nData (wNodes w i))).
    { intro IN. unfold InsertLocal in IL. rewrite IN in IL.
      destruct (match dConfig (nData (wNodes w i)) with Some c => _ | None => false end); [discriminate|].
      destruct (InsertBDMap _ _ _ _) as [[m fr]| |]; try discriminate. injection IL as <-. destruct fr; reflexivity. }
    set (w2 := next_step (set_node w1 i (mkNode true false dt'))) in *.
    assert (G2 : good_step k v w w2).
    { eapply good_trans; [|apply good_next]. apply GS; cbn; auto. }
    assert (F2 : all_fine w2 k) by (destruct G2 as (_ & _ & _ & _ & G5); auto).
    assert (H2 : node_holds w2 i k v) by (unfold node_holds; cbn; rewrite N.eqb_refl; exact HH).
    assert (D2 : nDrain (wNodes w2 i) = false) by (cbn; rewrite N.eqb_refl; reflexivity).
    destruct (dConfig dt') as [dc|] eqn:DC.
    2: { cbn [Replicate] in H. injection H as <- <-. split; [|discriminate].
         pose proof (GS (mkNode false false (nData (wNodes w i))) eq_refl (or_introl eq_refl)) as G.
         clear G2 F2 H2 D2. unfold w2, w1, good_step, node_holds, all_fine, set_node, next_step in *. cbn [wNodes log_exec] in *.
         destruct G as (A & B & C & D & F').
         repeat split.
         - intro j. specialize (A j). destruct (N.eqb_spec j i); auto.
         - intros j X. specialize (B j X). destruct (N.eqb_spec j i); auto.
         - intros j X. specialize (C j X). destruct (N.eqb_spec j i); auto.
         - intros j X. specialize (D j X). destruct (N.eqb_spec j i); auto.
         - intros X j. specialize (F' X j). destruct (N.eqb_spec j i); auto. }
    unfold Replicate in H.
    assert (CZ : (Count match config with Some c => c | None => mkInsertConfig 0 0 end =? 0) = true).
    { apply N.eqb_eq. destruct config; exact HC. }
    rewrite CZ, andb_true_r in H.
    destruct (cEnforceReplicationOnInsert dc) eqn:EN.
    2: { injection H as <- <-. cbn [rW rErr]. split; auto. intros _. split; auto. split; auto.
         exists dc. eexists. split; [congruence|]. split; [reflexivity|]. congruence. }
    destruct (RunOnRandomSources _ _ _ _) as [[w3 c3] e3] eqn:RR in H.
    apply (loop_nodes E fuel dc) in RR; auto.
    2: { cbn [Count]. apply N.eqb_eq in CZ. rewrite CZ. vm_compute. discriminate. }
    destruct RR as (G3 & _ & srcs & S1 & S2 & S3 & S4).
    assert (G : good_step k v w w3) by (eapply good_trans; eauto).
    destruct (c3 <? cReplicationOnInsert dc) eqn:CC3; injection H as <- <-; cbn [rW rErr]; (split; [exact G|]).
    { discriminate. }
    intros _. destruct G3 as (G31 & _ & _ & G34 & _). split; [apply G34, H2|]. split; [rewrite G31; exact D2|].
    exists dc. eexists. split; [congruence|]. split; [reflexivity|]. intros IN _. exists srcs.
    rewrite (SRC IN) in S1, S2. split; [exact S1|]. split; [exact S2|]. split; [|exact S4].
    apply N.ltb_ge in CC3. lia.
  - injection H as <- <-. split; [apply GS; cbn; auto|discriminate].
  - injection H as <- <-. split; [apply GS; cbn; auto|discriminate].
Qed.

(** * Draining nodes *)

Lemma run_sources_inv : forall S (P : S -> Prop) f, (forall s id, P s -> P (fst (f s id))) ->
  forall items limit s, P s -> P (fst (RunOnRandomSources limit items f s)).
Proof.
  intros S P f H. induction items as [|id items IH]; intros limit s PS; cbn [RunOnRandomSources]; auto.
  destruct (limit <? 0)%Z; auto. specialize (H s id PS). destruct (f s id) as [s' [e|]]; cbn [fst] in *; auto.
Qed.

Lemma replicate_inv : forall W (P : W -> Prop) send, (forall w id d c, P w -> P (fst (send w id d c))) ->
  forall items w dcfg datum config r, P w -> Replicate send items w dcfg datum config = Ok r -> P (rW r).
Proof.
  intros W P send H items w dcfg datum config r PW R. unfold Replicate in R.
  destruct dcfg as [dc|]; [|discriminate]. destruct (_ && _) in R; [|injection R as <-; exact PW].
  destruct (RunOnRandomSources _ _ _ _) as [[w1 c1] e1] eqn:RR in R.
  assert (X : P w1).
  { match type of RR with RunOnRandomSources _ _ ?f _ = _ =>
      pose proof (run_sources_inv _ (fun x => P (fst x)) f) as X end.
    match type of RR with RunOnRandomSources ?l ?it ?f ?s = _ =>
      assert (Y : P (fst (fst (RunOnRandomSources l it f s)))) end.
    { apply X; auto. intros [w2 c2] id P2. cbn [fst] in *. 
      match goal with |- context [send w2 id ?d ?c] => specialize (H w2 id d c P2); destruct (send w2 id d c) as [w3 e3] end.
      exact H. }
    rewrite RR in Y. exact Y. }
  destruct (c1 <? _) in R; injection R as <-; exact X.
Qed.

Lemma drained_kept : forall E fuel w i d config j, nDrain (wNodes w j) = true ->
  wNodes (fst (NodeInsert E fuel w i d config)) j = wNodes w j.
Proof.
  intros E fuel. induction fuel as [|fuel IH]; intros w i d config j D; [reflexivity|]. cbn [NodeInsert].
  destruct (negb (nRunning (wNodes w i))); [reflexivity|].
  destruct (nDrain (wNodes w i)) eqn:DI; [reflexivity|].
  assert (NE : (j =? i) = false) by (apply N.eqb_neq; congruence).
  destruct (InsertLocal _ _ _ _) as [[dt' [er|]]|er|]; cbn [fst set_node log_exec wNodes]; rewrite ?NE; auto.
  match goal with |- context [Replicate ?send ?it ?w1 ?dc d config] =>
    pose proof (replicate_inv world (fun w' => wNodes w' j = wNodes w j) send) as X;
    destruct (Replicate send it w1 dc d config) as [r| |] eqn:R end; cbn [fst set_node next_step log_exec wNodes]; rewrite ?NE; auto.
  eapply X; [| |exact R].
  - intros w0 id dd cc P0. destruct (eResolve E id) as [x|]; [|exact P0].
    destruct (eLink E (wStep w0)); cbn [fst]; auto.
    + rewrite IH; [exact P0|]. cbn. rewrite P0. exact D.
    + rewrite IH; [exact P0|]. cbn. rewrite P0. exact D.
  - cbn. rewrite NE. reflexivity.
Qed.
