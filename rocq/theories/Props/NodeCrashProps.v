(** C117: exactly which requests and which steps of its own crash a node. *)
From Verif.Base Require Import GoBase GoLemmas Assoc Float GoSort.
From Verif.Model Require Import Codec Store Data Insert Vector Search Dataset Json Index DatasetAll Aggregator CallTree QueryCache SearchStream Requests.
From Verif.Spec Require Import Wire InsertSpec RegistrySpec IsolationSpec.
From Verif.Proof Require Import VectorP FloatLibP InsertP SearchStreamP DatasetP IsolationP.
From Verif.Props Require Import AnswerProps CrashProps IsolationProps.
From Verif.Props Require QueryProps.
From Coq Require Import Lia Permutation.
Open Scope N_scope.

(** The dataset with that name that is not expired. *)
Definition current (now : Z) (x : bytes) (s : dstate) (dt : Data) : Prop :=
  exists e, view x s = Some (dt, e) /\ ((e <= 0)%Z \/ (now <= e)%Z).

(** The search was seen before and not forgotten. *)
Definition remembered (now : Z) (n : nstate) (uid : bytes) : Prop :=
  exists e, mload (nsSeen n) uid = Some e /\ (now <= e)%Z.

(** A dataset without data has a source that does not answer, and no source that
    comes before it has data. *)
Definition silent_source (info : bytes -> option N) (dt : Data) : Prop :=
  dN dt = 0 /\ exists l1 id l2, dSources dt = Some (l1 ++ id :: l2) /\ info id = None /\
    forall x, In x l1 -> info x = Some 0.

(** What is wrong with a search of the dataset. *)
Definition fatal_search (E : searchEnv) (c : SearchConfig) (rq : SearchRequest) : Prop :=
  M63 <= scResultLimit c \/
  (exists d, In d (srDatum rq) /\ (dkey d = None \/ (scLimit c = 0 /\ zero_hit E c d))) \/
  (bad_context (srContext rq) /\ exists rs, AggregatedAll E c (srDatum rq) = Ok rs /\ eArrive E rs <> []).

(** The event crashes the node. *)
Definition fatal (n : nstate) (e : nevent) : Prop :=
  match e with
  | QInsert now name _ _ d _ =>
      nsDrain n = false /\
      ((exists dt, current now name (nsReg n) dt /\ ~ over_target dt /\ fatal_datum (dDBMap dt) d) \/
       ((forall dt, ~ current now name (nsReg n) dt) /\ forall d', d = Some d' -> dkey d' = None))
  | QSearch now rq env _ =>
      match srConfig rq with
      | None => True
      | Some c =>
          (scUuid c = [] \/ ~ remembered now n (scUuid c)) /\
          exists dt, current now (scDataName c) (nsReg n) dt /\ fatal_search (env dt) c rq
      end
  | BReload now info names =>
      exists name dt, In name names /\ current now name (nsReg n) dt /\ silent_source info dt
  | _ => False
  end.

(** Sizes that fit into memory; the answers of index and sources have keys. *)
Definition sound_event (n : nstate) (e : nevent) : Prop :=
  match e with
  | QInsert now name _ _ d _ =>
      (forall d', d = Some d' -> good_size d') /\
      forall dt, current now name (nsReg n) dt -> good_sizes (dDBMap dt)
  | QSearch now rq env _ => forall c dt, srConfig rq = Some c -> current now (scDataName c) (nsReg n) dt ->
      env_ok (env dt) /\ (forall gs, Permutation (eGroups (env dt) gs) gs) /\
      scLimit c < M32 /\ scResultLimit c < M64 /\
      (forall d k, In d (srDatum rq) -> dkey d = Some k -> key_ok k /\ key_fits k)
  | BReload _ _ names => NoDup names
  | _ => True
  end.

Lemma vlive_current : forall now x s dt, (exists e, vlive now (view x s) = Some (dt, e)) <-> current now x s dt.
Proof.
  intros now x s dt. unfold vlive, current. destruct (view x s) as [[d e]|].
  - destruct (item_live now (mkDI 0 e)) eqn:L.
    + split; intros (e' & H); exists e.
      * injection H as <- <-. split; auto. apply live_iff in L. exact L.
      * destruct H as [H _]. injection H as <- <-. auto.
    + split; intros (e' & H); [discriminate|]. destruct H as [H1 H2]. injection H1 as <- <-.
      assert (item_live now (mkDI 0 e) = true) by (apply live_iff; exact H2). congruence.
  - split; intros (e & H); [discriminate|destruct H; discriminate].
Qed.
Lemma current_one : forall now x s a b, current now x s a -> current now x s b -> a = b.
Proof. intros now x s a b (e & A & _) (f & B & _). congruence. Qed.

Lemma check_iff : forall info dt, CheckIfActive info dt = Panic <-> silent_source info dt.
Proof.
  intros info dt. unfold CheckIfActive, silent_source.
  assert (A : forall ids, any_source info ids = Panic <->
    exists l1 id l2, ids = l1 ++ id :: l2 /\ info id = None /\ forall x, In x l1 -> info x = Some 0).
  { induction ids as [|i ids IH]; cbn [any_source].
    - split; [discriminate|]. intros ([|] & ? & ? & H & _); discriminate.
    - destruct (info i) as [m|] eqn:M.
      + destruct (N.ltb_spec 0 m) as [P|P].
        * split; [discriminate|]. intros ([|j l1] & id & l2 & H & H1 & H2); injection H as <- ->; [congruence|].
          rewrite (H2 i (or_introl eq_refl)) in M. injection M as <-. lia.
        * assert (m = 0) by lia. subst m. rewrite IH. split.
          -- intros (l1 & id & l2 & -> & H1 & H2). exists (i :: l1), id, l2. split; auto. split; auto.
             intros x [<-|J]; auto.
          -- intros ([|j l1] & id & l2 & H & H1 & H2); injection H as <- ->; [congruence|].
             exists l1, id, l2. split; auto. split; auto. intros x J. apply H2. right; auto.
      + split; [intros _|auto]. exists [], i, ids. split; auto. split; auto. intros x []. }
  destruct (N.ltb_spec 0 (dN dt)) as [P|P].
  - split; [discriminate|]. intros [Z _]. lia.
  - assert (dN dt = 0) by lia. destruct (dSources dt) as [ids|].
    + rewrite A. split.
      * intros (l1 & id & l2 & -> & H1 & H2). split; auto. exists l1, id, l2. auto.
      * intros (_ & l1 & id & l2 & E & H1 & H2). injection E as ->. exists l1, id, l2. auto.
    + split; [discriminate|]. intros (_ & l1 & id & l2 & E & _). discriminate.
Qed.
Lemma check_total : forall info dt er, CheckIfActive info dt <> Err er.
Proof.
  intros info dt er. unfold CheckIfActive. destruct (0 <? dN dt); [discriminate|].
  destruct (dSources dt) as [ids|]; [|discriminate]. induction ids as [|i ids IH]; cbn; [discriminate|].
  destruct (info i) as [m|]; [|discriminate]. destruct (0 <? m); [discriminate|auto].
Qed.

Lemma info_fine : forall dt, (exists c, dConfig dt = Some c) -> exists r, serve_info dt = Ok (dt, r).
Proof. intros dt (c & E). unfold serve_info, GetDataInfo. rewrite E. cbn [bind]. eauto. Qed.
Lemma stream_fine : forall tick order dt, exists y, serve_stream tick order dt = Ok y.
Proof. intros. unfold serve_stream. destruct (StreamAll _ _ _). eauto. Qed.

Section C.
Variable L : floatlib.
Variable inc : Z -> Z -> Z -> Z.
Variable closed : Data -> Data.
Hypothesis KC : keeps_config closed.

Lemma save_total : forall now names s, inv s -> exists s' t, SaveIndex L inc now s names = Ok (s', t) /\ inv s'.
Proof.
  intros now. unfold SaveIndex. induction names as [|k names IH]; intros s I; cbn [save_lines]; eauto.
  destruct (get_view inc now s k I) as (s1 & a & dt & e & A1 & A2 & _ & _ & A5 & _). rewrite A1. cbn [bind]. rewrite A5.
  destruct (IH s1 A2) as (s2 & t & E & I2). rewrite E. cbn [bind]. eauto.
Qed.
Lemma list_total : forall now names s, inv s -> exists s' t, DataConfigList inc now s names = Ok (s', t).
Proof.
  intros now. unfold DataConfigList. induction names as [|k names IH]; intros s I; cbn [config_list]; eauto.
  destruct (get_view inc now s k I) as (s1 & a & dt & e & A1 & A2 & _ & _ & A5 & _). rewrite A1. cbn [bind]. rewrite A5.
  destruct (IH s1 A2) as (s2 & t & E). rewrite E. cbn [bind]. eauto.
Qed.
Lemma close_total : forall now names s, inv s -> exists s', close_each inc closed now s names = Ok s'.
Proof.
  intros now. induction names as [|k names IH]; intros s I; cbn [close_each]; eauto.
  destruct (get_view inc now s k I) as (s1 & a & dt & e & A1 & A2 & _ & _ & A5 & _). rewrite A1. cbn [bind].
  apply IH. apply close_inv; auto.
Qed.

(** Two names never share an object. *)
Lemma objects_apart : forall s n m i j, inv s -> mload (dsList s) n = Some i -> mload (dsList s) m = Some j ->
  n <> m -> diObj i <> diObj j.
Proof.
  intros s n m i j [_ I] A B N E. destruct (I _ _ A) as (d & c & X1 & X2 & X3). destruct (I _ _ B) as (d' & c' & Y1 & Y2 & Y3).
  rewrite E, Y1 in X1. injection X1 as ->. congruence.
Qed.

Lemma reload_iff : forall info now names s0 s, NoDup names -> inv s0 -> inv s -> dsList s = dsList s0 ->
  (forall k i, In k names -> mload (dsList s0) k = Some i -> nth_error (dsObjs s) (diObj i) = nth_error (dsObjs s0) (diObj i)) ->
  (reload_scan closed info s (items_of now s0 names) = Panic <->
   exists k dt, In k names /\ current now k s0 dt /\ silent_source info dt) /\
  forall er, reload_scan closed info s (items_of now s0 names) <> Err er.
Proof.
  intros info now. induction names as [|k names IH]; intros s0 s ND I0 I E Q; cbn [items_of].
  { split; [split; [discriminate|intros (k & dt & [] & _)]|discriminate]. }
  inversion ND as [|? ? NI ND']; subst.
  assert (SKIP : (forall dt, ~ current now k s0 dt) \/ (exists dt, current now k s0 dt /\ ~ silent_source info dt) ->
    ((exists k' dt, In k' names /\ current now k' s0 dt /\ silent_source info dt) <->
     exists k' dt, In k' (k :: names) /\ current now k' s0 dt /\ silent_source info dt)).
  { intro H. split.
    - intros (k' & dt & J & X). exists k', dt. split; [right; auto|auto].
    - intros (k' & dt & [<-|J] & X & Y); [|exists k', dt; auto]. exfalso. destruct H as [H|(dt' & H1 & H2)].
      + apply (H dt X).
      + rewrite (current_one _ _ _ _ _ X H1) in Y. auto. }
  assert (IH' : forall t, inv t -> dsList t = dsList s0 ->
     (forall k' i, In k' names -> mload (dsList s0) k' = Some i -> nth_error (dsObjs t) (diObj i) = nth_error (dsObjs s0) (diObj i)) ->
     (reload_scan closed info t (items_of now s0 names) = Panic <->
      exists k dt, In k names /\ current now k s0 dt /\ silent_source info dt) /\
     forall er, reload_scan closed info t (items_of now s0 names) <> Err er).
  { intros t It Et Qt. apply IH; auto. }
  destruct (mload (dsList s0) k) as [i|] eqn:M.
  2:{ rewrite <- SKIP; [apply (IH' s I E (fun k' j J => Q k' j (or_intror J)))|].
      left. intros dt (e & V & _). unfold view in V. rewrite M in V. discriminate. }
  destruct (item_live now i) eqn:LV.
  2:{ rewrite <- SKIP; [apply (IH' s I E (fun k' j J => Q k' j (or_intror J)))|].
      left. intros dt (e & V & W). unfold view in V. rewrite M in V. destruct (nth_error (dsObjs s0) (diObj i)); [|discriminate].
      injection V as -> <-. assert (item_live now i = true) by (apply live_iff; auto). congruence. }
  cbn [reload_scan]. rewrite (Q k i (or_introl eq_refl) M).
  destruct (proj2 I0 _ _ M) as (dt & c & D1 & D2 & D3). rewrite D1.
  assert (CU : current now k s0 dt).
  { exists (diExpires i). unfold view. rewrite M, D1. split; auto. apply live_iff. auto. }
  destruct (CheckIfActive info dt) as [act|er|] eqn:CA; cbn [bind].
  - assert (NS : ~ silent_source info dt) by (rewrite <- check_iff, CA; discriminate).
    destruct act.
    + rewrite <- SKIP by eauto. apply (IH' s I E (fun k' j J => Q k' j (or_intror J))).
    + destruct (IH' (close_obj closed s (diObj i))) as [H1 H2].
      * apply close_inv; auto.
      * rewrite close_list; auto.
      * intros k' j J Mj. rewrite close_nth. destruct (Nat.eqb_spec (diObj i) (diObj j)) as [X|X].
        -- exfalso. apply (objects_apart s0 k k' i j I0 M Mj); auto. intros ->. auto.
        -- apply (Q k' j (or_intror J) Mj).
      * rewrite <- SKIP by eauto.
        destruct (reload_scan closed info (close_obj closed s (diObj i)) (items_of now s0 names)) as [[s' l]|er|] eqn:R; cbn [bind].
        -- split; [|discriminate]. rewrite <- H1. split; discriminate.
        -- exfalso. apply (H2 er). reflexivity.
        -- split; [|discriminate]. rewrite <- H1. tauto.
  - exfalso. apply (check_total info dt er CA).
  - split; [|discriminate]. split; [intros _|auto]. exists k, dt. split; [left; auto|]. split; auto. apply check_iff; auto.
Qed.
End C.

(** C117 Exactly which requests and which steps of its own crash a node.  [es] is
    the history of the node, [e] the next thing that happens to it. *)
Theorem C117_crash : forall L inc closed es n outs e,
  keeps_config closed -> nrun L inc closed nstart es = Ok (n, outs) -> sound_event n e ->
  (nstep L inc closed n e = Panic <-> fatal n e).
Proof.
  intros L inc closed es n outs e KC E SE.
  pose proof (run_inv L inc closed KC _ _ _ _ start_inv E) as I. clear E.
  assert (REP : forall (X : res (dstate * response)) (k : bytes),
    ('(s', r) <- X ;; Ok (mkNS (nsDrain n) (nsSeen n) s', Some (k, r))) = Panic <-> X = Panic).
  { intros X k. destruct X as [[s' r]| |]; cbn [bind]; split; congruence. }
  assert (QUI : forall (X : res dstate),
    (s' <- X ;; Ok (mkNS (nsDrain n) (nsSeen n) s', @None (bytes * response))) = Panic <-> X = Panic).
  { intros X. destruct X as [s'| |]; cbn [bind]; split; congruence. }
  destruct e as [now name items answers d c|now name|now name tick order|now rq env after|now c|name f|now name|now uid|now name
    |now names|now names|now info names|now names1 names2]; cbn [nstep fatal sound_event] in *.
  - (* insert *)
    destruct (nsDrain n) eqn:DR; [split; [discriminate|intros [X _]; discriminate]|].
    rewrite REP. destruct SE as [SD SM].
    pose proof (with_get_view inc now (nsReg n) name (serve_insert now items answers d c) I) as W.
    assert (PAN : with_get inc now (nsReg n) name (serve_insert now items answers d c) = Panic <->
                  serve_insert now items answers d c (fst (vget inc now name (view name (nsReg n)))) = Panic).
    { destruct (serve_insert now items answers d c (fst (vget inc now name (view name (nsReg n))))) as [[dt' r]| |].
      - destruct W as (s' & -> & _). split; discriminate.
      - rewrite W. split; discriminate.
      - rewrite W. tauto. }
    rewrite PAN. clear PAN W.
    assert (INS : forall dt, dConfig dt <> None -> good_sizes (dDBMap dt) ->
      (serve_insert now items answers d c dt = Panic <-> ~ over_target dt /\ fatal_datum (dDBMap dt) d)).
    { intros dt DC GS. rewrite <- (C95_insert nat (fun k _ _ _ => (S k, answers k)) (now / 1000000000)%Z (items dt) O dt d c DC GS SD).
      unfold serve_insert. destruct (Insert _ _ _ _ _ _ _) as [o| |]; split; congruence. }
    destruct (vlive now (view name (nsReg n))) as [[dt ex]|] eqn:VL.
    + unfold vget. rewrite VL. cbn [fst].
      assert (CU : current now name (nsReg n) dt) by (apply vlive_current; eauto).
      rewrite INS; [|destruct CU as (x & V & _); destruct (view_config _ _ _ _ I V) as (c' & X & _); congruence|auto].
      split; [intro H; split; auto; left; eauto|]. intros (_ & [(dt' & C' & H)|(N & _)]).
      * rewrite (current_one _ _ _ _ _ C' CU) in H. exact H.
      * exfalso. apply (N dt CU).
    + assert (NC : forall dt, ~ current now name (nsReg n) dt).
      { intros dt H. apply vlive_current in H. destruct H as (x & H). congruence. }
      unfold vget. rewrite VL. cbn [fst fresh].
      rewrite INS; [|cbn; discriminate|cbn; intros b en X; discriminate].
      split.
      * intros [_ F]. split; auto. right. split; auto. intros d' ->. cbn in F. destruct (dkey d'); auto.
        destruct F as (en & X & _). discriminate.
      * intros (_ & [(dt & X & _)|(_ & F)]); [exfalso; apply (NC dt X)|]. split.
        { rewrite <- over_target_dec. cbn. discriminate. }
        destruct d as [d'|]; cbn; auto. rewrite (F d' eq_refl). auto.
  - (* info *)
    rewrite REP. pose proof (with_get_view inc now (nsReg n) name serve_info I) as W. split; [|tauto]. intro H.
    assert (DC : exists c, dConfig (fst (vget inc now name (view name (nsReg n)))) = Some c).
    { destruct (get_view inc now (nsReg n) name I) as (s' & a & dt & x & _ & I' & _ & M & D & ->). cbn [fst].
      destruct (proj2 I' _ _ M) as (d & c & X1 & X2 & _). cbn in X1. rewrite D in X1. injection X1 as <-. eauto. }
    destruct (info_fine _ DC) as (r & F). rewrite F in W. destruct W as (s' & W & _). congruence.
  - (* stream *)
    rewrite REP. pose proof (with_get_view inc now (nsReg n) name (serve_stream tick order) I) as W. split; [|tauto]. intro H.
    destruct (stream_fine tick order (fst (vget inc now name (view name (nsReg n))))) as (y & F). rewrite F in W.
    destruct y as [dt' r]. destruct W as (s' & W & _). congruence.
  - (* search *)
    destruct (srConfig rq) as [c|] eqn:RC; [|tauto].
    assert (KN : (match scUuid c with [] => false | _ => uuid_there now (nsSeen n) (scUuid c) end = false) <->
                 (scUuid c = [] \/ ~ remembered now n (scUuid c))).
    { unfold uuid_there, remembered. destruct (scUuid c) as [|b u] eqn:U; [tauto|].
      destruct (mload (nsSeen n) (b :: u)) as [x|].
      - destruct (Z.leb_spec now x).
        + split; [discriminate|]. intros [X|X]; [discriminate|]. exfalso. apply X. eauto.
        + split; auto. intros _. right. intros (y & Y & Z). injection Y as <-. lia.
      - split; auto. intros _. right. intros (y & Y & _). discriminate. }
    destruct (match scUuid c with [] => false | _ => uuid_there now (nsSeen n) (scUuid c) end) eqn:K.
    { split; [discriminate|]. intros (X & _). apply KN in X. discriminate. }
    assert (KN' : scUuid c = [] \/ ~ remembered now n (scUuid c)) by (apply KN; auto).
    unfold GetNoCreate. destruct (dl_get now (nsReg n) (scDataName c)) as [a|] eqn:G.
    + destruct (get_live _ _ _ _ I G) as (dt & x & V & M & D).
      assert (CU : current now (scDataName c) (nsReg n) dt) by (apply vlive_current; eauto).
      pose proof (object_view (scDataName c) (nsReg n) a dt x (serve_search c rq env after) I M D) as W.
      assert (PAN : serve_search c rq env after dt = Panic <-> fatal_search (env dt) c rq).
      { pose proof (C98_handler [] (fun _ => Some (env dt)) rq) as H. rewrite RC in H.
        unfold SearchStream, AnswerSearch in H. rewrite RC in H.
        assert (Y : snd (match scUuid c with
                         | [] => ([] : list bytes, MultiAggregatedSearch (env dt) c (srContext rq) (srDatum rq))
                         | _ => if existsb (bytes_eqb (scUuid c)) [] then ([], Ok []) else
                                ([scUuid c], MultiAggregatedSearch (env dt) c (srContext rq) (srDatum rq))
                         end) = MultiAggregatedSearch (env dt) c (srContext rq) (srDatum rq)).
        { destruct (scUuid c); reflexivity. }
        rewrite Y in H. unfold serve_search.
        destruct H as [H1 H2].
        { intros c' E' X1 X2. injection X1 as <-. injection X2 as <-. apply (SE c dt eq_refl CU). }
        split.
        - intro P. destruct (MultiAggregatedSearch (env dt) c (srContext rq) (srDatum rq)) eqn:MA; try discriminate.
          destruct (H1 eq_refl) as (_ & E' & X & F). injection X as <-. exact F.
        - intro F. rewrite H2; auto. split; [auto|]. exists (env dt). auto. }
      split.
      * intro P. split; auto. exists dt. split; auto. apply PAN.
        destruct (serve_search c rq env after dt) as [[dt' r]| |]; auto.
        -- destruct W as (s' & W & _). rewrite W in P. discriminate.
        -- rewrite W in P. discriminate.
      * intros (_ & dt' & C' & F). rewrite (current_one _ _ _ _ _ C' CU) in F. apply PAN in F. rewrite F in W. rewrite W. reflexivity.
    + split; [discriminate|]. intros (_ & dt & C' & _). apply vlive_current in C'. destruct C' as (x & C').
      rewrite (get_dead _ _ _ G) in C'. discriminate.
  - (* create *)
    rewrite REP. pose proof (create_obj_view inc now (nsReg n) c serve_info I) as W. split; [|tauto]. intro H.
    assert (DC : exists c', dConfig (fst (vcreate inc now c (view (cName c) (nsReg n)))) = Some c').
    { destruct (create_view inc now (nsReg n) c I) as (s' & a & dt & x & _ & I' & _ & M & D & ->). cbn [fst].
      destruct (proj2 I' _ _ M) as (d & c' & X1 & X2 & _). cbn in X1. rewrite D in X1. injection X1 as <-. eauto. }
    destruct (info_fine _ DC) as (r & F). rewrite F in W. destruct W as (s' & W & _). congruence.
  - (* task *)
    rewrite QUI. split; [|tauto]. destruct (mload (dsList (nsReg n)) name) as [[a x]|] eqn:M; [|discriminate]. cbn [diObj].
    destruct (proj2 I _ _ M) as (dt & c & D & _). cbn in D.
    pose proof (object_view name (nsReg n) a dt x (fun dt => Ok (f dt, RDone)) I M D) as W. cbn in W.
    destruct W as (s' & W & _). rewrite W. cbn [bind]. discriminate.
  - (* expire *)
    rewrite QUI. split; [|tauto]. cbn [dstep]. destruct (dl_get now (nsReg n) name); discriminate.
  - (* forget *) split; [discriminate|tauto].
  - (* delete *) rewrite QUI. split; [discriminate|tauto].
  - (* save *)
    rewrite QUI. split; [|tauto]. destruct (save_total L inc now names (nsReg n) I) as (s' & t & -> & _). cbn [bind]. discriminate.
  - (* list *)
    rewrite QUI. split; [|tauto]. destruct (list_total inc now names (nsReg n) I) as (s' & t & ->). cbn [bind]. discriminate.
  - (* reload *)
    rewrite QUI. unfold ReloadRuns.
    destruct (reload_iff inc closed KC info now names (nsReg n) (nsReg n) SE I I eq_refl) as [H1 H2]; auto.
    rewrite <- H1. destruct (reload_scan _ _ _ _) as [[s' l]| |]; cbn [bind]; split; congruence.
  - (* close *)
    split; [|tauto]. unfold DatasetClose. destruct (save_total L inc now names1 (nsReg n) I) as (s' & t & -> & I'). cbn [bind].
    destruct (close_total inc closed KC now names2 s' I') as (s2 & ->). cbn [bind]. discriminate.
Qed.
Print Assumptions C117_crash.

(** A node that holds a dataset: an insert without a value of a stored key crashes it
    unless it drains; so does a search with limit 0, but not a second time with the
    same uuid; so does housekeeping of an empty dataset with a silent source. *)
Definition fill : list nevent := [put 1 (bs "a") d0; BTask (bs "b") same; QInfo 2 (bs "b");
  BTask (bs "b") (fun dt => set_sources dt (Some [bs "p"; bs "q"]))].
Definition rude (now : Z) : nevent := QInsert now (bs "a") (fun _ => []) (fun _ => None) (Some (mkDatum (dkey d0) None)) None.
Definition silent : nevent := BReload 3 (fun id => if bytes_eqb id (bs "p") then Some 0 else None) [bs "a"; bs "b"].

Definition filled : nstate := match nrun simple_lib add same nstart fill with Ok (n, _) => n | _ => nstart end.
Definition filled_out : list (bytes * response) :=
  match nrun simple_lib add same nstart fill with Ok (_, o) => o | _ => [] end.

Lemma filled_runs : nrun simple_lib add same nstart fill = Ok (filled, filled_out).
Proof. vm_compute. reflexivity. Qed.
Lemma d0_size : forall v, v = None \/ v = Some v1 -> good_size (mkDatum (Some QueryProps.qk) v).
Proof.
  intros v V. split; cbn; intros x E.
  - injection E as <-. vm_compute. split; discriminate.
  - destruct V as [->| ->]; [discriminate|]. injection E as <-. vm_compute. discriminate.
Qed.

Example C117_instance : keeps_config same /\ nrun simple_lib add same nstart fill = Ok (filled, filled_out) /\
  sound_event filled (rude 3) /\ nstep simple_lib add same filled (rude 3) = Panic /\ fatal filled (rude 3) /\
  nstep simple_lib add same (mkNS true (nsSeen filled) (nsReg filled)) (rude 3) <> Panic /\
  sound_event filled silent /\ nstep simple_lib add same filled silent = Panic /\ fatal filled silent /\
  sound_event filled (QCreate 4 (GetDefaultConfig (bs "c"))) /\ ~ fatal filled (QCreate 4 (GetDefaultConfig (bs "c"))).
Proof.
  assert (K : keeps_config same) by (intro; reflexivity). pose proof filled_runs as R.
  assert (S1 : sound_event filled (rude 3)).
  { split.
    - intros d' E. injection E as <-. apply d0_size. auto.
    - intros dt (e & V & _) b en M.
      assert (F : match view (bs "a") (nsReg filled) with
                  | Some (dt, _) => dDBMap dt = [(wire_key QueryProps.qk, mkEntry 0 d0)] | None => False end) by (vm_compute; reflexivity).
      rewrite V in F. rewrite F in M. clear F V. revert M. generalize (wire_key QueryProps.qk). intros w M. cbn [mload] in M.
      destruct (bytes_eqb w b); [|discriminate]. injection M as M. rewrite <- M. apply (d0_size (Some v1)). right. reflexivity. }
  assert (S2 : sound_event filled silent).
  { cbn. constructor; [|constructor; [intros []|constructor]]. intros [E|[]]. vm_compute in E. discriminate. }
  assert (P1 : nstep simple_lib add same filled (rude 3) = Panic) by (vm_compute; reflexivity).
  assert (P2 : nstep simple_lib add same filled silent = Panic) by (vm_compute; reflexivity).
  split; auto. split; auto. split; auto. split; auto.
  split; [apply (C117_crash _ _ _ _ _ _ _ K R S1); auto|]. split; [vm_compute; discriminate|].
  split; auto. split; auto. split; [apply (C117_crash _ _ _ _ _ _ _ K R S2); auto|]. split; [exact Logic.I|]. intros [].
Qed.
