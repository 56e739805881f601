(** C128, C129, C56: what the requests of a node do one after the other. *)
From Verif.Base Require Import GoBase GoLemmas Assoc Float GoSort.
From Verif.Model Require Import Codec Store Data Insert Vector Search Dataset Json Index DatasetAll Aggregator CallTree QueryCache SearchStream Requests.
From Verif.Spec Require Import Wire StoreSpec InsertSpec RegistrySpec IsolationSpec RequestSpec.
From Verif.Proof Require Import VectorP FloatLibP DatasetP IsolationP RequestP.
From Verif.Props Require Import QueryProps AnswerProps IsolationProps.
From Coq Require Import Lia.
Open Scope N_scope.

(** C128 A datum that was acknowledged is in the stream: after an insert that was
    answered without error, a stream of the same dataset contains the datum, with its
    value, exactly once, whatever requests came before and in between - searches,
    streams, inserts of other data, requests about other datasets, reports, tasks -
    until another insert of the key, the end of its time to live less nine seconds
    (C10) or the removal or expiry of the dataset. *)
Theorem C128_acknowledged : forall L inc closed T x es1 n1 outs1 now items answers k v c n2 es2 n3 outs3 t tick order n4 r,
  keeps_config closed -> prolongs inc -> tidy T closed ->
  nrun L inc closed nstart es1 = Ok (n1, outs1) -> Forall (decent T) es1 ->
  nstep L inc closed n1 (QInsert now x items answers (Some (kv k v)) c) = Ok (n2, Some (x, RDone)) ->
  decent T (QInsert now x items answers (Some (kv k v)) c) ->
  ttl_of c = 0 \/ (T < now / 1000000000 + Z.of_N (ttl_of c) - 9)%Z ->
  nrun L inc closed n2 es2 = Ok (n3, outs3) -> Forall (decent T) es2 ->
  Forall (fun e => ~ replaces x k e) es2 -> stays L inc closed x n2 es2 -> there t x (nsReg n3) ->
  decent T (QStream t x tick order) ->
  nstep L inc closed n3 (QStream t x tick order) = Ok (n4, r) ->
  exists l1 l2, r = Some (x, RData (l1 ++ kv k v :: l2)) /\ forall d, In d (l1 ++ l2) -> dkey d <> Some k.
Proof.
  intros L inc closed T x es1 n1 outs1 now items answers k v c n2 es2 n3 outs3 t tick order n4 r
    KC PR TC R1 D1 S2 D2 TT R3 D3 NR ST Th D4 S4.
  destruct (run_sound L inc closed KC PR T TC es1 nstart n1 outs1) as [I1 F1]; auto.
  { split; [constructor|]. cbn. discriminate. }
  { intros y dt ex V. cbn in V. discriminate. }
  destruct D2 as (k' & v' & Q & K & A & B). injection Q as <- <-.
  destruct (insert_lasting L inc closed KC PR T x n1 now items answers k v c n2 I1 F1 K A B TT S2) as (I2 & F2 & V2).
  destruct (run_lasting L inc closed KC PR T TC x k v es2 n2 n3 outs3) as (I3 & F3 & V3); auto; try apply K.
  destruct D4 as [D4 D5]. pose proof S4 as S5. cbn [nstep] in S5.
  destruct (with_get inc t (nsReg n3) x (serve_stream tick order)) as [[s' r']| |] eqn:W; try discriminate.
  cbn [bind] in S5. injection S5 as <- <-. unfold with_get in W.
  destruct (Get inc deep t (nsReg n3) x) as [[s1 a]| |]; try discriminate. cbn [bind] in W. unfold on_object in W.
  destruct (nth_error (dsObjs s1) a) as [dt|]; [|discriminate]. unfold serve_stream in W.
  destruct (StreamAll tick (order (dDBMap dt)) (dDBMap dt)) as [m l]. cbn [bind] in W.
  destruct (list_set (dsObjs s1) a (keep_config dt (set_map dt m))); [|discriminate]. injection W as _ <-.
  destruct (stream_lasting L inc closed PR T x k v n3 t tick order _ l K I3 F3 Th D4 D5 S4) as (l1 & l2 & E & H).
  exists l1, l2. rewrite E. auto.
Qed.
Print Assumptions C128_acknowledged.

(** An insert that was refused - for any reason but missing replicas, C15 - left every
    dataset that was there as it was. *)
Theorem C128_refused : forall L inc closed es n outs now x items answers d c n' e y,
  keeps_config closed -> nrun L inc closed nstart es = Ok (n, outs) ->
  nstep L inc closed n (QInsert now x items answers d c) = Ok (n', Some (x, RFail e)) ->
  e <> bs "Replicas is less then Replication Config" -> there now y (nsReg n) ->
  exists dt ex dt' ex', view y (nsReg n) = Some (dt, ex) /\ view y (nsReg n') = Some (dt', ex') /\
    dDBMap dt' = dDBMap dt.
Proof.
  intros L inc closed es n outs now x items answers d c n' e y KC R S NE Th.
  assert (I : inv (nsReg n)). { eapply (run_inv L inc closed KC es nstart); eauto. apply start_inv. }
  destruct Th as (dt & ex & V & Lv). cbn [nstep] in S. destruct (nsDrain n).
  { injection S as <- <-. exists dt, ex, dt, ex. auto. }
  set (f := serve_insert now items answers d c) in S.
  destruct (with_get inc now (nsReg n) x f) as [[s' r]| |] eqn:W; try discriminate. cbn [bind] in S.
  injection S as <- ->. cbn [nsReg]. pose proof (with_get_view inc now (nsReg n) x f I) as H.
  destruct (f (fst (vget inc now x (view x (nsReg n))))) as [[dt1 r]| |] eqn:D; try congruence.
  destruct H as (s1 & H1 & H2 & H3 & H4). rewrite W in H1. injection H1 as <- <-.
  destruct (bytes_dec x y) as [<-|N].
  - exists dt, ex. eexists. eexists. split; auto. split; [exact H4|]. rewrite keep_map.
    unfold vget in D. assert (VL : vlive now (view x (nsReg n)) = Some (dt, ex)).
    { apply (live_there now x (nsReg n) dt ex V). exists dt, ex. auto. }
    rewrite VL in D. cbn [fst] in D.
    unfold f, serve_insert in D. destruct (Insert _ _ _ _ _ _ _) as [o| |] eqn:E; try discriminate.
    2: { injection D as <- <-. reflexivity. }
    injection D as <- D. unfold Insert, InsertLocal in E.
    destruct (match dConfig dt with Some _ => _ | None => _ end); [injection E as <-; reflexivity|].
    set (dt0 := if dInitialized dt then dt else InitData dt) in E.
    assert (M : dDBMap dt0 = dDBMap dt). { unfold dt0, InitData. destruct (dInitialized dt); reflexivity. }
    rewrite M in E. destruct (InsertBDMap (now / 1000000000)%Z (dDBMap dt) d c) as [[m fr]| |] eqn:B; try discriminate.
    2: { injection E as <-. exact M. }
    exfalso. unfold Replicate in E. destruct (dConfig (set_dirty _ _)); [|discriminate].
    destruct (cEnforceReplicationOnInsert _ && _); [|injection E as <-; discriminate].
    destruct (RunOnRandomSources _ _ _ _) as [[w cn] er].
    destruct (cn <? _); injection E as <-; [|discriminate]. cbn in D. injection D as <-. apply NE. reflexivity.
  - exists dt, ex, dt, ex. split; auto. split; auto. rewrite (view_others y x (nsReg n)); auto.
Qed.
Print Assumptions C128_refused.

Definition never (now d old : Z) : Z := if (old <=? 0)%Z then 0%Z else Z.max old (now + d).
Definition sec (n : Z) : Z := (n * 1000000000)%Z.
Definition ttl (n : N) : option InsertConfig := Some (mkInsertConfig n 0).
Definition before : list nevent := [put (sec 20) (bs "b") d1; put (sec 21) (bs "a") d1; find (sec 22) (bs "a") (bs "u1")].
Definition between : list nevent :=
  [find (sec 31) (bs "a") (bs "u2"); QStream (sec 32) (bs "a") (fun _ => 32%Z) (fun m => rev m);
   BTask (bs "a") (fun dt => set_recent dt 0); put (sec 33) (bs "b") d0; put (sec 34) (bs "a") d1;
   BSave (sec 35) [bs "b"; bs "a"]; BDelete (sec 36) (bs "b"); QCreate (sec 37) (mkDataConfig (bs "a") 7 9 fzero true 1 false 0)].

Lemma same_tidy : forall T, tidy T same.
Proof. intros T dt W. auto. Qed.
Lemma d_ok : kv_ok qk v1 /\ kv_ok k1 v1.
Proof.
  unfold kv_ok, key_ok, value_ok, is_bytes, is_u32, is_u64, is_byte, M8, M32, M64.
  repeat split; repeat constructor; vm_compute; congruence.
Qed.
Lemma never_prolongs : prolongs never.
Proof. intros now d old H. unfold never. destruct (old <=? 0)%Z eqn:E; [left; lia|]. apply Z.leb_gt in E. lia. Qed.
Lemma decent_put : forall T t x k v, kv_ok k v -> (10 <= t < 1000)%Z -> decent T (put (sec t) x (kv k v)).
Proof.
  intros T t x k v K H. exists k, v. split; auto. split; auto. unfold sec. rewrite Z.div_mul by lia. cbn. lia.
Qed.

Definition thereb (now : Z) (x : bytes) (s : dstate) : bool :=
  match view x s with Some (_, e) => (e <=? 0)%Z || (now <=? e)%Z | None => false end.
Fixpoint staysb L inc closed (x : bytes) (n : nstate) (es : list nevent) : bool :=
  match es with
  | [] => true
  | e :: es' =>
      match nevent_time e with Some t => thereb t x (nsReg n) | None => true end &&
      match nstep L inc closed n e with
      | Ok (n', _) => match view x (nsReg n') with Some _ => true | None => false end && staysb L inc closed x n' es'
      | _ => true
      end
  end.
Lemma thereb_ok : forall now x s, thereb now x s = true -> there now x s.
Proof.
  intros now x s H. unfold thereb in H. destruct (view x s) as [[dt e]|] eqn:V; [|discriminate]. exists dt, e. split; auto.
  apply orb_true_iff in H. rewrite !Z.leb_le in H. auto.
Qed.
Lemma staysb_ok : forall L inc closed x es n, staysb L inc closed x n es = true -> stays L inc closed x n es.
Proof.
  intros L inc closed x. induction es as [|e es IH]; intros n H; cbn [stays staysb] in *; auto.
  apply andb_true_iff in H. destruct H as [H1 H2]. split.
  - intros t Q. rewrite Q in H1. apply thereb_ok; auto.
  - destruct (nstep L inc closed n e) as [[n' o]| |]; auto. apply andb_true_iff in H2. destruct H2 as [H2 H3].
    split; [|auto]. destruct (view x (nsReg n')); [discriminate|discriminate].
Qed.

(** A datum with a TTL of 100 s, put in at second 30, is in a stream at second 120
    that begins after searches, streams, tasks, other inserts and a change of the
    configuration. *)
Definition ack : nevent := QInsert (sec 30) (bs "a") (fun _ => []) (fun _ => None) (Some (kv qk v1)) (ttl 100).
Definition state_of {A} (r : res (nstate * A)) : nstate := match r with Ok (n, _) => n | _ => nstart end.
Definition outs_of {A} (r : res (nstate * A)) (d : A) : A := match r with Ok (_, o) => o | _ => d end.
Definition r1 := nrun simple_lib never same nstart before.
Definition r2 := nstep simple_lib never same (state_of r1) ack.
Definition r3 := nrun simple_lib never same (state_of r2) between.
Example C128_instance :
  keeps_config same /\ prolongs never /\ tidy 120 same /\
  r1 = Ok (state_of r1, outs_of r1 []) /\ Forall (decent 120) before /\
  r2 = Ok (state_of r2, Some (bs "a", RDone)) /\ decent 120 ack /\
  (120 < sec 30 / 1000000000 + Z.of_N (ttl_of (ttl 100)) - 9)%Z /\
  r3 = Ok (state_of r3, outs_of r3 []) /\ Forall (decent 120) between /\
  Forall (fun e => ~ replaces (bs "a") qk e) between /\ stays simple_lib never same (bs "a") (state_of r2) between /\
  there (sec 120) (bs "a") (nsReg (state_of r3)) /\
  decent 120 (QStream (sec 120) (bs "a") (fun _ => 120%Z) (fun m => m)) /\
  match nstep simple_lib never same (state_of r3) (QStream (sec 120) (bs "a") (fun _ => 120%Z) (fun m => m)) with
  | Ok (_, r) => r = Some (bs "a", RData [kv qk v1; kv k1 v1])
  | _ => False
  end.
Proof.
  destruct d_ok as [K0 K1].
  split; [intro d; reflexivity|]. split; [exact never_prolongs|]. split; [apply same_tidy|].
  split; [vm_compute; reflexivity|]. split.
  { repeat constructor; try (apply (decent_put 120 20 _ k1 v1); [auto|lia]); try (apply (decent_put 120 21 _ k1 v1); [auto|lia]); auto. }
  split; [vm_compute; reflexivity|]. split.
  { exists qk, v1. split; [reflexivity|]. split; auto. vm_compute. split; congruence. }
  split; [vm_compute; reflexivity|]. split; [vm_compute; reflexivity|]. split.
  { repeat apply Forall_cons; try exact Logic.I; try apply Forall_nil.
    - intros dt W. auto.
    - split; [intro; lia|]. intro m. apply Permutation_sym, Permutation_rev.
    - intros dt W. auto.
    - apply (decent_put 120 33 _ qk v1); [auto|lia].
    - apply (decent_put 120 34 _ k1 v1); [auto|lia]. }
  split.
  { repeat apply Forall_cons; try apply Forall_nil; cbn [replaces between put find]; try tauto; intros [A B]; try discriminate A; discriminate B. }
  split; [apply staysb_ok; vm_compute; reflexivity|]. split; [apply thereb_ok; vm_compute; reflexivity|].
  split; [split; [intro; lia|auto]|]. vm_compute. reflexivity.
Qed.

(** The dataset is full: the insert is refused, and what is there stays. *)
Definition full : list nevent :=
  [QCreate (sec 20) (mkDataConfig (bs "a") 0 1 fzero false 0 false 0); put (sec 21) (bs "a") d0;
   BTask (bs "a") (fun dt => mkData (dConfig dt) [] 1 fzero [] 0 0 false (dSources dt) true true 0 (dDBMap dt) 0)].
Example C128_instance_refused : exists n o n',
  nrun simple_lib never same nstart full = Ok (n, o) /\
  nstep simple_lib never same n (put (sec 22) (bs "a") d1) = Ok (n', Some (bs "a", RFail (bs "Number of elements is over the target"))) /\
  there (sec 22) (bs "a") (nsReg n).
Proof.
  eexists. eexists. eexists. split; [vm_compute; reflexivity|]. split; [vm_compute; reflexivity|].
  apply thereb_ok. vm_compute. reflexivity.
Qed.

(** C129 A query identifier is remembered for five minutes: a search whose identifier
    came to the node within five minutes before - with a search that was not itself a
    repetition - is answered with no results and changes nothing; any other search is
    treated as by a node that has never seen a search. *)
Definition later (t : Z) (es : list nevent) (s : Z) : Prop :=
  s = t \/ exists e, In e es /\ nevent_time e = Some s.
Definition memory (u : bytes) (last : option Z) (n : nstate) (t : Z) (es : list nevent) : Prop :=
  match mload (nsSeen n) u with
  | Some e => exists t0, last = Some t0 /\ e = (t0 + 300000000000)%Z
  | None => forall t0 s, last = Some t0 -> later t es s -> (t0 + 300000000000 < s)%Z
  end.
Lemma later_cons : forall t e es s, later t es s -> later t (e :: es) s.
Proof. intros t e es s [->|(e' & A & B)]; [left; auto|right; exists e'; split; auto; right; auto]. Qed.

Lemma step_seen : forall L inc closed u n e n' o, nstep L inc closed n e = Ok (n', o) ->
  match e with
  | QSearch _ rq _ _ => request_uuid rq <> u
  | BForget _ v => v <> u
  | _ => True
  end -> mload (nsSeen n') u = mload (nsSeen n) u.
Proof.
  intros L inc closed u n e n' o E H.
  destruct e as [now k items answers d c|now k|now k tick order|now rq env after|now c|k f|now k|now v|now k|now names|now names|now info names|now l1 l2];
    cbn [nstep] in E;
    try (match type of E with bind ?X _ = _ => destruct X as [y| |]; try discriminate; try destruct y; cbn [bind] in E; injection E as <- <-; reflexivity end).
  - destruct (nsDrain n); [injection E as <- <-; reflexivity|].
    match type of E with bind ?X _ = _ => destruct X as [y| |]; try discriminate; try destruct y; cbn [bind] in E; injection E as <- <-; reflexivity end.
  - unfold request_uuid in H. destruct (srConfig rq) as [c|]; [|discriminate].
    destruct (match scUuid c with [] => false | _ => _ end); [injection E as <- <-; reflexivity|].
    assert (M : mload (match scUuid c with [] => nsSeen n | _ => mstore (nsSeen n) (scUuid c) (now + uuid_life)%Z end) u = mload (nsSeen n) u).
    { destruct (scUuid c) eqn:Q; auto. rewrite mload_mstore_other; auto. }
    destruct (GetNoCreate now (nsReg n) (scDataName c)) as [a|]; [|injection E as <- <-; exact M].
    destruct (on_object (nsReg n) a _) as [[s r]| |]; try discriminate. cbn [bind] in E. injection E as <- <-. exact M.
  - injection E as <- <-. cbn [nsSeen]. destruct (uuid_there now (nsSeen n) v); auto.
    rewrite mload_mdelete, beq_ne; auto.
Qed.

Lemma memory_run : forall L inc closed u t es n n' outs last, u <> [] ->
  nrun L inc closed n es = Ok (n', outs) -> in_time t es -> memory u last n t es ->
  memory u (fold_left (seen_by u) es last) n' t [].
Proof.
  intros L inc closed u t. induction es as [|e es IH]; intros n n' outs last NU R T M.
  - cbn in R. injection R as <- <-. exact M.
  - cbn [nrun] in R. destruct (nstep L inc closed n e) as [[n1 o]| |] eqn:E; try discriminate. cbn [bind] in R.
    destruct (nrun L inc closed n1 es) as [[n2 o2]| |] eqn:R2; try discriminate. cbn [bind] in R. injection R as <- <-.
    cbn [in_time] in T. destruct T as [T1 T2]. cbn [fold_left]. apply (IH n1 n2 o2); auto.
    assert (SAME : mload (nsSeen n1) u = mload (nsSeen n) u -> seen_by u last e = last -> memory u (seen_by u last e) n1 t es).
    { intros A B. rewrite B. unfold memory in *. rewrite A. destruct (mload (nsSeen n) u); auto.
      intros t0 s Q1 Q2. apply M; auto. apply later_cons; auto. }
    assert (AFTER : forall now s, nevent_time e = Some now -> later t es s -> (now <= s)%Z).
    { intros now s Q [->|(e' & I1 & I2)]; [apply T1; auto|]. eapply (proj2 (T1 now Q)); eauto. }
    destruct e as [now k items answers d c|now k|now k tick order|now rq env after|now c|k f|now k|now v|now k|now names|now names|now info names|now l1 l2];
      try (apply SAME; [eapply step_seen; [exact E|exact Logic.I]|reflexivity]).
    + cbn [seen_by]. destruct (bytes_eqb (request_uuid rq) u) eqn:Q.
      2: { assert (N : request_uuid rq <> u) by (intros C; apply bytes_eqb_spec in C; congruence).
           assert (SB : seen_by u last (QSearch now rq env after) = last) by (cbn [seen_by]; rewrite Q; reflexivity).
           rewrite <- SB at 1. apply SAME; auto. eapply step_seen; [exact E|exact N]. }
      apply bytes_eqb_spec in Q. unfold request_uuid in Q. cbn [nstep] in E. destruct (srConfig rq) as [c|]; [|congruence].
      rewrite Q in E. destruct u as [|b u0]; [congruence|]. set (u := b :: u0) in *.
      assert (ST : uuid_there now (nsSeen n) u = false -> nsSeen n1 = mstore (nsSeen n) u (now + uuid_life)%Z).
      { intro H. rewrite H in E. destruct (GetNoCreate now (nsReg n) (scDataName c)) as [a|]; [|injection E as <- <-; reflexivity].
        destruct (on_object (nsReg n) a _) as [[s r]| |]; try discriminate. cbn [bind] in E. injection E as <- <-. reflexivity. }
      unfold memory in M. destruct (uuid_there now (nsSeen n) u) eqn:TH.
      * injection E as <- <-. unfold uuid_there in TH. unfold memory. destruct (mload (nsSeen n) u) as [e|]; [|discriminate].
        destruct M as (t0 & -> & ->). apply Z.leb_le in TH.
        replace (t0 + 300000000000 <? now)%Z with false by (symmetry; apply Z.ltb_ge; lia). eauto.
      * unfold memory. rewrite (ST eq_refl), mload_mstore_same. exists now. split; [|reflexivity].
        unfold uuid_there in TH. destruct (mload (nsSeen n) u) as [e|].
        -- destruct M as (t0 & -> & ->). apply Z.leb_gt in TH.
           replace (t0 + 300000000000 <? now)%Z with true by (symmetry; apply Z.ltb_lt; lia). reflexivity.
        -- destruct last as [t0|]; auto.
           assert (X : (t0 + 300000000000 < now)%Z). { apply M; auto. right. eexists. split; [left; reflexivity|reflexivity]. }
           apply Z.ltb_lt in X. rewrite X. reflexivity.
    + cbn [seen_by]. destruct (bytes_dec v u) as [->|N].
      2: { apply SAME; auto. eapply step_seen; [exact E|exact N]. }
      cbn [nstep] in E. injection E as <- <-. unfold memory in *. cbn [nsSeen]. unfold uuid_there.
      destruct (mload (nsSeen n) u) as [e|] eqn:ML.
      * destruct M as (t0 & -> & ->). destruct (now <=? t0 + 300000000000)%Z eqn:X; [rewrite ML; eauto|].
        rewrite mload_mdelete, beq_refl. intros t1 s Q1 Q2. injection Q1 as <-. apply Z.leb_gt in X.
        specialize (AFTER now s eq_refl Q2). lia.
      * rewrite mload_mdelete, beq_refl. intros t1 s Q1 Q2. apply M; auto. apply later_cons; auto.
Qed.

Theorem C129_repeated : forall L inc closed es n outs t rq env after c,
  nrun L inc closed nstart es = Ok (n, outs) -> in_time t es ->
  srConfig rq = Some c -> scUuid c <> [] ->
  (forall t0, first_seen (scUuid c) es = Some t0 -> (t <= t0 + 300000000000)%Z ->
     nstep L inc closed n (QSearch t rq env after) = Ok (n, Some (scDataName c, RResults []))) /\
  ((forall t0, first_seen (scUuid c) es = Some t0 -> (t0 + 300000000000 < t)%Z) ->
     same_outcome (nstep L inc closed n (QSearch t rq env after))
                  (nstep L inc closed (mkNS (nsDrain n) [] (nsReg n)) (QSearch t rq env after))).
Proof.
  intros L inc closed es n outs t rq env after c R T C NU.
  assert (M := memory_run L inc closed (scUuid c) t es nstart n outs None NU R T).
  assert (M0 : memory (scUuid c) (first_seen (scUuid c) es) n t []).
  { apply M. intros t0 s Q. discriminate Q. }
  clear M. unfold memory in M0. cbn [nstep]. rewrite C. destruct (scUuid c) as [|b u0]; [congruence|]. set (u := b :: u0) in *.
  unfold uuid_there. split.
  - intros t0 F TT. destruct (mload (nsSeen n) u) as [e|].
    + destruct M0 as (t1 & Q & ->). rewrite F in Q. injection Q as <-. apply Z.leb_le in TT. rewrite TT. reflexivity.
    + specialize (M0 t0 t F (or_introl eq_refl)). lia.
  - intro F. cbn [nsSeen nsReg nsDrain mload].
    replace (match mload (nsSeen n) u with Some e => (t <=? e)%Z | None => false end) with false.
    + destruct (GetNoCreate t (nsReg n) (scDataName c)) as [a|]; [|cbn; auto].
      destruct (on_object (nsReg n) a _) as [[s r]| |]; cbn; auto.
    + destruct (mload (nsSeen n) u) as [e|]; auto. destruct M0 as (t1 & Q & ->). specialize (F t1 Q).
      symmetry. apply Z.leb_gt. lia.
Qed.
Print Assumptions C129_repeated.

(** Asked at second 22, again at second 322 and at second 323: the second search is a
    repetition, the third is not. *)
Example C129_instance : exists n o n' o',
  nrun simple_lib never same nstart before = Ok (n, o) /\ in_time (sec 322) before /\
  first_seen (bs "u1") before = Some (sec 22) /\ (sec 322 <= sec 22 + 300000000000 < sec 323)%Z /\
  nstep simple_lib never same n (find (sec 322) (bs "a") (bs "u1")) = Ok (n, Some (bs "a", RResults [])) /\
  nstep simple_lib never same n (find (sec 323) (bs "a") (bs "u1")) = Ok (n', Some (bs "a", RResults [o'])) /\
  sDatum o' = d1.
Proof.
  eexists. eexists. eexists. eexists. split; [vm_compute; reflexivity|]. split.
  { unfold before, put, find, sec. cbn [in_time nevent_time].
    split; [|split; [|split; [|exact Logic.I]]]; intros t Q; injection Q as <-; (split; [lia|]); intros e' t' I Q; cbn [In] in I.
    - destruct I as [<-|[<-|[]]]; cbn [nevent_time] in Q; injection Q as <-; lia.
    - destruct I as [<-|[]]; cbn [nevent_time] in Q; injection Q as <-; lia.
    - destruct I. }
  split; [vm_compute; reflexivity|]. split; [vm_compute; split; congruence|].
  split; [vm_compute; reflexivity|]. split; vm_compute; reflexivity.
Qed.

(** C56 at the requests: once the node was closed, an insert is refused and changes
    nothing, whatever came since. *)
Theorem C56_refused_always : forall L inc closed es1 now l1 l2 es2 n outs t x items answers d c,
  nrun L inc closed nstart (es1 ++ BClose now l1 l2 :: es2) = Ok (n, outs) ->
  nstep L inc closed n (QInsert t x items answers d c) = Ok (n, Some (x, RFail (bs "Node is in drain mode"))).
Proof.
  intros L inc closed es1 now l1 l2 es2 n outs t x items answers d c R.
  assert (ST : forall e a b o, nstep L inc closed a e = Ok (b, o) -> nsDrain a = true -> nsDrain b = true).
  { intros e a b o E H.
    destruct e as [now' k i an dd cc|now' k|now' k tick order|now' rq env after|now' cc|k f|now' k|now' v|now' k|now' names|now' names|now' info names|now' m1 m2];
      cbn [nstep] in E; try (match type of E with bind ?X _ = _ => destruct X as [y| |]; try discriminate; try destruct y; cbn [bind] in E; injection E as <- <-; auto; reflexivity end).
    - rewrite H in E. injection E as <- <-. auto.
    - destruct (srConfig rq) as [cc|]; [|discriminate]. destruct (match scUuid cc with [] => false | _ => _ end); [injection E as <- <-; auto|].
      destruct (GetNoCreate now' (nsReg a) (scDataName cc)) as [ob|]; [|injection E as <- <-; auto].
      destruct (on_object (nsReg a) ob _) as [[s r]| |]; try discriminate. cbn [bind] in E. injection E as <- <-. auto.
    - injection E as <- <-. auto. }
  assert (RUN : forall es a b o, nrun L inc closed a es = Ok (b, o) -> nsDrain a = true -> nsDrain b = true).
  { induction es as [|e es IH]; intros a b o E H; cbn [nrun] in E; [congruence|].
    destruct (nstep L inc closed a e) as [[a1 o1]| |] eqn:E1; try discriminate. cbn [bind] in E.
    destruct (nrun L inc closed a1 es) as [[b1 o2]| |] eqn:E2; try discriminate. cbn [bind] in E. injection E as <- <-. eauto. }
  rewrite nrun_app in R. destruct (nrun L inc closed nstart es1) as [[n1 o1]| |]; try discriminate. cbn [bind] in R.
  destruct (nrun L inc closed n1 (BClose now l1 l2 :: es2)) as [[n2 o2]| |] eqn:R2; try discriminate. cbn [bind] in R. injection R as <- <-.
  cbn [nrun nstep] in R2. destruct (DatasetClose L inc closed now (nsReg n1) l1 l2) as [[s tx]| |]; try discriminate. cbn [bind] in R2.
  destruct (nrun L inc closed (mkNS true (nsSeen n1) s) es2) as [[n3 o3]| |] eqn:R3; try discriminate. cbn [bind] in R2. injection R2 as <- <-.
  cbn [nstep]. rewrite (RUN _ _ _ _ R3 eq_refl). reflexivity.
Qed.
Print Assumptions C56_refused_always.
Example C56_instance_requests : exists n o,
  nrun simple_lib never same nstart (before ++ BClose (sec 40) [bs "a"; bs "b"] [bs "b"; bs "a"] :: [QInfo (sec 41) (bs "a")]) = Ok (n, o) /\
  length o = 4%nat.
Proof. eexists. eexists. split; vm_compute; reflexivity. Qed.
