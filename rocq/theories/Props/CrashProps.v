(** C95-C98: exactly which requests crash a node. *)
From Verif.Base Require Import GoBase GoLemmas Assoc Float GoSort.
From Verif.Model Require Import Codec Store Data Vector Search Aggregator CallTree Json QueryCache Insert.
From Verif.Model Require SearchStream.
From Verif.Spec Require Import Wire StoreSpec TopK TreeSpec InsertSpec.
From Verif.Proof Require Import CodecTop StoreP StoreQ TopKP SearchP AggP InsertP.
From Verif.Proof Require SearchStreamP.
From Verif.Props Require Import StoreProps SearchProps InsertProps.
From Verif.Props Require QueryProps.
Open Scope N_scope.

(** ** C95: inserts *)

(** Key and value are of representable size (lengths that Go can allocate). *)
Definition good_size (d : Datum) : Prop :=
  (forall k, dkey d = Some k -> key_fits k) /\ (forall v, dvalue d = Some v -> value_fits v).
Definition good_sizes (m : dbmap) : Prop := forall b e, mload m b = Some e -> good_size (edatum e).

(** What is wrong with a request, given the store. *)
Definition fatal_datum (m : dbmap) (datum : option Datum) : Prop :=
  match datum with
  | None => True
  | Some d =>
      match dkey d with
      | None => True
      | Some k => exists e, mload m (wire_key k) = Some e /\ (dvalue d = None \/ dvalue (edatum e) = None)
      end
  end.

Lemma MarshalKey_none : MarshalKey None = Panic.
Proof. reflexivity. Qed.
Lemma MarshalValue_none : MarshalValue None = Panic.
Proof. reflexivity. Qed.

Lemma bdmap_cases : forall now m datum config, good_sizes m ->
  (forall d, datum = Some d -> good_size d) ->
  (fatal_datum m datum /\ InsertBDMap now m datum config = Panic) \/
  (~ fatal_datum m datum /\ exists d k, datum = Some d /\ dkey d = Some k /\
     ((mload m (wire_key k) = None /\
       InsertBDMap now m datum config = Ok (mstore m (wire_key k) (mkEntry (expireAtOf now config) d), true)) \/
      (exists e v v', mload m (wire_key k) = Some e /\ dvalue d = Some v /\ dvalue (edatum e) = Some v' /\
       (InsertBDMap now m datum config = Ok (mstore m (wire_key k) (mkEntry (expireAtOf now config) d), true) \/
        InsertBDMap now m datum config = Ok (m, false))))).
Proof.
  intros now m datum config GS GD. unfold InsertBDMap, fatal_datum. destruct datum as [d|]; [|left; auto].
  destruct (GD d eq_refl) as (GK & GV). unfold GetKeyAsBytes, GetValueAsBytes.
  destruct (dkey d) as [k|] eqn:DK; [|left; rewrite MarshalKey_none; auto].
  rewrite MarshalKey_spec by auto. cbn [bind]. unfold EncodeToString.
  destruct (mload m (wire_key k)) as [e|] eqn:L.
  - destruct (dvalue d) as [v|] eqn:DV.
    + rewrite MarshalValue_spec by auto. cbn [bind]. destruct (GS _ _ L) as (_ & GV').
      destruct (dvalue (edatum e)) as [v'|] eqn:DE.
      * right. rewrite MarshalValue_spec by auto. cbn [bind]. split.
        { intros (e' & E' & [X|X]); [discriminate|]. injection E' as <-. congruence. }
        exists d, k. split; [reflexivity|]. split; [exact DK|]. right. exists e, v, v'. split; [first [reflexivity|assumption]|]. split; [first [reflexivity|assumption]|]. split; [first [reflexivity|assumption]|].
        match goal with |- context [negb ?x] => destruct x end; cbn; auto.
      * left. split; [exists e; auto|]. rewrite MarshalValue_none. reflexivity.
    + left. split; [exists e; auto|]. rewrite MarshalValue_none. reflexivity.
  - right. split; [intros (e & E & _); discriminate|]. exists d, k. split; [reflexivity|]. split; [exact DK|]. left. split; [first [reflexivity|assumption]|reflexivity].
Qed.

(** C95 Exactly these inserts crash a node: below the target, one without a datum,
    one without a key, and one without a value, or for a stored datum without a
    value, if the key is stored. *)
Theorem C95_insert : forall W (send : W -> bytes -> option Datum -> InsertConfig -> W * option err)
    now items w dt datum config,
  dConfig dt <> None -> good_sizes (dDBMap dt) -> (forall d, datum = Some d -> good_size d) ->
  (Insert send now items w dt datum config = Panic <->
   ~ over_target dt /\ fatal_datum (dDBMap dt) datum).
Proof.
  intros W send now items w dt datum config DC GS GD. unfold Insert, InsertLocal.
  destruct (match dConfig dt with Some c => negb (cNoTarget c) && (cTargetN c <=? dN dt) | None => false end) eqn:OT.
  - apply over_target_dec in OT. split; [discriminate|tauto].
  - assert (NOT : ~ over_target dt) by (rewrite <- over_target_dec, OT; discriminate).
    set (dt0 := if dInitialized dt then dt else InitData dt).
    assert (E0 : dDBMap dt0 = dDBMap dt /\ dConfig dt0 = dConfig dt).
    { unfold dt0, InitData. destruct (dInitialized dt); auto. }
    destruct E0 as [E0 E1]. rewrite E0.
    destruct (bdmap_cases now (dDBMap dt) datum config GS GD) as [(F & E)|(F & d & k & _ & _ & C)].
    + rewrite E. tauto.
    + assert (X : exists m fr, InsertBDMap now (dDBMap dt) datum config = Ok (m, fr)).
      { destruct C as [(_ & E)|(e & v & v' & _ & _ & _ & [E|E])]; eauto. }
      destruct X as (m & fr & E). rewrite E.
      assert (C2 : dConfig (set_dirty (if fr then set_recent (set_map dt0 m) (u64 (dRecentInsertCount (set_map dt0 m) + 1))
                    else set_map dt0 m) true) = dConfig dt).
      { destruct fr; cbn; exact E1. }
      rewrite C2. destruct (dConfig dt) as [dc|]; [|congruence].
      split; [|tauto]. unfold Replicate.
      destruct (cEnforceReplicationOnInsert dc && (Count (match config with Some c => c | None => mkInsertConfig 0 0 end) =? 0)); [|discriminate].
      match goal with |- context [RunOnRandomSources ?a ?b ?c ?d] => destruct (RunOnRandomSources a b c d) as [[w1 ct] er] end.
      destruct (ct <? cReplicationOnInsert dc); discriminate.
Qed.
Print Assumptions C95_insert.

(** Requests one after the other; a panic ends the process. *)
Fixpoint inserts {W} (send : W -> bytes -> option Datum -> InsertConfig -> W * option err) (items : list bytes)
  (w : W) (dt : Data) (l : list (Z * option Datum * option InsertConfig)) : res Data :=
  match l with
  | [] => Ok dt
  | (now, datum, config) :: l' =>
      o <- Insert send now items w dt datum config ;; inserts send items (oW o) (oData o) l'
  end.
(** The request has the key k, and whether it has a value. *)
Definition asks (r : Z * option Datum * option InsertConfig) (k : DatumKey) : Prop :=
  exists d, snd (fst r) = Some d /\ dkey d = Some k.
Definition bare (r : Z * option Datum * option InsertConfig) : Prop :=
  forall d, snd (fst r) = Some d -> dvalue d = None.
Definition sized (r : Z * option Datum * option InsertConfig) : Prop :=
  forall d, snd (fst r) = Some d -> good_size d /\ forall k, dkey d = Some k -> key_ok k.

(** The store after the requests prev. *)
Definition after_reqs (prev : list (Z * option Datum * option InsertConfig)) (m : dbmap) : Prop :=
  good_sizes m /\
  forall k, key_ok k -> key_fits k ->
    match mload m (wire_key k) with
    | None => forall r, In r prev -> ~ asks r k
    | Some e => (exists r, In r prev /\ asks r k) /\
                (dvalue (edatum e) = None <-> exists r, In r prev /\ asks r k /\ bare r)
    end.

Lemma after_step : forall now datum config prev m m' fr,
  after_reqs prev m -> sized (now, datum, config) -> InsertBDMap now m datum config = Ok (m', fr) ->
  after_reqs (prev ++ [(now, datum, config)]) m'.
Proof.
  intros now datum config prev m m' fr (GS & A) SZ E.
  assert (GD : forall d, datum = Some d -> good_size d) by (intros d ->; apply (SZ d eq_refl)).
  destruct (bdmap_cases now m datum config GS GD) as [(_ & X)|(NF & d & k & -> & DK & C)]; [congruence|].
  assert (KO : key_ok k /\ key_fits k).
  { split; [apply (SZ d eq_refl); exact DK|apply (GD d eq_refl); exact DK]. }
  destruct KO as (KO & KF).
  assert (OTHER : forall k', k' <> k -> key_ok k' -> key_fits k' -> wire_key k' <> wire_key k).
  { intros k' N K1 K2 X. apply N. apply wire_key_inj; auto. }
  assert (IN : forall k' r, In r (prev ++ [(now, Some d, config)]) -> asks r k' -> (In r prev /\ asks r k') \/ (r = (now, Some d, config) /\ k' = k)).
  { intros k' r I (d' & D1 & D2). apply in_app_or in I. destruct I as [I|[<-|[]]]; [left; split; auto; exists d'; auto|].
    cbn in D1. injection D1 as <-. right. split; congruence. }
  assert (ASK : asks (now, Some d, config) k) by (exists d; auto).
  assert (STORE : forall x, (m', fr) = (mstore m (wire_key k) (mkEntry x d), true) ->
     (mload m (wire_key k) = None \/ exists e, mload m (wire_key k) = Some e /\ dvalue d <> None /\ dvalue (edatum e) <> None) ->
     after_reqs (prev ++ [(now, Some d, config)]) m').
  { intros x X OLD. injection X as -> _. split.
    - intros b e L. destruct (bytes_eq_dec (wire_key k) b) as [<-|B].
      + rewrite mload_mstore_same in L. injection L as <-. apply (GD d eq_refl).
      + rewrite mload_mstore_other in L by exact B. exact (GS b e L).
    - intros k' K1 K2. destruct (DatumKey_eq_dec k' k) as [->|N].
      + rewrite mload_mstore_same. cbn [edatum]. split; [exists (now, Some d, config); split; auto; apply in_or_app; right; left; reflexivity|].
        split.
        * intro V. exists (now, Some d, config). split; [apply in_or_app; right; left; reflexivity|]. split; [exact ASK|].
          intros d' D'. cbn in D'. injection D' as <-. exact V.
        * intros (r & I & AR & BR). destruct (IN k r I AR) as [(I1 & A1)|(-> & _)]; [|apply (BR d eq_refl)].
          specialize (A k KO KF). destruct OLD as [L|(e & L & V1 & V2)]; rewrite L in A.
          -- exfalso. apply (A r I1 A1).
          -- exfalso. apply V2. apply A. exists r. auto.
      + rewrite mload_mstore_other by (intro X; apply (OTHER k' N K1 K2); congruence).
        specialize (A k' K1 K2). destruct (mload m (wire_key k')) as [e|].
        * destruct A as ((r & I & AR) & A). split; [exists r; split; auto; apply in_or_app; auto|].
          rewrite A. split; intros (r' & I' & A' & B').
          -- exists r'. split; auto. apply in_or_app. auto.
          -- destruct (IN k' r' I' A') as [(I1 & _)|(_ & ->)]; [exists r'; auto|congruence].
        * intros r I AR. destruct (IN k' r I AR) as [(I1 & A1)|(_ & ->)]; [apply (A r I1 A1)|congruence]. }
  destruct C as [(L & X)|(e & v & v' & L & V & V' & [X|X])]; rewrite E in X.
  - injection X as -> ->. eapply STORE; eauto.
  - injection X as -> ->. eapply STORE; eauto. right. exists e. rewrite V, V'. repeat split; auto; discriminate.
  - injection X as -> ->. split; [exact GS|]. intros k' K1 K2. specialize (A k' K1 K2) as A'.
    destruct (DatumKey_eq_dec k' k) as [->|N].
    + rewrite L in A' |- *. destruct A' as ((r & I & AR) & A').
      split; [exists r; split; auto; apply in_or_app; auto|]. rewrite V' in *. split; [discriminate|].
      intros (r' & I' & A1 & B1). exfalso. destruct (IN k r' I' A1) as [(I1 & _)|(-> & _)].
      * assert (@None DatumValue = Some v') by (symmetry; apply A'; exists r'; auto). discriminate.
      * specialize (B1 d eq_refl). congruence.
    + destruct (mload m (wire_key k')) as [e'|].
      * destruct A' as ((r & I & AR) & A'). split; [exists r; split; auto; apply in_or_app; auto|].
        rewrite A'. split; intros (r' & I' & A1 & B1).
        -- exists r'. split; auto. apply in_or_app. auto.
        -- destruct (IN k' r' I' A1) as [(I1 & _)|(_ & ->)]; [exists r'; auto|congruence].
      * intros r I AR. destruct (IN k' r I AR) as [(I1 & A1)|(_ & ->)]; [apply (A' r I1 A1)|congruence].
Qed.

Lemma insert_keeps : forall W (send : W -> bytes -> option Datum -> InsertConfig -> W * option err)
    now items w dt datum config o,
  Insert send now items w dt datum config = Ok o -> ~ over_target dt -> good_sizes (dDBMap dt) ->
  (forall d, datum = Some d -> good_size d) ->
  dConfig (oData o) = dConfig dt /\ dN (oData o) = dN dt /\
  exists fr, InsertBDMap now (dDBMap dt) datum config = Ok (dDBMap (oData o), fr).
Proof.
  intros W send now items w dt datum config o E NOT GS GD. unfold Insert, InsertLocal in E.
  destruct (match dConfig dt with Some c => negb (cNoTarget c) && (cTargetN c <=? dN dt) | None => false end) eqn:OT;
    [exfalso; apply NOT; apply over_target_dec; exact OT|].
  set (dt0 := if dInitialized dt then dt else InitData dt) in *.
  assert (E0 : dDBMap dt0 = dDBMap dt /\ dConfig dt0 = dConfig dt /\ dN dt0 = dN dt).
  { unfold dt0, InitData. destruct (dInitialized dt); auto. }
  destruct E0 as (E0 & E1 & E2). rewrite E0 in E.
  destruct (bdmap_cases now (dDBMap dt) datum config GS GD) as [(F & X)|(F & d & k & _ & _ & C)].
  - rewrite X in E. discriminate.
  - assert (X : exists m fr, InsertBDMap now (dDBMap dt) datum config = Ok (m, fr)).
    { destruct C as [(_ & X)|(e & v & v' & _ & _ & _ & [X|X])]; eauto. }
    destruct X as (m & fr & X). rewrite X in E.
    match type of E with match Replicate ?a ?b ?c ?d ?e ?f with _ => _ end = _ => destruct (Replicate a b c d e f) as [r| |]; try discriminate end.
    injection E as <-. cbn [oData]. rewrite X. destruct fr; cbn; rewrite E1, E2; repeat split; eauto.
Qed.

(** C95 A sequence of inserts into a new dataset crashes the node exactly if one
    of them has no datum or no key, or two of them have the same key and one of
    the two has no value.  Whether the values agree, the lifetimes, the
    replication and the order of the two do not matter. *)
Theorem C95_history : forall W (send : W -> bytes -> option Datum -> InsertConfig -> W * option err) items w c l,
  (forall r, In r l -> sized r) -> cNoTarget c = true \/ 0 < cTargetN c ->
  (inserts send items w (NewData c) l = Panic <->
   exists l1 r l2, l = l1 ++ r :: l2 /\
     ((forall k, ~ asks r k) \/
      exists r' k, In r' l1 /\ asks r' k /\ asks r k /\ (bare r' \/ bare r))).
Proof.
  intros W send items w c l SZ NT.
  assert (GEN : forall l prev w dt, (forall r, In r l -> sized r) -> (forall r, In r prev -> sized r) ->
    after_reqs prev (dDBMap dt) -> dConfig dt = Some c -> dN dt = 0 ->
    (inserts send items w dt l = Panic <->
     exists l1 r l2, l = l1 ++ r :: l2 /\
       ((forall k, ~ asks r k) \/
        exists r' k, In r' (prev ++ l1) /\ asks r' k /\ asks r k /\ (bare r' \/ bare r)))).
  { clear l SZ w. induction l as [|((now & datum) & config) l IH]; intros prev w dt SZ SP A DC DN.
    - split; [discriminate|]. intros (l1 & r & l2 & X & _). destruct l1; discriminate.
    - assert (NOT : ~ over_target dt).
      { rewrite <- over_target_dec, DC, DN. destruct NT as [->|P]; [discriminate|].
        destruct (N.leb_spec (cTargetN c) 0); [lia|]. rewrite andb_false_r. discriminate. }
      assert (SR : sized (now, datum, config)) by (apply SZ; left; reflexivity).
      assert (GD : forall d, datum = Some d -> good_size d) by (intros d ->; apply (SR d eq_refl)).
      assert (FATAL : fatal_datum (dDBMap dt) datum <->
        ((forall k, ~ asks (now, datum, config) k) \/
         exists r' k, In r' prev /\ asks r' k /\ asks (now, datum, config) k /\ (bare r' \/ bare (now, datum, config)))).
      { unfold fatal_datum. destruct datum as [d|].
        2:{ split; auto. intros _. left. intros k (d & X & _). discriminate. }
        destruct (dkey d) as [k|] eqn:DK.
        2:{ split; auto. intros _. left. intros k (d' & X & Y). cbn in X. injection X as <-. congruence. }
        assert (ASK : asks (now, Some d, config) k) by (exists d; auto).
        assert (BARE : bare (now, Some d, config) <-> dvalue d = None).
        { split; [intro B; apply (B d eq_refl)|intros V d' X; cbn in X; injection X as <-; exact V]. }
        assert (KO : key_ok k) by (apply (SR d eq_refl); exact DK).
        assert (KF : key_fits k) by (apply (GD d eq_refl); exact DK).
        destruct A as (_ & A). specialize (A k KO KF). split.
        - intros (e & L & V). rewrite L in A. destruct A as ((r & I & AR) & A). right.
          destruct V as [V|V].
          + exists r, k. repeat split; auto. right. apply (proj2 BARE). exact V.
          + apply A in V. destruct V as (r' & I' & A' & B'). exists r', k. auto.
        - intros [X|(r' & k' & I' & A' & (d' & D1 & D2) & B')]; [exfalso; exact (X k ASK)|].
          cbn in D1. injection D1 as <-. assert (k' = k) by congruence. subst k'.
          destruct (mload (dDBMap dt) (wire_key k)) as [e|]; [|exfalso; exact (A r' I' A')].
          exists e. split; auto. destruct B' as [B'|B']; [right; apply A; exists r'; auto|left; apply (proj1 BARE); exact B']. }
      cbn [inserts].
      assert (PANIC : Insert send now items w dt datum config = Panic <-> fatal_datum (dDBMap dt) datum).
      { rewrite C95_insert; [tauto|congruence|apply A|exact GD]. }
      destruct (Insert send now items w dt datum config) as [o|er|] eqn:E.
      + destruct (insert_keeps _ _ _ _ _ _ _ _ _ E NOT (proj1 A) GD) as (E1 & E2 & fr & EB). cbn [bind].
        rewrite (IH (prev ++ [(now, datum, config)])).
        * split.
          -- intros (l1 & r & l2 & -> & C). exists ((now, datum, config) :: l1), r, l2. split; [reflexivity|].
             rewrite <- app_assoc in C. exact C.
          -- intros ([|x l1] & r & l2 & X & C); injection X as EX ->.
             { exfalso. subst r. rewrite app_nil_r in C. apply FATAL in C. apply PANIC in C. discriminate. }
             subst x. exists l1, r, l2. split; [reflexivity|]. rewrite <- app_assoc. exact C.
        * intros r I. apply SZ. right. exact I.
        * intros r I. apply in_app_or in I. destruct I as [I|[<-|[]]]; auto.
        * eapply after_step; eauto.
        * congruence.
        * congruence.
      + exfalso. unfold Insert in E.
        destruct (InsertLocal now dt datum config) as [[dt' [er'|]]| |] eqn:EL; try discriminate.
        * unfold Replicate in E. destruct (dConfig dt') as [dc|]; [|discriminate].
          destruct (cEnforceReplicationOnInsert dc && (Count (match config with Some c => c | None => mkInsertConfig 0 0 end) =? 0)); [|discriminate].
          match goal with E : context [RunOnRandomSources ?a ?b ?c ?d] |- _ => destruct (RunOnRandomSources a b c d) as [[w1 ct] er1] end.
          destruct (ct <? cReplicationOnInsert dc); discriminate.
        * unfold InsertLocal in EL.
          match type of EL with (if ?b then _ else _) = _ => destruct b; [discriminate|] end.
          match type of EL with context [InsertBDMap ?a ?b ?c ?d] => destruct (InsertBDMap a b c d) as [[m fr]| |] end; discriminate.
      + cbn [bind]. split; [intros _|reflexivity].
        exists [], (now, datum, config), l. split; [reflexivity|]. rewrite app_nil_r. apply FATAL. apply PANIC. reflexivity. }
  apply (GEN l [] w (NewData c) SZ).
  - intros r [].
  - split; [intros b e L; discriminate|]. intros k _ _. cbn. intros r [].
  - reflexivity.
  - reflexivity.
Qed.
Print Assumptions C95_history.

(** Two values for one key do not crash; a bare datum alone does not crash; a bare
    datum and its key again do, in both orders. *)
Definition bare_datum (k : DatumKey) : Datum := mkDatum (Some k) None.
Definition rq_ (d : Datum) : Z * option Datum * option InsertConfig := (100%Z, Some d, None).
Definition no_send (w : unit) (_ : bytes) (_ : option Datum) (_ : InsertConfig) : unit * option err := (w, None).
Definition config_free : DataConfig := mkDataConfig (bs "d") 1 0 fzero true 0 false 0.
Example C95_instance :
  (exists dt, inserts no_send [] tt (NewData config_free) [rq_ (kv ka va); rq_ (bare_datum kb); rq_ (kv ka va)] = Ok dt) /\
  inserts no_send [] tt (NewData config_free) [rq_ (kv ka va); rq_ (kv kb va); rq_ (bare_datum ka)] = Panic /\
  inserts no_send [] tt (NewData config_free) [rq_ (bare_datum ka); rq_ (kv kb va); rq_ (kv ka va)] = Panic /\
  Forall sized [rq_ (bare_datum ka); rq_ (kv kb va); rq_ (kv ka va)].
Proof.
  split; [eexists; vm_compute; reflexivity|]. split; [vm_compute; reflexivity|]. split; [vm_compute; reflexivity|].
  destruct kva_ok as ((A1 & A2 & A3 & A4) & _ & (B1 & B2 & _)).
  assert (S : forall k o, key_ok k -> key_fits k -> (o = None \/ o = Some va) -> sized (rq_ (mkDatum (Some k) o))).
  { intros k o O F V d E. cbn in E. injection E as <-. split; [split|]; cbn; intros x E.
    - injection E as <-. exact F.
    - destruct V as [->| ->]; [discriminate|]. injection E as <-. auto.
    - injection E as <-. exact O. }
  constructor; [apply S; auto|]. constructor; [apply S; auto|]. constructor; [apply S; auto|]. constructor.
Qed.

(** One request at a store that holds a datum of key [ka]. *)
Example C95_instance_insert :
  let dt := set_map (NewData config_free) [(wire_key ka, mkEntry 0 (kv ka va))] in
  dConfig dt <> None /\ good_sizes (dDBMap dt) /\ (forall d, Some (bare_datum ka) = Some d -> good_size d) /\
  Insert no_send 100 [] tt dt (Some (bare_datum ka)) None = Panic /\
  fatal_datum (dDBMap dt) (Some (bare_datum ka)) /\ ~ over_target dt.
Proof.
  destruct kva_ok as ((A1 & A2 & A3 & A4) & _ & (B1 & B2 & _)). cbv zeta.
  assert (S : forall d, (d = kv ka va \/ d = bare_datum ka) -> good_size d).
  { intros d [->| ->]; (split; cbn; intros x E; [injection E as <-; exact A2|]); [injection E as <-; auto|discriminate]. }
  split; [discriminate|]. split.
  { intros b e E. cbn [set_map dDBMap mload] in E. destruct (bytes_eqb _ _) in E; [|discriminate E]. injection E as <-. apply S. auto. }
  split; [intros d E; injection E as <-; apply S; auto|]. split; [vm_compute; reflexivity|]. split.
  - cbn [fatal_datum bare_datum dkey dvalue]. eexists. split; [vm_compute; reflexivity|left; reflexivity].
  - intros (c & E & N & _). injection E as <-. discriminate N.
Qed.

(** ** C96: a search of one node's store *)

(** A live entry that passes the filters. *)
Definition has_match (ex : bytes -> bytes -> bool) (config : SearchConfig) (tick : bytes -> Z)
  (order : list (bytes * entry)) : Prop :=
  exists b e, In (b, e) order /\ (exprireAt e = 0 \/ tick b < exprireAt e)%Z /\
    passes ex config (edatum e) = true.

Lemma live_expired : forall t e, expired t e = false <-> (exprireAt e = 0 \/ t < exprireAt e)%Z.
Proof.
  intros t e. unfold expired. destruct (Z.eqb_spec (exprireAt e) 0); destruct (Z.leb_spec (exprireAt e) t); cbn;
    split; intros; try discriminate; try reflexivity; lia.
Qed.

Lemma loop_panic_stays : forall G ex score config q tick order m,
  snd (fst (LoopDBMap tick (fun s e => (l <- s ;; search_entry G ex score config q l e, None)) order m Panic)) = Panic.
Proof.
  intros G ex score config q tick. induction order as [|[b e] order IH]; intro m; [reflexivity|].
  cbn [LoopDBMap bind]. destruct (expired (tick b) e); apply IH.
Qed.

Lemma search_panics : forall G ex score config query tick order m,
  (forall b e, In (b, e) order -> exists k v, kv_ok k v /\ edatum e = kv k v) ->
  (snd (Search G ex score tick order m query config) = Panic <->
   query = None \/
   (has_match ex config tick order /\ (scLimit config = 0 \/ exists d, query = Some d /\ dkey d = None))) /\
  (forall er, snd (Search G ex score tick order m query config) <> Err er).
Proof.
  intros G ex score config query tick order m Ho. unfold Search. destruct query as [d|].
  2:{ split; [split; auto|discriminate]. }
  assert (CASES : (exists q qv, d = mkDatum (Some q) qv /\ 1 <= scLimit config) \/ (scLimit config = 0 \/ dkey d = None)).
  { destruct d as [[q|] qv]; [|right; right; reflexivity].
    destruct (N.eq_dec (scLimit config) 0); [right; left; auto|]. left. exists q, qv. split; auto. lia. }
  destruct CASES as [(q & qv & -> & L)|BAD].
  - destruct (SearchStreamP.search_safe G ex score config q qv tick order m L Ho) as (m' & l & E & _).
    unfold Search in E. rewrite E. cbn [snd]. split; [|discriminate]. split; [discriminate|].
    intros [X|(_ & [X|(d & X & Y)])]; [discriminate|lia|]. injection X as <-. discriminate.
  - assert (X : forall order m, (forall b e, In (b, e) order -> exists k v, kv_ok k v /\ edatum e = kv k v) ->
      let r := snd (fst (LoopDBMap tick (fun s e => (l <- s ;; search_entry G ex score config (Some d) l e, None)) order m (Ok []))) in
      (has_match ex config tick order /\ r = Panic) \/ (~ has_match ex config tick order /\ r = Ok [])).
    { clear order m Ho. induction order as [|[b e] order IH]; intros m Ho; cbn zeta.
      - right. split; [|reflexivity]. intros (b & e & [] & _).
      - assert (Ho' : forall b e, In (b, e) order -> exists k v, kv_ok k v /\ edatum e = kv k v)
          by (intros; eapply Ho; right; eauto).
        assert (SKIP : ~ ((exprireAt e = 0 \/ tick b < exprireAt e)%Z /\ passes ex config (edatum e) = true) ->
          (has_match ex config tick ((b, e) :: order) <-> has_match ex config tick order)).
        { intro NO. split.
          - intros (b' & e' & [I|I] & C); [injection I as <- <-; contradiction|]. exists b', e'. auto.
          - intros (b' & e' & I & C). exists b', e'. split; [right; exact I|exact C]. }
        cbn [LoopDBMap]. destruct (expired (tick b) e) eqn:EX.
        + rewrite SKIP; [apply IH; auto|]. intros (LV & _). apply live_expired in LV. congruence.
        + cbn [bind]. destruct (Ho b e (or_introl eq_refl)) as (k & v & O & Ed).
          assert (SE : search_entry G ex score config (Some d) [] e = if passes ex config (kv k v) then Panic else Ok []).
          { unfold search_entry. rewrite Ed, PassesFilters_spec. cbn [bind].
            destruct (passes ex config (kv k v)); [|reflexivity]. cbn [featureOf kv bind].
            destruct d as [[q|] qv]; [|reflexivity]. cbn [featureOf bind]. destruct BAD as [Z|Z]; [|discriminate].
            unfold CollectorInsert. rewrite Z. reflexivity. }
          rewrite SE. destruct (passes ex config (kv k v)) eqn:PA.
          * left. split; [|apply loop_panic_stays].
            exists b, e. split; [left; reflexivity|]. rewrite Ed. split; [apply live_expired; exact EX|exact PA].
          * rewrite SKIP; [apply IH; auto|]. intros (_ & C). rewrite Ed in C. congruence. }
    specialize (X order m Ho). cbn zeta in X.
    destruct (LoopDBMap tick _ order m (Ok [])) as [[m' r] er]. cbn [fst snd] in X |- *.
    destruct X as [(M & ->)|(M & ->)]; (split; [|discriminate]).
    + split; [intros _|reflexivity]. right. split; [exact M|]. destruct BAD as [Z|Z]; [left; exact Z|right; exists d; auto].
    + split; [discriminate|]. intros [Y|(Y & _)]; [discriminate|contradiction].
Qed.

(** C96 Exactly these local searches crash: one without a datum, and, if some live
    entry passes the filters, one without a key or with limit 0. *)
Theorem C96_local_search : forall G ex score config query tick order m,
  store_wf m -> Permutation order m ->
  (snd (Search G ex score tick order m query config) = Panic <->
   query = None \/
   ((exists b e, In (b, e) m /\ (exprireAt e = 0 \/ tick b < exprireAt e)%Z /\
       passes ex config (edatum e) = true) /\
    (scLimit config = 0 \/ exists d, query = Some d /\ dkey d = None))) /\
  (forall er, snd (Search G ex score tick order m query config) <> Err er).
Proof.
  intros G ex score config query tick order m (W & F) P.
  destruct (search_panics G ex score config query tick order m) as (A & B).
  - intros b e I. eapply Permutation_in in I; [|exact P]. destruct (F b e I) as (k & v & O & _ & Ed). eauto.
  - split; [|exact B]. rewrite A. unfold has_match.
    assert (X : forall Q : bytes -> entry -> Prop, (exists b e, In (b, e) order /\ Q b e) <-> (exists b e, In (b, e) m /\ Q b e)).
    { intro Q. split; intros (b & e & I & C); exists b, e; (split; [|exact C]); [apply (Permutation_in _ P I)|apply (Permutation_in _ (Permutation_sym P) I)]. }
    rewrite (X (fun b e => (exprireAt e = 0 \/ tick b < exprireAt e)%Z /\ passes ex config (edatum e) = true)). reflexivity.
Qed.
Print Assumptions C96_local_search.

(** One stored datum; a limit of 0 crashes unless the filter excludes the datum. *)
Definition one_store : dbmap := [(wire_key ka, mkEntry 0 (kv ka va))].
Definition cfg_lim (n : N) : SearchConfig := mkSearchConfig (bs "VectorDistance") false 0 1000 n 0 [] 0 [] [bs "f"] 0 [] [].
Definition search_one (yes : bool) (n : N) (q : option Datum) : res (list ScoredDatum) :=
  snd (Search insertion_sort (fun _ _ => yes) QuickVectorDistance (fun _ => 5%Z) one_store one_store q (cfg_lim n)).
Example C96_instance : store_wf one_store /\
  search_one true 0 (Some (kv kb va)) = Panic /\ search_one false 0 (Some (kv kb va)) = Ok [] /\
  search_one true 1 (Some (mkDatum None None)) = Panic /\ search_one true 1 None = Panic /\
  (exists x, search_one true 1 (Some (kv kb va)) = Ok [x]).
Proof.
  split. { split; [repeat constructor; auto|]. intros b e [E|[]]. injection E as <- <-. exists ka, va.
    split; [apply kva_ok|auto]. }
  repeat (split; [vm_compute; reflexivity|]). eexists. vm_compute. reflexivity.
Qed.

(** ** C97: merging results *)

(** The context of the request has a datum without a key. *)
Definition bad_context (ctx : option SearchContext) : Prop :=
  exists c d, ctx = Some c /\ In d (ctxDatum c) /\ dkey d = None.
(** A key, if present, is a possible one. *)
Definition sized_result (x : ScoredDatum) : Prop :=
  forall k, skey x = Some k -> key_ok k /\ key_fits k.

Lemma context_dec : forall ctx, bad_context ctx \/ SearchStreamP.ctx_ok ctx.
Proof.
  intros [c|]; [|right; exact I]. cbn. induction (ctxDatum c) as [|d l IH] eqn:E in c |- *.
  - right. constructor.
  - destruct (dkey d) as [k|] eqn:K.
    + destruct (IH (mkContext l (ctxPrioritize c)) eq_refl) as [(c' & d' & X & I' & K')|F].
      * left. injection X as <-. exists c, d'. split; [reflexivity|]. rewrite E. split; [right; exact I'|exact K'].
      * right. constructor; [congruence|exact F].
    + left. exists c, d. rewrite E. split; [reflexivity|]. split; [left; reflexivity|exact K].
Qed.

Lemma context_not_both : forall ctx, bad_context ctx -> SearchStreamP.ctx_ok ctx -> False.
Proof.
  intros ctx (c & d & -> & I & K) F. cbn in F. rewrite Forall_forall in F. exact (F d I K).
Qed.

Lemma best_bad : forall P fe ctx cur d, In d ctx -> dkey d = None -> best_loop P fe ctx cur = Panic.
Proof.
  intros P fe. induction ctx as [|x ctx IH]; intros cur d I K; [destruct I|]. cbn [best_loop].
  destruct x as [[k|] v]; [|reflexivity]. cbn [featureOf bind]. destruct I as [<-|I]; [discriminate|]. eapply IH; eauto.
Qed.

Lemma best_total : forall P fe ctx cur er, best_loop P fe ctx cur <> Err er.
Proof.
  intros P fe. induction ctx as [|x ctx IH]; intros cur er; [discriminate|]. cbn [best_loop].
  destruct x as [[k|] v]; [|discriminate]. cbn [featureOf bind]. apply IH.
Qed.

Lemma BestScore_total : forall P x er, BestScore P x <> Err er.
Proof.
  intros P x er. unfold BestScore. destruct (aContext P) as [c|]; [|discriminate].
  destruct (ctxDatum c) as [|d l] eqn:E; [discriminate|].
  destruct (sDatum x) as [[k|] v]; [|discriminate]. cbn [featureOf bind].
  pose proof (best_total P (vec k) (d :: l) (if ctxPrioritize c then None else Some (sScore x))) as T.
  destruct (best_loop _ _ _ _) as [r|e|]; [discriminate| |discriminate]. exfalso. exact (T e eq_refl).
Qed.

(** A result without a key, a context datum without a key, a limit of zero. *)
Lemma insert_keyless : forall G P s x, skey x = None -> AggInsert G P s x = Panic.
Proof.
  intros G P s x K. unfold AggInsert. pose proof (BestScore_total P x) as T.
  destruct (BestScore P x) as [sc|e|]; [|exfalso; exact (T e eq_refl)|reflexivity]. cbn [bind sDatum].
  unfold GetKeyAsBytes. unfold skey in K. rewrite K. reflexivity.
Qed.

Lemma BestScore_bad : forall P x, bad_context (aContext P) -> BestScore P x = Panic.
Proof.
  intros P x (c & d & E & I & K). unfold BestScore. rewrite E. destruct (ctxDatum c) as [|d0 l] eqn:EC; [destruct I|].
  destruct (sDatum x) as [[k|] v]; [|reflexivity]. cbn [featureOf bind]. rewrite (best_bad _ _ _ _ d); auto.
Qed.

Lemma insert_zero : forall G P x, sized_result x -> aLimit P = 0 -> AggInsert G P agg_empty x = Panic.
Proof.
  intros G P x SZ Z. destruct (skey x) as [k|] eqn:K; [|apply insert_keyless; exact K].
  unfold AggInsert. pose proof (BestScore_total P x) as T.
  destruct (BestScore P x) as [sc|e|]; [|exfalso; exact (T e eq_refl)|reflexivity]. cbn [bind sDatum].
  destruct (SZ k K) as (O & F). unfold GetKeyAsBytes. unfold skey in K. rewrite K, MarshalKey_spec by auto. cbn [bind].
  cbn [agg_empty agSeen agList mload]. unfold InsertToList. rewrite Z. reflexivity.
Qed.

Lemma sized_split : forall xs, Forall sized_result xs ->
  Forall keyed xs \/ exists l1 x l2, xs = l1 ++ x :: l2 /\ Forall keyed l1 /\ skey x = None.
Proof.
  induction xs as [|x xs IH]; intro F; [left; constructor|]. inversion F as [|? ? SZ F']; subst.
  destruct (skey x) as [k|] eqn:K.
  - assert (KX : keyed x) by (destruct (SZ k K); exists k; auto).
    destruct (IH F') as [A|(l1 & y & l2 & -> & A & KY)]; [left; constructor; auto|].
    right. exists (x :: l1), y, l2. split; [reflexivity|]. split; [constructor; auto|exact KY].
  - right. exists [], x, xs. split; [reflexivity|]. split; [constructor|exact K].
Qed.

Lemma list_bound : forall G P l x l', aLimit P < M32 -> (blen l <= aLimit P)%N ->
  InsertToList G P l x = Ok l' -> blen l' <= aLimit P.
Proof.
  intros G P l x l' LM B E. unfold InsertToList in E.
  assert (U : u32 (blen l) = blen l) by (unfold u32; apply N.mod_small; unfold M32 in *; lia).
  rewrite U in E. destruct (N.ltb_spec (blen l) (aLimit P)).
  - injection E as <-. unfold blen in *. rewrite <- (Permutation_length (sort_perm G _ _ _)), app_length. cbn. lia.
  - destruct (last_elem l) as [la| |] eqn:LE; try discriminate. cbn [bind] in E.
    destruct (IsNewScoredBetter _ _ _); injection E as <-; [|exact B].
    unfold blen in *. rewrite <- (Permutation_length (sort_perm G _ _ _)).
    unfold set_last. destruct l as [|a l]; [discriminate|].
    rewrite app_length. cbn [length Nat.add]. pose proof (@app_removelast_last _ (a :: l) a ltac:(discriminate)) as X.
    apply (f_equal (@length _)) in X. rewrite app_length in X. cbn [length] in X, B |- *. lia.
Qed.

Lemma insert_bound : forall G P s x s', aLimit P < M32 -> blen (agList s) <= aLimit P ->
  AggInsert G P s x = Ok s' -> blen (agList s') <= aLimit P.
Proof.
  intros G P s x s' LM B E. unfold AggInsert in E. destruct (BestScore P x) as [sc| |]; try discriminate. cbn [bind] in E.
  destruct (GetKeyAsBytes _) as [kb| |]; try discriminate. cbn [bind] in E.
  assert (ADD : forall s'', (l <- InsertToList G P (agList s) (mkScored sc (sDatum x)) ;;
      Ok (mkAggState l (mstore (agSeen s) (EncodeToString kb) sc))) = Ok s'' -> blen (agList s'') <= aLimit P).
  { intros s'' X. destruct (InsertToList _ _ _ _) as [l| |] eqn:IL; try discriminate. cbn [bind] in X.
    injection X as <-. cbn [agList]. eapply list_bound; eauto. }
  destruct (mload _ _); [destruct (IsNewScoredBetter _ _ _)|]; try (apply ADD; exact E). injection E as <-. exact B.
Qed.

Lemma insert_all_bound : forall G P xs s s', aLimit P < M32 -> blen (agList s) <= aLimit P ->
  AggInsertAll G P s xs = Ok s' -> blen (agList s') <= aLimit P.
Proof.
  intros G P. induction xs as [|x xs IH]; intros s s' LM B E; cbn [AggInsertAll] in E; [injection E as <-; exact B|].
  destruct (AggInsert G P s x) as [s1| |] eqn:E1; try discriminate. cbn [bind] in E.
  eapply IH; [exact LM| |exact E]. eapply insert_bound; eauto.
Qed.

Lemma insert_all_split : forall G P l1 l2 s,
  AggInsertAll G P s (l1 ++ l2) = (s' <- AggInsertAll G P s l1 ;; AggInsertAll G P s' l2).
Proof.
  intros G P. induction l1 as [|x l1 IH]; intros l2 s; [reflexivity|]. cbn [app AggInsertAll].
  destruct (AggInsert G P s x) as [s1| |]; cbn [bind]; auto.
Qed.

Lemma result_huge : forall P s, aLimit P < M32 -> blen (agList s) <= aLimit P ->
  M63 <= aResultLimit P -> aResultLimit P < M64 -> AggResult P s = Panic.
Proof.
  intros P s LM B H1 H2. unfold AggResult.
  assert (I : (i64_of_u64 (aResultLimit P) < 0)%Z).
  { unfold i64_of_u64, i64. unfold M63, M64 in *.
    rewrite <- (Zmod_unique (Z.of_N (aResultLimit P) + 9223372036854775808) 18446744073709551616 1
                 (Z.of_N (aResultLimit P) - 9223372036854775808)); lia. }
  destruct (N.ltb_spec 0 (aResultLimit P)); [|unfold M63 in *; lia].
  destruct (Z.ltb_spec (i64_of_u64 (aResultLimit P)) (Z.of_N (blen (agList s)))); [|lia]. cbn [andb].
  destruct (N.leb_spec (aResultLimit P) (blen (agList s))); [unfold M63, M32 in *; lia|reflexivity].
Qed.

Lemma result_fine : forall P s, aResultLimit P < M63 -> exists out, AggResult P s = Ok out.
Proof.
  intros P s R. unfold AggResult.
  assert (E : i64_of_u64 (aResultLimit P) = Z.of_N (aResultLimit P)).
  { unfold i64_of_u64. apply i64_id. unfold is_i64, M63 in *. lia. }
  rewrite E. destruct (_ && _)%bool eqn:Q; [|eauto].
  apply andb_true_iff in Q. destruct Q as [_ Q]. apply Z.ltb_lt in Q.
  replace (aResultLimit P <=? blen (agList s)) with true by (symmetry; apply N.leb_le; lia). eauto.
Qed.

(** What makes a merge of xs crash. *)
Definition fatal_merge (P : aggParams) (xs : list ScoredDatum) : Prop :=
  M63 <= aResultLimit P \/ (exists x, In x xs /\ skey x = None) \/
  (xs <> [] /\ (aLimit P = 0 \/ bad_context (aContext P))).

Lemma fatal_cases : forall P xs, Forall sized_result xs ->
  (fatal_merge P xs) \/ (aResultLimit P < M63 /\ Forall keyed xs /\ (xs = [] \/ (1 <= aLimit P /\ SearchStreamP.ctx_ok (aContext P)))).
Proof.
  intros P xs F. unfold fatal_merge. destruct (N.le_gt_cases M63 (aResultLimit P)) as [R|R]; [left; left; exact R|].
  destruct (sized_split xs F) as [K|(l1 & x & l2 & -> & _ & K)].
  - destruct xs as [|x xs]; [right; auto|].
    destruct (N.eq_dec (aLimit P) 0) as [Z|Z]; [left; right; right; split; [discriminate|auto]|].
    destruct (context_dec (aContext P)) as [B|C]; [left; right; right; split; [discriminate|auto]|].
    right. split; [exact R|]. split; [exact K|]. right. split; [lia|exact C].
  - left. right. left. exists x. split; [apply in_or_app; right; left; reflexivity|exact K].
Qed.

Lemma fatal_not_fine : forall P xs, fatal_merge P xs -> aResultLimit P < M63 -> Forall keyed xs ->
  (xs = [] \/ (1 <= aLimit P /\ SearchStreamP.ctx_ok (aContext P))) -> False.
Proof.
  intros P xs [R|[(x & I & K)|(NE & Z)]] R' F C.
  - lia.
  - rewrite Forall_forall in F. destruct (F x I) as (k & K' & _). congruence.
  - destruct C as [->|(L & C)]; [congruence|]. destruct Z as [Z|B]; [lia|]. exact (context_not_both _ B C).
Qed.

(** C97 Exactly these ungrouped merges crash a node: a result limit of 2^63 or
    more; a result without a key; something to merge with limit 0 or with a
    context datum without a key. *)
Theorem C97_merge : forall G P xs,
  aLimit P < M32 -> aResultLimit P < M64 -> Forall sized_result xs ->
  (Merge G P xs = Panic <->
   M63 <= aResultLimit P \/ (exists x, In x xs /\ skey x = None) \/
   (xs <> [] /\ (aLimit P = 0 \/ bad_context (aContext P)))) /\
  (forall er, Merge G P xs <> Err er).
Proof.
  intros G P xs LM RM F. fold (fatal_merge P xs).
  assert (X : (fatal_merge P xs /\ Merge G P xs = Panic) \/ (~ fatal_merge P xs /\ exists out, Merge G P xs = Ok out)).
  { destruct (fatal_cases P xs F) as [FM|(R & K & C)].
    - left. split; [exact FM|]. unfold Merge.
      destruct xs as [|x xs].
      { destruct FM as [R|[(y & [] & _)|(NE & _)]]; [|congruence]. cbn [AggInsertAll bind].
        apply result_huge; auto. cbn. lia. }
      inversion F as [|? ? SX FX]; subst.
      destruct (N.eq_dec (aLimit P) 0) as [Z|Z].
      { cbn [AggInsertAll]. rewrite insert_zero by auto. reflexivity. }
      destruct (context_dec (aContext P)) as [B|C].
      { cbn [AggInsertAll]. unfold AggInsert. rewrite BestScore_bad by exact B. reflexivity. }
      destruct (sized_split (x :: xs) F) as [K|(l1 & y & l2 & E & K1 & KY)].
      + destruct (SearchStreamP.insert_all_safe G P (x :: xs) agg_empty ltac:(lia) C SearchStreamP.empty_safe K) as (s & E & _).
        rewrite E. cbn [bind]. apply result_huge; auto.
        { eapply insert_all_bound; [exact LM| |exact E]. cbn. lia. }
        destruct FM as [R|FM]; [exact R|]. destruct (N.le_gt_cases M63 (aResultLimit P)) as [R|R]; [exact R|].
        exfalso. eapply fatal_not_fine; [right; exact FM|exact R|exact K|right; split; [lia|exact C]].
      + rewrite E, insert_all_split.
        destruct (SearchStreamP.insert_all_safe G P l1 agg_empty ltac:(lia) C SearchStreamP.empty_safe K1) as (s & -> & _).
        cbn [bind AggInsertAll]. rewrite insert_keyless by exact KY. reflexivity.
    - right. split; [intro FM; exact (fatal_not_fine P xs FM R K C)|]. unfold Merge. destruct C as [->|(L & C)].
      + cbn [AggInsertAll bind]. apply result_fine. exact R.
      + destruct (SearchStreamP.insert_all_safe G P xs agg_empty L C SearchStreamP.empty_safe K) as (s & -> & _).
        cbn [bind]. apply result_fine. exact R. }
  destruct X as [(A & ->)|(A & out & ->)]; (split; [|discriminate]); split; auto; [discriminate|contradiction].
Qed.
Print Assumptions C97_merge.

(** The same for grouped merges, with the same conditions. *)
Theorem C97_group_merge : forall G P ord xs,
  aLimit P < M32 -> aResultLimit P < M64 -> Forall sized_result xs -> 1 <= aGroupLimit P ->
  (forall gs, Permutation (ord gs) gs) ->
  (GroupMerge G P ord xs = Panic <->
   M63 <= aResultLimit P \/ (exists x, In x xs /\ skey x = None) \/
   (xs <> [] /\ (aLimit P = 0 \/ bad_context (aContext P)))) /\
  (forall er, GroupMerge G P ord xs <> Err er).
Proof.
  intros G P ord xs LM RM F GL OR. fold (fatal_merge P xs).
  assert (OI : forall gs p, In p (ord gs) -> In p gs) by (intros gs p; apply Permutation_in; apply OR).
  assert (GB : forall gs x, bad_context (aContext P) -> GroupInsert G P gs x = Panic).
  { intros gs x B. unfold GroupInsert. rewrite BestScore_bad by exact B. reflexivity. }
  assert (GK : forall gs x, skey x = None -> GroupInsert G P gs x = Panic).
  { intros gs x K. unfold GroupInsert. pose proof (BestScore_total P x) as T.
    destruct (BestScore P x) as [sc|e|]; [|exfalso; exact (T e eq_refl)|reflexivity]. cbn [bind sDatum].
    unfold skey in K. rewrite K. reflexivity. }
  assert (SPLIT : forall l1 l2 gs, GroupInsertAll G P gs (l1 ++ l2) = (gs' <- GroupInsertAll G P gs l1 ;; GroupInsertAll G P gs' l2)).
  { induction l1 as [|x l1 IH]; intros l2 gs; [reflexivity|]. cbn [app GroupInsertAll].
    destruct (GroupInsert G P gs x) as [s1| |]; cbn [bind]; auto. }
  assert (SAFE : forall xs, SearchStreamP.ctx_ok (aContext P) -> Forall keyed xs ->
    exists gs, GroupInsertAll G P [] xs = Ok gs /\ (forall k s, In (k, s) gs -> SearchStreamP.agg_safe s /\ agSeen s <> [])).
  { intros ys C K. apply SearchStreamP.group_insert_safe; auto. intros ? ? []. }
  assert (NONEMPTY : forall x xs gs gs', GroupInsertAll G P gs (x :: xs) = Ok gs' -> gs' <> []).
  { assert (ST : forall gs x gs', GroupInsert G P gs x = Ok gs' -> gs' <> []).
    { intros gs x gs' E. unfold GroupInsert in E. destruct (BestScore P x); try discriminate. cbn [bind] in E.
      destruct (dkey _); try discriminate. destruct (AggInsert _ _ _ _); try discriminate. injection E as <-. discriminate. }
    intros x ys. revert x. induction ys as [|y ys IH]; intros x gs gs' E; cbn [GroupInsertAll] in E;
      destruct (GroupInsert G P gs x) as [g1| |] eqn:E1; try discriminate; cbn [bind] in E.
    - injection E as <-. eapply ST; eauto.
    - eapply IH. cbn [GroupInsertAll]. exact E. }
  assert (ONES_BOUND : forall order s s', blen (agList s) <= aLimit P -> insert_ones G P s order = Ok s' -> blen (agList s') <= aLimit P).
  { induction order as [|[k g] order IH]; intros s s' B E; cbn [insert_ones] in E; [injection E as <-; exact B|].
    destruct (One _ g) as [y|]; try discriminate. destruct (AggInsert G P s y) as [s1| |] eqn:E1; try discriminate.
    cbn [bind] in E. eapply IH; [|exact E]. eapply insert_bound; eauto. }
  assert (X : (fatal_merge P xs /\ GroupMerge G P ord xs = Panic) \/ (~ fatal_merge P xs /\ exists out, GroupMerge G P ord xs = Ok out)).
  { destruct (fatal_cases P xs F) as [FM|(R & K & C)].
    - left. split; [exact FM|]. unfold GroupMerge.
      destruct xs as [|x xs].
      { destruct FM as [R|[(y & [] & _)|(NE & _)]]; [|congruence]. cbn [GroupInsertAll bind]. unfold GroupResult.
        replace (ord []) with (@nil (bytes * aggState)) by (symmetry; apply Permutation_nil; symmetry; apply OR).
        cbn [insert_ones bind]. apply result_huge; auto. cbn. lia. }
      inversion F as [|? ? SX FX]; subst.
      destruct (context_dec (aContext P)) as [B|C].
      { cbn [GroupInsertAll]. rewrite GB by exact B. reflexivity. }
      destruct (sized_split (x :: xs) F) as [K|(l1 & y & l2 & E & K1 & KY)].
      + destruct (SAFE (x :: xs) C K) as (gs & E & S). rewrite E. cbn [bind]. unfold GroupResult.
        destruct (N.eq_dec (aLimit P) 0) as [Z|Z].
        * destruct (ord gs) as [|[k g] l] eqn:EO.
          { exfalso. apply (NONEMPTY _ _ _ _ E). apply Permutation_nil. rewrite <- EO. apply OR. }
          cbn [insert_ones]. destruct (S k g) as ((G1 & G2) & G3); [apply OI; rewrite EO; left; reflexivity|].
          specialize (G2 G3). unfold One. destruct (agList g) as [|y l'] eqn:EG; [congruence|].
          inversion G1 as [|? ? KY _]; subst.
          assert (SZ : forall sc, sized_result (mkScored sc (sDatum y))).
          { intros sc k' K'. destruct KY as (k2 & KY & O & FF). unfold skey in *. cbn [sDatum] in K'.
            assert (k' = k2) by congruence. subst. auto. }
          destruct (aHigher (groupParams P)); rewrite insert_zero by auto; reflexivity.
        * destruct (SearchStreamP.ones_safe G P (ord gs) agg_empty ltac:(lia) C SearchStreamP.empty_safe) as (s & E2 & _).
          { intros k g I. apply S with k. apply OI. exact I. }
          rewrite E2. cbn [bind]. apply result_huge; auto.
          { eapply ONES_BOUND; [|exact E2]. cbn. lia. }
          destruct FM as [R|FM]; [exact R|]. destruct (N.le_gt_cases M63 (aResultLimit P)) as [R|R]; [exact R|].
          exfalso. eapply fatal_not_fine; [right; exact FM|exact R|exact K|right; split; [lia|exact C]].
      + rewrite E, SPLIT. destruct (SAFE l1 C K1) as (gs & -> & _).
        cbn [bind GroupInsertAll]. rewrite GK by exact KY. reflexivity.
    - right. split; [intro FM; exact (fatal_not_fine P xs FM R K C)|].
      destruct C as [->|(L & C)].
      + unfold GroupMerge. cbn [GroupInsertAll bind]. unfold GroupResult.
        replace (ord []) with (@nil (bytes * aggState)) by (symmetry; apply Permutation_nil; symmetry; apply OR).
        cbn [insert_ones bind]. apply result_fine. exact R.
      + unfold GroupMerge. destruct (SAFE xs C K) as (gs & -> & S). cbn [bind]. unfold GroupResult.
        destruct (SearchStreamP.ones_safe G P (ord gs) agg_empty L C SearchStreamP.empty_safe) as (s & -> & _).
        { intros k g I. apply S with k. apply OI. exact I. }
        cbn [bind]. apply result_fine. exact R. }
  destruct X as [(A & ->)|(A & out & ->)]; (split; [|discriminate]); split; auto; [discriminate|contradiction].
Qed.
Print Assumptions C97_group_merge.

(** Limit 0 is fatal only if something arrives, and so is a context without keys. *)
Definition agg_lim (n r : N) (ctx : option SearchContext) : aggParams := mkAgg true n 1 r ctx QuickVectorDistance.
Definition keyless_context : option SearchContext := Some (mkContext [kv ka va; mkDatum None None] false).
Example C97_instance :
  Merge insertion_sort (agg_lim 0 0 None) [] = Ok [] /\ Merge insertion_sort (agg_lim 0 0 None) [sd ka 3] = Panic /\
  Merge insertion_sort (agg_lim 2 0 keyless_context) [] = Ok [] /\
  Merge insertion_sort (agg_lim 2 0 keyless_context) [sd ka 3] = Panic /\
  Merge insertion_sort (agg_lim 2 9223372036854775808 None) [] = Panic /\
  (exists x, Merge insertion_sort (agg_lim 2 9223372036854775807 None) [sd ka 3] = Ok [x]) /\
  GroupMerge insertion_sort (agg_lim 0 0 None) (fun g => g) [sd ka 3] = Panic /\
  (exists x, GroupMerge insertion_sort (agg_lim 1 0 None) (fun g => g) [sd ka 3; sd kb 4] = Ok [x]).
Proof.
  repeat (split; [vm_compute; first [reflexivity|eexists; reflexivity]|]). vm_compute. eexists. reflexivity.
Qed.

(** ** C98: the search handler *)

(** The answer of the index, if the request uses it and there is one. *)
Definition index_answer (E : SearchStream.searchEnv) (c : SearchConfig) (d : Datum) : option (list ScoredDatum) :=
  if HasPrefix (scScoreFuncName c) (bs "Annoy") then SearchStream.eAnnoy E d else None.
(** With limit 0, something is compared: the scan (without an answer of the index)
    meets a match, or the index or a source delivers something. *)
Definition zero_hit (E : SearchStream.searchEnv) (c : SearchConfig) (d : Datum) : Prop :=
  match index_answer E c d with
  | Some l => SearchStream.eArrive E (l ++ SearchStream.eRemote E d) <> []
  | None => has_match (SearchStream.eExists E) c (SearchStream.eTick E d) (SearchStream.eOrder E d) \/
            SearchStream.eArrive E (SearchStream.eRemote E d) <> []
  end.

Lemma local_results : forall E c d, SearchStreamP.env_ok E -> SearchStreamP.datum_ok d ->
  (SearchStream.LocalResults E d c = Panic <->
   scLimit c = 0 /\ index_answer E c d = None /\
   has_match (SearchStream.eExists E) c (SearchStream.eTick E d) (SearchStream.eOrder E d)) /\
  (forall er, SearchStream.LocalResults E d c <> Err er) /\
  (forall l, SearchStream.LocalResults E d c = Ok l -> Forall keyed l) /\
  (forall l, SearchStream.LocalResults E d c = Ok l -> scLimit c = 0 ->
     l = match index_answer E c d with Some l' => l' | None => [] end).
Proof.
  intros E c d (E1 & E2 & _) (k & Ek & Ok_ & Fk). unfold SearchStream.LocalResults, index_answer.
  destruct d as [dk dv]. cbn in Ek. subst dk. set (d := mkDatum (Some k) dv).
  set (sc := GetVectorComparisonFunction (SearchStream.eMath E) (scScoreFuncName c)).
  assert (PL : let r := snd (Search (SearchStream.eSort E) (SearchStream.eExists E) sc (SearchStream.eTick E d)
                      (SearchStream.eOrder E d) (SearchStream.eStore E) (Some d) c) in
     (r = Panic <-> scLimit c = 0 /\ has_match (SearchStream.eExists E) c (SearchStream.eTick E d) (SearchStream.eOrder E d)) /\
     (forall er, r <> Err er) /\ (forall l, r = Ok l -> Forall keyed l) /\ (forall l, r = Ok l -> scLimit c = 0 -> l = [])).
  { cbn zeta.
    destruct (search_panics (SearchStream.eSort E) (SearchStream.eExists E) sc c (Some d) (SearchStream.eTick E d)
                (SearchStream.eOrder E d) (SearchStream.eStore E) (E1 d)) as (A & B).
    split; [|split; [exact B|]].
    - rewrite A. split.
      + intros [X|(M & [Z|(d' & X & K)])]; [discriminate|auto|]. injection X as <-. discriminate.
      + intros (Z & M). right. split; [exact M|left; exact Z].
    - assert (LZ : forall l, snd (Search (SearchStream.eSort E) (SearchStream.eExists E) sc (SearchStream.eTick E d)
                      (SearchStream.eOrder E d) (SearchStream.eStore E) (Some d) c) = Ok l -> scLimit c = 0 -> l = []).
      { intros l X Z.
        assert (NM : ~ has_match (SearchStream.eExists E) c (SearchStream.eTick E d) (SearchStream.eOrder E d)).
        { intro M. assert (Y : @Ok (list ScoredDatum) l = Panic); [|discriminate]. rewrite <- X. apply A.
          right. split; [exact M|left; exact Z]. }
        unfold Search in X.
        assert (LP : forall order m s, (forall b e, In (b, e) order -> exists k v, kv_ok k v /\ edatum e = kv k v) ->
          ~ has_match (SearchStream.eExists E) c (SearchStream.eTick E d) order ->
          snd (fst (LoopDBMap (SearchStream.eTick E d)
            (fun s e => (l <- s ;; search_entry (SearchStream.eSort E) (SearchStream.eExists E) sc c (Some d) l e, None)) order m (Ok s))) = Ok s).
        { induction order as [|[b e] order IH]; intros m s Ho N; [reflexivity|]. cbn [LoopDBMap].
          assert (N' : ~ has_match (SearchStream.eExists E) c (SearchStream.eTick E d) order).
          { intros (b' & e' & I & C). apply N. exists b', e'. split; [right; exact I|exact C]. }
          assert (Ho' : forall b e, In (b, e) order -> exists k v, kv_ok k v /\ edatum e = kv k v)
            by (intros; eapply Ho; right; eauto).
          destruct (expired _ e) eqn:EX; [apply IH; auto|]. cbn [bind].
          destruct (Ho b e (or_introl eq_refl)) as (k1 & v1 & O1 & Ed).
          pose proof (search_entry_spec (SearchStream.eSort E) (SearchStream.eExists E) sc c k dv s e k1 v1 Ed) as SE.
          fold d in SE. rewrite SE.
          destruct (passes _ c (kv k1 v1)) eqn:PA; [|apply IH; auto].
          exfalso. apply N. exists b, e. split; [left; reflexivity|]. rewrite Ed. split; [apply live_expired; exact EX|exact PA]. }
        specialize (LP (SearchStream.eOrder E d) (SearchStream.eStore E) [] (E1 d) NM).
        destruct (LoopDBMap _ _ _ _ _) as [[m' r] er]. cbn [fst snd] in LP, X. congruence. }
      split; [|exact LZ]. intros l X. destruct (N.eq_dec (scLimit c) 0) as [Z|Z]; [rewrite (LZ l X Z); constructor|].
      destruct (SearchStreamP.search_safe (SearchStream.eSort E) (SearchStream.eExists E) sc c k dv
                (SearchStream.eTick E d) (SearchStream.eOrder E d) (SearchStream.eStore E) ltac:(lia) (E1 d)) as (m' & l' & Y & FK).
      fold d in Y. rewrite Y in X. cbn [snd] in X. injection X as <-. exact FK. }
  cbn zeta in PL. destruct PL as (P1 & P2 & P3 & P4).
  destruct (HasPrefix (scScoreFuncName c) (bs "Annoy")); [destruct (SearchStream.eAnnoy E d) as [l0|] eqn:AN|].
  - repeat split; try discriminate.
    + intros (_ & X & _). discriminate.
    + intros l X. injection X as <-. eapply E2; eauto.
    + intros l X _. injection X as <-. reflexivity.
  - split; [rewrite P1; tauto|]. auto.
  - split; [rewrite P1; tauto|]. auto.
Qed.

Lemma keyed_sized : forall xs, Forall keyed xs -> Forall sized_result xs.
Proof.
  intros xs F. eapply Forall_impl; [|exact F]. intros x (k & K & O & FF) k' K'. assert (k' = k) by congruence. subst. auto.
Qed.
Lemma no_keyless : forall xs, Forall keyed xs -> ~ exists x, In x xs /\ skey x = None.
Proof. intros xs F (x & I & K). rewrite Forall_forall in F. destruct (F x I) as (k & K' & _). congruence. Qed.

(** What one AggregatedSearch does. *)
Lemma aggregated_panics : forall E c d, SearchStreamP.env_ok E ->
  (forall k, dkey d = Some k -> key_ok k /\ key_fits k) -> scLimit c < M32 -> scResultLimit c < M64 ->
  (SearchStream.AggregatedSearch E c d = Panic <->
   dkey d = None \/ M63 <= scResultLimit c \/ (scLimit c = 0 /\ zero_hit E c d)) /\
  (forall er, SearchStream.AggregatedSearch E c d <> Err er) /\
  (forall l, SearchStream.AggregatedSearch E c d = Ok l -> Forall keyed l).
Proof.
  intros E c d EO DO LM RM. unfold SearchStream.AggregatedSearch, GetSearchKey, GetKeyAsBytes.
  destruct (dkey d) as [k|] eqn:DK.
  2:{ rewrite MarshalKey_none. cbn [bind]. repeat split; auto; discriminate. }
  destruct (DO k eq_refl) as (O & FF). rewrite MarshalKey_spec by auto. cbn [bind].
  destruct (local_results E c d EO) as (L1 & L2 & L3 & L4); [exists k; auto|].
  destruct (SearchStream.LocalResults E d c) as [local|er|] eqn:LR.
  - cbn [bind]. specialize (L3 local eq_refl). specialize (L4 local eq_refl).
    assert (K : Forall keyed (SearchStream.eArrive E (local ++ SearchStream.eRemote E d))).
    { destruct EO as (_ & _ & E3 & E4 & _). apply Forall_forall. intros x I. apply E4 in I.
      apply in_app_or in I as [I|I]; [rewrite Forall_forall in L3; auto|].
      specialize (E3 d). rewrite Forall_forall in E3. auto. }
    destruct (C97_merge (SearchStream.eSort E) (aggOf (SearchStream.eMath E) c None)
                (SearchStream.eArrive E (local ++ SearchStream.eRemote E d)) LM RM (keyed_sized _ K)) as (M1 & M2).
    split; [|split; [exact M2|]].
    + rewrite M1. cbn [aggOf aResultLimit aLimit aContext]. split.
      * intros [R|[X|(NE & [Z|B])]].
        -- auto.
        -- exfalso. exact (no_keyless _ K X).
        -- right. right. split; [exact Z|]. specialize (L4 Z). unfold zero_hit. subst local.
           destruct (index_answer E c d); [exact NE|right; exact NE].
        -- destruct B as (c' & d' & X & _). discriminate.
      * intros [X|[R|(Z & H)]]; [discriminate|auto|]. right. right. split; [|left; exact Z].
        specialize (L4 Z). unfold zero_hit in H. subst local. destruct (index_answer E c d) eqn:IA; [exact H|].
        destruct H as [H|H]; [|exact H]. exfalso.
        assert (Y : @Ok (list ScoredDatum) [] = Panic) by (apply L1; auto). discriminate.
    + intros l X. destruct (N.eq_dec (scLimit c) 0) as [Z|Z].
      * assert (AE : SearchStream.eArrive E (local ++ SearchStream.eRemote E d) = []).
        { destruct (SearchStream.eArrive E (local ++ SearchStream.eRemote E d)) as [|x xs]; [reflexivity|]. exfalso.
          assert (Y : @Ok (list ScoredDatum) l = Panic); [|discriminate]. rewrite <- X. apply M1. right. right.
          split; [discriminate|left; exact Z]. }
        rewrite AE in X. unfold Merge in X. cbn [AggInsertAll bind] in X. unfold AggResult in X. cbn [agg_empty agList] in X.
        destruct (_ && _)%bool; [destruct (_ <=? _)|]; try discriminate; injection X as <-; rewrite ?firstn_nil; constructor.
      * destruct (N.le_gt_cases M63 (scResultLimit c)) as [R|R].
        { exfalso. assert (Y : @Ok (list ScoredDatum) l = Panic); [|discriminate]. rewrite <- X. apply M1. left. exact R. }
        destruct (SearchStreamP.merge_safe (SearchStream.eSort E) (aggOf (SearchStream.eMath E) c None)
                   (SearchStream.eArrive E (local ++ SearchStream.eRemote E d))) as (out & Y & FO); auto.
        { cbn. lia. } { exact I. } rewrite Y in X. injection X as <-. exact FO.
  - exfalso. exact (L2 er eq_refl).
  - cbn [bind]. split; [split; [intros _|reflexivity]|split; discriminate].
    right. right. destruct (proj1 L1 eq_refl) as (Z & IA & M). split; [exact Z|]. unfold zero_hit. rewrite IA. left. exact M.
Qed.

(** C98 Exactly these search requests crash the node that handles them: no
    configuration; a new request on a known dataset with a result limit of 2^63
    or more, with a datum without a key, with limit 0 and something to compare,
    or with a context datum without a key and something to merge.  The answers
    of index and sources are assumed to have keys; arrivals may be dropped. *)
Theorem C98_handler : forall seen datasets rq,
  (forall c E, SearchStream.srConfig rq = Some c -> datasets (scDataName c) = Some E ->
     SearchStreamP.env_ok E /\ (forall gs, Permutation (SearchStream.eGroups E gs) gs) /\
     scLimit c < M32 /\ scResultLimit c < M64 /\
     (forall d k, In d (SearchStream.srDatum rq) -> dkey d = Some k -> key_ok k /\ key_fits k)) ->
  (snd (SearchStream.SearchStream seen datasets rq) = Panic <->
   match SearchStream.srConfig rq with
   | None => True
   | Some c => (scUuid c = [] \/ ~ In (scUuid c) seen) /\
       exists E, datasets (scDataName c) = Some E /\
         (M63 <= scResultLimit c \/
          (exists d, In d (SearchStream.srDatum rq) /\ (dkey d = None \/ (scLimit c = 0 /\ zero_hit E c d))) \/
          (bad_context (SearchStream.srContext rq) /\
           exists rs, SearchStream.AggregatedAll E c (SearchStream.srDatum rq) = Ok rs /\ SearchStream.eArrive E rs <> []))
   end).
Proof.
  intros seen datasets rq H. unfold SearchStream.SearchStream.
  destruct (SearchStream.srConfig rq) as [c|] eqn:RC; [|cbn; tauto].
  assert (ANS : SearchStream.AnswerSearch datasets rq = Panic <->
     exists E, datasets (scDataName c) = Some E /\
         (M63 <= scResultLimit c \/
          (exists d, In d (SearchStream.srDatum rq) /\ (dkey d = None \/ (scLimit c = 0 /\ zero_hit E c d))) \/
          (bad_context (SearchStream.srContext rq) /\
           exists rs, SearchStream.AggregatedAll E c (SearchStream.srDatum rq) = Ok rs /\ SearchStream.eArrive E rs <> []))).
  { unfold SearchStream.AnswerSearch. rewrite RC. destruct (datasets (scDataName c)) as [E|] eqn:DS.
    2:{ split; [discriminate|]. intros (E & X & _). discriminate. }
    destruct (H c E eq_refl DS) as (EO & GP & LM & RM & KO).
    unfold SearchStream.MultiAggregatedSearch.
    assert (ALL : (SearchStream.AggregatedAll E c (SearchStream.srDatum rq) = Panic <->
        exists d, In d (SearchStream.srDatum rq) /\ (dkey d = None \/ M63 <= scResultLimit c \/ (scLimit c = 0 /\ zero_hit E c d))) /\
      (forall er, SearchStream.AggregatedAll E c (SearchStream.srDatum rq) <> Err er) /\
      (forall l, SearchStream.AggregatedAll E c (SearchStream.srDatum rq) = Ok l -> Forall keyed l) /\
      (forall l, SearchStream.AggregatedAll E c (SearchStream.srDatum rq) = Ok l -> scLimit c = 0 -> l = [])).
    { clear H. induction (SearchStream.srDatum rq) as [|d ds IH]; cbn [SearchStream.AggregatedAll].
      - split; [split; [discriminate|intros (d & [] & _)]|]. split; [discriminate|].
        split; intros l X; injection X as <-; auto.
      - destruct (aggregated_panics E c d EO) as (A1 & A2 & A3); auto.
        { intros k K. apply (KO d k); [left; reflexivity|exact K]. }
        destruct IH as (I1 & I2 & I3 & I4); [intros d' k I K; apply (KO d' k); [right; exact I|exact K]|].
        assert (A4 : forall l, SearchStream.AggregatedSearch E c d = Ok l -> scLimit c = 0 -> l = []).
        { intros l X Z. unfold SearchStream.AggregatedSearch in X.
          destruct (GetSearchKey _ _); try discriminate. cbn [bind] in X.
          destruct (SearchStream.LocalResults E d c) as [local| |]; try discriminate. cbn [bind] in X.
          unfold Merge in X. destruct (SearchStream.eArrive E _) as [|x xs].
          - cbn [AggInsertAll bind] in X. unfold AggResult in X. cbn [agg_empty agList] in X.
            destruct (_ && _)%bool; [destruct (_ <=? _)|]; try discriminate; injection X as <-; rewrite ?firstn_nil; reflexivity.
          - exfalso. cbn [AggInsertAll] in X. unfold AggInsert, InsertToList in X. cbn [aggOf aLimit agg_empty agList agSeen mload] in X.
            rewrite Z in X. destruct (BestScore _ _); try discriminate. cbn [bind] in X.
            destruct (GetKeyAsBytes _); discriminate. }
        destruct (SearchStream.AggregatedSearch E c d) as [r|er|] eqn:AG; cbn [bind].
        + assert (NP : ~ (dkey d = None \/ M63 <= scResultLimit c \/ scLimit c = 0 /\ zero_hit E c d)).
          { intro X. apply A1 in X. discriminate. }
          destruct (SearchStream.AggregatedAll E c ds) as [rs|er|] eqn:AA; cbn [bind].
          * split; [|split; [discriminate|split]].
            -- split; [discriminate|]. intros (d' & [<-|I] & X); [contradiction|].
               assert (Y : @Ok (list ScoredDatum) rs = Panic) by (apply I1; exists d'; auto). discriminate.
            -- intros l X. injection X as <-. apply Forall_app. auto.
            -- intros l X Z. injection X as <-. rewrite (A4 r eq_refl Z), (I4 rs eq_refl Z). reflexivity.
          * exfalso. exact (I2 er eq_refl).
          * split; [|split; [discriminate|split; discriminate]]. split; [intros _|reflexivity].
            destruct (proj1 I1 eq_refl) as (d' & I & X). exists d'. split; [right; exact I|exact X].
        + exfalso. exact (A2 er eq_refl).
        + split; [|split; [discriminate|split; discriminate]]. split; [intros _|reflexivity].
          exists d. split; [left; reflexivity|]. apply A1. reflexivity. }
    destruct ALL as (A1 & A2 & A3 & A4).
    destruct (SearchStream.AggregatedAll E c (SearchStream.srDatum rq)) as [rs|er|] eqn:AA; cbn [bind].
    - assert (K : Forall keyed (SearchStream.eArrive E rs)).
      { destruct EO as (_ & _ & _ & E4 & _). apply Forall_forall. intros x I. apply E4 in I.
        specialize (A3 rs eq_refl). rewrite Forall_forall in A3. auto. }
      assert (MM : SearchStream.eArrive E rs <> [] -> scLimit c <> 0).
      { intros NE Z. rewrite (A4 rs eq_refl Z) in NE. apply NE. destruct (SearchStream.eArrive E []) as [|x xs] eqn:EA; [reflexivity|].
        destruct EO as (_ & _ & _ & E4 & _). exfalso. apply (E4 [] x). rewrite EA. left. reflexivity. }
      assert (M1 : MultiMerge (SearchStream.eSort E) (aggOf (SearchStream.eMath E) c (SearchStream.srContext rq))
                    (SearchStream.eGroups E) (SearchStream.eArrive E rs) = Panic <->
                   fatal_merge (aggOf (SearchStream.eMath E) c (SearchStream.srContext rq)) (SearchStream.eArrive E rs)).
      { unfold MultiMerge. destruct (N.ltb_spec 0 (aGroupLimit (aggOf (SearchStream.eMath E) c (SearchStream.srContext rq)))).
        - apply C97_group_merge; auto; [apply keyed_sized; exact K|lia].
        - apply C97_merge; auto. apply keyed_sized; exact K. }
      rewrite M1. unfold fatal_merge. cbn [aggOf aResultLimit aLimit aContext]. split.
      + intros [R|[X|(NE & [Z|B])]].
        * exists E. auto.
        * exfalso. exact (no_keyless _ K X).
        * exfalso. exact (MM NE Z).
        * exists E. split; [reflexivity|]. right. right. split; [exact B|]. exists rs. auto.
      + intros (E' & X & C). injection X as <-. destruct C as [R|[(d & I & C)|(B & rs' & X & NE)]].
        * auto.
        * exfalso. assert (Y : @Ok (list ScoredDatum) rs = Panic); [|discriminate].
          apply A1. exists d. split; [exact I|]. tauto.
        * rewrite X in AA. injection AA as ->. right. right. auto.
    - exfalso. exact (A2 er eq_refl).
    - split; [intros _|reflexivity]. exists E. split; [reflexivity|].
      destruct (proj1 A1 eq_refl) as (d & I & [X|[X|X]]); [right; left|left; exact X|right; left]; exists d; auto. }
  destruct (scUuid c) as [|b u] eqn:U.
  - cbn [snd]. rewrite ANS. split; [intro X; split; [left; reflexivity|exact X]|intros (_ & X); exact X].
  - destruct (existsb (bytes_eqb (b :: u)) seen) eqn:EX; cbn [snd].
    + split; [discriminate|]. intros ([X|X] & _); [discriminate|]. exfalso. apply X.
      apply existsb_exists in EX. destruct EX as (y & I & Y). apply bytes_eqb_spec in Y. subst y. exact I.
    + rewrite ANS. split; [intro X; split; [right|exact X]|intros (_ & X); exact X].
      intro I. assert (Y : existsb (bytes_eqb (b :: u)) seen = true); [|congruence].
      apply existsb_exists. exists (b :: u). split; [exact I|apply bytes_eqb_refl].
Qed.
Print Assumptions C98_handler.

(** A store with one datum (QueryProps.one_datum): the hypotheses hold; limit 0
    crashes on it but not on an empty store; a context datum without a key
    crashes unless nothing is asked. *)
Example C98_instance :
  SearchStreamP.env_ok QueryProps.one_datum /\
  (let node rq := snd (SearchStream.SearchStream [] (QueryProps.only (bs "db") QueryProps.one_datum) rq) in
   let empty rq := snd (SearchStream.SearchStream [] (QueryProps.only (bs "db")
     (SearchStream.mkEnv insertion_sort (SearchStream.eMath QueryProps.one_datum) (fun _ _ => true) [] (fun _ _ => 5%Z) (fun _ => [])
        (fun _ => None) (fun _ => []) (fun l => l) (fun gs => gs))) rq) in
   let q := mkDatum (Some QueryProps.qk) None in
   let bad := Some (mkContext [mkDatum None None] false) in
   node (SearchStream.mkSearchRequest [q] (Some (QueryProps.lim 0 0)) None) = Panic /\
   empty (SearchStream.mkSearchRequest [q] (Some (QueryProps.lim 0 0)) None) = Ok [] /\
   node (SearchStream.mkSearchRequest [q] (Some (QueryProps.lim 1 0)) bad) = Panic /\
   node (SearchStream.mkSearchRequest [] (Some (QueryProps.lim 1 0)) bad) = Ok [] /\
   empty (SearchStream.mkSearchRequest [q] (Some (QueryProps.lim 1 0)) bad) = Ok []).
Proof.
  split; [apply QueryProps.C34_instance|]. repeat split; vm_compute; reflexivity.
Qed.
