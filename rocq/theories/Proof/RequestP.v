(** Proofs about what becomes of a datum that a node acknowledged. *)
From Verif.Base Require Import GoBase GoLemmas Assoc Float GoSort.
From Verif.Model Require Import Codec Store Data Insert Vector Search Dataset Json Index DatasetAll Aggregator CallTree QueryCache SearchStream Requests.
From Verif.Spec Require Import Wire StoreSpec InsertSpec RegistrySpec IsolationSpec RequestSpec.
From Verif.Proof Require Import CodecP CodecTop StoreP InsertP StoreConcP DatasetP DatasetAllP IsolationP.
From Coq Require Import Lia.
Open Scope N_scope.

Lemma live_there : forall now x s dt e, view x s = Some (dt, e) ->
  (there now x s <-> vlive now (view x s) = Some (dt, e)).
Proof.
  intros now x s dt e V. rewrite V. cbn [vlive]. split.
  - intros (dt' & e' & V' & H). rewrite V in V'. injection V' as <- <-.
    assert (E : item_live now (mkDI 0 e) = true) by (apply live_iff; auto). rewrite E. reflexivity.
  - intro H. exists dt, e. split; auto. destruct (item_live now (mkDI 0 e)) eqn:E; [|discriminate].
    apply live_iff in E. auto.
Qed.

Section R.
Variable L : floatlib.
Variable inc : Z -> Z -> Z -> Z.
Variable closed : Data -> Data.
Hypothesis KC : keeps_config closed.
Hypothesis PR : prolongs inc.
Variable x : bytes.
Variable P : dbmap -> Prop.
Hypothesis PC : forall dt, P (dDBMap dt) -> P (dDBMap (closed dt)).

(** The dataset x, if there is one, satisfies P; either P holds of an empty one, or x
    can be found. *)
Definition good (now : option Z) (s : dstate) : Prop :=
  (forall dt ex, view x s = Some (dt, ex) -> P (dDBMap dt)) /\
  (P [] \/ (view x s <> None /\ forall t, now = Some t -> there t x s)).

Lemma keep_map : forall a b, dDBMap (keep_config a b) = dDBMap b.
Proof. intros a b. unfold keep_config. destruct (dConfig a); reflexivity. Qed.

Lemma vget_good : forall now s, good (Some now) s ->
  P (dDBMap (fst (vget inc now x (view x s)))) /\
  (P [] \/ (snd (vget inc now x (view x s)) <= 0 \/ now <= snd (vget inc now x (view x s)))%Z).
Proof.
  intros now s [G1 G2]. unfold vget. destruct (vlive now (view x s)) as [[dt e]|] eqn:V.
  - cbn [fst snd]. destruct (view x s) as [[dt0 e0]|] eqn:W; [|discriminate]. cbn [vlive] in V.
    destruct (item_live now (mkDI 0 e0)) eqn:E; [|discriminate]. injection V as -> ->.
    split; [eauto|]. destruct G2 as [G2|[_ G2]]; auto. right. unfold prolonged.
    apply live_iff in E. cbn in E. destruct (dConfig dt); auto.
  - destruct G2 as [G2|[G2 G3]].
    + cbn [fst snd fresh InitData NewPreData dInitialized dDBMap]. auto.
    + exfalso. destruct (view x s) as [[dt0 e0]|] eqn:W; [|congruence].
      specialize (G3 now eq_refl). apply (live_there _ _ _ _ _ W) in G3. rewrite W in G3. congruence.
Qed.

Lemma good_at : forall now s dt e, view x s = Some (dt, e) -> P (dDBMap dt) ->
  (P [] \/ (e <= 0 \/ now <= e)%Z) -> good (Some now) s.
Proof.
  intros now s dt e V H T. split.
  - intros dt' ex V'. rewrite V in V'. injection V' as <- <-. auto.
  - destruct T as [T|T]; auto. right. split; [congruence|]. intros t Q. injection Q as <-. exists dt, e. auto.
Qed.

Lemma good_other : forall now s s', good now s -> view x s' = view x s -> good now s'.
Proof.
  intros now s s' [G1 G2] V. split; [intros dt ex; rewrite V; eauto|].
  destruct G2 as [G2|[G2 G3]]; [left; exact G2|]. right. rewrite V. split; auto. intros t Q.
  pose proof (G3 t Q) as H. unfold there in H. destruct H as (dt & e & H). exists dt, e. rewrite V. exact H.
Qed.

(** Requests that get the dataset and work on it. *)
Lemma get_good : forall now s k s1 a, inv s -> good (Some now) s -> Get inc deep now s k = Ok (s1, a) ->
  inv s1 /\ good (Some now) s1.
Proof.
  intros now s k s1 a I G E. destruct (get_view inc now s k I) as (s' & a' & dt & e & A1 & A2 & A3 & A4 & A5 & A6).
  rewrite E in A1. injection A1 as <- <-. split; auto. destruct (bytes_dec k x) as [->|N].
  - destruct (vget_good now s G) as [B1 B2]. rewrite A6 in B1, B2. cbn [fst snd] in *.
    eapply good_at; eauto. apply (view_at _ _ a); auto.
  - apply (good_other _ s); auto. apply (view_others x k); auto.
Qed.

Lemma with_get_good : forall now s k f s' r, inv s -> good (Some now) s ->
  (k = x -> forall dt dt' r, P (dDBMap dt) -> f dt = Ok (dt', r) -> P (dDBMap dt')) ->
  with_get inc now s k f = Ok (s', r) -> forall dt ex, view x s' = Some (dt, ex) -> P (dDBMap dt).
Proof.
  intros now s k f s' r I G F E dt ex V. pose proof (with_get_view inc now s k f I) as H.
  destruct (bytes_dec k x) as [->|N].
  - destruct (vget_good now s G) as [B1 B2].
    destruct (f (fst (vget inc now x (view x s)))) as [[dt' r']| |] eqn:D; try congruence.
    destruct H as (s1 & H1 & H2 & H3 & H4). rewrite E in H1. injection H1 as <- <-. rewrite H4 in V. injection V as <- <-.
    rewrite keep_map. eapply F; eauto.
  - destruct (f (fst (vget inc now k (view k s)))) as [[dt' r']| |] eqn:D; try congruence.
    destruct H as (s1 & H1 & H2 & H3 & H4). rewrite E in H1. injection H1 as <- <-.
    rewrite (view_others x k s s') in V; auto. destruct G as [G _]. eauto.
Qed.

Lemma save_good : forall now names s s' text, inv s -> good (Some now) s ->
  SaveIndex L inc now s names = Ok (s', text) -> inv s' /\ good (Some now) s'.
Proof.
  intros now. unfold SaveIndex. induction names as [|k names IH]; intros s s' text I G E.
  - cbn in E. injection E as <- <-. auto.
  - cbn [save_lines] in E. destruct (Get inc deep now s k) as [[s1 a]| |] eqn:A; try discriminate. cbn [bind] in E.
    destruct (get_good now s k s1 a I G A) as [I1 G1].
    destruct (nth_error (dsObjs s1) a); [|discriminate].
    destruct (save_lines L inc now s1 names) as [[s2 tx]| |] eqn:E2; try discriminate. cbn [bind] in E. injection E as <- <-.
    eauto.
Qed.
Lemma list_good : forall now names s s' l, inv s -> good (Some now) s ->
  DataConfigList inc now s names = Ok (s', l) -> inv s' /\ good (Some now) s'.
Proof.
  intros now. unfold DataConfigList. induction names as [|k names IH]; intros s s' l I G E.
  - cbn in E. injection E as <- <-. auto.
  - cbn [config_list] in E. destruct (Get inc deep now s k) as [[s1 a]| |] eqn:A; try discriminate. cbn [bind] in E.
    destruct (get_good now s k s1 a I G A) as [I1 G1].
    destruct (nth_error (dsObjs s1) a); [|discriminate].
    destruct (config_list inc now s1 names) as [[s2 tx]| |] eqn:E2; try discriminate. cbn [bind] in E. injection E as <- <-.
    eauto.
Qed.

Lemma close_good : forall now s k a e, inv s -> good now s -> mload (dsList s) k = Some (mkDI a e) ->
  good now (close_obj closed s a).
Proof.
  intros now s k a e I G M. destruct (bytes_dec k x) as [->|N].
  - pose proof I as [_ I2]. destruct (I2 _ _ M) as (dt & c & D & _). cbn in D.
    pose proof (view_at _ _ _ _ _ M D) as V. pose proof (close_view closed x s a e dt M D) as V'.
    destruct G as [G1 G2]. split.
    + intros dt' ex W. rewrite V' in W. injection W as <- <-. apply PC. eauto.
    + destruct G2 as [G2|[G2 G3]]; auto. right. split; [congruence|]. intros t Q.
      destruct (G3 t Q) as (dt' & e' & A & B). rewrite V in A. injection A as <- <-. exists (closed dt), e. auto.
  - apply (good_other _ s); auto. apply (view_others x k); auto. apply (close_others closed s k (mkDI a e)); auto.
Qed.
Lemma closes_good : forall now names s s', inv s -> good (Some now) s ->
  close_each inc closed now s names = Ok s' -> inv s' /\ good (Some now) s'.
Proof.
  intros now. induction names as [|k names IH]; intros s s' I G E.
  - cbn in E. injection E as <-. auto.
  - cbn [close_each] in E. destruct (get_view inc now s k I) as (s1 & a & dt & e & A1 & A2 & A3 & A4 & A5 & A6).
    destruct (get_good now s k s1 a I G A1) as [I1 G1]. rewrite A1 in E. cbn [bind] in E.
    eapply IH; [|eapply close_good; eauto|exact E]. apply close_inv; auto.
Qed.

(** For what may remove the dataset. *)
Definition fine (s : dstate) : Prop := forall dt ex, view x s = Some (dt, ex) -> P (dDBMap dt).

Lemma close_fine : forall s k a e, inv s -> fine s -> mload (dsList s) k = Some (mkDI a e) -> fine (close_obj closed s a).
Proof.
  intros s k a e I G M dt ex V. destruct (bytes_dec k x) as [->|N].
  - pose proof I as [_ I2]. destruct (I2 _ _ M) as (dt' & c & D & _). cbn in D.
    rewrite (close_view closed x s a e dt' M D) in V. injection V as <- <-. apply PC.
    apply (G dt' e). apply (view_at _ _ a); auto.
  - rewrite (view_others x k s) in V; eauto. apply (close_others closed s k (mkDI a e)); auto.
Qed.
Lemma delete_fine : forall s k, inv s -> fine s -> fine (dl_delete closed s k).
Proof.
  intros s k I G dt ex V. destruct (bytes_dec k x) as [->|N].
  - rewrite (delete_view closed x s I) in V. discriminate.
  - rewrite (view_others x k s) in V; eauto. apply delete_others; auto.
Qed.
Lemma deletes_fine : forall l s, inv s -> fine s -> inv (fold_left (dl_delete closed) l s) /\ fine (fold_left (dl_delete closed) l s).
Proof.
  induction l as [|k l IH]; intros s I G; cbn [fold_left]; auto. apply IH; [apply delete_inv; auto|apply delete_fine; auto].
Qed.
Lemma scan_fine : forall info items s s' l, inv s -> fine s ->
  (forall n i, In (n, i) items -> mload (dsList s) n = Some i) ->
  reload_scan closed info s items = Ok (s', l) -> inv s' /\ fine s'.
Proof.
  intros info. induction items as [|[k [a e]] items IH]; intros s s' l I G M E; cbn [reload_scan] in E.
  - injection E as <- <-. auto.
  - cbn [diObj] in E. destruct (nth_error (dsObjs s) a) as [dt|]; [|discriminate].
    destruct (CheckIfActive info dt) as [[|]| |]; try discriminate; cbn [bind] in E.
    + eapply IH; eauto. intros n i H. apply M. right. auto.
    + destruct (reload_scan closed info (close_obj closed s a) items) as [[s2 l2]| |] eqn:E2; try discriminate.
      cbn [bind] in E. injection E as <- <-. apply (IH (close_obj closed s a) s2 l2); auto.
      * apply close_inv; auto.
      * eapply close_fine; eauto. apply M. left. reflexivity.
      * intros n i H. rewrite close_list. apply M. right. auto.
Qed.

(** One event. *)
Definition allowed (e : nevent) : Prop :=
  match e with
  | QInsert now k items answers d c => k = x -> forall dt dt' r, P (dDBMap dt) ->
      serve_insert now items answers d c dt = Ok (dt', r) -> P (dDBMap dt')
  | QStream _ k tick order => k = x -> forall m, P m -> P (fst (StreamAll tick (order m) m))
  | QSearch _ rq _ after => forall dt, P (dDBMap dt) -> P (dDBMap (after dt))
  | BTask k f => forall dt, P (dDBMap dt) -> P (dDBMap (f dt))
  | _ => True
  end.

Lemma step_inv : forall n e n' o, inv (nsReg n) -> nstep L inc closed n e = Ok (n', o) -> inv (nsReg n').
Proof. intros n e n' o I E. eapply (step_view L inc closed KC []); eauto. Qed.

Lemma step_fine : forall n e n' o, inv (nsReg n) -> nstep L inc closed n e = Ok (n', o) -> allowed e ->
  good (nevent_time e) (nsReg n) -> fine (nsReg n').
Proof.
  intros n e n' o I E A G.
  assert (GET : forall k now f, ('(s', r) <- with_get inc now (nsReg n) k f ;; Ok (mkNS (nsDrain n) (nsSeen n) s', Some (k, r))) = Ok (n', o) ->
    good (Some now) (nsReg n) ->
    (k = x -> forall dt dt' r, P (dDBMap dt) -> f dt = Ok (dt', r) -> P (dDBMap dt')) -> fine (nsReg n')).
  { intros k now f H Gn F. destruct (with_get inc now (nsReg n) k f) as [[s' r]| |] eqn:W; try discriminate.
    cbn [bind] in H. injection H as <- <-. cbn [nsReg]. intros dt ex V. eapply with_get_good; eauto. }
  destruct e as [now k items answers d c|now k|now k tick order|now rq env after|now c|k f|now k|now uid|now k|now names|now names|now info names|now l1 l2];
    cbn [nstep nevent_time allowed] in *.
  - destruct (nsDrain n).
    + injection E as <- <-. exact (proj1 G).
    + eapply GET; eauto.
  - eapply GET; eauto. intros -> dt dt' r H F. unfold serve_info in F. destruct (GetDataInfo dt); try discriminate.
    cbn [bind] in F. injection F as <- <-. auto.
  - eapply GET; eauto. intros -> dt dt' r H F. unfold serve_stream in F. specialize (A eq_refl (dDBMap dt) H).
    destruct (StreamAll tick (order (dDBMap dt)) (dDBMap dt)) as [m l]. injection F as <- <-. cbn in *. auto.
  - destruct (srConfig rq) as [c|]; [|discriminate].
    destruct (match scUuid c with [] => false | _ => _ end); [injection E as <- <-; exact (proj1 G)|].
    unfold GetNoCreate in E. destruct (dl_get now (nsReg n) (scDataName c)) as [a|] eqn:D.
    2: { injection E as <- <-. exact (proj1 G). }
    destruct (get_live _ _ _ _ I D) as (dt & e & V & M & O).
    pose proof (object_view (scDataName c) (nsReg n) a dt e (serve_search c rq env after) I M O) as H.
    destruct (serve_search c rq env after dt) as [[dt' r]| |] eqn:S;
      [|rewrite H in E; discriminate|rewrite H in E; discriminate].
    destruct H as (s1 & H1 & H2 & H3 & H4). rewrite H1 in E. cbn [bind] in E. injection E as <- <-. cbn [nsReg].
    intros dt1 ex V1. destruct (bytes_dec (scDataName c) x) as [K|N].
    + rewrite K in *. rewrite H4 in V1. injection V1 as <- <-. rewrite keep_map.
      assert (Q : dt' = after dt).
      { unfold serve_search in S. destruct (MultiAggregatedSearch _ _ _ _); congruence. }
      rewrite Q. apply A. eapply (proj1 G). apply (view_at _ _ a); eauto.
    + rewrite (view_others x (scDataName c) (nsReg n)) in V1; auto. eapply (proj1 G); eauto.
  - destruct ('(s', a) <- GetOrCreateIfNotExists inc deep now (nsReg n) c;; on_object s' a serve_info) as [[s' r]| |] eqn:W; try discriminate.
    cbn [bind] in E. injection E as <- <-. cbn [nsReg]. pose proof (create_obj_view inc now (nsReg n) c serve_info I) as H.
    intros dt ex V. destruct (serve_info (fst (vcreate inc now c (view (cName c) (nsReg n))))) as [[dt' r']| |] eqn:F; try congruence.
    destruct H as (s1 & H1 & H2 & H3 & H4). rewrite W in H1. injection H1 as <- <-.
    destruct (bytes_dec (cName c) x) as [K|N].
    + rewrite K in *. rewrite H4 in V. injection V as <- <-. rewrite keep_map. unfold serve_info in F.
      destruct (GetDataInfo _); try discriminate. cbn [bind] in F. injection F as <- <-.
      unfold vcreate. destruct (vlive now (view x (nsReg n))) as [[dt e]|] eqn:VL.
      * cbn [fst]. assert (Q : view x (nsReg n) = Some (dt, e)).
        { unfold vlive in VL. destruct (view x (nsReg n)) as [[d0 e0]|]; [|discriminate]. destruct (item_live _ _); congruence. }
        assert (Z : P (dDBMap dt)) by (eapply (proj1 G); eauto).
        destruct (dConfig dt) as [c0|]; auto. destruct (cVersion c0 <? cVersion c); auto.
      * cbn. destruct G as [G1 [G2|[G2 G3]]]; auto. exfalso.
        destruct (view x (nsReg n)) as [[d0 e0]|] eqn:VV; [|congruence].
        specialize (G3 now eq_refl). apply (live_there _ _ _ _ _ VV) in G3. rewrite VV in G3. congruence.
    + rewrite (view_others x (cName c) (nsReg n)) in V; auto. eapply (proj1 G); eauto.
  - destruct (mload (dsList (nsReg n)) k) as [[a e]|] eqn:M.
    + pose proof I as [_ I2]. destruct (I2 _ _ M) as (dt & c & D & _). cbn [diObj] in *.
      destruct (object_view k _ a dt e (fun dt => Ok (f dt, RDone)) I M D) as (s1 & O1 & O2 & O3 & O4).
      rewrite O1 in E. cbn [bind] in E. injection E as <- <-. cbn [nsReg]. intros dt1 ex V.
      destruct (bytes_dec k x) as [->|N].
      * rewrite O4 in V. injection V as <- <-. rewrite keep_map. apply A. eapply (proj1 G). apply (view_at _ _ a); eauto.
      * rewrite (view_others x k (nsReg n)) in V; auto. eapply (proj1 G); eauto.
    + cbn [bind] in E. injection E as <- <-. exact (proj1 G).
  - cbn [dstep] in E. destruct (dl_get now (nsReg n) k); cbn [bind] in E; injection E as <- <-; [exact (proj1 G)|].
    apply delete_fine; auto. exact (proj1 G).
  - injection E as <- <-. exact (proj1 G).
  - cbn [bind] in E. injection E as <- <-. cbn [nsReg]. unfold Delete.
    destruct (dl_get now (nsReg n) k) as [a|] eqn:D; cbn [fst]; [|exact (proj1 G)].
    destruct (get_live _ _ _ _ I D) as (dt & e & V & M & O).
    apply delete_fine; [apply close_inv; auto|]. eapply close_fine; eauto. exact (proj1 G).
  - destruct (SaveIndex L inc now (nsReg n) names) as [[s1 tx]| |] eqn:S; try discriminate. cbn [bind] in E.
    injection E as <- <-. exact (proj1 (proj2 (save_good _ _ _ _ _ I G S))).
  - destruct (DataConfigList inc now (nsReg n) names) as [[s1 tx]| |] eqn:S; try discriminate. cbn [bind] in E.
    injection E as <- <-. exact (proj1 (proj2 (list_good _ _ _ _ _ I G S))).
  - unfold ReloadRuns in E.
    destruct (reload_scan closed info (nsReg n) (items_of now (nsReg n) names)) as [[s1 l]| |] eqn:S; try discriminate.
    cbn [bind] in E. injection E as <- <-. cbn [nsReg].
    destruct (scan_fine info _ _ _ _ I (proj1 G) (items_load inc now (nsReg n) names) S) as [I1 F1].
    apply deletes_fine; auto.
  - unfold DatasetClose in E. destruct (SaveIndex L inc now (nsReg n) l1) as [[s1 tx]| |] eqn:S; try discriminate.
    cbn [bind] in E. destruct (save_good _ _ _ _ _ I G S) as [I1 G1].
    destruct (close_each inc closed now s1 l2) as [s2| |] eqn:S2; try discriminate. cbn [bind] in E. injection E as <- <-.
    exact (proj1 (proj2 (closes_good _ _ _ _ I1 G1 S2))).
Qed.
End R.

(** Stores with well-formed contents. *)
Definition sound (m : dbmap) : Prop := mwf m /\ Forall slot_ok m.
Definition lasting (T : Z) (k : DatumKey) (v : DatumValue) (m : dbmap) : Prop :=
  sound m /\ exists e, mload m (wire_key k) = Some e /\ edatum e = kv k v /\ (exprireAt e = 0 \/ T < exprireAt e)%Z.

Lemma sound_sub : forall m m', sound m -> mwf m' ->
  (forall b e, mload m' b = Some e -> mload m b = Some e) -> sound m'.
Proof.
  intros m m' [W F] W' S. split; auto. rewrite Forall_forall in *. intros [b e] H. apply F.
  apply mload_in. apply S. apply in_mload; auto.
Qed.
Lemma sound_tidy : forall T f dt, tidy T f -> sound (dDBMap dt) -> sound (dDBMap (f dt)).
Proof. intros T f dt H S. destruct (H dt (proj1 S)) as (A & B & _). eapply sound_sub; eauto. Qed.
Lemma lasting_tidy : forall T k v f dt, tidy T f -> lasting T k v (dDBMap dt) -> lasting T k v (dDBMap (f dt)).
Proof.
  intros T k v f dt H [S (e & A & B & C)]. split; [eapply sound_tidy; eauto|]. exists e. split; auto.
  apply (H dt (proj1 S)); auto.
Qed.
Lemma sound_stream : forall tick order m, Permutation order m -> sound m -> sound (fst (StreamAll tick order m)).
Proof.
  intros tick order m P S. apply (sound_sub m); auto; [apply scan_wf, S|]. intros b e H.
  rewrite scan_load in H; [|apply S|auto]. destruct (mload m b); [|discriminate]. destruct (expired _ _); congruence.
Qed.
Lemma lasting_stream : forall T k v tick order m, Permutation order m -> (forall b, (tick b <= T)%Z) ->
  lasting T k v m -> lasting T k v (fst (StreamAll tick order m)).
Proof.
  intros T k v tick order m P TT [S (e & A & B & C)]. split; [apply sound_stream; auto|].
  exists e. split; auto. rewrite scan_load; [|apply S|auto]. rewrite A.
  assert (X : expired (tick (wire_key k)) e = false).
  { unfold expired. specialize (TT (wire_key k)). destruct C as [->|C]; auto.
    apply andb_false_iff. right. apply Z.leb_gt. lia. }
  rewrite X. reflexivity.
Qed.

(** Inserts. *)
Lemma serve_cases : forall now items answers d c dt dt' r,
  serve_insert now items answers d c dt = Ok (dt', r) ->
  (dDBMap dt' = dDBMap dt /\ r <> RDone) \/
  exists fresh, InsertBDMap (now / 1000000000)%Z (dDBMap dt) d c = Ok (dDBMap dt', fresh).
Proof.
  intros now items answers d c dt dt' r H. unfold serve_insert in H.
  destruct (Insert _ _ _ _ _ _ _) as [o| |] eqn:E; try discriminate.
  2: { injection H as <- <-. left. split; auto. discriminate. }
  injection H as <- <-. unfold Insert, InsertLocal in E.
  destruct (match dConfig dt with Some _ => _ | None => _ end).
  { injection E as <-. cbn. left. split; auto. discriminate. }
  set (dt1 := if dInitialized dt then dt else InitData dt) in E.
  assert (M : dDBMap dt1 = dDBMap dt). { unfold dt1, InitData. destruct (dInitialized dt); reflexivity. }
  rewrite M in E. destruct (InsertBDMap (now / 1000000000)%Z (dDBMap dt) d c) as [[m fr]| |] eqn:B; try discriminate.
  2: { injection E as <-. cbn. left. split; auto. discriminate. }
  right. exists fr. match type of E with context [Replicate ?a ?b ?c ?d ?e ?f] => destruct (Replicate a b c d e f) as [rr| |] end; try discriminate.
  injection E as <-. cbn [oData]. destruct fr; reflexivity.
Qed.

Lemma expire_range : forall now c, (10 <= now)%Z -> (now + Z.of_N (ttl_of c) < 9223372036854775808)%Z ->
  (ttl_of c = 0 /\ expireAtOf now c = 0%Z) \/ (ttl_of c <> 0 /\ expireAtOf now c = (now + Z.of_N (ttl_of c))%Z).
Proof.
  intros now [[ttl ct]|] A B; [|left; auto]. cbn [ttl_of TTL] in *.
  assert (E : expireAtOf now (Some (mkInsertConfig ttl ct)) = expireAtOf now (Some (mkInsertConfig ttl 0))) by reflexivity.
  rewrite E, expireAt_small by auto. destruct (N.eqb_spec ttl 0); auto.
Qed.

Lemma insert_sound : forall now m k v c m' fresh, sound m -> kv_ok k v ->
  (10 <= now)%Z -> (now + Z.of_N (ttl_of c) < 9223372036854775808)%Z ->
  InsertBDMap now m (Some (kv k v)) c = Ok (m', fresh) ->
  sound m' /\
  (exists e, mload m' (wire_key k) = Some e /\ edatum e = kv k v /\
     if (ttl_of c =? 0) then exprireAt e = 0%Z else (now + Z.of_N (ttl_of c) - 9 <= exprireAt e)%Z) /\
  forall b, b <> wire_key k -> mload m' b = mload m b.
Proof.
  intros now m k v c m' fresh [W F] K A B E. pose proof (expire_range now c A B) as X.
  destruct (insert_spec now m k v c K) as (m1 & fr & E1 & R).
  { intros e L. destruct (slot_load m k e F (proj1 K) (proj1 (proj2 K)) L) as (v' & A1 & B1 & _). eauto. }
  rewrite E in E1. injection E1 as <- <-. destruct fresh.
  - subst m'. split; [|split].
    + split; [apply mstore_wf; auto|]. unfold mstore. constructor.
      * exists k, v. cbn [fst snd edatum exprireAt]. repeat split; try apply K. lia.
      * rewrite Forall_forall in *. intros p Hp. apply F. eapply mdelete_incl; eauto.
    + exists (mkEntry (expireAtOf now c) (kv k v)). rewrite mload_mstore_same. cbn [edatum exprireAt].
      split; auto. split; auto. destruct (N.eqb_spec (ttl_of c) 0); lia.
    + intros b N. rewrite mload_mstore_other; auto.
  - destruct R as (-> & e & L & Ed & Hcl). split; [split; auto|]. split; auto. exists e. split; auto. split; auto.
    destruct (slot_load m k e F (proj1 K) (proj1 (proj2 K)) L) as (v' & _ & _ & Hx).
    destruct X as [[X1 X2]|[X1 X2]]; rewrite X2 in Hcl.
    + rewrite X1. cbn. destruct Hx as [Hx|Hx]; auto. exfalso. apply close_small in Hcl; lia.
    + apply N.eqb_neq in X1. rewrite X1. apply N.eqb_neq in X1. destruct Hx as [Hx|Hx].
      * exfalso. rewrite Hx in Hcl. apply close_small in Hcl; lia.
      * apply close_small in Hcl; lia.
Qed.

Section H.
Variable L : floatlib.
Variable inc : Z -> Z -> Z -> Z.
Variable closed : Data -> Data.
Hypothesis KC : keeps_config closed.
Hypothesis PR : prolongs inc.
Variable T : Z.
Hypothesis TC : tidy T closed.

Lemma decent_sound : forall x e, decent T e -> allowed x sound e.
Proof.
  intros x e D. destruct e as [now k items answers d c|now k|now k tick order|now rq env after|now c|k f|now k|now uid|now k|now names|now names|now info names|now l1 l2];
    cbn [allowed decent] in *; auto.
  - destruct D as (k0 & v & -> & K & A & B). intros _ dt dt' r S E. apply serve_cases in E. destruct E as [[E _]|[fr E]]; [congruence|].
    eapply insert_sound in E; eauto. tauto.
  - intros _ m S. apply sound_stream; auto. apply D.
  - intros dt S. eapply sound_tidy; eauto.
  - intros dt S. eapply sound_tidy; eauto.
Qed.
Lemma decent_lasting : forall x k v e, key_ok k -> key_fits k -> decent T e -> ~ replaces x k e ->
  allowed x (lasting T k v) e.
Proof.
  intros x k v e K1 K2 D R. destruct e as [now k1 items answers d c|now k1|now k1 tick order|now rq env after|now c|k1 f|now k1|now uid|now k1|now names|now names|now info names|now l1 l2];
    cbn [allowed decent] in *; auto.
  - destruct D as (k0 & v0 & -> & K & A & B). intros -> dt dt' r S E. apply serve_cases in E. destruct E as [[E _]|[fr E]]; [congruence|].
    destruct S as [S (e & S1 & S2)]. destruct (insert_sound _ _ _ _ _ _ _ S K A B E) as (X1 & _ & X2).
    split; auto. exists e. split; auto. rewrite X2; auto. intro C. apply R. cbn. split; auto. f_equal.
    destruct K as (Ka & Kb & _). destruct (wire_key_prefix_free k0 k [] [] Ka K1 Kb K2); auto. rewrite !app_nil_r. auto.
  - intros _ m S. destruct D as [D1 D2]. apply lasting_stream; auto.
  - intros dt S. eapply lasting_tidy; eauto.
  - intros dt S. eapply lasting_tidy; eauto.
Qed.

Lemma sound_nil : sound [].
Proof. split; constructor. Qed.

Lemma run_sound : forall es n n' outs, inv (nsReg n) -> (forall x, fine x sound (nsReg n)) ->
  Forall (decent T) es -> nrun L inc closed n es = Ok (n', outs) ->
  inv (nsReg n') /\ forall x, fine x sound (nsReg n').
Proof.
  induction es as [|e es IH]; intros n n' outs I F D E; cbn [nrun] in E.
  - injection E as <- <-. auto.
  - inversion D as [|e' es' D1 D2]; subst.
    destruct (nstep L inc closed n e) as [[n1 o]| |] eqn:E1; try discriminate. cbn [bind] in E.
    destruct (nrun L inc closed n1 es) as [[n2 outs2]| |] eqn:E2; try discriminate. cbn [bind] in E. injection E as <- <-.
    apply (IH n1 n2 outs2); auto.
    + eapply step_inv; eauto.
    + intro x. apply (step_fine L inc closed KC PR x sound (fun dt => sound_tidy T closed dt TC) n e n1 o); auto.
      * apply decent_sound; auto.
      * split; [exact (F x)|]. left. apply sound_nil.
Qed.

Lemma run_lasting : forall x k v es n n' outs, key_ok k -> key_fits k -> inv (nsReg n) ->
  fine x (lasting T k v) (nsReg n) -> view x (nsReg n) <> None ->
  Forall (decent T) es -> Forall (fun e => ~ replaces x k e) es -> stays L inc closed x n es ->
  nrun L inc closed n es = Ok (n', outs) ->
  inv (nsReg n') /\ fine x (lasting T k v) (nsReg n') /\ view x (nsReg n') <> None.
Proof.
  intros x k v. induction es as [|e es IH]; intros n n' outs K1 K2 I F V D R S E; cbn [nrun] in E.
  - injection E as <- <-. auto.
  - inversion D as [|e' es' D1 D2]; subst. inversion R as [|e' es' R1 R2]; subst. cbn [stays] in S. destruct S as [S1 S2].
    destruct (nstep L inc closed n e) as [[n1 o]| |] eqn:E1; try discriminate. cbn [bind] in E.
    destruct (nrun L inc closed n1 es) as [[n2 outs2]| |] eqn:E2; try discriminate. cbn [bind] in E. injection E as <- <-.
    destruct S2 as [S2 S3]. apply (IH n1 n2 outs2); auto.
    + eapply step_inv; eauto.
    + apply (step_fine L inc closed KC PR x (lasting T k v) (fun dt => lasting_tidy T k v closed dt TC) n e n1 o); auto.
      * apply decent_lasting; auto.
      * split; [exact F|]. right. split; auto.
Qed.

(** The insert that was acknowledged. *)
Lemma insert_lasting : forall x n now items answers k v c n' , inv (nsReg n) -> (forall x, fine x sound (nsReg n)) ->
  kv_ok k v -> (10 <= now / 1000000000)%Z -> (now / 1000000000 + Z.of_N (ttl_of c) < 9223372036854775808)%Z ->
  (ttl_of c = 0 \/ (T < now / 1000000000 + Z.of_N (ttl_of c) - 9)%Z) ->
  nstep L inc closed n (QInsert now x items answers (Some (kv k v)) c) = Ok (n', Some (x, RDone)) ->
  inv (nsReg n') /\ fine x (lasting T k v) (nsReg n') /\ view x (nsReg n') <> None.
Proof.
  intros x n now items answers k v c n' I F K A B TT E. pose proof (step_inv L inc closed KC _ _ _ _ I E) as I'.
  split; auto. cbn [nstep] in E. destruct (nsDrain n); [discriminate|].
  set (f := serve_insert now items answers (Some (kv k v)) c) in E.
  destruct (with_get inc now (nsReg n) x f) as [[s' r]| |] eqn:W; try discriminate. cbn [bind] in E. injection E as <- ->.
  pose proof (with_get_view inc now (nsReg n) x f I) as H.
  destruct (vget_good inc PR x sound now (nsReg n)) as [G _].
  { split; [exact (F x)|]. left. apply sound_nil. }
  destruct (f (fst (vget inc now x (view x (nsReg n))))) as [[dt' r]| |] eqn:D; try congruence.
  destruct H as (s1 & H1 & _ & _ & H4). rewrite W in H1. injection H1 as <- <-. cbn [nsReg]. split; [|congruence].
  intros dt ex V. rewrite H4 in V. injection V as <- <-. rewrite keep_map.
  apply serve_cases in D. destruct D as [[_ D]|[fr D]]; [congruence|].
  destruct (insert_sound _ _ _ _ _ _ _ G K A B D) as (X1 & (e & X2 & X3 & X4) & _). split; auto. exists e. split; auto. split; auto.
  destruct (N.eqb_spec (ttl_of c) 0) as [Q|Q]; auto. right. destruct TT; [contradiction|lia].
Qed.

(** The stream. *)
Lemma stream_lasting : forall x k v n now tick order n' l, kv_ok k v -> inv (nsReg n) ->
  fine x (lasting T k v) (nsReg n) -> there now x (nsReg n) ->
  (forall b, (tick b <= T)%Z) -> (forall m, Permutation (order m) m) ->
  nstep L inc closed n (QStream now x tick order) = Ok (n', Some (x, RData l)) ->
  exists l1 l2, l = l1 ++ kv k v :: l2 /\ forall d, In d (l1 ++ l2) -> dkey d <> Some k.
Proof.
  intros x k v n now tick order n' l K I F Th TT O E. cbn [nstep] in E.
  destruct (with_get inc now (nsReg n) x (serve_stream tick order)) as [[s' r]| |] eqn:W; try discriminate.
  cbn [bind] in E. injection E as <- ->.
  pose proof (with_get_view inc now (nsReg n) x (serve_stream tick order) I) as H.
  destruct Th as (dt0 & e0 & V0 & Lv).
  destruct (vget_good inc PR x (lasting T k v) now (nsReg n)) as [G _].
  { split; [exact F|]. right. split; [congruence|]. intros t Q. injection Q as <-. exists dt0, e0. auto. }
  set (dt := fst (vget inc now x (view x (nsReg n)))) in *.
  destruct (StreamAll tick (order (dDBMap dt)) (dDBMap dt)) as [m ys] eqn:SA.
  assert (SE : serve_stream tick order dt = Ok (set_map dt m, RData ys)) by (unfold serve_stream; rewrite SA; reflexivity).
  rewrite SE in H.
  destruct H as (s1 & H1 & _). rewrite W in H1. injection H1 as <- <-.
  set (mm := dDBMap dt) in *. destruct G as [[Wf Fs] (e & G1 & G2 & G3)].
  pose proof (StreamAll_spec tick (order mm) mm) as Q. rewrite SA in Q. injection Q as _ Q.
  assert (Wo : mwf (order mm)) by (eapply perm_wf; [eauto|apply Permutation_sym; auto]).
  assert (IN : In (wire_key k, e) (filter (live tick) (order mm))).
  { apply filter_In. split.
    - eapply Permutation_in; [apply Permutation_sym; auto|]. apply mload_in. auto.
    - unfold live, dead. cbn [fst snd]. unfold expired. specialize (TT (wire_key k)).
      destruct G3 as [->|G3]; auto. replace (Z.leb (exprireAt e) (tick (wire_key k))) with false; [rewrite andb_false_r; auto|].
      symmetry. apply Z.leb_gt. lia. }
  assert (ND : NoDup (map fst (filter (live tick) (order mm)))).
  { clear - Wo. unfold mwf in Wo. induction (order mm) as [|p l IH]; cbn [filter map]; [constructor|].
    cbn [map] in Wo. inversion Wo as [|? ? N D]; subst. destruct (live tick p); auto. cbn [map]. constructor; auto.
    intro H. apply N. apply in_map_iff in H. destruct H as (q & <- & H). apply filter_In in H. apply in_map, H. }
  assert (SL : forall p, In p (filter (live tick) (order mm)) -> slot_ok p).
  { intros p H. apply filter_In in H. destruct H as [H _]. rewrite Forall_forall in Fs. apply Fs.
    eapply Permutation_in; [apply O|exact H]. }
  destruct (in_split _ _ IN) as (p1 & p2 & PE). rewrite PE in *. rewrite Q.
  exists (map (fun p => edatum (snd p)) p1), (map (fun p => edatum (snd p)) p2). split.
  { rewrite map_app. cbn [map snd]. rewrite G2. reflexivity. }
  intros d Hd DK. rewrite <- map_app in Hd. apply in_map_iff in Hd. destruct Hd as (p & <- & Hp).
  destruct (SL p) as (k' & v' & Kv & Fp & Ep & _). { apply in_app_iff in Hp. apply in_app_iff. destruct Hp as [Hp|Hp]; [left; auto|right; right; auto]. }
  rewrite Ep in DK. cbn in DK. injection DK as ->.
  rewrite map_app in ND. cbn [map fst] in ND. apply NoDup_remove_2 in ND. apply ND. rewrite <- map_app, <- Fp. apply in_map, Hp.
Qed.
End H.
