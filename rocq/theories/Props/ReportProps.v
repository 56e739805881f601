(** The status report, node/node.go 339-382. *)
From Verif.Base Require Import GoBase Assoc Float.
From Verif.Model Require Import Codec Store Data Dataset Report.
From Verif.Spec Require Import RegistrySpec.
From Verif.Proof Require Import DatasetP.
From Verif.Props Require Import DatasetProps.
Open Scope N_scope.

(** C78 The periodic report never crashes the node.

    A name can be reported: a dataset is registered under it, not expired, and
    its Sources exist. *)
Definition reportable (v : bytes * (Z * dstate)) : Prop :=
  let '(name, (now, s)) := v in
  exists a dt, holds now s name a /\ nth_error (dsObjs s) a = Some dt /\ dSources dt <> None.

Lemma report_one_ok : forall info now s name, inv s ->
  (exists l, report_one info now s name = Ok l) <-> reportable (name, (now, s)).
Proof.
  intros info now s name I. unfold report_one, GetNoCreate, reportable. split.
  - intros (l & E). destruct (dl_get now s name) as [a|] eqn:G; [|discriminate].
    destruct (nth_error (dsObjs s) a) as [dt|] eqn:A; [|discriminate].
    exists a, dt. split; [apply get_holds; auto|]. split; auto.
    destruct (GetDataInfo dt); try discriminate. cbn [bind] in E. destruct (dSources dt); discriminate.
  - intros (a & dt & H & A & D). apply get_holds in H; auto. rewrite H, A.
    destruct (get_some _ _ _ _ H) as (i & E & <- & _). destruct I as [_ I].
    destruct (I _ _ E) as (dt' & c & A' & B & _). rewrite A in A'. injection A' as <-.
    unfold GetDataInfo. rewrite B. cbn [bind]. destruct (dSources dt); [eauto|congruence].
Qed.
Lemma report_one_never_err : forall info now s name e, report_one info now s name <> Err e.
Proof.
  intros info now s name e. unfold report_one, GetNoCreate, GetDataInfo.
  destruct (dl_get now s name) as [a|]; [|discriminate].
  destruct (nth_error (dsObjs s) a) as [dt|]; [|discriminate].
  destruct (dConfig dt); cbn [bind]; [|discriminate]. destruct (dSources dt); discriminate.
Qed.

(** The report is printed exactly when every listed dataset is still there and
    initialised when its turn comes; otherwise the node crashes.  This holds for
    all histories, whatever other goroutines do between the lookups. *)
Theorem C78_report_partial : forall inc closed info views, keeps_config closed ->
  Forall (fun v => reachable inc closed (snd (snd v))) views ->
  (Forall reportable views -> exists l, report info views = Ok l /\
     (forall name now s, In (name, (now, s)) views -> exists a dt, holds now s name a /\
        nth_error (dsObjs s) a = Some dt /\ In (LData name (dN dt) (dConfig dt)) l /\
        forall ids id, dSources dt = Some ids -> In id ids -> In (LSource id (info id)) l)) /\
  (~ Forall reportable views -> report info views = Panic).
Proof.
  intros inc closed info views K R. induction views as [|[name [now s]] views IH].
  - split; [intros _; exists []; split; auto; intros ? ? ? []|]. intro H. exfalso. apply H. constructor.
  - inversion R as [|v vs R1 R2]; subst. cbn [snd] in R1. pose proof (reachable_inv inc closed K s R1) as I.
    destruct (IH R2) as [IHa IHb]. cbn [report]. split.
    + intro F. inversion F as [|v vs F1 F2]; subst. destruct (IHa F2) as (l & E & P).
      pose proof F1 as (a & dt & H & A & D).
      destruct (proj2 (report_one_ok info now s name I) F1) as (h & Eh). rewrite Eh, E. cbn [bind].
      exists (h ++ l). split; auto. intros nm nw st [X|X].
      * injection X as <- <- <-. exists a, dt. split; auto. split; auto.
        unfold report_one, GetNoCreate in Eh. apply get_holds in H; auto. rewrite H, A in Eh.
        unfold GetDataInfo in Eh. destruct (dConfig dt) as [c|]; [|discriminate]. cbn [bind] in Eh.
        destruct (dSources dt) as [ids|]; [|congruence]. injection Eh as <-. cbn [iN].
        split; [left; reflexivity|]. intros ids' id Q J. injection Q as <-.
        apply in_or_app. left. right. apply in_map_iff. eauto.
      * destruct (P _ _ _ X) as (a' & dt' & H1 & H2 & H3 & H4). exists a', dt'. repeat split; auto.
        -- apply in_or_app. auto.
        -- intros. apply in_or_app. right. eauto.
    + intro F. destruct (report_one info now s name) as [h|e|] eqn:Eh; cbn [bind]; auto.
      * rewrite IHb; auto. intro G. apply F. constructor; auto. apply (report_one_ok info now s name I). eauto.
      * exfalso. eapply report_one_never_err; eauto.
Qed.

(** As long as nothing else happens every listed name can be reported. *)
Theorem C78_alone_partial : forall inc closed info now s names, keeps_config closed -> reachable inc closed s ->
  Permutation names (ListNames now s) -> (forall dt, In dt (dsObjs s) -> dSources dt <> None) ->
  exists l, report info (map (fun n => (n, (now, s))) names) = Ok l.
Proof.
  intros inc closed info now s names K R P S.
  destruct (C78_report_partial inc closed info (map (fun n => (n, (now, s))) names) K) as [H _].
  - apply Forall_forall. intros v V. apply in_map_iff in V. destruct V as (n & <- & _). exact R.
  - destruct H as (l & E & _); [|eauto]. apply Forall_forall. intros v V. apply in_map_iff in V.
    destruct V as (n & <- & V). apply (Permutation_in _ P) in V. unfold ListNames, Items in V.
    apply in_map_iff in V. destruct V as ([n' i] & <- & V). apply filter_In in V. destruct V as [V L]. cbn [fst snd] in *.
    pose proof (reachable_inv inc closed K s R) as [W I]. destruct (I _ _ (in_mload _ _ _ W V)) as (dt & c & A & _).
    exists (diObj i), dt. split; [|split; auto].
    + exists i. split; auto. split; auto. apply live_iff; auto.
    + apply S. eapply nth_error_In; eauto.
Qed.

(** Deleting a dataset between List and the lookup of its name crashes the node,
    whatever the dataset is. *)
Theorem C78_deleted_crash : forall inc closed info s now0 name a now1 now2,
  keeps_config closed -> reachable inc closed s -> holds now0 s name a -> holds now1 s name a ->
  exists s', In name (ListNames now0 s) /\ dstep inc closed s (EvDelete now1 name) = Ok s' /\
    report info [(name, (now2, s'))] = Panic.
Proof.
  intros inc closed info s now0 name a now1 now2 K R H0 H1. pose proof (reachable_inv inc closed K s R) as I.
  apply get_holds in H1; auto. destruct (get_some _ _ _ _ H1) as (i & E & <- & L).
  eexists. split; [|split; [reflexivity|]].
  - destruct H0 as (j & J & _ & Lv). unfold ListNames, Items. apply in_map_iff. exists (name, j). split; auto.
    apply filter_In. split; auto. apply live_iff. auto.
  - unfold Delete. rewrite H1. cbn [fst]. unfold dl_delete.
    assert (X : dsList (close_obj closed s (diObj i)) = dsList s).
    { unfold close_obj. destruct (nth_error (dsObjs s) (diObj i)); auto. destruct (list_set _ _ _); auto. }
    rewrite X, E. cbn [report]. unfold report_one, GetNoCreate, dl_get. cbn [dsList].
    rewrite mload_mdelete_same. reflexivity.
Qed.

(** So does the expiry of a dataset, once its time has passed. *)
Theorem C78_expired_crash : forall info s now name i,
  mload (dsList s) name = Some i -> (0 < diExpires i < now)%Z -> report info [(name, (now, s))] = Panic.
Proof.
  intros info s now name i E H. cbn [report]. unfold report_one, GetNoCreate, dl_get. rewrite E.
  destruct (item_live now i) eqn:L; auto. apply live_iff in L. lia.
Qed.

(** And so does a report printed while another goroutine creates a dataset. *)
Theorem C78_creation_crash : forall info s now c, (forall a, ~ holds now s (cName c) a) ->
  In (cName c) (ListNames now (half_created now s c)) /\
  report info [(cName c, (now, half_created now s c))] = Panic.
Proof.
  intros info s now c H. split.
  - unfold ListNames, Items, half_created. cbn [dsList]. apply in_map_iff.
    exists (cName c, mkDI (length (dsObjs s)) (dl_expiry now (GetRetention (cRetention c)))). split; auto.
    apply filter_In. split; [apply mload_in, mload_mstore_same|]. apply expiry_live.
  - cbn [report]. unfold report_one, GetNoCreate, dl_get, half_created. cbn [dsList dsObjs].
    rewrite mload_mstore_same, expiry_live. cbn [diObj]. rewrite nth_error_app2, Nat.sub_diag by lia. reflexivity.
Qed.

(** The claim is false: a reachable state, a name that List returns, and a crash
    one nanosecond later because a client deletes the dataset; one because its
    retention is over; and one because a client is creating it. *)
Theorem C78_report_refuted : exists s s' info,
  reachable inc_now close_it s /\ reachable inc_now close_it s' /\
  In (bs "a") (ListNames 5 s) /\
  dstep inc_now close_it s (EvDelete 6 (bs "a")) = Ok s' /\ report info [(bs "a", (7%Z, s'))] = Panic /\
  In (bs "a") (ListNames 1209600000000000 s) /\ report info [(bs "a", (1209600000000001%Z, s))] = Panic /\
  In (bs "b") (ListNames 5 (half_created 5 s (cfg (bs "b") 1))) /\
  report info [(bs "b", (5%Z, half_created 5 s (cfg (bs "b") 1)))] = Panic.
Proof.
  destruct (C78_deleted_crash inc_now close_it (fun _ => None) one 5 (bs "a") 0 6 7 close_keeps one_reachable)
    as (s' & L & E & P).
  1, 2: exists (mkDI 0 1209600000000000); cbn; split; auto; split; auto; right; lia.
  exists one, s', (fun _ => None). split; [exact one_reachable|]. split.
  { exists [EvCreate 0 (cfg (bs "a") 1); EvDelete 6 (bs "a")]. revert E. vm_compute. auto. }
  split; [exact L|]. split; [exact E|]. split; [exact P|].
  split; [vm_compute; auto|]. split; [vm_compute; reflexivity|]. split; [vm_compute; auto|]. vm_compute; reflexivity.
Qed.
Print Assumptions C78_report_partial.
Print Assumptions C78_alone_partial.
Print Assumptions C78_deleted_crash.
Print Assumptions C78_expired_crash.
Print Assumptions C78_creation_crash.
Print Assumptions C78_report_refuted.

(** Two datasets, looked up at different times while one of them is inserted into
    and a third one appears and disappears. *)
Definition two_now : res dstate :=
  drun inc_now close_it one [EvCreate 1 (cfg (bs "b") 1); EvCreate 2 (cfg (bs "c") 1)].
Definition two_later : res dstate :=
  s <- two_now ;; drun inc_now close_it s [EvDelete 5 (bs "c"); EvData 1 with_datum].
Example C78_instance : exists s s', two_now = Ok s /\ two_later = Ok s' /\
  report (fun _ => None) [(bs "a", (4%Z, s)); (bs "b", (6%Z, s'))] =
    Ok [LData (bs "a") 0 (Some (cfg (bs "a") 1)); LData (bs "b") (dN (with_datum (obj 1))) (Some (cfg (bs "b") 1))].
Proof. eexists. eexists. split; [vm_compute; reflexivity|]. split; vm_compute; reflexivity. Qed.
Example C78_instance_reachable : forall s, two_later = Ok s -> reachable inc_now close_it s.
Proof.
  intros s E. exists [EvCreate 0 (cfg (bs "a") 1); EvCreate 1 (cfg (bs "b") 1); EvCreate 2 (cfg (bs "c") 1);
                     EvDelete 5 (bs "c"); EvData 1 with_datum]. exact E.
Qed.
