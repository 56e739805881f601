(** Properties C36, C37, C43, C44, C45, C64 and C65: the registry of datasets. *)
From Verif.Base Require Import GoBase GoLemmas Assoc Float.
From Verif.Model Require Import Codec Store Data Dataset RunLock Path.
From Verif.Spec Require Import RegistrySpec.
From Verif.Proof Require Import StoreConcP DatasetP RegistryP PathP.
From Coq Require Import Lia Permutation.
Open Scope N_scope.

(** C36 A dataset's configuration version never goes back: create calls one after
    the other.  [c0] and [m] are the configuration and the data before. *)
Theorem C36_create_partial : forall inc closed s now c a c0 m, keeps_config closed ->
  reachable inc closed s -> holds now s (cName c) a -> object s a c0 m ->
  exists s', CreateIfNotExists inc deep now s c = Ok s' /\ holds now s' (cName c) a /\
    (cVersion c <= cVersion c0 -> object s' a c0 m) /\
    (cVersion c0 < cVersion c -> object s' a c m).
Proof.
  intros inc closed s now c a c0 m K R H (dt & D1 & D2 & D3). pose proof (reachable_inv inc closed K s R) as I.
  destruct (create_ok inc deep now s c I) as (s' & E & C); [unfold deep; lia|]. exists s'. split; auto.
  pose proof (created_inv _ _ _ _ I C) as I'. apply get_holds in H; auto.
  unfold created in C. rewrite H in C. destruct C as (L & U & _). specialize (U _ _ D1 D2). split.
  { apply get_holds; auto. unfold dl_get in *. rewrite L. exact H. }
  split; intro V.
  - replace (cVersion c0 <? cVersion c) with false in U by lia. exists dt. auto.
  - replace (cVersion c0 <? cVersion c) with true in U by lia. exists (set_config dt c). auto.
Qed.
Print Assumptions C36_create_partial.

(** In any history during which the dataset is not deleted and does not expire. *)
Theorem C36_version_monotone_partial : forall inc closed s es s' name now a c m, keeps_config closed ->
  reachable inc closed s -> undisturbed inc closed name s es s' -> holds now s name a -> object s a c m ->
  exists c' m', object s' a c' m' /\ cVersion c <= cVersion c'.
Proof.
  intros inc closed s es s' name now a c m K R U H (dt & D1 & D2 & D3). pose proof (reachable_inv inc closed K s R) as I.
  destruct (undisturbed_keep inc closed K _ _ _ _ U I) as [I' Q].
  apply get_holds in H; auto. destruct (get_some _ _ _ _ H) as (i & Ei & <- & _).
  destruct (Q i Ei) as [_ Q2]. destruct (Q2 dt c D1 D2) as (dt' & c' & X & Y & Z).
  exists c', (dDBMap dt'). split; auto. exists dt'. auto.
Qed.
Print Assumptions C36_version_monotone_partial.

(** Concurrent create calls, in any interleaving: the configuration is always one
    that was asked for with a version higher than the first one, or the first one;
    the data is kept.  Missing: that it does not go back in between. *)
Theorem C36_concurrent_partial : forall inc closed tmax s ts s' ts' n a c0 m, keeps_config closed ->
  reachable inc closed s -> holds tmax s n a -> object s a c0 m ->
  Forall (fun t => exists c, t = CStart c) ts ->
  creators_run tmax (s, ts) (s', ts') ->
  holds tmax s' n a /\ exists c, object s' a c m /\
    (c = c0 \/ (In (CStart c) ts /\ cName c = n /\ cVersion c0 < cVersion c)).
Proof.
  intros. eapply creators_sound; eauto. eapply reachable_inv; eauto.
Qed.
Print Assumptions C36_concurrent_partial.

(** The full statement, for interleavings, is false: two creates with versions 2
    and 3 both see version 1; the one with version 2 writes last. *)
Definition inc_now : Z -> Z -> Z -> Z := fun now d _ => (now + d)%Z.
Definition close_it : Data -> Data := fun d => set_alive d false.
Definition cfg (name : bytes) (v : N) : DataConfig := mkDataConfig name v 1000 f0_4 false 1 true 0.
Definition one : dstate := mkDS [InitData (NewPreData (cfg (bs "a") 1))] [(bs "a", mkDI 0 1209600000000000)].
Definition obj (v : N) : Data := set_config (InitData (NewPreData (cfg (bs "a") 1))) (cfg (bs "a") v).

Lemma one_reachable : reachable inc_now close_it one.
Proof. exists [EvCreate 0 (cfg (bs "a") 1)]. vm_compute. reflexivity. Qed.

Theorem C36_race_refuted : exists s1 ts1 s2 ts2,
  reachable inc_now close_it one /\ holds 5 one (bs "a") 0 /\
  creators_run 5 (one, [CStart (cfg (bs "a") 2); CStart (cfg (bs "a") 3)]) (s1, ts1) /\
  creators_run 5 (s1, ts1) (s2, ts2) /\
  object s1 0 (cfg (bs "a") 3) [] /\ object s2 0 (cfg (bs "a") 2) [].
Proof.
  exists (mkDS [obj 3] (dsList one)), [CWrite (cfg (bs "a") 2) 0; CDone], (mkDS [obj 2] (dsList one)), [CDone; CDone].
  split; [exact one_reachable|]. split; [|split; [|split; [|split]]].
  - exists (mkDI 0 1209600000000000). cbn. split; auto. split; auto. right. lia.
  - eapply cr_step. { apply cs_check with (now := 5%Z) (i := 0%nat) (c := cfg (bs "a") 2) (a := 0%nat) (dt := obj 1) (c0 := cfg (bs "a") 1)
                        (ts' := [CWrite (cfg (bs "a") 2) 0; CStart (cfg (bs "a") 3)]); [lia|reflexivity..]. }
    eapply cr_step. { apply cs_check with (now := 5%Z) (i := 1%nat) (c := cfg (bs "a") 3) (a := 0%nat) (dt := obj 1) (c0 := cfg (bs "a") 1)
                        (ts' := [CWrite (cfg (bs "a") 2) 0; CWrite (cfg (bs "a") 3) 0]); [lia|reflexivity..]. }
    eapply cr_step; [|apply cr_here].
    apply (cs_write 5 one [CWrite (cfg (bs "a") 2) 0; CWrite (cfg (bs "a") 3) 0] 1 (cfg (bs "a") 3) 0 (obj 1) [obj 3]
             [CWrite (cfg (bs "a") 2) 0; CDone]); reflexivity.
  - eapply cr_step; [|apply cr_here].
    apply (cs_write 5 (mkDS [obj 3] (dsList one)) [CWrite (cfg (bs "a") 2) 0; CDone] 0 (cfg (bs "a") 2) 0 (obj 3) [obj 2]
             [CDone; CDone]); reflexivity.
  - exists (obj 3). auto.
  - exists (obj 2). auto.
Qed.
Print Assumptions C36_race_refuted.

Lemma close_keeps : keeps_config close_it.
Proof. intro d. reflexivity. Qed.

(** A create with version 4 over version 1 with one datum stored. *)
Definition with_datum : Data -> Data := fun d => set_map d [([1], mkEntry 0 (mkDatum None None))].
Definition one_datum : dstate :=
  mkDS [set_config (with_datum (obj 1)) (cfg (bs "a") 1)] [(bs "a", mkDI 0 1209600000000000)].
Example C36_instance : exists s', CreateIfNotExists inc_now deep 7 one_datum (cfg (bs "a") 4) = Ok s' /\
  object s' 0 (cfg (bs "a") 4) [([1], mkEntry 0 (mkDatum None None))].
Proof.
  destruct (C36_create_partial inc_now close_it one_datum 7 (cfg (bs "a") 4) 0 (cfg (bs "a") 1)
              [([1], mkEntry 0 (mkDatum None None))] close_keeps) as (s' & E & _ & _ & U).
  - exists [EvCreate 0 (cfg (bs "a") 1); EvData 0 with_datum]. vm_compute. reflexivity.
  - exists (mkDI 0 1209600000000000). cbn. split; auto. split; auto. right. lia.
  - exists (set_config (with_datum (obj 1)) (cfg (bs "a") 1)). auto.
  - exists s'. split; auto. apply U. reflexivity.
Qed.
Example C36_instance_concurrent : forall s' ts',
  creators_run 5 (one, [CStart (cfg (bs "a") 2); CStart (cfg (bs "b") 7); CStart (cfg (bs "a") 0)]) (s', ts') ->
  exists v, object s' 0 (cfg (bs "a") v) [] /\ (v = 1 \/ v = 2).
Proof.
  intros s' ts' R. destruct (C36_concurrent_partial inc_now close_it 5 one
    [CStart (cfg (bs "a") 2); CStart (cfg (bs "b") 7); CStart (cfg (bs "a") 0)] s' ts' (bs "a") 0 (cfg (bs "a") 1) []
    close_keeps one_reachable) as (_ & c & O & H); [| | |exact R|].
  - exists (mkDI 0 1209600000000000). cbn. split; auto. split; auto. right. lia.
  - exists (obj 1). auto.
  - repeat constructor; eauto.
  - destruct H as [-> |(H & Nm & V)]; [eauto|]. cbn in H.
    destruct H as [H|[H|[H|[]]]]; injection H as <-; [eauto|discriminate Nm|cbn in V; lia].
Qed.

(** C37 Dataset lookup is by name and stable.  Get never fails; it returns the
    dataset registered under the name or a new one with the default
    configuration, which is then registered. *)
Theorem C37_get : forall inc closed s now name, keeps_config closed -> reachable inc closed s ->
  exists s' a c m, Get inc deep now s name = Ok (s', a) /\ object s' a c m /\ cName c = name /\
    (forall b, holds now s name b -> a = b) /\
    ((forall b, ~ holds now s name b) ->
       (* the default configuration: 0.4 is the float64 next to 4/10 *)
       c = mkDataConfig name 0 1000 (f64div (f64_of_Z 4) (f64_of_Z 10)) false 1 true 0 /\ m = [] /\
       (forall n t, ~ holds t s n a)) /\
    (exists t, holds t s' name a).
Proof.
  intros inc closed s now name K R. pose proof (reachable_inv inc closed K s R) as I.
  destruct (get_ok inc deep now s name I) as (s' & a & E & I' & H); [unfold deep; lia|].
  assert (Rg : exists e, mload (dsList s') name = Some (mkDI a e)).
  { destruct H as [[G T]|[G [-> T]]].
    - destruct (get_some _ _ _ _ G) as (i & Ei & <- & _). apply T; auto.
    - destruct T as (_ & _ & T & _). unfold added in T. cbn [dsList] in T.
      change (cName (GetDefaultConfig name)) with name in T.
      specialize (T _ (mload_mstore_same _ _ _)). exact T. }
  destruct Rg as (e & Rg). pose proof I' as [W' I2].
  destruct (I2 _ _ Rg) as (dt & c & A & B & C). cbn [diObj] in A.
  exists s', a, c, (dDBMap dt). split; auto. split; [exists dt; auto|]. split; auto. split; [|split].
  - intros b Hb. apply get_holds in Hb; auto. destruct H as [[G _]|[G _]]; congruence.
  - intro Hn. destruct H as [[G T]|[G [-> T]]]; [exfalso; apply (Hn a), get_holds; auto|].
    destruct T as (O & _). rewrite O in A. unfold added in A; cbn [dsObjs] in A.
    rewrite nth_error_app2, Nat.sub_diag in A by lia. cbn in A. injection A as <-. cbn in B. injection B as <-.
    split; [unfold GetDefaultConfig; f_equal; vm_compute; reflexivity|].
    split; auto. intros n t Hh. apply get_holds in Hh; auto.
    destruct (get_some _ _ _ _ Hh) as (i & Ei & Q & _). destruct I as [_ I]. destruct (I _ _ Ei) as (d & c & Y & _).
    rewrite Q in Y. assert (nth_error (dsObjs s) (length (dsObjs s)) = None) by (apply nth_error_None; lia). congruence.
  - exists e. apply get_holds; auto. unfold dl_get. rewrite Rg.
    replace (item_live e (mkDI a e)) with true; auto. symmetry. apply live_iff. cbn. lia.
Qed.
Print Assumptions C37_get.

(** Two Gets with no delete or expiry between them return the same dataset. *)
Theorem C37_stable : forall inc closed s t1 name s1 a es s2 t2 s3 b, keeps_config closed ->
  reachable inc closed s -> Get inc deep t1 s name = Ok (s1, a) ->
  undisturbed inc closed name s1 es s2 -> (exists x, holds t2 s2 name x) ->
  Get inc deep t2 s2 name = Ok (s3, b) -> a = b.
Proof.
  intros inc closed s t1 name s1 a es s2 t2 s3 b K R E1 U [x Hx] E2.
  pose proof (reachable_inv inc closed K s R) as I.
  destruct (get_ok inc deep t1 s name I) as (s1' & a' & E & I1 & H); [unfold deep; lia|].
  rewrite E1 in E. injection E as <- <-.
  assert (Rg : exists e, mload (dsList s1) name = Some (mkDI a e)).
  { destruct H as [[G T]|[G [-> T]]].
    - destruct (get_some _ _ _ _ G) as (i & Ei & <- & _). apply T; auto.
    - destruct T as (_ & _ & T & _). unfold added in T. cbn [dsList] in T.
      change (cName (GetDefaultConfig name)) with name in T.
      specialize (T _ (mload_mstore_same _ _ _)). exact T. }
  destruct Rg as (e & Rg). destruct (undisturbed_keep inc closed K _ _ _ _ U I1) as [I2 Q].
  destruct (Q _ Rg) as ((e2 & Rg2) & _). cbn [diObj] in Rg2.
  destruct (get_ok inc deep t2 s2 name I2) as (s3' & b' & E' & _ & H2); [unfold deep; lia|].
  rewrite E2 in E'. injection E' as <- <-. apply get_holds in Hx; auto.
  destruct H2 as [[G _]|[G _]]; [|congruence]. unfold dl_get in G. rewrite Rg2 in G.
  destruct (item_live t2 _); [|discriminate]. cbn in G. congruence.
Qed.
Print Assumptions C37_stable.

(** Operations on one name never change another name's dataset. *)
Theorem C37_other_names : forall inc closed s e s' n m, keeps_config closed -> reachable inc closed s ->
  event_name e = Some n -> m <> n -> dstep inc closed s e = Ok s' ->
  forall t a, (holds t s m a <-> holds t s' m a) /\
    (holds t s m a -> nth_error (dsObjs s') a = nth_error (dsObjs s) a).
Proof.
  intros inc closed s e s' n m K R En N E t a. pose proof (reachable_inv inc closed K s R) as I.
  destruct (step_all inc closed K s e I) as (s1 & E1 & I1 & A & _). rewrite E in E1. injection E1 as <-.
  destruct (A n En) as [[O1 O2] _]. rewrite <- !get_holds by auto. unfold dl_get. rewrite O1 by auto.
  split; [reflexivity|]. intro G. destruct (get_some t s m a G) as (i & Ei & <- & _). eapply O2; eauto.
Qed.
Print Assumptions C37_other_names.

(** No history of operations and expiries makes the registry crash. *)
Theorem C37_no_crash : forall inc closed es, keeps_config closed ->
  exists s, drun inc closed (mkDS [] []) es = Ok s.
Proof.
  intros inc closed es K. destruct (run_total inc closed K es (mkDS [] [])) as (s & E & _).
  - split; [constructor|]. cbn. discriminate.
  - eauto.
Qed.
Print Assumptions C37_no_crash.

(** GetNoCreate (which does not return a new state) finds exactly what exists. *)
Theorem C37_nocreate : forall inc closed s now n a, keeps_config closed -> reachable inc closed s ->
  GetNoCreate now s n = Some a <-> holds now s n a.
Proof. intros. apply get_holds. eapply reachable_inv; eauto. Qed.
Print Assumptions C37_nocreate.

(** The listed names are exactly the existing ones, without duplicates. *)
Theorem C37_list : forall inc closed s now, keeps_config closed -> reachable inc closed s ->
  NoDup (ListNames now s) /\ forall n, In n (ListNames now s) <-> exists a, holds now s n a.
Proof.
  intros inc closed s now K R. pose proof (reachable_inv inc closed K s R) as [W _]. unfold ListNames, Items. split.
  - unfold mwf, mkeys in W. revert W. generalize (dsList s) as l.
    induction l as [|[k v] l IH]; cbn; intro W; [constructor|]. inversion W; subst.
    destruct (item_live now v); auto. cbn. constructor; auto. intro Q. apply H1. apply in_map_iff in Q.
    destruct Q as ([k' v'] & <- & Q). apply filter_In in Q. destruct Q as [Q _]. apply (in_map fst) in Q. exact Q.
  - intro n. rewrite in_map_iff. split.
    + intros ([k i] & <- & Q). apply filter_In in Q. destruct Q as [Q L]. exists (diObj i), i. cbn. split; auto.
      split; auto. apply live_iff; auto.
    + intros (a & i & Q & _ & L). exists (n, i). split; auto. apply filter_In. split; auto. apply live_iff. exact L.
Qed.
Print Assumptions C37_list.

(** Two datasets, one deleted and recreated by a Get. *)
Definition two_events : list devent :=
  [EvCreate 0 (cfg (bs "a") 3); EvGet 1 (bs "b"); EvDelete 2 (bs "a"); EvGet 3 (bs "a")].
Definition two : dstate :=
  match drun inc_now close_it (mkDS [] []) two_events with Ok s => s | _ => mkDS [] [] end.
Example C37_instance :
  drun inc_now close_it (mkDS [] []) two_events = Ok two /\
  holds 4 two (bs "b") 1 /\ holds 4 two (bs "a") 2 /\ ListNames 4 two = [bs "a"; bs "b"] /\
  object two 2 (GetDefaultConfig (bs "a")) [].
Proof.
  split; [vm_compute; reflexivity|]. split; [|split; [|split]].
  - eexists. vm_compute. split; [right; left; reflexivity|]. split; auto. right. discriminate.
  - eexists. vm_compute. split; [left; reflexivity|]. split; auto. right. discriminate.
  - vm_compute. reflexivity.
  - eexists. vm_compute. auto.
Qed.

(** A dataset that is asked for, configured again and asked for again; in between
    another one is deleted. *)
Example C37_instance_stable :
  let es := [EvDelete 5 (bs "b"); EvCreate 6 (cfg (bs "a") 7); EvData 2 with_datum] in
  exists s1 s2, Get inc_now deep 4 two (bs "a") = Ok (s1, 2%nat) /\
    undisturbed inc_now close_it (bs "a") s1 es s2 /\ holds 8 s2 (bs "a") 2 /\
    (exists m, object s2 2 (cfg (bs "a") 7) m) /\ ListNames 8 s2 = [bs "a"].
Proof.
  cbv zeta. eexists. eexists. split; [vm_compute; reflexivity|]. split.
  { eapply u_cons; [vm_compute; reflexivity|intros t H; discriminate|intros t H; discriminate|].
    eapply u_cons; [vm_compute; reflexivity|intros t H; discriminate| |].
    { intros t _ H. injection H as <-. exists 2%nat. eexists. vm_compute.
      split; [left; reflexivity|]. split; auto. right. discriminate. }
    eapply u_cons; [vm_compute; reflexivity|intros t H; discriminate|intros t H; discriminate|].
    apply u_nil. }
  split; [|split].
  - eexists. vm_compute. split; [left; reflexivity|]. split; auto. right. discriminate.
  - eexists. eexists. vm_compute. auto.
  - vm_compute. reflexivity.
Qed.

(** C43 Closing a dataset only removes its own folder: false for names such as
    ".." and "" and for pairs such as "a" and "a/b". *)
Theorem C43_escape_refuted : exists name, removed_by_close (bs "/var/veri") name (bs "/var/veri/index.save").
Proof. exists dotdot. right. exists (bs "index.save"). vm_compute. reflexivity. Qed.
Print Assumptions C43_escape_refuted.

Theorem C43_all_refuted : exists name, forall root other t, plain other ->
  removed_by_close root name (DBPath root other ++ t).
Proof.
  exists []. intros root other t P. right. exists (other ++ t). rewrite folder_of_plain by auto.
  assert (E : DBPath root [] = DataPath root).
  { unfold DBPath. destruct (data_path root) as (r & st & C & E). rewrite E.
    assert (C2 : canon r (bs "data" :: st)) by (constructor; auto using data_plain).
    pose proof (folder_of_plain root (bs "data") data_plain) as F. unfold DBPath in F. rewrite E in F.
    unfold Join in *. destruct (render r (bs "data" :: st)) as [|b0 R0] eqn:Q.
    - unfold render in Q. destruct r; [discriminate|]. exfalso. revert Q. cbn [rev].
      destruct (rev st) as [|x y]; [discriminate|]. cbn. destruct (y ++ [bs "data"]) eqn:Y; [destruct y; discriminate|].
      destruct x; discriminate.
    - change (bs "data") with [100; 97; 116; 97] in F. cbn iota in F. unfold Clean in *.
      change (is_rooted ((b0 :: R0) ++ slash :: [100; 97; 116; 97])) with (is_rooted (b0 :: R0)) in F.
      assert (S : forall p, split_slash (p ++ slash :: bs "data") = split_slash p ++ [bs "data"]).
      { clear. induction p as [|b p IH]; [reflexivity|]. cbn [app]. cbn [split_slash]. rewrite IH.
        destruct (split_slash p) eqn:E; [destruct (split_ne p E)|]. cbn [app]. destruct (b =? slash); reflexivity. }
      change [100; 97; 116; 97] with (bs "data") in F. rewrite S in F.
      assert (G : forall cs r st, clean_comps r st (cs ++ [bs "data"]) = bs "data" :: clean_comps r st cs).
      { clear. induction cs as [|c cs IH]; intros r st.
        - cbn [app]. rewrite clean_plain by apply data_plain. reflexivity.
        - cbn [app clean_comps]. destruct (bytes_eqb c [] || bytes_eqb c dot); auto.
          destruct (bytes_eqb c dotdot); auto. destruct st as [|t st]; auto. destruct (bytes_eqb t dotdot); auto. }
      rewrite G in F. set (st' := clean_comps (is_rooted (b0 :: R0)) [] (split_slash (b0 :: R0))) in *.
      unfold render in F |- *. destruct (is_rooted (b0 :: R0)).
      + cbn [rev] in F. destruct (rev st') as [|x y] eqn:Y.
        * cbn in F. injection F as <- F. destruct R0 as [|c1 [|c2 [|c3 [|c4 R0]]]]; cbn in F; try discriminate F;
            injection F; intros; subst; try discriminate; destruct R0; discriminate.
        * rewrite <- Y in F |- *. rewrite join_app in F by (rewrite Y; discriminate).
          apply (app_inv_tail (slash :: bs "data")). exact F.
      + destruct st' as [|x y].
        * cbn in F. destruct R0 as [|c1 [|c2 [|c3 [|c4 R0]]]]; cbn in F; try discriminate F;
            injection F; intros; subst; try discriminate; destruct R0; discriminate.
        * cbn [rev] in F. cbn [rev]. rewrite join_app in F by (destruct (rev y); discriminate).
          apply (app_inv_tail (slash :: bs "data")). exact F. }
  rewrite E, <- app_assoc. reflexivity.
Qed.
Print Assumptions C43_all_refuted.

Theorem C43_shared_refuted : exists n1 n2, n1 <> n2 /\ DBPath (bs "/v") n1 = DBPath (bs "/v") n2.
Proof. exists (bs "a/../b"), (bs "b"). split; [discriminate|]. vm_compute. reflexivity. Qed.
Print Assumptions C43_shared_refuted.

Theorem C43_nested_refuted : exists n1 n2, n1 <> n2 /\ removed_by_close (bs "/v") n1 (DBPath (bs "/v") n2).
Proof. exists (bs "a"), (bs "a/b"). split; [discriminate|]. right. exists (bs "b"). vm_compute. reflexivity. Qed.
Print Assumptions C43_nested_refuted.

(** Names that are one ordinary path component (not empty, not "." or "..", no
    slash): every folder is the one named after the dataset inside the data
    folder, and no dataset's folder contains another's. *)
Theorem C43_own_folder_partial : forall root n q, plain n -> removed_by_close root n q ->
  exists t, q = DataPath root ++ slash :: n ++ t /\ (t = [] \/ exists t', t = slash :: t').
Proof. exact folders_confined. Qed.
Print Assumptions C43_own_folder_partial.

Theorem C43_not_shared_partial : forall root n1 n2 t, plain n1 -> plain n2 -> n1 <> n2 ->
  (t = [] \/ exists t', t = slash :: t') -> ~ removed_by_close root n1 (DBPath root n2 ++ t).
Proof. exact folders_distinct. Qed.
Print Assumptions C43_not_shared_partial.

Example C43_instance : plain (bs "vectors") /\ plain (bs "..a") /\
  DBPath (bs "/var//veri/../x/") (bs "vectors") = bs "/var/x/data/vectors" /\
  DBPath (bs "../s") (bs "..a") = bs "../s/data/..a".
Proof.
  split; [|split; [|split; vm_compute; reflexivity]];
  (split; [discriminate|]; split; [discriminate|]; split; [discriminate|]; vm_compute; intuition discriminate).
Qed.

(** C44 Retention is converted faithfully: false from 9223372037 seconds on. *)
Theorem C44_short_refuted : exists r, r < 2 ^ 64 /\ GetRetention r = 290448384%Z /\ r = 18446744074.
Proof. exists 18446744074. vm_compute. auto. Qed.
Print Assumptions C44_short_refuted.

Theorem C44_monotone_refuted : exists r1 r2, r1 < r2 /\ r2 < 2 ^ 64 /\ (GetRetention r2 < 0 < GetRetention r1)%Z.
Proof. exists 1, 9223372037. vm_compute. auto. Qed.
Print Assumptions C44_monotone_refuted.

(** Up to 9223372036 seconds (292 years). *)
Theorem C44_retention_partial : forall r, r <= 9223372036 ->
  GetRetention r = (if (r =? 0)%N then 14 * 24 * 3600 * 1000000000 else Z.of_N r * 1000000000)%Z.
Proof. intros. rewrite retention_ok by auto. reflexivity. Qed.
Print Assumptions C44_retention_partial.

Theorem C44_order_partial : forall r1 r2, 0 < r1 -> r1 <= r2 -> r2 <= 9223372036 ->
  (GetRetention r1 <= GetRetention r2)%Z.
Proof.
  intros r1 r2 P L H. rewrite !retention_ok by lia.
  replace (r1 =? 0) with false by lia. replace (r2 =? 0) with false by lia. lia.
Qed.
Print Assumptions C44_order_partial.

(** A dataset created at [now] with such a retention exists exactly that long if
    nothing touches it. *)
Theorem C44_lifetime_partial : forall inc closed s now c s' t, keeps_config closed -> reachable inc closed s ->
  (0 <= now)%Z -> cRetention c <= 9223372036 -> (forall a, ~ holds now s (cName c) a) ->
  CreateIfNotExists inc deep now s c = Ok s' ->
  (exists a, holds t s' (cName c) a) <->
  (t <= now + (if (cRetention c =? 0)%N then 1209600 else Z.of_N (cRetention c)) * 1000000000)%Z.
Proof.
  intros inc closed s now c s' t K R P L N E. pose proof (reachable_inv inc closed K s R) as I.
  destruct (create_ok inc deep now s c I) as (s1 & E1 & C); [unfold deep; lia|]. rewrite E in E1. injection E1 as <-.
  pose proof (created_inv _ _ _ _ I C) as I'. unfold created in C.
  destruct (dl_get now s (cName c)) as [a|] eqn:G; [exfalso; apply (N a), get_holds; auto|]. subst s'.
  assert (X : (exists a, dl_get t (added now s c) (cName c) = Some a) <->
    (t <= now + (if (cRetention c =? 0)%N then 1209600 else Z.of_N (cRetention c)) * 1000000000)%Z).
  { unfold dl_get, added. cbn [dsList]. rewrite mload_mstore_same, retention_ok by auto.
    unfold item_live, dl_expiry. cbn [diExpires diObj]. destruct (cRetention c =? 0) eqn:Z0.
    - cbn [Z.eqb Z.ltb Z.compare]. destruct ((0 <? now + 1209600000000000) && (now + 1209600000000000 <? t))%Z eqn:B; cbn; split; intro Q; try lia; eauto.
      destruct Q; discriminate.
    - replace (Z.of_N (cRetention c) * 1000000000 =? 0)%Z with false by lia.
      replace (0 <? Z.of_N (cRetention c) * 1000000000)%Z with true by lia.
      destruct ((0 <? now + Z.of_N (cRetention c) * 1000000000) && (now + Z.of_N (cRetention c) * 1000000000 <? t))%Z eqn:B; cbn; split; intro Q; try lia; eauto.
      destruct Q; discriminate. }
  rewrite <- X. split; intros [a Q]; exists a; [apply get_holds in Q|apply get_holds]; auto.
Qed.
Print Assumptions C44_lifetime_partial.

Example C44_instance : GetRetention 0 = 1209600000000000%Z /\ GetRetention 86400 = 86400000000000%Z /\
  GetRetention 9223372036 = 9223372036000000000%Z.
Proof. vm_compute. auto. Qed.

(** A dataset created at 7 with a retention of 60 seconds is there at 60 s + 7 ns
    and not a nanosecond later. *)
Example C44_instance_lifetime :
  let c := mkDataConfig (bs "n") 0 1000 f0_4 false 1 true 60 in
  (forall a, ~ holds 7 one (cName c) a) /\
  exists s', CreateIfNotExists inc_now deep 7 one c = Ok s' /\
    holds 60000000007 s' (bs "n") 1 /\ forall a, ~ holds 60000000008 s' (bs "n") a.
Proof.
  cbv zeta. split.
  - intros a (i & [H|[]] & _). discriminate.
  - eexists. split; [vm_compute; reflexivity|]. split.
    + eexists. vm_compute. split; [left; reflexivity|]. split; auto. right. discriminate.
    + intros a (i & [H|[H|[]]] & _ & L); [|discriminate]. injection H as <-.
      cbn in L. lia.
Qed.

(** C45 Housekeeping never drops a dataset in use: an unreachable source crashes
    the node, and a dataset whose statistics were not computed yet is removed
    with the data it holds. *)
Definition add_source : Data -> Data := fun d => set_sources d (Some [bs "peer"]).
Definition sourced : dstate :=
  match drun inc_now close_it (mkDS [] []) [EvCreate 0 (cfg (bs "a") 1); EvData 0 add_source] with Ok s => s | _ => mkDS [] [] end.
Theorem C45_crash_refuted : exists s, reachable inc_now close_it s /\
  ReloadRuns close_it (fun _ => None) 5 s (Items 5 s) = Panic.
Proof.
  exists sourced. split.
  - exists [EvCreate 0 (cfg (bs "a") 1); EvData 0 add_source]. vm_compute. reflexivity.
  - vm_compute. reflexivity.
Qed.
Print Assumptions C45_crash_refuted.

Theorem C45_drop_refuted : exists s s' a c m, reachable inc_now close_it s /\ holds 5 s (bs "a") a /\
  object s a c m /\ m <> [] /\ ReloadRuns close_it (fun _ => None) 5 s (Items 5 s) = Ok s' /\
  forall b, ~ holds 5 s' (bs "a") b.
Proof.
  exists one_datum, (mkDS [close_it (close_it (set_config (with_datum (obj 1)) (cfg (bs "a") 1)))] []), 0%nat, (cfg (bs "a") 1),
    [([1], mkEntry 0 (mkDatum None None))].
  split; [|split; [|split; [|split; [discriminate|split]]]].
  - exists [EvCreate 0 (cfg (bs "a") 1); EvData 0 with_datum]. vm_compute. reflexivity.
  - exists (mkDI 0 1209600000000000). cbn. split; auto. split; auto. right. lia.
  - exists (set_config (with_datum (obj 1)) (cfg (bs "a") 1)). auto.
  - vm_compute. reflexivity.
  - intros b (i & [] & _).
Qed.
Print Assumptions C45_drop_refuted.

(** If every source answers and N is positive whenever there is data, the clean-up
    does not crash and touches no dataset that has data here or at a source. *)
Theorem C45_housekeeping_partial : forall inc closed info now s items, keeps_config closed ->
  reachable inc closed s -> Permutation items (Items now s) ->
  (forall n a dt, holds now s n a -> nth_error (dsObjs s) a = Some dt ->
     (dDBMap dt <> [] -> 0 < dN dt) /\
     (forall ids id, dSources dt = Some ids -> In id ids -> info id <> None)) ->
  exists s', ReloadRuns closed info now s items = Ok s' /\
    forall n a dt, holds now s n a -> nth_error (dsObjs s) a = Some dt ->
      (dDBMap dt <> [] \/ exists ids id k, dSources dt = Some ids /\ In id ids /\ info id = Some k /\ 0 < k) ->
      holds now s' n a /\ nth_error (dsObjs s') a = Some dt.
Proof.
  intros inc closed info now s items K R P H. pose proof (reachable_inv inc closed K s R) as I.
  destruct (reload_ok closed info K now s items I P) as (s' & E & I' & Q).
  - intros n i dt Hi D id S. eapply Permutation_in in Hi; [|exact P]. unfold Items in Hi. apply filter_In in Hi.
    destruct Hi as [Hi Li]. destruct (H n (diObj i) dt) as [_ H2]; auto.
    { exists i. split; auto. split; auto. apply live_iff; auto. }
    unfold sources in S. destruct (dSources dt) as [ids|] eqn:Sd; [|destruct S]. eauto.
  - exists s'. split; auto. intros n a dt Ha D U. pose proof Ha as G. apply get_holds in G; auto.
    destruct (get_some _ _ _ _ G) as (i & Ei & <- & Li). destruct (Q n i dt Ei D) as [Q1 Q2].
    { destruct U as [U|(ids & id & k & U1 & U2 & U3 & U4)].
      - left. destruct (H n (diObj i) dt Ha D) as [H1 _]. auto.
      - right. left. exists id, k. unfold sources. rewrite U1. auto. }
    split; auto. apply get_holds; auto. unfold dl_get. rewrite Q1, Li. reflexivity.
Qed.
Print Assumptions C45_housekeeping_partial.

(** An empty dataset is removed, one whose source has data is kept. *)
Definition mixed_events : list devent :=
  [EvCreate 0 (cfg (bs "a") 1); EvData 0 add_source; EvCreate 0 (cfg (bs "b") 1)].
Definition mixed : dstate :=
  match drun inc_now close_it (mkDS [] []) mixed_events with Ok s => s | _ => mkDS [] [] end.
Example C45_instance : exists s', ReloadRuns close_it (fun _ => Some 12) 5 mixed (Items 5 mixed) = Ok s' /\
  holds 5 s' (bs "a") 0 /\ ListNames 5 s' = [bs "a"].
Proof.
  eexists. split; [vm_compute; reflexivity|]. split; [|vm_compute; reflexivity].
  eexists. vm_compute. split; [left; reflexivity|]. split; auto. right. discriminate.
Qed.

(** C64 Only one statistics task runs per dataset: false, the check and the add are
    two operations. *)
Lemma runner_app : forall x y z, runner_run x y -> runner_run y z -> runner_run x z.
Proof.
  intros x y z H K. induction K as [|a b c K IH S]; [exact H|]. eapply rr_step; [exact (IH H)|exact S].
Qed.

Lemma list_set_mid : forall {A} (l1 l2 : list A) x y, list_set (l1 ++ x :: l2) (length l1) y = Some (l1 ++ y :: l2).
Proof.
  intros A l1 l2 x y. induction l1 as [|a l1 IH]; cbn; [reflexivity|]. rewrite IH. reflexivity.
Qed.

Lemma nth_mid : forall {A} (l1 l2 : list A) x, nth_error (l1 ++ x :: l2) (length l1) = Some x.
Proof. intros A l1 l2 x. induction l1; cbn; auto. Qed.

(** ... so any number of them can be active at the same time. *)
Theorem C64_many_refuted : forall n, exists ts,
  runner_run (0%Z, []) (Z.of_nat n, ts) /\ count RActive ts = n.
Proof.
  intros n.
  assert (A : runner_run (0%Z, []) (0%Z, repeat RChecked n)).
  { induction n as [|n IH]; [apply rr_here|].
    eapply runner_app; [exact IH|]. eapply rr_step; [eapply rr_step; [apply rr_here|apply rs_call]|].
    replace (repeat RChecked (S n)) with (repeat RChecked n ++ [RChecked]) by (symmetry; apply repeat_cons).
    apply (rs_check 0 _ (length (repeat RChecked n))); [apply nth_mid|lia|apply list_set_mid]. }
  assert (B : forall k, (k <= n)%nat ->
    runner_run (0%Z, repeat RChecked n) (Z.of_nat k, repeat RActive k ++ repeat RChecked (n - k))).
  { induction k as [|k IH]; intros L.
    - rewrite Nat.sub_0_r. apply rr_here.
    - eapply rr_step; [apply IH; lia|].
      replace (n - k)%nat with (S (n - S k)) by lia. cbn [repeat].
      replace (Z.of_nat (S k)) with (Z.of_nat k + 1)%Z by lia.
      replace (RActive :: repeat RActive k) with (repeat RActive k ++ [RActive]) by (symmetry; apply repeat_cons).
      rewrite <- app_assoc. cbn [app].
      apply (rs_add _ _ (length (repeat RActive k))); [apply nth_mid|apply list_set_mid]. }
  exists (repeat RActive n). split.
  - eapply runner_app; [exact A|]. specialize (B n ltac:(lia)).
    rewrite Nat.sub_diag, app_nil_r in B. exact B.
  - clear A B. unfold count. induction n; cbn; auto.
Qed.
Print Assumptions C64_many_refuted.

(** If no call looks at the counter while another one is between its check and its
    add, at most one is active. *)
Theorem C64_one_partial : forall r ts, solo_run (0%Z, []) (r, ts) -> (count RActive ts <= 1)%nat.
Proof. intros r ts H. destruct (solo_one _ _ H) as [_ C]; [reflexivity|repeat constructor|]. cbn [snd] in C. lia. Qed.
Print Assumptions C64_one_partial.

(** In every interleaving the counter is the number of active calls, and a call
    that finds it positive is refused. *)
Theorem C64_counter_partial : forall r ts, runner_run (0%Z, []) (r, ts) -> r = Z.of_nat (count RActive ts).
Proof. intros r ts H. apply (runs_active _ _ H). reflexivity. Qed.
Print Assumptions C64_counter_partial.

Example C64_instance : solo_run (0%Z, []) (1%Z, [RActive; RRefused]).
Proof.
  eapply sr_step. 2: { apply (rs_refuse 1 [RActive; RStart] 1); reflexivity. } 2: { intros [H|[H|[]]]; discriminate. }
  eapply sr_step. 2: { apply (rs_call 1 [RActive]). } 2: { intros [H|[]]; discriminate. }
  eapply sr_step. 2: { apply (rs_add 0 [RChecked] 0); reflexivity. } 2: { intros _. exists 0%nat, [RActive]. auto. }
  eapply sr_step. 2: { apply (rs_check 0 [RStart] 0); reflexivity. } 2: { intros [H|[]]; discriminate. }
  eapply sr_step. 2: { apply (rs_call 0 []). } 2: { intros []. }
  apply sr_here.
Qed.

(** C65 A dataset's information reflects its configuration: the replication and
    retention settings are left out. *)
Theorem C65_settings_refuted : exists c s' i,
  NodeCreateDataIfNotExists inc_now 0 (mkDS [] []) c = Ok (s', i) /\
  iReplicationOnInsert i <> cReplicationOnInsert c /\
  iEnforceReplicationOnInsert i <> cEnforceReplicationOnInsert c /\
  iRetention i <> cRetention c.
Proof.
  exists (mkDataConfig (bs "a") 1 10 f0_4 false 3 true 3600).
  eexists. eexists. split; [vm_compute; reflexivity|]. cbn. repeat split; discriminate.
Qed.
Print Assumptions C65_settings_refuted.

(** Name, version and targets are those of the dataset's configuration. *)
Theorem C65_info_partial : forall inc closed s now name, keeps_config closed -> reachable inc closed s ->
  exists s' i a c m, NodeGetDataInfo inc now s name = Ok (s', i) /\ object s' a c m /\
    (exists t, holds t s' name a) /\
    iName i = name /\ iName i = cName c /\ iVersion i = cVersion c /\ iTargetN i = cTargetN c /\
    iTargetUtilization i = cTargetUtilization c /\ iNoTarget i = cNoTarget c.
Proof.
  intros inc closed s now name K R.
  destruct (C37_get inc closed s now name K R) as (s' & a & c & m & E & O & Nm & _ & _ & Hh).
  pose proof O as (dt & D1 & D2 & D3). unfold NodeGetDataInfo. rewrite E. cbn [bind]. unfold info_of. rewrite D1.
  unfold GetDataInfo. rewrite D2. cbn [bind]. do 5 eexists. split; [reflexivity|]. split; [exact O|]. cbn. auto 10.
Qed.
Print Assumptions C65_info_partial.

(** CreateDataIfNotExists answers with the configuration asked for, or with the one
    that is already there if its version is not lower. *)
Theorem C65_create_partial : forall inc closed s now c, keeps_config closed -> reachable inc closed s ->
  exists s' i c', NodeCreateDataIfNotExists inc now s c = Ok (s', i) /\
    (c' = c \/ exists a m, holds now s (cName c) a /\ object s a c' m /\ cVersion c <= cVersion c') /\
    iName i = cName c /\ iVersion i = cVersion c' /\ iTargetN i = cTargetN c' /\
    iTargetUtilization i = cTargetUtilization c' /\ iNoTarget i = cNoTarget c'.
Proof.
  intros inc closed s now c K R. pose proof (reachable_inv inc closed K s R) as I.
  destruct (getorcreate_ok inc deep now s c I) as (s1 & s' & a & E & I1 & I' & C & G & T); [unfold deep; lia|].
  unfold NodeCreateDataIfNotExists. rewrite E. cbn [bind]. unfold info_of.
  destruct T as (To & _). rewrite To.
  unfold created in C. destruct (dl_get now s (cName c)) as [b|] eqn:Gb.
  - destruct C as (L & U & _). unfold dl_get in G. rewrite L in G.
    destruct (get_some _ _ _ _ Gb) as (i & Ei & <- & Li). rewrite Ei, Li in G. injection G as <-.
    pose proof I as [_ I2]. destruct (I2 _ _ Ei) as (dt & c0 & A & B & Nm).
    rewrite (U _ _ A B). destruct (cVersion c0 <? cVersion c) eqn:V.
    + unfold GetDataInfo. cbn [set_config dConfig bind]. do 2 eexists. exists c. split; [reflexivity|]. cbn. auto 10.
    + unfold GetDataInfo. rewrite B. cbn [bind]. do 2 eexists. exists c0. split; [reflexivity|]. cbn. split; [|auto 10].
      right. exists (diObj i), (dDBMap dt). split; [apply get_holds; auto|]. split; [exists dt; auto|lia].
  - subst s1. rewrite get_added in G. injection G as <-. unfold added; cbn [dsObjs].
    rewrite nth_error_app2, Nat.sub_diag by lia. cbn. do 2 eexists. exists c. split; [reflexivity|]. cbn. auto 10.
Qed.
Print Assumptions C65_create_partial.

Example C65_instance : exists s' i, NodeCreateDataIfNotExists inc_now 3 one (cfg (bs "a") 9) = Ok (s', i) /\
  iName i = bs "a" /\ iVersion i = 9 /\ iTargetN i = 1000.
Proof. eexists. eexists. split; [vm_compute; reflexivity|]. auto. Qed.
