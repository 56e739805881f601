(** Proofs about concurrent creates, house-keeping, retention and the run lock. *)
From Verif.Base Require Import GoBase GoLemmas Assoc Float.
From Verif.Model Require Import Codec Store Data Dataset RunLock.
From Verif.Spec Require Import RegistrySpec.
From Verif.Proof Require Import StoreConcP DatasetP.
From Coq Require Import Lia Permutation.
Open Scope N_scope.

Lemma Forall_list_set : forall A (P : A -> Prop) (ts : list A) i x ts',
  Forall P ts -> P x -> list_set ts i x = Some ts' -> Forall P ts'.
Proof.
  intros A P ts i x. revert i. induction ts as [|t ts IH]; intros [|i] ts' F Px S; cbn in S; try discriminate.
  - injection S as <-. inversion F; subst. constructor; auto.
  - destruct (list_set ts i x) as [l|] eqn:E; [|discriminate]. injection S as <-. inversion F; subst.
    constructor; eauto.
Qed.

(** * Concurrent creates *)
Section Creators.
  Variables (tmax : Z) (n : bytes) (a : nat) (c0 : DataConfig) (m : dbmap) (ts0 : list creator).
  Definition thread_ok (s : dstate) (t : creator) : Prop :=
    match t with
    | CStart c => In (CStart c) ts0
    | CWrite c b => In (CStart c) ts0 /\
        (exists dt c1, nth_error (dsObjs s) b = Some dt /\ dConfig dt = Some c1 /\ cName c1 = cName c) /\
        (b = a -> cVersion c0 < cVersion c)
    | CDone => True
    end.
  Definition J (x : dstate * list creator) : Prop :=
    let s := fst x in
    inv s /\ dl_get tmax s n = Some a /\
    (exists dt c, nth_error (dsObjs s) a = Some dt /\ dConfig dt = Some c /\ dDBMap dt = m /\
       (c = c0 \/ (In (CStart c) ts0 /\ cName c = n /\ cVersion c0 < cVersion c))) /\
    Forall (thread_ok s) (snd x).

  Lemma thread_mono : forall s s' t,
    (forall b dt c1, nth_error (dsObjs s) b = Some dt -> dConfig dt = Some c1 ->
      exists dt' c1', nth_error (dsObjs s') b = Some dt' /\ dConfig dt' = Some c1' /\ cName c1' = cName c1) ->
    thread_ok s t -> thread_ok s' t.
  Proof.
    intros s s' [c|c b|] H; cbn; auto. intros (A & (dt & c1 & X & Y & Z) & B). split; auto. split; auto.
    destruct (H _ _ _ X Y) as (dt' & c1' & X' & Y' & Z'). exists dt', c1'. repeat split; auto. congruence.
  Qed.

  Lemma J_step : forall x y, J x -> creators_step tmax x y -> J y.
  Proof.
    intros x y (I & G & (dt & c & D1 & D2 & D3 & D4) & F) S.
    destruct (get_some _ _ _ _ G) as (i & Ei & Oi & Li).
    assert (Nc : cName c = n).
    { destruct I as [_ I]. destruct (I _ _ Ei) as (d & c' & X & Y & Z). rewrite Oi in X. congruence. }
    assert (Vc : cVersion c0 <= cVersion c). { destruct D4 as [->|(_ & _ & V)]; lia. }
    inversion S as [now s ts j c1 s' ts' T Nt Ad Ls|now s ts j c1 a1 dt1 c2 ts' T Nt Ga Na Ca V Ls
      |now s ts j c1 a1 dt1 c2 ts' T Nt Ga Na Ca V Ls|s ts j c1 a1 dt1 objs ts' Nt Na Lo Ls]; subst x y; cbn [fst snd] in *.
    - unfold dl_add in Ad. destruct (dl_get now s (cName c1)) eqn:Gn; [discriminate|]. injection Ad as <-.
      change (mkDS _ _) with (added now s c1).
      assert (Nn : cName c1 <> n).
      { intro Q. unfold dl_get in Gn. rewrite Q, Ei in Gn.
        assert (L : item_live now i = true). { apply live_iff in Li. apply live_iff. lia. }
        rewrite L in Gn. discriminate. }
      unfold J; cbn [fst snd]. split; [apply inv_added; auto|]. split.
      { unfold dl_get, added. cbn [dsList fst]. rewrite mload_mstore_other by auto. rewrite Ei, Li. congruence. }
      split.
      { exists dt, c. unfold added; cbn [dsObjs]. rewrite nth_error_app1; auto. apply nth_error_Some. congruence. }
      eapply Forall_list_set with (x := CDone); [|exact Logic.I|exact Ls].
      eapply Forall_impl; [|exact F]. intro t. apply thread_mono. intros b d c3 X Y. exists d, c3.
      unfold added; cbn [dsObjs]. rewrite nth_error_app1; auto. apply nth_error_Some. congruence.
    - unfold J; cbn [fst snd]. split; auto. split; auto. split; [eauto 10|]. eapply Forall_list_set; [exact F| |exact Ls]. exact Logic.I.
    - unfold J; cbn [fst snd]. split; auto. split; auto. split; [eauto 10|]. eapply Forall_list_set; [exact F| |exact Ls]. cbn.
      assert (St : thread_ok s (CStart c1)). { eapply Forall_forall in F; eauto using nth_error_In. }
      split; [exact St|]. destruct (get_some _ _ _ _ Ga) as (i1 & E1 & O1 & L1).
      destruct I as [W I]. destruct (I _ _ E1) as (d & c' & X & Y & Z). subst a1. split; [eauto|].
      intro Q. assert (c2 = c) by congruence. subst. lia.
    - assert (St : thread_ok s (CWrite c1 a1)). { eapply Forall_forall in F; eauto using nth_error_In. }
      cbn in St. destruct St as (In1 & (d & c3 & X & Y & Z) & V). assert (d = dt1) by congruence. subst d.
      assert (Keep : forall b d c4, nth_error (dsObjs s) b = Some d -> dConfig d = Some c4 ->
        exists d' c4', nth_error objs b = Some d' /\ dConfig d' = Some c4' /\ cName c4' = cName c4).
      { intros b d c4 B1 B2. rewrite (nth_list_set _ _ _ _ _ _ Lo). destruct (Nat.eqb_spec a1 b).
        - subst. exists (set_config dt1 c1), c1. repeat split; auto. congruence.
        - eauto. }
      unfold J; cbn [fst snd]. split; [|split; [|split]].
      + destruct I as [W I]. split; auto. cbn [dsList dsObjs]. intros n' i' E'.
        destruct (I _ _ E') as (d & c4 & B1 & B2 & B3). destruct (Keep _ _ _ B1 B2) as (d' & c4' & B4 & B5 & B6).
        exists d', c4'. repeat split; auto. congruence.
      + exact G.
      + cbn [dsObjs]. rewrite (nth_list_set _ _ _ _ _ _ Lo). destruct (Nat.eqb_spec a1 a) as [Q|Q].
        * rewrite Q in *. assert (dt1 = dt) by congruence. subst dt1. exists (set_config dt c1), c1. repeat split; auto.
          right. split; auto. split; auto. congruence.
        * eauto 10.
      + eapply Forall_list_set with (x := CDone); [|exact Logic.I|exact Ls]. eapply Forall_impl; [|exact F]. intro t.
        apply thread_mono. exact Keep.
  Qed.

  Lemma J_run : forall x y, creators_run tmax x y -> J x -> J y.
  Proof. induction 1; auto. intro. apply IHcreators_run. eapply J_step; eauto. Qed.
End Creators.

Theorem creators_sound : forall tmax s ts s' ts' n a c0 m,
  inv s -> holds tmax s n a -> object s a c0 m -> Forall (fun t => exists c, t = CStart c) ts ->
  creators_run tmax (s, ts) (s', ts') ->
  inv s' /\ holds tmax s' n a /\ exists c, object s' a c m /\
    (c = c0 \/ (In (CStart c) ts /\ cName c = n /\ cVersion c0 < cVersion c)).
Proof.
  intros tmax s ts s' ts' n a c0 m I H (dt & D1 & D2 & D3) F R.
  assert (X : J tmax n a c0 m ts (s', ts')).
  { eapply J_run; [exact R|]. split; [exact I|]. split; [apply get_holds; auto|]. split; [eauto 10|]. cbn.
    apply Forall_forall. intros t T. pose proof T as T'. eapply Forall_forall in F; eauto. destruct F as [c ->]. exact T'. }
  destruct X as (I' & G & (d & c & X1 & X2 & X3 & X4) & _). cbn [fst] in *. split; auto.
  split; [apply get_holds; auto|]. exists c. split; auto. exists d. auto.
Qed.

(** * House-keeping *)
Section Reload.
  Variables (closed : Data -> Data) (info : bytes -> option N).
  Hypothesis KC : keeps_config closed.
  (** Closing only changes what is relevant to CheckIfActive of that object. *)

  Definition sources (dt : Data) : list bytes := match dSources dt with Some l => l | None => [] end.

  Lemma any_source_ok : forall ids, (forall id, In id ids -> info id <> None) ->
    exists b, any_source info ids = Ok b /\
      (b = false -> forall id n, In id ids -> info id = Some n -> n = 0).
  Proof.
    induction ids as [|id ids IH]; intro R; cbn [any_source].
    - exists false. split; auto. intros _ id n [].
    - destruct (info id) as [k|] eqn:E; [|exfalso; apply (R id); cbn; auto].
      destruct (0 <? k) eqn:P; [exists true; split; [auto|discriminate]|].
      destruct IH as (b & B1 & B2). { intros; apply R; cbn; auto. } exists b. split; auto.
      intros Hb id' n [<-|Q] Q'; [|eauto]. assert (k = n) by congruence. lia.
  Qed.

  Lemma check_ok : forall dt, (forall id, In id (sources dt) -> info id <> None) ->
    exists b, CheckIfActive info dt = Ok b /\
      (b = false -> dN dt = 0 /\ forall id n, In id (sources dt) -> info id = Some n -> n = 0).
  Proof.
    intros dt R. unfold CheckIfActive, sources in *. destruct (0 <? dN dt) eqn:P.
    - exists true. split; [auto|discriminate].
    - destruct (dSources dt) as [ids|].
      + destruct (any_source_ok ids R) as (b & B1 & B2). exists b. split; auto. intro Q. split; [lia|exact (B2 Q)].
      + exists false. split; auto. intros _. split; [lia|]. intros ? ? [].
  Qed.

  (** The names removed are those of inactive datasets; the others are not touched. *)
  Lemma scan_ok : forall items s, inv s ->
    (forall p, In p items -> mload (dsList s) (fst p) = Some (snd p)) -> NoDup (map fst items) ->
    (forall p dt, In p items -> nth_error (dsObjs s) (diObj (snd p)) = Some dt ->
       forall id, In id (sources dt) -> info id <> None) ->
    exists s' l, reload_scan closed info s items = Ok (s', l) /\ inv s' /\ dsList s' = dsList s /\
      (forall n, In n l -> exists i dt, In (n, i) items /\ nth_error (dsObjs s) (diObj i) = Some dt /\
          dN dt = 0 /\ forall id k, In id (sources dt) -> info id = Some k -> k = 0) /\
      (forall n i, mload (dsList s) n = Some i -> ~ In n l ->
          nth_error (dsObjs s') (diObj i) = nth_error (dsObjs s) (diObj i)).
  Proof.
    induction items as [|[n i] items IH]; intros s I L ND R; cbn [reload_scan].
    - exists s, []. split; auto. split; auto. split; auto. split; auto. intros n [].
    - assert (Ei : mload (dsList s) n = Some i) by (apply (L (n, i)); cbn; auto).
      pose proof I as [W I2].
      destruct (I2 _ _ Ei) as (dt & c & A & B & C). rewrite A.
      destruct (check_ok dt) as (b & B1 & B2). { apply (R (n, i) dt); cbn; auto. }
      rewrite B1. cbn [bind]. cbn in ND. inversion ND as [|? ? ND1 ND2]; subst. destruct b.
      + destruct (IH s I) as (s' & l & E & I' & Q1 & Q2 & Q3); auto.
        { intros; apply L; cbn; auto. } { intros p d P; apply (R p d); cbn; auto. }
        rewrite E. exists s', l. split; auto. split; auto. split; auto. split; auto.
        intros m M. destruct (Q2 m M) as (j & d & X & Y & Z). exists j, d. cbn. auto.
      + set (s1 := close_obj closed s (diObj i)).
        assert (Same : forall p, In p items -> diObj (snd p) <> diObj i).
        { intros [m j] P Q. cbn in Q. apply ND1.
          assert (m = cName c).
          { eapply inv_inj with (i := j) (j := i); eauto. apply (L (m, j)). cbn; auto. }
          subst m. apply in_map with (f := fst) in P. exact P. }
        assert (Other : forall p, In p items -> nth_error (dsObjs s1) (diObj (snd p)) = nth_error (dsObjs s) (diObj (snd p))).
        { intros p P. subst s1. rewrite close_nth. destruct (Nat.eqb_spec (diObj i) (diObj (snd p))); auto.
          exfalso. eapply Same; eauto. }
        destruct (IH s1) as (s' & l & E & I' & Q1 & Q2 & Q3); auto.
        { apply close_inv; auto. }
        { intros p P. subst s1. rewrite close_list. apply L. cbn; auto. }
        { intros p d P. rewrite Other by auto. apply (R p d). cbn; auto. }
        rewrite E. cbn [bind]. exists s', (cName c :: l). split; auto. split; auto.
        split. { rewrite Q1. apply close_list. }
        split.
        * intros m [<-|M].
          { exists i, dt. cbn. destruct (B2 eq_refl) as [Z1 Z2]. auto. }
          destruct (Q2 m M) as (j & d & X & Y & Z). exists j, d. pose proof (Other (m, j) X) as O. cbn [snd] in O. rewrite <- O. cbn. auto.
        * intros m j Ej N. rewrite (Q3 m j). 2: { subst s1. rewrite close_list. auto. }
          2: { intro; apply N; cbn; auto. }
          subst s1. rewrite close_nth. destruct (Nat.eqb_spec (diObj i) (diObj j)) as [Q|]; auto.
          exfalso. apply N. left. exact (inv_inj s _ _ i j I Ei Ej Q).
  Qed.

  Lemma fold_delete : forall l s, inv s -> inv (fold_left (dl_delete closed) l s) /\
    (forall n i, mload (dsList s) n = Some i -> ~ In n l ->
      mload (dsList (fold_left (dl_delete closed) l s)) n = Some i /\
      nth_error (dsObjs (fold_left (dl_delete closed) l s)) (diObj i) = nth_error (dsObjs s) (diObj i)).
  Proof.
    induction l as [|m l IH]; intros s I; cbn [fold_left]; [auto|].
    pose proof (delete_inv closed KC s m I) as I1. destruct (IH _ I1) as [I2 K]. split; auto.
    intros n i E N. destruct (delete_others closed s m I) as [O1 O2].
    assert (Nm : n <> m) by (intros ->; apply N; cbn; auto).
    destruct (K n i) as [K1 K2]. { rewrite O1; auto. } { intro; apply N; cbn; auto. }
    split; auto. rewrite K2. apply (O2 n i); auto.
  Qed.

  Theorem reload_ok : forall now s items, inv s -> Permutation items (Items now s) ->
    (forall n i dt, In (n, i) items -> nth_error (dsObjs s) (diObj i) = Some dt ->
       forall id, In id (sources dt) -> info id <> None) ->
    exists s', ReloadRuns closed info now s items = Ok s' /\ inv s' /\
      forall n i dt, mload (dsList s) n = Some i -> nth_error (dsObjs s) (diObj i) = Some dt ->
        (0 < dN dt \/ (exists id k, In id (sources dt) /\ info id = Some k /\ 0 < k) \/ item_live now i = false) ->
        mload (dsList s') n = Some i /\ nth_error (dsObjs s') (diObj i) = Some dt.
  Proof.
    intros now s items I P R. unfold ReloadRuns.
    assert (L : forall p, In p items -> mload (dsList s) (fst p) = Some (snd p) /\ item_live now (snd p) = true).
    { intros [n i] Q. eapply Permutation_in in Q; [|exact P]. unfold Items in Q. apply filter_In in Q. destruct Q as [Q1 Q2].
      split; auto. apply in_mload; auto. apply I. }
    assert (ND : NoDup (map fst items)).
    { eapply Permutation_NoDup; [symmetry; apply Permutation_map; exact P|]. unfold Items.
      destruct I as [W _]. unfold mwf, mkeys in W. clear - W. revert W. generalize (dsList s) as l.
      induction l as [|[k v] l IH]; cbn; intro W; [constructor|]. inversion W; subst.
      destruct (item_live now v); auto. cbn. constructor; auto. intro Q. apply H1. apply in_map_iff in Q.
      destruct Q as ([k' v'] & <- & Q). apply filter_In in Q. destruct Q as [Q _]. apply (in_map fst) in Q. exact Q. }
    destruct (scan_ok items s I) as (s1 & l & E & I1 & L1 & Q1 & Q2); auto.
    { intros p Q. apply L; auto. } { intros [n i] dt Q. apply (R n i dt Q). }
    rewrite E. cbn [bind]. eexists. split; [reflexivity|]. destruct (fold_delete l s1 I1) as [I2 K]. split; auto.
    intros n i dt Ei Ed H.
    assert (N : ~ In n l).
    { intro Q. destruct (Q1 n Q) as (j & d & X & Y & Z1 & Z2). destruct (L (n, j) X) as [Lj Lv]. cbn in Lj, Lv.
      assert (j = i) by congruence. subst j. assert (d = dt) by congruence. subst d.
      destruct H as [H|[(id & k & H1 & H2 & H3)|H]]; [lia| |congruence].
      specialize (Z2 _ _ H1 H2). lia. }
    rewrite <- L1 in Ei. destruct (K n i Ei N) as [K1 K2]. split; auto. rewrite K2.
    rewrite L1 in Ei. rewrite (Q2 n i Ei N). exact Ed.
  Qed.
End Reload.

(** * Retention *)
Lemma duration_id : forall z, (0 <= z < 9223372036854775808)%Z -> duration z = z.
Proof.
  intros z H. unfold duration. rewrite Z.mod_small by lia. destruct (z <? 9223372036854775808)%Z eqn:E; lia.
Qed.
Lemma retention_ok : forall r, r <= 9223372036 ->
  GetRetention r = if r =? 0 then 1209600000000000%Z else (Z.of_N r * 1000000000)%Z.
Proof.
  intros r H. unfold GetRetention. destruct (r =? 0) eqn:E; [reflexivity|].
  rewrite (duration_id (Z.of_N r)) by lia. apply duration_id. lia.
Qed.

(** * The run lock *)
Definition count (x : runner) (ts : list runner) : nat :=
  length (filter (fun t => match x, t with RChecked, RChecked | RActive, RActive => true | _, _ => false end) ts).

Lemma count_set : forall x ts i t t' ts', nth_error ts i = Some t -> list_set ts i t' = Some ts' ->
  (count x ts' + count x [t] = count x ts + count x [t'])%nat.
Proof.
  intros x. induction ts as [|u ts IH]; intros [|i] t t' ts' N S; cbn in N, S; try discriminate.
  - injection N as <-. injection S as <-. unfold count. cbn [filter].
    destruct (match x, u with RChecked, RChecked | RActive, RActive => true | _, _ => false end);
    destruct (match x, t' with RChecked, RChecked | RActive, RActive => true | _, _ => false end); cbn; lia.
  - destruct (list_set ts i t') as [l|] eqn:E; [|discriminate]. injection S as <-.
    specialize (IH _ _ _ _ N E). unfold count in *. cbn [filter] in *.
    destruct (match x, u with RChecked, RChecked | RActive, RActive => true | _, _ => false end); cbn in *; lia.
Qed.
Lemma count_app : forall x ts us, count x (ts ++ us) = (count x ts + count x us)%nat.
Proof. intros. unfold count. rewrite filter_app, app_length. reflexivity. Qed.
Lemma count_in : forall ts, (count RChecked ts > 0)%nat -> In RChecked ts.
Proof.
  intros ts H. unfold count in H. destruct (filter _ ts) as [|t l] eqn:E; [cbn in H; lia|].
  assert (In t (t :: l)) by (cbn; auto). rewrite <- E in H0. apply filter_In in H0. destruct H0 as [A B].
  destruct t; try discriminate. exact A.
Qed.

(** Runs counts the active calls. *)
Lemma runs_active : forall x y, runner_run x y -> fst x = Z.of_nat (count RActive (snd x)) ->
  fst y = Z.of_nat (count RActive (snd y)).
Proof.
  induction 1 as [x|x y z R IH S]; auto. intro H. specialize (IH H). destruct S; cbn [fst snd] in *.
  - rewrite count_app. cbn. lia.
  - pose proof (count_set RActive _ _ _ _ _ H0 H2) as C. cbn in C. lia.
  - pose proof (count_set RActive _ _ _ _ _ H0 H2) as C. cbn in C. lia.
  - pose proof (count_set RActive _ _ _ _ _ H0 H1) as C. cbn in C. lia.
  - pose proof (count_set RActive _ _ _ _ _ H0 H1) as C. cbn in C. lia.
Qed.

Lemma solo_one : forall x y, solo_run x y ->
  fst x = Z.of_nat (count RActive (snd x)) -> (count RActive (snd x) + count RChecked (snd x) <= 1)%nat ->
  fst y = Z.of_nat (count RActive (snd y)) /\ (count RActive (snd y) + count RChecked (snd y) <= 1)%nat.
Proof.
  induction 1 as [x|x r ts z R IH S Q]; auto. intros H1 H2. specialize (IH H1 H2). cbn [fst snd] in IH. destruct IH as [IH1 IH2].
  destruct (count RChecked ts) as [|k] eqn:Ck.
  - inversion S as [r' ts' E|r' ts' i ts'' N Lt L E|r' ts' i ts'' N Lt L E|r' ts' i ts'' N L E|r' ts' i ts'' N L E]; subst; cbn [fst snd].
    + rewrite !count_app. cbn. lia.
    + pose proof (count_set RActive _ _ _ _ _ N L) as A. pose proof (count_set RChecked _ _ _ _ _ N L) as B. cbn in A, B. lia.
    + pose proof (count_set RActive _ _ _ _ _ N L) as A. pose proof (count_set RChecked _ _ _ _ _ N L) as B. cbn in A, B. lia.
    + pose proof (count_set RChecked _ _ _ _ _ N L) as B. cbn in B. lia.
    + pose proof (count_set RActive _ _ _ _ _ N L) as A. pose proof (count_set RChecked _ _ _ _ _ N L) as B. cbn in A, B. lia.
  - destruct Q as (i & ts' & N & L & ->). { apply count_in. lia. }
    pose proof (count_set RActive _ _ _ _ _ N L) as A. pose proof (count_set RChecked _ _ _ _ _ N L) as B.
    cbn in A, B. cbn [fst snd]. lia.
Qed.
