(** Properties C99, C100 and C101: how datasets end. *)
From Verif.Base Require Import GoBase GoLemmas Assoc Float.
From Verif.Model Require Import Codec Store Data Dataset Json Index DatasetAll.
From Verif.Spec Require Import RegistrySpec HousekeepingSpec.
From Verif.Proof Require Import StoreConcP DatasetP RegistryP FloatLibP DatasetAllP.
From Verif.Props Require Import DatasetProps IndexProps.
From Coq Require Import Lia Permutation.
Open Scope N_scope.

(** C99 A dataset nobody uses goes away after its retention: false.  The node's own
    periodic task renews it in every round: for all histories in which nobody uses
    the dataset, it is there until its full retention after the last round, with
    its data. *)
Lemma unused_step : forall L inc closed name a c m t s e s1, keeps_config closed -> inv s -> inv s1 ->
  holds t s name a -> object s a c m -> unrelated name a e ->
  (forall u, event_time e = Some u -> (u <= t)%Z) ->
  hstep L inc closed s (HOther e) = Ok s1 -> holds t s1 name a /\ object s1 a c m.
Proof.
  intros L inc closed name a c m t s e s1 K I I1 H Ob U T E. cbn [hstep] in E.
  destruct (step_all inc closed K s e I) as (s1' & E' & _ & A & _). rewrite E in E'. injection E' as <-.
  assert (Oth : forall n, n <> name -> others n s s1 -> holds t s1 name a /\ object s1 a c m).
  { intros n N [O1 O2]. apply holds_load in H; auto. destruct H as (i & Ei & <- & Le). split.
    - apply holds_load; auto. exists i. rewrite O1 by auto. auto.
    - destruct Ob as (dt & D1 & D2 & D3). exists dt. rewrite (O2 name i) by auto. auto. }
  destruct e as [now n|now n|now c'|now c'|now n|now n|b f]; cbn [unrelated event_name event_time] in U, T, A.
  1-5: apply (Oth _ (fun Q => U (f_equal Some Q))); apply A; reflexivity.
  - destruct (bytes_dec n name) as [->|Q]; [|apply (Oth n Q); apply A; reflexivity].
    cbn [dstep] in E. pose proof (holds_mono t now s name a (T now eq_refl) H) as G. apply get_holds in G; auto.
    rewrite G in E. injection E as <-. auto.
  - cbn [dstep] in E. destruct Ob as (dt & D1 & D2 & D3).
    destruct (nth_error (dsObjs s) b) as [db|] eqn:Eb; [|injection E as <-; split; auto; exists dt; auto].
    destruct (list_set _ _ _) as [objs|] eqn:S; injection E as <-; [|split; auto; exists dt; auto].
    split; [exact H|]. destruct (Nat.eq_dec b a) as [->|Q].
    + rewrite D1 in Eb. injection Eb as <-. eexists. cbn [dsObjs]. rewrite (nth_list_set _ _ _ _ _ _ S), Nat.eqb_refl.
      split; [reflexivity|]. rewrite D2. split; [reflexivity|]. destruct U as [U|U]; [contradiction|].
      change (dDBMap (set_config (f dt) c)) with (dDBMap (f dt)). rewrite U. auto.
    + exists dt. cbn [dsObjs]. rewrite (nth_list_set _ _ _ _ _ _ S). destruct (Nat.eqb_spec b a); [contradiction|]. auto.
Qed.

Lemma hstep_inv : forall L inc closed s e s1, keeps_config closed -> inv s ->
  (match e with HOther _ => True | _ => regular s e end) -> hstep L inc closed s e = Ok s1 -> inv s1.
Proof.
  intros L inc closed s e s1 K I Rg E. destruct e as [now names|now names|now info items|e]; cbn [hstep regular] in *.
  - destruct (listed now s I) as [ND LN].
    destruct (save_visits L inc now names s I) as (s' & text & X & Y & Z).
    + eapply Permutation_NoDup; [symmetry; exact Rg|auto].
    + intros k Hk. apply LN. eapply Permutation_in; eauto.
    + rewrite X in E. injection E as <-. auto.
  - destruct (listed now s I) as [ND LN].
    destruct (list_visits inc now names s I) as (s' & text & X & Y & Z).
    + eapply Permutation_NoDup; [symmetry; exact Rg|auto].
    + intros k Hk. apply LN. eapply Permutation_in; eauto.
    + rewrite X in E. injection E as <-. auto.
  - destruct Rg as [P A]. eapply (reload_keeps closed info now s items s1 [] 0%nat (InitData (NewPreData (GetDefaultConfig [])))); eauto.
  - destruct (step_all inc closed K s e I) as (s1' & E' & I1 & _). rewrite E in E'. injection E' as <-. auto.
Qed.

Theorem C99_renewed_partial : forall L inc closed name a c m R t s es t' s', keeps_config closed -> extends inc ->
  reachable inc closed s -> holds (t + R)%Z s name a -> object s a c m ->
  GetRetention (cRetention c) = R -> (0 < R)%Z ->
  unused L inc closed name a R t s es t' s' ->
  forall u, (u <= t' + R)%Z -> holds u s' name a /\ object s' a c m.
Proof.
  intros L inc closed name a c m R t s es t' s' K X Rc H Ob RR R0 U.
  pose proof (reachable_inv inc closed K s Rc) as I. clear Rc.
  assert (G : holds (t' + R)%Z s' name a /\ object s' a c m).
  { induction U as [t s|t s now names s1 es t' s' B P E _ IH|t s now names s1 es t' s' B P E _ IH
      |t s now info items dt s1 es t' s' P An D Ac E _ IH|t s e s1 es t' s' Un T E _ IH]; auto.
    - assert (I1 : inv s1) by (eapply hstep_inv; [exact K|exact I| |exact E]; exact P).
      destruct (listed now s I) as [ND LN]. cbn [hstep] in E.
      destruct (save_visits L inc now names s I) as (s2 & text & E1 & I2 & V).
      { eapply Permutation_NoDup; [symmetry; exact P|auto]. } { intros k Hk. apply LN. eapply Permutation_in; eauto. }
      rewrite E1 in E. cbn [bind fst] in E. injection E as <-.
      destruct (visit_prolongs inc now names s s2 name a c m R) as [H1 O1]; auto. eapply holds_mono; eauto.
    - assert (I1 : inv s1) by (eapply hstep_inv; [exact K|exact I| |exact E]; exact P).
      destruct (listed now s I) as [ND LN]. cbn [hstep] in E.
      destruct (list_visits inc now names s I) as (s2 & text & E1 & I2 & V & _).
      { eapply Permutation_NoDup; [symmetry; exact P|auto]. } { intros k Hk. apply LN. eapply Permutation_in; eauto. }
      rewrite E1 in E. cbn [bind fst] in E. injection E as <-.
      destruct (visit_prolongs inc now names s s2 name a c m R) as [H1 O1]; auto. eapply holds_mono; eauto.
    - cbn [hstep] in E. destruct (reload_keeps closed info now s items s1 name a dt K I P An E) as [I1 Q].
      destruct (Q D Ac _ H) as [Q1 Q2]. apply IH; auto. destruct Ob as (d & D1 & D2 & D3). exists d.
      rewrite D in D1. injection D1 as <-. auto.
    - assert (I1 : inv s1) by (eapply hstep_inv; [exact K|exact I| |exact E]; exact Logic.I).
      destruct (unused_step L inc closed name a c m (t + R)%Z s e s1) as [H1 O1]; auto. }
  intros u Hu. destruct G as [G1 G2]. split; auto. eapply holds_mono; eauto.
Qed.
Print Assumptions C99_renewed_partial.

(** The periodic task alone: for any time there is a history of rounds one minute
    apart (node/node.go 322-330), without any call, after which the dataset is
    still there. *)
Definition minute : Z := 60000000000.
Definition is_round (e : hevent) : Prop := exists now names, e = HSave now names.
Fixpoint hrun (L : floatlib) (inc : Z -> Z -> Z -> Z) (closed : Data -> Data) (s : dstate) (es : list hevent) : res dstate :=
  match es with
  | [] => Ok s
  | e :: es' => s' <- hstep L inc closed s e ;; hrun L inc closed s' es'
  end.
Definition day : DataConfig := mkDataConfig (bs "a") 1 1000 f0_4 false 1 true 86400.

Lemma rounds : forall L inc closed c a k t s, keeps_config closed -> extends inc -> inv s ->
  (minute <= GetRetention (cRetention c))%Z ->
  holds (t + GetRetention (cRetention c))%Z s (cName c) a -> object s a c [] ->
  exists es s', Forall is_round es /\ length es = k /\ hrun L inc closed s es = Ok s' /\
    holds (t + Z.of_nat k * minute + GetRetention (cRetention c))%Z s' (cName c) a.
Proof.
  intros L inc closed c a k. induction k as [|k IH]; intros t s K X I M H Ob.
  - exists [], s. split; [constructor|]. split; auto. split; auto. replace (t + Z.of_nat 0 * minute)%Z with t by lia. auto.
  - destruct (listed (t + minute) s I) as [ND LN].
    destruct (save_visits L inc (t + minute) (ListNames (t + minute) s) s I ND) as (s1 & text & E & I1 & V).
    { intros k' Hk. apply LN. auto. }
    unfold minute in *.
    destruct (visit_prolongs inc (t + 60000000000) _ s s1 (cName c) a c [] (GetRetention (cRetention c)) X I I1 (Permutation_refl _) V) as [H1 O1]; auto; try lia.
    { eapply holds_mono; [|exact H]. lia. }
    destruct (IH (t + 60000000000)%Z s1 K X I1 M H1 O1) as (es & s' & A & B & C & D).
    exists (HSave (t + 60000000000) (ListNames (t + 60000000000) s) :: es), s'. split; [constructor; auto; eexists; eauto|].
    split; [cbn; auto|]. split.
    + cbn [hrun hstep]. rewrite E. cbn [bind fst]. exact C.
    + eapply holds_mono; [|exact D]. lia.
Qed.

Theorem C99_outlives_refuted : exists c s, reachable inc_now close_it s /\
  holds 0 s (cName c) 0 /\ (forall u a, holds u s (cName c) a -> (u <= 86400 * 1000000000)%Z) /\
  forall L T, exists es s', Forall is_round es /\ hrun L inc_now close_it s es = Ok s' /\ holds T s' (cName c) 0.
Proof.
  set (s := mkDS [InitData (NewPreData day)] [(bs "a", mkDI 0 86400000000000)]).
  assert (Rc : reachable inc_now close_it s). { exists [EvCreate 0 day]. vm_compute. reflexivity. }
  assert (K : keeps_config close_it) by (intro; reflexivity).
  pose proof (reachable_inv inc_now close_it K s Rc) as I.
  exists day, s. split; auto. split.
  { exists (mkDI 0 86400000000000). split; [left; reflexivity|]. split; auto. right. cbn. lia. }
  split.
  { intros u a (i & [H|[]] & _ & Le). injection H as <-. cbn in Le. lia. }
  intros L T. assert (RR : GetRetention (cRetention day) = 86400000000000%Z) by (vm_compute; reflexivity).
  destruct (rounds L inc_now close_it day 0%nat (Z.to_nat T) 0 s K) as (es & s' & A & B & C & D).
  - intros now d old _ D. unfold inc_now. lia.
  - exact I.
  - rewrite RR. unfold minute. lia.
  - rewrite RR. exists (mkDI 0 86400000000000). split; [left; reflexivity|]. split; auto. right. cbn. lia.
  - exists (InitData (NewPreData day)). auto.
  - exists es, s'. split; auto. split; auto. eapply holds_mono; [|exact D]. rewrite RR. unfold minute. lia.
Qed.
Print Assumptions C99_outlives_refuted.

(** Without the periodic task, calls about other datasets change nothing: the
    dataset is there exactly as long as before. *)
Theorem C99_idle_partial : forall inc closed name s es s', keeps_config closed -> reachable inc closed s ->
  drun inc closed s es = Ok s' -> Forall (fun e => event_name e <> Some name) es ->
  forall u, (exists a, holds u s' name a) <-> (exists a, holds u s name a).
Proof.
  intros inc closed name s es s' K Rc E F u. pose proof (reachable_inv inc closed K s Rc) as I. clear Rc.
  assert (G : inv s' /\ mload (dsList s') name = mload (dsList s) name).
  { revert s I E. induction F as [|e es N F IH]; cbn [drun]; intros s I E; [injection E as <-; auto|].
    destruct (step_all inc closed K s e I) as (s1 & E1 & I1 & A & B). rewrite E1 in E. cbn [bind] in E.
    destruct (IH s1 I1 E) as [I2 M]. split; auto. rewrite M. destruct (event_name e) as [n|] eqn:En.
    - destruct (A n eq_refl) as [[O _] _]. apply O. congruence.
    - destruct e as [| | | | | |b f]; try discriminate. destruct (B b f eq_refl) as (Ls & _). rewrite Ls. auto. }
  destruct G as [I' M]. split; intros [a H]; exists a; apply holds_load in H; auto; apply holds_load; auto;
    [rewrite <- M|rewrite M]; auto.
Qed.
Print Assumptions C99_idle_partial.

(** A day later, with one round in between, the dataset is there although its
    retention is over; with another name used meanwhile. *)
Definition kept_state : dstate := mkDS [InitData (NewPreData day)] [(bs "a", mkDI 0 86400000000000)].
Definition noon : Z := 43200000000000.
Example C99_instance : exists s1 s2, hstep simple_lib inc_now close_it kept_state (HSave noon [bs "a"]) = Ok s1 /\
  hstep simple_lib inc_now close_it s1 (HOther (EvGet noon (bs "b"))) = Ok s2 /\
  unused simple_lib inc_now close_it (bs "a") 0 86400000000000 0 kept_state
    [HSave noon [bs "a"]; HOther (EvGet noon (bs "b"))] noon s2 /\
  holds 86400000000001 s2 (bs "a") 0 /\ ~ holds 86400000000001 kept_state (bs "a") 0.
Proof.
  eexists. eexists. split; [vm_compute; reflexivity|]. split; [vm_compute; reflexivity|]. split; [|split].
  - eapply un_save; [vm_compute; discriminate|vm_compute; apply Permutation_refl|vm_compute; reflexivity|].
    eapply un_other; [vm_compute; discriminate| |vm_compute; reflexivity|apply un_nil].
    cbn. intros u Q. injection Q as <-. vm_compute. discriminate.
  - eexists. vm_compute. split; [right; left; reflexivity|]. split; auto. right. discriminate.
  - intros (i & [H|[]] & _ & Le). injection H as <-. cbn in Le. lia.
Qed.

(** C100 A dataset that ends is closed: false.  A dataset that has expired and is
    asked for before it has been removed is replaced by a new one; the old object,
    with its data, is never closed. *)
Definition unreferenced (s : dstate) (a : nat) : Prop := forall n i, mload (dsList s) n = Some i -> diObj i <> a.

Lemma close_other : forall closed s b a, b <> a ->
  nth_error (dsObjs (close_obj closed s b)) a = nth_error (dsObjs s) a.
Proof. intros. rewrite close_nth. destruct (Nat.eqb_spec b a); congruence. Qed.
Lemma delete_unref : forall closed s n a, unreferenced s a ->
  unreferenced (dl_delete closed s n) a /\ nth_error (dsObjs (dl_delete closed s n)) a = nth_error (dsObjs s) a.
Proof.
  intros closed s n a U. unfold dl_delete. destruct (mload (dsList s) n) as [i|] eqn:E; auto. cbn [dsObjs]. split.
  - intros m j. cbn [dsList]. rewrite close_list, mload_mdelete. destruct (bytes_eqb n m); [discriminate|]. apply U.
  - apply close_other. eapply U; eauto.
Qed.
Lemma deletes_unref : forall closed l s a, unreferenced s a ->
  unreferenced (fold_left (dl_delete closed) l s) a /\
  nth_error (dsObjs (fold_left (dl_delete closed) l s)) a = nth_error (dsObjs s) a.
Proof.
  intros closed l. induction l as [|n l IH]; cbn [fold_left]; intros s a U; auto.
  destruct (delete_unref closed s n a U) as [U1 E1]. destruct (IH _ _ U1) as [U2 E2]. split; auto. congruence.
Qed.
Lemma scan_unref : forall closed info a items s s' l, (forall n i, In (n, i) items -> diObj i <> a) ->
  reload_scan closed info s items = Ok (s', l) -> dsList s' = dsList s /\ nth_error (dsObjs s') a = nth_error (dsObjs s) a.
Proof.
  intros closed info a. induction items as [|[n i] items IH]; cbn [reload_scan]; intros s s' l N E.
  - injection E as <- <-. auto.
  - destruct (nth_error (dsObjs s) (diObj i)) as [dt|]; [|discriminate].
    destruct (CheckIfActive info dt) as [b| |]; try discriminate. cbn [bind] in E. destruct b.
    + eapply IH; [|exact E]. intros m j H. eapply N. right; eauto.
    + destruct (reload_scan closed info (close_obj closed s (diObj i)) items) as [[s1 l1]| |] eqn:E1; try discriminate.
      cbn [bind] in E. injection E as <- <-. apply IH in E1; [|intros m j H; eapply N; right; eauto].
      destruct E1 as [E1 E2]. rewrite E1, E2, close_list. split; auto. apply close_other. eapply N. left. reflexivity.
Qed.
Lemma visited_unref : forall inc now names s s' a, inv s -> visited inc now names s s' -> unreferenced s a ->
  unreferenced s' a /\ nth_error (dsObjs s') a = nth_error (dsObjs s) a.
Proof.
  intros inc now names s s' a [_ I] (V1 & V2 & V3 & V4) U. split; [|rewrite V1; auto]. intros n i E.
  destruct (mload (dsList s) n) as [j|] eqn:Ej; [|rewrite V4 in E by auto; discriminate].
  destruct (in_dec bytes_dec n names) as [In_|Out].
  - destruct (I _ _ Ej) as (dt & c & A & B & C). rewrite (V3 n j dt c In_ Ej A B) in E. injection E as <-. cbn.
    eapply U; eauto.
  - rewrite V2 in E by auto. eapply U; eauto.
Qed.
Lemma touched_unref : forall n s s' a, touched n s s' -> unreferenced s a ->
  unreferenced s' a /\ nth_error (dsObjs s') a = nth_error (dsObjs s) a.
Proof.
  intros n s s' a (T1 & T2 & T3 & T4) U. split; [|rewrite T1; auto]. intros m i E.
  destruct (bytes_dec m n) as [->|Q]; [|rewrite T2 in E by auto; eapply U; eauto].
  destruct (mload (dsList s) n) as [j|] eqn:Ej; [|rewrite T4 in E by auto; discriminate].
  destruct (T3 j eq_refl) as [e Ee]. rewrite Ee in E. injection E as <-. cbn. eapply U; eauto.
Qed.
Lemma added_unref : forall now s c a, (a < length (dsObjs s))%nat -> unreferenced s a ->
  unreferenced (added now s c) a /\ nth_error (dsObjs (added now s c)) a = nth_error (dsObjs s) a.
Proof.
  intros now s c a Hl U. split; unfold added; cbn [dsObjs]; [|apply nth_error_app1; auto]. intros n i. cbn [dsList].
  destruct (bytes_dec (cName c) n) as [<-|Q].
  - rewrite mload_mstore_same. intro E. injection E as <-. cbn. lia.
  - rewrite mload_mstore_other by auto. apply U.
Qed.
Lemma created_unref : forall now s c s' a, created now s c s' -> (a < length (dsObjs s))%nat -> unreferenced s a ->
  unreferenced s' a /\ nth_error (dsObjs s') a = nth_error (dsObjs s) a.
Proof.
  intros now s c s' a C Hl U. unfold created in C. destruct (dl_get now s (cName c)) as [b|] eqn:G.
  - destruct C as (C1 & _ & C3). destruct (get_some _ _ _ _ G) as (i & Ei & <- & _). split.
    + intros n j. rewrite C1. apply U.
    + apply C3. intros ->. eapply U; eauto.
  - subst. apply added_unref; auto.
Qed.

Lemma nth_length : forall (s s' : dstate) a, (a < length (dsObjs s))%nat ->
  nth_error (dsObjs s') a = nth_error (dsObjs s) a -> (a < length (dsObjs s'))%nat.
Proof. intros s s' a H E. apply nth_error_Some. rewrite E. apply nth_error_Some. auto. Qed.

(** Any event but an operation on the object itself. *)
Lemma unref_step : forall L inc closed s e s1 a, keeps_config closed -> inv s ->
  (match e with HOther (EvData b _) => b <> a | HOther _ => True | _ => regular s e end) ->
  hstep L inc closed s e = Ok s1 -> (a < length (dsObjs s))%nat -> unreferenced s a ->
  unreferenced s1 a /\ nth_error (dsObjs s1) a = nth_error (dsObjs s) a.
Proof.
  intros L inc closed s e s1 a K I Rg E Hl U. destruct e as [now names|now names|now info items|e]; cbn [hstep regular] in *.
  - destruct (listed now s I) as [ND LN].
    destruct (save_visits L inc now names s I) as (s' & text & X & Y & Z).
    + eapply Permutation_NoDup; [symmetry; exact Rg|auto].
    + intros k Hk. apply LN. eapply Permutation_in; eauto.
    + rewrite X in E. injection E as <-. eapply visited_unref; eauto.
  - destruct (listed now s I) as [ND LN].
    destruct (list_visits inc now names s I) as (s' & text & X & Y & Z & _).
    + eapply Permutation_NoDup; [symmetry; exact Rg|auto].
    + intros k Hk. apply LN. eapply Permutation_in; eauto.
    + rewrite X in E. injection E as <-. eapply visited_unref; eauto.
  - destruct Rg as [P _]. unfold ReloadRuns in E.
    destruct (reload_scan closed info s items) as [[s2 l]| |] eqn:Sc; try discriminate. cbn [bind] in E. injection E as <-.
    destruct (scan_unref closed info a items s s2 l) as [Q1 Q2]; auto.
    { intros n i In_. eapply Permutation_in in In_; [|exact P]. unfold Items in In_. apply filter_In in In_.
      eapply U. apply in_mload; [apply I|]. apply In_. }
    destruct (deletes_unref closed l s2 a) as [Q3 Q4]. { intros n i. rewrite Q1. apply U. }
    split; auto. congruence.
  - destruct e as [now n|now n|now c|now c|now n|now n|b f]; cbn [dstep] in E.
    + destruct (get_ok inc deep now s n I) as (s' & b & E1 & I' & H); [unfold deep; lia|]. rewrite E1 in E. injection E as <-.
      destruct H as [[G T]|(G & -> & T)]; [eapply touched_unref; eauto|].
      destruct (added_unref now s (GetDefaultConfig n) a Hl U) as [A1 A2].
      destruct (touched_unref _ _ _ _ T A1) as [A3 A4]. split; auto. congruence.
    + destruct (getnoop_ok inc deep now s n I) as (s' & b & E1 & I' & H); [unfold deep; lia|]. rewrite E1 in E. injection E as <-.
      destruct H as [[G T]|(G & -> & T)]; [eapply touched_unref; eauto|].
      destruct (added_unref now s (GetDefaultConfig n) a Hl U) as [A1 A2].
      destruct (touched_unref _ _ _ _ T A1) as [A3 A4]. split; auto. congruence.
    + destruct (create_ok inc deep now s c I) as (s' & E1 & C); [unfold deep; lia|]. rewrite E1 in E. injection E as <-.
      eapply created_unref; eauto.
    + destruct (getorcreate_ok inc deep now s c I) as (s2 & s' & b & E1 & I1 & I' & C & G & T); [unfold deep; lia|].
      rewrite E1 in E. injection E as <-. destruct (created_unref _ _ _ _ a C Hl U) as [A1 A2].
      destruct (touched_unref _ _ _ _ T A1) as [A3 A4]. split; auto. congruence.
    + injection E as <-. unfold Delete. destruct (dl_get now s n) as [b|] eqn:G; cbn [fst]; auto.
      destruct (get_some _ _ _ _ G) as (i & Ei & <- & _).
      destruct (delete_unref closed (close_obj closed s (diObj i)) n a) as [A1 A2].
      { intros m j. rewrite close_list. apply U. }
      split; auto. rewrite A2. apply close_other. eapply U; eauto.
    + destruct (dl_get now s n); injection E as <-; auto. apply delete_unref; auto.
    + destruct (nth_error (dsObjs s) b) as [dt|]; [|injection E as <-; auto].
      destruct (list_set _ _ _) as [objs|] eqn:S; injection E as <-; auto. split; [exact U|]. cbn [dsObjs].
      rewrite (nth_list_set _ _ _ _ _ _ S). destruct (Nat.eqb_spec b a); congruence.
Qed.

(** Once no name leads to an object, no event of the registry ever reaches it
    again: it is not closed. *)
Inductive ignored (L : floatlib) (inc : Z -> Z -> Z -> Z) (closed : Data -> Data) (a : nat)
  : dstate -> list hevent -> dstate -> Prop :=
| ig_nil : forall s, ignored L inc closed a s [] s
| ig_cons : forall s e s1 es s2,
    (match e with HOther (EvData b _) => b <> a | HOther _ => True | _ => regular s e end) ->
    hstep L inc closed s e = Ok s1 -> ignored L inc closed a s1 es s2 -> ignored L inc closed a s (e :: es) s2.

Lemma orphan_forever : forall L inc closed a m s es s', keeps_config closed -> inv s -> orphan s a m ->
  ignored L inc closed a s es s' -> orphan s' a m.
Proof.
  intros L inc closed a m s es s' K I O H. revert I O. induction H as [s|s e s1 es s2 Rg E _ IH]; auto. intros I O.
  assert (I1 : inv s1). { eapply hstep_inv; eauto. destruct e; auto. }
  apply IH; auto. destruct O as (dt & D1 & D2 & D3 & D4).
  destruct (unref_step L inc closed s e s1 a K I Rg E) as [U Q].
  - apply nth_error_Some. congruence.
  - intros n i Ei. eapply D4. apply mload_in. eauto.
  - exists dt. rewrite Q. repeat (split; [assumption|]). intros n i In_. eapply U. apply in_mload; eauto. apply I1.
Qed.

Definition second_conf : DataConfig := mkDataConfig (bs "a") 1 1000 f0_4 false 1 true 1.
Definition datum0 : Datum := mkDatum None (Some (mkValue 1 [7])).
Definition put (d : Data) : Data := set_map d [([1], mkEntry 0 datum0)].
Definition replaced_events : list devent :=
  [EvCreate 0 second_conf; EvData 0 put; EvGet 5000000000 (bs "a")].
Definition replaced : dstate :=
  match drun inc_now close_it (mkDS [] []) replaced_events with Ok s => s | _ => mkDS [] [] end.

(** One second of retention, a datum, and a call five seconds later: the datum is in
    an object that still counts as alive and that nothing ever closes. *)
Theorem C100_replaced_refuted : exists es s a m, drun inc_now close_it (mkDS [] []) es = Ok s /\ m <> [] /\ orphan s a m /\
  forall L es' s', ignored L inc_now close_it a s es' s' -> orphan s' a m.
Proof.
  exists replaced_events, replaced, 0%nat, [([1], mkEntry 0 datum0)].
  assert (E : drun inc_now close_it (mkDS [] []) replaced_events = Ok replaced) by (vm_compute; reflexivity).
  assert (O : orphan replaced 0 [([1], mkEntry 0 datum0)]).
  { eexists. split; [vm_compute; reflexivity|]. split; [reflexivity|]. split; [reflexivity|].
    intros n i H. vm_compute in H. destruct H as [H|[]]. injection H as _ <-. discriminate. }
  split; auto. split; [discriminate|]. split; auto. intros L es' s' H.
  assert (K : keeps_config close_it) by (intro; reflexivity).
  eapply orphan_forever; eauto. apply (reachable_inv inc_now close_it K). exists replaced_events. exact E.
Qed.
Print Assumptions C100_replaced_refuted.

(** If no expired dataset is asked for again before it has been removed, every object
    that has not been closed is registered under a name. *)
Definition covered (s : dstate) : Prop := forall a dt, nth_error (dsObjs s) a = Some dt -> dAlive dt = true ->
  exists n i, mload (dsList s) n = Some i /\ diObj i = a.

Section Covered.
Variable closed : Data -> Data.
Hypothesis CL : forall d, dAlive (closed d) = false.

Lemma close_cov : forall s b, covered s -> covered (close_obj closed s b).
Proof.
  intros s b C a dt E A. rewrite close_list. rewrite close_nth in E. destruct (Nat.eqb b a); [|eauto].
  destruct (nth_error (dsObjs s) b); [|discriminate]. injection E as <-. rewrite CL in A. discriminate.
Qed.
Lemma delete_cov : forall s n, covered s -> covered (dl_delete closed s n).
Proof.
  intros s n C. unfold dl_delete. destruct (mload (dsList s) n) as [i|] eqn:Ei; auto. intros a dt E A. cbn [dsObjs dsList] in *.
  destruct (close_cov s (diObj i) C a dt E A) as (m & j & Ej & Oj). rewrite close_list in *. exists m, j. split; auto.
  rewrite mload_mdelete_other; auto. intros <-. rewrite Ei in Ej. injection Ej as <-.
  rewrite close_nth, Oj, Nat.eqb_refl in E. destruct (nth_error (dsObjs s) a); [|discriminate]. injection E as <-.
  rewrite CL in A. discriminate.
Qed.
Lemma deletes_cov : forall l s, covered s -> covered (fold_left (dl_delete closed) l s).
Proof. induction l; cbn [fold_left]; intros s C; auto. apply IHl, delete_cov, C. Qed.
Lemma scan_cov : forall info items s s' l, covered s -> reload_scan closed info s items = Ok (s', l) -> covered s'.
Proof.
  intros info. induction items as [|[n i] items IH]; cbn [reload_scan]; intros s s' l C E.
  - injection E as <- <-. auto.
  - destruct (nth_error (dsObjs s) (diObj i)) as [dt|]; [|discriminate].
    destruct (CheckIfActive info dt) as [b| |]; try discriminate. cbn [bind] in E. destruct b; [eauto|].
    destruct (reload_scan closed info (close_obj closed s (diObj i)) items) as [[s1 l1]| |] eqn:E1; try discriminate.
    cbn [bind] in E. injection E as <- <-. eapply IH; [|exact E1]. apply close_cov, C.
Qed.
Lemma visited_cov : forall inc now names s s', inv s -> visited inc now names s s' -> covered s -> covered s'.
Proof.
  intros inc now names s s' [_ I] (V1 & V2 & V3 & _) C a dt E A. rewrite V1 in E. destruct (C a dt E A) as (n & i & Ei & <-).
  destruct (in_dec bytes_dec n names) as [In_|Out].
  - destruct (I _ _ Ei) as (d & c & X & Y & _). rewrite X in E. injection E as <-.
    eexists. eexists. split; [eapply V3; eauto|]. reflexivity.
  - exists n, i. rewrite V2; auto.
Qed.
Lemma touched_cov : forall n s s', touched n s s' -> covered s -> covered s'.
Proof.
  intros n s s' (T1 & T2 & T3 & _) C a dt E A. rewrite T1 in E. destruct (C a dt E A) as (m & i & Ei & <-).
  destruct (bytes_dec m n) as [->|Q].
  - destruct (T3 i Ei) as [e Ee]. eexists. eexists. split; [exact Ee|]. reflexivity.
  - exists m, i. rewrite T2; auto.
Qed.
Lemma added_cov : forall now s c, mload (dsList s) (cName c) = None -> covered s -> covered (added now s c).
Proof.
  intros now s c N C a dt E A. unfold added in *. cbn [dsObjs dsList] in *. destruct (Nat.lt_ge_cases a (length (dsObjs s))) as [H|H].
  - rewrite nth_error_app1 in E by auto. destruct (C a dt E A) as (n & i & Ei & <-). exists n, i. split; auto.
    rewrite mload_mstore_other; auto. intros <-. congruence.
  - exists (cName c). eexists. rewrite mload_mstore_same. split; [reflexivity|]. cbn.
    assert (a < length (dsObjs s ++ [InitData (NewPreData c)]))%nat by (apply nth_error_Some; congruence).
    rewrite app_length in *. cbn in *. lia.
Qed.
Lemma created_cov : forall now s c s', inv s -> created now s c s' ->
  (dl_get now s (cName c) = None -> mload (dsList s) (cName c) = None) -> covered s -> covered s'.
Proof.
  intros now s c s' [_ I] C N Cv. unfold created in C. destruct (dl_get now s (cName c)) as [b|] eqn:G.
  2: { subst. apply added_cov; auto. }
  destruct C as (C1 & C2 & C3). intros a dt E A. rewrite C1. destruct (Nat.eq_dec a b) as [->|Q].
  - destruct (get_some _ _ _ _ G) as (i & Ei & <- & _). eauto.
  - rewrite C3 in E by auto. eauto.
Qed.

Lemma absent : forall t s n, inv s -> (exists a, holds t s n a) \/ ~ In n (map fst (dsList s)) ->
  dl_get t s n = None -> mload (dsList s) n = None.
Proof.
  intros t s n I [[a H]|N] G.
  - apply get_holds in H; auto. congruence.
  - destruct (mload (dsList s) n) as [i|] eqn:E; auto. exfalso. apply N. apply mload_in in E. apply (in_map fst) in E. exact E.
Qed.

Lemma covered_step : forall L inc s e s1, inv s -> regular s e ->
  hstep L inc closed s e = Ok s1 -> covered s -> covered s1.
Proof.
  intros L inc s e s1 I Rg E C. destruct e as [now names|now names|now info items|e]; cbn [hstep regular] in *.
  - destruct (listed now s I) as [ND LN].
    destruct (save_visits L inc now names s I) as (s' & text & X & Y & Z).
    + eapply Permutation_NoDup; [symmetry; exact Rg|auto].
    + intros k Hk. apply LN. eapply Permutation_in; eauto.
    + rewrite X in E. injection E as <-. eapply visited_cov; [exact I|exact Z|exact C].
  - destruct (listed now s I) as [ND LN].
    destruct (list_visits inc now names s I) as (s' & text & X & Y & Z & _).
    + eapply Permutation_NoDup; [symmetry; exact Rg|auto].
    + intros k Hk. apply LN. eapply Permutation_in; eauto.
    + rewrite X in E. injection E as <-. eapply visited_cov; [exact I|exact Z|exact C].
  - unfold ReloadRuns in E. destruct (reload_scan closed info s items) as [[s2 l]| |] eqn:Sc; try discriminate.
    cbn [bind] in E. injection E as <-. apply deletes_cov. eapply scan_cov; eauto.
  - destruct e as [now n|now n|now c|now c|now n|now n|b f]; cbn [dstep timely] in *.
    + destruct (get_ok inc deep now s n I) as (s' & b & E1 & I' & H); [unfold deep; lia|]. rewrite E1 in E. injection E as <-.
      destruct H as [[G T]|(G & -> & T)]; [eapply touched_cov; eauto|].
      eapply touched_cov; [exact T|]. apply added_cov; auto. eapply absent; eauto.
    + destruct (getnoop_ok inc deep now s n I) as (s' & b & E1 & I' & H); [unfold deep; lia|]. rewrite E1 in E. injection E as <-.
      destruct H as [[G T]|(G & -> & T)]; [eapply touched_cov; eauto|].
      eapply touched_cov; [exact T|]. apply added_cov; auto. eapply absent; eauto.
    + destruct (create_ok inc deep now s c I) as (s' & E1 & Cr); [unfold deep; lia|]. rewrite E1 in E. injection E as <-.
      eapply created_cov; [exact I|exact Cr| |exact C]; eapply absent; eauto.
    + destruct (getorcreate_ok inc deep now s c I) as (s2 & s' & b & E1 & I1 & I' & Cr & G & T); [unfold deep; lia|].
      rewrite E1 in E. injection E as <-. eapply touched_cov; [exact T|]. eapply created_cov; [exact I|exact Cr| |exact C]; eapply absent; eauto.
    + injection E as <-. unfold Delete. destruct (dl_get now s n) as [b|] eqn:G; cbn [fst]; auto.
      apply delete_cov, close_cov, C.
    + destruct (dl_get now s n); injection E as <-; auto. apply delete_cov, C.
    + destruct (nth_error (dsObjs s) b) as [dt|] eqn:Eb; [|injection E as <-; auto].
      destruct (list_set _ _ _) as [objs|] eqn:S; injection E as <-; auto. intros a d E A. cbn [dsObjs dsList] in *.
      rewrite (nth_list_set _ _ _ _ _ _ S) in E. destruct (Nat.eqb_spec b a) as [->|Q]; [|eauto]. injection E as <-.
      apply (C a dt Eb). destruct (dAlive dt) eqn:Al; auto. rewrite <- (Rg dt Al). rewrite <- A.
      destruct (dConfig dt); reflexivity.
Qed.
End Covered.

Theorem C100_closed_partial : forall L inc closed es s, keeps_config closed -> (forall d, dAlive (closed d) = false) ->
  tidy L inc closed (mkDS [] []) es s ->
  forall a dt, nth_error (dsObjs s) a = Some dt -> (forall n i, In (n, i) (dsList s) -> diObj i <> a) -> dAlive dt = false.
Proof.
  intros L inc closed es s K CL T.
  assert (G : inv s /\ covered s).
  { assert (I : inv (mkDS [] [])). { split; [constructor|]. cbn. discriminate. }
    assert (C : covered (mkDS [] [])). { intros [|a] dt E; discriminate. }
    revert I C. generalize dependent T. generalize (mkDS [] []) as s0. intros s0 T.
    induction T as [|s0 e s1 es s2 Rg E _ IH]; auto. intros I C. apply IH.
    - eapply hstep_inv; eauto. destruct e; auto.
    - eapply covered_step; eauto. }
  destruct G as [I C]. intros a dt E N. destruct (dAlive dt) eqn:A; auto. exfalso.
  destruct (C a dt E A) as (n & i & Ei & Q). eapply N; [|exact Q]. apply mload_in. exact Ei.
Qed.
Print Assumptions C100_closed_partial.

(** Creation, an insert, the removal after the expiration and a second dataset. *)
Example C100_instance : exists s, tidy simple_lib inc_now close_it (mkDS [] [])
    [HOther (EvCreate 0 second_conf); HOther (EvData 0 put); HOther (EvExpire 5000000000 (bs "a"));
     HOther (EvGet 6000000000 (bs "a")); HSave 7000000000 [bs "a"]] s /\
  (forall n i, In (n, i) (dsList s) -> diObj i <> 0%nat) /\ length (dsObjs s) = 2%nat.
Proof.
  eexists. split; [|split].
  - eapply td_cons; [right; cbn; tauto|vm_compute; reflexivity|].
    eapply td_cons; [intros d H; exact H|vm_compute; reflexivity|].
    eapply td_cons; [exact Logic.I|vm_compute; reflexivity|].
    eapply td_cons; [right; cbn; tauto|vm_compute; reflexivity|].
    eapply td_cons; [vm_compute; apply Permutation_refl|vm_compute; reflexivity|]. apply td_nil.
  - intros n i H. destruct H as [H|[]]. injection H as _ <-. discriminate.
  - reflexivity.
Qed.

(** C101 Shutting a node down closes every dataset it has, once, and nothing else. *)
Lemma close_each_ok : forall inc closed now names s, keeps_config closed -> inv s -> NoDup names ->
  (forall k, In k names -> exists a, dl_get now s k = Some a) ->
  exists s', close_each inc closed now s names = Ok s' /\
    (forall n i dt, mload (dsList s) n = Some i -> In n names -> nth_error (dsObjs s) (diObj i) = Some dt ->
       nth_error (dsObjs s') (diObj i) = Some (closed dt)) /\
    (forall a, (forall n i, In n names -> mload (dsList s) n = Some i -> diObj i <> a) ->
       nth_error (dsObjs s') a = nth_error (dsObjs s) a).
Proof.
  intros inc closed now. induction names as [|k names IH]; intros s K I ND H; cbn [close_each].
  - exists s. split; auto. split; auto. intros n i dt _ [].
  - inversion ND as [|? ? N1 N2]; subst. destruct (H k) as [a G]; [left; auto|].
    destruct (get_ok inc deep now s k I) as (s1 & a' & E & I1 & [(G' & T)|(G' & _)]); [unfold deep; lia| |congruence].
    rewrite G in G'. injection G' as <-. rewrite E. cbn [bind]. destruct T as (T1 & T2 & T3 & _).
    destruct (get_some _ _ _ _ G) as (i & Ei & <- & _).
    assert (Mo : forall m, In m names -> mload (dsList (close_obj closed s1 (diObj i))) m = mload (dsList s) m).
    { intros m Hm. rewrite close_list. apply T2. intros ->. contradiction. }
    destruct (IH (close_obj closed s1 (diObj i)) K) as (s' & X1 & X2 & X3); auto.
    { apply close_inv; auto. }
    { intros m Hm. erewrite dl_eq by (apply Mo; auto). apply H. right; auto. }
    exists s'. split; auto. split.
    + intros n j dt Ej In_ D. destruct In_ as [<-|In_].
      * rewrite Ei in Ej. injection Ej as <-. rewrite X3.
        -- rewrite close_nth, Nat.eqb_refl, T1, D. reflexivity.
        -- intros m j Hm Ej Q. rewrite Mo in Ej by auto. assert (m = k) by (eapply inv_inj with (s := s); eauto). congruence.
      * eapply X2; eauto. { rewrite Mo; auto. } rewrite close_nth, T1. destruct (Nat.eqb_spec (diObj i) (diObj j)) as [Q|Q]; [|exact D].
        exfalso. assert (k = n) by (eapply inv_inj with (s := s); eauto). congruence.
    + intros b Nb. rewrite X3.
      * rewrite close_nth, T1. destruct (Nat.eqb_spec (diObj i) b) as [Q|Q]; auto. exfalso. eapply Nb; [|exact Ei|exact Q]. left; auto.
      * intros n j Hn Ej. rewrite Mo in Ej by auto. eapply Nb; eauto. right; auto.
Qed.

Theorem C101_shutdown : forall L inc closed now s names1 names2, keeps_config closed -> no_shorter inc ->
  reachable inc closed s -> Permutation names1 (ListNames now s) -> Permutation names2 (ListNames now s) ->
  exists s' text, DatasetClose L inc closed now s names1 names2 = Ok (s', text) /\
    forall a dt, nth_error (dsObjs s) a = Some dt ->
      ((exists n, holds now s n a) -> nth_error (dsObjs s') a = Some (closed dt)) /\
      ((forall n, ~ holds now s n a) -> nth_error (dsObjs s') a = Some dt).
Proof.
  intros L inc closed now s names1 names2 K NS Rc P1 P2. pose proof (reachable_inv inc closed K s Rc) as I.
  destruct (listed now s I) as [ND LN].
  destruct (save_visits L inc now names1 s I) as (s1 & text & E1 & I1 & V1 & V2 & V3 & V4).
  { eapply Permutation_NoDup; [symmetry; exact P1|auto]. } { intros k Hk. apply LN. eapply Permutation_in; [exact P1|auto]. }
  assert (Ob : forall n i, In n names2 -> mload (dsList s) n = Some i ->
    exists e, mload (dsList s1) n = Some (mkDI (diObj i) e) /\ item_live now (mkDI (diObj i) e) = true).
  { intros n i Hn Ei. pose proof I as [_ J]. destruct (J _ _ Ei) as (dt & c & A & B & _).
    eapply Permutation_in in Hn; [|exact P2]. eexists. split.
    - eapply V3; eauto. eapply Permutation_in; [symmetry; exact P1|auto].
    - apply live_iff. cbn. apply NS. apply LN in Hn. destruct Hn as [a Ha]. destruct (get_some _ _ _ _ Ha) as (j & Ej & _ & Lj).
      rewrite Ei in Ej. injection Ej as <-. apply live_iff in Lj. exact Lj. }
  destruct (close_each_ok inc closed now names2 s1 K I1) as (s' & E2 & X1 & X2).
  { eapply Permutation_NoDup; [symmetry; exact P2|auto]. }
  { intros k Hk. pose proof Hk as Hk'. eapply Permutation_in in Hk'; [|exact P2]. apply LN in Hk'. destruct Hk' as [a Ha].
    destruct (get_some _ _ _ _ Ha) as (i & Ei & <- & _). destruct (Ob k i Hk Ei) as (e & Ee & Le).
    exists (diObj i). unfold dl_get. rewrite Ee, Le. reflexivity. }
  exists s', text. unfold DatasetClose. rewrite E1. cbn [bind]. rewrite E2. split; [reflexivity|]. intros a dt D. split.
  - intros [n H]. apply get_holds in H; auto.
    assert (Hn : In n names2) by (eapply Permutation_in; [symmetry; exact P2|]; apply LN; eauto).
    destruct (get_some _ _ _ _ H) as (i & Ei & <- & _). destruct (Ob n i Hn Ei) as (e & Ee & _).
    change (diObj i) with (diObj (mkDI (diObj i) e)). eapply X1; eauto. rewrite V1. exact D.
  - intros N. rewrite X2, V1; auto. intros n j Hn Ej <-. eapply Permutation_in in Hn; [|exact P2]. apply LN in Hn.
    destruct Hn as [b Hb]. destruct (get_some _ _ _ _ Hb) as (i & Ei & <- & _).
    assert (Hn : In n names2). { eapply Permutation_in; [symmetry; exact P2|]. apply LN. eauto. }
    destruct (Ob n i Hn Ei) as (e & Ee & _). rewrite Ee in Ej. injection Ej as <-. apply (N n). apply get_holds; auto.
Qed.
Print Assumptions C101_shutdown.

(** Two datasets and one that has expired. *)
Definition inc_keep : Z -> Z -> Z -> Z := fun now d _ => if (d <=? 0)%Z then 0%Z else (now + d)%Z.
Definition three_events : list devent :=
  [EvCreate 0 second_conf; EvCreate 0 (cfg (bs "b") 1); EvCreate 0 (cfg (bs "c") 1)].
Definition three : dstate :=
  match drun inc_keep close_it (mkDS [] []) three_events with Ok s => s | _ => mkDS [] [] end.
Definition after_close : dstate * bytes :=
  match DatasetClose simple_lib inc_keep close_it 5000000000 three [bs "c"; bs "b"] [bs "b"; bs "c"] with
  | Ok x => x | _ => (mkDS [] [], []) end.
Example C101_instance : reachable inc_keep close_it three /\ no_shorter inc_keep /\
  ListNames 5000000000 three = [bs "c"; bs "b"] /\
  DatasetClose simple_lib inc_keep close_it 5000000000 three [bs "c"; bs "b"] [bs "b"; bs "c"] = Ok after_close /\
  map dAlive (dsObjs (fst after_close)) = [true; false; false].
Proof.
  split; [exists three_events; vm_compute; reflexivity|].
  split; [intros now d old H; unfold inc_keep; destruct (Z.leb_spec d 0); lia|].
  split; [vm_compute; reflexivity|]. split; vm_compute; reflexivity.
Qed.
