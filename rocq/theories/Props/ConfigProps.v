(** Properties C110 and C111: the configurations of datasets in a cluster. *)
From Verif.Base Require Import GoBase GoLemmas Assoc Float.
From Verif.Model Require Import Codec Store Data Dataset Json Index DatasetAll ConfigFlow.
From Verif.Spec Require Import RegistrySpec HousekeepingSpec ConfigSpec.
From Verif.Proof Require Import StoreConcP FloatLibP DatasetP RegistryP DatasetAllP ConfigP.
From Coq Require Import Lia Permutation.
Open Scope N_scope.

Definition Q_of (es : list fev) (c : DataConfig) : Prop := (exists n, c = GetDefaultConfig n) \/ requested es c.

Lemma Q_unconfigured : forall es c, Q_of es c -> unconfigured c \/ requested es c.
Proof. intros es c [[n ->]|R]; [left; repeat split|auto]. Qed.

(** C111 No configuration is made up: what a node has as configuration of a dataset,
    and what it passes on, is the default one or, field by field, one that a client
    asked for under this name at some node. *)
Theorem C111_origin : forall L inc closed w es w', keeps_config closed -> no_shorter inc ->
  empty w -> frun L inc closed w es = Some w' ->
  (forall i now name c, configured now w' i name c -> cName c = name /\ (unconfigured c \/ requested es c)) /\
  (forall c, In c (fMail w') -> unconfigured c \/ requested es c).
Proof.
  intros L inc closed w es w' KC NS E R.
  assert (W : Wok (Q_of es) w').
  { eapply Wok_run; [exact KC|exact NS| | |apply empty_ok; exact E|exact R].
    - intro m. left. eauto.
    - intros c X. right. exact X. }
  destruct W as [WN WM]. split.
  - intros i now name c C. destruct (WN i) as [I AO]. apply configured_iff in C; [|exact I].
    destruct C as (j & dt & C1 & C2 & C3 & C4). destruct (AO _ _ C3) as (c' & A & B). rewrite C4 in A. injection A as <-.
    split; [|apply Q_unconfigured; exact B]. destruct I as [_ I]. destruct (I _ _ C1) as (dt' & c' & X & Y & Z). congruence.
  - intros c X. rewrite Forall_forall in WM. apply Q_unconfigured. auto.
Qed.
Print Assumptions C111_origin.

(** C110 All nodes agree on the configuration of a dataset.  If one configuration has a
    higher version than all others that clients ask for, every node that it reaches, by
    request or in a record, has it from then on for as long as it has the dataset,
    whatever else is exchanged.  Missing: configurations with equal versions, refuted
    below. *)
Theorem C110_agree_partial : forall L inc closed w es1 w1 e w2 es2 w3 T i c,
  keeps_config closed -> no_shorter inc -> empty w ->
  frun L inc closed w es1 = Some w1 -> fstep L inc closed w1 e = Some w2 -> frun L inc closed w2 es2 = Some w3 ->
  0 < cVersion c ->
  (forall c', requested (es1 ++ e :: es2) c' -> cName c' = cName c -> c' = c \/ cVersion c' < cVersion c) ->
  reaches w1 e i c -> throughout L inc closed T i (cName c) w2 es2 ->
  configured T w3 i (cName c) c.
Proof.
  intros L inc closed w es1 w1 e w2 es2 w3 T i c KC NS E R1 F R2 V0 HI RE TH.
  set (Q := Q_of (es1 ++ e :: es2)).
  assert (QD : forall m, Q (GetDefaultConfig m)) by (intro m; left; eauto).
  assert (W1 : Wok Q w1).
  { eapply Wok_run; [exact KC|exact NS|exact QD| |apply empty_ok; exact E|exact R1].
    intros c' (k & t & X). right. exists k, t. apply in_or_app. left. exact X. }
  assert (W2 : Wok Q w2).
  { eapply f_step; [exact KC|exact NS|exact QD|exact W1| |exact F].
    intros k t c' ->. right. exists k, t. apply in_or_app. right. left. reflexivity. }
  assert (QV : forall c', Q c' -> cName c' = cName c -> c' = c \/ cVersion c' < cVersion c).
  { intros c' [[n ->]|X] N; [right; exact V0|auto]. }
  assert (QC : Q c).
  { destruct RE as [(t & ->)|(k & t & -> & N)].
    - right. exists i, t. apply in_or_app. right. left. reflexivity.
    - destruct W1 as [_ WM]. rewrite Forall_forall in WM. apply WM. eapply nth_error_In. exact N. }
  eapply (keep_run L inc closed KC NS Q T i (cName c) c es2 w2 w3 QD); [|exact W2| |exact TH|exact R2|].
  - intros c' (k & t & X). right. exists k, t. apply in_or_app. right. right. exact X.
  - intros c' X N. destruct (QV _ X N) as [->|]; lia.
  - eapply (reach_step L inc closed Q T i c w1 e w2 W1 W2 QV F RE QC). destruct es2; exact (proj1 TH).
Qed.
Print Assumptions C110_agree_partial.

(** Whoever has the highest version keeps it: a node changes its configuration only for
    a higher version. *)
Theorem C110_keep_partial : forall L inc closed w es1 w1 es2 w2 T i c,
  keeps_config closed -> no_shorter inc -> empty w ->
  frun L inc closed w es1 = Some w1 -> frun L inc closed w1 es2 = Some w2 ->
  (forall c', requested (es1 ++ es2) c' -> cName c' = cName c -> cVersion c' <= cVersion c) ->
  throughout L inc closed T i (cName c) w1 es2 ->
  configured T w1 i (cName c) c -> configured T w2 i (cName c) c.
Proof.
  intros L inc closed w es1 w1 es2 w2 T i c KC NS E R1 R2 HI TH C.
  set (Q := Q_of (es1 ++ es2)).
  assert (QD : forall m, Q (GetDefaultConfig m)) by (intro m; left; eauto).
  assert (W1 : Wok Q w1).
  { eapply Wok_run; [exact KC|exact NS|exact QD| |apply empty_ok; exact E|exact R1].
    intros c' (k & t & X). right. exists k, t. apply in_or_app. left. exact X. }
  eapply (keep_run L inc closed KC NS Q T i (cName c) c es2 w1 w2 QD); [|exact W1| |exact TH|exact R2|exact C].
  - intros c' (k & t & X). right. exists k, t. apply in_or_app. right. exact X.
  - intros c' [[n ->]|X] N; [cbn; lia|auto].
Qed.
Print Assumptions C110_keep_partial.

(** Two nodes; configurations of dataset "d" with version v and target n. *)
Definition fk : Z -> Z -> Z -> Z := fun now d _ => if (d <=? 0)%Z then 0%Z else (now + d)%Z.
Definition fclose : Data -> Data := fun d => set_alive d false.
Definition fd : bytes := bs "d".
Definition fcfg (v n : N) : DataConfig := mkDataConfig fd v n f0_4 false 1 true 0.
Definition fempty : fworld := mkFW (fun _ => mkDS [] []) [].
Lemma fempty_ok : empty fempty.
Proof. split; [reflexivity|]. intro i. reflexivity. Qed.
Lemma fk_ok : no_shorter fk.
Proof. intros now d old H. unfold fk. destruct (Z.leb_spec d 0); lia. Qed.
Lemma fclose_ok : keeps_config fclose.
Proof. intro d. reflexivity. Qed.
Definition fresult (es : list fev) : fworld :=
  match frun simple_lib fk fclose fempty es with Some w => w | None => fempty end.

(** The nodes tell each other. *)
Definition exchange : list fev :=
  [FTell 0 10 [fd]; FTell 1 11 [fd]; FHear 1 0 12; FHear 0 1 13; FOwn 0 (HSave 14 [fd]); FTell 1 15 [fd]; FHear 0 2 16].

(** Checking [configured] and [throughout] by computation. *)
Definition conf (T : Z) (s : dstate) (name : bytes) : option DataConfig :=
  match dl_get T s name with
  | Some a => match nth_error (dsObjs s) a with Some dt => dConfig dt | None => None end
  | None => None
  end.
Lemma get_held : forall T s n a, dl_get T s n = Some a -> holds T s n a.
Proof.
  intros T s n a H. destruct (get_some _ _ _ _ H) as (i & A & <- & B). exists i. split; [apply mload_in; exact A|].
  split; [reflexivity|]. apply live_iff. exact B.
Qed.
Lemma conf_ok : forall T w i name c, conf T (fNodes w i) name = Some c -> configured T w i name c.
Proof.
  intros T w i name c H. unfold conf in H. destruct (dl_get T (fNodes w i) name) as [a|] eqn:G; [|discriminate H].
  destruct (nth_error (dsObjs (fNodes w i)) a) as [dt|] eqn:N; [|discriminate H].
  exists a, (dDBMap dt). split; [apply get_held; exact G|]. exists dt. auto.
Qed.
Fixpoint throughb (T : Z) (i : nat) (name : bytes) (w : fworld) (es : list fev) : bool :=
  match dl_get T (fNodes w i) name with Some _ => true | None => false end &&
  match es with
  | [] => true
  | e :: es' =>
      match fev_time e with Some t => (t <=? T)%Z | None => true end &&
      match fstep simple_lib fk fclose w e with Some w' => throughb T i name w' es' | None => true end
  end.
Lemma throughb_ok : forall T i name es w, throughb T i name w es = true -> throughout simple_lib fk fclose T i name w es.
Proof.
  intros T i name. induction es as [|e es IH]; intros w H; cbn [throughb throughout] in *; apply andb_true_iff in H; destruct H as [A B].
  - split; [|exact I]. destruct (dl_get T (fNodes w i) name) as [a|] eqn:G; [|discriminate A]. exists a. apply get_held. exact G.
  - split; [destruct (dl_get T (fNodes w i) name) as [a|] eqn:G; [|discriminate A]; exists a; apply get_held; exact G|].
    apply andb_true_iff in B. destruct B as [B C]. split.
    + intros t E. rewrite E in B. lia.
    + destruct (fstep simple_lib fk fclose w e); auto.
Qed.

(** Node 1 has dataset "d" with the default configuration; node 0 is asked for version
    1; after the exchange both have it. *)
Definition asked_then (v : N) : list fev := [FOwn 1 (HOther (EvGet 1 fd)); FCreate 0 2 (fcfg v 5)].
Example C110_agree_instance : exists w1 w2 w3,
  frun simple_lib fk fclose fempty (asked_then 1 ++ firstn 2 exchange) = Some w1 /\
  fstep simple_lib fk fclose w1 (FHear 1 0 12) = Some w2 /\
  frun simple_lib fk fclose w2 (skipn 3 exchange) = Some w3 /\
  reaches w1 (FHear 1 0 12) 1 (fcfg 1 5) /\ configured 100 w1 1 fd (GetDefaultConfig fd) /\
  throughout simple_lib fk fclose 100 1 fd w2 (skipn 3 exchange) /\
  configured 100 w3 0 fd (fcfg 1 5) /\ configured 100 w3 1 fd (fcfg 1 5).
Proof.
  assert (X : match frun simple_lib fk fclose fempty (asked_then 1 ++ firstn 2 exchange) with
              | Some w1 => match fstep simple_lib fk fclose w1 (FHear 1 0 12) with
                  | Some w2 => match frun simple_lib fk fclose w2 (skipn 3 exchange) with
                      | Some w3 => nth_error (fMail w1) 0 = Some (fcfg 1 5) /\
                          conf 100 (fNodes w1 1) fd = Some (GetDefaultConfig fd) /\
                          throughb 100 1 fd w2 (skipn 3 exchange) = true /\
                          conf 100 (fNodes w3 0) fd = Some (fcfg 1 5)
                      | None => False end
                  | None => False end
              | None => False end) by (vm_compute; repeat split; reflexivity).
  destruct (frun simple_lib fk fclose fempty (asked_then 1 ++ firstn 2 exchange)) as [w1|] eqn:R1; [|destruct X].
  destruct (fstep simple_lib fk fclose w1 (FHear 1 0 12)) as [w2|] eqn:R2; [|destruct X].
  destruct (frun simple_lib fk fclose w2 (skipn 3 exchange)) as [w3|] eqn:R3; [|destruct X].
  destruct X as (X1 & X2 & X3 & X4). exists w1, w2, w3.
  assert (RE : reaches w1 (FHear 1 0 12) 1 (fcfg 1 5)) by (right; exists 0%nat, 12%Z; split; [reflexivity|exact X1]).
  pose proof (throughb_ok _ _ _ _ _ X3) as TH.
  split; [reflexivity|]. split; [exact R2|]. split; [exact R3|]. split; [exact RE|].
  split; [apply conf_ok; exact X2|]. split; [exact TH|]. split; [apply conf_ok; exact X4|].
  apply (C110_agree_partial simple_lib fk fclose fempty (asked_then 1 ++ firstn 2 exchange) w1 (FHear 1 0 12) w2 (skipn 3 exchange) w3 100 1 (fcfg 1 5));
    [exact fclose_ok|exact fk_ok|exact fempty_ok|exact R1|exact R2|exact R3|reflexivity| |exact RE|exact TH].
  intros c' (k & t & IN) _. left. cbn in IN.
  repeat (destruct IN as [IN|IN]; [try discriminate IN; injection IN as _ _ <-; reflexivity|]). destruct IN.
Qed.

(** C110 refuted: two clients configure the dataset at two nodes, both with version 1.
    No exchange, of whatever length, makes the nodes agree while they have the dataset
    and nobody asks for a higher version. *)
Theorem C110_split_refuted : exists L inc closed c1 c2 w es1 w1,
  keeps_config closed /\ no_shorter inc /\ empty w /\
  cName c1 = cName c2 /\ cVersion c1 = cVersion c2 /\ 0 < cVersion c1 /\ cTargetN c1 <> cTargetN c2 /\
  requested es1 c1 /\ requested es1 c2 /\ frun L inc closed w es1 = Some w1 /\
  (forall es2 w2 T, frun L inc closed w1 es2 = Some w2 ->
     (forall c', requested es2 c' -> cName c' = cName c1 -> cVersion c' <= cVersion c1) ->
     throughout L inc closed T 0 (cName c1) w1 es2 -> throughout L inc closed T 1 (cName c1) w1 es2 ->
     configured T w1 0 (cName c1) c1 -> configured T w1 1 (cName c1) c2 ->
     configured T w2 0 (cName c1) c1 /\ configured T w2 1 (cName c1) c2) /\
  configured 100 w1 0 (cName c1) c1 /\ configured 100 w1 1 (cName c1) c2 /\
  exists w2, frun L inc closed w1 exchange = Some w2 /\
    throughout L inc closed 100 0 (cName c1) w1 exchange /\ throughout L inc closed 100 1 (cName c1) w1 exchange.
Proof.
  exists simple_lib, fk, fclose, (fcfg 1 5), (fcfg 1 7), fempty, [FCreate 0 1 (fcfg 1 5); FCreate 1 2 (fcfg 1 7)].
  assert (X : match frun simple_lib fk fclose fempty [FCreate 0 1 (fcfg 1 5); FCreate 1 2 (fcfg 1 7)] with
              | Some w1 => match frun simple_lib fk fclose w1 exchange with
                  | Some w2 => conf 100 (fNodes w1 0) fd = Some (fcfg 1 5) /\ conf 100 (fNodes w1 1) fd = Some (fcfg 1 7) /\
                          throughb 100 0 fd w1 exchange = true /\ throughb 100 1 fd w1 exchange = true
                  | None => False end
              | None => False end) by (vm_compute; repeat split; reflexivity).
  destruct (frun simple_lib fk fclose fempty [FCreate 0 1 (fcfg 1 5); FCreate 1 2 (fcfg 1 7)]) as [w1|] eqn:R1; [|destruct X].
  destruct (frun simple_lib fk fclose w1 exchange) as [w2|] eqn:R2; [|destruct X].
  destruct X as (X1 & X2 & X3 & X4). exists w1. change (cName (fcfg 1 5)) with fd.
  split; [exact fclose_ok|]. split; [exact fk_ok|]. split; [exact fempty_ok|]. split; [reflexivity|]. split; [reflexivity|].
  split; [reflexivity|]. split; [discriminate|].
  split; [exists 0%nat, 1%Z; left; reflexivity|]. split; [exists 1%nat, 2%Z; right; left; reflexivity|].
  split; [reflexivity|]. split.
  { intros es2 w2' T R HI T0 T1 C0 C1.
    assert (HV : forall c', requested ([FCreate 0 1 (fcfg 1 5); FCreate 1 2 (fcfg 1 7)] ++ es2) c' -> cName c' = fd -> cVersion c' <= 1).
    { intros c' (k & t & IN) N. apply in_app_or in IN. destruct IN as [[IN|[IN|[]]]|IN].
      - injection IN as _ _ <-. cbn. lia.
      - injection IN as _ _ <-. cbn. lia.
      - apply HI; [exists k, t; exact IN|exact N]. }
    split.
    - apply (C110_keep_partial simple_lib fk fclose fempty _ w1 es2 w2' T 0 (fcfg 1 5) fclose_ok fk_ok fempty_ok R1 R HV T0 C0).
    - apply (C110_keep_partial simple_lib fk fclose fempty _ w1 es2 w2' T 1 (fcfg 1 7) fclose_ok fk_ok fempty_ok R1 R HV T1 C1). }
  split; [apply conf_ok; exact X1|]. split; [apply conf_ok; exact X2|]. exists w2. split; [exact R2|].
  split; apply throughb_ok; assumption.
Qed.
Print Assumptions C110_split_refuted.

(** Refuted also with a single client: it leaves the version at 0, which is also the
    version of the default configuration, and somebody asked node 1 for the dataset
    before.  After the exchange node 1 still has the default. *)
Theorem C110_unversioned_refuted : exists L inc closed c w es w',
  keeps_config closed /\ no_shorter inc /\ empty w /\ frun L inc closed w es = Some w' /\
  requested es c /\ (forall c', requested es c' -> c' = c) /\
  (exists es1 e es2 w1, es = es1 ++ e :: es2 /\ frun L inc closed w es1 = Some w1 /\ reaches w1 e 1 c) /\
  throughout L inc closed 100 1 (cName c) (fresult (firstn 2 es)) (skipn 2 es) /\
  configured 100 w' 0 (cName c) c /\
  exists c', configured 100 w' 1 (cName c) c' /\ unconfigured c' /\ cTargetN c' <> cTargetN c.
Proof.
  exists simple_lib, fk, fclose, (fcfg 0 5), fempty, (asked_then 0 ++ exchange).
  assert (X : match frun simple_lib fk fclose fempty (asked_then 0 ++ exchange) with
              | Some w => conf 100 (fNodes w 0) fd = Some (fcfg 0 5) /\ conf 100 (fNodes w 1) fd = Some (GetDefaultConfig fd) /\
                  throughb 100 1 fd (fresult (firstn 2 (asked_then 0 ++ exchange))) (skipn 2 (asked_then 0 ++ exchange)) = true
              | None => False end) by (vm_compute; repeat split; reflexivity).
  assert (Y : match frun simple_lib fk fclose fempty (asked_then 0 ++ firstn 2 exchange) with
              | Some w => nth_error (fMail w) 0 = Some (fcfg 0 5) | None => False end) by (vm_compute; reflexivity).
  destruct (frun simple_lib fk fclose fempty (asked_then 0 ++ exchange)) as [w'|] eqn:R; [|destruct X].
  destruct (frun simple_lib fk fclose fempty (asked_then 0 ++ firstn 2 exchange)) as [w1|] eqn:R1; [|destruct Y].
  destruct X as (X1 & X2 & X3). exists w'. split; [exact fclose_ok|]. split; [exact fk_ok|]. split; [exact fempty_ok|].
  split; [reflexivity|]. split; [exists 0%nat, 2%Z; right; left; reflexivity|]. split.
  { intros c' (k & t & IN). cbn in IN.
    repeat (destruct IN as [IN|IN]; [try discriminate IN; injection IN as _ _ <-; reflexivity|]). destruct IN. }
  split.
  { exists (asked_then 0 ++ firstn 2 exchange), (FHear 1 0 12), (skipn 3 exchange), w1.
    split; [reflexivity|]. split; [exact R1|]. right. exists 0%nat, 12%Z. split; [reflexivity|exact Y]. }
  split; [apply throughb_ok; exact X3|]. split; [apply conf_ok; exact X1|].
  exists (GetDefaultConfig fd). split; [apply conf_ok; exact X2|]. split; [repeat split|discriminate].
Qed.
Print Assumptions C110_unversioned_refuted.

(** Node 1 was asked for "d", node 0 configured it; both configurations are on record. *)
Example C111_instance : match frun simple_lib fk fclose fempty (asked_then 1 ++ firstn 2 exchange) with
  | Some w => fMail w = [fcfg 1 5; GetDefaultConfig fd] /\ conf 100 (fNodes w 0) fd = Some (fcfg 1 5)
  | None => False end.
Proof. vm_compute. split; reflexivity. Qed.
