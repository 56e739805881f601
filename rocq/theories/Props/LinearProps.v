(** C176: concurrent inserts and deletes act one after the other. *)
From Verif.Base Require Import GoBase GoLemmas Assoc.
From Verif.Model Require Import Codec Store StoreConc.
From Verif.Spec Require Import Wire StoreSpec StoreConcSpec RenewSpec LinearSpec.
From Verif.Proof Require Import CodecP CodecTop StoreP StoreQ StoreConcP.
From Verif.Props Require Import StoreProps StoreConcProps RenewProps.
From Coq Require Import Lia.
Open Scope N_scope.

Lemma found_same : forall m k v e, Forall slot_wf m -> kv_ok k v -> is_fresh k v e (mload m (ekey k)) = false ->
  exists old, mload m (wire_key k) = Some old /\ edatum old = kv k v /\ near e (exprireAt old).
Proof.
  intros m k v e F Hkv H. pose proof Hkv as (K1 & K2 & _ & _).
  destruct (not_fresh k K1 K2 m v e F Hkv H) as (old & L & D). exists old. split; [exact L|]. split; [exact D|].
  rewrite ekey_wire, L in H by exact K2. unfold is_fresh in H. rewrite D in H. cbn [GetValueAsBytes dvalue kv] in H.
  destruct Hkv as (_ & _ & V1 & V2). rewrite !MarshalValue_spec in H by auto.
  apply negb_false_iff, andb_true_iff in H. apply near_model, H.
Qed.

Lemma last_effect_snoc : forall k es x,
  last_effect k (es ++ [x]) = if DatumKey_eq_dec (acts_on x) k then Some x else last_effect k es.
Proof. intros. unfold last_effect. rewrite fold_left_app. reflexivity. Qed.

Lemma effects_snoc : forall i es x,
  effects_of i (es ++ [x]) = effects_of i es ++ (if Nat.eqb (who_acts x) i then [x] else []).
Proof. intros. unfold effects_of. rewrite filter_app. cbn [filter]. reflexivity. Qed.

(** A goroutine in the middle of an operation, and what its call has done so far. *)
Definition part_way (T0 T : Z) (t : thread) : Prop :=
  match t with
  | TIns k v cfg => kv_ok k v /\ forall now, (T0 <= now <= T)%Z -> no_expiry T (expireAtOf now cfg)
  | TInsTimed k v e | TInsLoaded k v e _ => kv_ok k v /\ no_expiry T e
  | TDel k => key_ok k /\ key_fits k
  | TScanning _ (Some _) _ => False
  | _ => True
  end.

Definition done_so_far (i : nat) (t : option thread) : list effect :=
  match t with
  | Some (TInsDone k v dl) | Some (TInsLoaded k v dl false) => [EIns i k v dl]
  | Some (TDelDone k) => [EDel i k]
  | _ => []
  end.

Definition linear (T : Z) (s0 : cstate) (es : list effect) (s : cstate) : Prop :=
  (c_now s0 <= c_now s)%Z /\ Forall slot_wf (c_map s) /\
  (forall b e, mload (c_map s) b = Some e -> no_expiry T (exprireAt e)) /\
  Forall (part_way (c_now s0) T) (c_threads s) /\
  (forall i, effects_of i es = done_so_far i (nth_error (c_threads s) i)) /\
  (forall k, key_ok k -> key_fits k -> holds_after k (last_effect k es) (c_map s0) (c_map s)).

Lemma silent : forall T s0 es now m ts now' ts' i x,
  linear T s0 es (mkC now m ts) -> (now <= now')%Z -> part_way (c_now s0) T x ->
  done_so_far i (Some x) = done_so_far i (nth_error ts i) -> list_set ts i x = Some ts' ->
  linear T s0 es (mkC now' m ts').
Proof.
  intros T s0 es now m ts now' ts' i x (A & B & C & D & E & F) LE P Q S. cbn [c_now c_map c_threads] in *.
  repeat split; cbn [c_now c_map c_threads]; auto; [lia|eapply forall_set; eauto|].
  intro j. rewrite (nth_list_set _ _ _ _ _ j S). destruct (Nat.eqb_spec i j) as [<-|N]; [rewrite E; symmetry; exact Q|apply E].
Qed.

Lemma acts : forall T s0 es now m ts m' ts' i x y,
  linear T s0 es (mkC now m ts) -> part_way (c_now s0) T x -> who_acts y = i ->
  done_so_far i (nth_error ts i) = [] -> done_so_far i (Some x) = [y] -> list_set ts i x = Some ts' ->
  Forall slot_wf m' -> (forall b e, mload m' b = Some e -> no_expiry T (exprireAt e)) ->
  key_ok (acts_on y) -> key_fits (acts_on y) ->
  (forall b, b <> wire_key (acts_on y) -> mload m' b = mload m b) ->
  holds_after (acts_on y) (Some y) (c_map s0) m' ->
  linear T s0 (es ++ [y]) (mkC now m' ts').
Proof.
  intros T s0 es now m ts m' ts' i x y (A & B & C & D & E & F) P W Q0 Q1 S B' C' K1 K2 O H. cbn [c_now c_map c_threads] in *.
  repeat split; cbn [c_now c_map c_threads]; auto; [eapply forall_set; eauto| |].
  - intro j. rewrite effects_snoc, W, (nth_list_set _ _ _ _ _ j S). destruct (Nat.eqb_spec i j) as [<-|N].
    + rewrite E, Q0, Q1. reflexivity.
    + rewrite E, app_nil_r. reflexivity.
  - intros k A1 A2. rewrite last_effect_snoc. destruct (DatumKey_eq_dec (acts_on y) k) as [<-|N]; [exact H|].
    assert (X : mload m' (wire_key k) = mload m (wire_key k)).
    { apply O. apply wire_key_neq; auto. }
    specialize (F k A1 A2). unfold holds_after in *. rewrite X. exact F.
Qed.

Lemma linear_step : forall T s0 es s l s', linear T s0 es s -> cstep s l s' -> (c_now s' <= T)%Z ->
  exists es', linear T s0 (es ++ es') s'.
Proof.
  intros T s0 es s l s' I S HT.
  assert (TH : forall i t, nth_error (c_threads s) i = Some t -> part_way (c_now s0) T t).
  { intros i t N. destruct I as (_ & _ & _ & D & _). eapply forall_nth; eauto. }
  pose proof I as (LE & WF & NE & _ & _ & _).
  destruct S; cbn [c_now c_map c_threads] in *.
  - exists []. rewrite app_nil_r. destruct I as (A & B & C & D & E & F). repeat split; cbn [c_now c_map c_threads] in *; auto; lia.
  - exists []. rewrite app_nil_r. destruct (TH _ _ H) as (X & Y). eapply silent; [exact I|lia| | |exact H0]; [|rewrite H; reflexivity].
    split; [exact X|]. apply Y. lia.
  - pose proof (TH _ _ H) as (X & Y). destruct (is_fresh k v exp (mload m (ekey k))) eqn:Q.
    + exists []. rewrite app_nil_r. eapply silent; [exact I|lia| | |exact H0]; [|rewrite H; reflexivity]. split; auto.
    + destruct (found_same m k v exp WF X Q) as (old & L & De & Nr). pose proof X as (K1 & K2 & _ & _).
      exists [EIns i k v exp]. eapply (acts _ _ _ _ _ _ _ _ i); [exact I| |reflexivity|rewrite H; reflexivity| |exact H0|exact WF|exact NE|exact K1|exact K2| |].
      * split; auto.
      * reflexivity.
      * reflexivity.
      * cbn [holds_after acts_on]. exists old. auto.
  - pose proof (TH _ _ H) as (X & Y). pose proof X as (K1 & K2 & _ & _). rewrite ekey_wire by exact K2.
    exists [EIns i k v exp]. eapply (acts _ _ _ _ _ _ _ _ i); [exact I| |reflexivity|rewrite H; reflexivity| |exact H0| | |exact K1|exact K2| |]; [|reflexivity| | | |].
    + exact Logic.I.
    + apply slot_wf_store; auto.
    + intros b e. rewrite mload_mstore. destruct (bytes_eqb (wire_key k) b); [intro Z; injection Z as <-; exact Y|apply NE].
    + intros b N. rewrite mload_mstore. destruct (bytes_eqb (wire_key k) b) eqn:Z; [apply bytes_eqb_spec in Z; cbn [acts_on] in N; congruence|reflexivity].
    + cbn [holds_after acts_on]. eexists. rewrite mload_mstore_same. split; [reflexivity|]. split; [reflexivity|]. left. reflexivity.
  - exists []. rewrite app_nil_r. eapply silent; [exact I|lia| | |exact H0]; [exact Logic.I|rewrite H; reflexivity].
  - pose proof (TH _ _ H) as (K1 & K2). rewrite ekey_wire by exact K2.
    exists [EDel i k]. eapply (acts _ _ _ _ _ _ _ _ i); [exact I| |reflexivity|rewrite H; reflexivity| |exact H0| | |exact K1|exact K2| |]; [|reflexivity| | | |].
    + exact Logic.I.
    + apply slot_wf_delete; auto.
    + intros b e. rewrite mload_mdelete. destruct (bytes_eqb (wire_key k) b); [discriminate|apply NE].
    + intros b N. rewrite mload_mdelete. destruct (bytes_eqb (wire_key k) b) eqn:Z; [apply bytes_eqb_spec in Z; cbn [acts_on] in N; congruence|reflexivity].
    + cbn [holds_after acts_on]. rewrite mload_mdelete, bytes_eqb_refl. reflexivity.
  - exists []. rewrite app_nil_r. eapply silent; [exact I|lia| | |eassumption]; [exact Logic.I|rewrite H; reflexivity].
  - exists []. rewrite app_nil_r. eapply silent; [exact I|lia| | |eassumption]; [exact Logic.I|rewrite H; reflexivity].
  - exists []. rewrite app_nil_r. eapply silent; [exact I|lia| | |eassumption]; [exact Logic.I|rewrite H; reflexivity].
  - exfalso. pose proof (exp_not_expired T now e HT (NE _ _ H0)). congruence.
  - exfalso. exact (TH _ _ H).
  - exists []. rewrite app_nil_r. eapply silent; [exact I|lia| | |eassumption]; [exact Logic.I|rewrite H; reflexivity].
Qed.

Lemma clock_le : forall s l s', cstep s l s' -> (c_now s <= c_now s')%Z.
Proof. intros s l s' S. destruct S; cbn [c_now]; lia. Qed.

Lemma linear_run : forall T s0 s tr s', cexec s tr s' -> forall es, linear T s0 es s -> (c_now s' <= T)%Z ->
  exists es', linear T s0 (es ++ es') s'.
Proof.
  intros T s0 s tr s' E. induction E as [s|s tr s' l s'' E IH S]; intros es I HT; [exists []; rewrite app_nil_r; exact I|].
  destruct (IH es I) as (e1 & I1); [pose proof (clock_le _ _ _ S); lia|].
  destruct (linear_step _ _ _ _ _ _ I1 S HT) as (e2 & I2). exists (e1 ++ e2). rewrite app_assoc. exact I2.
Qed.

Lemma linear_explained : forall T s0 es s, linear T s0 es s -> explained s0 es s.
Proof.
  intros T s0 es s (_ & _ & _ & _ & E & F). split; [|exact F]. intro i. rewrite E. unfold acted_once, done_so_far.
  destruct (nth_error (c_threads s) i) as [[| |k v dl [|]| | | | | |]|]; auto.
Qed.

(** C176.  Inserts, deletes and scans run concurrently, and nothing expires meanwhile.  Then
    there is one order of effects, one for each call that has returned, each at a moment
    between the beginning and the end of its call - what has returned at s1 acts before what
    begins after s1 - such that every key holds what its last effect left. *)
Theorem C176_linear : forall T s0 tr1 s1 tr2 s2,
  begins T s0 -> cexec s0 tr1 s1 -> cexec s1 tr2 s2 -> (c_now s2 <= T)%Z ->
  exists es1 es2, explained s0 es1 s1 /\ explained s0 (es1 ++ es2) s2.
Proof.
  intros T s0 tr1 s1 tr2 s2 (W & F & X & TH) E1 E2 HT.
  assert (I0 : linear T s0 [] s0).
  { split; [lia|]. split; [exact F|]. split; [exact X|]. split.
    - rewrite Forall_forall in *. intros t Ht. specialize (TH t Ht). destruct t; cbn [part_way]; try exact TH; destruct TH.
    - split; [|reflexivity]. intro i. cbn. destruct (nth_error (c_threads s0) i) as [t|] eqn:N; [|reflexivity].
      rewrite Forall_forall in TH. specialize (TH t (nth_error_In _ _ N)). destruct t; try reflexivity; destruct TH. }
  assert (H1 : (c_now s1 <= T)%Z).
  { enough (c_now s1 <= c_now s2)%Z by lia. clear -E2. induction E2 as [|s tr s' l s'' E IH S]; [lia|]. pose proof (clock_le _ _ _ S). lia. }
  destruct (linear_run T s0 _ _ _ E1 [] I0 H1) as (es1 & I1). destruct (linear_run T s0 _ _ _ E2 _ I1 HT) as (es2 & I2).
  exists es1, es2. split; eapply linear_explained; eassumption.
Qed.
Print Assumptions C176_linear.

Lemma linear_start : forall T s0, begins T s0 -> linear T s0 [] s0.
Proof.
  intros T s0 (W & F & X & TH). split; [lia|]. split; [exact F|]. split; [exact X|]. split.
  - rewrite Forall_forall in *. intros t Ht. specialize (TH t Ht). destruct t; cbn [part_way]; try exact TH; destruct TH.
  - split; [|reflexivity]. intro i. cbn. destruct (nth_error (c_threads s0) i) as [t|] eqn:N; [|reflexivity].
    rewrite Forall_forall in TH. specialize (TH t (nth_error_In _ _ N)). destruct t; try reflexivity; destruct TH.
Qed.

Lemma run_clock : forall s tr s', cexec s tr s' -> (c_now s <= c_now s')%Z.
Proof. intros s tr s' E. induction E as [|s tr s' l s'' E IH S]; [lia|]. pose proof (clock_le _ _ _ S). lia. Qed.

Lemma linear_there : forall T s0 es s b e, linear T s0 es s -> mload (c_map s) b = Some e -> there_after s0 es (edatum e).
Proof.
  intros T s0 es s b e (_ & F & _ & _ & _ & H) L. pose proof (mload_in _ _ _ L) as IN. rewrite Forall_forall in F.
  destruct (F _ IN) as (k & v & O & B & D). cbn [fst snd] in *. subst b. exists k, v. split; [exact D|].
  destruct O as (K1 & K2 & _ & _). specialize (H k K1 K2). unfold holds_after in H.
  destruct (last_effect k es) as [[i k' v' dl|i k']|].
  - destruct H as (e' & L' & D' & _). assert (E : e' = e) by congruence. subst e'. rewrite D in D'. injection D' as ->. reflexivity.
  - congruence.
  - exists e. rewrite <- H. auto.
Qed.

(** What goroutine j has reported was there at some moment of the second run. *)
Definition reports (s0 : cstate) (es1 es : list effect) (t : option thread) : Prop :=
  match t with
  | Some (TScanning _ _ ys) | Some (TScanDone ys) =>
      forall d, In d ys -> exists p q, es = p ++ q /\ there_after s0 (es1 ++ p) d
  | _ => True
  end.

Lemma reports_more : forall s0 es1 es es' t, reports s0 es1 es t -> reports s0 es1 (es ++ es') t.
Proof.
  intros s0 es1 es es' t H. unfold reports in *.
  destruct t as [[]|]; auto; intros d D; destruct (H d D) as (p & q & -> & X); exists p, (q ++ es'); rewrite app_assoc; auto.
Qed.

Lemma reports_step : forall T s0 es1 es s l s' j, linear T s0 (es1 ++ es) s -> cstep s l s' ->
  reports s0 es1 es (nth_error (c_threads s) j) -> reports s0 es1 es (nth_error (c_threads s') j).
Proof.
  intros T s0 es1 es s l s' j I S R. destruct S; cbn [c_threads] in *; try exact R;
    match goal with H : list_set _ _ _ = Some _ |- _ => rewrite (nth_list_set _ _ _ _ _ j H) end;
    match goal with |- context [Nat.eqb ?a ?b] => destruct (Nat.eqb_spec a b) as [<-|N]; [|exact R] end; try exact Logic.I;
    match goal with H : nth_error _ _ = Some _ |- _ => rewrite H in R end; cbn [reports] in *; try exact R.
  - intros d [].
  - intros d D. apply in_app_or in D. destruct D as [D|[<-|[]]]; [exact (R d D)|].
    exists es, []. rewrite app_nil_r. split; [reflexivity|]. eapply (linear_there T s0 _ _ b); [exact I|assumption].
Qed.

Lemma linear_key : forall T s0 es s k, linear T s0 es s -> key_ok k -> key_fits k -> key_after s0 es k ->
  mload (c_map s) (wire_key k) <> None.
Proof.
  intros T s0 es s k (_ & _ & _ & _ & _ & H) K1 K2 (v & k' & v' & E & X). injection E as <- <-.
  specialize (H k K1 K2). unfold holds_after in H. destruct (last_effect k es) as [[i k' v' dl|i k']|].
  - destruct H as (e & L & _). congruence.
  - destruct X.
  - destruct X as (e & L & _). congruence.
Qed.

(** A key that is there all the time is still to be visited or has been reported. *)
Definition visits (s0 : cstate) (es1 es : list effect) (k : DatumKey) (t : option thread) : Prop :=
  (forall p q, es = p ++ q -> key_after s0 (es1 ++ p) k) ->
  match t with
  | Some (TScanning todo _ ys) => In (wire_key k) todo \/ exists v, In (kv k v) ys
  | Some (TScanDone ys) => exists v, In (kv k v) ys
  | _ => True
  end.

Lemma visits_more : forall s0 es1 es es' k t, visits s0 es1 es k t -> visits s0 es1 (es ++ es') k t.
Proof. intros s0 es1 es es' k t H P. apply H. intros p q ->. apply (P p (q ++ es')). rewrite app_assoc. reflexivity. Qed.

Lemma visits_step : forall T s0 es1 es s l s' j k, linear T s0 (es1 ++ es) s -> key_ok k -> key_fits k -> cstep s l s' -> (c_now s' <= T)%Z ->
  visits s0 es1 es k (nth_error (c_threads s) j) -> visits s0 es1 es k (nth_error (c_threads s') j).
Proof.
  intros T s0 es1 es s l s' j k I K1 K2 S HT R P. specialize (R P).
  assert (PR : mload (c_map s) (wire_key k) <> None).
  { apply (linear_key T s0 (es1 ++ es) s k I K1 K2). apply (P es []). rewrite app_nil_r. reflexivity. }
  pose proof I as (_ & WF & NE & _). clear I P.
  destruct S; cbn [c_now c_threads c_map] in *; try exact R;
    match goal with H : list_set _ _ _ = Some _ |- _ => rewrite (nth_list_set _ _ _ _ _ j H) end;
    match goal with |- context [Nat.eqb ?a ?b] => destruct (Nat.eqb_spec a b) as [<-|N]; [|exact R] end; try exact Logic.I;
    match goal with H : nth_error _ _ = Some _ |- _ => rewrite H in R end; try exact R.
  - left. apply (Permutation_in _ (Permutation_sym H0)). destruct (mload m (wire_key k)) as [e|] eqn:L; [|contradiction].
    apply mload_in in L. unfold mkeys. apply (in_map fst) in L. exact L.
  - destruct R as [[->|R]|R]; [contradiction|left; exact R|right; exact R].
  - destruct R as [[->|R]|(v & R)]; [|left; exact R|right; exists v; apply in_or_app; left; exact R].
    right. destruct (slot_val m k e WF K1 K2 H0) as (v & _ & D). exists v. rewrite D. apply in_or_app. right. left. reflexivity.
  - destruct R as [[->|R]|(v & R)]; [|left; exact R|right; exists v; exact R]. exfalso. pose proof (exp_not_expired T now e HT (NE _ _ H0)). congruence.
  - destruct R as [[]|R]. exact R.
Qed.

(** What a scan reports is what the effects up to some moment between its beginning and its
    end have left (a moment for each datum); and a key that the dataset holds at all these
    moments is reported. *)
Theorem C176_scans : forall T s0 tr1 s1 tr2 s2 j ys,
  begins T s0 -> cexec s0 tr1 s1 -> cexec s1 tr2 s2 -> (c_now s2 <= T)%Z ->
  nth_error (c_threads s1) j = Some TScan -> nth_error (c_threads s2) j = Some (TScanDone ys) ->
  exists es1 es2, explained s0 es1 s1 /\ explained s0 (es1 ++ es2) s2 /\
    (forall d, In d ys -> exists p q, es2 = p ++ q /\ there_after s0 (es1 ++ p) d) /\
    (forall k, key_ok k -> key_fits k -> (forall p q, es2 = p ++ q -> key_after s0 (es1 ++ p) k) ->
       exists v, In (kv k v) ys).
Proof.
  intros T s0 tr1 s1 tr2 s2 j ys B E1 E2 HT J1 J2.
  pose proof (run_clock _ _ _ E2) as H12.
  destruct (linear_run T s0 _ _ _ E1 [] (linear_start _ _ B) ltac:(lia)) as (es1 & I1). cbn [app] in I1.
  assert (X : exists es2, linear T s0 (es1 ++ es2) s2 /\ reports s0 es1 es2 (nth_error (c_threads s2) j) /\
     forall k, key_ok k -> key_fits k -> visits s0 es1 es2 k (nth_error (c_threads s2) j)).
  { clear J2 H12. induction E2 as [s|s tr s' l s'' E IH S].
    - exists []. rewrite app_nil_r, J1. split; [exact I1|]. split; [exact Logic.I|]. intros k _ _ _. exact Logic.I.
    - destruct IH as (es & A & R & V); auto; [pose proof (clock_le _ _ _ S); lia|].
      destruct (linear_step _ _ _ _ _ _ A S HT) as (es' & A'). exists (es ++ es'). rewrite app_assoc. split; [exact A'|].
      split; [apply reports_more; eapply reports_step; eauto|].
      intros k K1 K2. apply visits_more. eapply visits_step; eauto. }
  destruct X as (es2 & I2 & R & V). rewrite J2 in R, V. exists es1, es2.
  split; [eapply linear_explained; exact I1|]. split; [eapply linear_explained; exact I2|]. split; [exact R|exact V].
Qed.
Print Assumptions C176_scans.

Lemma only_effect : forall k x es, es <> [] -> (forall y, In y es -> y = x) -> acts_on x = k -> last_effect k es = Some x.
Proof.
  intros k x es NE AL K. destruct es as [|a es] using rev_ind; [contradiction|]. clear IHes. rewrite last_effect_snoc.
  rewrite (AL a) by (apply in_or_app; right; left; reflexivity). rewrite K.
  destruct (DatumKey_eq_dec k k); [reflexivity|contradiction].
Qed.

(** The condition that nothing expires is needed: in the run of C17_lost_insert_refuted an
    insert returns, nobody deletes, and no order of effects explains that the key is gone. *)
Theorem C176_condition_needed : exists s0 tr s, calls_ok s0 /\ cexec s0 tr s /\
  (forall i k, nth_error (c_threads s0) i <> Some (TDel k)) /\ forall es, ~ explained s0 es s.
Proof.
  destruct kva_ok as (A & B & C).
  exists s_lost, [LNone; LNone; LNone; LNone; LInsert 0 ka vb; LNone], (mkC 100 [] [TInsDone ka vb 1000; TScanning [] None []]).
  split; [|split; [|split]].
  - split; [constructor; [cbn; tauto|constructor]|]. split.
    + constructor; [|constructor]. exists ka, va. split; [exact A|]. split; reflexivity.
    + constructor; [exact B|]. constructor; [exact Logic.I|constructor].
  - eapply ce_cons; [eapply (st_scan_start 100 _ _ 1 [wire_key ka] _); first [reflexivity|apply Permutation_refl]|].
    eapply ce_cons; [eapply (st_scan_dead 100 _ _ 1 (wire_key ka) [] [] (mkEntry 100 (kv ka va)) _); reflexivity|].
    eapply ce_cons; [eapply (st_ins_time 100 _ _ 0 ka vb _ _); reflexivity|].
    eapply ce_cons; [eapply (st_ins_load' 100 _ _ 0 ka vb 1000); reflexivity|].
    eapply ce_cons; [eapply (st_ins_store 100 [(wire_key ka, mkEntry 100 (kv ka va))] _ 0 ka vb 1000); reflexivity|].
    eapply ce_cons; [eapply (st_scan_purge 100 [(wire_key ka, mkEntry 1000 (kv ka vb))] _ 1 (wire_key ka) [] [] _); reflexivity|].
    constructor.
  - intros [|[|[|i]]] k H; discriminate H.
  - intros es (ON & HO).
    assert (IN : forall i x, In x (effects_of i es) <-> In x es /\ who_acts x = i).
    { intros i x. unfold effects_of. rewrite filter_In, Nat.eqb_eq. tauto. }
    pose proof (ON 0%nat) as E0. cbn in E0.
    assert (ALL : forall y, In y es -> y = EIns 0 ka vb 1000).
    { intros y Y. assert (Q : In y (effects_of (who_acts y) es)) by (apply IN; auto). destruct (who_acts y) as [|[|i]].
      - rewrite E0 in Q. destruct Q as [<-|[]]. reflexivity.
      - pose proof (ON 1%nat) as E1. cbn in E1. rewrite E1 in Q. destruct Q.
      - pose proof (ON (S (S i))) as E1. cbn in E1. destruct i; cbn in E1; rewrite E1 in Q; destruct Q. }
    assert (NE : es <> []).
    { intros ->. discriminate E0. }
    assert (K1 : key_ok ka) by apply A. assert (K2 : key_fits ka) by apply A. specialize (HO ka K1 K2).
    rewrite (only_effect ka _ es NE ALL eq_refl) in HO. destruct HO as (e & L & _). discriminate L.
Qed.
Print Assumptions C176_condition_needed.

(** Two inserts and a delete of one key, and a scan: the insert of vb acts and returns (s1),
    then the delete, then the insert of va, which looked at the key before either. *)
Definition s_three : cstate :=
  mkC 100 [] [TIns ka va None; TIns ka vb (Some (mkInsertConfig 500 0)); TDel ka; TScan].

Example C176_instance : begins 200 s_three /\
  exists tr1 s1 tr2 s2, cexec s_three tr1 s1 /\ cexec s1 tr2 s2 /\ (c_now s2 <= 200)%Z /\
    nth_error (c_threads s1) 1 = Some (TInsDone ka vb 600) /\ nth_error (c_threads s1) 2 = Some (TDel ka) /\
    nth_error (c_threads s2) 0 = Some (TInsDone ka va 0) /\ nth_error (c_threads s2) 2 = Some (TDelDone ka) /\
    explained s_three [EIns 1 ka vb 600] s1 /\
    explained s_three ([EIns 1 ka vb 600] ++ [EDel 2 ka; EIns 0 ka va 0]) s2 /\
    ~ explained s_three ([EIns 1 ka vb 600] ++ [EIns 0 ka va 0; EDel 2 ka]) s2.
Proof.
  destruct kva_ok as (A & B & C). split.
  - split; [constructor|]. split; [constructor|]. split; [intros b e H; discriminate|].
    constructor; [|constructor; [|constructor; [|constructor; [|constructor]]]].
    + split; [exact A|]. intros now Hn. left. reflexivity.
    + split; [exact B|]. intros now Hn. cbn [c_now s_three] in Hn. right. unfold expireAtOf.
      cbn [TTL N.eqb Pos.eqb]. change (i64_of_u64 500) with 500%Z. rewrite i64_id; [lia|unfold is_i64; lia].
    + split; apply A.
    + exact Logic.I.
  - exists [LNone; LNone; LNone; LNone; LInsert 1 ka vb],
      (mkC 100 [(wire_key ka, mkEntry 600 (kv ka vb))] [TInsLoaded ka va 0 true; TInsDone ka vb 600; TDel ka; TScan]),
      [LNone; LInsert 0 ka va],
      (mkC 100 [(wire_key ka, mkEntry 0 (kv ka va))] [TInsDone ka va 0; TInsDone ka vb 600; TDelDone ka; TScan]).
    assert (ONCE : forall (P : nat -> Prop), P 0%nat -> P 1%nat -> P 2%nat -> P 3%nat -> (forall i, P (S (S (S (S i))))) -> forall i, P i)
      by (intros P ? ? ? ? ? [|[|[|[|i]]]]; auto).
    split; [|split; [|split; [cbn; lia|split; [reflexivity|split; [reflexivity|split; [reflexivity|split; [reflexivity|split; [|split]]]]]]]].
    + eapply ce_cons; [eapply (st_ins_time 100 _ _ 0 ka va _ _); reflexivity|].
      eapply ce_cons; [eapply (st_ins_time 100 _ _ 1 ka vb _ _); reflexivity|].
      eapply ce_cons; [eapply (st_ins_load' 100 _ _ 0 ka va 0); reflexivity|].
      eapply ce_cons; [eapply (st_ins_load' 100 _ _ 1 ka vb 600); reflexivity|].
      eapply ce_cons; [eapply (st_ins_store 100 _ _ 1 ka vb 600); reflexivity|].
      constructor.
    + eapply ce_cons; [eapply (st_del 100 _ _ 2 ka _); reflexivity|].
      eapply ce_cons; [eapply (st_ins_store 100 _ _ 0 ka va 0); reflexivity|].
      constructor.
    + split.
      * apply ONCE; cbn; auto. intro i. destruct i; reflexivity.
      * intros k K1 K2. unfold last_effect. cbn [fold_left acts_on c_map s_three].
        destruct (DatumKey_eq_dec ka k) as [<-|N]; cbn [holds_after].
        -- eexists. cbn [mload]. rewrite bytes_eqb_refl. split; [reflexivity|]. split; [reflexivity|]. left. reflexivity.
        -- cbn [mload]. destruct (bytes_eqb (wire_key ka) (wire_key k)) eqn:Z; [|reflexivity].
           exfalso. apply bytes_eqb_spec in Z. revert Z. apply wire_key_neq; auto; apply A.
    + split.
      * apply ONCE; cbn; auto. intro i. destruct i; reflexivity.
      * intros k K1 K2. unfold last_effect. cbn [app fold_left acts_on c_map s_three].
        destruct (DatumKey_eq_dec ka k) as [<-|N]; cbn [holds_after].
        -- eexists. cbn [mload]. rewrite bytes_eqb_refl. split; [reflexivity|]. split; [reflexivity|]. left. reflexivity.
        -- cbn [mload]. destruct (bytes_eqb (wire_key ka) (wire_key k)) eqn:Z; [|reflexivity].
           exfalso. apply bytes_eqb_spec in Z. revert Z. apply wire_key_neq; auto; apply A.
    + intros (_ & X). assert (K1 : key_ok ka) by apply A. assert (K2 : key_fits ka) by apply A. specialize (X ka K1 K2).
      unfold last_effect in X. cbn [app fold_left acts_on c_map] in X. destruct (DatumKey_eq_dec ka ka) as [_|N]; [|contradiction].
      cbn [holds_after mload] in X. rewrite bytes_eqb_refl in X. discriminate X.
Qed.

(** A scan begins, the value of the key is replaced, the scan reports the new one. *)
Definition s_scanned : cstate :=
  mkC 100 [(wire_key ka, mkEntry 0 (kv ka va))] [TIns ka vb None; TScan].

Example C176_instance_scan : begins 200 s_scanned /\
  exists tr s ys, cexec s_scanned tr s /\ (c_now s <= 200)%Z /\
    nth_error (c_threads s_scanned) 1 = Some TScan /\ nth_error (c_threads s) 1 = Some (TScanDone ys) /\ ys = [kv ka vb] /\
    key_after s_scanned [] ka /\ key_after s_scanned [EIns 0 ka vb 0] ka /\
    there_after s_scanned [EIns 0 ka vb 0] (kv ka vb) /\ ~ there_after s_scanned [] (kv ka vb).
Proof.
  destruct kva_ok as (A & B & C). split.
  - split; [repeat constructor; intros []|]. split; [repeat constructor; exists ka, va; split; [exact A|]; split; reflexivity|]. split.
    + intros b e H. cbn [c_map s_scanned mload] in H. destruct (bytes_eqb (wire_key ka) b); [|discriminate H]. injection H as <-. left. reflexivity.
    + constructor; [|constructor; [exact Logic.I|constructor]]. split; [exact B|]. intros now _. left. reflexivity.
  - exists [LNone; LNone; LNone; LInsert 0 ka vb; LNone; LNone],
      (mkC 100 [(wire_key ka, mkEntry 0 (kv ka vb))] [TInsDone ka vb 0; TScanDone [kv ka vb]]), [kv ka vb].
    split; [|split; [cbn; lia|split; [reflexivity|split; [reflexivity|split; [reflexivity|split; [|split; [|split]]]]]]].
    + eapply ce_cons; [eapply (st_scan_start 100 _ _ 1 [wire_key ka] _); first [reflexivity|apply Permutation_refl]|].
      eapply ce_cons; [eapply (st_ins_time 100 _ _ 0 ka vb _ _); reflexivity|].
      eapply ce_cons; [eapply (st_ins_load' 100 _ _ 0 ka vb 0); reflexivity|].
      eapply ce_cons; [eapply (st_ins_store 100 _ _ 0 ka vb 0); reflexivity|].
      eapply ce_cons; [eapply (st_scan_live 100 _ _ 1 (wire_key ka) [] [] (mkEntry 0 (kv ka vb)) _); reflexivity|].
      eapply ce_cons; [eapply (st_scan_end 100 _ _ 1 _ _); reflexivity|].
      constructor.
    + exists va, ka, va. split; [reflexivity|]. exists (mkEntry 0 (kv ka va)). split; reflexivity.
    + exists vb, ka, vb. split; [reflexivity|]. reflexivity.
    + exists ka, vb. split; reflexivity.
    + intros (k & v & E & e & L & D). injection E as <- <-. cbn [c_map s_scanned mload] in L. rewrite bytes_eqb_refl in L. injection L as <-.
      discriminate D.
Qed.
