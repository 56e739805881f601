(** Invariants of concurrent executions of the store. *)
From Verif.Base Require Import GoBase GoLemmas Assoc.
From Verif.Model Require Import Codec Store StoreConc.
From Verif.Spec Require Import Wire StoreSpec StoreConcSpec.
From Verif.Proof Require Import CodecP CodecTop StoreP StoreQ.
Open Scope N_scope.

Lemma nth_list_set : forall A (l : list A) i x l' j,
  list_set l i x = Some l' ->
  nth_error l' j = if Nat.eqb i j then Some x else nth_error l j.
Proof.
  induction l as [|y l IH]; simpl; intros i x l' j H; [discriminate|].
  destruct i as [|i].
  - injection H as <-. destruct j; reflexivity.
  - destruct (list_set l i x) as [l''|] eqn:E; [|discriminate]. injection H as <-.
    destruct j as [|j]; simpl; auto.
Qed.

Lemma ekey_wire : forall k, key_fits k -> ekey k = wire_key k.
Proof. intros. unfold ekey. rewrite MarshalKey_spec; auto. Qed.

Section Key.
Variable T0 T : Z.
Variable k : DatumKey.

Definition exp_ok (e : Z) : Prop := e = 0%Z \/ (T < e)%Z.

(** What every goroutine may be, given the assumptions on k. *)
Definition thread_ok (t : thread) : Prop :=
  match t with
  | TIns k' v cfg => kv_ok k' v /\
      (k' = k -> forall now, (T0 <= now <= T)%Z -> exp_ok (expireAtOf now cfg))
  | TInsTimed k' v e => kv_ok k' v /\ (k' = k -> exp_ok e)
  | TInsLoaded k' v e _ => kv_ok k' v /\ (k' = k -> exp_ok e)
  | TInsDone k' v e => kv_ok k' v
  | TDel k' => key_ok k' /\ key_fits k' /\ k' <> k
  | TDelDone _ => True
  | TScan => True
  | TScanning _ p _ => p <> Some (wire_key k)
  | TScanDone _ => True
  end.

Definition map_ok (m : dbmap) : Prop :=
  mwf m /\ Forall slot_wf m /\
  (forall e, mload m (wire_key k) = Some e -> exp_ok (exprireAt e)).

Hypothesis K1 : key_ok k.
Hypothesis K2 : key_fits k.

Lemma wire_neq : forall k', key_ok k' -> key_fits k' -> k' <> k -> wire_key k' <> wire_key k.
Proof.
  intros k' A B Hne C. apply Hne.
  destruct (wire_key_prefix_free k' k [] [] A K1 B K2); auto. rewrite !app_nil_r. auto.
Qed.

Lemma slot_val : forall m k' e, Forall slot_wf m -> key_ok k' -> key_fits k' ->
  mload m (wire_key k') = Some e -> exists v', kv_ok k' v' /\ edatum e = kv k' v'.
Proof.
  intros m k' e F A B L. apply mload_in in L. rewrite Forall_forall in F.
  destruct (F _ L) as (k2 & v & Hkv & Hk & Hd). cbn [fst snd] in *.
  assert (k' = k2).
  { destruct Hkv as (C & D & _).
    destruct (wire_key_prefix_free k' k2 [] [] A C B D); auto. rewrite !app_nil_r. auto. }
  subst. eauto.
Qed.

Lemma not_fresh : forall m v e, Forall slot_wf m -> kv_ok k v ->
  is_fresh k v e (mload m (ekey k)) = false ->
  exists old, mload m (wire_key k) = Some old /\ edatum old = kv k v.
Proof.
  intros m v e F Hkv H. rewrite ekey_wire in H by auto.
  destruct (mload m (wire_key k)) as [old|] eqn:L; [|discriminate].
  destruct (slot_val m k old F K1 K2 L) as (v' & Hkv' & Ed).
  unfold is_fresh in H. rewrite Ed in H. cbn [GetValueAsBytes dvalue kv] in H.
  destruct Hkv as (_ & _ & V1 & V2). destruct Hkv' as (_ & _ & V1' & V2').
  rewrite !MarshalValue_spec in H by auto.
  apply negb_false_iff, andb_true_iff in H. destruct H as [H _].
  apply bytes_eqb_spec in H.
  exists old. split; auto. rewrite Ed.
  destruct (wire_value_prefix_free v v' [] []) as [<- _]; auto. rewrite !app_nil_r. auto.
Qed.

(** The last insert of k that took effect. *)
Lemma last_insert_snoc : forall tr l,
  last_insert (tr ++ [l]) k =
    match l with
    | LInsert _ k' v => if DatumKey_eq_dec k' k then Some v else last_insert tr k
    | LNone => last_insert tr k
    end.
Proof. intros. unfold last_insert. rewrite fold_left_app. reflexivity. Qed.

Definition lin_ok (tr : list label) (m : dbmap) : Prop :=
  forall v, last_insert tr k = Some v ->
    exists e, mload m (wire_key k) = Some e /\ edatum e = kv k v.

Definition done_ok (tr : list label) (ts : list thread) : Prop :=
  forall i v, ((exists e, nth_error ts i = Some (TInsDone k v e)) \/
               (exists e, nth_error ts i = Some (TInsLoaded k v e false))) ->
    In (LInsert i k v) tr.

Definition cinv (tr : list label) (s : cstate) : Prop :=
  (c_now s <= T)%Z ->
  (T0 <= c_now s)%Z /\ map_ok (c_map s) /\ Forall thread_ok (c_threads s) /\
  lin_ok tr (c_map s) /\ done_ok tr (c_threads s).

Lemma forall_set : forall P (ts : list thread) i x ts',
  Forall P ts -> P x -> list_set ts i x = Some ts' -> Forall P ts'.
Proof.
  intros P. induction ts as [|y ts IH]; simpl; intros i x ts' F Px H; [discriminate|].
  inversion F; subst. destruct i.
  - injection H as <-. constructor; auto.
  - destruct (list_set ts i x) eqn:E; [|discriminate]. injection H as <-.
    constructor; auto. eapply (IH i x); eauto.
Qed.

Lemma forall_nth : forall P (ts : list thread) i x,
  Forall P ts -> nth_error ts i = Some x -> P x.
Proof.
  intros P ts i x F H. rewrite Forall_forall in F. apply F. eapply nth_error_In; eauto.
Qed.

Lemma done_keep : forall tr l ts i x ts',
  done_ok tr ts -> list_set ts i x = Some ts' ->
  (forall v, (exists e, x = TInsDone k v e) \/ (exists e, x = TInsLoaded k v e false) ->
     In (LInsert i k v) (tr ++ [l])) ->
  done_ok (tr ++ [l]) ts'.
Proof.
  intros tr l ts i x ts' D S Hx j v Hj.
  rewrite (nth_list_set _ _ _ _ _ j S) in Hj.
  destruct (Nat.eqb i j) eqn:E.
  - apply Nat.eqb_eq in E. subst j. apply Hx.
    destruct Hj as [(e & Hj)|(e & Hj)]; injection Hj as ->; eauto.
  - apply in_or_app. left. apply D. auto.
Qed.

Lemma exp_not_expired : forall now e, (now <= T)%Z -> exp_ok (exprireAt e) -> expired now e = false.
Proof.
  intros now e Hn [H|H]; unfold expired.
  - rewrite H. reflexivity.
  - apply andb_false_iff. right. apply Z.leb_gt. lia.
Qed.

Lemma lin_none : forall tr m, lin_ok tr m -> lin_ok (tr ++ [LNone]) m.
Proof. intros tr m L v H. rewrite last_insert_snoc in H. auto. Qed.

Lemma slot_wf_store : forall m k' v e, kv_ok k' v -> Forall slot_wf m ->
  Forall slot_wf (mstore m (wire_key k') (mkEntry e (kv k' v))).
Proof.
  intros m k' v e Hkv F. unfold mstore. constructor.
  - exists k', v. auto.
  - rewrite Forall_forall in *. intros p Hp. apply F. eapply mdelete_incl; eauto.
Qed.

Lemma slot_wf_delete : forall m b, Forall slot_wf m -> Forall slot_wf (mdelete m b).
Proof.
  intros m b F. rewrite Forall_forall in *. intros p Hp. apply F. eapply mdelete_incl; eauto.
Qed.

Lemma step_cinv : forall tr s l s', cinv tr s -> cstep s l s' -> cinv (tr ++ [l]) s'.
Proof.
  intros tr s l s' I S HT.
  assert (HT0 : (c_now s <= T)%Z).
  { destruct S; cbn [c_now] in *; lia. }
  destruct (I HT0) as (G & (W & F & X) & TH & L & D). clear I.
  split; [destruct S; cbn [c_now] in *; lia|].
  destruct S; cbn [c_now c_map c_threads] in *.
  - (* clock *)
    split; [split; [auto|split; auto]|]. split; [auto|]. split; [apply lin_none; auto|].
    intros i v Hi. apply in_or_app. left. apply D. auto.
  - (* time *)
    pose proof (forall_nth _ _ _ _ TH H) as Ht. cbn in Ht. destruct Ht as [Hkv He].
    split; [split; [auto|split; auto]|].
    split; [eapply forall_set; eauto; split; auto|].
    split; [apply lin_none; auto|].
    eapply done_keep; eauto. intros v0 [(e & E)|(e & E)]; discriminate.
  - (* load *)
    pose proof (forall_nth _ _ _ _ TH H) as Ht. cbn in Ht. destruct Ht as [Hkv He].
    split; [split; [auto|split; auto]|].
    split; [eapply forall_set; eauto; split; auto|].
    destruct (is_fresh k0 v exp (mload m (ekey k0))) eqn:FR.
    + split; [apply lin_none; auto|].
      eapply done_keep; eauto. intros v0 [(e & E)|(e & E)]; discriminate.
    + split.
      * intros v0 Hv0. rewrite last_insert_snoc in Hv0.
        destruct (DatumKey_eq_dec k0 k) as [->|Hne]; [|auto].
        injection Hv0 as <-.
        destruct (not_fresh m v exp F Hkv FR) as (old & A & B). exists old. auto.
      * eapply done_keep; eauto. intros v0 [(e & E)|(e & E)]; try discriminate.
        injection E as -> -> ->. apply in_or_app. right. left. reflexivity.
  - (* store *)
    pose proof (forall_nth _ _ _ _ TH H) as Ht. cbn in Ht. destruct Ht as [Hkv He].
    assert (Ek : ekey k0 = wire_key k0) by (apply ekey_wire; apply Hkv).
    rewrite Ek. change (kvd k0 v) with (kv k0 v).
    split.
    { split; [apply mstore_wf; auto|]. split; [apply slot_wf_store; auto|].
      intros e Le. rewrite mload_mstore in Le.
      destruct (bytes_eqb (wire_key k0) (wire_key k)) eqn:E.
      - injection Le as <-. cbn [exprireAt]. apply He.
        destruct (DatumKey_eq_dec k0 k); auto. exfalso.
        apply bytes_eqb_spec in E. exact (wire_neq k0 (proj1 Hkv) (proj1 (proj2 Hkv)) n E).
      - apply X. auto. }
    split; [eapply forall_set; eauto; exact Hkv|]. split.
    + intros v0 Hv0. rewrite last_insert_snoc in Hv0. rewrite mload_mstore.
      destruct (DatumKey_eq_dec k0 k) as [->|Hne].
      * injection Hv0 as <-. rewrite bytes_eqb_refl. eexists. split; [reflexivity|reflexivity].
      * assert (E : bytes_eqb (wire_key k0) (wire_key k) = false).
        { apply bytes_eqb_neq. apply wire_neq; [apply Hkv|apply Hkv|auto]. }
        rewrite E. auto.
    + eapply done_keep; eauto. intros v0 [(e & E)|(e & E)]; try discriminate.
      injection E as -> -> ->. apply in_or_app. right. left. reflexivity.
  - (* skip *)
    pose proof (forall_nth _ _ _ _ TH H) as Ht. cbn in Ht. destruct Ht as [Hkv He].
    split; [split; [auto|split; auto]|].
    split; [eapply forall_set; eauto; exact Hkv|].
    split; [apply lin_none; auto|].
    eapply done_keep; eauto. intros v0 [(e & E)|(e & E)]; try discriminate.
    injection E as -> -> ->. apply in_or_app. left. apply D. right. eauto.
  - (* delete *)
    pose proof (forall_nth _ _ _ _ TH H) as Ht. cbn in Ht. destruct Ht as (A & B & Hne).
    rewrite (ekey_wire k0 B).
    assert (NE : wire_key k0 <> wire_key k) by (apply wire_neq; auto).
    split.
    { split; [apply mdelete_wf; auto|]. split; [apply slot_wf_delete; auto|].
      intros e Le. rewrite mload_mdelete_other in Le by auto. auto. }
    split; [eapply forall_set; eauto; exact Logic.I|]. split.
    + intros v0 Hv0. rewrite last_insert_snoc in Hv0. rewrite mload_mdelete_other by auto. auto.
    + eapply done_keep; eauto. intros v0 [(e & E)|(e & E)]; discriminate.
  - (* scan start *)
    split; [split; [auto|split; auto]|].
    split; [eapply forall_set; eauto; cbn; discriminate|].
    split; [apply lin_none; auto|].
    eapply done_keep; eauto. intros v0 [(e & E)|(e & E)]; discriminate.
  - (* scan gone *)
    split; [split; [auto|split; auto]|].
    split; [eapply forall_set; eauto; cbn; discriminate|].
    split; [apply lin_none; auto|].
    eapply done_keep; eauto. intros v0 [(e & E)|(e & E)]; discriminate.
  - (* scan live *)
    split; [split; [auto|split; auto]|].
    split; [eapply forall_set; eauto; cbn; discriminate|].
    split; [apply lin_none; auto|].
    eapply done_keep; eauto. intros v0 [(e0 & E)|(e0 & E)]; discriminate.
  - (* scan dead *)
    split; [split; [auto|split; auto]|].
    split.
    { eapply forall_set; eauto. cbn [thread_ok]. intro C. assert (Eb : b = wire_key k) by congruence. subst b.
      specialize (X e H0). rewrite (exp_not_expired now e HT0 X) in H1. discriminate. }
    split; [apply lin_none; auto|].
    eapply done_keep; eauto. intros v0 [(e0 & E)|(e0 & E)]; discriminate.
  - (* scan purge *)
    pose proof (forall_nth _ _ _ _ TH H) as Ht. cbn in Ht.
    assert (NE : b <> wire_key k) by (intro C; apply Ht; rewrite C; reflexivity).
    split.
    { split; [apply mdelete_wf; auto|]. split; [apply slot_wf_delete; auto|].
      intros e Le. rewrite mload_mdelete_other in Le by auto. auto. }
    split; [eapply forall_set; eauto; cbn; discriminate|]. split.
    + intros v0 Hv0. rewrite last_insert_snoc in Hv0. rewrite mload_mdelete_other by auto. auto.
    + eapply done_keep; eauto. intros v0 [(e & E)|(e & E)]; discriminate.
  - (* scan end *)
    split; [split; [auto|split; auto]|].
    split; [eapply forall_set; eauto; exact Logic.I|].
    split; [apply lin_none; auto|].
    eapply done_keep; eauto. intros v0 [(e & E)|(e & E)]; discriminate.
Qed.

Lemma exec_cinv : forall s tr s', cexec s tr s' -> cinv [] s -> cinv tr s'.
Proof.
  induction 1; intro I0; auto. eapply step_cinv; eauto.
Qed.

(** k stays present. *)
Lemma step_present : forall tr s l s', cinv tr s -> cstep s l s' -> (c_now s <= T)%Z ->
  mload (c_map s) (wire_key k) <> None -> mload (c_map s') (wire_key k) <> None.
Proof.
  intros tr s l s' I S HT P.
  destruct (I HT) as (G & (W & F & X) & TH & L & D).
  destruct S; cbn [c_now c_map c_threads] in *; auto.
  - rewrite mload_mstore. destruct (bytes_eqb _ _); [discriminate|auto].
  - pose proof (forall_nth _ _ _ _ TH H) as Ht. cbn in Ht. destruct Ht as (A & B & Hne).
    rewrite (ekey_wire k0 B). rewrite mload_mdelete_other; auto. apply wire_neq; auto.
  - pose proof (forall_nth _ _ _ _ TH H) as Ht. cbn in Ht.
    rewrite mload_mdelete_other; auto. intro C. apply Ht. rewrite C. reflexivity.
Qed.

Lemma last_insert_some : forall tr l, last_insert tr k <> None -> last_insert (tr ++ [l]) k <> None.
Proof.
  intros. rewrite last_insert_snoc. destruct l; auto. destruct (DatumKey_eq_dec k0 k); congruence.
Qed.

(** A scan that started when k was present yields k, with the value it had
    after some prefix of the steps made since. *)
Definition yielded (tr tr' : list label) (ys : list Datum) : Prop :=
  exists v p q, tr' = p ++ q /\ last_insert (tr ++ p) k = Some v /\ In (kv k v) ys.

Definition scan_ok (tr tr' : list label) (t : thread) : Prop :=
  match t with
  | TScan => True
  | TScanning todo _ ys => In (wire_key k) todo \/ yielded tr tr' ys
  | TScanDone ys => yielded tr tr' ys
  | _ => False
  end.

Lemma yielded_more : forall tr tr' l ys, yielded tr tr' ys -> yielded tr (tr' ++ [l]) ys.
Proof.
  intros tr tr' l ys (v & p & q & -> & A & B). exists v, p, (q ++ [l]).
  rewrite app_assoc. auto.
Qed.

Lemma yielded_ys : forall tr tr' ys d, yielded tr tr' ys -> yielded tr tr' (ys ++ [d]).
Proof.
  intros tr tr' ys d (v & p & q & A & B & C). exists v, p, q.
  repeat split; auto. apply in_or_app. auto.
Qed.

Lemma scan_more : forall tr tr' l t, scan_ok tr tr' t -> scan_ok tr (tr' ++ [l]) t.
Proof.
  intros tr tr' l t. destruct t; cbn; auto using yielded_more.
  intros [H|H]; auto using yielded_more.
Qed.

Lemma scan_step : forall tr tr' s l s' j t,
  cinv (tr ++ tr') s -> cstep s l s' -> (c_now s <= T)%Z ->
  last_insert (tr ++ tr') k <> None ->
  nth_error (c_threads s) j = Some t -> scan_ok tr tr' t ->
  exists t', nth_error (c_threads s') j = Some t' /\ scan_ok tr (tr' ++ [l]) t'.
Proof.
  intros tr tr' s l s' j t I S HT HL Hj Ht.
  destruct (I HT) as (G & (W & F & X) & TH & L & D).
  destruct (last_insert (tr ++ tr') k) as [v0|] eqn:LI; [|congruence].
  destruct (L v0 LI) as (e0 & L0 & E0).
  assert (U : forall i x ts', list_set (c_threads s) i x = Some ts' ->
     (nth_error (c_threads s) i = Some t -> scan_ok tr (tr' ++ [l]) x) ->
     exists t', nth_error ts' j = Some t' /\ scan_ok tr (tr' ++ [l]) t').
  { intros i x ts' Hs Hx. rewrite (nth_list_set _ _ _ _ _ j Hs).
    destruct (Nat.eqb i j) eqn:E.
    - apply Nat.eqb_eq in E. subst j. exists x. split; auto.
    - exists t. split; auto using scan_more. }
  destruct S; cbn [c_now c_map c_threads] in *.
  - exists t. split; auto using scan_more.
  - eapply U; eauto. rewrite H. intro C. injection C as <-. contradiction.
  - eapply U; eauto. rewrite H. intro C. injection C as <-. contradiction.
  - eapply U; eauto. rewrite H. intro C. injection C as <-. contradiction.
  - eapply U; eauto. rewrite H. intro C. injection C as <-. contradiction.
  - eapply U; eauto. rewrite H. intro C. injection C as <-. contradiction.
  - eapply U; eauto. intros _. cbn. left.
    eapply Permutation_in; [symmetry; eauto|].
    apply mload_in in L0. apply (in_map fst) in L0. exact L0.
  - eapply U; eauto. rewrite H. intro C. injection C as <-. cbn in *.
    destruct Ht as [[->|Ht]|Ht]; auto using yielded_more. congruence.
  - eapply U; eauto. rewrite H. intro C. injection C as <-. cbn in *.
    destruct Ht as [[->|Ht]|Ht]; auto using yielded_more, yielded_ys.
    right. exists v0, tr', [LNone]. repeat split; auto.
    apply in_or_app. right. left. congruence.
  - eapply U; eauto. rewrite H. intro C. injection C as <-. cbn in *.
    destruct Ht as [[->|Ht]|Ht]; auto using yielded_more.
    exfalso. specialize (X e H0). rewrite (exp_not_expired now e HT X) in H1. discriminate.
  - eapply U; eauto. rewrite H. intro C. injection C as <-. cbn in *.
    destruct Ht as [Ht|Ht]; auto using yielded_more.
  - eapply U; eauto. rewrite H. intro C. injection C as <-. cbn in *.
    destruct Ht as [[]|Ht]; auto using yielded_more.
Qed.

Lemma clock_mono : forall s tr s', cexec s tr s' -> (c_now s <= c_now s')%Z.
Proof.
  induction 1 as [|s tr s' l s'' H IH S]; [lia|].
  destruct S; cbn [c_now] in *; lia.
Qed.

Lemma scan_exec : forall s tr' s', cexec s tr' s' -> forall tr j t,
  cinv tr s -> (c_now s' <= T)%Z -> last_insert tr k <> None ->
  nth_error (c_threads s) j = Some t -> scan_ok tr [] t ->
  exists t', nth_error (c_threads s') j = Some t' /\ scan_ok tr tr' t' /\
    cinv (tr ++ tr') s' /\ last_insert (tr ++ tr') k <> None.
Proof.
  induction 1 as [|s tr' s' l s'' H IH S]; intros tr j t I HT HL Hj Ht.
  - exists t. rewrite app_nil_r. auto.
  - assert (HT' : (c_now s' <= T)%Z).
    { destruct S; cbn [c_now] in *; lia. }
    destruct (IH tr j t I HT' HL Hj Ht) as (t1 & A & B & C & D).
    destruct (scan_step tr tr' s' l s'' j t1 C S HT' D A B) as (t2 & A2 & B2).
    exists t2. split; auto. split; auto. rewrite app_assoc. split.
    + eapply step_cinv; eauto.
    + apply last_insert_some; auto.
Qed.

Lemma start_cinv : forall s, c_now s = T0 -> start_ok T k s -> cinv [] s.
Proof.
  intros s E0 (W & F & X & TH) HT. split; [lia|]. split; [split; [auto|split; auto]|]. split; [|split].
  - rewrite Forall_forall in *. intros t Ht. specialize (TH t Ht).
    rewrite E0 in TH. destruct t; cbn in *; auto; contradiction.
  - intros v H. discriminate.
  - intros i v Hi. exfalso. rewrite Forall_forall in TH.
    destruct Hi as [(e & Hi)|(e & Hi)]; apply nth_error_In in Hi; apply (TH _ Hi).
Qed.

End Key.
