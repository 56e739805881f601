(** C180: is what a scan reports a snapshot of the dataset? *)
From Verif.Base Require Import GoBase GoLemmas Assoc.
From Verif.Model Require Import Codec Store StoreConc.
From Verif.Spec Require Import Wire StoreSpec StoreConcSpec RenewSpec LinearSpec SnapshotSpec.
From Verif.Proof Require Import CodecP CodecTop StoreP StoreQ StoreConcP.
From Verif.Props Require Import StoreProps StoreConcProps ScanProps LinearProps.
From Verif.Props Require RenewProps.
From Coq Require Import Lia.
Open Scope N_scope.

Lemma last_effect_others : forall k k' es p, k <> k' -> (forall x, In x p -> acts_on x = k) ->
  last_effect k' (es ++ p) = last_effect k' es.
Proof.
  intros k k' es p N. induction p as [|x p IH] using rev_ind; intro A; [rewrite app_nil_r; reflexivity|].
  rewrite app_assoc, last_effect_snoc. rewrite (A x) by (apply in_or_app; right; left; reflexivity).
  destruct (DatumKey_eq_dec k k') as [E|_]; [contradiction|]. apply IH. intros y Y. apply A. apply in_or_app. auto.
Qed.

Lemma there_unique : forall s0 es k v v', there_after s0 es (kv k v) -> there_after s0 es (kv k v') -> v = v'.
Proof.
  intros s0 es k v v' (a & b & Q & X) (a' & b' & Q' & X'). injection Q as <- <-. injection Q' as <- <-.
  destruct (last_effect k es) as [[i k' v2 dl|i k']|]; [congruence|destruct X|].
  destruct X as (e & La & Da), X' as (e' & Lb & Db). assert (QQ : kv k v = kv k v') by congruence. injection QQ as ->. reflexivity.
Qed.

Lemma there_same : forall s0 es es' k v, last_effect k es = last_effect k es' ->
  there_after s0 es (kv k v) -> there_after s0 es' (kv k v).
Proof. intros s0 es es' k v L (a & b & Q & X). exists a, b. split; [exact Q|]. injection Q as <- <-. rewrite <- L. exact X. Qed.

Lemma one_key_core : forall s0 es1 es2 ys k, NoDup (map dkey ys) ->
  (forall d, In d ys -> exists p q, es2 = p ++ q /\ there_after s0 (es1 ++ p) d) ->
  (forall k, key_ok k -> key_fits k -> (forall p q, es2 = p ++ q -> key_after s0 (es1 ++ p) k) -> exists v, In (kv k v) ys) ->
  (forall x, In x es2 -> acts_on x = k) -> key_ok k -> key_fits k ->
  exists p r, es2 = p ++ r /\ snapshot s0 (es1 ++ p) ys.
Proof.
  intros s0 es1 es2 ys k ND SO CM AL K1 K2.
  assert (OT : forall k' p r, k <> k' -> es2 = p ++ r -> last_effect k' (es1 ++ p) = last_effect k' es1).
  { intros k' p r N Q. apply (last_effect_others k); [exact N|]. intros x X. apply AL. rewrite Q. apply in_or_app. auto. }
  (* the other keys *)
  assert (OK : forall k' v p r, k <> k' -> es2 = p ++ r -> key_ok k' -> key_fits k' ->
     (In (kv k' v) ys <-> there_after s0 (es1 ++ p) (kv k' v))).
  { intros k' v p r N Q A1 A2. split.
    - intro X. destruct (SO _ X) as (p' & r' & Q' & TA). eapply there_same; [|exact TA].
      rewrite (OT k' p' r' N Q'), (OT k' p r N Q). reflexivity.
    - intro TA. destruct (CM k' A1 A2) as (v' & X).
      { intros p' r' Q'. exists v. eapply there_same; [|exact TA]. rewrite (OT k' p' r' N Q'), (OT k' p r N Q). reflexivity. }
      destruct (SO _ X) as (p' & r' & Q' & TA'). replace v with v'; [exact X|]. eapply there_unique; [|exact TA].
      eapply there_same; [|exact TA']. rewrite (OT k' p' r' N Q'), (OT k' p r N Q). reflexivity. }
  assert (GO : forall p r, es2 = p ++ r -> (forall v, In (kv k v) ys <-> there_after s0 (es1 ++ p) (kv k v)) ->
     exists p r, es2 = p ++ r /\ snapshot s0 (es1 ++ p) ys).
  { intros p r Q H. exists p, r. split; [exact Q|]. intros k' v A1 A2. destruct (DatumKey_eq_dec k k') as [<-|N]; [apply H|eapply OK; eauto]. }
  assert (UN : forall v v', In (kv k v) ys -> In (kv k v') ys -> v = v').
  { clear -ND. intros v v'. induction ys as [|d ys IH]; [intros []|]. cbn [map] in ND. inversion ND as [|? ? N1 N2]; subst.
    intros [->|X] [Q|Y].
    - injection Q as ->. reflexivity.
    - exfalso. apply N1. apply (in_map dkey) in Y. exact Y.
    - subst d. exfalso. apply N1. apply (in_map dkey) in X. exact X.
    - apply IH; auto. }
  destruct (in_dec (fun a b : option DatumKey => ltac:(decide equality; apply DatumKey_eq_dec) : {a = b} + {a <> b}) (Some k) (map dkey ys)) as [Y|NY].
  - apply in_map_iff in Y. destruct Y as (d & Q & D). destruct (SO d D) as (p & r & Qp & TA). pose proof TA as (k' & v & -> & _).
    cbn in Q. injection Q as ->. apply (GO p r Qp). intro v'. split.
    + intro X. rewrite (UN v' v X D). exact TA.
    + intro TA'. rewrite (there_unique _ _ _ _ _ TA' TA). exact D.
  - assert (NO : forall v, ~ In (kv k v) ys) by (intros v X; apply NY; apply (in_map dkey) in X; exact X).
    assert (DE : (exists p i r, es2 = p ++ EDel i k :: r) \/ (forall x, In x es2 -> exists i v dl, x = EIns i k v dl)).
    { clear -AL. induction es2 as [|x es IH]; [right; intros ? []|]. pose proof (AL x (or_introl eq_refl)) as Q.
      destruct x as [i k' v dl|i k']; cbn in Q; subst k'; [|left; exists [], i, es; reflexivity].
      destruct IH as [(p & i' & r & ->)|IH]; [intros y Y; apply AL; right; exact Y|left; exists (EIns i k v dl :: p), i', r; reflexivity|].
      right. intros y [<-|Y]; [eauto|apply IH; exact Y]. }
    destruct DE as [(p & i & r & Q)|DE].
    + apply (GO (p ++ [EDel i k]) r); [rewrite <- app_assoc; exact Q|]. intro v. split; [intro X; destruct (NO v X)|].
      intros (a & b & E & X). injection E as <- <-. rewrite app_assoc, last_effect_snoc in X. cbn [acts_on] in X.
      destruct (DatumKey_eq_dec k k); [destruct X|contradiction].
    + apply (GO [] es2 eq_refl). intro v. split; [intro X; destruct (NO v X)|]. rewrite app_nil_r. intro TA. exfalso.
      destruct (CM k K1 K2) as (v' & X); [|exact (NO v' X)]. intros p r Q. destruct p as [|x p] using rev_ind; [exists v; rewrite app_nil_r; exact TA|].
      clear IHp. destruct (DE x) as (i & v' & dl & ->); [rewrite Q; apply in_or_app; left; apply in_or_app; right; left; reflexivity|].
      exists v', k, v'. split; [reflexivity|]. rewrite app_assoc, last_effect_snoc. cbn [acts_on]. destruct (DatumKey_eq_dec k k); [reflexivity|contradiction].
Qed.

(** C180.  If everything that acts during the scan acts on one key, the scan reports exactly what
    the dataset held at one moment of the scan. *)
Theorem C180_one_key_partial : forall T s0 tr1 s1 tr2 s2 j ys,
  begins T s0 -> cexec s0 tr1 s1 -> cexec s1 tr2 s2 -> (c_now s2 <= T)%Z ->
  nth_error (c_threads s1) j = Some TScan -> nth_error (c_threads s2) j = Some (TScanDone ys) ->
  exists es1 es2, explained s0 es1 s1 /\ explained s0 (es1 ++ es2) s2 /\
    forall k, (forall x, In x es2 -> acts_on x = k) -> key_ok k -> key_fits k ->
      exists p r, es2 = p ++ r /\ snapshot s0 (es1 ++ p) ys.
Proof.
  intros T s0 tr1 s1 tr2 s2 j ys B E1 E2 HT J1 J2.
  assert (CO : calls_ok s0).
  { destruct B as (W & F & _ & TH). split; [exact W|]. split; [exact F|]. rewrite Forall_forall in *. intros t X. specialize (TH t X).
    destruct t; cbn [caller]; try exact TH; apply TH. }
  destruct (C147_live s0 tr1 s1 j tr2 s2 ys CO E1 J1 E2 J2) as (ND & LV).
  destruct (C176_scans T s0 tr1 s1 tr2 s2 j ys B E1 E2 HT J1 J2) as (es1 & es2 & X1 & X2 & SO & CM).
  exists es1, es2. split; [exact X1|]. split; [exact X2|]. intros k AL K1 K2.
  exact (one_key_core s0 es1 es2 ys k ND SO CM AL K1 K2).
Qed.
Print Assumptions C180_one_key_partial.

Lemma calls_core : forall s0 es1 s1 es2 s2 k, explained s0 es1 s1 -> explained s0 (es1 ++ es2) s2 ->
  (forall i k', may_have_changed (nth_error (c_threads s2) i) = Some k' ->
     k' = k \/ call_returned (nth_error (c_threads s1) i)) ->
  forall x, In x es2 -> acts_on x = k.
Proof.
  intros s0 es1 s1 es2 s2 k X1 X2 CH.
  intros x X. pose proof (proj1 X1 (who_acts x)) as O1. pose proof (proj1 X2 (who_acts x)) as O2. specialize (CH (who_acts x)).
  assert (IN : In x (effects_of (who_acts x) es2)) by (unfold effects_of; apply filter_In; split; [exact X|apply Nat.eqb_refl]).
  unfold effects_of in O2. rewrite filter_app in O2. fold (effects_of (who_acts x) es1) (effects_of (who_acts x) es2) in O2.
  generalize dependent (effects_of (who_acts x) es2). intros l2 O2 IN. generalize dependent (effects_of (who_acts x) es1). intros l1 O1 O2.
  assert (KX : exists k', may_have_changed (nth_error (c_threads s2) (who_acts x)) = Some k' /\ acts_on x = k' /\ (length (l1 ++ l2) <= 1)%nat).
  { assert (Z : forall y, l1 ++ l2 = [y] -> x = y).
    { intros y Q. assert (In x (l1 ++ l2)) as Y by (apply in_or_app; auto). rewrite Q in Y. destruct Y as [<-|[]]. reflexivity. }
    assert (NZ : l1 ++ l2 <> []) by (intro Q; apply app_eq_nil in Q; destruct Q as [_ Q]; rewrite Q in IN; destruct IN).
    destruct (nth_error (c_threads s2) (who_acts x)) as [[]|]; cbn [acted_once] in O2; cbn [may_have_changed]; try contradiction.
    - destruct O2 as [O2|O2]; [contradiction|]. eexists. split; [reflexivity|]. split; [rewrite (Z _ O2); reflexivity|rewrite O2; auto].
    - eexists. split; [reflexivity|]. split; [rewrite (Z _ O2); reflexivity|rewrite O2; auto].
    - eexists. split; [reflexivity|]. split; [rewrite (Z _ O2); reflexivity|rewrite O2; auto]. }
  destruct KX as (k' & M & -> & L). destruct (CH k' M) as [->|RT]; [reflexivity|]. exfalso. rewrite app_length in L.
  assert (L1 : length l1 = 1%nat) by (destruct (nth_error (c_threads s1) (who_acts x)) as [[]|]; cbn in RT; try contradiction; cbn in O1; rewrite O1; reflexivity).
  destruct l2; [destruct IN|]. cbn in L. lia.
Qed.

(** In terms of the calls: those that may have acted on another key by the end of the scan had
    returned when it began. *)
Theorem C180_calls_partial : forall T s0 tr1 s1 tr2 s2 j ys k,
  begins T s0 -> cexec s0 tr1 s1 -> cexec s1 tr2 s2 -> (c_now s2 <= T)%Z ->
  nth_error (c_threads s1) j = Some TScan -> nth_error (c_threads s2) j = Some (TScanDone ys) ->
  key_ok k -> key_fits k ->
  (forall i k', may_have_changed (nth_error (c_threads s2) i) = Some k' ->
     k' = k \/ call_returned (nth_error (c_threads s1) i)) ->
  exists es1 p r, explained s0 es1 s1 /\ explained s0 (es1 ++ p ++ r) s2 /\ snapshot s0 (es1 ++ p) ys.
Proof.
  intros T s0 tr1 s1 tr2 s2 j ys k B E1 E2 HT J1 J2 K1 K2 CH.
  destruct (C180_one_key_partial T s0 tr1 s1 tr2 s2 j ys B E1 E2 HT J1 J2) as (es1 & es2 & X1 & X2 & H).
  destruct (H k (calls_core s0 es1 s1 es2 s2 k X1 X2 CH) K1 K2) as (p & r & -> & S). exists es1, p, r. auto.
Qed.
Print Assumptions C180_calls_partial.

(** In particular if nothing acts during the scan, or one call. *)
Theorem C180_one_call : forall T s0 tr1 s1 tr2 s2 j ys,
  begins T s0 -> cexec s0 tr1 s1 -> cexec s1 tr2 s2 -> (c_now s2 <= T)%Z ->
  nth_error (c_threads s1) j = Some TScan -> nth_error (c_threads s2) j = Some (TScanDone ys) ->
  exists es1 es2, explained s0 es1 s1 /\ explained s0 (es1 ++ es2) s2 /\
    ((length es2 <= 1)%nat -> (forall x, In x es2 -> key_ok (acts_on x) /\ key_fits (acts_on x)) ->
     snapshot s0 es1 ys \/ snapshot s0 (es1 ++ es2) ys).
Proof.
  intros T s0 tr1 s1 tr2 s2 j ys B E1 E2 HT J1 J2.
  destruct (C180_one_key_partial T s0 tr1 s1 tr2 s2 j ys B E1 E2 HT J1 J2) as (es1 & es2 & X1 & X2 & H).
  exists es1, es2. split; [exact X1|]. split; [exact X2|]. intros L KO. destruct kva_ok as (KA & _ & _).
  assert (Z : exists p r, es2 = p ++ r /\ snapshot s0 (es1 ++ p) ys).
  { destruct es2 as [|x [|y es2]]; [|destruct (KO x (or_introl eq_refl)); apply (H (acts_on x)); [intros y [<-|[]]; reflexivity|auto|auto]|cbn in L; lia].
    apply (H ka); [intros y []|apply KA|apply KA]. }
  destruct Z as (p & r & Q & S). destruct p as [|a p]; [left; rewrite app_nil_r in S; exact S|].
  right. destruct r as [|b r]; [rewrite app_nil_r in Q; rewrite Q; exact S|]. exfalso. rewrite Q, app_length in L. cbn in L. lia.
Qed.
Print Assumptions C180_one_call.

(** Two keys are in the dataset; a scan reads the first, then it is deleted, then the second one is
    replaced, then the scan reads the second. *)
Definition two_keys : dbmap := [(wire_key ka, mkEntry 0 (kv ka va)); (wire_key kb, mkEntry 0 (kv kb va))].
Definition s_torn : cstate := mkC 100 two_keys [TScan; TDel ka; TIns kb vb None].
Definition torn : list cstate :=
  let m1 := [(wire_key kb, mkEntry 0 (kv kb va))] in
  let m2 := [(wire_key kb, mkEntry 0 (kv kb vb))] in
  [mkC 100 two_keys [TScanning [wire_key ka; wire_key kb] None []; TDel ka; TIns kb vb None];
   mkC 100 two_keys [TScanning [wire_key kb] None [kv ka va]; TDel ka; TIns kb vb None];
   mkC 100 m1 [TScanning [wire_key kb] None [kv ka va]; TDelDone ka; TIns kb vb None];
   mkC 100 m1 [TScanning [wire_key kb] None [kv ka va]; TDelDone ka; TInsTimed kb vb 0];
   mkC 100 m1 [TScanning [wire_key kb] None [kv ka va]; TDelDone ka; TInsLoaded kb vb 0 true];
   mkC 100 m2 [TScanning [wire_key kb] None [kv ka va]; TDelDone ka; TInsDone kb vb 0];
   mkC 100 m2 [TScanning [] None [kv ka va; kv kb vb]; TDelDone ka; TInsDone kb vb 0];
   mkC 100 m2 [TScanDone [kv ka va; kv kb vb]; TDelDone ka; TInsDone kb vb 0]].

(** Without the condition a scan is no snapshot: at no moment was all it reports there. *)
Theorem C180_snapshot_refuted : exists T s0 l s ys,
  begins T s0 /\ path s0 l /\ last l s0 = s /\ (c_now s <= T)%Z /\
  nth_error (c_threads s0) 0 = Some TScan /\ nth_error (c_threads s) 0 = Some (TScanDone ys) /\
  forall s', In s' (s0 :: l) -> exists d, In d ys /\ ~ live_at s' d.
Proof.
  destruct kva_ok as (A & B & C). assert (KB : kv_ok kb vb) by (unfold kv_ok in *; tauto).
  assert (NE : wire_key ka <> wire_key kb) by (vm_compute; discriminate).
  exists 200%Z, s_torn, torn, (last torn s_torn), [kv ka va; kv kb vb].
  split; [|split; [|split; [reflexivity|split; [cbn; lia|split; [reflexivity|split; [reflexivity|]]]]]].
  - split; [|split; [|split]].
    + unfold mwf, mkeys. cbn [c_map s_torn two_keys map fst]. repeat constructor; cbn [In]; intuition.
    + constructor; [exists ka, va; auto|]. constructor; [exists kb, va; auto|]. constructor.
    + intros b e H. left. cbn [c_map s_torn two_keys mload] in H.
      destruct (bytes_eqb (wire_key ka) b); [injection H as <-; reflexivity|].
      destruct (bytes_eqb (wire_key kb) b); [injection H as <-; reflexivity|discriminate].
    + constructor; [exact Logic.I|]. constructor; [split; apply A|]. constructor; [|constructor]. split; [exact KB|]. intros now _. left. reflexivity.
  - cbn [path torn]. repeat split.
    + eexists. eapply (st_scan_start 100 _ _ 0 [wire_key ka; wire_key kb] _); first [reflexivity|apply Permutation_refl].
    + eexists. eapply (st_scan_live 100 _ _ 0 (wire_key ka) [wire_key kb] [] (mkEntry 0 (kv ka va)) _); reflexivity.
    + eexists. eapply (st_del 100 two_keys _ 1 ka _); reflexivity.
    + eexists. eapply (st_ins_time 100 _ _ 2 kb vb _ _); reflexivity.
    + eexists. eapply (st_ins_load' 100 _ _ 2 kb vb 0); reflexivity.
    + eexists. eapply (st_ins_store 100 [(wire_key kb, mkEntry 0 (kv kb va))] _ 2 kb vb 0); reflexivity.
    + eexists. eapply (st_scan_live 100 _ _ 0 (wire_key kb) [] [kv ka va] (mkEntry 0 (kv kb vb)) _); reflexivity.
    + eexists. eapply (st_scan_end 100 _ _ 0 _ _); reflexivity.
  - assert (N1 : forall t, ~ live_at (mkC 100 two_keys t) (kv kb vb)).
    { intros t (k & v & e & Ek & L & Ee & _). unfold kv in Ek. injection Ek as <- <-.
      replace (mload _ _) with (Some (mkEntry 0 (kv kb va))) in L by reflexivity. injection L as <-. discriminate Ee. }
    assert (N2 : forall v t, ~ live_at (mkC 100 [(wire_key kb, mkEntry 0 (kv kb v))] t) (kv ka va)).
    { intros v t (k & v' & e & Ek & L & _). unfold kv in Ek. injection Ek as <- <-. vm_compute in L. discriminate. }
    assert (F1 : forall t, exists d, In d [kv ka va; kv kb vb] /\ ~ live_at (mkC 100 two_keys t) d)
      by (intro t; exists (kv kb vb); split; [right; left; reflexivity|apply N1]).
    assert (F2 : forall v t, exists d, In d [kv ka va; kv kb vb] /\ ~ live_at (mkC 100 [(wire_key kb, mkEntry 0 (kv kb v))] t) d)
      by (intros v t; exists (kv ka va); split; [left; reflexivity|apply N2]).
    intros s' H. cbn [In torn] in H.
    do 3 (destruct H as [<-|H]; [exact (F1 _)|]). do 3 (destruct H as [<-|H]; [exact (F2 va _)|]).
    do 3 (destruct H as [<-|H]; [exact (F2 vb _)|]).
    destruct H.
Qed.
Print Assumptions C180_snapshot_refuted.

(** The run of C176_instance_scan: one call acts during the scan, on one key; the report is the
    dataset after it, not before. *)
Example C180_instance : begins 200 s_scanned /\
  (exists tr s, cexec s_scanned tr s /\ (c_now s <= 200)%Z /\
    nth_error (c_threads s_scanned) 1 = Some TScan /\ nth_error (c_threads s) 1 = Some (TScanDone [kv ka vb])) /\
  snapshot s_scanned [EIns 0 ka vb 0] [kv ka vb] /\ ~ snapshot s_scanned [] [kv ka vb].
Proof.
  destruct kva_ok as (KA & _ & _).
  destruct C176_instance_scan as (A & tr & s & ys & X & H & J1 & J2 & -> & _ & _ & TA & NT). split; [exact A|].
  split; [exists tr, s; auto|]. split.
  - intros k v K1 K2. split.
    + intros [Q|[]]. rewrite <- Q. exact TA.
    + intro TB. destruct (DatumKey_eq_dec ka k) as [<-|N].
      * left. rewrite (there_unique _ _ _ _ _ TB TA). reflexivity.
      * exfalso. destruct TB as (a & b & Q & Y). injection Q as <- <-. unfold last_effect in Y. cbn [fold_left acts_on] in Y.
        destruct (DatumKey_eq_dec ka k) as [E|_]; [contradiction|]. destruct Y as (e & L & _). cbn [c_map s_scanned mload] in L.
        destruct (bytes_eqb (wire_key ka) (wire_key k)) eqn:Z; [|discriminate L].
        apply bytes_eqb_spec in Z. revert Z. apply RenewProps.wire_key_neq; auto; apply KA.
  - intro S. apply NT. apply (S ka vb); [apply KA|apply KA|left; reflexivity].
Qed.

(** Its calls: none has acted on another key than ka. *)
Example C180_instance_calls : exists tr s, cexec s_scanned tr s /\ (c_now s <= 200)%Z /\
  nth_error (c_threads s) 1 = Some (TScanDone [kv ka vb]) /\
  may_have_changed (nth_error (c_threads s) 0) = Some ka /\
  (forall i k', may_have_changed (nth_error (c_threads s) i) = Some k' ->
     k' = ka \/ call_returned (nth_error (c_threads s_scanned) i)).
Proof.
  exists [LNone; LNone; LNone; LInsert 0 ka vb; LNone; LNone],
    (mkC 100 [(wire_key ka, mkEntry 0 (kv ka vb))] [TInsDone ka vb 0; TScanDone [kv ka vb]]).
  split; [|split; [cbn; lia|split; [reflexivity|split; [reflexivity|]]]].
  - eapply ce_cons; [eapply (st_scan_start 100 _ _ 1 [wire_key ka] _); first [reflexivity|apply Permutation_refl]|].
    eapply ce_cons; [eapply (st_ins_time 100 _ _ 0 ka vb _ _); reflexivity|].
    eapply ce_cons; [eapply (st_ins_load' 100 _ _ 0 ka vb 0); reflexivity|].
    eapply ce_cons; [eapply (st_ins_store 100 _ _ 0 ka vb 0); reflexivity|].
    eapply ce_cons; [eapply (st_scan_live 100 _ _ 1 (wire_key ka) [] [] (mkEntry 0 (kv ka vb)) _); reflexivity|].
    eapply ce_cons; [eapply (st_scan_end 100 _ _ 1 _ _); reflexivity|].
    constructor.
  - intros [|[|[|i]]] k' H; cbn in H; try discriminate H. injection H as <-. left. reflexivity.
Qed.

(** Neither do only deletes nor only inserts make it a snapshot.  Deletes: a scan reads ka, both keys
    are deleted, first ka, and the scan does not find kb. *)
Definition s_deletes : cstate := mkC 100 two_keys [TScan; TDel ka; TDel kb].
Definition torn_deletes : list cstate :=
  let m1 := [(wire_key kb, mkEntry 0 (kv kb va))] in
  [mkC 100 two_keys [TScanning [wire_key ka; wire_key kb] None []; TDel ka; TDel kb];
   mkC 100 two_keys [TScanning [wire_key kb] None [kv ka va]; TDel ka; TDel kb];
   mkC 100 m1 [TScanning [wire_key kb] None [kv ka va]; TDelDone ka; TDel kb];
   mkC 100 [] [TScanning [wire_key kb] None [kv ka va]; TDelDone ka; TDelDone kb];
   mkC 100 [] [TScanning [] None [kv ka va]; TDelDone ka; TDelDone kb];
   mkC 100 [] [TScanDone [kv ka va]; TDelDone ka; TDelDone kb]].

Theorem C180_deletes_refuted : exists T s0 l s ys,
  begins T s0 /\ path s0 l /\ last l s0 = s /\ (c_now s <= T)%Z /\
  nth_error (c_threads s0) 0 = Some TScan /\ nth_error (c_threads s) 0 = Some (TScanDone ys) /\
  (forall i k v c, nth_error (c_threads s0) i <> Some (TIns k v c)) /\
  forall s', In s' (s0 :: l) -> exists d, ~ (In d ys <-> live_at s' d).
Proof.
  destruct kva_ok as (A & B & C).
  assert (NE : wire_key ka <> wire_key kb) by (vm_compute; discriminate).
  exists 200%Z, s_deletes, torn_deletes, (last torn_deletes s_deletes), [kv ka va].
  split; [|split; [|split; [reflexivity|split; [cbn; lia|split; [reflexivity|split; [reflexivity|split]]]]]].
  - split; [|split; [|split]].
    + unfold mwf, mkeys. cbn [c_map s_deletes two_keys map fst]. repeat constructor; cbn [In]; intuition.
    + constructor; [exists ka, va; auto|]. constructor; [exists kb, va; auto|]. constructor.
    + intros b e H. left. cbn [c_map s_deletes two_keys mload] in H.
      destruct (bytes_eqb (wire_key ka) b); [injection H as <-; reflexivity|].
      destruct (bytes_eqb (wire_key kb) b); [injection H as <-; reflexivity|discriminate].
    + constructor; [exact Logic.I|]. constructor; [split; apply A|]. constructor; [split; apply C|constructor].
  - cbn [path torn_deletes]. repeat split.
    + eexists. eapply (st_scan_start 100 _ _ 0 [wire_key ka; wire_key kb] _); first [reflexivity|apply Permutation_refl].
    + eexists. eapply (st_scan_live 100 _ _ 0 (wire_key ka) [wire_key kb] [] (mkEntry 0 (kv ka va)) _); reflexivity.
    + eexists. eapply (st_del 100 two_keys _ 1 ka _); reflexivity.
    + eexists. eapply (st_del 100 [(wire_key kb, mkEntry 0 (kv kb va))] _ 2 kb _); reflexivity.
    + eexists. eapply (st_scan_gone 100 _ _ 0 (wire_key kb) [] [kv ka va] _); reflexivity.
    + eexists. eapply (st_scan_end 100 _ _ 0 _ _); reflexivity.
  - intros [|[|[|[|i]]]] k v c H; discriminate H.
  - assert (F1 : forall t, exists d, ~ (In d [kv ka va] <-> live_at (mkC 100 two_keys t) d)).
    { intro t. exists (kv kb va). intros [_ H]. destruct H as [H|[]]; [|discriminate H].
      exists kb, va, (mkEntry 0 (kv kb va)). split; [reflexivity|]. split; [reflexivity|]. split; [reflexivity|left; reflexivity]. }
    assert (F2 : forall t, exists d, ~ (In d [kv ka va] <-> live_at (mkC 100 [(wire_key kb, mkEntry 0 (kv kb va))] t) d)).
    { intro t. exists (kv ka va). intros [H _]. destruct (H (or_introl eq_refl)) as (k & v' & e & Ek & L & _).
      unfold kv in Ek. injection Ek as <- <-. vm_compute in L. discriminate. }
    assert (F3 : forall t, exists d, ~ (In d [kv ka va] <-> live_at (mkC 100 [] t) d)).
    { intro t. exists (kv ka va). intros [H _]. destruct (H (or_introl eq_refl)) as (k & v' & e & Ek & L & _). discriminate L. }
    intros s' H. cbn [In torn_deletes] in H.
    do 3 (destruct H as [<-|H]; [exact (F1 _)|]). destruct H as [<-|H]; [exact (F2 _)|].
    do 3 (destruct H as [<-|H]; [exact (F3 _)|]). destruct H.
Qed.
Print Assumptions C180_deletes_refuted.

(** Inserts: a scan reads ka, then ka is replaced, then kb, then the scan reads kb. *)
Definition s_inserts : cstate := mkC 100 two_keys [TScan; TIns ka vb None; TIns kb vb None].
Definition torn_inserts : list cstate :=
  let m1 := mstore two_keys (ekey ka) (mkEntry 0 (kvd ka vb)) in
  let m2 := mstore m1 (ekey kb) (mkEntry 0 (kvd kb vb)) in
  let sc := TScanning [wire_key kb] None [kv ka va] in
  [mkC 100 two_keys [TScanning [wire_key ka; wire_key kb] None []; TIns ka vb None; TIns kb vb None];
   mkC 100 two_keys [sc; TIns ka vb None; TIns kb vb None];
   mkC 100 two_keys [sc; TInsTimed ka vb 0; TIns kb vb None];
   mkC 100 two_keys [sc; TInsLoaded ka vb 0 true; TIns kb vb None];
   mkC 100 m1 [sc; TInsDone ka vb 0; TIns kb vb None];
   mkC 100 m1 [sc; TInsDone ka vb 0; TInsTimed kb vb 0];
   mkC 100 m1 [sc; TInsDone ka vb 0; TInsLoaded kb vb 0 true];
   mkC 100 m2 [sc; TInsDone ka vb 0; TInsDone kb vb 0];
   mkC 100 m2 [TScanning [] None [kv ka va; kv kb vb]; TInsDone ka vb 0; TInsDone kb vb 0];
   mkC 100 m2 [TScanDone [kv ka va; kv kb vb]; TInsDone ka vb 0; TInsDone kb vb 0]].

Theorem C180_inserts_refuted : exists T s0 l s ys,
  begins T s0 /\ path s0 l /\ last l s0 = s /\ (c_now s <= T)%Z /\
  nth_error (c_threads s0) 0 = Some TScan /\ nth_error (c_threads s) 0 = Some (TScanDone ys) /\
  (forall i k, nth_error (c_threads s0) i <> Some (TDel k)) /\
  forall s', In s' (s0 :: l) -> exists d, In d ys /\ ~ live_at s' d.
Proof.
  destruct kva_ok as (A & B & C). assert (KB : kv_ok kb vb) by (unfold kv_ok in *; tauto).
  assert (NE : wire_key ka <> wire_key kb) by (vm_compute; discriminate).
  exists 200%Z, s_inserts, torn_inserts, (last torn_inserts s_inserts), [kv ka va; kv kb vb].
  split; [|split; [|split; [reflexivity|split; [cbn; lia|split; [reflexivity|split; [reflexivity|split]]]]]].
  - split; [|split; [|split]].
    + unfold mwf, mkeys. cbn [c_map s_inserts two_keys map fst]. repeat constructor; cbn [In]; intuition.
    + constructor; [exists ka, va; auto|]. constructor; [exists kb, va; auto|]. constructor.
    + intros b e H. left. cbn [c_map s_inserts two_keys mload] in H.
      destruct (bytes_eqb (wire_key ka) b); [injection H as <-; reflexivity|].
      destruct (bytes_eqb (wire_key kb) b); [injection H as <-; reflexivity|discriminate].
    + constructor; [exact Logic.I|]. constructor; [split; [exact B|intros now _; left; reflexivity]|].
      constructor; [split; [exact KB|intros now _; left; reflexivity]|constructor].
  - cbn [path torn_inserts]. repeat split.
    + eexists. eapply (st_scan_start 100 _ _ 0 [wire_key ka; wire_key kb] _); first [reflexivity|apply Permutation_refl].
    + eexists. eapply (st_scan_live 100 _ _ 0 (wire_key ka) [wire_key kb] [] (mkEntry 0 (kv ka va)) _); reflexivity.
    + eexists. eapply (st_ins_time 100 _ _ 1 ka vb _ _); reflexivity.
    + eexists. eapply (st_ins_load' 100 _ _ 1 ka vb 0); reflexivity.
    + eexists. eapply (st_ins_store 100 two_keys _ 1 ka vb 0); reflexivity.
    + eexists. eapply (st_ins_time 100 _ _ 2 kb vb _ _); reflexivity.
    + eexists. eapply (st_ins_load' 100 _ _ 2 kb vb 0); reflexivity.
    + eexists. eapply (st_ins_store 100 (mstore two_keys (ekey ka) (mkEntry 0 (kvd ka vb))) _ 2 kb vb 0); reflexivity.
    + eexists. eapply (st_scan_live 100 _ _ 0 (wire_key kb) [] [kv ka va] (mkEntry 0 (kv kb vb)) _); reflexivity.
    + eexists. eapply (st_scan_end 100 _ _ 0 _ _); reflexivity.
  - intros [|[|[|[|i]]]] k H; discriminate H.
  - assert (F1 : forall t, exists d, In d [kv ka va; kv kb vb] /\ ~ live_at (mkC 100 two_keys t) d).
    { intro t. exists (kv kb vb). split; [right; left; reflexivity|]. intros (k & v & e & Ek & L & Ee & _). unfold kv in Ek. injection Ek as <- <-.
      replace (mload _ _) with (Some (mkEntry 0 (kv kb va))) in L by reflexivity. injection L as <-. discriminate Ee. }
    assert (F2 : forall m t, mload m (wire_key ka) = Some (mkEntry 0 (kv ka vb)) -> exists d, In d [kv ka va; kv kb vb] /\ ~ live_at (mkC 100 m t) d).
    { intros m t Q. exists (kv ka va). split; [left; reflexivity|]. intros (k & v & e & Ek & L & Ee & _). unfold kv in Ek. injection Ek as <- <-.
      cbn [c_map] in L. rewrite Q in L. injection L as <-. discriminate Ee. }
    intros s' H. cbn [In torn_inserts] in H.
    do 5 (destruct H as [<-|H]; [exact (F1 _)|]). do 6 (destruct H as [<-|H]; [apply F2; vm_compute; reflexivity|]). destruct H.
Qed.
Print Assumptions C180_inserts_refuted.
