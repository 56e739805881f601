(** C181: one scan after another does not go back in time. *)
From Verif.Base Require Import GoBase GoLemmas Assoc.
From Verif.Model Require Import Codec Store StoreConc.
From Verif.Spec Require Import Wire StoreSpec StoreConcSpec RenewSpec LinearSpec SnapshotSpec.
From Verif.Proof Require Import CodecP CodecTop StoreP StoreQ StoreConcP.
From Verif.Props Require Import StoreProps StoreConcProps LinearProps.
From Verif.Props Require BusySearchProps SnapshotProps.
From Coq Require Import Lia.
Open Scope N_scope.

Lemma scan_part : forall T s0 es1 s1 tr s2 j ys, linear T s0 es1 s1 -> cexec s1 tr s2 -> (c_now s2 <= T)%Z ->
  nth_error (c_threads s1) j = Some TScan -> nth_error (c_threads s2) j = Some (TScanDone ys) ->
  exists es2, linear T s0 (es1 ++ es2) s2 /\
    (forall d, In d ys -> exists p q, es2 = p ++ q /\ there_after s0 (es1 ++ p) d) /\
    (forall k, key_ok k -> key_fits k -> (forall p q, es2 = p ++ q -> key_after s0 (es1 ++ p) k) ->
       exists v, In (kv k v) ys).
Proof.
  intros T s0 es1 s1 tr s2 j ys I1 E HT J1 J2.
  assert (X : exists es2, linear T s0 (es1 ++ es2) s2 /\ reports s0 es1 es2 (nth_error (c_threads s2) j) /\
     forall k, key_ok k -> key_fits k -> visits s0 es1 es2 k (nth_error (c_threads s2) j)).
  { clear J2. induction E as [s|s tr s' l s'' E IH S].
    - exists []. rewrite app_nil_r, J1. split; [exact I1|]. split; [exact Logic.I|]. intros k _ _ _. exact Logic.I.
    - destruct IH as (es & A & R & V); auto; [pose proof (clock_le _ _ _ S); lia|].
      destruct (linear_step _ _ _ _ _ _ A S HT) as (es' & A'). exists (es ++ es'). rewrite app_assoc. split; [exact A'|].
      split; [apply reports_more; eapply reports_step; eauto|].
      intros k K1 K2. apply visits_more. eapply visits_step; eauto. }
  destruct X as (es2 & I2 & R & V). rewrite J2 in R, V. exists es2. split; [exact I2|]. split; [exact R|exact V].
Qed.

(** C181.  A scan that begins when another one has ended is explained by the same order of effects,
    further on. *)
Theorem C181_forward : forall T s0 tr1 s1 tr2 s2 tr3 s3 j ys j' ys',
  begins T s0 -> cexec s0 tr1 s1 -> cexec s1 tr2 s2 -> cexec s2 tr3 s3 -> (c_now s3 <= T)%Z ->
  nth_error (c_threads s1) j = Some TScan -> nth_error (c_threads s2) j = Some (TScanDone ys) ->
  nth_error (c_threads s2) j' = Some TScan -> nth_error (c_threads s3) j' = Some (TScanDone ys') ->
  exists es1 es2 es3, explained s0 es1 s1 /\ explained s0 (es1 ++ es2) s2 /\ explained s0 ((es1 ++ es2) ++ es3) s3 /\
    (forall d, In d ys -> exists p q, es2 = p ++ q /\ there_after s0 (es1 ++ p) d) /\
    (forall d, In d ys' -> exists p q, es3 = p ++ q /\ there_after s0 ((es1 ++ es2) ++ p) d) /\
    (forall k, key_ok k -> key_fits k -> (forall p q, es3 = p ++ q -> key_after s0 ((es1 ++ es2) ++ p) k) ->
       exists v, In (kv k v) ys').
Proof.
  intros T s0 tr1 s1 tr2 s2 tr3 s3 j ys j' ys' B E1 E2 E3 HT J1 J2 J3 J4.
  pose proof (run_clock _ _ _ E2) as H12. pose proof (run_clock _ _ _ E3) as H23.
  destruct (linear_run T s0 _ _ _ E1 [] (linear_start _ _ B) ltac:(lia)) as (es1 & I1). cbn [app] in I1.
  destruct (scan_part T s0 es1 s1 tr2 s2 j ys I1 E2 ltac:(lia) J1 J2) as (es2 & I2 & R2 & _).
  destruct (scan_part T s0 (es1 ++ es2) s2 tr3 s3 j' ys' I2 E3 HT J3 J4) as (es3 & I3 & R3 & V3).
  exists es1, es2, es3. split; [eapply linear_explained; exact I1|]. split; [eapply linear_explained; exact I2|].
  split; [eapply linear_explained; exact I3|]. auto.
Qed.
Print Assumptions C181_forward.

(** A value that one scan has reported is reported by every later one, if it was not there at the
    beginning and only one call writes the key. *)
Theorem C181_stays : forall T s0 tr1 s1 tr2 s2 tr3 s3 j ys j' ys' i k v,
  begins T s0 -> cexec s0 tr1 s1 -> cexec s1 tr2 s2 -> cexec s2 tr3 s3 -> (c_now s3 <= T)%Z ->
  nth_error (c_threads s1) j = Some TScan -> nth_error (c_threads s2) j = Some (TScanDone ys) ->
  nth_error (c_threads s2) j' = Some TScan -> nth_error (c_threads s3) j' = Some (TScanDone ys') ->
  key_ok k -> key_fits k -> (forall e, mload (c_map s0) (wire_key k) = Some e -> edatum e <> kv k v) ->
  (forall i', may_have_changed (nth_error (c_threads s3) i') = Some k -> i' = i) ->
  In (kv k v) ys -> In (kv k v) ys' /\ forall v', In (kv k v') ys' -> v' = v.
Proof.
  intros T s0 tr1 s1 tr2 s2 tr3 s3 j ys j' ys' i k v B E1 E2 E3 HT J1 J2 J3 J4 K1 K2 NI ON Y.
  destruct (C181_forward T s0 tr1 s1 tr2 s2 tr3 s3 j ys j' ys' B E1 E2 E3 HT J1 J2 J3 J4)
    as (es1 & es2 & es3 & X1 & X2 & X3 & R2 & R3 & V3).
  assert (EF : forall x es, In x es -> In x (effects_of (who_acts x) es)) by (intros x es X; apply filter_In; split; [exact X|apply Nat.eqb_refl]).
  assert (ONE : forall x y, In x ((es1 ++ es2) ++ es3) -> In y ((es1 ++ es2) ++ es3) -> acts_on x = k -> acts_on y = k -> y = x).
  { intros x y X X' KX KY. destruct (BusySearchProps.acted_at _ _ _ _ (proj1 X3 (who_acts x)) (EF _ _ X)) as (A1 & A2).
    destruct (BusySearchProps.acted_at _ _ _ _ (proj1 X3 (who_acts y)) (EF _ _ X')) as (A3 & A4).
    rewrite KX in A2. rewrite KY in A4. rewrite (ON _ A2) in A1. rewrite (ON _ A4) in A3. rewrite A1 in A3. injection A3 as ->. reflexivity. }
  destruct (R2 _ Y) as (p & q & Q & a & b & E & H). injection E as <- <-.
  destruct (last_effect k (es1 ++ p)) as [x|] eqn:LE; [|destruct H as (e & L & D); destruct (NI e L D)].
  assert (LX : In x (es1 ++ p) /\ acts_on x = k).
  { clear -LE. induction (es1 ++ p) as [|y l IH] using rev_ind; [discriminate LE|]. rewrite last_effect_snoc in LE.
    destruct (DatumKey_eq_dec (acts_on y) k) as [E|N]; [injection LE as <-; split; [apply in_or_app; right; left; reflexivity|exact E]|].
    destruct (IH LE) as (A & C). split; [apply in_or_app; auto|exact C]. }
  destruct LX as (IX & KX).
  assert (IX2 : In x (es1 ++ es2)) by (rewrite Q, app_assoc; apply in_or_app; auto).
  assert (TH : forall p' q', es3 = p' ++ q' -> there_after s0 ((es1 ++ es2) ++ p') (kv k v)).
  { intros p' q' Q'. exists k, v. split; [reflexivity|]. rewrite (BusySearchProps.last_only k x); [exact H|apply in_or_app; auto|exact KX|].
    intros y Y' KY. apply ONE; auto; [apply in_or_app; auto|]. rewrite Q', app_assoc. apply in_or_app. auto. }
  assert (UN : forall v', In (kv k v') ys' -> v' = v).
  { intros v' Y'. destruct (R3 _ Y') as (p' & q' & Q' & TA). eapply SnapshotProps.there_unique; [exact TA|eapply TH; exact Q']. }
  split; [|exact UN]. destruct (V3 k K1 K2) as (v' & Y'); [intros p' q' Q'; exists v; eapply TH; exact Q'|].
  rewrite <- (UN v' Y'). exact Y'.
Qed.
Print Assumptions C181_stays.

(** An insert acts during the first scan; the second scan begins when the first has ended. *)
Example C181_instance : let s0 := mkC 100 [(wire_key ka, mkEntry 0 (kv ka va))] [TIns ka vb None; TScan; TScan] in
  begins 200 s0 /\ (forall e, mload (c_map s0) (wire_key ka) = Some e -> edatum e <> kv ka vb) /\
  exists tr2 s2 tr3 s3, cexec s0 tr2 s2 /\ cexec s2 tr3 s3 /\ (c_now s3 <= 200)%Z /\
    nth_error (c_threads s0) 1 = Some TScan /\ nth_error (c_threads s2) 1 = Some (TScanDone [kv ka vb]) /\
    nth_error (c_threads s2) 2 = Some TScan /\ nth_error (c_threads s3) 2 = Some (TScanDone [kv ka vb]) /\
    (forall i', may_have_changed (nth_error (c_threads s3) i') = Some ka -> i' = 0%nat).
Proof.
  destruct kva_ok as (A & B & C). split; [|split].
  - split; [repeat constructor; intros []|]. split; [repeat constructor; exists ka, va; split; [exact A|]; split; reflexivity|]. split.
    + intros b e H. cbn [c_map mload] in H. destruct (bytes_eqb (wire_key ka) b); [|discriminate H]. injection H as <-. left. reflexivity.
    + constructor; [split; [exact B|intros now _; left; reflexivity]|]. constructor; [exact Logic.I|]. constructor; [exact Logic.I|constructor].
  - intros e H. cbn [c_map mload] in H. rewrite bytes_eqb_refl in H. injection H as <-. discriminate.
  - exists [LNone; LNone; LNone; LInsert 0 ka vb; LNone; LNone],
      (mkC 100 [(wire_key ka, mkEntry 0 (kv ka vb))] [TInsDone ka vb 0; TScanDone [kv ka vb]; TScan]), [LNone; LNone; LNone],
      (mkC 100 [(wire_key ka, mkEntry 0 (kv ka vb))] [TInsDone ka vb 0; TScanDone [kv ka vb]; TScanDone [kv ka vb]]).
    split; [|split; [|split; [cbn; lia|split; [reflexivity|split; [reflexivity|split; [reflexivity|split; [reflexivity|]]]]]]].
    + eapply ce_cons; [eapply (st_scan_start 100 _ _ 1 [wire_key ka] _); first [reflexivity|apply Permutation_refl]|].
      eapply ce_cons; [eapply (st_ins_time 100 _ _ 0 ka vb _ _); reflexivity|].
      eapply ce_cons; [eapply (st_ins_load' 100 _ _ 0 ka vb 0); reflexivity|].
      eapply ce_cons; [eapply (st_ins_store 100 _ _ 0 ka vb 0); reflexivity|].
      eapply ce_cons; [eapply (st_scan_live 100 _ _ 1 (wire_key ka) [] [] (mkEntry 0 (kv ka vb)) _); reflexivity|].
      eapply ce_cons; [eapply (st_scan_end 100 _ _ 1 _ _); reflexivity|]. constructor.
    + eapply ce_cons; [eapply (st_scan_start 100 _ _ 2 [wire_key ka] _); first [reflexivity|apply Permutation_refl]|].
      eapply ce_cons; [eapply (st_scan_live 100 _ _ 2 (wire_key ka) [] [] (mkEntry 0 (kv ka vb)) _); reflexivity|].
      eapply ce_cons; [eapply (st_scan_end 100 _ _ 2 _ _); reflexivity|]. constructor.
    + intros [|[|[|[|i']]]] H; cbn in H; try discriminate H. reflexivity.
Qed.
