(** C180: a scan as a snapshot of a state that the run goes through. *)
From Verif.Base Require Import GoBase GoLemmas Assoc.
From Verif.Model Require Import Codec Store StoreConc.
From Verif.Spec Require Import Wire StoreSpec StoreConcSpec RenewSpec LinearSpec SnapshotSpec.
From Verif.Proof Require Import CodecP CodecTop StoreP StoreQ StoreConcP.
From Verif.Props Require Import StoreProps StoreConcProps ScanProps LinearProps SnapshotProps.
From Coq Require Import Lia.
Open Scope N_scope.

(** One step, at most one effect. *)
Lemma one_moves : forall s l s', cstep s l s' -> exists i, forall j, j <> i -> nth_error (c_threads s') j = nth_error (c_threads s) j.
Proof.
  intros s l s' S. destruct S; cbn [c_threads]; try (exists 0%nat; reflexivity);
    match goal with H : list_set _ ?i _ = Some _ |- _ => exists i; intros j N; rewrite (nth_list_set _ _ _ _ _ j H) end;
    match goal with |- context [Nat.eqb ?a ?b] => destruct (Nat.eqb_spec a b) as [E|_]; [congruence|reflexivity] end.
Qed.

Lemma step_one : forall T s0 es s l s' es', linear T s0 es s -> cstep s l s' -> linear T s0 (es ++ es') s' -> (length es' <= 1)%nat.
Proof.
  intros T s0 es s l s' es' (_ & _ & _ & _ & A & _) S (_ & _ & _ & _ & B & _). destruct (one_moves _ _ _ S) as (i & M).
  assert (SP : forall j, done_so_far j (nth_error (c_threads s) j) ++ effects_of j es' = done_so_far j (nth_error (c_threads s') j)).
  { intro j. rewrite <- A, <- B. unfold effects_of. rewrite filter_app. reflexivity. }
  assert (W : forall x, In x es' -> who_acts x = i).
  { intros x X. destruct (Nat.eq_dec (who_acts x) i) as [E|N]; [exact E|]. exfalso. specialize (SP (who_acts x)). rewrite (M _ N) in SP.
    assert (Z : effects_of (who_acts x) es' = []).
    { apply (app_inv_head (done_so_far (who_acts x) (nth_error (c_threads s) (who_acts x)))). rewrite app_nil_r. exact SP. }
    assert (Y : In x (effects_of (who_acts x) es')) by (apply filter_In; split; [exact X|apply Nat.eqb_refl]). rewrite Z in Y. destruct Y. }
  assert (F : effects_of i es' = es').
  { clear -W. induction es' as [|x es' IH]; [reflexivity|]. cbn. rewrite (W x (or_introl eq_refl)), Nat.eqb_refl. f_equal. apply IH. intros y Y. apply W. right. exact Y. }
  specialize (SP i). rewrite F in SP. apply (f_equal (@length _)) in SP. rewrite app_length in SP.
  assert (L : (length (done_so_far i (nth_error (c_threads s') i)) <= 1)%nat) by (destruct (nth_error (c_threads s') i) as [[| | ? ? ? []| | | | | | ]|]; cbn; lia).
  lia.
Qed.

(** Every moment of the order of effects is a moment of the run. *)
Lemma scan_moments : forall T s0 es1 s1 tr s2 j ys, linear T s0 es1 s1 -> cexec s1 tr s2 -> (c_now s2 <= T)%Z ->
  nth_error (c_threads s1) j = Some TScan -> nth_error (c_threads s2) j = Some (TScanDone ys) ->
  exists es2, linear T s0 (es1 ++ es2) s2 /\
    (forall p q, es2 = p ++ q -> exists ta tb s, cexec s1 ta s /\ cexec s tb s2 /\ linear T s0 (es1 ++ p) s) /\
    (forall d, In d ys -> exists p q, es2 = p ++ q /\ there_after s0 (es1 ++ p) d) /\
    (forall k, key_ok k -> key_fits k -> (forall p q, es2 = p ++ q -> key_after s0 (es1 ++ p) k) ->
       exists v, In (kv k v) ys).
Proof.
  intros T s0 es1 s1 tr s2 j ys I1 E HT J1 J2.
  assert (X : exists es2, linear T s0 (es1 ++ es2) s2 /\
     (forall p q, es2 = p ++ q -> exists ta tb s, cexec s1 ta s /\ cexec s tb s2 /\ linear T s0 (es1 ++ p) s) /\
     reports s0 es1 es2 (nth_error (c_threads s2) j) /\
     forall k, key_ok k -> key_fits k -> visits s0 es1 es2 k (nth_error (c_threads s2) j)).
  { clear J2. induction E as [s|s tr s' l s'' E IH S].
    - exists []. rewrite app_nil_r, J1. split; [exact I1|]. split; [|split; [exact Logic.I|intros k _ _ _; exact Logic.I]].
      intros p q Q. symmetry in Q. apply app_eq_nil in Q. destruct Q as [-> ->]. exists [], [], s. rewrite app_nil_r. split; [apply ce_nil|]. split; [apply ce_nil|exact I1].
    - destruct IH as (es & A & MO & R & V); auto; [pose proof (clock_le _ _ _ S); lia|].
      destruct (linear_step _ _ _ _ _ _ A S HT) as (es' & A'). exists (es ++ es'). pose proof (step_one _ _ _ _ _ _ _ A S A') as L1.
      rewrite app_assoc. split; [exact A'|]. split; [|split; [apply reports_more; eapply reports_step; eauto|]].
      + intros p q Q.
        assert (C : (exists q', es = p ++ q') \/ p = es ++ es').
        { destruct es' as [|x [|y es']]; [left; exists q; rewrite app_nil_r in Q; exact Q| |cbn in L1; lia].
          destruct q as [|z q] using rev_ind; [right; rewrite app_nil_r in Q; symmetry; exact Q|]. left. exists q.
          rewrite app_assoc in Q. apply app_inj_tail in Q. apply Q. }
        destruct C as [(q' & Q')| ->].
        * destruct (MO p q' Q') as (ta & tb & sm & E1 & E2 & LM). exists ta, (tb ++ [l]), sm. split; [exact E1|]. split; [eapply ce_snoc; eauto|exact LM].
        * exists (tr ++ [l]), [], s''. split; [eapply ce_snoc; eauto|]. split; [constructor|]. rewrite app_assoc. exact A'.
      + intros k K1 K2. apply visits_more. eapply visits_step; eauto. }
  destruct X as (es2 & I2 & MO & R & V). rewrite J2 in R, V. exists es2. split; [exact I2|]. split; [exact MO|]. split; [exact R|exact V].
Qed.

Lemma linear_live : forall T s0 es s k v, linear T s0 es s -> (c_now s <= T)%Z -> key_ok k -> key_fits k ->
  (there_after s0 es (kv k v) <-> live_at s (kv k v)).
Proof.
  intros T s0 es s k v LN HT K1 K2. split.
  - intros (a & b & Q & X). injection Q as <- <-. pose proof LN as (_ & _ & NE & _ & _ & H). specialize (H k K1 K2). unfold holds_after in H.
    assert (Z : exists e, mload (c_map s) (wire_key k) = Some e /\ edatum e = kv k v).
    { destruct (last_effect k es) as [[i k' v' dl|i k']|]; [|destruct X|].
      - subst v'. destruct H as (e & L & D & _). eauto.
      - destruct X as (e & L & D). exists e. rewrite H. auto. }
    destruct Z as (e & L & D). exists k, v, e. split; [reflexivity|]. split; [exact L|]. split; [exact D|].
    destruct (NE _ _ L) as [N|N]; [left; exact N|right; lia].
  - intros (a & b & e & Q & L & D & _). injection Q as <- <-. rewrite <- D. eapply linear_there; eauto.
Qed.

(** C180.  If only calls on one key are under way while a scan runs, the scan reports exactly what
    the dataset holds in one of the states that the run goes through during the scan. *)
Theorem C180_moment_partial : forall T s0 tr1 s1 tr2 s2 j ys k,
  begins T s0 -> cexec s0 tr1 s1 -> cexec s1 tr2 s2 -> (c_now s2 <= T)%Z ->
  nth_error (c_threads s1) j = Some TScan -> nth_error (c_threads s2) j = Some (TScanDone ys) ->
  key_ok k -> key_fits k ->
  (forall i k', may_have_changed (nth_error (c_threads s2) i) = Some k' ->
     k' = k \/ call_returned (nth_error (c_threads s1) i)) ->
  exists ta tb s, cexec s1 ta s /\ cexec s tb s2 /\
    forall k v, key_ok k -> key_fits k -> (In (kv k v) ys <-> live_at s (kv k v)).
Proof.
  intros T s0 tr1 s1 tr2 s2 j ys k B E1 E2 HT J1 J2 K1 K2 CH.
  assert (CO : calls_ok s0).
  { destruct B as (W & F & _ & TH). split; [exact W|]. split; [exact F|]. rewrite Forall_forall in *. intros t X. specialize (TH t X).
    destruct t; cbn [caller]; try exact TH; apply TH. }
  destruct (C147_live s0 tr1 s1 j tr2 s2 ys CO E1 J1 E2 J2) as (ND & _).
  pose proof (run_clock _ _ _ E2) as H12.
  destruct (linear_run T s0 _ _ _ E1 [] (linear_start _ _ B) ltac:(lia)) as (es1 & I1). cbn [app] in I1.
  destruct (scan_moments T s0 es1 s1 tr2 s2 j ys I1 E2 HT J1 J2) as (es2 & I2 & MO & SO & CM).
  destruct (one_key_core s0 es1 es2 ys k ND SO CM) as (p & r & Q & SN); auto.
  { eapply calls_core; [eapply linear_explained; exact I1|eapply linear_explained; exact I2|exact CH]. }
  destruct (MO p r Q) as (ta & tb & s & A1 & A2 & LM). exists ta, tb, s. split; [exact A1|]. split; [exact A2|].
  intros k' v' K1' K2'. rewrite (SN k' v' K1' K2'). apply (linear_live T s0); auto. pose proof (run_clock _ _ _ A2). lia.
Qed.
Print Assumptions C180_moment_partial.

(** The runs of C180_instance_calls and C180_snapshot_refuted: the first has the required calls; in the
    second, two calls on different keys are under way. *)
Example C180_instance_moment : begins 200 s_scanned /\
  (exists tr s, cexec s_scanned tr s /\ (c_now s <= 200)%Z /\
    nth_error (c_threads s_scanned) 1 = Some TScan /\ nth_error (c_threads s) 1 = Some (TScanDone [kv ka vb]) /\
    (forall i k', may_have_changed (nth_error (c_threads s) i) = Some k' ->
       k' = ka \/ call_returned (nth_error (c_threads s_scanned) i))) /\
  may_have_changed (nth_error (c_threads (last torn s_torn)) 1) = Some ka /\
  may_have_changed (nth_error (c_threads (last torn s_torn)) 2) = Some kb /\ ka <> kb.
Proof.
  split; [apply C180_instance|]. split; [|split; [reflexivity|split; [reflexivity|discriminate]]].
  destruct C180_instance_calls as (tr & s & E & H & J & _ & CH). exists tr, s. auto.
Qed.
