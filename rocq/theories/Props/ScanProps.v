(** C147: what a scan may report while inserts, deletes and other scans run. *)
From Verif.Base Require Import GoBase GoLemmas Assoc.
From Verif.Model Require Import Codec Store StoreConc.
From Verif.Spec Require Import Wire StoreSpec StoreConcSpec.
From Verif.Proof Require Import CodecP CodecTop StoreP StoreQ StoreConcP.
From Verif.Props Require Import StoreProps StoreConcProps.
Open Scope N_scope.

(** ** The store stays well formed *)
Definition runs_ok (t : thread) : Prop :=
  match t with
  | TIns k v _ | TInsTimed k v _ | TInsLoaded k v _ _ => kv_ok k v
  | TDel k => key_ok k /\ key_fits k
  | _ => True
  end.
Definition sound (s : cstate) : Prop :=
  mwf (c_map s) /\ Forall slot_wf (c_map s) /\ Forall runs_ok (c_threads s).

Lemma sound_start : forall s, calls_ok s -> sound s.
Proof.
  intros s (A & B & C). split; auto. split; auto.
  eapply Forall_impl; [|exact C]. intros []; cbn; auto; contradiction.
Qed.

Lemma sound_step : forall s l s', sound s -> cstep s l s' -> sound s'.
Proof.
  intros s l s' (W & F & R) S. unfold sound.
  destruct S; cbn [c_map c_threads] in *; try solve [split; [|split]; auto];
    pose proof (forall_nth _ _ _ _ R H) as Q; cbn [runs_ok] in Q.
  - split; [auto|split; [auto|]]. eapply forall_set; [exact R| |eassumption]; exact Q.
  - split; [auto|split; [auto|]]. eapply forall_set; [exact R| |eassumption]; exact Q.
  - rewrite (ekey_wire k) by apply Q. split; [apply mstore_wf; auto|].
    split; [apply slot_wf_store; auto|eapply forall_set; [exact R| |eassumption]; exact Logic.I].
  - split; [auto|split; [auto|]]. eapply forall_set; [exact R| |eassumption]; exact Logic.I.
  - split; [apply mdelete_wf; auto|]. split; [apply slot_wf_delete; auto|eapply forall_set; [exact R| |eassumption]; exact Logic.I].
  - split; [auto|split; [auto|]]. eapply forall_set; [exact R| |eassumption]; exact Logic.I.
  - split; [auto|split; [auto|]]. eapply forall_set; [exact R| |eassumption]; exact Logic.I.
  - split; [auto|split; [auto|]]. eapply forall_set; [exact R| |eassumption]; exact Logic.I.
  - split; [auto|split; [auto|]]. eapply forall_set; [exact R| |eassumption]; exact Logic.I.
  - split; [apply mdelete_wf; auto|]. split; [apply slot_wf_delete; auto|eapply forall_set; [exact R| |eassumption]; exact Logic.I].
  - split; [auto|split; [auto|]]. eapply forall_set; [exact R| |eassumption]; exact Logic.I.
Qed.

Lemma sound_exec : forall s tr s', cexec s tr s' -> sound s -> sound s'.
Proof. induction 1; intro W; auto. eapply sound_step; [apply IHcexec; exact W|eassumption]. Qed.

Lemma slot_datum : forall m b e, Forall slot_wf m -> mload m b = Some e ->
  exists k v, key_ok k /\ key_fits k /\ b = wire_key k /\ edatum e = kv k v.
Proof.
  intros m b e F L. apply mload_in in L. rewrite Forall_forall in F.
  destruct (F _ L) as (k & v & (A & B & _) & C & D). exists k, v. auto.
Qed.

(** ** One scan *)
Section Scan.
Variable s : cstate.
Variable W0 : sound s.

(** The datum was live at some moment of the run, under the key b. *)
Definition seen (tr : list label) (s' : cstate) (b : bytes) (d : Datum) : Prop :=
  exists p q s1 k v e, tr = p ++ q /\ cexec s p s1 /\ cexec s1 q s' /\
    b = wire_key k /\ d = kv k v /\ mload (c_map s1) b = Some e /\ edatum e = d /\
    (exprireAt e = 0 \/ c_now s1 < exprireAt e)%Z.

Lemma seen_more : forall tr s' l s'' b d, cstep s' l s'' -> seen tr s' b d -> seen (tr ++ [l]) s'' b d.
Proof.
  intros tr s' l s'' b d S (p & q & s1 & k & v & e & -> & A & B & C).
  exists p, (q ++ [l]), s1, k, v, e. rewrite app_assoc. split; auto. split; auto. split; auto.
  econstructor; eauto.
Qed.

Definition progress (tr : list label) (s' : cstate) (t : thread) : Prop :=
  match t with
  | TScan => True
  | TScanning todo _ ys => exists bs, Forall2 (seen tr s') bs ys /\ NoDup (bs ++ todo)
  | TScanDone ys => exists bs, Forall2 (seen tr s') bs ys /\ NoDup bs
  | _ => False
  end.

Lemma seen_all : forall tr s' l s'' bs ys, cstep s' l s'' ->
  Forall2 (seen tr s') bs ys -> Forall2 (seen (tr ++ [l]) s'') bs ys.
Proof. induction 2; constructor; auto. eapply seen_more; eauto. Qed.

Lemma progress_more : forall tr s' l s'' t, cstep s' l s'' -> progress tr s' t -> progress (tr ++ [l]) s'' t.
Proof.
  intros tr s' l s'' t S. destruct t; cbn [progress]; auto.
  - intros (bs & A & B). exists bs. split; auto. eapply seen_all; eauto.
  - intros (bs & A & B). exists bs. split; auto. eapply seen_all; eauto.
Qed.

Lemma nodup_drop : forall (bs : list bytes) b todo, NoDup (bs ++ b :: todo) -> NoDup (bs ++ todo).
Proof. intros bs b todo. apply NoDup_remove_1. Qed.

Lemma progress_step : forall tr s' l s'' j t, cexec s tr s' -> cstep s' l s'' ->
  nth_error (c_threads s') j = Some t -> progress tr s' t ->
  exists t', nth_error (c_threads s'') j = Some t' /\ progress (tr ++ [l]) s'' t'.
Proof.
  intros tr s' l s'' j t E S Hj P.
  destruct (sound_exec _ _ _ E W0) as (W & F & _).
  assert (E' : cexec s (tr ++ [l]) s'') by (econstructor; eauto).
  assert (U : forall i x ts', list_set (c_threads s') i x = Some ts' ->
     (nth_error (c_threads s') i = Some t -> progress (tr ++ [l]) s'' x) ->
     exists t', nth_error ts' j = Some t' /\ progress (tr ++ [l]) s'' t').
  { intros i x ts' Hs Hx. rewrite (nth_list_set _ _ _ _ _ j Hs).
    destruct (Nat.eqb i j) eqn:Q.
    - apply Nat.eqb_eq in Q. subst j. exists x. split; auto.
    - exists t. split; auto. eapply progress_more; eauto. }
  pose proof S as S0.
  destruct S; cbn [c_now c_map c_threads] in *.
  - exists t. split; auto. eapply progress_more; eauto.
  - eapply U; eauto. rewrite H. intro C. injection C as <-. contradiction.
  - eapply U; eauto. rewrite H. intro C. injection C as <-. contradiction.
  - eapply U; eauto. rewrite H. intro C. injection C as <-. contradiction.
  - eapply U; eauto. rewrite H. intro C. injection C as <-. contradiction.
  - eapply U; eauto. rewrite H. intro C. injection C as <-. contradiction.
  - eapply U; eauto. intros _. exists []. split; [constructor|]. cbn [app].
    eapply Permutation_NoDup; [symmetry; eassumption|exact W].
  - eapply U; eauto. rewrite H. intro C. injection C as <-. destruct P as (bs & A & B).
    exists bs. split; [eapply seen_all; eauto|eapply nodup_drop; eauto].
  - eapply U; eauto. rewrite H. intro C. injection C as <-. destruct P as (bs & A & B).
    exists (bs ++ [b]). split; [|rewrite <- app_assoc; exact B].
    apply Forall2_app; [eapply seen_all; eauto|]. constructor; [|constructor].
    destruct (slot_datum m b e F H0) as (k & v & _ & _ & Eb & Ed).
    exists tr, [LNone], (mkC now m ts), k, v, e. split; auto. split; auto.
    split; [apply (ce_snoc (mkC now m ts) [] (mkC now m ts)); [constructor|exact S0]|].
    split; auto. split; auto. split; auto. split; auto.
    unfold expired in H1. apply andb_false_iff in H1. destruct H1 as [H1|H1].
    + left. apply negb_false_iff in H1. apply Z.eqb_eq in H1. auto.
    + right. apply Z.leb_gt in H1. auto.
  - eapply U; eauto. rewrite H. intro C. injection C as <-. destruct P as (bs & A & B).
    exists bs. split; [eapply seen_all; eauto|eapply nodup_drop; eauto].
  - eapply U; eauto. rewrite H. intro C. injection C as <-. destruct P as (bs & A & B).
    exists bs. split; [eapply seen_all; eauto|auto].
  - eapply U; eauto. rewrite H. intro C. injection C as <-. destruct P as (bs & A & B).
    exists bs. rewrite app_nil_r in B. split; [eapply seen_all; eauto|auto].
Qed.

Lemma progress_exec : forall tr s', cexec s tr s' -> forall j, nth_error (c_threads s) j = Some TScan ->
  exists t, nth_error (c_threads s') j = Some t /\ progress tr s' t.
Proof.
  intros tr s' E. remember s as s1 eqn:Es. induction E as [s1|s1 tr s' l s'' E IH S]; intros j Hj.
  - exists TScan. split; auto. exact Logic.I.
  - subst s1. destruct (IH eq_refl W0 j Hj) as (t & A & B). eapply progress_step; eauto.
Qed.
End Scan.

(** C147 Every datum a scan reports was in the store and had not expired at some
    moment between the start and the end of the scan, and no key is reported
    twice: whatever inserts, deletes and other scans run at the same time. *)
Theorem C147_live : forall s0 tr0 s j tr s' ys, calls_ok s0 -> cexec s0 tr0 s ->
  nth_error (c_threads s) j = Some TScan -> cexec s tr s' ->
  nth_error (c_threads s') j = Some (TScanDone ys) ->
  NoDup (map dkey ys) /\
  (forall d, In d ys -> exists p q s1, tr = p ++ q /\ cexec s p s1 /\ cexec s1 q s' /\ live_at s1 d).
Proof.
  intros s0 tr0 s j tr s' ys C0 E0 Hj E Hy.
  pose proof (sound_exec _ _ _ E0 (sound_start _ C0)) as W.
  destruct (progress_exec s W tr s' E j Hj) as (t & A & B). rewrite Hy in A. injection A as <-.
  destruct B as (bs & F & N). split.
  - clear Hy. induction F as [|b d bs ys P F IH]; cbn [map]; [constructor|].
    inversion N as [|? ? Nb N']; subst. constructor; auto. intro I. apply in_map_iff in I.
    destruct I as (d' & Ed & Id). apply Nb.
    assert (K : exists b', In b' bs /\ seen s tr s' b' d').
    { clear -F Id. induction F as [|b d bs ys P F IH]; [contradiction|]. destruct Id as [<-|Id].
      - exists b. split; [left; auto|auto].
      - destruct (IH Id) as (b' & X & Y). exists b'. split; [right; auto|auto]. }
    destruct K as (b' & Ib & P').
    destruct P as (_ & _ & _ & k & v & _ & _ & _ & _ & -> & -> & _).
    destruct P' as (_ & _ & _ & k' & v' & _ & _ & _ & _ & -> & -> & _).
    cbn [dkey kv] in Ed. injection Ed as ->. exact Ib.
  - intros d Id. clear N Hy. induction F as [|b d' bs ys P F IH]; [contradiction|]. destruct Id as [<-|Id]; auto.
    destruct P as (p & q & s1 & k & v & e & -> & X & Y & -> & -> & L & Ee & Ex).
    exists p, q, s1. split; auto. split; auto. split; auto. exists k, v, e. auto.
Qed.
Print Assumptions C147_live.

(** ** Where the data come from *)
Definition from (s0 : cstate) (hi : Z) (i : nat) (k : DatumKey) (v : DatumValue) (exp : Z) : Prop :=
  exists cfg now, nth_error (c_threads s0) i = Some (TIns k v cfg) /\
    (c_now s0 <= now <= hi)%Z /\ exp = expireAtOf now cfg.

Lemma from_more : forall s0 hi hi' i k v exp, (hi <= hi')%Z -> from s0 hi i k v exp -> from s0 hi' i k v exp.
Proof. intros s0 hi hi' i k v exp H (cfg & now & A & B & C). exists cfg, now. split; auto. split; auto. lia. Qed.

Definition came (s0 s : cstate) : Prop :=
  (c_now s0 <= c_now s)%Z /\
  (forall i k v exp f, nth_error (c_threads s) i = Some (TInsTimed k v exp) \/
     nth_error (c_threads s) i = Some (TInsLoaded k v exp f) -> from s0 (c_now s) i k v exp) /\
  (forall i k v cfg, nth_error (c_threads s) i = Some (TIns k v cfg) -> nth_error (c_threads s0) i = Some (TIns k v cfg)) /\
  (forall b e, mload (c_map s) b = Some e -> mload (c_map s0) b = Some e \/
     exists i k v, b = wire_key k /\ edatum e = kv k v /\ from s0 (c_now s) i k v (exprireAt e)).

Lemma came_step : forall s0 s l s', sound s -> came s0 s -> cstep s l s' -> came s0 s'.
Proof.
  intros s0 s l s' (W & F & R) (T & A & B & C) S. unfold came.
  assert (U : forall i x ts', list_set (c_threads s) i x = Some ts' ->
    (forall k v cfg, x <> TIns k v cfg) ->
    (forall i k v cfg, nth_error ts' i = Some (TIns k v cfg) -> nth_error (c_threads s0) i = Some (TIns k v cfg))).
  { intros i x ts' Hs Hx i' k v cfg Hi. rewrite (nth_list_set _ _ _ _ _ i' Hs) in Hi.
    destruct (Nat.eqb i i'); [|auto]. injection Hi as ->. exfalso. eapply Hx. reflexivity. }
  assert (V : forall i x ts', list_set (c_threads s) i x = Some ts' ->
    (forall k v exp f, x = TInsTimed k v exp \/ x = TInsLoaded k v exp f -> from s0 (c_now s) i k v exp) ->
    (forall i k v exp f, nth_error ts' i = Some (TInsTimed k v exp) \/
       nth_error ts' i = Some (TInsLoaded k v exp f) -> from s0 (c_now s) i k v exp)).
  { intros i x ts' Hs Hx i' k v exp f Hi. rewrite (nth_list_set _ _ _ _ _ i' Hs) in Hi.
    destruct (Nat.eqb i i') eqn:Q; [|eapply A; eauto]. apply Nat.eqb_eq in Q. subst i'.
    apply (Hx k v exp f). destruct Hi as [Hi|Hi]; injection Hi as ->; auto. }
  destruct S; cbn [c_now c_map c_threads] in *.
  - split; [lia|]. split; [|split; [auto|]].
    + intros i k v exp f Hi. eapply from_more; [|eapply A; eauto]. auto.
    + intros b e L. destruct (C b e L) as [L0|(i & k & v & X & Y & Z)]; auto.
      right. exists i, k, v. split; auto. split; auto. eapply from_more; [|exact Z]. auto.
  - split; [auto|]. split; [|split; [|auto]].
    + eapply V; [eassumption|]. intros k0 v0 exp f [Q|Q]; [|discriminate]. injection Q as <- <- <-.
      exists cfg, now. split; [apply B; auto|]. split; [lia|reflexivity].
    + eapply U; [eassumption|]. intros; discriminate.
  - split; [auto|]. split; [|split; [|auto]].
    + eapply V; [eassumption|]. intros k0 v0 exp0 f [Q|Q]; [discriminate|]. injection Q as <- <- <- _.
      eapply (A i k v exp true). left. auto.
    + eapply U; [eassumption|]. intros; discriminate.
  - pose proof (forall_nth _ _ _ _ R H) as Q. cbn [runs_ok] in Q.
    split; [auto|]. split; [|split].
    + eapply V; [eassumption|]. intros k0 v0 exp0 f [X|X]; discriminate.
    + eapply U; [eassumption|]. intros; discriminate.
    + intros b e L. rewrite mload_mstore in L. destruct (bytes_eqb (ekey k) b) eqn:Eb; [|auto].
      injection L as <-. apply bytes_eqb_spec in Eb. subst b. right. exists i, k, v.
      rewrite (ekey_wire k) by apply Q. split; auto. split; [reflexivity|]. cbn [exprireAt].
      eapply (A i k v exp true). right. auto.
  - split; [auto|]. split; [|split; [|auto]].
    + eapply V; [eassumption|]. intros k0 v0 exp0 f [X|X]; discriminate.
    + eapply U; [eassumption|]. intros; discriminate.
  - split; [auto|]. split; [|split].
    + eapply V; [eassumption|]. intros k0 v0 exp0 f [X|X]; discriminate.
    + eapply U; [eassumption|]. intros; discriminate.
    + intros b e L. apply C. destruct (bytes_eqb (ekey k) b) eqn:Eb.
      * apply bytes_eqb_spec in Eb. subst b. rewrite mload_mdelete_same in L. discriminate.
      * rewrite mload_mdelete_other in L; auto. apply bytes_eqb_neq. auto.
  - split; [auto|]. split; [|split; [|auto]].
    + eapply V; [eassumption|]. intros k0 v0 exp0 f [X|X]; discriminate.
    + eapply U; [eassumption|]. intros; discriminate.
  - split; [auto|]. split; [|split; [|auto]].
    + eapply V; [eassumption|]. intros k0 v0 exp0 f [X|X]; discriminate.
    + eapply U; [eassumption|]. intros; discriminate.
  - split; [auto|]. split; [|split; [|auto]].
    + eapply V; [eassumption|]. intros k0 v0 exp0 f [X|X]; discriminate.
    + eapply U; [eassumption|]. intros; discriminate.
  - split; [auto|]. split; [|split; [|auto]].
    + eapply V; [eassumption|]. intros k0 v0 exp0 f [X|X]; discriminate.
    + eapply U; [eassumption|]. intros; discriminate.
  - split; [auto|]. split; [|split].
    + eapply V; [eassumption|]. intros k0 v0 exp0 f [X|X]; discriminate.
    + eapply U; [eassumption|]. intros; discriminate.
    + intros b0 e L. apply C. destruct (bytes_eqb b b0) eqn:Eb.
      * apply bytes_eqb_spec in Eb. subst b0. rewrite mload_mdelete_same in L. discriminate.
      * rewrite mload_mdelete_other in L; auto. apply bytes_eqb_neq. auto.
  - split; [auto|]. split; [|split; [|auto]].
    + eapply V; [eassumption|]. intros k0 v0 exp0 f [X|X]; discriminate.
    + eapply U; [eassumption|]. intros; discriminate.
Qed.

Lemma came_exec : forall s0 tr s, cexec s0 tr s -> calls_ok s0 -> came s0 s.
Proof.
  intros s0 tr s E C0. induction E as [s0|s0 tr s l s' E IH S].
  - split; [lia|]. split; [|split; auto]. intros i k v exp f H. exfalso.
    destruct C0 as (_ & _ & F). rewrite Forall_forall in F.
    destruct H as [H|H]; apply nth_error_In in H; apply (F _ H).
  - eapply came_step; eauto. eapply sound_exec; eauto. apply sound_start. auto.
Qed.

(** What the store holds at any moment of a run it held at its beginning, or one
    of the inserts of the run put it there, with an expiry computed from a
    reading of the clock during the run. *)
Theorem C147_origin : forall s0 tr s k v e, calls_ok s0 -> cexec s0 tr s -> key_ok k -> key_fits k ->
  mload (c_map s) (wire_key k) = Some e -> edatum e = kv k v ->
  mload (c_map s0) (wire_key k) = Some e \/
  exists i cfg now, nth_error (c_threads s0) i = Some (TIns k v cfg) /\
    (c_now s0 <= now <= c_now s)%Z /\ exprireAt e = expireAtOf now cfg.
Proof.
  intros s0 tr s k v e C0 E K1 K2 L Ed. destruct (came_exec s0 tr s E C0) as (_ & _ & _ & C).
  destruct (C _ _ L) as [L0|(i & k' & v' & _ & Ed' & cfg & now & A & B & X)]; auto.
  rewrite Ed in Ed'. unfold kv in Ed'. injection Ed' as <- <-. right. exists i, cfg, now. auto.
Qed.
Print Assumptions C147_origin.

(** A key that is not in the store, with no insert of it under way or to come,
    is not reported by any scan that has not begun yet. *)
Lemma absent_exec : forall k, key_ok k -> key_fits k -> forall s tr s', cexec s tr s' -> sound s ->
  mload (c_map s) (wire_key k) = None -> (forall t, In t (c_threads s) -> ~ inserting k t) ->
  mload (c_map s') (wire_key k) = None /\ (forall t, In t (c_threads s') -> ~ inserting k t).
Proof.
  intros k K1 K2 s tr s' E W0 L N. induction E as [s|s tr s' l s'' E IH S]; [auto|].
  destruct (IH W0 L N) as [L' N']. destruct (sound_exec _ _ _ E W0) as (W & F & R). clear IH L N.
  assert (U : forall i x ts', list_set (c_threads s') i x = Some ts' -> ~ inserting k x ->
            forall t, In t ts' -> ~ inserting k t).
  { intros i x ts' Hs Hx t Ht. apply In_nth_error in Ht. destruct Ht as (j & Hj).
    rewrite (nth_list_set _ _ _ _ _ j Hs) in Hj. destruct (Nat.eqb i j).
    - injection Hj as <-. auto.
    - apply N'. eapply nth_error_In; eauto. }
  destruct S; cbn [c_map c_threads] in *;
    try (pose proof (nth_error_In _ _ H) as I; pose proof (N' _ I) as NI; cbn [inserting] in NI).
  - auto.
  - split; auto. eapply U; eauto.
  - split; auto. eapply U; eauto. destruct (is_fresh _ _ _ _); auto.
  - pose proof (forall_nth _ _ _ _ R H) as Q. cbn [runs_ok] in Q. split; [|eapply U; eauto].
    rewrite (ekey_wire k0) by apply Q. rewrite mload_mstore.
    assert (X : bytes_eqb (wire_key k0) (wire_key k) = false).
    { apply bytes_eqb_neq. intro X. apply NI.
      destruct (wire_key_prefix_free k0 k [] []); try apply Q; auto. rewrite !app_nil_r. auto. }
    rewrite X. auto.
  - split; auto. eapply U; eauto.
  - split; [|eapply U; eauto]. destruct (bytes_eqb (ekey k0) (wire_key k)) eqn:X.
    + apply bytes_eqb_spec in X. rewrite X. apply mload_mdelete_same.
    + rewrite mload_mdelete_other; auto. apply bytes_eqb_neq. auto.
  - split; auto. eapply U; eauto.
  - split; auto. eapply U; eauto.
  - split; auto. eapply U; eauto.
  - split; auto. eapply U; eauto.
  - split; [|eapply U; eauto]. destruct (bytes_eqb b (wire_key k)) eqn:X.
    + apply bytes_eqb_spec in X. rewrite X. apply mload_mdelete_same.
    + rewrite mload_mdelete_other; auto. apply bytes_eqb_neq. auto.
  - split; auto. eapply U; eauto.
Qed.

Theorem C147_gone : forall s0 tr0 s j tr s' ys k, calls_ok s0 -> cexec s0 tr0 s -> key_ok k -> key_fits k ->
  mload (c_map s) (wire_key k) = None -> (forall t, In t (c_threads s) -> ~ inserting k t) ->
  nth_error (c_threads s) j = Some TScan -> cexec s tr s' ->
  nth_error (c_threads s') j = Some (TScanDone ys) ->
  forall v, ~ In (kv k v) ys.
Proof.
  intros s0 tr0 s j tr s' ys k C0 E0 K1 K2 L N Hj E Hy v I.
  destruct (C147_live s0 tr0 s j tr s' ys C0 E0 Hj E Hy) as [_ P].
  destruct (P _ I) as (p & q & s1 & _ & E1 & _ & k' & v' & e & Ek & L1 & _).
  unfold kv in Ek. injection Ek as <- <-.
  destruct (absent_exec k K1 K2 s p s1 E1 (sound_exec _ _ _ E0 (sound_start _ C0)) L N) as [L2 _]. congruence.
Qed.
Print Assumptions C147_gone.

(** An instance: one key expires at 105, another is stored for good and then
    deleted, and an insert of the second runs while the scan is under way.  The
    clock is at 100 when the scan begins and at 110 when it looks at the first
    key. *)
Definition s_scan : cstate :=
  mkC 100 [(wire_key ka, mkEntry 105 (kv ka va)); (wire_key kb, mkEntry 0 (kv kb va))]
    [TScan; TDel kb; TIns kb vb (Some (mkInsertConfig 900 0))].

Example C147_instance : calls_ok s_scan /\
  exists tr s, cexec s_scan tr s /\
    nth_error (c_threads s) 0 = Some (TScanDone [kv kb vb]) /\
    live_at s (kv kb vb) /\ ~ live_at s (kv ka va) /\ ~ live_at s (kv kb va).
Proof.
  destruct kva_ok as (A & B & C). destruct A as (A1 & A2 & A3 & A4). destruct B as (_ & _ & B3 & B4). destruct C as (C1 & C2).
  assert (KA : kv_ok ka va) by (unfold kv_ok; tauto). assert (KBA : kv_ok kb va) by (unfold kv_ok; tauto).
  assert (KB : kv_ok kb vb) by (unfold kv_ok; tauto).
  assert (NE : wire_key ka <> wire_key kb) by (vm_compute; discriminate).
  split.
  - split; [|split].
    + unfold mwf, mkeys. cbn [c_map s_scan map fst]. repeat constructor; cbn [In]; intuition.
    + constructor; [exists ka, va; auto|]. constructor; [exists kb, va; auto|]. constructor.
    + constructor; [exact Logic.I|]. constructor; [split; auto|]. constructor; [exact KB|]. constructor.
  - exists [LNone; LNone; LNone; LNone; LNone; LNone; LNone; LInsert 2 kb vb; LNone; LNone],
      (mkC 110 [(wire_key kb, mkEntry 1000 (kv kb vb))] [TScanDone [kv kb vb]; TDelDone kb; TInsDone kb vb 1000]).
    split; [|split; [reflexivity|split; [|split]]].
    + eapply ce_cons; [eapply (st_scan_start 100 _ _ 0 [wire_key ka; wire_key kb] _); first [reflexivity|apply Permutation_refl]|].
      eapply ce_cons; [eapply (st_del 100 _ _ 1 kb _); reflexivity|].
      eapply ce_cons; [eapply (st_ins_time 100 _ _ 2 kb vb _ _); reflexivity|].
      eapply ce_cons; [apply (st_clock 100 110); lia|].
      eapply ce_cons; [eapply (st_scan_dead 110 _ _ 0 (wire_key ka) [wire_key kb] [] (mkEntry 105 (kv ka va)) _); reflexivity|].
      eapply ce_cons; [eapply (st_scan_purge 110 _ _ 0 (wire_key ka) [wire_key kb] [] _); reflexivity|].
      eapply ce_cons; [eapply (st_ins_load' 110 _ _ 2 kb vb 1000); reflexivity|].
      eapply ce_cons; [eapply (st_ins_store 110 _ _ 2 kb vb 1000); reflexivity|].
      eapply ce_cons; [eapply (st_scan_live 110 _ _ 0 (wire_key kb) [] [] (mkEntry 1000 (kv kb vb)) _); reflexivity|].
      eapply ce_cons; [eapply (st_scan_end 110 _ _ 0 _ _); reflexivity|].
      constructor.
    + exists kb, vb, (mkEntry 1000 (kv kb vb)). split; auto. split; [reflexivity|]. split; [reflexivity|]. right. reflexivity.
    + intros (k & v & e & Ek & L & _). unfold kv in Ek. injection Ek as <- <-. vm_compute in L. discriminate.
    + intros (k & v & e & Ek & L & Ee & _). unfold kv in Ek. injection Ek as <- <-.
      replace (mload _ _) with (Some (mkEntry 1000 (kv kb vb))) in L by reflexivity. injection L as <-. discriminate Ee.
Qed.

(** The run without the insert, after the delete: the key is gone. *)
Example C147_instance_gone :
  let s := mkC 100 [(wire_key ka, mkEntry 105 (kv ka va))] [TScan; TDelDone kb] in
  calls_ok (mkC 100 [(wire_key ka, mkEntry 105 (kv ka va)); (wire_key kb, mkEntry 0 (kv kb va))] [TScan; TDel kb]) /\
  cexec (mkC 100 [(wire_key ka, mkEntry 105 (kv ka va)); (wire_key kb, mkEntry 0 (kv kb va))] [TScan; TDel kb]) [LNone] s /\
  mload (c_map s) (wire_key kb) = None /\ (forall t, In t (c_threads s) -> ~ inserting kb t).
Proof.
  destruct kva_ok as (A & B & C). destruct A as (A1 & A2 & A3 & A4). destruct C as (C1 & C2).
  assert (NE : wire_key ka <> wire_key kb) by (vm_compute; discriminate).
  split; [|split; [|split; [reflexivity|]]].
  - split; [|split].
    + unfold mwf, mkeys. cbn [c_map map fst]. repeat constructor; cbn [In]; intuition.
    + constructor; [exists ka, va; split; [unfold kv_ok; tauto|auto]|]. constructor; [exists kb, va; split; [unfold kv_ok; tauto|auto]|]. constructor.
    + constructor; [exact Logic.I|]. constructor; [split; auto|]. constructor.
  - eapply ce_cons; [eapply (st_del 100 _ _ 1 kb _); reflexivity|]. constructor.
  - intros t [<-|[<-|[]]]; cbn [inserting]; auto.
Qed.
