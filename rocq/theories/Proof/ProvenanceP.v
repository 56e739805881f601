(** Where the data of a cluster come from. *)
From Verif.Base Require Import GoBase GoLemmas Assoc Float GoSort.
From Verif.Model Require Import Codec Store Data Insert Vector Search Dataset Sync Cluster Annoy.
From Verif.Spec Require Import SyncSpec ClusterSpec ProvenanceSpec.
From Verif.Proof Require Import SyncP ClusterP.
From Coq Require Import Lia Permutation.
Open Scope N_scope.

Section Provenance.
Variables (M : mathlib) (undef : N) (resolve : bytes -> option nat) (Q : Datum -> Prop).

Definition pc_ok (p : spc) : Prop :=
  match p with Idle => True | Visit d _ _ => Q d | Acked d _ _ _ => Q d end.
Definition sender_ok (r : sender) : Prop := (forall d c, In (d, c) (rQueue r) -> Q d) /\ pc_ok (rPc r).
Definition sync_ok (s : sync) : Prop :=
  (forall b e, In (b, e) (store s) -> Q (edatum e)) /\ Forall sender_ok (ySenders s).

Definition event_ok (s : sync) (e : yev) : Prop :=
  match e with
  | YProcess P _ => incl (pOrder P) (store s)
  | YInsert _ (Some d) _ => Q d
  | _ => True
  end.

Lemma store_set_map : forall dt m l, store (mkSync (set_map dt m) l) = m.
Proof. reflexivity. Qed.

Lemma insert_local_in : forall now dt d c dt' o b e,
  InsertLocal now dt (Some d) c = Ok (dt', o) -> In (b, e) (dDBMap dt') -> In (b, e) (dDBMap dt) \/ edatum e = d.
Proof.
  intros now dt d c dt' o b e H Hb. unfold InsertLocal in H.
  assert (X : forall dt0, dDBMap dt0 = dDBMap dt ->
    match InsertBDMap now (dDBMap dt0) (Some d) c with
    | Panic => Panic
    | Err e => Ok (dt0, Some e)
    | Ok (m, fresh) =>
        let dt := set_map dt0 m in
        let dt := if (fresh : bool) then set_recent dt (u64 (dRecentInsertCount dt + 1)) else dt in
        Ok (set_dirty dt true, None)
    end = Ok (dt', o) -> In (b, e) (dDBMap dt) \/ edatum e = d).
  { intros dt0 E0 X. rewrite E0 in X.
    destruct (InsertBDMap now (dDBMap dt) (Some d) c) as [[m f]|er|] eqn:I; [| |discriminate X].
    - assert (MM : dDBMap dt' = m) by (destruct f; injection X as <- _; reflexivity).
      rewrite MM in Hb. unfold InsertBDMap in I.
      destruct (GetKeyAsBytes (Some d)) as [kb| |]; cbn [bind] in I; try discriminate I.
      match type of I with bind ?g _ = _ => destruct g as [[|]| |] end; cbn [bind] in I; try discriminate I.
      + injection I as <- _. destruct Hb as [Hb|Hb]; [injection Hb as _ <-; right; reflexivity|].
        left. eapply mdelete_incl. exact Hb.
      + injection I as <- _. left. exact Hb.
    - injection X as <- _. left. rewrite <- E0. exact Hb. }
  destruct (match dConfig dt with Some c0 => _ | None => _ end).
  - injection H as <- _. left. exact Hb.
  - cbv zeta in H. destruct (dInitialized dt).
    + eapply X; [|exact H]. reflexivity.
    + eapply X; [|exact H]. unfold InitData; destruct (dInitialized dt); reflexivity.
Qed.

Lemma local_none : forall now dt c x, InsertLocal now dt None c = Ok x -> dDBMap (fst x) = dDBMap dt.
Proof.
  intros now dt c x H. unfold InsertLocal in H.
  destruct (match dConfig dt with Some c0 => _ | None => _ end); [injection H as <-; reflexivity|].
  cbn in H. discriminate H.
Qed.

Lemma forall_set : forall (A : Type) (P : A -> Prop) l i x l', Forall P l -> P x -> list_set l i x = Some l' -> Forall P l'.
Proof.
  intros A P. induction l as [|a l IH]; intros i x l' F PX H; destruct i; cbn in H; try discriminate H.
  - injection H as <-. inversion F as [|? ? F1 F2]. subst. constructor; assumption.
  - destruct (list_set l i x) as [l1|] eqn:E; [|discriminate H]. injection H as <-. inversion F as [|? ? F1 F2]. subst.
    constructor; [exact F1|exact (IH i x l1 F2 PX E)].
Qed.

Lemma sync_ok_step : forall s e s', sync_ok s -> event_ok s e -> sync_step M undef s e = Some s' -> sync_ok s'.
Proof.
  intros s e s' (A & B) OK H. destruct e as [P f|i se|now d c|d|l|]; cbn [sync_step] in H.
  - destruct (Process M P (yData s) f) as [[dt r]| |] eqn:PR; try discriminate H.
    destruct (process_spec _ _ _ _ _ _ PR) as (li & cf & limit & dm & _ & _ & _ & _ & _ & _ & C).
    assert (DEL : forall ks (m : dbmap) b (e : entry), In (b, e) (fold_left mdelete ks m) -> In (b, e) m).
    { induction ks as [|k ks IH]; intros m b e Hb; [exact Hb|]. cbn in Hb. apply IH in Hb. eapply mdelete_incl. exact Hb. }
    assert (ST : forall b e, In (b, e) (dDBMap dt) -> Q (edatum e)).
    { intros b e Hb. destruct C as [(_ & C)|(_ & C & _ & _)].
      - cbv zeta in C. destruct C as (C & _). rewrite C in Hb. apply DEL in Hb. eapply A. exact Hb.
      - rewrite C in Hb. eapply A. exact Hb. }
    destruct r as [r|]; injection H as <-; (split; [exact ST|]); cbn [ySenders]; [|exact B].
    apply Forall_app. split; [exact B|]. constructor; [|constructor].
    destruct C as [(_ & C)|(_ & _ & C & _)]; [|discriminate C].
    cbv zeta in C. destruct C as (_ & _ & _ & _ & _ & ER).
    destruct (0 <? dN (yData s)); [|discriminate ER]. injection ER as ->. split; [|exact I].
    intros d c Hd. cbn [rQueue] in Hd. apply fold_out in Hd. destruct Hd as [[]|(k & e & Hk & -> & _)].
    unfold live_of in Hk. apply filter_In in Hk. destruct Hk as (Hk & _). apply OK in Hk. eapply A. exact Hk.
  - destruct (nth_error (ySenders s) i) as [r|] eqn:NE; [|discriminate H].
    destruct (sender_step undef (yData s) r se) as [[dt r']|] eqn:SS; [|discriminate H].
    destruct (list_set (ySenders s) i r') as [l|] eqn:LS; [|discriminate H]. injection H as <-.
    assert (R : sender_ok r) by (rewrite Forall_forall in B; apply B; eapply nth_error_In; exact NE).
    assert (GOAL : (forall b e, In (b, e) (dDBMap dt) -> Q (edatum e)) /\ sender_ok r').
    { destruct R as (R1 & R2). unfold sender_step in SS.
      destruct se as [o| |ok|]; destruct (rPc r) as [|d c ids|d c id ids] eqn:PC; try discriminate SS.
      - destruct (rQueue r) as [|[d c] q] eqn:RQ; [discriminate SS|]. injection SS as <- <-.
        split; [exact A|]. split.
        + intros d' c' Hd. cbn in Hd. eapply R1. right. exact Hd.
        + cbn. eapply R1. left. reflexivity.
      - destruct ids as [|id ids]; [|destruct (serves _ _ _); [discriminate SS|]]; injection SS as <- <-;
          (split; [exact A|]); (split; [exact R1|]); cbn in *; auto.
      - destruct ids as [|id ids]; [discriminate SS|]. destruct (serves _ _ _); [|discriminate SS].
        injection SS as <- <-. split; [exact A|]. split; [exact R1|]. destruct ok; exact R2.
      - destruct (_ || _)%bool.
        + destruct (DeleteBDMap _ _) as [m| |] eqn:D; try discriminate SS. injection SS as <- <-.
          split; [|split; [exact R1|exact R2]]. intros b e Hb. cbn in Hb. unfold DeleteBDMap in D.
          destruct (GetKeyAsBytes _) as [kb| |]; cbn [bind] in D; try discriminate D. injection D as <-.
          apply mdelete_incl in Hb. eapply A. exact Hb.
        + injection SS as <- <-. split; [exact A|]. split; [exact R1|exact R2]. }
    destruct GOAL as (G1 & G2). split; [exact G1|]. cbn [ySenders]. eapply forall_set; eauto.
  - destruct (InsertLocal now (yData s) d c) as [[dt o]| |] eqn:IL; try discriminate H. injection H as <-.
    split; [|exact B]. intros b e Hb. destruct d as [d|].
    + destruct (insert_local_in _ _ _ _ _ _ b e IL Hb) as [X|X]; [eapply A; exact X|]. rewrite X. exact OK.
    + apply local_none in IL. cbn in IL. unfold store in Hb. cbn in Hb. rewrite IL in Hb. eapply A. exact Hb.
  - destruct (DeleteBDMap _ _) as [m| |] eqn:D; try discriminate H. injection H as <-. split; [|exact B].
    unfold DeleteBDMap in D. destruct (GetKeyAsBytes _) as [kb| |]; cbn [bind] in D; try discriminate D. injection D as <-.
    intros b e Hb. apply mdelete_incl in Hb. eapply A. exact Hb.
  - injection H as <-. split; [exact A|exact B].
  - injection H as <-. split; [exact A|exact B].
Qed.

Definition all_ok (w : cluster) : Prop := forall i, sync_ok (w i).

Lemma set_ok : forall w i s, all_ok w -> sync_ok s -> all_ok (set_sync w i s).
Proof. intros w i s A S j. unfold set_sync. destruct (Nat.eqb j i); auto. Qed.

Lemma receive_ok : forall now s d c, sync_ok s -> Q d -> sync_ok (fst (receive now s d c)).
Proof.
  intros now s d c (A & B) QD. unfold receive.
  destruct (InsertLocal now (yData s) (Some d) (Some c)) as [[dt [o|]]| |] eqn:IL; cbn [fst]; try (split; assumption);
    (split; [|exact B]); intros b e Hb; destruct (insert_local_in _ _ _ _ _ _ b e IL Hb) as [X|X];
    [eapply A; exact X|rewrite X; exact QD|eapply A; exact X|rewrite X; exact QD].
Qed.

Lemma all_ok_step : forall w e w', all_ok w ->
  match e with CLocal i e => event_ok (w i) e | COffer _ _ _ _ => True end ->
  cluster_step M undef resolve w e = Some w' -> all_ok w'.
Proof.
  intros w e w' A OK H. destruct e as [i e|i j now l]; cbn [cluster_step] in H.
  - assert (LOC : match sync_step M undef (w i) e with Some s => Some (set_sync w i s) | None => None end = Some w').
    { destruct e as [P f|jj se|? ? ?|?|?|]; try exact H. destruct se; try exact H; discriminate H. }
    destruct (sync_step M undef (w i) e) as [s'|] eqn:SS; [|discriminate LOC]. injection LOC as <-.
    apply set_ok; [exact A|]. eapply sync_ok_step; eauto.
  - destruct (nth_error (ySenders (w i)) j) as [r|] eqn:NE; [|discriminate H].
    destruct (rPc r) as [|d c [|id ids]|] eqn:PC; try discriminate H.
    assert (QD : Q d).
    { destruct (A i) as (_ & B). rewrite Forall_forall in B. destruct (B r (nth_error_In _ _ NE)) as (_ & X).
      rewrite PC in X. exact X. }
    assert (STEP : forall w1 ok, all_ok w1 ->
      match sync_step M undef (w1 i) (YSend j (SOffer ok)) with Some s => Some (set_sync w1 i s) | None => None end = Some w' ->
      all_ok w').
    { intros w1 ok A1 S. destruct (sync_step M undef (w1 i) (YSend j (SOffer ok))) as [s|] eqn:SS; [|discriminate S].
      injection S as <-. apply set_ok; [exact A1|]. eapply sync_ok_step; [apply A1| |exact SS]. exact I. }
    destruct (resolve id) as [t|]; [|eapply STEP; eauto].
    pose proof (receive_ok now (w t) d c (A t) QD) as RO.
    destruct (receive now (w t) d c) as [s ok]. cbn [fst] in RO.
    destruct l; (eapply STEP; [|exact H]); auto; apply set_ok; auto.
Qed.

Lemma all_ok_run : forall es w w', all_ok w ->
  always M undef resolve (fun w e => match e with CLocal i e => event_ok (w i) e | COffer _ _ _ _ => True end) w es ->
  cluster_run M undef resolve w es = Some w' -> all_ok w'.
Proof.
  induction es as [|e es IH]; intros w w' A V R; cbn in *.
  - injection R as <-. exact A.
  - destruct V as (V1 & V2). destruct (cluster_step M undef resolve w e) as [w1|] eqn:E; [|discriminate R].
    eapply IH; [|exact V2|exact R]. eapply all_ok_step; eauto.
Qed.
End Provenance.

(** ** The index *)

Lemma list_set_in : forall (A : Type) (l : list A) i x l' y, list_set l i x = Some l' -> In y l' -> In y l \/ y = x.
Proof.
  intros A. induction l as [|a l IH]; intros i x l' y H Hy; destruct i; cbn in H; try discriminate H.
  - injection H as <-. destruct Hy as [<-|Hy]; auto. left. right. exact Hy.
  - destruct (list_set l i x) as [l1|] eqn:E; [|discriminate H]. injection H as <-.
    destruct Hy as [<-|Hy]; [left; left; reflexivity|]. destruct (IH _ _ _ _ E Hy) as [X|X]; [left; right|]; auto.
Qed.

Lemma scan_from : forall alive N0 tick order m s d, index_scan alive N0 tick order m = Ok s ->
  In (Some d) (iData s) -> exists b e, In (b, e) order /\ expired (tick b) e = false /\ edatum e = d.
Proof.
  intros alive N0 tick order m s d H. unfold index_scan in H.
  destruct (LoopDBMap _ _ _ _ _) as [[m' r] er] eqn:E. subst r.
  set (F := fun d => exists b e, In (b, e) order /\ expired (tick b) e = false /\ edatum e = d).
  assert (GEN : forall o m s0 m' er, incl o order ->
    LoopDBMap tick (fun s e => (r <- s ;; index_entry alive r e, None)) o m s0 = (m', Ok s, er) ->
    (forall r d, s0 = Ok r -> In (Some d) (iData r) -> F d) -> In (Some d) (iData s) -> F d).
  { clear E m m' er. induction o as [|[b e] o IH]; intros m s0 m' er IN R P Hd; cbn in R.
    - injection R as _ -> _. eapply P; eauto.
    - assert (IN' : incl o order) by (intros y Hy; apply IN; right; exact Hy).
      destruct (expired (tick b) e) eqn:X; [eapply IH; eauto|].
      eapply IH; [exact IN'|exact R| |exact Hd]. intros r d0 E D0.
      destruct s0 as [r0| |]; cbn [bind] in E; try discriminate E. unfold index_entry in E.
      destruct (featureOf (Some (edatum e))) as [fe| |]; cbn [bind] in E; try discriminate E.
      destruct (_ && _)%bool; [|injection E as <-; eapply P; [reflexivity|exact D0]].
      match type of E with bind ?g _ = _ => destruct g as [nodes| |] end; cbn [bind] in E; try discriminate E.
      destruct (list_set (iData r0) _ _) as [data|] eqn:LS; [|discriminate E]. injection E as <-. cbn [iData] in D0.
      destruct (list_set_in _ _ _ _ _ _ LS D0) as [Y|Y]; [eapply P; [reflexivity|exact Y]|].
      injection Y as ->. exists b, e. split; [apply IN; left; reflexivity|]. auto. }
  eapply GEN; [apply incl_refl|exact E|]. intros r d0 R D0. injection R as <-. cbn [iData] in D0.
  apply repeat_spec in D0. discriminate D0.
Qed.

Lemma index_from_in : forall I S an, index_from I S an -> forall a d, an = Some a -> In (Some d) (yFrom a) ->
  exists order b e, S order /\ In (b, e) order /\ edatum e = d.
Proof.
  intros I S an H. induction H as [|old alive N0 tick order m s outs new _ IH SO SC SW]; intros a d E D; [discriminate E|].
  subst new. unfold index_swap in SW. destruct (iDim s) as [f|]; [|injection SW as ->; eapply IH; eauto].
  destruct (Build I f (iNodes s) outs) as [ix| |]; try discriminate SW. injection SW as <-. cbn [yFrom] in D.
  destruct (scan_from _ _ _ _ _ _ _ SC D) as (b & e & B & _ & ED). exists order, b, e. auto.
Qed.

(** ** Executions *)

Lemma run_from : forall M undef resolve (Q : Datum -> Prop) es w u, all_ok Q w ->
  (forall i now d c, In (CLocal i (YInsert now (Some d) c)) es -> Q d) ->
  always M undef resolve scans_store w es ->
  cluster_run M undef resolve w es = Some u -> all_ok Q u.
Proof.
  intros M undef resolve Q. induction es as [|e es IH]; intros w u A IN V R; cbn in *.
  - injection R as <-. exact A.
  - destruct V as (V1 & V2). destruct (cluster_step M undef resolve w e) as [w1|] eqn:E; [|discriminate R].
    eapply IH; [| |exact V2|exact R]; [|intros; eapply IN; right; eassumption].
    eapply all_ok_step; [exact A| |exact E]. destruct e as [i e|? ? ? ?]; [|exact I].
    destruct e as [P f|? ?|now [d|] c|?|?|]; cbn; auto. eapply IN. left. reflexivity.
Qed.

Lemma always_start : forall M undef resolve ok es1 es2 w,
  always M undef resolve ok w (es1 ++ es2) -> always M undef resolve ok w es1.
Proof.
  intros M undef resolve ok. induction es1 as [|e es1 IH]; intros es2 w H; cbn in *; [exact I|].
  destruct H as (A & B). split; [exact A|]. destruct (cluster_step M undef resolve w e); auto. eapply IH. exact B.
Qed.

Lemma sometime_put : forall M undef resolve w es u i b e,
  (forall i, ySenders (w i) = []) -> always M undef resolve scans_store w es ->
  sometime M undef resolve w es u -> In (b, e) (store (u i)) -> put_in w es (edatum e).
Proof.
  intros M undef resolve w es u i b e NS V (es1 & es2 & -> & R) H.
  assert (A : all_ok (put_in w (es1 ++ es2)) u).
  { eapply run_from; [| |eapply always_start; exact V|exact R].
    - intro j. split; [|rewrite NS; constructor]. intros b0 e0 H0. left. exists j, b0, e0. auto.
    - intros j now d c H0. right. exists j, now, c. apply in_or_app. auto. }
  destruct (A i) as (S & _). eapply S. exact H.
Qed.
