(** Proofs about the registry of datasets. *)
From Verif.Base Require Import GoBase GoLemmas Assoc Float.
From Verif.Model Require Import Codec Store Data Dataset.
From Verif.Spec Require Import RegistrySpec.
From Verif.Proof Require Import StoreConcP.
From Coq Require Import Lia Permutation.
Open Scope N_scope.

Lemma bytes_dec : forall a b : bytes, {a = b} + {a <> b}.
Proof. apply list_eq_dec, N.eq_dec. Qed.

Definition inv (s : dstate) : Prop :=
  mwf (dsList s) /\
  forall n i, mload (dsList s) n = Some i ->
    exists dt c, nth_error (dsObjs s) (diObj i) = Some dt /\ dConfig dt = Some c /\ cName c = n.

Lemma live_iff : forall now i, item_live now i = true <-> (diExpires i <= 0)%Z \/ (now <= diExpires i)%Z.
Proof.
  intros now [a e]. unfold item_live. cbn. rewrite negb_true_iff, andb_false_iff, !Z.ltb_ge. tauto.
Qed.

Lemma get_holds : forall now s n a, inv s -> dl_get now s n = Some a <-> holds now s n a.
Proof.
  intros now s n a [W _]. unfold dl_get, holds. split.
  - destruct (mload (dsList s) n) as [i|] eqn:E; [|discriminate].
    destruct (item_live now i) eqn:L; [|discriminate]. intro H. injection H as <-.
    exists i. split; [apply mload_in; auto|]. split; auto. apply live_iff; auto.
  - intros (i & I & <- & L). rewrite (in_mload _ _ _ W I). apply live_iff in L. rewrite L. reflexivity.
Qed.

Lemma get_some : forall now s n a, dl_get now s n = Some a ->
  exists i, mload (dsList s) n = Some i /\ diObj i = a /\ item_live now i = true.
Proof.
  intros now s n a. unfold dl_get. destruct (mload (dsList s) n) as [i|]; [|discriminate].
  destruct (item_live now i) eqn:L; [|discriminate]. intro H. injection H as <-. eauto.
Qed.

Lemma expiry_live : forall now d a, item_live now (mkDI a (dl_expiry now d)) = true.
Proof.
  intros. apply live_iff. cbn. unfold dl_expiry.
  destruct (d =? 0)%Z eqn:A; [lia|]. destruct (0 <? d)%Z eqn:B; lia.
Qed.

(** Registering a new dataset. *)
Definition added (now : Z) (s : dstate) (c : DataConfig) : dstate :=
  mkDS (dsObjs s ++ [InitData (NewPreData c)])
    (mstore (dsList s) (cName c) (mkDI (length (dsObjs s)) (dl_expiry now (GetRetention (cRetention c))))).

Lemma add_none : forall now s c, dl_get now s (cName c) = None -> dl_add now s c = Some (added now s c).
Proof. intros. unfold dl_add. rewrite H. reflexivity. Qed.

Lemma get_added : forall now s c, dl_get now (added now s c) (cName c) = Some (length (dsObjs s)).
Proof.
  intros. unfold dl_get, added. cbn [dsList]. rewrite mload_mstore_same, expiry_live. reflexivity.
Qed.

Lemma inv_added : forall now s c, inv s -> inv (added now s c).
Proof.
  intros now s c [W I]. split; [apply mstore_wf; auto|]. unfold added; cbn [dsList dsObjs]. intros n i E.
  destruct (bytes_dec (cName c) n) as [<-|N].
  - rewrite mload_mstore_same in E. injection E as <-. cbn [diObj].
    rewrite nth_error_app2, Nat.sub_diag by lia. exists (InitData (NewPreData c)), c. auto.
  - rewrite mload_mstore_other in E by auto. destruct (I _ _ E) as (dt & c' & A & B & C).
    exists dt, c'. split; auto. rewrite nth_error_app1; auto. apply nth_error_Some. congruence.
Qed.

Section R.
Variable inc : Z -> Z -> Z -> Z.
Variable closed : Data -> Data.
Hypothesis KC : keeps_config closed.

(** Two states that differ at most in the expiration of the items of [n]. *)
Definition touched (n : bytes) (s s' : dstate) : Prop :=
  dsObjs s' = dsObjs s /\
  (forall m, m <> n -> mload (dsList s') m = mload (dsList s) m) /\
  (forall i, mload (dsList s) n = Some i -> exists e, mload (dsList s') n = Some (mkDI (diObj i) e)) /\
  (mload (dsList s) n = None -> mload (dsList s') n = None).

Lemma touch_ok : forall now s n a, inv s -> dl_get now s n = Some a ->
  exists s', dl_touch inc now s n a = Ok s' /\ touched n s s' /\ inv s'.
Proof.
  intros now s n a [W I] G. destruct (get_some _ _ _ _ G) as (i & E & <- & L).
  destruct (I _ _ E) as (dt & c & A & B & C). unfold dl_touch. rewrite A, B, E.
  eexists. split; [reflexivity|]. split.
  - unfold touched; cbn [dsObjs dsList]. split; auto. split.
    { intros m N. rewrite mload_mstore_other; auto. }
    split; [|congruence]. intros i' E'. rewrite E in E'. injection E' as <-.
    rewrite mload_mstore_same. eauto.
  - split; cbn [dsObjs dsList]; [apply mstore_wf; auto|]. intros m j Ej.
    destruct (bytes_dec n m) as [<-|N].
    + rewrite mload_mstore_same in Ej. injection Ej as <-. cbn [diObj]. eauto.
    + rewrite mload_mstore_other in Ej by auto. eauto.
Qed.

(** Get. *)
Lemma get_ok : forall f now s n, inv s -> (3 <= f)%nat ->
  exists s' a, Get inc f now s n = Ok (s', a) /\ inv s' /\
    ((dl_get now s n = Some a /\ touched n s s') \/
     (dl_get now s n = None /\ a = length (dsObjs s) /\ touched n (added now s (GetDefaultConfig n)) s')).
Proof.
  intros f now s n I F. destruct f as [|[|[|f]]]; try lia. cbn [Get].
  destruct (dl_get now s n) as [a|] eqn:G.
  - destruct (touch_ok now s n a I G) as (s' & E & T & I'). rewrite E. cbn [bind]. eauto 10.
  - cbn [GetOrCreateIfNotExists CreateIfNotExists]. rewrite add_none by exact G. cbn [bind].
    change (cName (GetDefaultConfig n)) with n.
    pose proof (get_added now s (GetDefaultConfig n)) as G'. change (cName (GetDefaultConfig n)) with n in G'.
    cbn [Get]. rewrite G'.
    destruct (touch_ok now _ n _ (inv_added now s (GetDefaultConfig n) I) G') as (s' & E & T & I').
    rewrite E. cbn [bind]. eauto 10.
Qed.

Lemma update_ok : forall s c a dt c0, nth_error (dsObjs s) a = Some dt -> dConfig dt = Some c0 ->
  exists s', update_config s c a = Ok s' /\ dsList s' = dsList s /\
    nth_error (dsObjs s') a = Some (if cVersion c0 <? cVersion c then set_config dt c else dt) /\
    forall b, b <> a -> nth_error (dsObjs s') b = nth_error (dsObjs s) b.
Proof.
  intros s c a dt c0 A B. unfold update_config. rewrite A, B.
  destruct (cVersion c0 <? cVersion c) eqn:V.
  - assert (S : exists l, list_set (dsObjs s) a (set_config dt c) = Some l).
    { clear - A. revert a A. generalize (dsObjs s) as l. induction l; intros [|a'] A; cbn in *; try discriminate; eauto.
      destruct (IHl _ A) as [l' ->]. eauto. }
    destruct S as [l S]. rewrite S. eexists. split; [reflexivity|]. cbn. split; auto.
    split; [|intros b N]; erewrite nth_list_set by eassumption.
    + rewrite Nat.eqb_refl. reflexivity.
    + destruct (Nat.eqb_spec a b); congruence.
  - eexists. split; [reflexivity|]. auto.
Qed.

Lemma inv_inj : forall s n m i j, inv s -> mload (dsList s) n = Some i -> mload (dsList s) m = Some j ->
  diObj i = diObj j -> n = m.
Proof.
  intros s n m i j [_ I] A B E. destruct (I _ _ A) as (dt & c & X & Y & Z).
  destruct (I _ _ B) as (dt' & c' & X' & Y' & Z'). congruence.
Qed.

(** CreateIfNotExists. *)
Definition created (now : Z) (s : dstate) (c : DataConfig) (s' : dstate) : Prop :=
  match dl_get now s (cName c) with
  | Some a => dsList s' = dsList s /\
      (forall dt c0, nth_error (dsObjs s) a = Some dt -> dConfig dt = Some c0 ->
        nth_error (dsObjs s') a = Some (if cVersion c0 <? cVersion c then set_config dt c else dt)) /\
      (forall b, b <> a -> nth_error (dsObjs s') b = nth_error (dsObjs s) b)
  | None => s' = added now s c
  end.

Lemma created_inv : forall now s c s', inv s -> created now s c s' -> inv s'.
Proof.
  intros now s c s' I C. unfold created in C. destruct (dl_get now s (cName c)) as [a|] eqn:G.
  2: { subst. apply inv_added; auto. }
  destruct C as (L & U & O). pose proof I as [W I2]. split; [rewrite L; auto|].
  intros n i E. rewrite L in E. destruct (I2 _ _ E) as (dt & c0 & A & B & D).
  destruct (get_some _ _ _ _ G) as (j & Ej & Ja & _).
  destruct (Nat.eq_dec (diObj i) a) as [Q|Q].
  - assert (n = cName c) by (eapply inv_inj; eauto; congruence).
    pose proof (U dt c0) as U'. rewrite <- Q in U'. specialize (U' A B). rewrite U'.
    destruct (cVersion c0 <? cVersion c); eexists; eexists; (split; [reflexivity|]); cbn; split; eauto; congruence.
  - rewrite O by auto. eauto.
Qed.

Lemma create_ok : forall f now s c, inv s -> (2 <= f)%nat ->
  exists s', CreateIfNotExists inc f now s c = Ok s' /\ created now s c s'.
Proof.
  intros f now s c I F. destruct f as [|[|f]]; try lia. cbn [CreateIfNotExists].
  unfold created. destruct (dl_get now s (cName c)) as [a|] eqn:G.
  - unfold dl_add. rewrite G. cbn [GetNoOp]. rewrite ?G. cbn [bind].
    destruct (get_some _ _ _ _ G) as (i & E & <- & L). destruct I as [W I].
    destruct (I _ _ E) as (dt & c0 & A & B & D).
    destruct (update_ok s c _ _ _ A B) as (s' & U1 & U2 & U3 & U4).
    exists s'. split; auto. split; auto. split; auto. intros dt' c0' A' B'.
    rewrite A in A'. injection A' as <-. rewrite B in B'. injection B' as <-. auto.
  - rewrite add_none by auto. eauto.
Qed.

Lemma created_get : forall now s c s', inv s -> created now s c s' ->
  exists a, dl_get now s' (cName c) = Some a /\
    (dl_get now s (cName c) = Some a \/ dl_get now s (cName c) = None /\ a = length (dsObjs s)).
Proof.
  intros now s c s' I C. unfold created in C. destruct (dl_get now s (cName c)) as [a|] eqn:G.
  - destruct C as (L & _). exists a. split; auto. unfold dl_get in *. rewrite L. auto.
  - subst. exists (length (dsObjs s)). split; auto. apply get_added.
Qed.

Lemma touched_get : forall n s s', touched n s s' -> forall i, mload (dsList s) n = Some i ->
  exists e, mload (dsList s') n = Some (mkDI (diObj i) e).
Proof. intros n s s' (_ & _ & T & _). auto. Qed.

Lemma getnoop_ok : forall f now s n, inv s -> (4 <= f)%nat ->
  exists s' a, GetNoOp inc f now s n = Ok (s', a) /\ inv s' /\
    ((dl_get now s n = Some a /\ touched n s s') \/
     (dl_get now s n = None /\ a = length (dsObjs s) /\ touched n (added now s (GetDefaultConfig n)) s')).
Proof.
  intros f now s n I F. destruct f as [|f]; try lia. cbn [GetNoOp].
  destruct (dl_get now s n) as [a|] eqn:G.
  - exists s, a. split; auto. split; auto. left. split; auto. unfold touched.
    split; [reflexivity|]. split; [reflexivity|]. split; [|auto]. intros [o e] ->. cbn. eauto.
  - pose proof (get_ok (S f) now s n I) as H. cbn [Get] in H. rewrite G in H.
    destruct H as (s' & a & H1 & H2 & H3); [lia|]. exists s', a. split; [exact H1|]. split; [exact H2|].
    destruct H3 as [[H3 _]|H3]; [discriminate|]. auto.
Qed.

Lemma goc_eq : forall f now s c, GetOrCreateIfNotExists inc (S f) now s c =
  (s' <- CreateIfNotExists inc f now s c ;; Get inc f now s' (cName c)).
Proof. reflexivity. Qed.

Lemma getorcreate_ok : forall f now s c, inv s -> (4 <= f)%nat ->
  exists s1 s' a, GetOrCreateIfNotExists inc f now s c = Ok (s', a) /\ inv s1 /\ inv s' /\
    created now s c s1 /\ dl_get now s1 (cName c) = Some a /\ touched (cName c) s1 s'.
Proof.
  intros f now s c I F. destruct f as [|f]; try lia. rewrite goc_eq.
  destruct (create_ok f now s c I) as (s1 & E & C); [lia|]. rewrite E. cbn [bind].
  pose proof (created_inv _ _ _ _ I C) as I1.
  destruct (created_get _ _ _ _ I C) as (a & G & _).
  destruct (get_ok f now s1 (cName c) I1) as (s' & a' & E' & I' & H); [lia|].
  destruct H as [[G' T]|[G' _]]; rewrite G in G'; [|discriminate]. injection G' as <-.
  exists s1, s', a. auto 10.
Qed.
(** Nothing but [n] changed. *)
Definition others (n : bytes) (s s' : dstate) : Prop :=
  (forall m, m <> n -> mload (dsList s') m = mload (dsList s) m) /\
  (forall m i, m <> n -> mload (dsList s) m = Some i ->
     nth_error (dsObjs s') (diObj i) = nth_error (dsObjs s) (diObj i)).

(** [n] is still there, with a version that is not lower and the same data. *)
Definition kept (n : bytes) (s s' : dstate) : Prop :=
  forall i, mload (dsList s) n = Some i ->
    (exists e, mload (dsList s') n = Some (mkDI (diObj i) e)) /\
    forall dt c, nth_error (dsObjs s) (diObj i) = Some dt -> dConfig dt = Some c ->
      exists dt' c', nth_error (dsObjs s') (diObj i) = Some dt' /\ dConfig dt' = Some c' /\
        cVersion c <= cVersion c' /\ dDBMap dt' = dDBMap dt.

Lemma others_refl : forall n s, others n s s.
Proof. split; auto. Qed.
Lemma others_trans : forall n a b c, others n a b -> others n b c -> others n a c.
Proof.
  intros n a b c [A1 A2] [B1 B2]. split.
  - intros m N. rewrite B1, A1; auto.
  - intros m i N E. rewrite (B2 m i N), (A2 m i N E); auto. rewrite A1; auto.
Qed.
Lemma kept_refl : forall n s, kept n s s.
Proof. intros n s [o e] E. split; [cbn; eauto|]. intros dt c A B. exists dt, c. repeat split; auto. lia. Qed.
Lemma kept_trans : forall n a b c, kept n a b -> kept n b c -> kept n a c.
Proof.
  intros n a b c A B i E. destruct (A i E) as ((e1 & E1) & A'). destruct (B _ E1) as ((e2 & E2) & B').
  cbn in *. split; eauto. intros dt cc X Y. destruct (A' _ _ X Y) as (dt1 & c1 & X1 & Y1 & V1 & M1).
  destruct (B' _ _ X1 Y1) as (dt2 & c2 & X2 & Y2 & V2 & M2). exists dt2, c2. repeat split; auto; [lia|congruence].
Qed.

Lemma touched_others : forall n s s', touched n s s' -> others n s s'.
Proof. intros n s s' (A & B & _). split; auto. rewrite A. auto. Qed.
Lemma touched_kept : forall n s s', touched n s s' -> kept n s s'.
Proof.
  intros n s s' (A & B & C & _) i E. split; auto. rewrite A. intros dt c X Y. exists dt, c. repeat split; auto. lia.
Qed.
Lemma added_others : forall now s c, inv s -> others (cName c) s (added now s c).
Proof.
  intros now s c [_ I]. split; unfold added; cbn [dsList dsObjs].
  - intros m N. rewrite mload_mstore_other; auto.
  - intros m i N E. destruct (I _ _ E) as (dt & c' & A & _). apply nth_error_app1, nth_error_Some. congruence.
Qed.
Lemma created_others : forall now s c s', inv s -> created now s c s' -> others (cName c) s s'.
Proof.
  intros now s c s' I C. unfold created in C. destruct (dl_get now s (cName c)) as [a|] eqn:G.
  2: { subst. apply added_others; auto. }
  destruct C as (L & U & O). split; [rewrite L; auto|]. intros m i N E. apply O. intro Q.
  destruct (get_some _ _ _ _ G) as (j & Ej & Ja & _). apply N. eapply inv_inj; eauto. congruence.
Qed.
Lemma created_kept : forall now s c s' a, dl_get now s (cName c) = Some a -> created now s c s' -> kept (cName c) s s'.
Proof.
  intros now s c s' a G C. unfold created in C. rewrite G in C. destruct C as (L & U & O).
  destruct (get_some _ _ _ _ G) as (j & Ej & Ja & _). intros i E. rewrite Ej in E. injection E as <-.
  rewrite L. destruct j as [o ex]. cbn in *. subst o. split; eauto. intros dt c0 A B.
  rewrite (U _ _ A B). destruct (cVersion c0 <? cVersion c) eqn:V.
  - exists (set_config dt c), c. repeat split; auto. lia.
  - exists dt, c0. repeat split; auto. lia.
Qed.

Lemma set_exists : forall (l : list Data) a x, (a < length l)%nat -> exists l', list_set l a x = Some l'.
Proof.
  induction l; intros [|b] x H; cbn in *; try lia; eauto. destruct (IHl b x) as [l' ->]; [lia|]. eauto.
Qed.

Lemma close_list : forall s a, dsList (close_obj closed s a) = dsList s.
Proof.
  intros. unfold close_obj. destruct (nth_error (dsObjs s) a); auto.
  destruct (list_set _ _ _); auto.
Qed.
Lemma close_nth : forall s a b, nth_error (dsObjs (close_obj closed s a)) b =
  if Nat.eqb a b then option_map closed (nth_error (dsObjs s) a) else nth_error (dsObjs s) b.
Proof.
  intros. unfold close_obj. destruct (nth_error (dsObjs s) a) as [dt|] eqn:E.
  - destruct (set_exists (dsObjs s) a (closed dt)) as [l' S]. { apply nth_error_Some. congruence. }
    rewrite S. cbn. rewrite (nth_list_set _ _ _ _ _ _ S). reflexivity.
  - destruct (Nat.eqb_spec a b); subst; auto.
Qed.
Lemma close_inv : forall s a, inv s -> inv (close_obj closed s a).
Proof.
  intros s a [W I]. split; rewrite close_list; auto. intros n i E. rewrite close_nth.
  destruct (I _ _ E) as (dt & c & A & B & C). destruct (Nat.eqb_spec a (diObj i)).
  - subst. rewrite A. cbn. exists (closed dt), c. rewrite KC. auto.
  - eauto.
Qed.
Lemma close_others : forall s n i, inv s -> mload (dsList s) n = Some i -> others n s (close_obj closed s (diObj i)).
Proof.
  intros s n i I E. split; rewrite ?close_list; auto. intros m j N E'. rewrite close_nth.
  destruct (Nat.eqb_spec (diObj i) (diObj j)) as [Q|]; auto. exfalso. apply N. symmetry. eapply inv_inj; eauto.
Qed.
Lemma delete_inv : forall s n, inv s -> inv (dl_delete closed s n).
Proof.
  intros s n I. unfold dl_delete. destruct (mload (dsList s) n) as [i|] eqn:E; auto.
  destruct (close_inv s (diObj i) I) as [W J]. split; cbn [dsList dsObjs]; [apply mdelete_wf; auto|].
  intros m j Ej. rewrite mload_mdelete in Ej. destruct (bytes_eqb n m); [discriminate|]. auto.
Qed.
Lemma delete_others : forall s n, inv s -> others n s (dl_delete closed s n).
Proof.
  intros s n I. unfold dl_delete. destruct (mload (dsList s) n) as [i|] eqn:E; [|apply others_refl].
  destruct (close_others s n i I E) as [A B]. split; cbn [dsList dsObjs]; auto.
  intros m N. rewrite mload_mdelete_other by auto. auto.
Qed.

(** Every event of a well-formed registry. *)
Lemma step_all : forall s e, inv s -> exists s', dstep inc closed s e = Ok s' /\ inv s' /\
  (forall n, event_name e = Some n -> others n s s' /\
     ((forall t, e <> EvDelete t n) ->
      (forall t, event_time e = Some t -> exists a, dl_get t s n = Some a) -> kept n s s')) /\
  (forall a f, e = EvData a f -> dsList s' = dsList s /\
     (forall b, b <> a -> nth_error (dsObjs s') b = nth_error (dsObjs s) b) /\
     (forall dt, nth_error (dsObjs s) a = Some dt -> exists dt', nth_error (dsObjs s') a = Some dt' /\
        forall c, dConfig dt = Some c -> dConfig dt' = Some c)).
Proof.
  intros s e I. destruct e as [now n|now n|now c|now c|now n|now n|a f]; cbn [dstep event_name event_time].
  - destruct (get_ok deep now s n I) as (s' & a & E & I' & H); [unfold deep; lia|]. rewrite E. cbn [bind fst].
    exists s'. split; auto. split; auto. split; [|discriminate]. intros n' Q. injection Q as <-.
    destruct H as [[G T]|[G [-> T]]].
    + split; [apply touched_others; auto|]. intros _ _. apply touched_kept; auto.
    + split; [|intros _ Q; destruct (Q now eq_refl); congruence].
      eapply others_trans; [|apply touched_others; eauto]. apply (added_others now s (GetDefaultConfig n)); auto.
  - destruct (getnoop_ok deep now s n I) as (s' & a & E & I' & H); [unfold deep; lia|]. rewrite E. cbn [bind fst].
    exists s'. split; auto. split; auto. split; [|discriminate]. intros n' Q. injection Q as <-.
    destruct H as [[G T]|[G [-> T]]].
    + split; [apply touched_others; auto|]. intros _ _. apply touched_kept; auto.
    + split; [|intros _ Q; destruct (Q now eq_refl); congruence].
      eapply others_trans; [|apply touched_others; eauto]. apply (added_others now s (GetDefaultConfig n)); auto.
  - destruct (create_ok deep now s c I) as (s' & E & C); [unfold deep; lia|]. rewrite E.
    exists s'. split; auto. split; [eapply created_inv; eauto|]. split; [|discriminate]. intros n' Q. injection Q as <-.
    split; [eapply created_others; eauto|]. intros _ Q. destruct (Q now eq_refl) as [a G]. eapply created_kept; eauto.
  - destruct (getorcreate_ok deep now s c I) as (s1 & s' & a & E & I1 & I' & C & G & T); [unfold deep; lia|].
    rewrite E. cbn [bind fst]. exists s'. split; auto. split; auto. split; [|discriminate]. intros n' Q. injection Q as <-.
    split.
    + eapply others_trans; [eapply created_others; eauto|]. apply touched_others; auto.
    + intros _ Q. destruct (Q now eq_refl) as [a' G']. eapply kept_trans; [eapply created_kept; eauto|].
      apply touched_kept; auto.
  - unfold Delete. eexists. split; [reflexivity|]. destruct (dl_get now s n) as [a|] eqn:G; cbn [fst].
    + split; [apply delete_inv, close_inv; auto|]. split; [|discriminate]. intros n' Q. injection Q as <-.
      destruct (get_some _ _ _ _ G) as (i & Ei & <- & _). split.
      * eapply others_trans; [apply close_others; eauto|]. apply delete_others, close_inv; auto.
      * intro Q. destruct (Q now eq_refl).
    + split; auto. split; [|discriminate]. intros n' Q. injection Q as <-.
      split; [apply others_refl|]. intros _ _. apply kept_refl.
  - destruct (dl_get now s n) as [a|] eqn:G; eexists; (split; [reflexivity|]).
    + split; auto. split; [|discriminate]. intros n' Q. injection Q as <-.
      split; [apply others_refl|]. intros _ _. apply kept_refl.
    + split; [apply delete_inv; auto|]. split; [|discriminate]. intros n' Q. injection Q as <-.
      split; [apply delete_others; auto|]. intros _ Q. destruct (Q now eq_refl). congruence.
  - destruct (nth_error (dsObjs s) a) as [dt|] eqn:E.
    + set (x := match dConfig dt with Some c => set_config (f dt) c | None => f dt end).
      destruct (set_exists (dsObjs s) a x) as [l' S]. { apply nth_error_Some. congruence. }
      rewrite S. eexists. split; [reflexivity|].
      assert (X : forall c, dConfig dt = Some c -> dConfig x = Some c).
      { intros c Q. subst x. rewrite Q. reflexivity. }
      split; [|split; [discriminate|]].
      * destruct I as [W I]. split; auto. cbn [dsList dsObjs]. intros n i Ei. destruct (I _ _ Ei) as (d & c & A & B & C).
        rewrite (nth_list_set _ _ _ _ _ _ S). destruct (Nat.eqb_spec a (diObj i)); eauto.
        exists x, c. split; auto. split; auto. apply X. congruence.
      * intros a' f' Q. injection Q as <- <-. cbn [dsList dsObjs]. split; auto. split.
        -- intros b N. rewrite (nth_list_set _ _ _ _ _ _ S). destruct (Nat.eqb_spec a b); congruence.
        -- intros d Q. rewrite E in Q. injection Q as <-. rewrite (nth_list_set _ _ _ _ _ _ S), Nat.eqb_refl. eauto.
    + exists s. split; auto. split; auto. split; [discriminate|]. intros a' f' Q. injection Q as <- <-.
      split; auto. split; auto. congruence.
Qed.

Lemma reachable_inv : forall s, reachable inc closed s -> inv s.
Proof.
  intros s [es E]. assert (I : inv (mkDS [] [])). { split; [constructor|]. cbn. discriminate. }
  revert I E. generalize (mkDS [] []) as s0. induction es as [|e es IH]; cbn [drun]; intros s0 I E; [congruence|].
  destruct (step_all s0 e I) as (s1 & E1 & I1 & _). rewrite E1 in E. cbn [bind] in E. eauto.
Qed.

Lemma run_total : forall es s, inv s -> exists s', drun inc closed s es = Ok s' /\ inv s'.
Proof.
  induction es as [|e es IH]; intros s I; cbn [drun]; eauto.
  destruct (step_all s e I) as (s1 & E1 & I1 & _). rewrite E1. cbn [bind]. auto.
Qed.

(** The version and the address along an undisturbed history. *)
Lemma undisturbed_keep : forall name s es s', undisturbed inc closed name s es s' -> inv s ->
  inv s' /\ forall i, mload (dsList s) name = Some i ->
    (exists e, mload (dsList s') name = Some (mkDI (diObj i) e)) /\
    forall dt c, nth_error (dsObjs s) (diObj i) = Some dt -> dConfig dt = Some c ->
      exists dt' c', nth_error (dsObjs s') (diObj i) = Some dt' /\ dConfig dt' = Some c' /\
        cVersion c <= cVersion c'.
Proof.
  induction 1 as [s|s e s1 es s2 E N H _ IH]; intro I.
  - split; auto. intros [o e] Q. split; [cbn; eauto|]. intros dt c A B. exists dt, c. repeat split; auto. lia.
  - destruct (step_all s e I) as (s1' & E' & I1 & A & B). rewrite E in E'. injection E' as <-.
    destruct (IH I1) as [I2 K]. split; auto. intros i Q.
    assert (K1 : (exists ex, mload (dsList s1) name = Some (mkDI (diObj i) ex)) /\
      forall dt c, nth_error (dsObjs s) (diObj i) = Some dt -> dConfig dt = Some c ->
      exists dt' c', nth_error (dsObjs s1) (diObj i) = Some dt' /\ dConfig dt' = Some c' /\
        cVersion c <= cVersion c').
    { destruct (event_name e) as [m|] eqn:En.
      - destruct (A m eq_refl) as [[O1 O2] Kp]. destruct (bytes_dec name m) as [<-|Nm].
        + assert (KK : kept name s s1).
          { apply Kp; auto. intros t T. destruct (H t eq_refl T) as [a Ha]. exists a. apply get_holds; auto. }
          destruct (KK i Q) as (X & Y).
          split; auto. intros dt c D1 D2. destruct (Y dt c D1 D2) as (dt' & c' & Z1 & Z2 & Z3 & _). eauto 10.
        + split. { exists (diExpires i). rewrite O1 by auto. rewrite Q. destruct i; auto. }
          intros dt c D1 D2. rewrite (O2 name i Nm Q). exists dt, c. repeat split; auto. lia.
      - destruct e as [| | | | | |a f]; try discriminate. destruct (B a f eq_refl) as (L & Ot & Sm). rewrite L. split.
        { exists (diExpires i). rewrite Q. destruct i; auto. }
        intros dt c D1 D2. destruct (Nat.eq_dec (diObj i) a) as [Qa|Na].
        + subst a. destruct (Sm dt D1) as (dt' & Z1 & Z2). exists dt', c. repeat split; auto. lia.
        + rewrite Ot by auto. exists dt, c. repeat split; auto. lia. }
    destruct K1 as ((ex & Q1) & K1). destruct (K _ Q1) as (K2 & K3). cbn [diObj] in *. split; auto.
    intros dt c D1 D2. destruct (K1 dt c D1 D2) as (dt1 & c1 & Z1 & Z2 & Z3).
    destruct (K3 dt1 c1 Z1 Z2) as (dt2 & c2 & Y1 & Y2 & Y3). exists dt2, c2. repeat split; auto. lia.
Qed.
End R.
