(** Proofs about requests that concern different datasets. *)
From Verif.Base Require Import GoBase GoLemmas Assoc Float GoSort.
From Verif.Model Require Import Codec Store Data Insert Vector Search Dataset Json Index DatasetAll Aggregator CallTree QueryCache SearchStream Requests.
From Verif.Spec Require Import RegistrySpec IsolationSpec.
From Verif.Proof Require Import StoreConcP DatasetP DatasetAllP.
From Coq Require Import Lia.
Open Scope N_scope.

Lemma beq_refl : forall x, bytes_eqb x x = true.
Proof. intro x. apply bytes_eqb_spec. reflexivity. Qed.
Lemma beq_ne : forall x y, x <> y -> bytes_eqb x y = false.
Proof. intros x y N. destruct (bytes_eqb x y) eqn:E; auto. apply bytes_eqb_spec in E. contradiction. Qed.

Lemma view_others : forall x n s s', n <> x -> inv s -> others n s s' -> view x s' = view x s.
Proof.
  intros x n s s' N [_ I] [A B]. unfold view. rewrite A by auto.
  destruct (mload (dsList s) x) as [i|] eqn:E; auto. rewrite (B x i); auto.
Qed.

Lemma view_some : forall x s dt e, view x s = Some (dt, e) ->
  exists a, mload (dsList s) x = Some (mkDI a e) /\ nth_error (dsObjs s) a = Some dt.
Proof.
  intros x s dt e H. unfold view in H. destruct (mload (dsList s) x) as [[a e']|] eqn:E; [|discriminate].
  cbn in H. destruct (nth_error (dsObjs s) a) as [d|] eqn:D; [|discriminate]. injection H as <- <-. eauto.
Qed.
Lemma view_none : forall x s, inv s -> view x s = None -> mload (dsList s) x = None.
Proof.
  intros x s [_ I] H. unfold view in H. destruct (mload (dsList s) x) as [i|] eqn:E; auto.
  destruct (I _ _ E) as (dt & c & A & _). rewrite A in H. discriminate.
Qed.
Lemma view_at : forall x s a e dt, mload (dsList s) x = Some (mkDI a e) -> nth_error (dsObjs s) a = Some dt ->
  view x s = Some (dt, e).
Proof. intros x s a e dt A B. unfold view. rewrite A. cbn. rewrite B. reflexivity. Qed.
Lemma view_config : forall x s dt e, inv s -> view x s = Some (dt, e) -> exists c, dConfig dt = Some c /\ cName c = x.
Proof.
  intros x s dt e [_ I] V. destruct (view_some _ _ _ _ V) as (a & A & B).
  destruct (I _ _ A) as (d & c & C & D & E). cbn in C. rewrite B in C. injection C as <-. eauto.
Qed.

(** Whether a dataset is there, from its view. *)
Definition vlive (now : Z) (v : option (Data * Z)) : option (Data * Z) :=
  match v with Some (dt, e) => if item_live now (mkDI 0 e) then Some (dt, e) else None | None => None end.
Lemma live_obj : forall now a b e, item_live now (mkDI a e) = item_live now (mkDI b e).
Proof. reflexivity. Qed.

Lemma get_live : forall now s x a, inv s -> dl_get now s x = Some a ->
  exists dt e, vlive now (view x s) = Some (dt, e) /\ mload (dsList s) x = Some (mkDI a e) /\ nth_error (dsObjs s) a = Some dt.
Proof.
  intros now s x a [_ I] G. destruct (get_some _ _ _ _ G) as ([b e] & E & Q & L). cbn in Q. subst b.
  destruct (I _ _ E) as (dt & c & A & _). cbn in A. exists dt, e. split; auto. rewrite (view_at _ _ _ _ _ E A).
  cbn [vlive]. rewrite (live_obj _ 0%nat a). rewrite L. reflexivity.
Qed.
Lemma get_dead : forall now s x, dl_get now s x = None -> vlive now (view x s) = None.
Proof.
  intros now s x G. unfold vlive. destruct (view x s) as [[dt e]|] eqn:V; auto.
  destruct (view_some _ _ _ _ V) as (a & A & _). unfold dl_get in G. rewrite A in G. cbn [diObj] in G.
  rewrite (live_obj _ 0%nat a). destruct (item_live now _); [discriminate|auto].
Qed.
Lemma dead_get : forall now s x, inv s -> vlive now (view x s) = None -> dl_get now s x = None.
Proof.
  intros now s x I V. destruct (dl_get now s x) as [a|] eqn:G; auto.
  destruct (get_live _ _ _ _ I G) as (dt & e & A & _). congruence.
Qed.

Section I.
Variable L : floatlib.
Variable inc : Z -> Z -> Z -> Z.
Variable closed : Data -> Data.
Hypothesis KC : keeps_config closed.

(** What Get finds. *)
Definition prolonged (now : Z) (dt : Data) (e : Z) : Z :=
  match dConfig dt with Some c => inc now (GetRetention (cRetention c)) e | None => e end.
Definition fresh (now : Z) (c : DataConfig) : Data * Z :=
  (InitData (NewPreData c), inc now (GetRetention (cRetention c)) (dl_expiry now (GetRetention (cRetention c)))).
Definition vget (now : Z) (x : bytes) (v : option (Data * Z)) : Data * Z :=
  match vlive now v with
  | Some (dt, e) => (dt, prolonged now dt e)
  | None => fresh now (GetDefaultConfig x)
  end.
(** What CreateDataIfNotExists finds. *)
Definition vcreate (now : Z) (c : DataConfig) (v : option (Data * Z)) : Data * Z :=
  match vlive now v with
  | Some (dt, e) =>
      let dt' := match dConfig dt with
                 | Some c0 => if cVersion c0 <? cVersion c then set_config dt c else dt
                 | None => dt
                 end in
      (dt', prolonged now dt' e)
  | None => fresh now c
  end.

Lemma get_view : forall now s x, inv s -> exists s' a dt e, Get inc deep now s x = Ok (s', a) /\ inv s' /\
  others x s s' /\ mload (dsList s') x = Some (mkDI a e) /\ nth_error (dsObjs s') a = Some dt /\
  vget now x (view x s) = (dt, e).
Proof.
  intros now s x I. destruct (dl_get now s x) as [a|] eqn:G.
  - destruct (get_there inc now s x a I G) as (i & dt & c & A1 & A2 & A3 & A4 & A5 & A6 & A7).
    destruct (get_ok inc deep now s x I) as (s' & a' & E & I' & H); [unfold deep; lia|].
    destruct H as [[_ T]|[G' _]]; [|congruence]. rewrite A7 in E. injection E as E1 E2. subst a'.
    exists s', a, dt, (prolonged now dt (diExpires i)). split; [congruence|]. split; auto.
    split; [apply touched_others; auto|]. rewrite <- E1 at 1 2. cbn [dsList dsObjs]. rewrite mload_mstore_same.
    unfold prolonged. rewrite A5. split; auto. split; auto.
    destruct (get_live _ _ _ _ I G) as (dt' & e' & V & M & D). unfold vget. rewrite V.
    rewrite A1 in M. injection M as ->. cbn [diExpires]. rewrite A4 in D. injection D as <-.
    unfold prolonged. rewrite A5. reflexivity.
  - change deep with 4%nat. cbn [Get]. rewrite G. cbn [GetOrCreateIfNotExists CreateIfNotExists].
    rewrite add_none by exact G. cbn [bind].
    pose proof (get_added now s (GetDefaultConfig x)) as G'. pose proof (inv_added now s (GetDefaultConfig x) I) as I1.
    change (cName (GetDefaultConfig x)) with x in *.
    destruct (get_there inc now _ x _ I1 G') as (i & dt & c & A1 & A2 & A3 & A4 & A5 & A6 & A7).
    destruct (touch_ok inc now _ x _ I1 G') as (s' & E & T & I'). cbn [Get]. rewrite G', E. cbn [bind].
    exists s', (length (dsObjs s)). eexists. eexists. split; [reflexivity|]. split; auto. split.
    { eapply others_trans; [apply (added_others now s (GetDefaultConfig x)); auto|]. apply touched_others; auto. }
    unfold vget. rewrite (get_dead _ _ _ G). unfold fresh.
    pose proof E as E2. unfold dl_touch, added in E2. cbn [dsObjs dsList] in E2.
    rewrite nth_error_app2, Nat.sub_diag in E2 by lia. cbn [nth_error InitData NewPreData dConfig] in E2.
    change (cName (GetDefaultConfig x)) with x in E2. rewrite mload_mstore_same in E2. injection E2 as <-.
    cbn [dsList dsObjs diObj diExpires]. rewrite mload_mstore_same. split; [reflexivity|].
    rewrite nth_error_app2, Nat.sub_diag by lia. split; reflexivity.
Qed.

Lemma create_view : forall now s c, inv s -> exists s' a dt e, GetOrCreateIfNotExists inc deep now s c = Ok (s', a) /\ inv s' /\
  others (cName c) s s' /\ mload (dsList s') (cName c) = Some (mkDI a e) /\ nth_error (dsObjs s') a = Some dt /\
  vcreate now c (view (cName c) s) = (dt, e).
Proof.
  intros now s c I. change deep with 4%nat. rewrite goc_eq.
  destruct (create_ok inc 3 now s c I) as (s1 & E & C); [lia|]. rewrite E. cbn [bind].
  pose proof (created_inv _ _ _ _ I C) as I1. pose proof (created_others _ _ _ _ I C) as O1.
  assert (G1 : forall f, (3 <= f)%nat -> forall a, dl_get now s1 (cName c) = Some a ->
             Get inc f now s1 (cName c) = Get inc deep now s1 (cName c)).
  { intros f F a G. destruct f; [lia|]. change deep with 4%nat. cbn [Get]. rewrite G. reflexivity. }
  destruct (created_get _ _ _ _ I C) as (a & Ga & _). rewrite (G1 3%nat ltac:(lia) a Ga).
  destruct (get_view now s1 (cName c) I1) as (s' & a' & dt & e & A1 & A2 & A3 & A4 & A5 & A6).
  exists s', a', dt, e. split; auto. split; auto. split; [eapply others_trans; eauto|]. split; auto. split; auto.
  rewrite <- A6. unfold vcreate, vget. unfold created in C. destruct (dl_get now s (cName c)) as [b|] eqn:G.
  - destruct (get_live _ _ _ _ I G) as (dt0 & e0 & V & M & D). rewrite V.
    destruct I as [_ I]. destruct (I _ _ M) as (dd & c0 & D' & D1 & _). cbn in D'. rewrite D in D'. injection D' as <-.
    destruct C as (C1 & C2 & C3). pose proof (C2 _ _ D D1) as D2. rewrite D1.
    assert (V1 : view (cName c) s1 = Some (if cVersion c0 <? cVersion c then set_config dt0 c else dt0, e0)).
    { apply (view_at _ _ b); auto. congruence. }
    rewrite V1. cbn [vlive]. destruct (view (cName c) s) as [[vd ve]|] eqn:W; [|discriminate]. cbn [vlive] in V.
    destruct (item_live now (mkDI 0 ve)) eqn:LV; [|discriminate]. injection V as -> ->. rewrite LV. reflexivity.
  - rewrite (get_dead _ _ _ G). subst s1. clear A1 A2 A3 A4 A5 A6.
    destruct (get_live now (added now s c) (cName c) _ I1 (get_added now s c)) as (dt1 & e1 & V & M & D).
    rewrite V. unfold added in M, D. cbn [dsList dsObjs] in M, D. rewrite mload_mstore_same in M. injection M as <-.
    rewrite nth_error_app2, Nat.sub_diag in D by lia. cbn [nth_error] in D. injection D as <-. reflexivity.
Qed.

(** Work on the object of a dataset. *)
Lemma object_view : forall x s a dt e f, inv s -> mload (dsList s) x = Some (mkDI a e) -> nth_error (dsObjs s) a = Some dt ->
  match f dt with
  | Ok (dt', r) => exists s', on_object s a f = Ok (s', r) /\ inv s' /\ others x s s' /\ view x s' = Some (keep_config dt dt', e)
  | Err er => on_object s a f = Err er
  | Panic => on_object s a f = Panic
  end.
Proof.
  intros x s a dt e f I M D. unfold on_object. rewrite D. destruct (f dt) as [[dt' r]| |]; cbn [bind]; auto.
  destruct (set_exists (dsObjs s) a (keep_config dt dt')) as [l S]. { apply nth_error_Some. congruence. }
  rewrite S. eexists. split; [reflexivity|]. pose proof I as [W I2].
  destruct (I2 _ _ M) as (d0 & c & D0 & C & N). cbn in D0. rewrite D in D0. injection D0 as <-.
  split; [|split].
  - split; auto. cbn [dsList dsObjs]. intros n i E. rewrite (nth_list_set _ _ _ _ _ _ S).
    destruct (Nat.eqb_spec a (diObj i)) as [Q|Q]; [|apply I2; auto].
    assert (n = x). { eapply (inv_inj s n x); eauto. }
    subst n. exists (keep_config dt dt'), c. split; auto. unfold keep_config. rewrite C. auto.
  - split; auto. cbn [dsList dsObjs]. intros m i N' E. rewrite (nth_list_set _ _ _ _ _ _ S).
    destruct (Nat.eqb_spec a (diObj i)) as [Q|Q]; auto. exfalso. apply N'. eapply (inv_inj s m x); eauto.
  - apply (view_at _ _ a); auto. cbn [dsObjs]. rewrite (nth_list_set _ _ _ _ _ _ S), Nat.eqb_refl. reflexivity.
Qed.

Lemma with_get_view : forall now s x f, inv s ->
  match f (fst (vget now x (view x s))) with
  | Ok (dt', r) => exists s', with_get inc now s x f = Ok (s', r) /\ inv s' /\ others x s s' /\
      view x s' = Some (keep_config (fst (vget now x (view x s))) dt', snd (vget now x (view x s)))
  | Err er => with_get inc now s x f = Err er
  | Panic => with_get inc now s x f = Panic
  end.
Proof.
  intros now s x f I. destruct (get_view now s x I) as (s1 & a & dt & e & E & I1 & O & M & D & V).
  rewrite V. cbn [fst snd]. unfold with_get. rewrite E. cbn [bind].
  pose proof (object_view x s1 a dt e f I1 M D) as H. destruct (f dt) as [[dt' r]| |]; auto.
  destruct H as (s' & H1 & H2 & H3 & H4). exists s'. split; auto. split; auto. split; auto. eapply others_trans; eauto.
Qed.

Lemma create_obj_view : forall now s c f, inv s ->
  match f (fst (vcreate now c (view (cName c) s))) with
  | Ok (dt', r) => exists s', ('(s', a) <- GetOrCreateIfNotExists inc deep now s c ;; on_object s' a f) = Ok (s', r) /\
      inv s' /\ others (cName c) s s' /\
      view (cName c) s' = Some (keep_config (fst (vcreate now c (view (cName c) s))) dt', snd (vcreate now c (view (cName c) s)))
  | Err er => ('(s', a) <- GetOrCreateIfNotExists inc deep now s c ;; on_object s' a f) = Err er
  | Panic => ('(s', a) <- GetOrCreateIfNotExists inc deep now s c ;; on_object s' a f) = Panic
  end.
Proof.
  intros now s c f I. destruct (create_view now s c I) as (s1 & a & dt & e & E & I1 & O & M & D & V).
  rewrite V. cbn [fst snd]. rewrite E. cbn [bind].
  pose proof (object_view (cName c) s1 a dt e f I1 M D) as H. destruct (f dt) as [[dt' r]| |]; auto.
  destruct H as (s' & H1 & H2 & H3 & H4). exists s'. split; auto. split; auto. split; auto. eapply others_trans; eauto.
Qed.

(** Loops over all datasets. *)
Lemma save_view : forall x now names s t s' text, inv s -> inv t -> view x s = view x t ->
  SaveIndex L inc now s names = Ok (s', text) ->
  inv s' /\ exists t' text', SaveIndex L inc now t (only x names) = Ok (t', text') /\ inv t' /\ view x s' = view x t'.
Proof.
  intros x now. unfold SaveIndex. induction names as [|k names IH]; intros s t s' text Is It V E.
  - cbn in E. injection E as <- <-. split; auto. exists t, []. auto.
  - cbn [save_lines] in E. destruct (get_view now s k Is) as (s1 & a & dt & e & A1 & A2 & A3 & A4 & A5 & A6).
    rewrite A1 in E. cbn [bind] in E. rewrite A5 in E.
    destruct (save_lines L inc now s1 names) as [[s2 tx]| |] eqn:E2; try discriminate. cbn [bind] in E. injection E as <- <-.
    unfold only. cbn [filter]. destruct (bytes_dec k x) as [->|N].
    + rewrite beq_refl. destruct (get_view now t x It) as (t1 & b & dt' & e' & B1 & B2 & B3 & B4 & B5 & B6).
      rewrite V, B6 in A6. injection A6 as -> ->.
      destruct (IH s1 t1 s2 tx) as (X1 & t2 & tx' & X2 & X3 & X4); auto.
      { rewrite (view_at _ _ _ _ _ A4 A5), (view_at _ _ _ _ _ B4 B5). reflexivity. }
      split; auto. cbn [save_lines]. rewrite B1. cbn [bind]. rewrite B5. unfold only in X2. rewrite X2. cbn [bind].
      eexists. eexists. split; [reflexivity|]. auto.
    + rewrite (beq_ne x k) by auto. apply (IH s1 t s2 tx); auto. rewrite <- V. eapply view_others; eauto.
Qed.

Lemma list_view : forall x now names s t s' l, inv s -> inv t -> view x s = view x t ->
  DataConfigList inc now s names = Ok (s', l) ->
  inv s' /\ exists t' l', DataConfigList inc now t (only x names) = Ok (t', l') /\ inv t' /\ view x s' = view x t'.
Proof.
  intros x now. unfold DataConfigList. induction names as [|k names IH]; intros s t s' l Is It V E.
  - cbn in E. injection E as <- <-. split; auto. exists t, []. auto.
  - cbn [config_list] in E. destruct (get_view now s k Is) as (s1 & a & dt & e & A1 & A2 & A3 & A4 & A5 & A6).
    rewrite A1 in E. cbn [bind] in E. rewrite A5 in E.
    destruct (config_list inc now s1 names) as [[s2 tx]| |] eqn:E2; try discriminate. cbn [bind] in E. injection E as <- <-.
    unfold only. cbn [filter]. destruct (bytes_dec k x) as [->|N].
    + rewrite beq_refl. destruct (get_view now t x It) as (t1 & b & dt' & e' & B1 & B2 & B3 & B4 & B5 & B6).
      rewrite V, B6 in A6. injection A6 as -> ->.
      destruct (IH s1 t1 s2 tx) as (X1 & t2 & tx' & X2 & X3 & X4); auto.
      { rewrite (view_at _ _ _ _ _ A4 A5), (view_at _ _ _ _ _ B4 B5). reflexivity. }
      split; auto. cbn [config_list]. rewrite B1. cbn [bind]. rewrite B5. unfold only in X2. rewrite X2. cbn [bind].
      eexists. eexists. split; [reflexivity|]. auto.
    + rewrite (beq_ne x k) by auto. apply (IH s1 t s2 tx); auto. rewrite <- V. eapply view_others; eauto.
Qed.

Lemma close_view : forall x s a e dt, mload (dsList s) x = Some (mkDI a e) -> nth_error (dsObjs s) a = Some dt ->
  view x (close_obj closed s a) = Some (closed dt, e).
Proof.
  intros x s a e dt M D. apply (view_at _ _ a); [rewrite close_list; auto|]. rewrite close_nth, Nat.eqb_refl, D. reflexivity.
Qed.

Lemma closes_view : forall x now names s t s', inv s -> inv t -> view x s = view x t ->
  close_each inc closed now s names = Ok s' ->
  inv s' /\ exists t', close_each inc closed now t (only x names) = Ok t' /\ inv t' /\ view x s' = view x t'.
Proof.
  intros x now. induction names as [|k names IH]; intros s t s' Is It V E.
  - cbn in E. injection E as <-. split; auto. exists t. auto.
  - cbn [close_each] in E. destruct (get_view now s k Is) as (s1 & a & dt & e & A1 & A2 & A3 & A4 & A5 & A6).
    rewrite A1 in E. cbn [bind] in E. unfold only. cbn [filter]. destruct (bytes_dec k x) as [->|N].
    + rewrite beq_refl. destruct (get_view now t x It) as (t1 & b & dt' & e' & B1 & B2 & B3 & B4 & B5 & B6).
      rewrite V, B6 in A6. injection A6 as -> ->.
      destruct (IH (close_obj closed s1 a) (close_obj closed t1 b) s') as (X1 & t2 & X2 & X3 & X4); auto.
      { apply close_inv; auto. } { apply close_inv; auto. }
      { rewrite (close_view _ _ _ _ _ A4 A5), (close_view _ _ _ _ _ B4 B5). reflexivity. }
      split; auto. exists t2. cbn [close_each]. rewrite B1. cbn [bind]. auto.
    + rewrite (beq_ne x k) by auto. apply (IH (close_obj closed s1 a) t s'); auto; [apply close_inv; auto|].
      rewrite <- V. transitivity (view x s1); [|eapply view_others; eauto].
      apply (view_others x k); auto. apply (close_others closed s1 k (mkDI a e)); auto.
Qed.

Lemma delete_view : forall x s, inv s -> view x (dl_delete closed s x) = None.
Proof.
  intros x s I. unfold dl_delete. destruct (mload (dsList s) x) as [i|] eqn:E.
  - unfold view. cbn [dsList]. rewrite mload_mdelete, beq_refl. reflexivity.
  - unfold view. rewrite E. reflexivity.
Qed.

Lemma deletes_view : forall x l s t, inv s -> inv t -> view x s = view x t ->
  inv (fold_left (dl_delete closed) l s) /\ inv (fold_left (dl_delete closed) (only x l) t) /\
  view x (fold_left (dl_delete closed) l s) = view x (fold_left (dl_delete closed) (only x l) t).
Proof.
  intros x. induction l as [|k l IH]; intros s t Is It V; cbn [fold_left]; auto. unfold only. cbn [filter].
  destruct (bytes_dec k x) as [->|N].
  - rewrite beq_refl. cbn [fold_left]. apply IH; auto using delete_inv. rewrite !delete_view; auto.
  - rewrite (beq_ne x k) by auto. apply IH; auto using delete_inv. rewrite <- V.
    apply (view_others x k); auto. apply delete_others; auto.
Qed.

Lemma items_load : forall now s0 names n i, In (n, i) (items_of now s0 names) -> mload (dsList s0) n = Some i.
Proof.
  intros now s0. induction names as [|k names IH]; cbn; intros n i; [tauto|].
  destruct (mload (dsList s0) k) as [j|] eqn:E; [|apply IH]. destruct (item_live now j); [|apply IH].
  intros [Q|Q]; [|apply IH; auto]. injection Q as <- <-. auto.
Qed.

Lemma scan_view : forall x info now names s0 t0 s t s' l, view x s0 = view x t0 -> inv s0 -> inv t0 ->
  dsList s = dsList s0 -> dsList t = dsList t0 ->
  inv s -> inv t -> view x s = view x t ->
  reload_scan closed info s (items_of now s0 names) = Ok (s', l) ->
  inv s' /\ exists t', reload_scan closed info t (items_of now t0 (only x names)) = Ok (t', only x l) /\
    inv t' /\ view x s' = view x t'.
Proof.
  intros x info now. induction names as [|k names IH]; intros s0 t0 s t s' l V0 Is0 It0 Ls Lt Is It V E.
  - cbn in E. injection E as <- <-. split; auto. exists t. auto.
  - cbn [items_of] in E. unfold only. cbn [filter]. destruct (bytes_dec k x) as [->|N].
    + rewrite beq_refl. cbn [items_of].
      destruct (view x s0) as [[d0 e0]|] eqn:W.
      * symmetry in V0. destruct (view_some _ _ _ _ W) as (a & Ma & Da). destruct (view_some _ _ _ _ V0) as (b & Mb & Db).
        rewrite Ma in E. rewrite Mb. rewrite (live_obj now a b e0) in E.
        destruct (item_live now (mkDI b e0)).
        2: { apply (IH s0 t0 s t); auto; congruence. }
        cbn [reload_scan] in E |- *. cbn [diObj] in *.
        pose proof Is as [_ Is2]. destruct (Is2 x (mkDI a e0)) as (dt & c & D & C & _); [congruence|]. cbn in D.
        assert (Vs : view x s = Some (dt, e0)). { apply (view_at _ _ a); auto. congruence. }
        rewrite Vs in V. symmetry in V. destruct (view_some _ _ _ _ V) as (b' & Mb' & Dt).
        rewrite Lt, Mb in Mb'. injection Mb' as <-. rewrite D in E. rewrite Dt.
        destruct (CheckIfActive info dt) as [[|]| |]; try discriminate; cbn [bind] in E |- *.
        -- apply (IH s0 t0 s t); auto; congruence.
        -- destruct (reload_scan closed info (close_obj closed s a) (items_of now s0 names)) as [[s2 l2]| |] eqn:E2; try discriminate.
           cbn [bind] in E. injection E as <- <-.
           destruct (IH s0 t0 (close_obj closed s a) (close_obj closed t b) s2 l2 (eq_trans W (eq_sym V0)) Is0 It0) as (X1 & t2 & X2 & X3 & X4); [| | | | |exact E2|].
           { rewrite close_list; auto. } { rewrite close_list; auto. } { apply close_inv; auto. } { apply close_inv; auto. }
           { assert (M1 : mload (dsList s) x = Some (mkDI a e0)) by congruence.
             assert (M2 : mload (dsList t) x = Some (mkDI b e0)) by congruence.
             rewrite (close_view _ _ _ _ _ M1 D), (close_view _ _ _ _ _ M2 Dt). reflexivity. }
           split; auto. exists t2. unfold only in X2. rewrite X2. cbn [bind filter]. rewrite beq_refl. auto.
      * symmetry in V0. rewrite (view_none _ _ Is0 W) in E. rewrite (view_none _ _ It0 V0).
        apply (IH s0 t0 s t); auto; congruence.
    + rewrite (beq_ne x k) by auto. fold (only x names).
      destruct (mload (dsList s0) k) as [i|] eqn:M; [|apply (IH s0 t0 s t); auto].
      destruct (item_live now i); [|apply (IH s0 t0 s t); auto]. cbn [reload_scan] in E.
      destruct (nth_error (dsObjs s) (diObj i)) as [dt|] eqn:D; [|discriminate].
      destruct (CheckIfActive info dt) as [[|]| |]; try discriminate; cbn [bind] in E.
      * apply (IH s0 t0 s t); auto.
      * destruct (reload_scan closed info (close_obj closed s (diObj i)) (items_of now s0 names)) as [[s2 l2]| |] eqn:E2; try discriminate.
        cbn [bind] in E. injection E as <- <-.
        destruct (IH s0 t0 (close_obj closed s (diObj i)) t s2 l2) as (X1 & t2 & X2 & X3 & X4); auto.
        { rewrite close_list; auto. } { apply close_inv; auto. }
        { rewrite <- V. apply (view_others x k); auto. apply close_others; auto. congruence. }
        split; auto. exists t2. unfold only in *. cbn [filter]. rewrite (beq_ne x k) by auto. auto.
Qed.

Lemma reload_view : forall x info now names s t s', inv s -> inv t -> view x s = view x t ->
  ReloadRuns closed info now s (items_of now s names) = Ok s' ->
  inv s' /\ exists t', ReloadRuns closed info now t (items_of now t (only x names)) = Ok t' /\ inv t' /\ view x s' = view x t'.
Proof.
  intros x info now names s t s' Is It V E. unfold ReloadRuns in *.
  destruct (reload_scan closed info s (items_of now s names)) as [[s1 l]| |] eqn:E1; try discriminate. cbn [bind] in E.
  injection E as <-. destruct (scan_view x info now names s t s t s1 l) as (X1 & t1 & X2 & X3 & X4); auto.
  destruct (deletes_view x l s1 t1) as (Y1 & Y2 & Y3); auto. split; auto. rewrite X2. cbn [bind]. eauto.
Qed.

Lemma expire_view : forall x now n s t s', inv s -> inv t -> view x s = view x t ->
  dstep inc closed s (EvExpire now n) = Ok s' -> inv s' /\
  (n <> x -> view x s' = view x s) /\
  (n = x -> exists t', dstep inc closed t (EvExpire now x) = Ok t' /\ inv t' /\ view x s' = view x t').
Proof.
  intros x now n s t s' Is It V E. cbn [dstep] in *. destruct (dl_get now s n) as [a|] eqn:G; injection E as <-.
  - split; auto. split; auto. intros ->. destruct (get_live _ _ _ _ Is G) as (dt & e & A & _).
    destruct (dl_get now t x) eqn:G'; [exists t; auto|]. apply get_dead in G'. congruence.
  - split; [apply delete_inv; auto|]. split.
    + intro N. apply (view_others x n); auto. apply delete_others; auto.
    + intros ->. apply get_dead in G. rewrite V in G. rewrite (dead_get _ _ _ It G). eexists. split; [reflexivity|].
      split; [apply delete_inv; auto|]. rewrite !delete_view; auto.
Qed.

Lemma Delete_view : forall x now n s t, inv s -> inv t -> view x s = view x t ->
  inv (fst (Delete closed now s n)) /\ inv (fst (Delete closed now t n)) /\
  (n <> x -> view x (fst (Delete closed now s n)) = view x s) /\
  (n = x -> view x (fst (Delete closed now s n)) = view x (fst (Delete closed now t n))).
Proof.
  intros x now n s t Is It V.
  assert (J : forall s, inv s -> inv (fst (Delete closed now s n))).
  { intros u I. unfold Delete. destruct (dl_get now u n); cbn [fst]; auto. apply delete_inv; auto. apply close_inv; auto. }
  split; auto. split; auto. split.
  - intro N. unfold Delete. destruct (dl_get now s n) as [a|] eqn:G; cbn [fst]; auto.
    destruct (get_some _ _ _ _ G) as (i & E & <- & _).
    rewrite (view_others x n (close_obj closed s (diObj i))); auto; [|apply close_inv; auto|apply delete_others; auto; apply close_inv; auto].
    apply (view_others x n); auto. apply close_others; auto.
  - intros ->. unfold Delete. destruct (dl_get now s x) as [a|] eqn:G; cbn [fst].
    + destruct (get_live _ _ _ _ Is G) as (dt & e & A & _).
      destruct (dl_get now t x) eqn:G'; [|apply get_dead in G'; congruence]. cbn [fst].
      rewrite !delete_view; auto; apply close_inv; auto.
    + apply get_dead in G. rewrite V in G. rewrite (dead_get _ _ _ It G). auto.
Qed.

(** One event, seen from the dataset x: [Q] are the uuids that only searches of x use. *)
Variable x : bytes.
Variable Q : bytes -> Prop.
Definition alike (n m : nstate) : Prop :=
  inv (nsReg n) /\ inv (nsReg m) /\ nsDrain n = nsDrain m /\ view x (nsReg n) = view x (nsReg m) /\
  forall u, Q u -> mload (nsSeen n) u = mload (nsSeen m) u.

Definition mine (o : option (bytes * response)) : list response :=
  match o with Some (k, r) => if bytes_eqb x k then [r] else [] | None => [] end.

Lemma keep_alike : forall n m s' , alike n m -> inv s' -> view x s' = view x (nsReg n) ->
  alike (mkNS (nsDrain n) (nsSeen n) s') m.
Proof. intros n m s' (A & B & C & D & E) I V. split; [|split; [|split; [|split]]]; cbn; auto. congruence. Qed.

Lemma there_same : forall now seen seen' u, mload seen u = mload seen' u -> uuid_there now seen u = uuid_there now seen' u.
Proof. intros. unfold uuid_there. rewrite H. reflexivity. Qed.

Lemma reply_sim : forall k n m n' o X Y, alike n m ->
  ('(s', r) <- X ;; Ok (mkNS (nsDrain n) (nsSeen n) s', Some (k, r))) = Ok (n', o) ->
  (forall s' r, X = Ok (s', r) -> inv s' /\ (k <> x -> others k (nsReg n) s') /\
     (k = x -> exists t', Y = Ok (t', r) /\ inv t' /\ view x s' = view x t')) ->
  (k <> x -> mine o = [] /\ alike n' m) /\
  (k = x -> exists m', ('(s', r) <- Y ;; Ok (mkNS (nsDrain m) (nsSeen m) s', Some (k, r))) = Ok (m', o) /\ alike n' m').
Proof.
  intros k n m n' o X Y A E H. destruct X as [[s' r]| |]; try discriminate. cbn [bind] in E. injection E as <- <-.
  destruct (H s' r eq_refl) as (I & H1 & H2). pose proof A as (A1 & A2 & A3 & A4 & A5). split.
  - intro N. cbn. rewrite (beq_ne x k) by auto. split; auto. apply keep_alike; auto. eapply view_others; eauto.
  - intros ->. destruct (H2 eq_refl) as (t' & -> & It & V). cbn [bind]. eexists. split; [reflexivity|].
    split; [|split; [|split; [|split]]]; cbn; auto.
Qed.

Lemma with_get_sim : forall now k n m f s' r, alike n m -> with_get inc now (nsReg n) k f = Ok (s', r) ->
  inv s' /\ (k <> x -> others k (nsReg n) s') /\
  (k = x -> exists t', with_get inc now (nsReg m) k f = Ok (t', r) /\ inv t' /\ view x s' = view x t').
Proof.
  intros now k n m f s' r (A1 & A2 & A3 & A4 & A5) E.
  pose proof (with_get_view now (nsReg n) k f A1) as H.
  destruct (f (fst (vget now k (view k (nsReg n))))) as [[dt' r']| |] eqn:F; try congruence.
  destruct H as (s1 & H1 & H2 & H3 & H4). rewrite E in H1. injection H1 as <- <-. split; auto. split; auto.
  intros ->. pose proof (with_get_view now (nsReg m) x f A2) as H'. rewrite <- A4, F in H'.
  destruct H' as (t1 & G1 & G2 & G3 & G4). exists t1. split; auto. split; auto. congruence.
Qed.

Lemma quiet_sim : forall n m n' o X Y, alike n m ->
  (s' <- X ;; Ok (mkNS (nsDrain n) (nsSeen n) s', @None (bytes * response))) = Ok (n', o) ->
  (forall s', X = Ok s' -> inv s' /\ exists t', Y = Ok t' /\ inv t' /\ view x s' = view x t') ->
  mine o = [] /\ exists m', (s' <- Y ;; Ok (mkNS (nsDrain m) (nsSeen m) s', None)) = Ok (m', o) /\ alike n' m'.
Proof.
  intros n m n' o X Y A E H. destruct X as [s'| |]; try discriminate. cbn [bind] in E. injection E as <- <-.
  destruct (H s' eq_refl) as (I & t' & -> & It & V). pose proof A as (A1 & A2 & A3 & A4 & A5). split; auto. cbn [bind].
  eexists. split; [reflexivity|]. split; [|split; [|split; [|split]]]; cbn; auto.
Qed.
Lemma quiet_other : forall n m n' o X, alike n m ->
  (s' <- X ;; Ok (mkNS (nsDrain n) (nsSeen n) s', @None (bytes * response))) = Ok (n', o) ->
  (forall s', X = Ok s' -> inv s' /\ view x s' = view x (nsReg n)) ->
  mine o = [] /\ alike n' m.
Proof.
  intros n m n' o X A E H. destruct X as [s'| |]; try discriminate. cbn [bind] in E. injection E as <- <-.
  destruct (H s' eq_refl) as (I & V). split; auto. apply keep_alike; auto.
Qed.

Definition uuid_fine (e : nevent) : Prop :=
  forall y u, uuid_of e = Some (y, u) -> (y = x -> Q u) /\ (Q u -> y = x).

Lemma nrun_one : forall n e, nrun L inc closed n [e] =
  ('(n1, o) <- nstep L inc closed n e ;; Ok (n1, match o with Some r => [r] | None => [] end)).
Proof.
  intros n e. cbn [nrun]. destruct (nstep L inc closed n e) as [[n1 o]| |]; reflexivity.
Qed.

Lemma step_alike : forall n m e n' o, alike n m -> uuid_fine e -> nstep L inc closed n e = Ok (n', o) ->
  exists m' outs, nrun L inc closed m (about1 x e) = Ok (m', outs) /\ map snd outs = mine o /\ alike n' m'.
Proof.
  intros n m e n' o A U E. pose proof A as (A1 & A2 & A3 & A4 & A5).
  assert (Z0 : forall o : option (bytes * response), (forall k r, o = Some (k, r) -> k = x) ->
     map snd (match o with Some r => [r] | None => [] end) = mine o).
  { intros [[k r]|] H; auto. cbn. rewrite (H k r eq_refl), beq_refl. reflexivity. }
  assert (GET : forall k now f, ('(s', r) <- with_get inc now (nsReg n) k f ;; Ok (mkNS (nsDrain n) (nsSeen n) s', Some (k, r))) = Ok (n', o) ->
    (k <> x -> mine o = [] /\ alike n' m) /\
    (k = x -> exists m', ('(s', r) <- with_get inc now (nsReg m) k f ;; Ok (mkNS (nsDrain m) (nsSeen m) s', Some (k, r))) = Ok (m', o) /\ alike n' m' /\
       map snd (match o with Some r => [r] | None => [] end) = mine o)).
  { intros k now f H. destruct (reply_sim k n m n' o _ (with_get inc now (nsReg m) k f) A H) as [B C].
    { intros s' r Q1. apply with_get_sim; auto. }
    split; auto. intro K. destruct (C K) as (m' & C1 & C2). exists m'. split; auto. split; auto. apply Z0.
    intros k0 r0 ->. destruct (with_get inc now (nsReg n) k f) as [[s' r]| |]; try discriminate. cbn [bind] in H. congruence. }
  destruct e as [now k items answers d c|now k|now k tick order|now rq env after|now c|k f|now k|now uid|now k|now names|now names|now info names|now l1 l2];
    cbn [nstep] in E; cbn [about1].
  - (* insert *)
    destruct (nsDrain n) eqn:Dr.
    + injection E as <- <-. destruct (bytes_dec k x) as [->|N].
      * rewrite beq_refl, nrun_one. cbn [nstep]. rewrite <- A3. cbn [bind]. eexists. eexists. split; [reflexivity|].
        cbn. rewrite beq_refl. auto.
      * rewrite (beq_ne x k) by auto. exists m, []. cbn. rewrite (beq_ne x k) by auto. auto.
    + destruct (GET _ _ _ E) as [B C]. destruct (bytes_dec k x) as [->|N].
      * destruct (C eq_refl) as (m' & C1 & C2 & C3). rewrite beq_refl, nrun_one. cbn [nstep]. rewrite <- A3.
        rewrite <- A3 in C1. rewrite C1. cbn [bind]. eauto.
      * destruct (B N) as [B1 B2]. rewrite (beq_ne x k) by auto. exists m, []. cbn [nrun map]. rewrite B1. auto.
  - destruct (GET _ _ _ E) as [B C]. destruct (bytes_dec k x) as [->|N].
    + destruct (C eq_refl) as (m' & C1 & C2 & C3). rewrite beq_refl, nrun_one. cbn [nstep]. rewrite C1. cbn [bind]. eauto.
    + destruct (B N) as [B1 B2]. rewrite (beq_ne x k) by auto. exists m, []. cbn [nrun map]. rewrite B1. auto.
  - destruct (GET _ _ _ E) as [B C]. destruct (bytes_dec k x) as [->|N].
    + destruct (C eq_refl) as (m' & C1 & C2 & C3). rewrite beq_refl, nrun_one. cbn [nstep]. rewrite C1. cbn [bind]. eauto.
    + destruct (B N) as [B1 B2]. rewrite (beq_ne x k) by auto. exists m, []. cbn [nrun map]. rewrite B1. auto.
  - (* search *)
    unfold uuid_fine in U. cbn [uuid_of] in U. unfold request_uuid, request_name in *.
    destruct (srConfig rq) as [c|] eqn:SC; [|discriminate].
    destruct (bytes_dec (scDataName c) x) as [K|N].
    + rewrite K in E. rewrite K, beq_refl, nrun_one. cbn [nstep]. rewrite SC. rewrite K.
      assert (KN : match scUuid c with [] => false | _ => uuid_there now (nsSeen m) (scUuid c) end =
                   match scUuid c with [] => false | _ => uuid_there now (nsSeen n) (scUuid c) end).
      { destruct (scUuid c) as [|b u] eqn:SU; auto. symmetry. apply there_same, A5.
        destruct (U (scDataName c) (b :: u) eq_refl) as [U1 _]. auto. }
      rewrite KN.
      destruct (match scUuid c with [] => false | _ => uuid_there now (nsSeen n) (scUuid c) end).
      { injection E as <- <-. cbn [bind]. eexists. eexists. split; [reflexivity|]. cbn. rewrite beq_refl. auto. }
      set (sn := match scUuid c with [] => nsSeen n | _ => _ end) in E.
      set (sm := match scUuid c with [] => nsSeen m | _ => _ end).
      assert (SS : forall u, Q u -> mload sn u = mload sm u).
      { intros u Qu. subst sn sm. destruct (scUuid c) as [|b u0]; auto.
        destruct (bytes_dec (b :: u0) u) as [<-|N]; [rewrite !mload_mstore_same; auto|]. rewrite !mload_mstore_other; auto. }
      unfold GetNoCreate in *. destruct (dl_get now (nsReg n) x) as [a|] eqn:G.
      * destruct (get_live _ _ _ _ A1 G) as (dt & e & V & M & D).
        destruct (dl_get now (nsReg m) x) as [b|] eqn:G'; [|apply get_dead in G'; congruence].
        destruct (get_live _ _ _ _ A2 G') as (dt2 & e2 & V2 & M2 & D2). rewrite <- A4, V in V2. injection V2 as <- <-.
        pose proof (object_view x (nsReg n) a dt e (serve_search c rq env after) A1 M D) as O1.
        pose proof (object_view x (nsReg m) b dt e (serve_search c rq env after) A2 M2 D2) as O2.
        destruct (serve_search c rq env after dt) as [[dt' r]| |];
          [|rewrite O1 in E; discriminate|rewrite O1 in E; discriminate].
        destruct O1 as (s1 & O11 & O12 & O13 & O14). destruct O2 as (t1 & O21 & O22 & O23 & O24).
        rewrite O11 in E. cbn [bind] in E. injection E as <- <-. rewrite O21. cbn [bind].
        eexists. eexists. split; [reflexivity|]. cbn [mine map snd]. rewrite beq_refl. split; auto.
        split; [|split; [|split; [|split]]]; cbn [nsReg nsDrain nsSeen]; auto. congruence.
      * injection E as <- <-. apply get_dead in G. rewrite A4 in G. rewrite (dead_get _ _ _ A2 G). cbn [bind].
        eexists. eexists. split; [reflexivity|]. cbn [mine map snd]. rewrite beq_refl. split; auto.
        split; [|split; [|split; [|split]]]; cbn [nsReg nsDrain nsSeen]; auto.
    + rewrite (beq_ne x (scDataName c)) by auto. exists m, []. cbn [nrun map].
      assert (SS : forall u, Q u -> mload (match scUuid c with [] => nsSeen n | _ => mstore (nsSeen n) (scUuid c) (now + uuid_life)%Z end) u = mload (nsSeen m) u).
      { intros u Qu. destruct (scUuid c) as [|b u0] eqn:SU; auto.
        destruct (bytes_dec (b :: u0) u) as [<-|N'].
        - destruct (U (scDataName c) (b :: u0) eq_refl) as [_ U2]. destruct (N (U2 Qu)).
        - rewrite mload_mstore_other; auto. }
      split; auto.
      destruct (match scUuid c with [] => false | _ => uuid_there now (nsSeen n) (scUuid c) end).
      { injection E as <- <-. cbn [mine]. rewrite (beq_ne x _) by auto. auto. }
      unfold GetNoCreate in *. destruct (dl_get now (nsReg n) (scDataName c)) as [a|] eqn:G.
      * destruct (get_live _ _ _ _ A1 G) as (dt & e & V & M & D).
        pose proof (object_view (scDataName c) (nsReg n) a dt e (serve_search c rq env after) A1 M D) as O1.
        destruct (serve_search c rq env after dt) as [[dt' r]| |];
          [|rewrite O1 in E; discriminate|rewrite O1 in E; discriminate].
        destruct O1 as (s1 & O11 & O12 & O13 & O14).
        rewrite O11 in E. cbn [bind] in E. injection E as <- <-. cbn [mine]. rewrite (beq_ne x _) by auto. split; auto.
        split; [|split; [|split; [|split]]]; cbn [nsReg nsDrain nsSeen]; auto.
        rewrite <- A4. apply (view_others x (scDataName c)); auto.
      * injection E as <- <-. cbn [mine]. rewrite (beq_ne x _) by auto. split; auto.
        split; [|split; [|split; [|split]]]; cbn [nsReg nsDrain nsSeen]; auto.
  - (* create *)
    destruct (reply_sim (cName c) n m n' o _ ('(s', a) <- GetOrCreateIfNotExists inc deep now (nsReg m) c ;; on_object s' a serve_info) A E) as [B C].
    { intros s' r Q1. pose proof (create_obj_view now (nsReg n) c serve_info A1) as H.
      destruct (serve_info (fst (vcreate now c (view (cName c) (nsReg n))))) as [[dt' r']| |] eqn:F; try congruence.
      destruct H as (s1 & H1 & H2 & H3 & H4). rewrite Q1 in H1. injection H1 as <- <-. split; auto. split; auto.
      intro K. pose proof (create_obj_view now (nsReg m) c serve_info A2) as H'. rewrite K in *. rewrite <- A4, F in H'.
      destruct H' as (t1 & G1 & G2 & G3 & G4). exists t1. split; auto. split; auto. congruence. }
    destruct (bytes_dec (cName c) x) as [K|N].
    + destruct (C K) as (m' & C1 & C2). rewrite K, beq_refl, nrun_one. cbn [nstep]. rewrite C1. cbn [bind].
      eexists. eexists. split; [reflexivity|]. split; auto. apply Z0. intros k0 r0 ->.
      destruct ('(s', a) <- GetOrCreateIfNotExists inc deep now (nsReg n) c;; on_object s' a serve_info) as [[s' r]| |]; try discriminate.
      cbn [bind] in E. congruence.
    + destruct (B N) as [B1 B2]. rewrite (beq_ne x _) by auto. exists m, []. cbn [nrun map]. rewrite B1. auto.
  - (* task *)
    destruct (bytes_dec k x) as [->|N].
    + rewrite beq_refl, nrun_one. cbn [nstep].
      destruct (quiet_sim n m n' o _ (match mload (dsList (nsReg m)) x with
               | Some i => '(s', _) <- on_object (nsReg m) (diObj i) (fun dt => Ok (f dt, RDone)) ;; Ok s'
               | None => Ok (nsReg m) end) A E) as (B1 & m' & B2 & B3).
      { intros s' H. destruct (view x (nsReg n)) as [[dt e]|] eqn:V.
        - destruct (view_some _ _ _ _ V) as (a & M & D). symmetry in A4. destruct (view_some _ _ _ _ A4) as (b & M' & D').
          rewrite M in H. rewrite M'. cbn [diObj] in *.
          destruct (object_view x _ a dt e (fun dt => Ok (f dt, RDone)) A1 M D) as (s1 & O11 & O12 & O13 & O14).
          destruct (object_view x _ b dt e (fun dt => Ok (f dt, RDone)) A2 M' D') as (t1 & O21 & O22 & O23 & O24).
          rewrite O11 in H. cbn [bind] in H. injection H as <-. split; auto. rewrite O21. cbn [bind]. exists t1. split; auto. split; auto. congruence.
        - symmetry in A4. rewrite (view_none _ _ A1 V) in H. rewrite (view_none _ _ A2 A4). injection H as <-.
          split; auto. exists (nsReg m). split; auto. split; auto. congruence. }
      rewrite B2. cbn [bind]. eexists. eexists. split; [reflexivity|]. split; auto.
      apply Z0. intros k0 r0 ->. destruct (match mload _ _ with Some _ => _ | None => _ end); discriminate.
    + rewrite (beq_ne x k) by auto. exists m, []. cbn [nrun map].
      destruct (quiet_other n m n' o _ A E) as [B1 B2].
      { intros s' H. destruct (mload (dsList (nsReg n)) k) as [[a e]|] eqn:M; [|injection H as <-; auto].
        pose proof A1 as [_ I2]. destruct (I2 _ _ M) as (dt & c & D & _). cbn [diObj] in *.
        destruct (object_view k _ a dt e (fun dt => Ok (f dt, RDone)) A1 M D) as (s1 & O11 & O12 & O13 & O14).
        rewrite O11 in H. cbn [bind] in H. injection H as <-. split; auto. apply (view_others x k); auto. }
      rewrite B1. auto.
  - (* expire *)
    destruct (bytes_dec k x) as [->|N].
    + rewrite beq_refl, nrun_one. cbn [nstep].
      destruct (quiet_sim n m n' o _ (dstep inc closed (nsReg m) (EvExpire now x)) A E) as (B1 & m' & B2 & B3).
      { intros s' H. destruct (expire_view x now x _ (nsReg m) s' A1 A2 A4 H) as (X1 & _ & X2). auto. }
      rewrite B2. cbn [bind]. eexists. eexists. split; [reflexivity|]. split; auto.
      apply Z0. intros k0 r0 ->. destruct (dstep inc closed (nsReg n) _); discriminate.
    + rewrite (beq_ne x k) by auto. exists m, []. cbn [nrun map].
      destruct (quiet_other n m n' o _ A E) as [B1 B2].
      { intros s' H. destruct (expire_view x now k _ (nsReg m) s' A1 A2 A4 H) as (X1 & X2 & _). auto. }
      rewrite B1. auto.
  - (* forget *)
    injection E as <- <-. rewrite nrun_one. cbn [nstep bind]. eexists. eexists. split; [reflexivity|]. split; auto.
    split; [|split; [|split; [|split]]]; cbn [nsReg nsDrain nsSeen]; auto. intros u Qu.
    destruct (bytes_dec uid u) as [->|N].
    + rewrite <- (there_same now (nsSeen n) (nsSeen m) u) by auto.
      destruct (uuid_there now (nsSeen n) u); auto. rewrite !mload_mdelete, beq_refl. reflexivity.
    + destruct (uuid_there now (nsSeen n) uid), (uuid_there now (nsSeen m) uid);
        rewrite ?mload_mdelete, ?(beq_ne uid u) by auto; auto.
  - (* delete *)
    destruct (Delete_view x now k _ _ A1 A2 A4) as (X1 & X2 & X3 & X4). cbn [bind] in E. injection E as <- <-.
    destruct (bytes_dec k x) as [->|N].
    + rewrite beq_refl, nrun_one. cbn [nstep bind]. eexists. eexists. split; [reflexivity|]. split; auto.
      split; [|split; [|split; [|split]]]; cbn [nsReg nsDrain nsSeen]; auto.
    + rewrite (beq_ne x k) by auto. exists m, []. cbn [nrun map]. split; auto. split; auto. apply keep_alike; auto.
  - (* save *)
    rewrite nrun_one. cbn [nstep].
    destruct (quiet_sim n m n' o _ ('(s', _) <- SaveIndex L inc now (nsReg m) (only x names) ;; Ok s') A E) as (B1 & m' & B2 & B3).
    { intros s' H. destruct (SaveIndex L inc now (nsReg n) names) as [[s1 tx]| |] eqn:S; try discriminate. cbn [bind] in H.
      injection H as <-. destruct (save_view x now names _ _ _ _ A1 A2 A4 S) as (Y1 & t' & tx' & Y2 & Y3 & Y4). split; auto.
      rewrite Y2. cbn [bind]. eauto. }
    rewrite B2. cbn [bind]. eexists. eexists. split; [reflexivity|]. split; auto.
    apply Z0. intros k0 r0 ->. destruct ('(s', _) <- SaveIndex L inc now (nsReg n) names ;; Ok s'); discriminate.
  - rewrite nrun_one. cbn [nstep].
    destruct (quiet_sim n m n' o _ ('(s', _) <- DataConfigList inc now (nsReg m) (only x names) ;; Ok s') A E) as (B1 & m' & B2 & B3).
    { intros s' H. destruct (DataConfigList inc now (nsReg n) names) as [[s1 tx]| |] eqn:S; try discriminate. cbn [bind] in H.
      injection H as <-. destruct (list_view x now names _ _ _ _ A1 A2 A4 S) as (Y1 & t' & tx' & Y2 & Y3 & Y4). split; auto.
      rewrite Y2. cbn [bind]. eauto. }
    rewrite B2. cbn [bind]. eexists. eexists. split; [reflexivity|]. split; auto.
    apply Z0. intros k0 r0 ->. destruct ('(s', _) <- DataConfigList inc now (nsReg n) names ;; Ok s'); discriminate.
  - rewrite nrun_one. cbn [nstep].
    destruct (quiet_sim n m n' o _ (ReloadRuns closed info now (nsReg m) (items_of now (nsReg m) (only x names))) A E) as (B1 & m' & B2 & B3).
    { intros s' H. apply (reload_view x info now names _ _ _ A1 A2 A4 H). }
    rewrite B2. cbn [bind]. eexists. eexists. split; [reflexivity|]. split; auto.
    apply Z0. intros k0 r0 ->. destruct (ReloadRuns closed info now (nsReg n) _); discriminate.
  - (* close *)
    destruct (DatasetClose L inc closed now (nsReg n) l1 l2) as [[s' tx]| |] eqn:S; try discriminate. cbn [bind] in E.
    injection E as <- <-. rewrite nrun_one. cbn [nstep]. unfold DatasetClose in *.
    destruct (SaveIndex L inc now (nsReg n) l1) as [[s1 tx1]| |] eqn:S1; try discriminate. cbn [bind] in S.
    destruct (close_each inc closed now s1 l2) as [s2| |] eqn:S2; try discriminate. cbn [bind] in S. injection S as <- <-.
    destruct (save_view x now l1 _ _ _ _ A1 A2 A4 S1) as (Y1 & t1 & ty1 & Y2 & Y3 & Y4).
    destruct (closes_view x now l2 _ _ _ Y1 Y3 Y4 S2) as (W1 & t2 & W2 & W3 & W4).
    rewrite Y2. cbn [bind]. rewrite W2. cbn [bind]. eexists. eexists. split; [reflexivity|]. split; auto.
    split; [|split; [|split; [|split]]]; cbn [nsReg nsDrain nsSeen]; auto.
Qed.

Lemma nrun_app : forall es1 es2 n, nrun L inc closed n (es1 ++ es2) =
  ('(n1, o1) <- nrun L inc closed n es1 ;; '(n2, o2) <- nrun L inc closed n1 es2 ;; Ok (n2, o1 ++ o2)).
Proof.
  induction es1 as [|e es1 IH]; intros es2 n; cbn [nrun app].
  - cbn [bind]. destruct (nrun L inc closed n es2) as [[n2 o2]| |]; reflexivity.
  - destruct (nstep L inc closed n e) as [[n1 o]| |]; cbn [bind]; auto. rewrite IH.
    destruct (nrun L inc closed n1 es1) as [[n2 o1]| |]; cbn [bind]; auto.
    destruct (nrun L inc closed n2 es2) as [[n3 o2]| |]; cbn [bind]; auto. destruct o; reflexivity.
Qed.

Lemma run_alike : forall es n m n' outs, alike n m -> (forall e, In e es -> uuid_fine e) ->
  nrun L inc closed n es = Ok (n', outs) ->
  exists m' outs', nrun L inc closed m (about x es) = Ok (m', outs') /\ map snd outs' = answers_about x outs /\ alike n' m'.
Proof.
  induction es as [|e es IH]; intros n m n' outs A U E.
  - cbn in E. injection E as <- <-. exists m, []. auto.
  - cbn [nrun] in E. destruct (nstep L inc closed n e) as [[n1 o]| |] eqn:E1; try discriminate. cbn [bind] in E.
    destruct (nrun L inc closed n1 es) as [[n2 outs2]| |] eqn:E2; try discriminate. cbn [bind] in E. injection E as <- <-.
    destruct (step_alike n m e n1 o A (U e (or_introl eq_refl)) E1) as (m1 & o1 & X1 & X2 & X3).
    destruct (IH n1 m1 n2 outs2 X3 (fun e I => U e (or_intror I)) E2) as (m2 & o2 & Y1 & Y2 & Y3).
    exists m2, (o1 ++ o2). unfold about in *. cbn [flat_map]. rewrite nrun_app, X1. cbn [bind]. rewrite Y1. cbn [bind].
    split; auto. split; auto. rewrite map_app, X2, Y2. unfold mine, answers_about. destruct o as [[k r]|]; cbn [filter fst]; auto.
    destruct (bytes_eqb x k); reflexivity.
Qed.
End I.

Lemma there_iff : forall now x s, inv s -> there now x s <-> dl_get now s x <> None.
Proof.
  intros now x s I. split.
  - intros (dt & e & V & H). destruct (view_some _ _ _ _ V) as (a & M & D). unfold dl_get. rewrite M.
    assert (E : item_live now (mkDI a e) = true) by (apply live_iff; auto). rewrite E. discriminate.
  - intro H. destruct (dl_get now s x) as [a|] eqn:G; [|congruence].
    destruct (get_live _ _ _ _ I G) as (dt & e & V & M & D). exists dt, e. split; [apply (view_at _ _ a); auto|].
    destruct (get_some _ _ _ _ G) as (i & E & _ & Lv). rewrite M in E. injection E as <-. apply live_iff in Lv. auto.
Qed.

Section M.
Variable L : floatlib.
Variable inc : Z -> Z -> Z -> Z.
Variable closed : Data -> Data.
Hypothesis KC : keeps_config closed.

Lemma step_view : forall x n e n' o, inv (nsReg n) -> nstep L inc closed n e = Ok (n', o) ->
  inv (nsReg n') /\ exists m' outs, nrun L inc closed n (about1 x e) = Ok (m', outs) /\ view x (nsReg n') = view x (nsReg m').
Proof.
  intros x n e n' o I E.
  destruct (step_alike L inc closed KC x (fun u => uuid_of e = Some (x, u)) n n e n' o) as (m' & outs & A & _ & B1 & _ & _ & B2 & _); auto.
  - split; auto.
  - intros y u H. rewrite H. split; [intros ->; auto|]. congruence.
  - eauto.
Qed.

Lemma run_inv : forall es n n' outs, inv (nsReg n) -> nrun L inc closed n es = Ok (n', outs) -> inv (nsReg n').
Proof.
  induction es as [|e es IH]; intros n n' outs I E; cbn [nrun] in E; [congruence|].
  destruct (nstep L inc closed n e) as [[n1 o]| |] eqn:E1; try discriminate. cbn [bind] in E.
  destruct (nrun L inc closed n1 es) as [[n2 o2]| |] eqn:E2; try discriminate. cbn [bind] in E. injection E as <- <-.
  destruct (step_view [] n e n1 o I E1) as [I1 _]. eauto.
Qed.
Lemma start_inv : inv (nsReg nstart).
Proof. split; [constructor|]. cbn. discriminate. Qed.

Lemma only_none : forall x l, ~ In x l -> only x l = [].
Proof.
  intros x. induction l as [|k l IH]; cbn; auto. intro N. rewrite beq_ne by (intros <-; apply N; auto). apply IH. tauto.
Qed.
Lemma items_dead : forall x now s names, dl_get now s x = None -> items_of now s (only x names) = [].
Proof.
  intros x now s names G. unfold only. induction names as [|k names IH]; cbn; auto.
  destruct (bytes_eqb x k) eqn:E; auto. apply bytes_eqb_spec in E. subst k. cbn. unfold dl_get in G.
  destruct (mload (dsList s) x) as [i|]; auto. destruct (item_live now i); auto. discriminate.
Qed.
Lemma dl_view : forall now x s t, inv s -> inv t -> view x s = view x t -> dl_get now t x = None -> dl_get now s x = None.
Proof. intros now x s t Is It V G. apply dead_get; auto. rewrite V. apply get_dead. auto. Qed.

Lemma get_makes : forall now s x f s' r, inv s -> dl_get now s x = None -> with_get inc now s x f = Ok (s', r) ->
  exists dt ex, view x s' = Some (dt, ex) /\ dConfig dt = Some (GetDefaultConfig x).
Proof.
  intros now s x f s' r I G E. pose proof (with_get_view inc now s x f I) as H.
  unfold vget in H. rewrite (get_dead _ _ _ G) in H. cbn [fst snd fresh] in H.
  destruct (f (InitData (NewPreData (GetDefaultConfig x)))) as [[dt' r']| |]; try congruence.
  destruct H as (s1 & H1 & H2 & H3 & H4). rewrite E in H1. injection H1 as <- <-. rewrite H4. eexists. eexists. split; [reflexivity|].
  reflexivity.
Qed.

Lemma step_makes : forall x n e n' o now, inv (nsReg n) -> nstep L inc closed n e = Ok (n', o) ->
  (forall t, nevent_time e = Some t -> t = now) -> visits_registered (nsReg n) e -> dl_get now (nsReg n) x = None ->
  match made_by x (nsDrain n) e with
  | Some c => exists dt ex, view x (nsReg n') = Some (dt, ex) /\ dConfig dt = Some c
  | None => dl_get now (nsReg n') x = None
  end.
Proof.
  intros x n e n' o now I E T VR G. destruct (step_view x n e n' o I E) as (I' & m & outs & R & V).
  assert (KEEP : m = n -> dl_get now (nsReg n') x = None). { intros ->. apply (dl_view now x _ (nsReg n)); auto. }
  assert (NIL : about1 x e = [] -> dl_get now (nsReg n') x = None).
  { intro Z0. rewrite Z0 in R. cbn in R. injection R as <- _. auto. }
  assert (NL : forall t, t = now -> ~ In x (ListNames t (nsReg n))).
  { intros t -> H. apply (listed now _ I) in H. destruct H as [a H]. congruence. }
  destruct e as [t k items answers d c|t k|t k tick order|t rq env after|t c|k f|t k|t uid|t k|t names|t names|t info names|t l1 l2];
    cbn [about1 made_by nevent_time visits_registered] in *; try (specialize (T _ eq_refl); subst t).
  - destruct (bytes_eqb x k) eqn:K; cbn [andb]; [|auto]. apply bytes_eqb_spec in K. subst k. cbn [nstep] in E.
    destruct (nsDrain n) eqn:D; cbn [negb]. { injection E as <- <-. auto. }
    destruct (with_get inc now (nsReg n) x (serve_insert now items answers d c)) as [[s' r]| |] eqn:W; try discriminate.
    cbn [bind] in E. injection E as <- <-. exact (get_makes _ _ _ _ _ _ I G W).
  - destruct (bytes_eqb x k) eqn:K; [|auto]. apply bytes_eqb_spec in K. subst k. cbn [nstep] in E.
    destruct (with_get inc now (nsReg n) x serve_info) as [[s' r]| |] eqn:W; try discriminate.
    cbn [bind] in E. injection E as <- <-. exact (get_makes _ _ _ _ _ _ I G W).
  - destruct (bytes_eqb x k) eqn:K; [|auto]. apply bytes_eqb_spec in K. subst k. cbn [nstep] in E.
    destruct (with_get inc now (nsReg n) x (serve_stream tick order)) as [[s' r]| |] eqn:W; try discriminate.
    cbn [bind] in E. injection E as <- <-. exact (get_makes _ _ _ _ _ _ I G W).
  - cbn [nstep] in E. unfold request_name in *. destruct (srConfig rq) as [c|]; [|discriminate].
    destruct (bytes_eqb x (scDataName c)) eqn:K; [|auto]. apply bytes_eqb_spec in K. rewrite <- K in E.
    destruct (match scUuid c with [] => false | _ => uuid_there now (nsSeen n) (scUuid c) end).
    { injection E as <- <-. auto. }
    unfold GetNoCreate in E. rewrite G in E. injection E as <- <-. auto.
  - destruct (bytes_eqb x (cName c)) eqn:K; [|auto]. apply bytes_eqb_spec in K. subst x. cbn [nstep] in E.
    pose proof (create_obj_view inc now (nsReg n) c serve_info I) as H.
    unfold vcreate in H. rewrite (get_dead _ _ _ G) in H. cbn [fst snd fresh] in H. cbn [serve_info GetDataInfo InitData NewPreData dInitialized dConfig bind] in H.
    destruct H as (s1 & H1 & H2 & H3 & H4). rewrite H1 in E. cbn [bind] in E. injection E as <- <-. cbn [nsReg]. rewrite H4.
    eexists. eexists. split; reflexivity.
  - destruct (bytes_eqb x k) eqn:K; [|auto]. apply bytes_eqb_spec in K. subst k. cbn [nstep] in E.
    destruct (mload (dsList (nsReg n)) x) as [[a e]|] eqn:M; [|cbn [bind] in E; injection E as <- <-; auto].
    pose proof I as [_ I2]. destruct (I2 _ _ M) as (dt & c & D & _). cbn [diObj] in *.
    destruct (object_view x (nsReg n) a dt e (fun dt => Ok (f dt, RDone)) I M D) as (s1 & O1 & O2 & O3 & O4).
    rewrite O1 in E. cbn [bind] in E. injection E as <- <-. cbn [nsReg] in *. apply dead_get; auto. rewrite O4.
    apply get_dead in G. rewrite (view_at _ _ _ _ _ M D) in G. cbn [vlive] in *.
    destruct (item_live now (mkDI 0 e)); [discriminate|auto].
  - destruct (bytes_eqb x k) eqn:K; [|auto]. apply bytes_eqb_spec in K. subst k. cbn [nstep dstep] in E. rewrite G in E.
    cbn [bind] in E. injection E as <- <-. cbn [nsReg] in *. apply dead_get; auto. rewrite delete_view; auto.
  - rewrite nrun_one in R. cbn [nstep bind] in R. injection R as <- _. cbn [nsReg] in V. apply (dl_view now x _ (nsReg n)); auto.
  - destruct (bytes_eqb x k) eqn:K; [|auto]. apply bytes_eqb_spec in K. subst k. cbn [nstep] in E.
    unfold Delete in E. rewrite G in E. cbn [bind fst] in E. injection E as <- <-. auto.
  - rewrite nrun_one in R. cbn [nstep] in R. rewrite only_none in R by (intro H; apply (NL now eq_refl), VR, H).
    cbn [SaveIndex save_lines bind] in R. unfold SaveIndex in R. cbn [save_lines bind] in R. injection R as <- _. apply (dl_view now x _ (nsReg n)); auto.
  - rewrite nrun_one in R. cbn [nstep] in R. rewrite only_none in R by (intro H; apply (NL now eq_refl), VR, H).
    unfold DataConfigList in R. cbn [config_list bind] in R. injection R as <- _. apply (dl_view now x _ (nsReg n)); auto.
  - rewrite nrun_one in R. cbn [nstep] in R. rewrite items_dead in R by auto.
    unfold ReloadRuns in R. cbn [reload_scan bind fold_left] in R. injection R as <- _. apply (dl_view now x _ (nsReg n)); auto.
  - rewrite nrun_one in R. cbn [nstep] in R. unfold DatasetClose in R.
    rewrite !only_none in R by (intro H; apply (NL now eq_refl), VR, in_or_app; auto).
    unfold SaveIndex in R. cbn [save_lines close_each bind] in R. injection R as <- _. apply (dl_view now x _ (nsReg n)); auto.
Qed.
End M.
