(** Property C136: which of several configurations asked for at the same time is installed. *)
From Verif.Base Require Import GoBase GoLemmas Assoc Float.
From Verif.Model Require Import Codec Store Data Dataset.
From Verif.Spec Require Import RegistrySpec.
From Verif.Proof Require Import DatasetP.
From Verif.Proof Require GossipP.
From Verif.Props Require Import DatasetProps.
From Coq Require Import Lia.
Open Scope N_scope.

Lemma holds_get : forall tmax now s n a, inv s -> holds tmax s n a -> (now <= tmax)%Z -> dl_get now s n = Some a.
Proof.
  intros tmax now s n a I (i & H & E & L) LE. apply get_holds; [exact I|]. exists i. split; [exact H|]. split; [exact E|]. lia.
Qed.

Lemma list_set_split : forall A (l l' : list A) i x y, nth_error l i = Some y -> list_set l i x = Some l' ->
  exists p q, l = p ++ y :: q /\ l' = p ++ x :: q /\ length p = i.
Proof.
  intros A l l' i x y N S. destruct (nth_error_split _ _ N) as (p & q & -> & <-). rewrite list_set_app in S. injection S as <-.
  exists p, q. auto.
Qed.

Section Winner.
Variable tmax : Z.
Variable s0 : dstate.
Variables (n : bytes) (a : nat) (c0 : DataConfig) (m : dbmap).
Variable reqs : list DataConfig.
Hypothesis I0 : inv s0.
Hypothesis H0 : holds tmax s0 n a.
Hypothesis O0 : object s0 a c0 m.
Hypothesis N0 : Forall (fun c => cName c = n) reqs.

Definition thread_ok (c : DataConfig) (touched : bool) (t : creator) : Prop :=
  t = CStart c \/ (t = CWrite c a /\ cVersion c0 < cVersion c) \/
  (t = CDone /\ (touched = true \/ cVersion c <= cVersion c0)).

Definition K (x : dstate * list creator) : Prop :=
  dsList (fst x) = dsList s0 /\
  exists c touched, object (fst x) a c m /\ Forall2 (fun c t => thread_ok c touched t) reqs (snd x) /\
    (if touched : bool then In c reqs /\ cVersion c0 < cVersion c else c = c0).

Lemma get_list : forall now s, dsList s = dsList s0 -> (now <= tmax)%Z -> dl_get now s n = Some a.
Proof.
  intros now s L LE. pose proof (holds_get tmax now s0 n a I0 H0 LE) as G. unfold dl_get in *. rewrite L. exact G.
Qed.

Lemma touch : forall c b t, thread_ok c b t -> thread_ok c true t.
Proof. intros c b t [H|[H|[H _]]]; [left|right; left|right; right]; auto. Qed.

Lemma forall2_at : forall A B (R : A -> B -> Prop) l p y q, Forall2 R l (p ++ y :: q) ->
  exists l1 x l2, l = l1 ++ x :: l2 /\ Forall2 R l1 p /\ R x y /\ Forall2 R l2 q.
Proof.
  intros A B R l p. revert l. induction p as [|z p IH]; intros l y q F; inversion F; subst; clear F.
  - exists [], x, l0. auto.
  - destruct (IH _ _ _ H4) as (l1 & w & l2 & -> & F1 & R1 & F2). exists (x :: l1), w, l2. repeat split; auto.
Qed.

Lemma K_step : forall x y, K x -> creators_step tmax x y -> K y.
Proof.
  intros x y (L & c & b & OB & F & T) S.
  destruct S as [now s ts i c1 s' ts' LE NE DA LS|now s ts i c1 a1 dt c1' ts' LE NE GE NO DC V LS
                |now s ts i c1 a1 dt c1' ts' LE NE GE NO DC V LS|s ts i c1 a1 dt objs ts' NE NO SO LS]; cbn [fst snd] in *;
    destruct (list_set_split _ _ _ _ _ _ NE LS) as (p & q & E1 & E2 & _); subst ts ts';
    destruct (forall2_at _ _ _ _ _ _ _ F) as (l1 & cc & l2 & E & F1 & R & F2).
  - exfalso. assert (Ec : c1 = cc) by (destruct R as [R|[[R _]|[R _]]]; congruence). subst cc.
    assert (NM : cName c1 = n) by (rewrite Forall_forall in N0; apply N0; rewrite E; apply in_elt).
    unfold dl_add in DA. rewrite NM, (get_list now s L LE) in DA. discriminate DA.
  - split; [exact L|]. exists c, b. split; [exact OB|]. split; [|exact T]. cbn [snd]. rewrite E.
    assert (Ec : c1 = cc) by (destruct R as [R|[[R _]|[R _]]]; congruence). subst cc.
    assert (NM : cName c1 = n) by (rewrite Forall_forall in N0; apply N0; rewrite E; apply in_elt).
    rewrite NM, (get_list now s L LE) in GE. injection GE as <-.
    destruct OB as (dt' & D1 & D2 & D3). rewrite D1 in NO. injection NO as <-. rewrite D2 in DC. injection DC as <-.
    apply Forall2_app; [exact F1|]. constructor; [|exact F2]. right. right. split; [reflexivity|].
    destruct b; [left; reflexivity|right; subst c; exact V].
  - split; [exact L|]. exists c, b. split; [exact OB|]. split; [|exact T]. cbn [snd]. rewrite E.
    assert (Ec : c1 = cc) by (destruct R as [R|[[R _]|[R _]]]; congruence). subst cc.
    assert (NM : cName c1 = n) by (rewrite Forall_forall in N0; apply N0; rewrite E; apply in_elt).
    rewrite NM, (get_list now s L LE) in GE. injection GE as <-.
    destruct OB as (dt' & D1 & D2 & D3). rewrite D1 in NO. injection NO as <-. rewrite D2 in DC. injection DC as <-.
    apply Forall2_app; [exact F1|]. constructor; [|exact F2]. right. left. split; [reflexivity|].
    destruct b; [destruct T; lia|subst c; exact V].
  - destruct R as [R|[[R V]|[R _]]]; try discriminate R. injection R as -> ->.
    split; [exact L|]. exists cc, true. destruct OB as (dt' & D1 & D2 & D3). rewrite D1 in NO. injection NO as <-.
    split; [|split].
    + exists (set_config dt' cc). cbn [dsObjs fst]. split; [|split; [reflexivity|exact D3]].
      exact (GossipP.list_set_nth_same _ _ _ _ _ SO).
    + cbn [snd]. rewrite E. apply Forall2_app; [|constructor].
      * clear - F1. induction F1; constructor; auto. eapply touch; eauto.
      * right. right. auto.
      * clear - F2. induction F2; constructor; auto. eapply touch; eauto.
    + split; [rewrite E; apply in_elt|exact V].
Qed.

Lemma K_run : forall x y, creators_run tmax x y -> K x -> K y.
Proof. intros x y R. induction R; auto. intro H1. apply IHR. eapply K_step; eauto. Qed.

Lemma K_init : K (s0, map CStart reqs).
Proof.
  split; [reflexivity|]. exists c0, false. split; [exact O0|]. split; [|reflexivity]. cbn [snd].
  clear. induction reqs; constructor; auto. left. reflexivity.
Qed.

Lemma run_trans : forall x y z, creators_run tmax x y -> creators_run tmax y z -> creators_run tmax x z.
Proof. intros x y z R. induction R; auto. intro. eapply cr_step; eauto. Qed.

(** Everybody looks. *)
Definition looked (c : DataConfig) : creator := if cVersion c0 <? cVersion c then CWrite c a else CDone.

Lemma look_all : forall l p q, Forall (fun c => cName c = n) l ->
  creators_run tmax (s0, p ++ map CStart l ++ q) (s0, p ++ map looked l ++ q).
Proof.
  destruct O0 as (dt & D1 & D2 & D3).
  induction l as [|c l IH]; intros p q F; [apply cr_here|]. pose proof (Forall_inv F) as NC. pose proof (Forall_inv_tail F) as F'. cbv beta in NC.
  pose proof (get_list tmax s0 eq_refl (Z.le_refl tmax)) as G.
  eapply cr_step; [|].
  - instantiate (1 := (s0, p ++ looked c :: map CStart l ++ q)). cbn [map app].
    unfold looked. destruct (cVersion c0 <? cVersion c) eqn:V.
    + apply (cs_check tmax tmax s0 _ (length p) c a dt c0); auto; try lia; try (rewrite NC; exact G).
      * rewrite nth_error_app2 by lia. rewrite Nat.sub_diag. reflexivity.
      * apply list_set_app.
    + apply (cs_keep tmax tmax s0 _ (length p) c a dt c0); auto; try lia; try (rewrite NC; exact G).
      * rewrite nth_error_app2 by lia. rewrite Nat.sub_diag. reflexivity.
      * apply list_set_app.
  - specialize (IH (p ++ [looked c]) q F'). rewrite <- !app_assoc in IH. exact IH.
Qed.

(** Those who saw a lower version write one after the other. *)
Lemma write_all : forall l s p q c, object s a c m -> exists s' c', object s' a c' m /\
  creators_run tmax (s, p ++ map looked l ++ q) (s', p ++ map (fun _ => CDone) l ++ q).
Proof.
  induction l as [|c l IH]; intros s p q cc OB; [exists s, cc; split; [exact OB|apply cr_here]|].
  destruct OB as (dt & D1 & D2 & D3). cbn [map app].
  destruct (cVersion c0 <? cVersion c) eqn:V;
    [assert (LK : looked c = CWrite c a) by (unfold looked; rewrite V; reflexivity)
    |assert (LK : looked c = CDone) by (unfold looked; rewrite V; reflexivity)]; rewrite LK.
  - destruct (list_set (dsObjs s) a (set_config dt c)) as [objs|] eqn:LS.
    + assert (OB1 : object (mkDS objs (dsList s)) a c m).
      { exists (set_config dt c). cbn. split; [exact (GossipP.list_set_nth_same _ _ _ _ _ LS)|split; [reflexivity|exact D3]]. }
      destruct (IH (mkDS objs (dsList s)) (p ++ [CDone]) q c OB1) as (s' & c' & OB' & R).
      rewrite <- !app_assoc in R. exists s', c'. split; [exact OB'|]. eapply cr_step; [|exact R].
      apply (cs_write tmax s _ (length p) c a dt objs); auto.
      * rewrite nth_error_app2 by lia. rewrite Nat.sub_diag. reflexivity.
      * cbn [app]. apply list_set_app.
    + exfalso. destruct (nth_error_split _ _ D1) as (u & v & E & LU). rewrite E, <- LU, list_set_app in LS. discriminate LS.
  - destruct (IH s (p ++ [CDone]) q cc) as (s' & c' & OB' & R); [exists dt; auto|].
    rewrite <- !app_assoc in R. exists s', c'. split; [exact OB'|]. cbn [app] in R. exact R.
Qed.

Lemma any_wins : forall c, In c reqs -> cVersion c0 < cVersion c ->
  exists s', creators_run tmax (s0, map CStart reqs) (s', map (fun _ => CDone) reqs) /\ object s' a c m.
Proof.
  intros c IN V. destruct (in_split _ _ IN) as (l1 & l2 & E).
  pose proof (look_all reqs [] [] N0) as R1. cbn [app] in R1. rewrite !app_nil_r in R1.
  rewrite E in R1 at 2. rewrite map_app in R1. cbn [map] in R1.
  destruct (write_all l1 s0 [] (looked c :: map looked l2) c0 O0) as (s1 & c1 & OB1 & R2). cbn [app] in R2.
  destruct (write_all l2 s1 (map (fun _ => CDone) l1 ++ [looked c]) [] c1 OB1) as (s2 & c2 & OB2 & R3).
  rewrite !app_nil_r, <- !app_assoc in R3. cbn [app] in R3.
  destruct OB2 as (dt & D1 & D2 & D3).
  destruct (list_set (dsObjs s2) a (set_config dt c)) as [objs|] eqn:LS.
  - exists (mkDS objs (dsList s2)). split.
    + eapply run_trans; [exact R1|]. eapply run_trans; [exact R2|]. eapply run_trans; [exact R3|].
      eapply cr_step; [|apply cr_here].
      assert (LK : looked c = CWrite c a).
      { unfold looked. replace (cVersion c0 <? cVersion c) with true by (symmetry; apply N.ltb_lt; exact V). reflexivity. }
      rewrite LK. apply (cs_write tmax s2 _ (length l1) c a dt objs); auto.
      * rewrite nth_error_app2 by (rewrite map_length; lia). rewrite map_length, Nat.sub_diag. reflexivity.
      * rewrite E, map_app. cbn [map]. rewrite <- (map_length (fun _ => CDone) l1) at 1. apply list_set_app.
    + exists (set_config dt c). cbn. split; [exact (GossipP.list_set_nth_same _ _ _ _ _ LS)|split; [reflexivity|exact D3]].
  - exfalso. destruct (nth_error_split _ _ D1) as (u & v & Eo & LU). rewrite Eo, <- LU, list_set_app in LS. discriminate LS.
Qed.
End Winner.

(** C136.  Several calls ask at the same time for configurations of a dataset that exists.
    When they have all returned, the configuration is one asked for with a higher version
    than the one before, and any of these can be it; it is the one before exactly if none is
    higher.  The data are kept. *)
Theorem C136_winner : forall inc closed tmax s n a c0 m reqs c, keeps_config closed ->
  reachable inc closed s -> holds tmax s n a -> object s a c0 m -> Forall (fun c => cName c = n) reqs ->
  ((exists s', creators_run tmax (s, map CStart reqs) (s', map (fun _ => CDone) reqs) /\ object s' a c m) <->
   (In c reqs /\ cVersion c0 < cVersion c) \/
   (c = c0 /\ forall c', In c' reqs -> cVersion c' <= cVersion c0)).
Proof.
  intros inc closed tmax s n a c0 m reqs c KC RE HO OB NM. pose proof (reachable_inv inc closed KC s RE) as I. split.
  - intros (s' & R & OB').
    destruct (K_run tmax s n a c0 m reqs I HO NM _ _ R (K_init s a c0 m reqs OB)) as (_ & c1 & b & OB1 & F & T).
    cbn [fst snd] in *. destruct OB' as (d1 & A1 & A2 & _). destruct OB1 as (d2 & B1 & B2 & _).
    assert (c = c1) by congruence. subst c1. destruct b; [left; exact T|]. right. split; [exact T|].
    intros c' IN. clear - F IN. induction reqs as [|x l IH]; [destruct IN|]. cbn [map] in F. inversion F; subst.
    destruct IN as [->|IN]; [|apply IH; auto].
    destruct H2 as [H2|[[H2 _]|[_ [H2|H2]]]]; try discriminate H2. exact H2.
  - intros [[IN V]|[-> LO]]; [eapply any_wins; eauto|].
    exists s. split; [|exact OB].
    pose proof (look_all tmax s n a c0 m I HO OB reqs [] [] NM) as R. cbn [app] in R. rewrite !app_nil_r in R.
    replace (map (fun _ : DataConfig => CDone) reqs) with (map (looked a c0) reqs); [exact R|].
    apply map_ext_in. intros x IN. unfold looked. replace (cVersion c0 <? cVersion x) with false; [reflexivity|].
    symmetry. apply N.ltb_ge. apply LO, IN.
Qed.
Print Assumptions C136_winner.

(** Three requests at version 1: 0, 2 and 3; both 2 and 3 can be the outcome, 0 and 1 cannot. *)
Definition three : list DataConfig := [cfg (bs "a") 0; cfg (bs "a") 2; cfg (bs "a") 3].
Example C136_instance :
  reachable inc_now close_it one /\ holds 5 one (bs "a") 0 /\ object one 0 (cfg (bs "a") 1) [] /\
  Forall (fun c => cName c = bs "a") three /\
  (forall c, (exists s', creators_run 5 (one, map CStart three) (s', map (fun _ => CDone) three) /\ object s' 0 c []) <->
     c = cfg (bs "a") 2 \/ c = cfg (bs "a") 3).
Proof.
  assert (H : holds 5 one (bs "a") 0).
  { exists (mkDI 0 1209600000000000). cbn. split; auto. split; auto. right. lia. }
  assert (O : object one 0 (cfg (bs "a") 1) []) by (exists (obj 1); repeat split).
  assert (N : Forall (fun c => cName c = bs "a") three) by (repeat constructor).
  split; [exact one_reachable|]. split; [exact H|]. split; [exact O|]. split; [exact N|].
  intro c. rewrite (C136_winner inc_now close_it 5 one (bs "a") 0 (cfg (bs "a") 1) [] three c); auto; [|intro d; reflexivity|exact one_reachable].
  split.
  - intros [[[<-|[<-|[<-|[]]]] V]|[_ X]]; auto.
    + cbn in V. lia.
    + specialize (X (cfg (bs "a") 2) (or_intror (or_introl eq_refl))). cbn in X. lia.
  - intros [-> | ->]; left; (split; [cbn; auto|cbn; lia]).
Qed.
