(** Proofs about the operations over all datasets. *)
From Verif.Base Require Import GoBase GoLemmas Assoc Float.
From Verif.Model Require Import Codec Store Data Dataset Json Index DatasetAll.
From Verif.Spec Require Import RegistrySpec HousekeepingSpec.
From Verif.Proof Require Import StoreConcP DatasetP RegistryP.
From Coq Require Import Lia Permutation.
Open Scope N_scope.

Lemma dl_eq : forall now s s' n, mload (dsList s') n = mload (dsList s) n -> dl_get now s' n = dl_get now s n.
Proof. intros. unfold dl_get. rewrite H. reflexivity. Qed.

Lemma listed : forall now s, inv s -> NoDup (ListNames now s) /\
  forall n, In n (ListNames now s) <-> exists a, dl_get now s n = Some a.
Proof.
  intros now s [W _]. split.
  - unfold ListNames, Items. unfold mwf in W. revert W. generalize (dsList s) as l.
    induction l as [|[k i] l IH]; cbn; intro ND; [constructor|]. inversion ND; subst.
    destruct (item_live now i); cbn; auto. constructor; auto. intro H. apply H1.
    apply in_map_iff in H. destruct H as ([k' i'] & E & F). cbn in E. subst. apply filter_In in F. destruct F as [F _].
    apply in_map_iff. exists (k, i'). auto.
  - intro n. unfold ListNames, Items, dl_get. rewrite in_map_iff. split.
    + intros ([k i] & <- & F). apply filter_In in F. destruct F as [F L]. cbn in *.
      rewrite (in_mload _ _ _ W F), L. eauto.
    + intros [a H]. destruct (mload (dsList s) n) as [i|] eqn:E; [|discriminate].
      destruct (item_live now i) eqn:L; [|discriminate]. exists (n, i). split; auto. apply filter_In. split; auto.
      apply mload_in; auto.
Qed.

Lemma holds_load : forall now s n a, inv s -> holds now s n a <->
  exists i, mload (dsList s) n = Some i /\ diObj i = a /\ ((diExpires i <= 0)%Z \/ (now <= diExpires i)%Z).
Proof.
  intros now s n a [W _]. unfold holds. split; intros (i & A & B); exists i; split; auto.
  - apply in_mload; auto.
  - apply mload_in; auto.
Qed.

Lemma holds_mono : forall u u' s n a, (u' <= u)%Z -> holds u s n a -> holds u' s n a.
Proof. intros u u' s n a H (i & A & B & C). exists i. split; auto. split; auto. lia. Qed.

Section A.
Variable L : floatlib.
Variable inc : Z -> Z -> Z -> Z.
Variable closed : Data -> Data.
Hypothesis KC : keeps_config closed.

(** Get of a dataset that is there, exactly. *)
Lemma get_there : forall now s n a, inv s -> dl_get now s n = Some a ->
  exists i dt c, mload (dsList s) n = Some i /\ diObj i = a /\ item_live now i = true /\
    nth_error (dsObjs s) a = Some dt /\ dConfig dt = Some c /\ cName c = n /\
    Get inc deep now s n = Ok (mkDS (dsObjs s) (mstore (dsList s) n
      (mkDI a (inc now (GetRetention (cRetention c)) (diExpires i)))), a).
Proof.
  intros now s n a [W I] G. destruct (get_some _ _ _ _ G) as (i & E & <- & Lv).
  destruct (I _ _ E) as (dt & c & A & B & C). exists i, dt, c. repeat (split; [assumption|]); auto.
  repeat (split; [auto; reflexivity|]). change deep with 4%nat. cbn [Get]. rewrite G. unfold dl_touch.
  rewrite A, B, E. reflexivity.
Qed.

(** All of [names] got a Get at [now], nothing else changed. *)
Definition visited (now : Z) (names : list bytes) (s s' : dstate) : Prop :=
  dsObjs s' = dsObjs s /\
  (forall n, ~ In n names -> mload (dsList s') n = mload (dsList s) n) /\
  (forall n i dt c, In n names -> mload (dsList s) n = Some i -> nth_error (dsObjs s) (diObj i) = Some dt ->
     dConfig dt = Some c ->
     mload (dsList s') n = Some (mkDI (diObj i) (inc now (GetRetention (cRetention c)) (diExpires i)))) /\
  (forall n, mload (dsList s) n = None -> mload (dsList s') n = None).

Lemma visited_cons : forall now k names s a s1 s', inv s -> dl_get now s k = Some a -> ~ In k names ->
  Get inc deep now s k = Ok (s1, a) -> inv s1 -> visited now names s1 s' -> visited now (k :: names) s s'.
Proof.
  intros now k names s a s1 s' I G N E I1 (V1 & V2 & V3 & V4).
  destruct (get_there now s k a I G) as (i & dt & c & A1 & A2 & A3 & A4 & A5 & A6 & A7).
  rewrite E in A7. injection A7 as ->. cbn [dsObjs dsList] in *. split; auto. split; [|split].
  - intros n Nn. cbn in Nn. rewrite V2 by tauto. rewrite mload_mstore_other; auto.
  - intros n j dt' c' In_ Ej D C. cbn in In_. destruct (bytes_dec k n) as [<-|Q].
    + rewrite V2 by auto. rewrite mload_mstore_same. rewrite A1 in Ej. injection Ej as <-. rewrite A2 in *.
      rewrite A4 in D. injection D as <-. rewrite A5 in C. injection C as <-. reflexivity.
    + destruct In_ as [In_|In_]; [contradiction|]. apply (V3 n j dt' c'); auto. rewrite mload_mstore_other; auto.
  - intros n Nn. apply V4. destruct (bytes_dec k n) as [<-|Q]; [congruence|]. rewrite mload_mstore_other; auto.
Qed.

Lemma get_inv : forall now s n a s1, inv s -> dl_get now s n = Some a -> Get inc deep now s n = Ok (s1, a) ->
  inv s1 /\ (forall m, m <> n -> dl_get now s1 m = dl_get now s m) /\ dsObjs s1 = dsObjs s.
Proof.
  intros now s n a s1 I G E. destruct (get_ok inc deep now s n I) as (s' & a' & E' & I' & [(G' & T)|(G' & _)]);
    [unfold deep; lia| |congruence].
  rewrite E in E'. injection E' as <- <-. split; auto. destruct T as (T1 & T2 & _). split; auto.
  intros m M. apply dl_eq. auto.
Qed.

Lemma save_visits : forall now names s, inv s -> NoDup names ->
  (forall k, In k names -> exists a, dl_get now s k = Some a) ->
  exists s' text, SaveIndex L inc now s names = Ok (s', text) /\ inv s' /\ visited now names s s'.
Proof.
  intros now. unfold SaveIndex. induction names as [|k names IH]; intros s I ND H; cbn [save_lines].
  - exists s, []. split; auto. split; auto. split; auto. split; auto. split; auto. intros n i dt c [].
  - inversion ND; subst. destruct (H k) as [a G]; [left; auto|].
    destruct (get_there now s k a I G) as (i & dt & c & A1 & A2 & A3 & A4 & A5 & A6 & A7).
    destruct (get_inv now s k a _ I G A7) as (I1 & O & Ob). pose proof A7 as E. rewrite E. cbn [bind].
    set (s1 := mkDS _ _) in *. rewrite Ob, A4, A5.
    destruct (IH s1 I1) as (s' & text & X1 & X2 & X3); auto.
    { intros m M. rewrite O by (intros ->; contradiction). apply H. right; auto. }
    rewrite X1. cbn [bind]. eexists. eexists. split; [reflexivity|]. split; auto.
    eapply visited_cons; eauto.
Qed.

Lemma list_visits : forall now names s, inv s -> NoDup names ->
  (forall k, In k names -> exists a, dl_get now s k = Some a) ->
  exists s' l, DataConfigList inc now s names = Ok (s', l) /\ inv s' /\ visited now names s s' /\
    Forall2 (fun k c => exists a dt, dl_get now s k = Some a /\ nth_error (dsObjs s) a = Some dt /\ c = dConfig dt) names l.
Proof.
  intros now. unfold DataConfigList. induction names as [|k names IH]; intros s I ND H; cbn [config_list].
  - exists s, []. split; auto. split; auto. split; [|constructor]. split; auto. split; auto. split; auto. intros n i dt c [].
  - inversion ND; subst. destruct (H k) as [a G]; [left; auto|].
    destruct (get_there now s k a I G) as (i & dt & c & A1 & A2 & A3 & A4 & A5 & A6 & A7).
    destruct (get_inv now s k a _ I G A7) as (I1 & O & Ob). pose proof A7 as E. rewrite E. cbn [bind].
    set (s1 := mkDS _ _) in *. rewrite Ob, A4.
    destruct (IH s1 I1) as (s' & l & X1 & X2 & X3 & X4); auto.
    { intros m M. rewrite O by (intros ->; contradiction). apply H. right; auto. }
    rewrite X1. cbn [bind]. eexists. eexists. split; [reflexivity|]. split; auto. split.
    { eapply visited_cons; eauto. }
    constructor; [eauto 10|]. clear - X4 O Ob H2. induction X4 as [|m c' ms cs Q _ IH]; constructor.
    + destruct Q as (b & d & Q1 & Q2 & Q3). exists b, d. rewrite <- Ob. split; auto. rewrite <- O; auto.
      intros ->. apply H2. left; auto.
    + apply IH. intro; apply H2; right; auto.
Qed.

(** A visit of everything there at [now] keeps and prolongs what it finds. *)
Lemma visit_prolongs : forall now names s s' name a c m R, extends inc -> inv s -> inv s' ->
  Permutation names (ListNames now s) -> visited now names s s' ->
  holds now s name a -> object s a c m -> GetRetention (cRetention c) = R -> (0 < R)%Z ->
  holds (now + R)%Z s' name a /\ object s' a c m.
Proof.
  intros now names s s' name a c m R X I I' P (V1 & V2 & V3 & _) H (dt & D1 & D2 & D3) RR R0.
  destruct (listed now s I) as [_ LN].
  pose proof H as G. apply get_holds in G; auto. apply holds_load in H; auto. destruct H as (i & Ei & <- & Le).
  assert (In_ : In name names). { eapply Permutation_in; [symmetry; exact P|]. apply LN. eauto. }
  split.
  - apply holds_load; auto. eexists. split; [eapply V3; eauto|]. cbn. split; auto. rewrite RR. apply X; auto.
  - exists dt. rewrite V1. auto.
Qed.
End A.

Lemma reload_keeps : forall closed info now s items s' name a dt, keeps_config closed -> inv s ->
  Permutation items (Items now s) -> answering info now s ->
  ReloadRuns closed info now s items = Ok s' -> inv s' /\
  (nth_error (dsObjs s) a = Some dt -> active info dt -> forall u,
     holds u s name a -> holds u s' name a /\ nth_error (dsObjs s') a = Some dt).
Proof.
  intros closed info now s items s' name a dt K I P A E.
  destruct (reload_ok closed info K now s items I P) as (s1 & E1 & I1 & Q).
  - intros n i d In_ D id S. unfold sources in S. destruct (dSources d) as [ids|] eqn:Sd; [|destruct S].
    eapply (A n (diObj i) d); eauto. eapply Permutation_in in In_; [|exact P]. unfold Items in In_. apply filter_In in In_.
    destruct In_ as [In_ Li]. exists i. split; auto. split; auto. apply live_iff in Li. exact Li.
  - rewrite E in E1. injection E1 as <-. split; auto. intros D Ac u H. apply holds_load in H; auto.
    destruct H as (i & Ei & <- & Le). destruct (Q name i dt Ei D) as [Q1 Q2].
    { destruct Ac as [Ac|(ids & id & k & B1 & B2 & B3 & B4)]; auto. right. left. exists id, k. unfold sources. rewrite B1. auto. }
    split; auto. apply holds_load; auto. exists i. auto.
Qed.
