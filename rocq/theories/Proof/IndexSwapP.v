(** Lemmas for property C122. *)
From Verif.Base Require Import GoBase.
From Verif.Model Require Import IndexSwap.
From Coq Require Import Permutation.
Open Scope nat_scope.

Definition inR (p : spot) : bool :=
  match p with QTake | QAsk _ | QIn _ _ | QLook _ _ | QUnlock => true | _ => false end.
Definition inW (p : spot) : bool :=
  match p with PTest _ | PUnload _ | PDelete _ | PIndex _ | PData _ | PUnlock => true | _ => false end.
Definition own (p : spot) : list nat :=
  match p with PLock i | PTest i | PUnload i | PDelete i | PIndex i => [i] | _ => [] end.
Definition opt (o : option nat) : list nat := match o with Some i => [i] | None => [] end.
Definition count (f : spot -> bool) (l : list spot) : nat := length (filter f l).

(** What a goroutine that searches has seen. *)
Definition rd_ok (s : annoy_state) (p : spot) : Prop :=
  match p with
  | QData => sIndex s <> None
  | QLen | QLock | QTake => sIndex s <> None /\ sData s <> None
  | QAsk d => sIndex s = Some d
  | QIn d i => d = i /\ sIndex s = Some i
  | QLook d i => d = i
  | Crashed => False
  | _ => True
  end.

(** All indexes: [o] built but not published, [c] published, the deleted ones. *)
Definition all (s : annoy_state) (o c : list nat) : Prop := Permutation (o ++ c ++ sDeleted s) (seq 0 (sNext s)).

(** The fields while a writer is at [p]. *)
Definition ph (s : annoy_state) (o : list nat) (p : spot) : Prop :=
  match p with
  | PTest _ => sIndex s = sData s /\ sUnloaded s = sDeleted s /\ all s o (opt (sIndex s))
  | PUnload _ => sIndex s = sData s /\ sData s <> None /\ sUnloaded s = sDeleted s /\ all s o (opt (sIndex s))
  | PDelete _ => sIndex s = sData s /\ (exists i, sIndex s = Some i /\ sUnloaded s = i :: sDeleted s) /\ all s o (opt (sIndex s))
  | PIndex _ => sIndex s = sData s /\ sUnloaded s = sDeleted s /\ all s o []
  | PData i => sIndex s = Some i /\ sUnloaded s = sDeleted s /\ all s o [i]
  | PUnlock => sIndex s = sData s /\ sUnloaded s = sDeleted s /\ all s o (opt (sIndex s))
  | _ => True
  end.

Definition calm (s : annoy_state) (o : list nat) : Prop :=
  sIndex s = sData s /\ sUnloaded s = sDeleted s /\ all s o (opt (sIndex s)).

Definition Inv (s : annoy_state) (ts : list spot) : Prop :=
  count inR ts = sReaders s /\ count inW ts = (if sWriter s then 1 else 0) /\
  (sWriter s = true -> sReaders s = 0) /\
  (forall p, In p ts -> rd_ok s p) /\
  (forall p, In p ts -> inW p = true -> ph s (flat_map own ts) p) /\
  (sWriter s = false -> calm s (flat_map own ts)).

Lemma count_perm : forall f l l', Permutation l l' -> count f l = count f l'.
Proof.
  intros f l l' P. induction P; unfold count in *; cbn [filter]; auto.
  - destruct (f x); cbn [length]; lia.
  - destruct (f x), (f y); reflexivity.
  - lia.
Qed.
Lemma all_perm : forall s o o' c, Permutation o o' -> all s o c -> all s o' c.
Proof. unfold all. intros s o o' c P H. rewrite <- H. apply Permutation_app_tail. symmetry. exact P. Qed.
Lemma ph_perm : forall s o o' p, Permutation o o' -> ph s o p -> ph s o' p.
Proof. intros s o o' p P H. destruct p; cbn [ph] in *; auto; repeat (match goal with H : _ /\ _ |- _ => destruct H end); repeat split; eauto using all_perm. Qed.
Lemma own_perm : forall l l', Permutation l l' -> Permutation (flat_map own l) (flat_map own l').
Proof. intros. apply Permutation_flat_map. auto. Qed.
Lemma Inv_perm : forall s l l', Permutation l l' -> Inv s l -> Inv s l'.
Proof.
  intros s l l' P (A & B & C & D & E & F). pose proof (own_perm _ _ P) as O. repeat split.
  - rewrite <- (count_perm inR _ _ P). exact A.
  - rewrite <- (count_perm inW _ _ P). exact B.
  - exact C.
  - intros p H. apply D. apply (Permutation_in _ (Permutation_sym P)). exact H.
  - intros p H W. apply (ph_perm _ _ _ _ O). apply E; auto. apply (Permutation_in _ (Permutation_sym P)). exact H.
  - apply F. auto.
  - apply F. auto.
  - apply (all_perm _ _ _ _ O). apply F. auto.
Qed.

Lemma count_cons : forall f p l, count f (p :: l) = (if f p then 1 else 0) + count f l.
Proof. intros. unfold count. cbn [filter]. destruct (f p); reflexivity. Qed.
Lemma count_none : forall f l p, count f l = 0 -> In p l -> f p = false.
Proof.
  intros f l p C I. destruct (f p) eqn:E; auto. exfalso.
  assert (X : In p (filter f l)) by (apply filter_In; auto). unfold count in C. destruct (filter f l); [contradiction|discriminate].
Qed.

(** What the other goroutines know stays true if the published index stays or appears
    while no reader has the lock. *)
Lemma rd_keep : forall s s' r, sIndex s' = sIndex s -> sData s' = sData s ->
  (forall p, In p r -> rd_ok s p) -> forall p, In p r -> rd_ok s' p.
Proof. intros s s' r EI ED H p IN. specialize (H p IN). destruct p; cbn [rd_ok] in *; rewrite ?EI, ?ED; auto. Qed.
Lemma rd_grow : forall s s' r, (sIndex s' <> None) -> (sData s <> None -> sData s' <> None) -> count inR r = 0 ->
  (forall p, In p r -> rd_ok s p) -> forall p, In p r -> rd_ok s' p.
Proof.
  intros s s' r EI ED C H p IN. specialize (H p IN). pose proof (count_none _ _ _ C IN) as R.
  destruct p; cbn [rd_ok inR] in *; try discriminate; auto; destruct H; auto.
Qed.

Lemma step_inv : forall s p s' p' r, swap s p s' p' -> Inv s (p :: r) -> Inv s' (p' :: r).
Proof.
  intros s p s' p' r SW (A & B & C & D & E & F).
  rewrite count_cons in A, B.
  assert (DP : rd_ok s p) by (apply D; left; auto).
  assert (DR : forall q, In q r -> rd_ok s q) by (intros q H; apply D; right; auto).
  assert (ER : forall q, In q r -> inW q = true -> ph s (flat_map own (p :: r)) q) by (intros q H; apply E; right; auto).
  assert (EP : inW p = true -> ph s (flat_map own (p :: r)) p) by (apply E; left; auto).
  clear D E. cbn [flat_map] in *.
  (* a step that changes neither the fields nor the sections *)
  assert (SAME : s' = s -> inR p = inR p' -> inW p = false -> inW p' = false -> own p = own p' ->
     rd_ok s p' -> Inv s' (p' :: r)).
  { intros -> R1 W1 W2 O1 K. unfold Inv. rewrite !count_cons. cbn [flat_map]. rewrite <- R1, W2, <- O1.
    rewrite W1 in B. repeat split; auto; try (apply F; auto).
    - intros q [<-|H]; auto.
    - intros q [<-|H] W; [congruence|auto]. }
  (* the others when the moving goroutine is the writer *)
  assert (WO : inW p = true -> sWriter s = true /\ sReaders s = 0 /\ count inW r = 0 /\ count inR r = 0).
  { intro W. rewrite W in B. destruct (sWriter s) eqn:SWR; [|lia]. specialize (C eq_refl). repeat split; auto; lia. }
  destruct SW; cbn [inR inW own app] in *.
  - apply SAME; cbn; auto; congruence.
  - apply SAME; cbn; auto.
  - apply SAME; cbn; auto; split; [exact DP|congruence].
  - apply SAME; cbn; auto.
  - apply SAME; auto.
  - destruct DP. contradiction.
  - (* RLock *)
    unfold Inv. rewrite !count_cons. cbn [inR inW own flat_map app sReaders sWriter sIndex sData].
    rewrite H in B. cbn in DP. repeat split; auto; try lia; try discriminate.
    + intros q [<-|Q]; [exact DP|]. apply (rd_keep s _ r); auto.
    + intros q [<-|Q] W; [discriminate|]. exfalso. rewrite (count_none inW r q) in W; [discriminate|lia|auto].
    + apply F. auto.
    + apply F. auto.
    + apply F. auto.
  - apply SAME; auto. cbn. destruct (sWriter s) eqn:SWR; [specialize (C eq_refl); lia|].
    destruct (F eq_refl) as (F1 & _). congruence.
  - destruct DP. contradiction.
  - cbn in DP. apply SAME; cbn; auto; split; congruence.
  - cbn in DP. congruence.
  - cbn in DP. apply SAME; cbn; auto; tauto.
  - apply SAME; cbn; auto.
  - (* RUnlock *)
    unfold Inv. rewrite !count_cons. cbn [inR inW own flat_map app sReaders sWriter sIndex sData].
    destruct (sWriter s) eqn:SWR; [specialize (C eq_refl); lia|]. repeat split; auto; try lia; try discriminate; try (apply F; auto).
    + intros q [<-|Q]; [exact Logic.I|]. apply (rd_keep s _ r); auto.
    + intros q [<-|Q] W; [discriminate|]. exfalso. rewrite (count_none inW r q) in W; [discriminate|lia|auto].
  - (* build *)
    assert (AL : forall c, all s (flat_map own r) c ->
      all (mkAS (sIndex s) (sData s) (sWriter s) (sReaders s) (sUnloaded s) (sDeleted s) (S (sNext s))) (sNext s :: flat_map own r) c).
    { unfold all. intros c P. cbn [sDeleted sNext]. rewrite seq_S. cbn [app plus]. rewrite P. apply Permutation_cons_append. }
    unfold Inv. rewrite !count_cons. cbn [inR inW own flat_map app sReaders sWriter sIndex sData].
    repeat split; auto; try (apply F; auto).
    + intros q [<-|Q]; [exact Logic.I|]. apply (rd_keep s _ r); auto.
    + intros q [<-|Q] W; [discriminate|]. specialize (ER q Q W). destruct q; cbn [ph] in *; auto; cbn [sIndex sData sUnloaded sDeleted];
        repeat (match goal with H : _ /\ _ |- _ => destruct H end); repeat split; auto.
    + apply AL. apply F. auto.
  - apply SAME; cbn; auto.
  - (* Lock *)
    destruct (F H) as (F1 & F2 & F3). rewrite H in B.
    unfold Inv. rewrite !count_cons. cbn [inR inW own flat_map app sReaders sWriter sIndex sData].
    repeat split; auto; try lia; try discriminate.
    + intros q [<-|Q]; [exact Logic.I|]. apply (rd_keep s _ r); auto.
    + intros q [<-|Q] W; [cbn; auto|]. exfalso. rewrite (count_none inW r q) in W; [discriminate|lia|auto].
  - (* test *)
    destruct (WO eq_refl) as (W1 & W2 & W3 & W4). destruct (EP eq_refl) as (E1 & E2 & E3).
    unfold Inv. rewrite !count_cons. cbn [inR inW own flat_map app]. rewrite W1.
    repeat split; auto; try lia; try discriminate; try congruence.
    + intros q [<-|Q]; [exact Logic.I|auto].
    + intros q [<-|Q] W; [cbn; repeat split; auto; congruence|]. exfalso. rewrite (count_none inW r q) in W; [discriminate|lia|auto].
  - (* test, nothing there *)
    destruct (WO eq_refl) as (W1 & W2 & W3 & W4). destruct (EP eq_refl) as (E1 & E2 & E3).
    unfold Inv. rewrite !count_cons. cbn [inR inW own flat_map app]. rewrite W1.
    repeat split; auto; try lia; try discriminate; try congruence.
    + intros q [<-|Q]; [exact Logic.I|auto].
    + intros q [<-|Q] W; [|exfalso; rewrite (count_none inW r q) in W; [discriminate|lia|auto]].
      cbn. rewrite E1, H in E3. repeat split; auto.
  - (* unload *)
    destruct (WO eq_refl) as (W1 & W2 & W3 & W4). destruct (EP eq_refl) as (E1 & E2 & E3 & E4).
    unfold Inv. rewrite !count_cons. cbn [inR inW own flat_map app sReaders sWriter sIndex sData]. rewrite W1.
    repeat split; auto; try lia; try discriminate; try congruence.
    + intros q [<-|Q]; [exact Logic.I|]. apply (rd_keep s _ r); auto.
    + intros q [<-|Q] W; [|exfalso; rewrite (count_none inW r q) in W; [discriminate|lia|auto]].
      cbn. repeat split; auto. exists o. rewrite E3. auto.
  - (* unload, nothing there *)
    destruct (EP eq_refl) as (E1 & E2 & E3 & E4). congruence.
  - (* delete *)
    destruct (WO eq_refl) as (W1 & W2 & W3 & W4). destruct (EP eq_refl) as (E1 & (x & X1 & X2) & E4).
    assert (x = o) by congruence. subst x.
    unfold Inv. rewrite !count_cons. cbn [inR inW own flat_map app sReaders sWriter sIndex sData]. rewrite W1.
    repeat split; auto; try lia; try discriminate; try congruence.
    + intros q [<-|Q]; [exact Logic.I|]. apply (rd_keep s _ r); auto.
    + intros q [<-|Q] W; [|exfalso; rewrite (count_none inW r q) in W; [discriminate|lia|auto]].
      cbn. repeat split; auto. unfold all in *. rewrite H in E4. cbn [opt app sDeleted sNext] in *. exact E4.
  - (* AnnoyIndex := *)
    destruct (WO eq_refl) as (W1 & W2 & W3 & W4). destruct (EP eq_refl) as (E1 & E2 & E3).
    unfold Inv. rewrite !count_cons. cbn [inR inW own flat_map app sReaders sWriter sIndex sData]. rewrite W1.
    repeat split; auto; try lia; try discriminate; try congruence.
    + intros q [<-|Q]; [exact Logic.I|]. apply (rd_grow s _ r); cbn; auto. discriminate.
    + intros q [<-|Q] W; [|exfalso; rewrite (count_none inW r q) in W; [discriminate|lia|auto]].
      cbn. repeat split; auto. unfold all in *. cbn [app sDeleted sNext] in *. rewrite <- E3. symmetry. apply Permutation_middle.
  - (* DataIndex := *)
    destruct (WO eq_refl) as (W1 & W2 & W3 & W4). destruct (EP eq_refl) as (E1 & E2 & E3).
    unfold Inv. rewrite !count_cons. cbn [inR inW own flat_map app sReaders sWriter sIndex sData]. rewrite W1.
    repeat split; auto; try lia; try discriminate; try congruence.
    + intros q [<-|Q]; [exact Logic.I|]. apply (rd_grow s _ r); cbn; auto; congruence.
    + intros q [<-|Q] W; [|exfalso; rewrite (count_none inW r q) in W; [discriminate|lia|auto]].
      cbn. rewrite E1. repeat split; auto.
  - (* Unlock *)
    destruct (WO eq_refl) as (W1 & W2 & W3 & W4). destruct (EP eq_refl) as (E1 & E2 & E3).
    unfold Inv. rewrite !count_cons. cbn [inR inW own flat_map app sReaders sWriter sIndex sData].
    repeat split; auto; try lia; try discriminate; try congruence.
    + intros q [<-|Q]; [exact Logic.I|]. apply (rd_keep s _ r); auto.
    + intros q [<-|Q] W; [discriminate|]. exfalso. rewrite (count_none inW r q) in W; [discriminate|lia|auto].
Qed.

Lemma come_inv : forall s ts p, p = QIndex \/ p = PBuild -> Inv s ts -> Inv s (p :: ts).
Proof.
  intros s ts p P (A & B & C & D & E & F). unfold Inv. rewrite !count_cons.
  assert (R : inR p = false /\ inW p = false /\ own p = [] /\ rd_ok s p) by (destruct P; subst p; cbn; auto).
  destruct R as (R1 & R2 & R3 & R4). cbn [flat_map]. rewrite R1, R2, R3. cbn [app plus]. repeat split; auto; try (apply F; auto).
  - intros q [<-|Q]; auto.
  - intros q [<-|Q] W; [congruence|auto].
Qed.

Lemma run_inv : forall w w', swap_run w w' -> Inv (fst w) (snd w) -> Inv (fst w') (snd w').
Proof.
  intros w w' R. induction R as [w|w1 w2 w3 R IH S]; auto. intro I0. specialize (IH I0).
  destruct S as [s ts p P|s ts1 p ts2 s' p' SW]; cbn [fst snd] in *.
  - apply (Inv_perm _ (p :: ts)); [apply Permutation_cons_append|]. apply come_inv; auto.
  - apply (Inv_perm _ (p' :: ts1 ++ ts2)); [apply Permutation_middle|].
    apply (step_inv s p); auto. apply (Inv_perm _ (ts1 ++ p :: ts2)); [symmetry; apply Permutation_middle|exact IH].
Qed.

Lemma inv_fresh : Inv annoy_fresh [].
Proof. unfold Inv, calm, all. cbn. repeat split; auto; try discriminate; intros p []. Qed.
