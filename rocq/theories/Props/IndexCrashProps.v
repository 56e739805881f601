(** Property C105: exactly when the approximate index crashes. *)
From Verif.Base Require Import GoBase GoLemmas Assoc Float GoSort.
From Verif.Model Require Import Codec Store Vector Search Data Sync Annoy.
From Verif.Spec Require Import AnnoySpec.
From Verif.Proof Require Import AnnoyP.
From Verif.Props Require Import AnnoyProps.
From Coq Require Import Lia Permutation.
Open Scope nat_scope.

Lemma nth_error_firstn_lt : forall (A : Type) c (l : list A) j, j < c -> nth_error (firstn c l) j = nth_error l j.
Proof.
  induction c as [|c IH]; intros [|x l] [|j] H; cbn; auto; try lia. apply IH. lia.
Qed.
Lemma entry_no_err : forall alive s e x, index_entry alive s e <> Err x.
Proof.
  intros alive s e x. unfold index_entry. destruct (featureOf (Some (edatum e))) as [fe|er|] eqn:F; cbn [bind]; try discriminate.
  - destruct (_ && _); [|discriminate]. unfold AddItem. destruct (length fe <? _); cbn [bind]; [discriminate|].
    destruct (list_set (iNodes s) _ _); cbn [bind]; destruct (list_set (iData s) _ _); discriminate.
  - unfold featureOf in F. destruct (edatum e) as [[k|] v]; discriminate.
Qed.
Lemma fold_no_err : forall alive l r, (forall x, r <> Err x) -> forall x, index_fold alive l r <> Err x.
Proof.
  intros alive. induction l as [|e l IH]; intros r H x; cbn; [apply H|]. apply IH. intro y.
  destruct r as [s|z|]; cbn [bind]; [apply entry_no_err|destruct (H z eq_refl)|discriminate].
Qed.

(** An entry that stops the building of the index: no key, or a vector shorter than
    the first one. *)
Definition stops (cap : nat) (live : list entry) : Prop :=
  exists j e, nth_error live j = Some e /\
    (dkey (edatum e) = None \/
     (j < cap /\ exists e0, nth_error live 0 = Some e0 /\ length (features (edatum e)) < length (features (edatum e0)))).

Lemma scan_or_stop : forall N0 tick order m, (N.of_nat (length order) < M64)%N ->
  (index_scan true N0 tick order m = Panic <-> stops (N.to_nat (N.max 1000 N0)) (visited tick order)).
Proof.
  intros N0 tick order m B. set (c := N.to_nat (N.max 1000 N0)). assert (C : 0 < c) by (unfold c; lia).
  assert (LV : (N.of_nat (length (visited tick order)) < M64)%N).
  { assert (length (visited tick order) <= length order); [|lia].
    unfold visited. rewrite map_length. clear. induction order as [|a l IH]; cbn; auto. destruct (negb _); cbn; lia. }
  split.
  - intro E.
    assert (Gen : forall rest seen s, scanned c seen s -> (N.of_nat (length seen + length rest) < M64)%N ->
      index_fold true rest (Ok s) = Panic -> stops c (seen ++ rest)).
    { induction rest as [|e rest IH]; intros seen s S L F; [discriminate|]. cbn [index_fold fold_left bind] in F.
      destruct (index_entry true s e) as [s1|x|] eqn:E1.
      - replace (seen ++ e :: rest) with ((seen ++ [e]) ++ rest) by (rewrite <- app_assoc; reflexivity).
        apply (IH _ s1); auto.
        + eapply index_entry_inv; eauto. cbn in L. lia.
        + rewrite app_length. cbn in *. lia.
      - destruct (entry_no_err _ _ _ _ E1).
      - exists (length seen), e. split; [rewrite nth_error_app2, Nat.sub_diag by lia; reflexivity|].
        destruct (dkey (edatum e)) as [k|] eqn:KE; [right|auto].
        destruct (Nat.lt_ge_cases (length seen) c) as [Lc|Lc].
        + split; auto. destruct seen as [|e0 seen].
          * exfalso. destruct (index_entry_ok c [] s e S C) as [s' Q]; [cbn; unfold M64; lia|congruence|discriminate|congruence].
          * exists e0. split; auto. apply Nat.nle_gt. intro Le.
            destruct (index_entry_ok c (e0 :: seen) s e S C) as [s' Q]; [cbn in *; lia|congruence| |congruence].
            intros f Hf. injection Hf as <-. exact Le.
        + exfalso. assert (X : exists s', index_entry true s e = Ok s'); [|destruct X; congruence].
          clear E1. destruct S as [Sn Sd Snd Snn Sda Sle Sky]. unfold index_entry.
          assert (U : u64 (iN s + 1) = N.of_nat (S (length seen))).
          { rewrite Sn. unfold u64. rewrite N.mod_small by (cbn in L; lia). lia. }
          rewrite U. assert (FE : featureOf (Some (edatum e)) = Ok (features (edatum e))).
          { unfold featureOf, features. destruct (edatum e) as [[k'|] v]; cbn in *; [reflexivity|congruence]. }
          rewrite FE. cbn [bind]. replace (N.to_nat (N.of_nat (S (length seen)) - 1)) with (length seen) by lia.
          assert (LD : length (iData s) = c).
          { rewrite Sda, app_length, map_length, firstn_length, repeat_length. lia. }
          rewrite LD. cbn [andb]. destruct (Nat.ltb_spec (length seen) c); [lia|]. eauto. }
    rewrite index_scan_fold in E. apply (Gen _ [] _ (scanned_init c)); auto.
  - intros (j & e & Hj & Bad).
    destruct (index_scan true N0 tick order m) as [s|x|] eqn:E; auto.
    + exfalso. apply index_scan_spec in E; auto. destruct E as [Sn Sd Snd Snn Sda Sle Sky].
      destruct Bad as [Bad|(Lj & e0 & H0 & Bad)].
      * apply (Sky e); auto. eapply nth_error_In; eauto.
      * assert (Q : length (features (edatum e0)) <= length (features (edatum e))); [|lia].
        destruct (visited tick order) as [|e1 l]; [discriminate|]. cbn in H0. injection H0 as ->.
        apply (Sle _ e eq_refl). eapply nth_error_In with (n := j). rewrite nth_error_firstn_lt by exact Lj. exact Hj.
    + exfalso. rewrite index_scan_fold in E. revert E. apply fold_no_err. discriminate.
Qed.

(** The building of the index over a store crashes exactly at such an entry; it never
    reports an error. *)
Theorem C105_build : forall N0 tick order m, (N.of_nat (length order) < M64)%N ->
  (index_scan true N0 tick order m = Panic <->
   exists j e, nth_error (visited tick order) j = Some e /\
    (dkey (edatum e) = None \/
     (j < N.to_nat (N.max 1000 N0) /\ exists e0, nth_error (visited tick order) 0 = Some e0 /\
        length (features (edatum e)) < length (features (edatum e0))))) /\
  (forall x, index_scan true N0 tick order m <> Err x).
Proof.
  intros N0 tick order m B. split; [exact (scan_or_stop N0 tick order m B)|].
  intros x. rewrite index_scan_fold. apply fold_no_err. discriminate.
Qed.
Print Assumptions C105_build.

Lemma visited_in : forall tick order e, In e (visited tick order) <->
  exists k, In (k, e) order /\ expired (tick k) e = false.
Proof.
  intros tick order e. unfold visited. rewrite in_map_iff. split.
  - intros ([k x] & E & H). cbn in E. subst x. apply filter_In in H. destruct H as [H1 H2]. cbn in H2.
    exists k. split; auto. apply negb_true_iff in H2. auto.
  - intros (k & H1 & H2). exists (k, e). split; auto. apply filter_In. split; auto. cbn. rewrite H2. reflexivity.
Qed.

(** The order of a scan is not fixed.  Some order crashes exactly if an entry that is
    not expired lacks a key, or two of them have vectors of different lengths. *)
Theorem C105_some_order : forall N0 tick m, (N.of_nat (length m) < M64)%N ->
  ((exists order, Permutation order m /\ index_scan true N0 tick order m = Panic) <->
   ((exists k e, In (k, e) m /\ expired (tick k) e = false /\ dkey (edatum e) = None) \/
    (exists k e k' e', In (k, e) m /\ expired (tick k) e = false /\ In (k', e') m /\ expired (tick k') e' = false /\
       length (features (edatum e)) <> length (features (edatum e'))))).
Proof.
  intros N0 tick m B. split.
  - intros (order & P & E). apply scan_or_stop in E; [|rewrite (Permutation_length P); auto].
    destruct E as (j & e & Hj & Bad). apply nth_error_In, visited_in in Hj. destruct Hj as (k & K1 & K2).
    eapply Permutation_in in K1; [|exact P]. destruct Bad as [Bad|(_ & e0 & H0 & Bad)]; [left; eauto|]. right.
    apply nth_error_In, visited_in in H0. destruct H0 as (k0 & L1 & L2). eapply Permutation_in in L1; [|exact P].
    exists k, e, k0, e0. repeat split; auto. lia.
  - intros [(k & e & H1 & H2 & H3)|(k & e & k' & e' & H1 & H2 & H3 & H4 & H5)].
    + exists m. split; auto. apply scan_or_stop; auto.
      assert (V : In e (visited tick m)) by (apply visited_in; eauto). apply In_nth_error in V. destruct V as [j V].
      exists j, e. auto.
    + assert (Gen : forall k e k' e', In (k, e) m -> expired (tick k) e = false -> In (k', e') m -> expired (tick k') e' = false ->
        length (features (edatum e)) < length (features (edatum e')) ->
        exists order, Permutation order m /\ index_scan true N0 tick order m = Panic).
      { clear k e k' e' H1 H2 H3 H4 H5. intros k e k' e' H1 H2 H3 H4 H5.
        apply in_split in H3. destruct H3 as (a & b & ->).
        assert (H1' : In (k, e) (a ++ b)).
        { apply in_app_or in H1. apply in_or_app. destruct H1 as [H1|[H1|H1]]; auto. injection H1 as <- <-. lia. }
        apply in_split in H1'. destruct H1' as (c & d & S).
        exists ((k', e') :: (k, e) :: c ++ d). split.
        - rewrite <- Permutation_middle. constructor. rewrite S. apply Permutation_middle.
        - apply scan_or_stop.
          { rewrite app_length in B. cbn in B. cbn. assert (length (a ++ b) = length (c ++ (k, e) :: d)) by (f_equal; auto).
            rewrite !app_length in H. cbn in H. rewrite app_length. lia. }
          exists 1, e. unfold visited. cbn [filter fst snd]. rewrite H4, H2. cbn. split; auto. right. split; [lia|].
          exists e'. auto. }
      destruct (Nat.lt_gt_cases (length (features (edatum e))) (length (features (edatum e')))) as [C _].
      destruct (C H5) as [L|L]; [eapply (Gen k e k' e')|eapply (Gen k' e' k e)]; eauto.
Qed.
Print Assumptions C105_some_order.

(** A query to a built index crashes exactly if it has no key or its vector is
    shorter than the vectors of the index. *)
Theorem C105_query : forall I G exists_ score tick order m an a pick query config,
  index_of I an -> an = Some a -> (scLimit config < M32)%N ->
  (forall e, In (Some e) (yFrom a) -> exists b, PassesFilters exists_ (scFilters config) (scGroupFilters config) e = Ok b) ->
  (snd (SearchAnnoy G exists_ score tick order m (Some a) pick query config) = Panic <->
   forall d, query = Some d -> dkey d = None \/ length (features d) < xF (yIndex a)) /\
  (forall x, snd (SearchAnnoy G exists_ score tick order m (Some a) pick query config) <> Err x).
Proof.
  intros I G exists_ score tick order m an a pick query config H E LM FI.
  destruct (index_of_idx I an H a E) as (tick0 & order0 & m0 & N0 & s & outs & old & _ & _ & _ & IX).
  set (c := N.to_nat (N.max 1000 N0)) in *. pose proof (ix_cap _ _ _ IX) as C.
  assert (LF : length (yFrom a) = c).
  { rewrite (ix_data _ _ _ IX), app_length, map_length, firstn_length, repeat_length. lia. }
  assert (Bad : (query = None \/ exists d, query = Some d /\ (dkey d = None \/ length (features d) < xF (yIndex a))) ->
    snd (SearchAnnoy G exists_ score tick order m (Some a) pick query config) = Panic).
  { intro Q. unfold SearchAnnoy. rewrite LF, (proj2 (Nat.ltb_lt 0 c)) by lia. cbn [snd].
    destruct Q as [->|(d & -> & Q)]; [reflexivity|]. destruct d as [[k|] v]; [|reflexivity].
    destruct Q as [Q|Q]; [discriminate|]. change (featureOf (Some (mkDatum (Some k) v))) with (Ok (features (mkDatum (Some k) v))).
    cbn [bind]. unfold GetNns. rewrite (proj2 (Nat.ltb_lt _ _) Q). reflexivity. }
  assert (Good : forall d, query = Some d -> dkey d <> None -> xF (yIndex a) <= length (features d) ->
    exists l, snd (SearchAnnoy G exists_ score tick order m (Some a) pick query config) = Ok l).
  { intros d -> KD LD.
    destruct (SearchAnnoy_idx G exists_ score tick order m a c _ pick d config IX KD LD LM) as (ids & es & _ & _ & _ & Q).
    - intros e In_. apply FI. rewrite (ix_data _ _ _ IX). apply in_or_app. left. apply in_map_iff. eauto.
    - rewrite Q. eexists. reflexivity. }
  destruct query as [d|].
  - destruct (dkey d) as [k|] eqn:KD.
    + destruct (Nat.lt_ge_cases (length (features d)) (xF (yIndex a))) as [L|L].
      * split.
        -- split; [intros _ d' Q; injection Q as <-; auto|]. intros _. apply Bad. right. exists d. auto.
        -- intros x Q. rewrite Bad in Q; [discriminate|]. right. exists d. auto.
      * destruct (Good d eq_refl) as [l Q]; [congruence|auto|]. rewrite Q. split; [|discriminate].
        split; [discriminate|]. intro Z. destruct (Z d eq_refl) as [Z1|Z1]; [congruence|lia].
    + split.
      * split; [intros _ d' Q; injection Q as <-; auto|]. intros _. apply Bad. right. exists d. auto.
      * intros x Q. rewrite Bad in Q; [discriminate|]. right. exists d. auto.
  - split; [split; [discriminate|intros _; apply Bad; auto]|]. intros x Q. rewrite Bad in Q; [discriminate|auto].
Qed.
Print Assumptions C105_query.

(** A store with vectors of lengths 1 and 2 (read in two orders), and one with four
    vectors of length 1 whose index is queried with lengths 0 and 1. *)
Example C105_instance :
  let long := adatum [one_bits; one_bits] (bs "a") (bs "x") in let short := adatum [one_bits] (bs "a") (bs "x") in
  index_scan true 0 atick (astore [long; short]) (astore [long; short]) = Panic /\
  (exists s, index_scan true 0 atick (astore [short; long]) (astore [long; short]) = Ok s) /\
  Permutation (astore [short; long]) (astore [long; short]) /\
  match four_annoyer with
  | Some a => index_of exact_imb (Some a) /\ xF (yIndex a) = 1 /\
      forallb (fun d => match d with Some d => match PassesFilters anyfilter [] [] d with Ok _ => true | _ => false end
                               | None => true end) (yFrom a) = true /\
      snd (SearchAnnoy insertion_sort anyfilter score0 atick (astore four) (astore four) (Some a) pick_max
             (Some (adatum [] [] [])) (conf_annoy 10 [])) = Panic
  | None => False end.
Proof.
  cbv zeta. split; [vm_compute; reflexivity|]. split; [eexists; vm_compute; reflexivity|].
  split; [apply perm_swap|]. pose proof four_index as IO.
  assert (P : match four_annoyer with
    | Some a => xF (yIndex a) = 1 /\
      forallb (fun d => match d with Some d => match PassesFilters anyfilter [] [] d with Ok _ => true | _ => false end
                               | None => true end) (yFrom a) = true /\
      snd (SearchAnnoy insertion_sort anyfilter score0 atick (astore four) (astore four) (Some a) pick_max
                       (Some (adatum [] [] [])) (conf_annoy 10 [])) = Panic
    | None => False end) by (vm_compute; auto).
  destruct four_annoyer as [a|]; [|contradiction]. split; [exact IO|exact P].
Qed.
