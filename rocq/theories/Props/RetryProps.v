(** C175: repeating an insert whose answer was lost. *)
From Verif.Base Require Import GoBase GoLemmas Assoc.
From Verif.Model Require Import Codec Store.
From Verif.Spec Require Import Wire StoreSpec RetrySpec.
From Verif.Proof Require Import CodecP CodecTop StoreP StoreQ.
From Coq Require Import Lia.
Open Scope N_scope.

Lemma history_last : forall t0 h c t2, history t0 (h ++ [c]) t2 ->
  exists t1, history t0 h t1 /\ (t1 <= t2)%Z /\ call_ok t1 t2 c.
Proof.
  intros t0 h c t2 H. remember (h ++ [c]) as l eqn:E. destruct H as [t|t0 h0 t1 c0 t2 H1 H2 H3].
  - destruct h; discriminate E.
  - apply app_inj_tail in E. destruct E as [-> ->]. eauto.
Qed.

Lemma latest_leaves : forall k h2 h, leaves k h2 -> latest (h ++ h2) k = latest h k.
Proof.
  intros k h2. induction h2 as [|c h2 IH] using rev_ind; intros h L; [rewrite app_nil_r; reflexivity|].
  apply Forall_app in L. destruct L as [L1 L2]. inversion L2 as [|? ? X _]; subst.
  rewrite app_assoc, latest_snoc, IH by exact L1.
  destruct c as [t k' v ttl|k'|]; [| |reflexivity]; destruct (DatumKey_eq_dec k' k); [contradiction|reflexivity|contradiction|reflexivity].
Qed.

Lemma insert_same : forall now m k v config e, kv_ok k v -> mload m (wire_key k) = Some e -> edatum e = kv k v ->
  CloseEnough (expireAtOf now config) (exprireAt e) = true -> InsertBDMap now m (Some (kv k v)) config = Ok (m, false).
Proof.
  intros now m k v config e (K1 & K2 & V1 & V2) L D C.
  unfold InsertBDMap, GetKeyAsBytes, GetValueAsBytes. cbn [dkey dvalue kv].
  rewrite MarshalKey_spec by auto. cbn [bind]. unfold EncodeToString. rewrite L, D. cbn [dvalue kv].
  rewrite MarshalValue_spec by auto. cbn [bind]. rewrite bytes_eqb_refl, C. reflexivity.
Qed.

(** C175 (partial).  A client inserts a datum, other clients do what they like with other
    keys, and the client inserts the datum again.  Compared with not repeating the insert,
    nothing that would be listed is missing; the only datum that may be listed in addition is
    the one inserted, before the end of the time asked for by the second insert; no key is
    listed twice; the datum is listed until ten seconds before that end; a datum without
    time to live leaves the whole store as it was.
    Missing: other clients change the same key in between, refuted below. *)
Theorem C175_retry_partial : forall t0 h1 t1 k v ttl h2 t2 t3 tick ord,
  let h := h1 ++ CInsert t1 k v ttl :: h2 in
  (10 <= t0)%Z -> history t0 (h ++ [CInsert t2 k v ttl]) t3 -> leaves k h2 -> (forall m, Permutation (ord m) m) ->
  exists m m', run_calls [] h = Ok m /\ run_calls [] (h ++ [CInsert t2 k v ttl]) = Ok m' /\
    NoDup (map dkey (listed tick ord m')) /\
    (forall d, In d (listed tick ord m) -> In d (listed tick ord m')) /\
    (forall d, In d (listed tick ord m') -> In d (listed tick ord m) \/
       d = kv k v /\ ttl <> 0 /\ (tick (wire_key k) < t2 + Z.of_N ttl)%Z) /\
    (ttl = 0 \/ (tick (wire_key k) + 9 < t2 + Z.of_N ttl)%Z -> In (kv k v) (listed tick ord m')) /\
    (ttl = 0 -> m' = m).
Proof.
  intros t0 h1 t1 k v ttl h2 t2 t3 tick ord h T0 H L PE.
  destruct (history_last _ _ _ _ H) as (tm & HH & TM & (T2 & KV & MX)).
  destruct (history_inv t0 h tm T0 HH) as (m & R & W & SL & KI).
  pose proof KV as (K1 & K2 & _ & _).
  pose proof (KI k K1 K2) as I. unfold key_inv in I.
  assert (LT : latest h k = Some (t1, v, ttl)).
  { unfold h. change (CInsert t1 k v ttl :: h2) with ([CInsert t1 k v ttl] ++ h2). rewrite app_assoc, latest_leaves by exact L.
    rewrite latest_snoc. destruct (DatumKey_eq_dec k k); [reflexivity|contradiction]. }
  rewrite LT in I. destruct I as (_ & T1 & M1 & I).
  assert (TT : (10 <= t2)%Z) by lia.
  pose proof (expireAt_small t2 ttl TT MX) as EX.
  exists m. rewrite run_calls_app, R. cbn [bind run_calls run_call]. fold (kv k v).
  (* what is listed, and no key twice *)
  assert (ND : forall m0, mwf m0 -> Forall slot_ok m0 -> NoDup (map dkey (listed tick ord m0))).
  { intros m0 W0 S0. unfold listed. rewrite StreamAll_spec. cbn [snd]. rewrite map_map.
    assert (Wo : mwf (ord m0)) by (eapply perm_wf; [eauto|apply Permutation_sym; auto]).
    apply NoDup_map_inj_on; [|apply filter_NoDup, mwf_NoDup; auto].
    intros [b e] [b' e'] Hp Hq Q. apply filter_In in Hp, Hq. destruct Hp as [Hp _], Hq as [Hq _]. cbn [snd] in Q.
    apply (Permutation_in _ (PE m0)) in Hp, Hq. rewrite Forall_forall in S0.
    destruct (S0 _ Hp) as (ka & va & _ & Ba & Da & _). destruct (S0 _ Hq) as (kb & vb & _ & Bb & Db & _). cbn [fst snd] in *.
    rewrite Da, Db in Q. cbn in Q. injection Q as ->. subst b b'.
    apply in_mload in Hp, Hq; auto. congruence. }
  assert (Y : forall m0 d, mwf m0 -> (In d (listed tick ord m0) <->
     exists b e, mload m0 b = Some e /\ expired (tick b) e = false /\ edatum e = d))
    by (intros m0 d W0; apply scan_yield; auto).
  assert (LAST : forall e, expired (tick (wire_key k)) e = false <-> (exprireAt e = 0 \/ tick (wire_key k) < exprireAt e)%Z).
  { intro e. unfold expired. destruct (Z.eqb_spec (exprireAt e) 0); cbn [negb andb]; [tauto|]. rewrite Z.leb_gt. tauto. }
  assert (SAME : forall e, mload m (wire_key k) = Some e -> edatum e = kv k v ->
     CloseEnough (expireAtOf t2 (Some (mkInsertConfig ttl 0))) (exprireAt e) = true ->
     (if ttl =? 0 then exprireAt e = 0%Z else (t2 + Z.of_N ttl - 10 < exprireAt e)%Z) ->
     exists m', ('(m', _) <- InsertBDMap t2 m (Some (kv k v)) (Some (mkInsertConfig ttl 0)) ;; Ok m') = Ok m' /\
    NoDup (map dkey (listed tick ord m')) /\
    (forall d, In d (listed tick ord m) -> In d (listed tick ord m')) /\
    (forall d, In d (listed tick ord m') -> In d (listed tick ord m) \/
       d = kv k v /\ ttl <> 0 /\ (tick (wire_key k) < t2 + Z.of_N ttl)%Z) /\
    (ttl = 0 \/ (tick (wire_key k) + 9 < t2 + Z.of_N ttl)%Z -> In (kv k v) (listed tick ord m')) /\
    (ttl = 0 -> m' = m)).
  { intros e Le De Ce Xe. exists m. rewrite (insert_same _ _ _ _ _ e KV Le De Ce). cbn [bind]. split; [reflexivity|].
    split; [apply ND; auto|]. split; [auto|]. split; [auto|]. split; [|auto].
    intro A. apply Y; [exact W|]. exists (wire_key k), e. split; [exact Le|]. split; [|exact De]. apply LAST.
    destruct (N.eqb_spec ttl 0); [left; exact Xe|]. right. lia. }
  assert (NEW : ttl <> 0 -> (forall e, mload m (wire_key k) = Some e -> edatum e = kv k v /\ (11 <= exprireAt e <= t2 + Z.of_N ttl)%Z) ->
     exists m', ('(m', _) <- InsertBDMap t2 m (Some (kv k v)) (Some (mkInsertConfig ttl 0)) ;; Ok m') = Ok m' /\
    NoDup (map dkey (listed tick ord m')) /\
    (forall d, In d (listed tick ord m) -> In d (listed tick ord m')) /\
    (forall d, In d (listed tick ord m') -> In d (listed tick ord m) \/
       d = kv k v /\ ttl <> 0 /\ (tick (wire_key k) < t2 + Z.of_N ttl)%Z) /\
    (ttl = 0 \/ (tick (wire_key k) + 9 < t2 + Z.of_N ttl)%Z -> In (kv k v) (listed tick ord m')) /\
    (ttl = 0 -> m' = m)).
  { intros NZ OLD. destruct (N.eqb_spec ttl 0) as [?|_]; [contradiction|].
    destruct (insert_spec t2 m k v (Some (mkInsertConfig ttl 0)) KV) as (m1 & fresh & E & F).
    { intros e Le. exists v. split; [exact KV|]. apply (OLD e Le). }
    destruct fresh.
    2:{ destruct F as (-> & e & Le & De & Ce). apply (SAME e Le De Ce). rewrite EX in Ce.
        destruct (OLD e Le) as (_ & B). apply close_small in Ce; lia. }
    rewrite E. cbn [bind]. exists m1. split; [reflexivity|]. rewrite EX in F.
    assert (W1 : mwf m1) by (subst m1; apply mstore_wf, W).
    assert (L1 : forall b, mload m1 b = if bytes_eqb (wire_key k) b then Some (mkEntry (t2 + Z.of_N ttl) (kv k v)) else mload m b)
      by (intro b; subst m1; apply mload_mstore).
    split; [|split; [|split; [|split]]].
    - apply ND; [exact W1|]. rewrite Forall_forall. intros [b e] X. apply in_mload in X; [|exact W1]. rewrite L1 in X.
      destruct (bytes_eqb (wire_key k) b) eqn:Q.
      + apply bytes_eqb_spec in Q. subst b. injection X as <-. exists k, v. cbn [fst snd edatum exprireAt]. repeat split; auto; try apply KV. right. lia.
      + apply mload_in in X. rewrite Forall_forall in SL. exact (SL _ X).
    - intros d D. apply (Y m d W) in D. apply (Y m1 d W1). destruct D as (b & e & Le & Xe & De).
      destruct (bytes_eqb (wire_key k) b) eqn:Q.
      + apply bytes_eqb_spec in Q. subst b. destruct (OLD e Le) as (O1 & O2).
        exists (wire_key k), (mkEntry (t2 + Z.of_N ttl) (kv k v)). rewrite L1, bytes_eqb_refl. split; [reflexivity|].
        cbn [edatum]. split; [|congruence]. apply LAST. cbn [exprireAt]. apply LAST in Xe. right. lia.
      + exists b, e. rewrite L1, Q. auto.
    - intros d D. apply (Y m1 d W1) in D. destruct D as (b & e & Le & Xe & De). rewrite L1 in Le.
      destruct (bytes_eqb (wire_key k) b) eqn:Q.
      + apply bytes_eqb_spec in Q. subst b. injection Le as <-. right. apply LAST in Xe. cbn [exprireAt edatum] in *.
        split; [congruence|]. split; [exact NZ|]. lia.
      + left. apply (Y m d W). exists b, e. auto.
    - intro A. apply (Y m1 _ W1). exists (wire_key k), (mkEntry (t2 + Z.of_N ttl) (kv k v)). rewrite L1, bytes_eqb_refl.
      split; [reflexivity|]. split; [|reflexivity]. apply LAST. cbn [exprireAt]. right. lia.
    - intro Z. contradiction. }
  match type of NEW with _ -> _ -> ?X => cut X end.
  { intros (m' & E & REST). exists m'. split; [reflexivity|]. split; [|exact REST].
    destruct (InsertBDMap t2 m (Some (kv k v)) (Some (mkInsertConfig ttl 0))) as [[? ?]| |]; cbn [bind] in *; congruence. }
  destruct (mload m (wire_key k)) as [e|] eqn:Le.
  - destruct I as (De & I). destruct (N.eqb_spec ttl 0) as [Z0|NZ].
    + assert (Ce : CloseEnough (expireAtOf t2 (Some (mkInsertConfig ttl 0))) (exprireAt e) = true)
        by (rewrite EX, I; reflexivity).
      apply (SAME e eq_refl De Ce I).
    + destruct (CloseEnough (expireAtOf t2 (Some (mkInsertConfig ttl 0))) (exprireAt e)) eqn:Ce.
      * apply (SAME e eq_refl De Ce). rewrite EX in Ce. apply slot_load in Le; auto.
        destruct Le as (v' & _ & _ & B). apply close_small in Ce; lia.
      * apply NEW; [exact NZ|]. intros e' Q. injection Q as <-. split; [exact De|]. split; [lia|].
        apply slot_load in Le; auto. destruct Le as (v' & _ & _ & B). rewrite EX in Ce.
        destruct (Z_le_gt_dec (exprireAt e) (t2 + Z.of_N ttl)) as [G|G]; [exact G|]. exfalso.
        assert (X : CloseEnough (t2 + Z.of_N ttl) (exprireAt e) = true) by (apply close_small; lia). congruence.
  - apply NEW; [apply I|]. intros e' Q. discriminate Q.
Qed.
Print Assumptions C175_retry_partial.

(** Repeating a delete changes nothing, if nobody inserts the key in between (refuted below
    otherwise). *)
Theorem C175_delete_partial : forall t0 h1 k h2 t3,
  let h := h1 ++ CDelete k :: h2 in
  (10 <= t0)%Z -> history t0 (h ++ [CDelete k]) t3 -> leaves k h2 ->
  exists m, run_calls [] h = Ok m /\ run_calls [] (h ++ [CDelete k]) = Ok m /\
    forall tick ord v, (forall m, Permutation (ord m) m) -> ~ In (kv k v) (listed tick ord m).
Proof.
  intros t0 h1 k h2 t3 h T0 H L.
  destruct (history_last _ _ _ _ H) as (tm & HH & _ & (K1 & K2)).
  destruct (history_inv t0 h tm T0 HH) as (m & R & W & SL & KI).
  pose proof (KI k K1 K2) as I. unfold key_inv in I.
  assert (LT : latest h k = None).
  { unfold h. change (CDelete k :: h2) with ([CDelete k] ++ h2). rewrite app_assoc, latest_leaves by exact L.
    rewrite latest_snoc. destruct (DatumKey_eq_dec k k); [reflexivity|contradiction]. }
  rewrite LT in I. exists m. split; [exact R|]. split.
  - rewrite run_calls_app, R. cbn [bind run_calls run_call]. rewrite delete_spec by exact K2. cbn [bind]. f_equal. apply mdelete_notin.
    intro X. apply in_map_iff in X. destruct X as ([b e] & E & X). cbn [fst] in E. subst b. apply in_mload in X; [congruence|exact W].
  - intros tick ord v PE X. apply scan_yield in X; auto. destruct X as (b & e & Le & _ & De).
    pose proof (mload_in _ _ _ Le) as IN. rewrite Forall_forall in SL. destruct (SL _ IN) as (k' & v' & _ & B & D & _). cbn [fst snd] in *.
    rewrite De in D. injection D as <- <-. congruence.
Qed.
Print Assumptions C175_delete_partial.

Definition retry_key : DatumKey := mkKey [1] [2] 0 0 1 0.
Definition retry_other : DatumKey := mkKey [5] [2] 0 0 1 0.
Definition retry_value : DatumValue := mkValue 1 [7].
Definition retry_newer : DatumValue := mkValue 2 [8].

Lemma retry_ok : forall k v, In k [retry_key; retry_other] -> In v [retry_value; retry_newer] -> kv_ok k v.
Proof.
  intros k v [<-|[<-|[]]] [<-|[<-|[]]]; unfold kv_ok, key_ok, key_fits, value_ok, value_fits; cbn;
    repeat split; try (repeat constructor; fail); try lia; try (intros; lia).
Qed.

Lemma history_cons2 : forall c1 c2 c3 a b c d, (a <= b <= c)%Z -> (c <= d)%Z ->
  call_ok a b c1 -> call_ok b c c2 -> call_ok c d c3 -> history a [c1; c2; c3] d.
Proof.
  intros c1 c2 c3 a b c d [A B] D X Y Z.
  apply (h_snoc a [c1; c2] c c3 d); [|exact D|exact Z]. apply (h_snoc a [c1] b c2 c); [|exact B|exact Y].
  apply (h_snoc a [] a c1 b); [constructor|exact A|exact X].
Qed.

(** C175 (refuted as stated): another client deletes the datum between the insert and its
    repetition; the repetition brings it back. *)
Theorem C175_deleted_refuted : exists t1 k v h2 t2 t3 tick ord m m',
  let h := CInsert t1 k v 0 :: h2 in
  history t1 (h ++ [CInsert t2 k v 0]) t3 /\ (forall m, Permutation (ord m) m) /\ In (CDelete k) h2 /\
  run_calls [] h = Ok m /\ run_calls [] (h ++ [CInsert t2 k v 0]) = Ok m' /\
  listed tick ord m = [] /\ listed tick ord m' = [kv k v].
Proof.
  exists 1000%Z, retry_key, retry_value, [CDelete retry_key], 1002%Z, 1003%Z, (fun _ => 1004%Z), (fun m => m).
  eexists. eexists. cbv zeta. cbn [app].
  assert (K : kv_ok retry_key retry_value) by (apply retry_ok; cbn; auto).
  split; [|split; [reflexivity|split; [left; reflexivity|split; [vm_compute; reflexivity|split; [vm_compute; reflexivity|split; vm_compute; reflexivity]]]]].
  apply (history_cons2 _ _ _ 1000 1001 1002 1003); try lia; cbn [call_ok].
  - split; [lia|]. split; [exact K|]. lia.
  - split; apply K.
  - split; [lia|]. split; [exact K|]. lia.
Qed.
Print Assumptions C175_deleted_refuted.

(** Another client writes a newer value in between; the repetition puts the old one back. *)
Theorem C175_newer_refuted : exists t1 k v v' h2 t2 t3 tick ord m m',
  let h := CInsert t1 k v 0 :: h2 in
  history t1 (h ++ [CInsert t2 k v 0]) t3 /\ (forall m, Permutation (ord m) m) /\ v <> v' /\
  run_calls [] h = Ok m /\ run_calls [] (h ++ [CInsert t2 k v 0]) = Ok m' /\
  listed tick ord m = [kv k v'] /\ listed tick ord m' = [kv k v].
Proof.
  exists 1000%Z, retry_key, retry_value, retry_newer, [CInsert 1001 retry_key retry_newer 0], 1002%Z, 1003%Z, (fun _ => 1004%Z), (fun m => m).
  eexists. eexists. cbv zeta. cbn [app].
  assert (K : kv_ok retry_key retry_value) by (apply retry_ok; cbn; auto).
  assert (K' : kv_ok retry_key retry_newer) by (apply retry_ok; cbn; auto).
  split; [|split; [reflexivity|split; [discriminate|split; [vm_compute; reflexivity|split; [vm_compute; reflexivity|split; vm_compute; reflexivity]]]]].
  apply (history_cons2 _ _ _ 1000 1001 1002 1003); try lia; cbn [call_ok].
  - split; [lia|]. split; [exact K|]. lia.
  - split; [lia|]. split; [exact K'|]. lia.
  - split; [lia|]. split; [exact K|]. lia.
Qed.
Print Assumptions C175_newer_refuted.

(** The hypotheses of the first theorem, with another client at work in between; a datum for
    20 seconds, repeated after 15: it would be gone at 1025, and is listed then. *)
Example C175_instance : exists m m',
  let h := [CInsert 1000 retry_key retry_value 20; CInsert 1010 retry_other retry_newer 0] in
  let tick := fun _ : bytes => 1025%Z in
  history 1000 (h ++ [CInsert 1015 retry_key retry_value 20]) 1016 /\ leaves retry_key [CInsert 1010 retry_other retry_newer 0] /\
  run_calls [] h = Ok m /\ run_calls [] (h ++ [CInsert 1015 retry_key retry_value 20]) = Ok m' /\
  listed tick (fun m => m) m = [kv retry_other retry_newer] /\
  (tick (wire_key retry_key) + 9 < 1015 + 20)%Z /\
  In (kv retry_key retry_value) (listed tick (fun m => m) m') /\ length (listed tick (fun m => m) m') = 2%nat.
Proof.
  eexists. eexists. cbv zeta. cbn [app].
  assert (K : kv_ok retry_key retry_value) by (apply retry_ok; cbn; auto).
  assert (K' : kv_ok retry_other retry_newer) by (apply retry_ok; cbn; auto).
  split; [|split; [|split; [vm_compute; reflexivity|split; [vm_compute; reflexivity|split; [vm_compute; reflexivity|split; [lia|split; [|vm_compute; reflexivity]]]]]]].
  - apply (history_cons2 _ _ _ 1000 1005 1012 1016); try lia; cbn [call_ok].
    + split; [lia|]. split; [exact K|]. lia.
    + split; [lia|]. split; [exact K'|]. lia.
    + split; [lia|]. split; [exact K|]. lia.
  - repeat constructor. discriminate.
  - vm_compute. tauto.
Qed.

(** The same datum without time to live: the repetition changes nothing. *)
Example C175_instance_same : exists m,
  run_calls [] [CInsert 1000 retry_key retry_value 0; CInsert 1010 retry_other retry_newer 0] = Ok m /\
  run_calls [] [CInsert 1000 retry_key retry_value 0; CInsert 1010 retry_other retry_newer 0; CInsert 5000 retry_key retry_value 0] = Ok m /\
  length m = 2%nat.
Proof. eexists. split; [vm_compute; reflexivity|]. split; vm_compute; reflexivity. Qed.

(** Repeating a delete removes what another client inserted in between. *)
Theorem C175_delete_refuted : exists t0 k v h2 t3 tick ord m m',
  let h := CDelete k :: h2 in
  history t0 (h ++ [CDelete k]) t3 /\ (forall m, Permutation (ord m) m) /\
  run_calls [] h = Ok m /\ run_calls [] (h ++ [CDelete k]) = Ok m' /\
  listed tick ord m = [kv k v] /\ listed tick ord m' = [].
Proof.
  exists 1000%Z, retry_key, retry_newer, [CInsert 1001 retry_key retry_newer 0], 1003%Z, (fun _ => 1004%Z), (fun m => m).
  eexists. eexists. cbv zeta. cbn [app].
  assert (K : kv_ok retry_key retry_newer) by (apply retry_ok; cbn; auto).
  split; [|split; [reflexivity|split; [vm_compute; reflexivity|split; [vm_compute; reflexivity|split; vm_compute; reflexivity]]]].
  apply (history_cons2 _ _ _ 1000 1001 1002 1003); try lia; cbn [call_ok].
  - split; apply K.
  - split; [lia|]. split; [exact K|]. lia.
  - split; apply K.
Qed.
Print Assumptions C175_delete_refuted.

(** The hypotheses of the theorem about deletes. *)
Example C175_instance_delete : exists m,
  let h := [CInsert 1000 retry_key retry_value 0] ++ CDelete retry_key :: [CInsert 1010 retry_other retry_newer 0] in
  history 1000 (h ++ [CDelete retry_key]) 1016 /\ leaves retry_key [CInsert 1010 retry_other retry_newer 0] /\
  run_calls [] h = Ok m /\ run_calls [] (h ++ [CDelete retry_key]) = Ok m /\ length m = 1%nat.
Proof.
  eexists. cbv zeta. cbn [app].
  assert (K : kv_ok retry_key retry_value) by (apply retry_ok; cbn; auto).
  assert (K' : kv_ok retry_other retry_newer) by (apply retry_ok; cbn; auto).
  split; [|split; [repeat constructor; discriminate|split; [vm_compute; reflexivity|split; vm_compute; reflexivity]]].
  apply (h_snoc 1000 [CInsert 1000 retry_key retry_value 0; CDelete retry_key; CInsert 1010 retry_other retry_newer 0] 1015); [|lia|split; apply K].
  apply (history_cons2 _ _ _ 1000 1005 1008 1015); try lia; cbn [call_ok].
  - split; [lia|]. split; [exact K|]. lia.
  - split; apply K.
  - split; [lia|]. split; [exact K'|]. lia.
Qed.
