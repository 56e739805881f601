(** Properties C07-C11: the key/value store of a dataset. *)
From Verif.Base Require Import GoBase GoLemmas Assoc.
From Verif.Model Require Import Codec Store.
From Verif.Spec Require Import Wire StoreSpec.
From Verif.Proof Require Import CodecP CodecTop StoreP StoreQ.
Open Scope N_scope.

(** Concrete data for the instances. *)
Definition ka : DatumKey := mkKey [1065353216] (bs "g") 1 1 1 1.
Definition kb : DatumKey := mkKey [0; 1065353216] (bs "h") 1 1 2 1.
Definition va : DatumValue := mkValue 1 (bs "red").
Definition vb : DatumValue := mkValue 2 (bs "blue").

Lemma kva_ok : kv_ok ka va /\ kv_ok ka vb /\ kv_ok kb va.
Proof.
  unfold kv_ok, key_ok, value_ok, is_bytes, is_u32, is_u64, is_byte, M8, M32, M64.
  repeat split; repeat constructor; vm_compute; congruence.
Qed.

(** C07 The store is a last-writer-wins map: after any history of calls (clock
    monotone, Unix times of at least 10 s, expiry times that fit in an int64),
    a further scan yields each key at most once, only the value of the latest
    insert of that key, nothing for keys deleted since (or never inserted), and
    every key whose latest insert had no TTL. *)
Theorem C07_last_writer_wins : forall t0 h t1 t2 tick ord,
  (10 <= t0)%Z -> history t0 h t1 ->
  (forall b, (t1 <= tick b <= t2)%Z) -> (forall m, Permutation (ord m) m) ->
  exists m ys, run_calls [] h = Ok m /\ ys = snd (StreamAll tick (ord m) m) /\
    NoDup (map dkey ys) /\
    (forall d, In d ys -> exists k v t ttl, d = kv k v /\ latest h k = Some (t, v, ttl)) /\
    (forall k v, latest h k = None -> ~ In (kv k v) ys) /\
    (forall k v t, key_ok k -> key_fits k -> latest h k = Some (t, v, 0) -> In (kv k v) ys).
Proof.
  intros t0 h t1 t2 tick ord H10 Hh Htick Hord.
  destruct (scan_after_history t0 h t1 t2 tick ord H10 Hh Htick Hord)
    as (m & ys & R & Y & ND & A & B).
  exists m, ys. split; [auto|]. split; [auto|]. split; [auto|]. split; [|split].
  - intros d Hd. destruct (A d Hd) as (k & v & t & ttl & E & _ & L & _). eauto 6.
  - intros k v L Hd. destruct (A _ Hd) as (k' & v' & t & ttl & E & _ & L' & _).
    injection E as -> ->. congruence.
  - intros k v t K1 K2 L. eapply B; eauto.
Qed.
Print Assumptions C07_last_writer_wins.

(** An instance: insert, overwrite, insert another key, delete it, scan. *)
Definition h_ex : list call :=
  [CInsert 100 ka va 0; CInsert 101 ka vb 0; CInsert 102 kb va 50; CDelete kb].

Example C07_instance : history 100 h_ex 102 /\
  exists m, run_calls [] h_ex = Ok m /\
    snd (StreamAll (fun _ => 103%Z) m m) = [kv ka vb].
Proof.
  destruct kva_ok as (A & B & C). split.
  - unfold h_ex.
    apply (h_snoc 100 [CInsert 100 ka va 0; CInsert 101 ka vb 0; CInsert 102 kb va 50] 102);
      [|lia|split; [apply C|split; vm_compute; congruence]].
    apply (h_snoc 100 [CInsert 100 ka va 0; CInsert 101 ka vb 0] 101);
      [|lia|cbn; split; [lia|split; [apply C|lia]]].
    apply (h_snoc 100 [CInsert 100 ka va 0] 100); [|lia|cbn; split; [lia|split; [apply B|lia]]].
    apply (h_snoc 100 [] 100); [constructor|lia|cbn; split; [lia|split; [apply A|lia]]].
  - eexists. split; [vm_compute; reflexivity|]. vm_compute. reflexivity.
Qed.

(** A missing insert configuration means TTL 0. *)
Remark nil_config_is_ttl0 : forall now m d,
  InsertBDMap now m d None = InsertBDMap now m d (Some (mkInsertConfig 0 0)).
Proof. reflexivity. Qed.

(** C08 Operations on one key never affect another: for every store content (no
    hypothesis on the content), other keys keep exactly their entry. *)
Theorem C08_frame_insert : forall now m k v config m' fresh k',
  key_ok k -> key_ok k' -> key_fits k -> key_fits k' -> k <> k' ->
  InsertBDMap now m (Some (mkDatum (Some k) v)) config = Ok (m', fresh) ->
  mload m' (wire_key k') = mload m (wire_key k').
Proof.
  intros now m k v config m' fresh k' O1 O2 F1 F2 Hne H.
  unfold InsertBDMap, GetKeyAsBytes in H. cbn [dkey] in H.
  rewrite MarshalKey_spec in H by auto. cbn [bind] in H. unfold EncodeToString in H.
  match type of H with bind ?e _ = _ => destruct e as [b| |]; cbn [bind] in H; try discriminate end.
  destruct b; injection H as <- <-; auto.
  apply mload_mstore_other. intro C. apply Hne.
  destruct (wire_key_prefix_free k k' [] [] O1 O2 F1 F2); auto. rewrite !app_nil_r. auto.
Qed.
Print Assumptions C08_frame_insert.

Theorem C08_frame_delete : forall m k v m' k',
  key_ok k -> key_ok k' -> key_fits k -> key_fits k' -> k <> k' ->
  DeleteBDMap m (Some (mkDatum (Some k) v)) = Ok m' ->
  mload m' (wire_key k') = mload m (wire_key k') /\ mload m' (wire_key k) = None.
Proof.
  intros m k v m' k' O1 O2 F1 F2 Hne H. rewrite delete_spec in H by auto.
  injection H as <-. split; [|apply mload_mdelete_same].
  apply mload_mdelete_other. intro C. apply Hne.
  destruct (wire_key_prefix_free k k' [] [] O1 O2 F1 F2); auto. rewrite !app_nil_r. auto.
Qed.
Print Assumptions C08_frame_delete.

(** A scan changes only entries that have expired. *)
Theorem C08_frame_scan : forall tick order m b,
  mwf m -> Permutation order m ->
  mload (fst (StreamAll tick order m)) b =
    match mload m b with
    | Some e => if (negb (Z.eqb (exprireAt e) 0) && Z.leb (exprireAt e) (tick b))%bool
                then None else Some e
    | None => None
    end.
Proof. intros. exact (scan_load tick order m b H H0). Qed.
Print Assumptions C08_frame_scan.

Example C08_instance :
  exists m1 m2, run_calls [] [CInsert 100 kb va 50; CInsert 101 ka va 7] = Ok m1 /\
    InsertBDMap 102 m1 (Some (kv ka vb)) None = Ok (m2, true) /\
    mload m2 (wire_key kb) = Some (mkEntry 150 (kv kb va)).
Proof.
  eexists. eexists. split; [vm_compute; reflexivity|].
  split; [vm_compute; reflexivity|]. vm_compute. reflexivity.
Qed.

(** Deleting one key and a scan at 108, when the other has expired. *)
Example C08_instance_others :
  exists m, run_calls [] [CInsert 100 kb va 50; CInsert 101 ka va 7] = Ok m /\ mwf m /\ ka <> kb /\
    (exists m', DeleteBDMap m (Some (mkDatum (Some kb) None)) = Ok m' /\
       mload m' (wire_key ka) = Some (mkEntry 108 (kv ka va)) /\ mload m' (wire_key kb) = None) /\
    mload (fst (StreamAll (fun _ => 108%Z) (rev m) m)) (wire_key ka) = None /\
    mload (fst (StreamAll (fun _ => 108%Z) (rev m) m)) (wire_key kb) = Some (mkEntry 150 (kv kb va)).
Proof.
  eexists. split; [vm_compute; reflexivity|]. split.
  { unfold mwf. cbn. repeat constructor; cbn; intuition discriminate. }
  split; [discriminate|]. split; [|split; vm_compute; reflexivity].
  eexists. split; [vm_compute; reflexivity|]. split; vm_compute; reflexivity.
Qed.

(** C09 Expired data is never returned, and unexpired data is neither dropped
    nor returned twice: for every store content and every iteration order, the
    data yielded are exactly (as a multiset) those of the unexpired entries. *)
Theorem C09_no_expired : forall tick order m,
  mwf m -> Permutation order m ->
  Permutation (snd (StreamAll tick order m))
    (map (fun p => edatum (snd p))
       (filter (fun p => Z.eqb (exprireAt (snd p)) 0 || Z.ltb (tick (fst p)) (exprireAt (snd p)))%bool m)) /\
  (forall b e, mload (fst (StreamAll tick order m)) b = Some e ->
     exprireAt e = 0%Z \/ (tick b < exprireAt e)%Z).
Proof.
  intros tick order m W P. split.
  - rewrite StreamAll_spec. cbn [snd]. apply Permutation_map.
    assert (E : forall p, live tick p =
       (Z.eqb (exprireAt (snd p)) 0 || Z.ltb (tick (fst p)) (exprireAt (snd p)))%bool).
    { intro p. unfold live, dead, expired. rewrite negb_andb, negb_involutive.
      rewrite Z.ltb_antisym. reflexivity. }
    rewrite (filter_ext _ _ E). apply perm_filter. exact P.
  - intros b e L. rewrite scan_load in L by auto.
    destruct (mload m b) as [e'|]; [|discriminate].
    destruct (expired (tick b) e') eqn:X; [discriminate|]. injection L as <-.
    unfold expired in X. apply andb_false_iff in X. destruct X as [X|X].
    + left. apply negb_false_iff, Z.eqb_eq in X. auto.
    + right. apply Z.leb_gt in X. auto.
Qed.
Print Assumptions C09_no_expired.

Example C09_instance :
  exists m, run_calls [] [CInsert 100 kb va 50; CInsert 101 ka va 7] = Ok m /\
    StreamAll (fun _ => 108%Z) (rev m) m = ([(wire_key kb, mkEntry 150 (kv kb va))], [kv kb va]) /\
    snd (StreamAll (fun _ => 107%Z) (rev m) m) = [kv kb va; kv ka va].
Proof. eexists. split; [vm_compute; reflexivity|]. vm_compute. split; reflexivity. Qed.

(** C10 A datum lives for its TTL, up to nine seconds: for every history whose
    latest insert of k was at t with TTL ttl > 0, a scan during [t1, t2] yields
    it if t2 < t+ttl-9 and does not if t1 >= t+ttl+9.  What is missing is the
    exact window; it is refuted below. *)
Theorem C10_ttl_window_partial : forall t0 h t1 t2 tick ord k v t ttl,
  (10 <= t0)%Z -> history t0 h t1 ->
  (forall b, (t1 <= tick b <= t2)%Z) -> (forall m, Permutation (ord m) m) ->
  key_ok k -> key_fits k -> latest h k = Some (t, v, ttl) -> ttl <> 0 ->
  exists m ys, run_calls [] h = Ok m /\ ys = snd (StreamAll tick (ord m) m) /\
    ((t2 < t + Z.of_N ttl - 9)%Z -> In (kv k v) ys) /\
    ((t + Z.of_N ttl + 9 <= t1)%Z -> forall v', ~ In (kv k v') ys).
Proof.
  intros t0 h t1 t2 tick ord k v t ttl H10 Hh Htick Hord K1 K2 La Z0.
  destruct (scan_after_history t0 h t1 t2 tick ord H10 Hh Htick Hord)
    as (m & ys & R & Y & ND & A & B).
  exists m, ys. split; [auto|]. split; [auto|]. split.
  - intro Hv. eapply B; eauto.
  - intros Ht v' Hd. destruct (A _ Hd) as (k' & v'' & t' & ttl' & E & _ & L' & Hx).
    injection E as -> ->. rewrite La in L'. injection L' as <- <- <-.
    specialize (Hx Z0). lia.
Qed.
Print Assumptions C10_ttl_window_partial.

(** Without an earlier entry for the key the window is exact. *)
Theorem C10_fresh_ttl_exact_partial : forall now m k v ttl c t,
  kv_ok k v -> mload m (wire_key k) = None -> mwf m ->
  (10 <= now)%Z -> (now + Z.of_N ttl < 9223372036854775808)%Z -> ttl <> 0 ->
  exists m', InsertBDMap now m (Some (kv k v)) (Some (mkInsertConfig ttl c)) = Ok (m', true) /\
    (In (kv k v) (snd (StreamAll (fun _ => t) m' m')) <->
     ((t < now + Z.of_N ttl)%Z \/
      exists b e, b <> wire_key k /\ mload m b = Some e /\ edatum e = kv k v /\
                  expired t e = false)).
Proof.
  intros now m k v ttl c t Hkv L W Hn Hmax Z0.
  destruct (insert_spec now m k v (Some (mkInsertConfig ttl c)) Hkv) as (m' & fresh & E & R).
  { intros e C. congruence. }
  destruct fresh.
  2:{ destruct R as (_ & e & C & _). congruence. }
  exists m'. split; [auto|]. subst m'.
  assert (Hexp : expireAtOf now (Some (mkInsertConfig ttl c)) = (now + Z.of_N ttl)%Z).
  { pose proof (expireAt_small now ttl Hn Hmax) as X. unfold expireAtOf in *. cbn [TTL] in *.
    rewrite X. assert (E0 : (ttl =? 0) = false) by (apply N.eqb_neq; auto). rewrite E0. reflexivity. }
  rewrite scan_yield by (auto using mstore_wf). rewrite Hexp. split.
  - intros (b & e & Lb & X & Ed). rewrite mload_mstore in Lb.
    destruct (bytes_eqb (wire_key k) b) eqn:Eb.
    + injection Lb as <-. left. unfold expired in X. cbn [exprireAt] in X.
      apply andb_false_iff in X. destruct X as [X|X].
      * apply negb_false_iff, Z.eqb_eq in X. lia.
      * apply Z.leb_gt in X. lia.
    + right. exists b, e. apply bytes_eqb_neq in Eb. repeat split; auto.
  - intros [Ht|(b & e & Hb & Lb & Ed & X)].
    + exists (wire_key k), (mkEntry (now + Z.of_N ttl) (kv k v)).
      rewrite mload_mstore_same. repeat split; auto. unfold expired. cbn [exprireAt].
      apply andb_false_iff. right. apply Z.leb_gt. lia.
    + exists b, e. rewrite mload_mstore_other by auto. auto.
Qed.
Print Assumptions C10_fresh_ttl_exact_partial.

(** C10 refuted: a TTL-5 insert at 106 is acknowledged although it is dropped
    (the expired entry of 100 is still there and "close enough"), so the datum
    is invisible at 107, four seconds before its TTL ends. *)
Definition h_short : list call := [CInsert 100 ka va 5; CInsert 106 ka va 5].

Theorem C10_ttl_exact_refuted :
  exists h t1 k v t ttl, history 100 h t1 /\ latest h k = Some (t, v, ttl) /\
    exists m, run_calls [] h = Ok m /\
      (t <= 107 < t + Z.of_N ttl)%Z /\
      ~ In (kv k v) (snd (StreamAll (fun _ => 107%Z) m m)).
Proof.
  exists h_short, 106%Z, ka, va, 106%Z, 5. destruct kva_ok as (A & B & C).
  split; [|split; [vm_compute; reflexivity|]].
  - apply (h_snoc 100 [CInsert 100 ka va 5] 100); [|lia|cbn; split; [lia|split; [apply A|lia]]].
    apply (h_snoc 100 [] 100); [constructor|lia|cbn; split; [lia|split; [apply A|lia]]].
  - eexists. split; [vm_compute; reflexivity|]. split; [lia|].
    vm_compute. auto.
Qed.
Print Assumptions C10_ttl_exact_refuted.

(** An instance of the hypotheses of C10_ttl_window_partial with both
    conclusions active. *)
Example C10_instance :
  latest h_ex ka = Some (101%Z, vb, 0) /\
  exists m, run_calls [] [CInsert 100 ka va 50; CInsert 108 ka va 50] = Ok m /\
    latest [CInsert 100 ka va 50; CInsert 108 ka va 50] ka = Some (108%Z, va, 50) /\
    In (kv ka va) (snd (StreamAll (fun _ => 148%Z) m m)) /\
    ~ In (kv ka va) (snd (StreamAll (fun _ => 167%Z) m m)).
Proof.
  split; [vm_compute; reflexivity|]. eexists. split; [vm_compute; reflexivity|].
  split; [vm_compute; reflexivity|]. split; vm_compute; auto.
Qed.

(** An insert into a store that holds another key. *)
Example C10_instance_fresh : exists m m',
  run_calls [] [CInsert 100 kb va 50] = Ok m /\ kv_ok ka va /\ mload m (wire_key ka) = None /\
  InsertBDMap 102 m (Some (kv ka va)) (Some (mkInsertConfig 5 0)) = Ok (m', true) /\
  In (kv ka va) (snd (StreamAll (fun _ => 106%Z) m' m')) /\
  ~ In (kv ka va) (snd (StreamAll (fun _ => 107%Z) m' m')).
Proof.
  eexists. eexists. split; [vm_compute; reflexivity|]. split; [apply kva_ok|].
  split; [vm_compute; reflexivity|]. split; [vm_compute; reflexivity|].
  split; vm_compute; [auto|]. intros [H|[]]. discriminate.
Qed.

(** C11 refuted: TTL 2^63 makes the datum vanish at once, TTL 100 does not. *)
Theorem C11_ttl_monotone_refuted :
  exists now ttl1 ttl2 t m1 m2, is_u64 ttl1 /\ is_u64 ttl2 /\ ttl1 < ttl2 /\
    InsertBDMap now [] (Some (kv ka va)) (Some (mkInsertConfig ttl1 0)) = Ok (m1, true) /\
    InsertBDMap now [] (Some (kv ka va)) (Some (mkInsertConfig ttl2 0)) = Ok (m2, true) /\
    In (kv ka va) (snd (StreamAll (fun _ => t) m1 m1)) /\
    ~ In (kv ka va) (snd (StreamAll (fun _ => t) m2 m2)).
Proof.
  exists 1700000000%Z, 100, 9223372036854775808, 1700000000%Z. eexists. eexists.
  split; [reflexivity|]. split; [reflexivity|]. split; [reflexivity|].
  split; [vm_compute; reflexivity|]. split; [vm_compute; reflexivity|].
  split; vm_compute; auto.
Qed.
Print Assumptions C11_ttl_monotone_refuted.
