(** C123: exactly what a store holds after any calls. *)
From Verif.Base Require Import GoBase GoLemmas Assoc.
From Verif.Model Require Import Codec Store.
From Verif.Spec Require Import Wire StoreSpec RenewSpec.
From Verif.Proof Require Import CodecP CodecTop StoreP StoreQ.
Open Scope Z_scope.

Lemma deadline_model : forall t ttl,
  expireAtOf t (Some (mkInsertConfig ttl 0)) = deadline t ttl.
Proof.
  intros t ttl. unfold expireAtOf, deadline. cbn [TTL].
  destruct (N.eq_dec ttl 0) as [->|N]; [reflexivity|].
  apply N.eqb_neq in N. rewrite N.
  unfold i64_of_u64, i64, seconds.
  change (2 ^ 63) with 9223372036854775808. change (2 ^ 64) with 18446744073709551616.
  replace (t + ((Z.of_N ttl + 9223372036854775808) mod 18446744073709551616 -
                9223372036854775808) + 9223372036854775808)
    with (t + (Z.of_N ttl + 9223372036854775808) mod 18446744073709551616) by lia.
  rewrite Zplus_mod_idemp_r. f_equal. f_equal. lia.
Qed.

Lemma near_model : forall a b, CloseEnough a b = true <-> near a b.
Proof.
  intros a b. unfold CloseEnough, near. change (seconds (a - b)) with (i64 (a - b)). cbv zeta.
  rewrite andb_true_iff, !Z.ltb_lt. tauto.
Qed.

Lemma lasts_model : forall n e, expired n e = false <-> lasts n (exprireAt e).
Proof.
  intros n e. unfold expired, lasts. destruct (Z.eqb_spec (exprireAt e) 0) as [E|E].
  - cbn [negb andb]. tauto.
  - cbn [negb andb]. rewrite Z.leb_gt. tauto.
Qed.

(** The entry the store keeps for a holding. *)
Definition stored (k : DatumKey) (s : holding) : option entry :=
  match s with Some (v, d) => Some (mkEntry d (kv k v)) | None => None end.

Definition good (m : dbmap) (f : DatumKey -> holding) : Prop :=
  mwf m /\
  (forall b e, mload m b = Some e -> exists k v, kv_ok k v /\ b = wire_key k /\ edatum e = kv k v) /\
  (forall k, key_ok k -> key_fits k -> mload m (wire_key k) = stored k (f k)).

Lemma wire_key_neq : forall k k', key_ok k -> key_fits k -> key_ok k' -> key_fits k' ->
  k <> k' -> wire_key k <> wire_key k'.
Proof.
  intros k k' A B C D N E. apply N.
  destruct (wire_key_prefix_free k k' [] [] A C B D); auto. rewrite !app_nil_r. auto.
Qed.

Lemma good_load : forall m f k e, good m f -> key_ok k -> key_fits k ->
  mload m (wire_key k) = Some e ->
  exists v d, f k = Some (v, d) /\ kv_ok k v /\ e = mkEntry d (kv k v).
Proof.
  intros m f k e (W & S & L) K1 K2 E.
  pose proof (L k K1 K2) as Lk. rewrite E in Lk. unfold stored in Lk.
  destruct (f k) as [[v d]|]; [|discriminate]. injection Lk as ->.
  destruct (S _ _ E) as (k' & v' & O & Q & D). cbn [edatum] in D.
  injection D as -> ->. exists v', d. auto.
Qed.

Lemma step_good : forall m f c, good m f -> call_fits c ->
  exists m', run_call m c = Ok m' /\ good m' (fun k => after k c (f k)).
Proof.
  intros m f c G C. destruct c as [t k v ttl|k|tick ord]; cbn [run_call call_fits after] in *.
  - pose proof C as (K1 & K2 & V1 & V2).
    destruct (insert_spec t m k v (Some (mkInsertConfig ttl 0)) C) as (m' & fresh & E & R).
    { intros e Le. destruct (good_load m f k e G K1 K2 Le) as (v' & d' & _ & O & ->).
      exists v'. auto. }
    fold (kv k v). rewrite E. cbn [bind]. exists m'. split; [reflexivity|].
    rewrite deadline_model in R. pose proof G as (W & S & L).
    destruct fresh.
    + subst m'. split; [apply mstore_wf; auto|]. split.
      * intros b e Lb. rewrite mload_mstore in Lb.
        destruct (bytes_eqb (wire_key k) b) eqn:Q.
        { injection Lb as <-. apply bytes_eqb_spec in Q. exists k, v. auto. }
        { apply S. auto. }
      * intros k' A B. rewrite mload_mstore.
        destruct (DatumKey_eq_dec k k') as [<-|N].
        { rewrite bytes_eqb_refl. pose proof (L k K1 K2) as Lk.
          destruct (f k) as [[v' d']|]; cbn [stored] in *; auto.
          destruct (DatumValue_eq_dec v v') as [<-|]; auto.
          destruct (near_dec (deadline t ttl) d') as [Nr|]; auto.
          exfalso. apply near_model in Nr.
          unfold InsertBDMap, GetKeyAsBytes, GetValueAsBytes in E. cbn [dkey dvalue kv] in E.
          rewrite MarshalKey_spec in E by auto. cbn [bind] in E. unfold EncodeToString in E.
          rewrite Lk in E. cbn [dvalue kv edatum] in E.
          rewrite !MarshalValue_spec in E by auto. cbn [bind] in E.
          rewrite bytes_eqb_refl, deadline_model in E. cbn [exprireAt] in E. rewrite Nr in E.
          cbn [andb negb bind] in E. discriminate. }
        { destruct (bytes_eqb (wire_key k) (wire_key k')) eqn:Q; [|auto].
          apply bytes_eqb_spec in Q. exfalso.
          apply (wire_key_neq k k'); auto. }
    + destruct R as (-> & e & Le & De & Ce). split; [auto|]. split; [auto|].
      intros k' A B. destruct (DatumKey_eq_dec k k') as [<-|N]; [|auto].
      destruct (good_load m f k e G K1 K2 Le) as (v' & d' & F & O & ->).
      cbn [edatum exprireAt] in *. injection De as ->. rewrite F.
      destruct (DatumValue_eq_dec v v) as [_|X]; [|contradiction].
      apply near_model in Ce.
      destruct (near_dec (deadline t ttl) d') as [_|X]; [|contradiction]. exact Le.
  - destruct C as [K1 K2]. rewrite delete_spec by auto. eexists. split; [reflexivity|].
    destruct G as (W & S & L). split; [apply mdelete_wf; auto|]. split.
    + intros b e Lb. rewrite mload_mdelete in Lb.
      destruct (bytes_eqb (wire_key k) b); [discriminate|]. apply S. auto.
    + intros k' A B. rewrite mload_mdelete.
      destruct (DatumKey_eq_dec k k') as [<-|N].
      * rewrite bytes_eqb_refl. reflexivity.
      * destruct (bytes_eqb (wire_key k) (wire_key k')) eqn:Q; [|auto].
        apply bytes_eqb_spec in Q. exfalso. apply (wire_key_neq k k'); auto.
  - eexists. split; [reflexivity|]. destruct G as (W & S & L).
    split; [apply scan_wf; auto|]. split.
    + intros b e Lb. rewrite scan_load in Lb by auto.
      destruct (mload m b) as [e'|] eqn:Q; [|discriminate].
      destruct (expired (tick b) e'); [discriminate|]. injection Lb as <-. apply S. auto.
    + intros k A B. rewrite scan_load by auto. rewrite (L k A B).
      destruct (f k) as [[v d]|]; cbn [stored]; auto.
      destruct (expired (tick (wire_key k)) (mkEntry d (kv k v))) eqn:X;
        destruct (lasts_dec (tick (wire_key k)) d) as [Y|Y]; auto; exfalso.
      * assert (expired (tick (wire_key k)) (mkEntry d (kv k v)) = false)
          by (apply lasts_model; exact Y). congruence.
      * apply Y. apply lasts_model in X. exact X.
Qed.

Lemma run_good : forall h m f, good m f -> Forall call_fits h ->
  exists m', run_calls m h = Ok m' /\ good m' (fun k => afters k h (f k)).
Proof.
  induction h as [|c h IH]; intros m f G F; cbn [run_calls afters].
  - exists m. auto.
  - inversion F; subst. destruct (step_good m f c G) as (m1 & E & G1); auto.
    rewrite E. cbn [bind]. apply (IH m1 (fun k => after k c (f k))); auto.
Qed.

(** After any calls at any times, a scan yields exactly the data held according
    to the specification whose deadline is 0 or later than the moment at which
    they are visited, every one of them once. *)
Theorem C123_exact : forall h tick (ord : dbmap -> list (bytes * entry)),
  Forall call_fits h -> (forall m, Permutation (ord m) m) ->
  exists m ys, run_calls [] h = Ok m /\ snd (StreamAll tick (ord m) m) = ys /\
    NoDup (map dkey ys) /\
    (forall d, In d ys -> exists k v, d = kv k v /\ kv_ok k v) /\
    (forall k v, key_ok k -> key_fits k ->
      (In (kv k v) ys <->
       exists dl, afters k h None = Some (v, dl) /\ lasts (tick (wire_key k)) dl)).
Proof.
  intros h tick ord F P.
  destruct (run_good h [] (fun _ => None)) as (m & E & W & S & L); auto.
  { split; [constructor|]. split; [intros b e X; discriminate|auto]. }
  exists m, (snd (StreamAll tick (ord m) m)). split; [auto|]. split; [auto|].
  assert (Y : forall d, In d (snd (StreamAll tick (ord m) m)) <->
     exists b e, mload m b = Some e /\ expired (tick b) e = false /\ edatum e = d)
    by (intros d; apply scan_yield; auto).
  split; [|split].
  - rewrite StreamAll_spec. cbn [snd]. rewrite map_map.
    assert (Wo : mwf (ord m)) by (eapply perm_wf; [eauto|apply Permutation_sym; auto]).
    apply NoDup_map_inj_on; [|apply filter_NoDup, mwf_NoDup; auto].
    intros [b e] [b' e'] Hp Hq Q. apply filter_In in Hp, Hq.
    destruct Hp as [Hp _], Hq as [Hq _]. cbn [snd] in Q.
    assert (Lb : mload m b = Some e) by (apply in_mload; [auto|]; eapply Permutation_in; eauto).
    assert (Lb' : mload m b' = Some e') by (apply in_mload; [auto|]; eapply Permutation_in; eauto).
    destruct (S _ _ Lb) as (k & v & _ & -> & De).
    destruct (S _ _ Lb') as (k' & v' & _ & -> & De').
    rewrite De, De' in Q. cbn in Q. injection Q as ->. congruence.
  - intros d Hd. apply Y in Hd. destruct Hd as (b & e & Lb & _ & <-).
    destruct (S _ _ Lb) as (k & v & O & _ & D). exists k, v. auto.
  - intros k v K1 K2. rewrite Y. split.
    + intros (b & e & Lb & X & D). destruct (S _ _ Lb) as (k' & v' & O & -> & D').
      rewrite D in D'. injection D' as <- <-.
      rewrite (L k K1 K2) in Lb. destruct (afters k h None) as [[v0 dl]|]; [|discriminate].
      cbn [stored] in Lb. injection Lb as <-. cbn [edatum] in D. injection D as ->.
      exists dl. split; [auto|]. apply lasts_model in X. exact X.
    + intros (dl & A & X). exists (wire_key k), (mkEntry dl (kv k v)).
      rewrite (L k K1 K2), A. split; [reflexivity|]. split; [|reflexivity].
      apply lasts_model. exact X.
Qed.
Print Assumptions C123_exact.

(** The exact effect of repeating an insert: after any calls, inserting (k, v)
    and looking at once shows (k, v) until the new deadline, unless (k, v) was
    held with a deadline less than ten seconds away from the new one; then it
    shows it until the old deadline, which may have passed already. *)
Theorem C123_renewed : forall h t k v ttl tick (ord : dbmap -> list (bytes * entry)),
  Forall call_fits h -> kv_ok k v -> (forall m, Permutation (ord m) m) ->
  exists m, run_calls [] (h ++ [CInsert t k v ttl]) = Ok m /\
    exists dl,
     (In (kv k v) (snd (StreamAll tick (ord m) m)) <-> lasts (tick (wire_key k)) dl) /\
     ((afters k h None = Some (v, dl) /\ near (deadline t ttl) dl) \/
      (dl = deadline t ttl /\
       forall dl', afters k h None = Some (v, dl') -> ~ near (deadline t ttl) dl')).
Proof.
  intros h t k v ttl tick ord F O P.
  destruct (C123_exact (h ++ [CInsert t k v ttl]) tick ord) as (m & ys & E & Q & _ & _ & X); auto.
  { apply Forall_app. split; [auto|]. constructor; [exact O|constructor]. }
  exists m. split; [auto|]. pose proof O as (K1 & K2 & _ & _).
  specialize (X k v K1 K2).
  assert (A : afters k (h ++ [CInsert t k v ttl]) None =
              after k (CInsert t k v ttl) (afters k h None)).
  { clear. generalize (@None (DatumValue * Z)). induction h as [|c h IH]; intros s; cbn [app afters]; auto. }
  rewrite A in X. cbn [after] in X. rewrite Q.
  destruct (DatumKey_eq_dec k k) as [_|N]; [|contradiction].
  assert (NEW : forall s, s = Some (v, deadline t ttl) ->
     (In (kv k v) ys <-> exists dl, s = Some (v, dl) /\ lasts (tick (wire_key k)) dl) ->
     (In (kv k v) ys <-> lasts (tick (wire_key k)) (deadline t ttl))).
  { intros s -> Y. rewrite Y. split; [intros (dl & [= <-] & L); auto|eauto]. }
  destruct (afters k h None) as [[v' d']|].
  - destruct (DatumValue_eq_dec v v') as [<-|NV].
    + destruct (near_dec (deadline t ttl) d') as [Nr|Nr].
      * exists d'. split; [|left; auto]. rewrite X.
        split; [intros (dl & [= <-] & L); auto|eauto].
      * exists (deadline t ttl). split; [eapply NEW; [|exact X]; reflexivity|].
        right. split; [auto|]. intros dl' [= <-]. auto.
    + exists (deadline t ttl). split; [eapply NEW; [|exact X]; reflexivity|].
      right. split; [auto|]. intros dl' [= E1 E2]. congruence.
  - exists (deadline t ttl). split; [eapply NEW; [|exact X]; reflexivity|].
    right. split; [auto|]. discriminate.
Qed.
Print Assumptions C123_renewed.

(** The case the second theorem is about: a datum inserted for five seconds is
    inserted again, for five seconds, four seconds later; it is gone five
    seconds after the first insert. *)
Definition renewed_key := mkKey [1%N] [2%N] 0 0 1 0.
Definition renewed_value := mkValue 1 [7%N].

Example C123_instance :
  let h := [CInsert 1000 renewed_key renewed_value 5;
            CInsert 1004 renewed_key renewed_value 5] in
  Forall call_fits h /\ afters renewed_key h None = Some (renewed_value, 1005) /\
  ~ lasts 1005 1005.
Proof.
  cbv zeta. split; [|split].
  - assert (kv_ok renewed_key renewed_value).
    { unfold kv_ok, key_ok, key_fits, value_ok, value_fits, renewed_key, renewed_value. cbn.
      repeat split; try (repeat constructor; fail); try lia; try (intros; lia). }
    repeat constructor; try apply H.
  - reflexivity.
  - unfold lasts. lia.
Qed.
