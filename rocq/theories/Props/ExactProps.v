(** Properties C102 to C104: durations, truncated values and the clean-up exactly. *)
From Verif.Base Require Import GoBase GoLemmas Assoc Float GoSort.
From Verif.Model Require Import Codec Store Data Dataset Search QueryCache SharedConfig Annoy.
From Verif.Spec Require Import Wire RegistrySpec HousekeepingSpec AnnoySpec.
From Verif.Proof Require Import CodecP CodecTop StoreConcP DatasetP RegistryP DatasetAllP AnnoyP.
From Verif.Props Require Import CodecProps StoreProps AnnoyProps DatasetProps.
From Coq Require Import Lia Permutation.
Open Scope N_scope.

(** * C102 Durations *)

Lemma i64_wrap : forall z, (i64 z = z <-> -9223372036854775808 <= z < 9223372036854775808)%Z.
Proof.
  intro z. unfold i64. split; intro H.
  - pose proof (Z.mod_pos_bound (z + 9223372036854775808) 18446744073709551616). lia.
  - rewrite Z.mod_small by lia. lia.
Qed.
Lemma i64_cong : forall z, exists k, (i64 z = z + k * 18446744073709551616)%Z.
Proof.
  intro z. unfold i64. pose proof (Z.div_mod (z + 9223372036854775808) 18446744073709551616 ltac:(lia)).
  exists (- ((z + 9223372036854775808) / 18446744073709551616))%Z. lia.
Qed.
Lemma i64_range : forall z, (-9223372036854775808 <= i64 z < 9223372036854775808)%Z.
Proof. intro z. unfold i64. pose proof (Z.mod_pos_bound (z + 9223372036854775808) 18446744073709551616). lia. Qed.
Lemma i64_in : forall z k, (-9223372036854775808 <= z + k * 18446744073709551616 < 9223372036854775808 ->
  i64 z = z + k * 18446744073709551616)%Z.
Proof.
  intros z k H. destruct (i64_cong z) as [j E]. pose proof (i64_range z) as R. rewrite E in R. rewrite E.
  assert (j = k) by lia. subst. reflexivity.
Qed.

Lemma duration_range : forall z, (-9223372036854775808 <= duration z < 9223372036854775808)%Z.
Proof.
  intro z. unfold duration. pose proof (Z.mod_pos_bound z 18446744073709551616).
  destruct (Z.ltb_spec (z mod 18446744073709551616) 9223372036854775808); lia.
Qed.

(** A retention of r seconds is r seconds exactly up to 292 years. *)
Theorem C102_retention : forall r, 0 < r -> (GetRetention r = Z.of_N r * 1000000000)%Z <-> r <= 9223372036.
Proof.
  intros r H. split; intro Q.
  - unfold GetRetention in Q. replace (r =? 0) with false in Q by lia.
    pose proof (duration_range (duration (Z.of_N r) * 1000000000)). lia.
  - rewrite retention_ok by auto. replace (r =? 0) with false by lia. reflexivity.
Qed.
Print Assumptions C102_retention.

(** A time limit of t milliseconds is given exactly up to 292 years. *)
Theorem C102_timeout : forall t, t < M64 -> (time_limit t = Z.of_N t * 1000000)%Z <-> t <= 9223372036854.
Proof.
  intros t H. unfold time_limit. split; intro Q.
  - pose proof (i64_range (i64_of_u64 t * 1000000)). lia.
  - unfold i64_of_u64. rewrite (proj2 (i64_wrap (Z.of_N t))) by lia. apply i64_wrap. lia.
Qed.
Print Assumptions C102_timeout.

(** The same for how long an answer is kept. *)
Theorem C102_cache : forall c, (cache_duration c = Z.of_N (scCacheDuration c) * 1000000000)%Z <-> scCacheDuration c <= 9223372036.
Proof.
  intros c. unfold cache_duration, u64, M64. set (x := scCacheDuration c * 1000000000).
  pose proof (N.mod_lt x 18446744073709551616 ltac:(lia)) as B.
  assert (X : Z.of_N x = (Z.of_N (scCacheDuration c) * 1000000000)%Z) by (unfold x; lia).
  destruct (Z.ltb_spec (Z.of_N (x mod 18446744073709551616)) 9223372036854775808) as [L|L]; split; intro Q; try lia.
  all: rewrite N.mod_small in *; lia.
Qed.
Print Assumptions C102_cache.
(** Longer ones wrap around: what is used is the one 64 bit number that differs from
    the time asked for by a multiple of 2^64 nanoseconds. *)
Theorem C102_cache_wraps : forall c d, cache_duration c = d <->
  (-9223372036854775808 <= d < 9223372036854775808)%Z /\
  (exists k, d = Z.of_N (scCacheDuration c) * 1000000000 + k * 18446744073709551616)%Z.
Proof.
  intros c d. unfold cache_duration, u64, M64. set (x := scCacheDuration c * 1000000000).
  assert (X : Z.of_N x = (Z.of_N (scCacheDuration c) * 1000000000)%Z) by (unfold x; lia). rewrite <- X.
  pose proof (N.mod_lt x 18446744073709551616 ltac:(lia)) as B.
  pose proof (N.div_mod x 18446744073709551616 ltac:(lia)) as D.
  set (m := x mod 18446744073709551616) in *. set (q := x / 18446744073709551616) in *.
  destruct (Z.ltb_spec (Z.of_N m) 9223372036854775808) as [L|L]; split.
  - intros <-. split; [lia|]. exists (- Z.of_N q)%Z. lia.
  - intros (R & k & ->). lia.
  - intros <-. split; [lia|]. exists (- Z.of_N q - 1)%Z. lia.
  - intros (R & k & ->). lia.
Qed.
Print Assumptions C102_cache_wraps.
Example C102_instance_cache_wraps : forall c, scCacheDuration c = 9223372037 ->
  cache_duration c = (-9223372036709551616)%Z.
Proof. intros c H. apply C102_cache_wraps. rewrite H. split; [lia|]. exists (-1)%Z. lia. Qed.

Lemma ttl_entry : forall now ttl c t d, (0 < now)%Z -> (now <= t < 9223372036854775808)%Z -> 0 < ttl -> ttl < M64 ->
  expired t (mkEntry (expireAtOf now (Some (mkInsertConfig ttl c))) d) = false <->
  ((now + Z.of_N ttl < 9223372036854775808 /\ t < now + Z.of_N ttl) \/ now + Z.of_N ttl = 18446744073709551616)%Z.
Proof.
  intros now ttl c t d Hn Ht Hp Hm. unfold M64 in Hm. unfold expired, expireAtOf. cbn [TTL exprireAt].
  replace (ttl =? 0) with false by lia.
  assert (E : (i64 (now + i64_of_u64 ttl) = if now + Z.of_N ttl <? 9223372036854775808 then now + Z.of_N ttl
    else now + Z.of_N ttl - 18446744073709551616)%Z).
  { unfold i64_of_u64. destruct (i64_cong (Z.of_N ttl)) as [k ->].
    destruct (Z.ltb_spec (now + Z.of_N ttl) 9223372036854775808).
    - rewrite (i64_in _ (- k)) by lia. lia.
    - rewrite (i64_in _ (- k - 1)) by lia. lia. }
  rewrite E. destruct (Z.ltb_spec (now + Z.of_N ttl) 9223372036854775808) as [L|L];
    rewrite andb_false_iff, negb_false_iff, Z.eqb_eq, Z.leb_gt; lia.
Qed.

Lemma stream_one : forall t k e, snd (StreamAll (fun _ => t) [(k, e)] [(k, e)]) = if expired t e then [] else [edatum e].
Proof. intros. unfold StreamAll. cbn [LoopDBMap]. destruct (expired t e); reflexivity. Qed.

(** A TTL: the datum lives its seconds if the end is a 64-bit time; otherwise it is
    dead at once, but for the one TTL (2^64 - now) that makes it live for ever. *)
Theorem C102_ttl : forall now ttl c t k v, (0 < now)%Z -> (now <= t < 9223372036854775808)%Z -> 0 < ttl -> ttl < M64 ->
  key_ok k -> key_fits k ->
  exists m, InsertBDMap now [] (Some (mkDatum (Some k) v)) (Some (mkInsertConfig ttl c)) = Ok (m, true) /\
    (In (mkDatum (Some k) v) (snd (StreamAll (fun _ => t) m m)) <->
     ((now + Z.of_N ttl < 9223372036854775808 /\ t < now + Z.of_N ttl) \/ now + Z.of_N ttl = 18446744073709551616)%Z).
Proof.
  intros now ttl c t k v Hn Ht Hp Hm Kk Kf. unfold InsertBDMap.
  destruct (C01_key_roundtrip k v [] Kk Kf) as (b & Eb & _). rewrite Eb. cbn [bind mload].
  eexists. split; [reflexivity|]. unfold mstore. cbn [mdelete]. rewrite stream_one.
  rewrite <- (ttl_entry now ttl c t (mkDatum (Some k) v) Hn Ht Hp Hm).
  destruct (expired _ _); cbn [In edatum]; split; intro H; auto; try discriminate; try contradiction.
Qed.
Print Assumptions C102_ttl.

(** The three kinds of TTL, now and a year later. *)
Example C102_instance :
  key_ok ka /\ key_fits ka /\
  (forall ttl t, expired t (mkEntry (expireAtOf 1700000000 (Some (mkInsertConfig ttl 0))) (mkDatum (Some ka) (Some va))) = false <->
     snd (StreamAll (fun _ => t) [(bs "a", mkEntry (expireAtOf 1700000000 (Some (mkInsertConfig ttl 0))) (mkDatum (Some ka) (Some va)))]
                                 [(bs "a", mkEntry (expireAtOf 1700000000 (Some (mkInsertConfig ttl 0))) (mkDatum (Some ka) (Some va)))]) = [mkDatum (Some ka) (Some va)]) /\
  map (fun x => expired (snd x) (mkEntry (expireAtOf 1700000000 (Some (mkInsertConfig (fst x) 0))) (mkDatum (Some ka) (Some va))))
    [(100, 1700000099%Z); (100, 1700000100%Z); (9223372036854775808, 1700000000%Z);
     (18446744072009551616, 1800000000%Z); (18446744072009551617, 1700000000%Z)] = [false; true; true; false; true] /\
  GetRetention 9223372036 = 9223372036000000000%Z /\ GetRetention 9223372037 = (-9223372036709551616)%Z /\
  time_limit 9223372036854 = 9223372036854000000%Z.
Proof.
  split; [repeat constructor; vm_compute; congruence|]. split; [vm_compute; repeat split; congruence|].
  split; [|vm_compute; auto]. intros ttl t. rewrite stream_one. destruct (expired _ _); cbn; split; congruence.
Qed.

(** * C103 Truncated encodings *)

(** A value cut off after n bytes is refused (by a crash) exactly if the version and
    the length of the label are not complete; otherwise it is taken with zeros for
    what is missing. *)
Theorem C103_truncated : forall v b n, value_ok v -> value_fits v -> MarshalValue (Some v) = Ok b -> (n < length b)%nat ->
  let header := (length b - length (label v))%nat in
  (ToDatumValue (firstn n b) = Panic <-> (n < header)%nat) /\
  (forall w, ToDatumValue (firstn n b) = Ok w <->
     (header <= n)%nat /\ w = mkValue (version v) (firstn (n - header) (label v) ++ repeat 0 (length b - n))).
Proof.
  intros v b n Hv Hf E Hn. rewrite MarshalValue_spec in E by auto. injection E as <-.
  pose proof (truncated_value v n Hv Hf Hn) as T. cbv zeta in T. intro header.
  assert (L : length (wire_value v) = (8 + length (varint (blen (label v))) + length (label v))%nat).
  { unfold wire_value. rewrite !app_length, le_length. lia. }
  assert (HH : header = (8 + length (varint (blen (label v))))%nat) by (unfold header; lia).
  rewrite <- HH in T. unfold ToDatumValue. destruct (Nat.ltb_spec n header) as [C|C]; rewrite T; cbn [bind].
  - split; [split; auto|]. intro w. split; [discriminate|]. lia.
  - split; [split; [discriminate|lia]|]. intro w.
    replace (length (label v) - (n - header))%nat with (length (wire_value v) - n)%nat by lia.
    split; [intro H; injection H as <-; auto|]. intros [_ ->]. reflexivity.
Qed.
Print Assumptions C103_truncated.

(** Keys are refused at every length (C05_truncated_key_partial); a label of three
    bytes cut after the second one. *)
Example C103_instance : exists b, value_ok (mkValue 1 (bs "abc")) /\ value_fits (mkValue 1 (bs "abc")) /\
  MarshalValue (Some (mkValue 1 (bs "abc"))) = Ok b /\ length b = 12%nat /\
  ToDatumValue (firstn 8 b) = Panic /\ ToDatumValue (firstn 11 b) = Ok (mkValue 1 [97; 98; 0]).
Proof.
  eexists. split; [split; [reflexivity|repeat constructor]|]. split; [vm_compute; discriminate|].
  split; [vm_compute; reflexivity|]. vm_compute. auto.
Qed.

(** * C104 The clean-up *)

(** A dataset without data of its own, one of whose sources cannot be reached before
    one with data was found. *)
Definition blocked (info : bytes -> option N) (dt : Data) : Prop :=
  dN dt = 0 /\ exists pre id post, dSources dt = Some (pre ++ id :: post) /\ info id = None /\
    forall x, In x pre -> info x = Some 0.

Lemma any_exact : forall info ids,
  match any_source info ids with
  | Panic => exists pre id post, ids = pre ++ id :: post /\ info id = None /\ forall x, In x pre -> info x = Some 0
  | Ok true => (exists pre id post k, ids = pre ++ id :: post /\ info id = Some k /\ 0 < k /\ forall x, In x pre -> info x = Some 0)
  | Ok false => forall x, In x ids -> info x = Some 0
  | Err _ => False
  end.
Proof.
  intros info. induction ids as [|id ids IH]; cbn [any_source]; [intros x []|].
  destruct (info id) as [n|] eqn:E; [|exists [], id, ids; split; auto; split; auto; intros x []].
  destruct (N.ltb_spec 0 n) as [L|L]; [exists [], id, ids, n; split; auto; split; auto; split; auto; intros x []|].
  assert (n = 0) by lia. subst n.
  destruct (any_source info ids) as [[|]|e|].
  - destruct IH as (pre & y & post & k & -> & A & B & C). exists (id :: pre), y, post, k. split; auto. split; auto. split; auto.
    intros x [<-|X]; auto.
  - intros x [<-|X]; auto.
  - destruct IH.
  - destruct IH as (pre & y & post & -> & A & B). exists (id :: pre), y, post. split; auto. split; auto. intros x [<-|X]; auto.
Qed.

Lemma first_some : forall (info : bytes -> option N) pre id post pre' id' post',
  pre ++ id :: post = pre' ++ id' :: post' -> (forall x, In x pre -> info x = Some 0) -> (forall x, In x pre' -> info x = Some 0) ->
  info id <> Some 0 -> info id' <> Some 0 -> id = id'.
Proof.
  intros info. induction pre as [|a pre IH]; intros id post [|a' pre'] id' post' E P P' A A'; cbn in E.
  - congruence.
  - injection E as -> E. exfalso. apply A. apply P'. left; auto.
  - injection E as -> E. exfalso. apply A'. apply P. left; auto.
  - injection E as -> E. eapply IH; eauto; intros x X; [apply P|apply P']; right; auto.
Qed.

Lemma check_exact : forall info dt,
  (CheckIfActive info dt = Panic /\ blocked info dt) \/
  (CheckIfActive info dt = Ok true /\ ~ blocked info dt /\ active info dt) \/
  (CheckIfActive info dt = Ok false /\ ~ blocked info dt /\ ~ active info dt).
Proof.
  intros info dt. unfold CheckIfActive. destruct (N.ltb_spec 0 (dN dt)) as [L|L].
  { right. left. split; auto. split; [intros [H _]; lia|left; auto]. }
  destruct (dSources dt) as [ids|] eqn:S.
  - pose proof (any_exact info ids) as A. destruct (any_source info ids) as [[|]|e|].
    + right. left. split; auto. destruct A as (pre & id & post & k & -> & A1 & A2 & A3). split.
      * intros [_ (pre' & id' & post' & Q & B1 & B2)]. rewrite S in Q. injection Q as Q.
        assert (id = id') by (eapply (first_some info); eauto; rewrite ?A1, ?B1; try discriminate; intro Z; injection Z as ->; lia). congruence.
      * right. exists (pre ++ id :: post), id, k. split; auto. split; [apply in_or_app; right; left; auto|]. auto.
    + right. right. split; auto. split.
      * intros [_ (pre' & id' & post' & Q & B1 & B2)]. rewrite S in Q. injection Q as ->.
        rewrite A in B1; [discriminate|]. apply in_or_app; right; left; auto.
      * intros [H|(ids' & id & k & Q & B1 & B2 & B3)]; [lia|]. rewrite S in Q. injection Q as <-. rewrite A in B2 by auto.
        injection B2 as <-. lia.
    + destruct A.
    + left. split; auto. split; [lia|]. destruct A as (pre & id & post & -> & A). exists pre, id, post. auto.
  - right. right. split; auto. split.
    + intros [_ (pre' & id' & post' & Q & _)]. congruence.
    + intros [H|(ids' & id & k & Q & _)]; [lia|congruence].
Qed.

Section Clean.
Variable closed : Data -> Data.
Hypothesis KC : keeps_config closed.
Variable info : bytes -> option N.

Lemma scan_exact : forall items s, inv s ->
  (forall p, In p items -> mload (dsList s) (fst p) = Some (snd p)) -> NoDup (map fst items) ->
  (reload_scan closed info s items = Panic /\
     exists n i dt, In (n, i) items /\ nth_error (dsObjs s) (diObj i) = Some dt /\ blocked info dt) \/
  (exists s' l, reload_scan closed info s items = Ok (s', l) /\ inv s' /\ dsList s' = dsList s /\
     (forall n i dt, In (n, i) items -> nth_error (dsObjs s) (diObj i) = Some dt -> ~ blocked info dt /\ (In n l <-> ~ active info dt)) /\
     (forall n, In n l -> In n (map fst items))).
Proof.
  induction items as [|[n i] items IH]; intros s I Ld ND; cbn [reload_scan].
  - right. exists s, []. split; auto. split; auto. split; auto. split; [intros ? ? ? []|intros ? []].
  - assert (Ei : mload (dsList s) n = Some i) by (apply (Ld (n, i)); left; auto).
    pose proof I as [W J]. destruct (J _ _ Ei) as (dt & c & A & B & C). rewrite A. cbn in ND. inversion ND as [|? ? N1 N2]; subst.
    assert (Same : forall m j, In (m, j) items -> diObj i <> diObj j).
    { intros m j P Q. apply N1. assert (cName c = m).
      { eapply inv_inj with (i := i) (j := j) (s := s); eauto. apply (Ld (m, j)). right; auto. }
      rewrite H. apply in_map with (f := fst) in P. exact P. }
    destruct (check_exact info dt) as [[E Bl]|[(E & Bl & Ac)|(E & Bl & Ac)]]; rewrite E; cbn [bind].
    + left. split; auto. exists (cName c), i, dt. split; [left; auto|]. auto.
    + destruct (IH s I) as [[E1 (m & j & d & P1 & P2 & P3)]|(s' & l & E1 & I1 & L1 & Q & Sub)]; auto.
      { intros p P. apply Ld. right; auto. }
      { left. split; auto. exists m, j, d. split; [right; auto|]. auto. }
      right. exists s', l. split; auto. split; auto. split; auto. split.
      * intros m j d [P|P] D; [|apply (Q m j d); auto]. injection P as <- <-. rewrite A in D. injection D as <-.
        split; auto. split; [|intro; contradiction]. intro In_. exfalso. apply N1. apply Sub. auto.
      * intros m M. right. auto.
    + destruct (IH (close_obj closed s (diObj i))) as [[E1 (m & j & d & P1 & P2 & P3)]|(s' & l & E1 & I1 & L1 & Q & Sub)]; auto.
      { apply close_inv; auto. }
      { intros p P. rewrite close_list. apply Ld. right; auto. }
      { left. rewrite E1. split; auto. exists m, j, d. split; [right; auto|]. split; auto.
        rewrite close_nth in P2. destruct (Nat.eqb_spec (diObj i) (diObj j)); auto. exfalso. eapply Same; eauto. }
      right. rewrite E1. exists s', (cName c :: l). split; auto. split; auto. split; [rewrite L1; apply close_list|]. split.
      * intros m j d [P|P] D.
        -- injection P as <- <-. rewrite A in D. injection D as <-. split; auto. split; [auto|]. intros _. left; auto.
        -- destruct (Q m j d P) as [Q1 Q2].
           { rewrite close_nth. destruct (Nat.eqb_spec (diObj i) (diObj j)); auto. exfalso. eapply Same; eauto. }
           split; auto. rewrite <- Q2. cbn. split; [|auto]. intros [<-|X]; auto. exfalso. apply N1.
           apply in_map with (f := fst) in P. exact P.
      * intros m [<-|M]; [left; auto|right; auto].
Qed.

End Clean.

Lemma deletes_load : forall closed l s n, mload (dsList (fold_left (dl_delete closed) l s)) n =
  if in_dec bytes_dec n l then None else mload (dsList s) n.
Proof.
  intro closed.
  assert (D : forall s m n, mload (dsList (dl_delete closed s m)) n = if bytes_dec m n then None else mload (dsList s) n).
  { intros s m n. unfold dl_delete. destruct (mload (dsList s) m) as [i|] eqn:E.
    - cbn [dsList]. rewrite close_list, mload_mdelete. destruct (bytes_dec m n) as [<-|Q].
      + rewrite bytes_eqb_refl. reflexivity.
      + destruct (bytes_eqb m n) eqn:Q2; [apply bytes_eqb_spec in Q2; contradiction|reflexivity].
    - destruct (bytes_dec m n); congruence. }
  induction l as [|m l IH]; intros s n; cbn [fold_left]; [reflexivity|]. rewrite IH, D.
  destruct (in_dec bytes_dec n l) as [X|X], (in_dec bytes_dec n (m :: l)) as [Y|Y], (bytes_dec m n) as [Z|Z]; auto; exfalso; cbn in Y; tauto.
Qed.

(** The clean-up crashes exactly if some dataset of the node is blocked by an
    unreachable source.  Otherwise it removes exactly the datasets without data here
    and at their sources. *)
Theorem C104_cleanup : forall inc closed info now s items, keeps_config closed -> reachable inc closed s ->
  Permutation items (Items now s) ->
  (ReloadRuns closed info now s items = Panic <->
     exists n a dt, holds now s n a /\ nth_error (dsObjs s) a = Some dt /\ blocked info dt) /\
  (forall s', ReloadRuns closed info now s items = Ok s' ->
     forall u n, (exists a, holds u s' n a) <->
       (exists a, holds u s n a /\ (holds now s n a -> exists dt, nth_error (dsObjs s) a = Some dt /\ active info dt))) /\
  (forall e, ReloadRuns closed info now s items <> Err e).
Proof.
  intros inc closed info now s items K R P. pose proof (reachable_inv inc closed K s R) as I.
  assert (L : forall n i, In (n, i) items <-> mload (dsList s) n = Some i /\ item_live now i = true).
  { intros n i. split.
    - intro Q. eapply Permutation_in in Q; [|exact P]. unfold Items in Q. apply filter_In in Q. destruct Q as [Q1 Q2].
      split; auto. apply in_mload; auto. apply I.
    - intros [Q1 Q2]. eapply Permutation_in; [symmetry; exact P|]. unfold Items. apply filter_In. split; auto. apply mload_in; auto. }
  assert (ND : NoDup (map fst items)).
  { destruct (listed now s I) as [ND _]. eapply Permutation_NoDup; [symmetry; apply Permutation_map; exact P|]. exact ND. }
  assert (HL : forall n i, In (n, i) items -> holds now s n (diObj i)).
  { intros n i Q. apply L in Q. destruct Q as [Q1 Q2]. apply holds_load; auto. exists i. apply live_iff in Q2. auto. }
  assert (LH : forall n a, holds now s n a -> exists i, In (n, i) items /\ diObj i = a).
  { intros n a H. apply holds_load in H; auto. destruct H as (i & E & <- & V). exists i. split; auto. apply L. split; auto. apply live_iff; auto. }
  unfold ReloadRuns.
  destruct (scan_exact closed K info items s I) as [[E (n & i & dt & X1 & X2 & X3)]|(s1 & l & E & I1 & L1 & Q & Sub)]; auto.
  { intros [n i] H. apply L in H. apply H. }
  - rewrite E. cbn [bind]. split; [split; auto|split; discriminate]. intros _. exists n, (diObj i), dt. auto.
  - rewrite E. cbn [bind]. split; [split; [discriminate|]|split; [|discriminate]].
    + intros (n & a & dt & H & D & B). destruct (LH n a H) as (i & In_ & <-). destruct (Q n i dt In_ D) as [Q1 _]. contradiction.
    + intros s' Q'. injection Q' as <-. intros u n.
      assert (I' : inv (fold_left (dl_delete closed) l s1)).
      { apply fold_delete; auto. }
      split; intros [a H].
      * apply holds_load in H; auto. destruct H as (i & Ei & <- & V). rewrite deletes_load in Ei.
        destruct (in_dec bytes_dec n l) as [X|X]; [discriminate|]. rewrite L1 in Ei. exists (diObj i).
        split; [apply (holds_load u s n (diObj i) I); exists i; split; [exact Ei|split; [reflexivity|exact V]]|]. intro H. destruct (LH n _ H) as (j & In_ & Ej).
        pose proof In_ as In2. apply L in In2. destruct In2 as [In2 _]. rewrite Ei in In2. injection In2 as <-.
        pose proof I as [_ J]. destruct (J _ _ Ei) as (dt & c & A & _). exists dt. split; auto.
        destruct (Q n i dt In_ A) as [Q1 Q2]. destruct (check_exact info dt) as [[_ B]|[(_ & _ & B)|(_ & _ & B)]];
          [contradiction|exact B|exfalso; apply X; apply Q2; exact B].
      * destruct H as [H Ac]. apply holds_load in H; auto. destruct H as (i & Ei & <- & V). exists (diObj i).
        apply holds_load; auto. exists i. split; auto. rewrite deletes_load. destruct (in_dec bytes_dec n l) as [X|X]; [|rewrite L1; auto].
        exfalso. pose proof (Sub n X) as Sn. apply in_map_iff in Sn. destruct Sn as ([n' j] & En & In_). cbn in En. subst n'.
        pose proof In_ as In2. apply L in In2. destruct In2 as [In2 _]. rewrite Ei in In2. injection In2 as <-.
        destruct (Ac (HL n i In_)) as (dt & D & Act). destruct (Q n i dt In_ D) as [_ Q2]. apply Q2 in X. contradiction.
Qed.
Print Assumptions C104_cleanup.

(** One dataset with data at its second source, one empty; and the same with the
    first source unreachable. *)
Definition with_sources (d : Data) : Data :=
  mkData (dConfig d) (dAvg d) (dN d) (dMaxDistance d) (dHist d) (dTimestamp d) (dLastRunTimestamp d) (dDirty d)
    (Some [bs "x"; bs "y"]) (dInitialized d) (dAlive d) (dRuns d) (dDBMap d) (dRecentInsertCount d).
Definition clean_events : list devent :=
  [EvCreate 0 (cfg (bs "a") 1); EvData 0 with_sources; EvCreate 0 (cfg (bs "b") 1)].
Definition clean_state : dstate :=
  match drun inc_now close_it (mkDS [] []) clean_events with Ok s => s | _ => mkDS [] [] end.
Definition info_y (down : bool) (id : bytes) : option N :=
  if bytes_eqb id (bs "y") then Some 7 else if down then None else Some 0.
Example C104_instance : reachable inc_now close_it clean_state /\
  match ReloadRuns close_it (info_y false) 5 clean_state (Items 5 clean_state) with
  | Ok s' => ListNames 5 s' = [bs "a"] | _ => False end /\
  ReloadRuns close_it (info_y true) 5 clean_state (Items 5 clean_state) = Panic.
Proof.
  split; [exists clean_events; vm_compute; reflexivity|]. split; vm_compute; reflexivity.
Qed.
