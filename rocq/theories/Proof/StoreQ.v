(** Consequences of the store invariant used by the property theorems. *)
From Verif.Base Require Import GoBase GoLemmas Assoc.
From Verif.Model Require Import Codec Store.
From Verif.Spec Require Import Wire StoreSpec.
From Verif.Proof Require Import CodecP CodecTop StoreP.
Open Scope N_scope.

Lemma NoDup_map_inj_on : forall A B (f : A -> B) l,
  (forall x y, In x l -> In y l -> f x = f y -> x = y) -> NoDup l -> NoDup (map f l).
Proof.
  induction l as [|x l IH]; simpl; intros Hinj H; [constructor|].
  inversion H; subst. constructor.
  - intro C. apply in_map_iff in C. destruct C as (y & E & Hy).
    assert (y = x) by (apply Hinj; auto). subst. contradiction.
  - apply IH; auto.
Qed.

Lemma filter_NoDup : forall A (f : A -> bool) l, NoDup l -> NoDup (filter f l).
Proof.
  induction l as [|x l IH]; simpl; intros H; auto. inversion H; subst.
  destruct (f x); auto. constructor; auto. intro C. apply filter_In in C. tauto.
Qed.

Lemma mwf_NoDup : forall V (m : amap V), mwf m -> NoDup m.
Proof. intros V m W. unfold mwf, mkeys in W. eapply NoDup_map_inv; eauto. Qed.

Lemma NoDup_fst_inj : forall V (m : amap V) p q,
  mwf m -> In p m -> In q m -> fst p = fst q -> p = q.
Proof.
  intros V m [k v] [k' v'] W H1 H2 E. cbn in E. subst k'.
  apply in_mload in H1; auto. apply in_mload in H2; auto. congruence.
Qed.

Lemma scan_keys_distinct : forall tick order m,
  mwf m -> Forall slot_ok m -> Permutation order m ->
  NoDup (map dkey (snd (StreamAll tick order m))).
Proof.
  intros tick order m W F P. rewrite StreamAll_spec. cbn [snd]. rewrite map_map.
  assert (Wo : mwf order) by (eapply perm_wf; [eauto|apply Permutation_sym; auto]).
  apply NoDup_map_inj_on.
  - intros p q Hp Hq E. apply filter_In in Hp, Hq. destruct Hp as [Hp _], Hq as [Hq _].
    rewrite Forall_forall in F.
    assert (Hp' : In p m) by (eapply Permutation_in; eauto).
    assert (Hq' : In q m) by (eapply Permutation_in; eauto).
    destruct (F p Hp') as (k & v & _ & Ek & Ed & _).
    destruct (F q Hq') as (k' & v' & _ & Ek' & Ed' & _).
    rewrite Ed, Ed' in E. cbn in E. injection E as ->.
    apply (NoDup_fst_inj _ m); auto. congruence.
  - apply filter_NoDup, mwf_NoDup. auto.
Qed.

(** Everything a history lets us know about the next scan. *)
Lemma scan_after_history : forall t0 h t1 t2 tick ord,
  (10 <= t0)%Z -> history t0 h t1 ->
  (forall b, (t1 <= tick b <= t2)%Z) -> (forall m, Permutation (ord m) m) ->
  exists m ys, run_calls [] h = Ok m /\ ys = snd (StreamAll tick (ord m) m) /\
    NoDup (map dkey ys) /\
    (forall d, In d ys -> exists k v t ttl,
        d = kv k v /\ kv_ok k v /\ latest h k = Some (t, v, ttl) /\
        (ttl <> 0 -> (t1 < t + Z.of_N ttl + 9)%Z)) /\
    (forall k v t ttl, key_ok k -> key_fits k -> latest h k = Some (t, v, ttl) ->
        ttl = 0 \/ (t2 < t + Z.of_N ttl - 9)%Z -> In (kv k v) ys).
Proof.
  intros t0 h t1 t2 tick ord H10 Hh Htick Hord.
  destruct (history_inv t0 h t1 H10 Hh) as (m & R & W & F & I).
  exists m, (snd (StreamAll tick (ord m) m)). split; [auto|]. split; [auto|].
  split; [apply scan_keys_distinct; auto|]. split.
  - intros d Hd. apply scan_yield in Hd; auto. destruct Hd as (b & e & L & X & Ed).
    apply mload_in in L as Hin. rewrite Forall_forall in F.
    destruct (F _ Hin) as (k & v & Hkv & Hk & Ed' & Hx). cbn [fst snd] in *. subst b.
    destruct Hkv as (K1 & K2 & V1 & V2).
    specialize (I k K1 K2). unfold key_inv in I.
    destruct (latest h k) as [[[t v'] ttl]|] eqn:La.
    + destruct I as (A & B & C & D). rewrite L in D. destruct D as [D1 D2].
      exists k, v', t, ttl. split; [congruence|].
      assert (v' = v) by (rewrite Ed' in D1; injection D1; auto). subst v'.
      split; [split; auto|]. split; [auto|]. intro Z0.
      assert (E0 : (ttl =? 0) = false) by (apply N.eqb_neq; auto). rewrite E0 in D2.
      specialize (Htick (wire_key k)).
      unfold expired in X. apply andb_false_iff in X. destruct X as [X|X].
      * apply negb_false_iff, Z.eqb_eq in X. lia.
      * apply Z.leb_gt in X. lia.
    + rewrite I in L. discriminate.
  - intros k v t ttl K1 K2 La Hvis. apply scan_yield; auto.
    specialize (I k K1 K2). unfold key_inv in I. rewrite La in I.
    destruct I as (A & B & C & D).
    destruct (mload m (wire_key k)) as [e|] eqn:L.
    + destruct D as [D1 D2]. exists (wire_key k), e. repeat split; auto.
      specialize (Htick (wire_key k)). unfold expired. apply andb_false_iff.
      destruct (ttl =? 0) eqn:Z0.
      * left. rewrite D2. reflexivity.
      * right. apply N.eqb_neq in Z0. apply Z.leb_gt. lia.
    + exfalso. destruct D as [D1 D2]. destruct Hvis as [Hv|Hv]; [contradiction|].
      specialize (Htick (wire_key k)). lia.
Qed.
