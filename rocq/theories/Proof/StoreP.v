(** Lemmas about the store. *)
From Verif.Base Require Import GoBase GoLemmas Assoc.
From Verif.Model Require Import Codec Store.
From Verif.Spec Require Import Wire StoreSpec.
From Verif.Proof Require Import CodecP CodecTop.
Open Scope N_scope.

(** ** Scans *)

Definition dead (tick : bytes -> Z) (p : bytes * entry) : bool := expired (tick (fst p)) (snd p).
Definition live (tick : bytes -> Z) (p : bytes * entry) : bool := negb (dead tick p).

Lemma loop_spec : forall S (f : S -> entry -> S * option err) tick,
  (forall s e, snd (f s e) = None) ->
  forall order m s,
  LoopDBMap tick f order m s =
    (fold_left mdelete (map fst (filter (dead tick) order)) m,
     fold_left (fun s e => fst (f s e)) (map snd (filter (live tick) order)) s,
     None).
Proof.
  intros S f tick Hf. induction order as [|[k e] order IH]; intros m s; simpl; auto.
  unfold live, dead in *. simpl. destruct (expired (tick k) e); simpl.
  - apply IH.
  - specialize (Hf s e). destruct (f s e) as [s' o] eqn:E. simpl in Hf. subst o. simpl.
    rewrite IH. reflexivity.
Qed.

Lemma fold_left_snoc : forall A (l acc : list A),
  fold_left (fun s e => s ++ [e]) l acc = acc ++ l.
Proof.
  induction l as [|x l IH]; simpl; intros acc.
  - rewrite app_nil_r. reflexivity.
  - rewrite IH, <- app_assoc. reflexivity.
Qed.

Lemma fold_left_snoc_map : forall A B (g : A -> B) (l : list A) acc,
  fold_left (fun s e => s ++ [g e]) l acc = acc ++ map g l.
Proof.
  induction l as [|x l IH]; simpl; intros acc.
  - rewrite app_nil_r. reflexivity.
  - rewrite IH, <- app_assoc. reflexivity.
Qed.

Lemma StreamAll_spec : forall tick order m,
  StreamAll tick order m =
    (fold_left mdelete (map fst (filter (dead tick) order)) m,
     map (fun p => edatum (snd p)) (filter (live tick) order)).
Proof.
  intros. unfold StreamAll. rewrite loop_spec by reflexivity.
  f_equal. cbn [fst]. rewrite (fold_left_snoc_map _ _ edatum).
  rewrite app_nil_l, map_map. reflexivity.
Qed.

Lemma mload_fold_delete : forall V ks (m : amap V) k,
  mload (fold_left mdelete ks m) k =
    if existsb (fun k' => bytes_eqb k' k) ks then None else mload m k.
Proof.
  intros V ks. induction ks as [|k0 ks IH]; simpl; intros m k; auto.
  rewrite IH, mload_mdelete. destruct (bytes_eqb k0 k); simpl; auto.
  destruct (existsb _ ks); auto.
Qed.

Lemma wf_fold_delete : forall V ks (m : amap V), mwf m -> mwf (fold_left mdelete ks m).
Proof.
  intros V ks. induction ks as [|k0 ks IH]; simpl; intros m W; auto.
  apply IH. apply mdelete_wf. auto.
Qed.

(** After a scan an entry is still there exactly if it was there and was not
    expired when visited. *)
Lemma scan_load : forall tick order m k,
  mwf m -> Permutation order m ->
  mload (fst (StreamAll tick order m)) k =
    match mload m k with
    | Some e => if expired (tick k) e then None else Some e
    | None => None
    end.
Proof.
  intros tick order m k W P. rewrite StreamAll_spec. cbn [fst].
  rewrite mload_fold_delete.
  assert (Wo : mwf order) by (eapply perm_wf; [eauto|apply Permutation_sym; auto]).
  destruct (existsb _ _) eqn:E.
  - apply existsb_exists in E. destruct E as (k' & Hin & Hk). apply bytes_eqb_spec in Hk. subst k'.
    apply in_map_iff in Hin. destruct Hin as ([k0 e] & <- & Hin).
    apply filter_In in Hin. destruct Hin as [Hin Hd]. cbn [fst] in *.
    assert (L : mload m k0 = Some e).
    { apply in_mload; auto. eapply Permutation_in; eauto. }
    rewrite L. unfold dead in Hd. cbn [fst snd] in Hd. rewrite Hd. reflexivity.
  - destruct (mload m k) as [e|] eqn:L; auto.
    destruct (expired (tick k) e) eqn:X; auto.
    exfalso. assert (C : existsb (fun k' => bytes_eqb k' k)
                       (map fst (filter (dead tick) order)) = true).
    { apply existsb_exists. exists k. split; [|apply bytes_eqb_refl].
      apply in_map_iff. exists (k, e). split; auto. apply filter_In. split.
      - eapply Permutation_in; [apply Permutation_sym; eauto|]. apply mload_in. auto.
      - unfold dead. auto. }
    congruence.
Qed.

Lemma scan_wf : forall tick order m, mwf m -> mwf (fst (StreamAll tick order m)).
Proof. intros. rewrite StreamAll_spec. cbn [fst]. apply wf_fold_delete. auto. Qed.

(** What a scan yields. *)
Lemma scan_yield : forall tick order m d,
  mwf m -> Permutation order m ->
  (In d (snd (StreamAll tick order m)) <->
   exists k e, mload m k = Some e /\ expired (tick k) e = false /\ edatum e = d).
Proof.
  intros tick order m d W P. rewrite StreamAll_spec. cbn [snd]. rewrite in_map_iff. split.
  - intros ([k e] & <- & H). apply filter_In in H. destruct H as [H L].
    unfold live, dead in L. cbn [fst snd] in L. apply negb_true_iff in L.
    exists k, e. repeat split; auto. apply in_mload; auto. eapply Permutation_in; eauto.
  - intros (k & e & L & X & <-). exists (k, e). split; auto. apply filter_In. split.
    + eapply Permutation_in; [apply Permutation_sym; eauto|]. apply mload_in. auto.
    + unfold live, dead. cbn [fst snd]. rewrite X. reflexivity.
Qed.

(** ** One insert *)

Lemma insert_spec : forall now m k v config,
  kv_ok k v ->
  (forall e, mload m (wire_key k) = Some e ->
     exists v', kv_ok k v' /\ edatum e = kv k v') ->
  exists m' fresh, InsertBDMap now m (Some (kv k v)) config = Ok (m', fresh) /\
   (if fresh then m' = mstore m (wire_key k) (mkEntry (expireAtOf now config) (kv k v))
    else m' = m /\ exists e, mload m (wire_key k) = Some e /\ edatum e = kv k v /\
         CloseEnough (expireAtOf now config) (exprireAt e) = true).
Proof.
  intros now m k v config (K1 & K2 & V1 & V2) Hold.
  unfold InsertBDMap, GetKeyAsBytes, GetValueAsBytes. cbn [dkey dvalue kv].
  rewrite MarshalKey_spec by auto. cbn [bind]. unfold EncodeToString.
  destruct (mload m (wire_key k)) as [e|] eqn:L.
  - destruct (Hold e eq_refl) as (v' & (_ & _ & V1' & V2') & E). rewrite E.
    cbn [dvalue kv]. rewrite !MarshalValue_spec by auto. cbn [bind].
    destruct (bytes_eqb (wire_value v) (wire_value v') &&
              CloseEnough (expireAtOf now config) (exprireAt e)) eqn:C; cbn [negb bind].
    + eexists; eexists; split; [reflexivity|]. cbn. split; auto.
      exists e. apply andb_true_iff in C. destruct C as [C1 C2].
      repeat split; auto. rewrite E. f_equal. f_equal.
      apply bytes_eqb_spec in C1.
      destruct (wire_value_prefix_free v v' [] []); auto. rewrite !app_nil_r. auto.
    + eexists; eexists; split; [reflexivity|]. cbn. reflexivity.
  - cbn [bind]. eexists; eexists; split; [reflexivity|]. cbn. reflexivity.
Qed.

Lemma delete_spec : forall m k v, key_fits k ->
  DeleteBDMap m (Some (mkDatum (Some k) v)) = Ok (mdelete m (wire_key k)).
Proof.
  intros. unfold DeleteBDMap, GetKeyAsBytes. cbn [dkey]. rewrite MarshalKey_spec by auto.
  reflexivity.
Qed.

(** ** The invariant over histories *)

Definition slot_ok (p : bytes * entry) : Prop :=
  exists k v, kv_ok k v /\ fst p = wire_key k /\ edatum (snd p) = kv k v /\
    (exprireAt (snd p) = 0 \/ 11 <= exprireAt (snd p) < 9223372036854775808)%Z.

Definition key_inv (now : Z) (h : list call) (m : dbmap) (k : DatumKey) : Prop :=
  match latest h k with
  | None => mload m (wire_key k) = None
  | Some (t, v, ttl) =>
      kv_ok k v /\ (10 <= t <= now)%Z /\ (t + Z.of_N ttl < 9223372036854775808)%Z /\
      match mload m (wire_key k) with
      | Some e => edatum e = kv k v /\
          (if ttl =? 0 then exprireAt e = 0%Z
           else (11 <= exprireAt e)%Z /\
                (t + Z.of_N ttl - 9 <= exprireAt e <= t + Z.of_N ttl + 9)%Z)
      | None => ttl <> 0 /\ (t + Z.of_N ttl - 9 <= now)%Z
      end
  end.

Definition store_inv (now : Z) (h : list call) (m : dbmap) : Prop :=
  mwf m /\ Forall slot_ok m /\
  forall k, key_ok k -> key_fits k -> key_inv now h m k.

Lemma latest_snoc : forall h c k,
  latest (h ++ [c]) k =
    match c with
    | CInsert t k' v ttl => if DatumKey_eq_dec k' k then Some (t, v, ttl) else latest h k
    | CDelete k' => if DatumKey_eq_dec k' k then None else latest h k
    | CScan _ _ => latest h k
    end.
Proof. intros. unfold latest. rewrite fold_left_app. reflexivity. Qed.

Lemma run_calls_app : forall h1 h2 m,
  run_calls m (h1 ++ h2) = bind (run_calls m h1) (fun m' => run_calls m' h2).
Proof.
  induction h1 as [|c h1 IH]; simpl; intros; auto.
  destruct (run_call m c); cbn [bind]; auto.
Qed.

Lemma slot_load : forall m k e, Forall slot_ok m -> key_ok k -> key_fits k ->
  mload m (wire_key k) = Some e ->
  exists v, kv_ok k v /\ edatum e = kv k v /\
    (exprireAt e = 0 \/ 11 <= exprireAt e < 9223372036854775808)%Z.
Proof.
  intros m k e F K1 K2 L. apply mload_in in L. rewrite Forall_forall in F.
  destruct (F _ L) as (k' & v & Hkv & Hk & Hd & Hx). cbn [fst snd] in *.
  assert (k = k').
  { destruct Hkv as (A & B & _).
    destruct (wire_key_prefix_free k k' [] [] K1 A K2 B); auto. rewrite !app_nil_r. auto. }
  subst k'. exists v. auto.
Qed.

Lemma expireAt_small : forall t ttl, (10 <= t)%Z -> (t + Z.of_N ttl < 9223372036854775808)%Z ->
  expireAtOf t (Some (mkInsertConfig ttl 0)) = (if (ttl =? 0)%N then 0 else t + Z.of_N ttl)%Z.
Proof.
  intros t ttl H1 H2. unfold expireAtOf. cbn [TTL]. destruct (ttl =? 0); auto.
  unfold i64_of_u64. rewrite (i64_id (Z.of_N ttl)) by (unfold is_i64; lia).
  apply i64_id. unfold is_i64. lia.
Qed.

Lemma close_small : forall a b, (0 <= a < 9223372036854775808)%Z ->
  (0 <= b < 9223372036854775808)%Z ->
  CloseEnough a b = true <-> (-10 < a - b < 10)%Z.
Proof.
  intros a b Ha Hb. unfold CloseEnough. rewrite i64_id by (unfold is_i64; lia).
  rewrite andb_true_iff, !Z.ltb_lt. lia.
Qed.

Lemma mono_inv : forall now now' h m, (now <= now')%Z -> store_inv now h m -> store_inv now' h m.
Proof.
  intros now now' h m Hn (W & F & I). split; [auto|split; [auto|]].
  intros k K1 K2. specialize (I k K1 K2). unfold key_inv in *.
  destruct (latest h k) as [[[t v] ttl]|]; auto.
  destruct I as (A & B & C & D). split; [auto|]. split; [lia|]. split; [auto|].
  destruct (mload m (wire_key k)); auto. destruct D. split; auto. lia.
Qed.

Lemma step_inv : forall t1 t2 h m c,
  (10 <= t1)%Z -> (t1 <= t2)%Z -> call_ok t1 t2 c -> store_inv t1 h m ->
  exists m', run_call m c = Ok m' /\ store_inv t2 (h ++ [c]) m'.
Proof.
  intros t1 t2 h m c H10 Ht Hc Hinv. destruct c as [t k v ttl|k|tick ord].
  - destruct Hc as (Htt & Hkv & Hmax).
    apply (mono_inv t1 t) in Hinv; [|lia].
    destruct Hinv as (W & F & I).
    destruct (insert_spec t m k v (Some (mkInsertConfig ttl 0)) Hkv) as (m' & fresh & E & R).
    { intros e L. destruct (slot_load m k e F (proj1 Hkv) (proj1 (proj2 Hkv)) L) as (v' & A & B & _).
      exists v'. auto. }
    exists m'. cbn [run_call]. unfold kv in E. rewrite E. cbn [bind]. split; auto.
    rewrite expireAt_small in R by lia.
    apply (mono_inv t t2); [lia|].
    assert (Hexp : forall x, x = (if (ttl =? 0)%N then 0 else t + Z.of_N ttl)%Z ->
                   (x = 0 \/ 11 <= x < 9223372036854775808)%Z).
    { intros x ->. destruct (ttl =? 0) eqn:Z0; [auto|]. apply N.eqb_neq in Z0. lia. }
    destruct fresh.
    + subst m'. split; [apply mstore_wf; auto|]. split.
      * unfold mstore. constructor.
        -- exists k, v. cbn [fst snd edatum exprireAt]. repeat split; try apply Hkv.
           apply Hexp. reflexivity.
        -- rewrite Forall_forall in *. intros p Hp. apply F. eapply mdelete_incl; eauto.
      * intros k' K1 K2. unfold key_inv. rewrite latest_snoc.
        destruct (DatumKey_eq_dec k k') as [<-|Hne].
        -- split; [auto|]. split; [lia|]. split; [auto|].
           rewrite mload_mstore_same. cbn [edatum exprireAt]. split; auto.
           destruct (ttl =? 0) eqn:Z0; auto. apply N.eqb_neq in Z0. lia.
        -- rewrite mload_mstore_other.
           ++ apply I; auto.
           ++ intro C. apply Hne. destruct Hkv as (A & B & _).
              destruct (wire_key_prefix_free k k' [] [] A K1 B K2); auto. rewrite !app_nil_r. auto.
    + destruct R as (-> & e & L & Ed & Hcl). split; [auto|split; [auto|]].
      intros k' K1 K2. unfold key_inv. rewrite latest_snoc.
      destruct (DatumKey_eq_dec k k') as [<-|Hne]; [|apply I; auto].
      split; [auto|]. split; [lia|]. split; [auto|]. rewrite L. split; auto.
      destruct (slot_load m k e F K1 K2 L) as (v' & _ & _ & Hx).
      destruct (ttl =? 0) eqn:Z0.
      * destruct Hx as [Hx|Hx]; auto. exfalso.
        apply close_small in Hcl; lia.
      * apply N.eqb_neq in Z0. destruct Hx as [Hx|Hx].
        -- exfalso. rewrite Hx in Hcl. apply close_small in Hcl; lia.
        -- apply close_small in Hcl; [|lia|lia]. lia.
  - destruct Hc as (K1 & K2). cbn [run_call]. rewrite delete_spec by auto.
    eexists; split; [reflexivity|]. apply (mono_inv t1 t2); [lia|].
    destruct Hinv as (W & F & I).
    split; [apply mdelete_wf; auto|]. split.
    + rewrite Forall_forall in *. intros p Hp. apply F. eapply mdelete_incl; eauto.
    + intros k' K1' K2'. unfold key_inv. rewrite latest_snoc.
      destruct (DatumKey_eq_dec k k') as [<-|Hne].
      * apply mload_mdelete_same.
      * rewrite mload_mdelete_other; [apply I; auto|].
        intro C. apply Hne.
        destruct (wire_key_prefix_free k k' [] [] K1 K1' K2 K2'); auto. rewrite !app_nil_r. auto.
  - destruct Hc as (Htick & Hord). cbn [run_call].
    eexists; split; [reflexivity|].
    destruct Hinv as (W & F & I).
    split; [apply scan_wf; auto|]. split.
    + rewrite StreamAll_spec. cbn [fst].
      generalize (map fst (filter (dead tick) (ord m))) as ks. intro ks.
      clear - F. revert m F. induction ks as [|k0 ks IH]; simpl; intros m F; auto.
      apply IH. rewrite Forall_forall in *. intros p Hp. apply F. eapply mdelete_incl; eauto.
    + intros k K1 K2. specialize (I k K1 K2). unfold key_inv in *. rewrite latest_snoc.
      rewrite scan_load by auto.
      destruct (latest h k) as [[[t v] ttl]|].
      * destruct I as (A & B & C & D). split; [auto|]. split; [lia|]. split; [auto|].
        destruct (mload m (wire_key k)) as [e|] eqn:L.
        -- destruct D as [D1 D2]. specialize (Htick (wire_key k)).
           destruct (expired (tick (wire_key k)) e) eqn:X.
           ++ unfold expired in X. apply andb_true_iff in X. destruct X as [X1 X2].
              apply Z.leb_le in X2. apply negb_true_iff, Z.eqb_neq in X1.
              destruct (ttl =? 0) eqn:Z0; [contradiction|]. apply N.eqb_neq in Z0.
              split; auto. lia.
           ++ auto.
        -- destruct D. split; auto. lia.
      * rewrite I. reflexivity.
Qed.

Lemma empty_inv : forall t, store_inv t [] [].
Proof.
  intro t. split; [constructor|]. split; [constructor|].
  intros k _ _. reflexivity.
Qed.

Lemma history_le : forall t0 h t1, history t0 h t1 -> (t0 <= t1)%Z.
Proof. induction 1; lia. Qed.

Lemma history_inv : forall t0 h t1, (10 <= t0)%Z -> history t0 h t1 ->
  exists m, run_calls [] h = Ok m /\ store_inv t1 h m.
Proof.
  intros t0 h t1 H10 H. induction H as [t|t0 h t1 c t2 H IH Ht Hc].
  - exists []. split; [reflexivity|apply empty_inv].
  - destruct IH as (m & R & I); auto.
    pose proof (history_le _ _ _ H) as Hle.
    destruct (step_inv t1 t2 h m c ltac:(lia) Ht Hc I) as (m' & R' & I').
    exists m'. split; auto. rewrite run_calls_app, R. cbn [bind run_calls]. rewrite R'. reflexivity.
Qed.
