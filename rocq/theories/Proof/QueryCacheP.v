(** Proofs about the query cache. *)
From Verif.Base Require Import GoBase GoLemmas Assoc Float.
From Verif.Model Require Import Codec Data Search Json QueryCache.
From Verif.Spec Require Import Wire Text CacheSpec.
From Verif.Proof Require Import CodecP CodecTop JsonP RoundP.
From Coq Require Import Lia.
Open Scope N_scope.

(** * The key determines the query *)
Lemma ascii_text : forall s, Forall (fun b => b < 128) s -> valid_text s.
Proof.
  intros s F. exists s. split.
  - eapply Forall_impl; [|exact F]. intros a Ha. cbv beta in Ha. left. lia.
  - induction F as [|b s Hb F IH]; auto. cbn [flat_map]. rewrite <- IH. unfold encode_rune.
    apply N.ltb_lt in Hb. rewrite Hb. auto.
Qed.
Ltac ascii := apply ascii_text; cbn; repeat constructor; lia.

Lemma members_str : forall n s, valid_text n -> valid_text s ->
  Forall (fun m => valid_text (fst m) /\ json_ok (snd m)) (f_str n s).
Proof. intros. destruct s; cbn; repeat constructor; auto. Qed.
Lemma members_uint : forall n x, valid_text n -> x < M64 ->
  Forall (fun m => valid_text (fst m) /\ json_ok (snd m)) (f_uint n x).
Proof.
  intros. unfold f_uint. destruct (x =? 0) eqn:E; constructor; auto. split; auto.
  apply ok_num. apply dec_token; auto. apply N.eqb_neq. auto.
Qed.
Lemma members_bool : forall n b, valid_text n ->
  Forall (fun m => valid_text (fst m) /\ json_ok (snd m)) (f_bool n b).
Proof. intros. destruct b; cbn; repeat constructor; auto. Qed.
Lemma members_strs : forall n l, valid_text n -> Forall valid_text l ->
  Forall (fun m => valid_text (fst m) /\ json_ok (snd m)) (f_strs n l).
Proof.
  intros n l H F. unfold f_strs. destruct l as [|x l]; constructor; auto. split; auto.
  apply ok_arr. apply Forall_map. eapply Forall_impl; [|exact F]. intros. constructor. auto.
Qed.

Lemma u32_lt_u64 : forall x, is_u32 x -> x < M64.
Proof. unfold is_u32, M32, M64. intros. lia. Qed.

Lemma empty_text : valid_text [].
Proof. exists []. split; auto. Qed.

Lemma search_config_json_ok : forall c, config_ok c -> json_ok (search_config_json (clear_uuid c)).
Proof.
  intros c (A & B & C & D & E & F & G & H & I & J & K). apply ok_obj.
  repeat (apply Forall_app; split); cbn [clear_uuid scScoreFuncName scHigherIsBetter scTimestamp scTimeout
    scLimit scCacheDuration scDataName scGroupLimit scGroupScoreFuncName scFilters scResultLimit
    scGroupFilters scUuid];
  first [apply members_str | apply members_uint | apply members_bool | apply members_strs];
  try ascii; auto using u32_lt_u64, empty_text.
Qed.

Ltac pick_field name H :=
  let X := fresh in
  pose proof (f_equal (find_field name) H) as X;
  repeat rewrite find_app in X;
  repeat first [rewrite find_str in X | rewrite find_uint in X | rewrite find_bool in X | rewrite find_strs in X];
  repeat match type of X with context [same_name ?a ?b] =>
    let v := eval vm_compute in (same_name a b) in change (same_name a b) with v in X end;
  cbv beta iota in X.

Lemma dec_inj : forall x y, x < M64 -> y < M64 -> dec x = dec y -> x = y.
Proof.
  intros x y Hx Hy E.
  pose proof (parse_uint_dec x (M64 - 1) Hx) as A. pose proof (parse_uint_dec y (M64 - 1) Hy) as B.
  rewrite E in A. rewrite A in B by (unfold M64 in *; lia).
  assert (Some x = Some y) by (apply B; unfold M64 in *; lia). congruence.
Qed.

Lemma opt_uint : forall x y, x < M64 -> y < M64 ->
  (if x =? 0 then None else Some (JNum (dec x))) = (if y =? 0 then None else Some (JNum (dec y))) -> x = y.
Proof.
  intros x y Hx Hy E. destruct (x =? 0) eqn:A, (y =? 0) eqn:B; try discriminate.
  - apply N.eqb_eq in A, B. congruence.
  - injection E as E. apply dec_inj; auto.
Qed.
Lemma opt_str : forall x y : bytes,
  match x with [] => None | _ => Some (JStr x) end = match y with [] => None | _ => Some (JStr y) end -> x = y.
Proof. intros [|] [|] E; try discriminate; auto. injection E as -> ->. auto. Qed.
Lemma opt_strs : forall x y : list bytes,
  match x with [] => None | _ => Some (JArr (map JStr x)) end =
  match y with [] => None | _ => Some (JArr (map JStr y)) end -> x = y.
Proof.
  assert (I : forall x y : list bytes, map JStr x = map JStr y -> x = y).
  { induction x as [|a x IH]; intros [|b y] E; try discriminate; auto. cbn in E. injection E as -> E.
    f_equal. auto. }
  intros x y E. destruct x, y; try discriminate; auto. injection E as E1 E2. subst. f_equal. auto.
Qed.
Lemma opt_bool : forall x y : bool,
  (if x then Some (JBool true) else None) = (if y then Some (JBool true) else None) -> x = y.
Proof. intros [|] [|] E; try discriminate; auto. Qed.

Lemma none_match : forall A (x : option A), match x with Some v => Some v | None => None end = x.
Proof. destruct x; auto. Qed.

Lemma encode_config_inj : forall a b, config_ok a -> config_ok b ->
  EncodeSearchConfig a = EncodeSearchConfig b -> same_config a b.
Proof.
  intros a b Oa Ob E. unfold EncodeSearchConfig in E.
  apply print_injective in E; auto using search_config_json_ok.
  unfold search_config_json in E. injection E as E.
  cbn [clear_uuid scScoreFuncName scHigherIsBetter scTimestamp scTimeout
    scLimit scCacheDuration scDataName scGroupLimit scGroupScoreFuncName scFilters scResultLimit
    scGroupFilters scUuid] in E.
  destruct Oa as (A1 & A2 & A3 & A4 & A5 & A6 & A7 & A8 & A9 & A10 & A11).
  destruct Ob as (B1 & B2 & B3 & B4 & B5 & B6 & B7 & B8 & B9 & B10 & B11).
  unfold same_config.
  repeat split.
  - pick_field (bs "scoreFuncName") E. apply opt_str. auto.
  - pick_field (bs "higherIsBetter") E. rewrite ?none_match in H. apply opt_bool. auto.
  - pick_field (bs "timestamp") E. rewrite ?none_match in H. apply opt_uint; auto.
  - pick_field (bs "timeout") E. rewrite ?none_match in H. apply opt_uint; auto.
  - pick_field (bs "limit") E. rewrite ?none_match in H. apply opt_uint; auto using u32_lt_u64.
  - pick_field (bs "cacheDuration") E. rewrite ?none_match in H. apply opt_uint; auto.
  - pick_field (bs "dataName") E. rewrite ?none_match in H. apply opt_str; auto.
  - pick_field (bs "groupLimit") E. rewrite ?none_match in H. apply opt_uint; auto using u32_lt_u64.
  - pick_field (bs "groupScoreFuncName") E. rewrite ?none_match in H. apply opt_str; auto.
  - pick_field (bs "filters") E. rewrite ?none_match in H. apply opt_strs; auto.
  - pick_field (bs "resultLimit") E. rewrite ?none_match in H. apply opt_uint; auto.
  - pick_field (bs "groupFilters") E. rewrite ?none_match in H. apply opt_strs; auto.
Qed.

Lemma search_key : forall k c, key_ok k -> key_fits k ->
  GetSearchKey (Some (mkDatum (Some k) None)) c = Ok (wire_key k ++ EncodeSearchConfig c).
Proof.
  intros k c O F. unfold GetSearchKey, GetKeyAsBytes. cbn [dkey]. rewrite MarshalKey_spec by auto. reflexivity.
Qed.

Lemma same_config_sym : forall a b, same_config a b -> same_config b a.
Proof. unfold same_config. intros. intuition. Qed.
Lemma same_config_trans : forall a b c, same_config a b -> same_config b c -> same_config a c.
Proof. unfold same_config. intros. intuition congruence. Qed.
Lemma same_config_encode : forall a b, same_config a b -> EncodeSearchConfig a = EncodeSearchConfig b.
Proof.
  intros a b (A1 & A2 & A3 & A4 & A5 & A6 & A7 & A8 & A9 & A10 & A11 & A12).
  unfold EncodeSearchConfig, clear_uuid. rewrite A1, A2, A3, A4, A5, A6, A7, A8, A9, A10, A11, A12. auto.
Qed.

Lemma query_key_inj : forall k1 c1 k2 c2, query_ok k1 c1 -> query_ok k2 c2 ->
  wire_key k1 ++ EncodeSearchConfig c1 = wire_key k2 ++ EncodeSearchConfig c2 ->
  k1 = k2 /\ same_config c1 c2.
Proof.
  intros k1 c1 k2 c2 (O1 & F1 & C1) (O2 & F2 & C2) E.
  apply wire_key_prefix_free in E; auto. destruct E as [-> E]. split; auto.
  apply encode_config_inj; auto.
Qed.

(** * Cells *)
Lemma load_app : forall h h' l xs, load_cells h l = Ok xs -> load_cells (h ++ h') l = Ok xs.
Proof.
  induction l as [|a l IH]; intros xs E; cbn in *; auto.
  destruct (nth_error h a) as [x|] eqn:A; [|discriminate].
  rewrite nth_error_app1 by (apply nth_error_Some; congruence). rewrite A.
  destruct (load_cells h l); try discriminate. cbn in *. rewrite (IH _ eq_refl). auto.
Qed.
Lemma load_alloc : forall xs h, load_cells (h ++ xs) (seq (length h) (length xs)) = Ok xs.
Proof.
  induction xs as [|x xs IH]; intro h; cbn; auto.
  rewrite nth_error_app2 by lia. rewrite Nat.sub_diag. cbn.
  specialize (IH (h ++ [x])). rewrite <- app_assoc, app_length in IH. cbn in IH.
  rewrite Nat.add_1_r in IH. rewrite IH. auto.
Qed.
Lemma load_set : forall h a x h' l xs, list_set h a x = Some h' -> ~ In a l ->
  load_cells h l = Ok xs -> load_cells h' l = Ok xs.
Proof.
  assert (N : forall (h : list ScoredDatum) a x h' b, list_set h a x = Some h' -> b <> a -> nth_error h' b = nth_error h b).
  { induction h as [|y h IH]; intros [|a] x h' b E D; cbn in E; try discriminate.
    - injection E as <-. destruct b; [congruence|auto].
    - destruct (list_set h a x) eqn:S; [|discriminate]. injection E as <-.
      destruct b; auto. cbn. eapply IH; eauto. }
  induction l as [|b l IH]; intros xs E H L; cbn in *; auto.
  rewrite (N _ _ _ _ b E) by (intros ->; tauto).
  destruct (nth_error h b); [|discriminate]. destruct (load_cells h l); try discriminate.
  rewrite (IH a0); auto.
Qed.
Lemma load_lt : forall h l xs, load_cells h l = Ok xs -> Forall (fun a => (a < length h)%nat) l.
Proof.
  induction l as [|a l IH]; intros xs E; cbn in *; constructor.
  - destruct (nth_error h a) eqn:A; [|discriminate]. apply nth_error_Some. congruence.
  - destruct (nth_error h a); [|discriminate]. destruct (load_cells h l) eqn:L; try discriminate. eauto.
Qed.
Lemma set_length : forall (h : list ScoredDatum) a x h', list_set h a x = Some h' -> length h' = length h.
Proof.
  induction h as [|y h IH]; intros [|a] x h' E; cbn in E; try discriminate.
  - injection E as <-. auto.
  - destruct (list_set h a x) eqn:S; [|discriminate]. injection E as <-. cbn. f_equal. eauto.
Qed.
Lemma seq_bound : forall n s a, In a (seq s n) -> (s <= a < s + n)%nat.
Proof. intros. apply in_seq. auto. Qed.

(** * Histories *)

(** Every cached item was put there by an execution of the query its key
    belongs to, its cells still hold what that execution produced and none of
    them was ever handed out. *)
Definition qinv (es : list qevent) (q : qstate) : Prop :=
  Forall (fun a => (a < length (qHeap q))%nat) (qOut q) /\
  forall key i, mload (qCache q) key = Some i ->
    exists k c t rs late, key = wire_key k ++ EncodeSearchConfig c /\ query_ok k c /\
      In (EvFinish t k c rs late) es /\ load_cells (qHeap q) (ciAddrs i) = Ok rs /\
      (forall a, In a (ciAddrs i) -> ~ In a (qOut q)).

Lemma qinv_more : forall es es' q, qinv es q -> incl es es' -> qinv es' q.
Proof.
  intros es es' q (A & B) I. split; auto. intros key i L.
  destruct (B key i L) as (k & c & t & rs & late & P & Q & R & S). exists k, c, t, rs, late. destruct S. auto 10.
Qed.

Lemma qstep_inv : forall byNow es q e q' ans, qinv es q -> event_ok e ->
  qstep byNow q e = Ok (q', ans) -> qinv (es ++ [e]) q'.
Proof.
  intros byNow es q e q' ans I O E.
  assert (I' : qinv (es ++ [e]) q) by (eapply qinv_more; eauto; apply incl_appl, incl_refl).
  destruct e as [now k c|now k c|now k c rs late|a x|key]; cbn [qstep event_ok] in *.
  - destruct O as (O1 & O2 & O3). rewrite search_key in E by auto. cbn [bind] in E.
    destruct (0 <? scCacheDuration c); [|injection E as <- <-; auto].
    destruct (CacheGet now q _) as [i|] eqn:G; [|injection E as <- <-; auto].
    unfold CloneResult in E.
    destruct (load_cells (qHeap q) (ciAddrs i)) as [xs| |] eqn:L; cbn [bind] in E; try discriminate.
    unfold alloc_cells in E.
    rewrite load_alloc in E. cbn [bind] in E. injection E as <- <-.
    destruct I' as (A & B). split; cbn [qOut qHeap qCache].
    + apply Forall_app. split.
      * eapply Forall_impl; [|exact A]. intros a Ha. cbv beta. rewrite app_length. cbv beta in Ha. lia.
      * apply Forall_forall. intros a Ha. apply seq_bound in Ha. rewrite app_length. lia.
    + intros key j Lj. destruct (B key j Lj) as (k' & c' & t & rs & late & P & Q & R & S & T).
      exists k', c', t, rs, late. repeat split; auto; try apply Q.
      * apply load_app. auto.
      * intros a Ha Hin. apply in_app_or in Hin as [Hin|Hin]; [eapply T; eauto|].
        apply seq_bound in Hin. apply load_lt in S. rewrite Forall_forall in S. specialize (S a Ha). lia.
  - destruct O as (O1 & O2 & O3). rewrite search_key in E by auto. cbn [bind] in E.
    destruct (CacheGet now q _) as [i|] eqn:G; injection E as <- <-; auto.
    destruct I' as (A & B). split; auto. cbn [qOut qHeap qCache]. intros key j Lj.
    rewrite mload_mstore in Lj. unfold CacheGet in G.
    destruct (bytes_eqb (wire_key k ++ EncodeSearchConfig c) key) eqn:Q.
    + injection Lj as <-. apply bytes_eqb_spec in Q. subst key. cbn [ciAddrs touch].
      destruct (mload (qCache q) _) as [i0|] eqn:L0; [|discriminate].
      destruct (alive_at now i0); [|discriminate]. injection G as ->. apply B. auto.
    + apply B. auto.
  - destruct O as (O1 & O2 & O3). rewrite search_key in E by auto. cbn [bind] in E.
    unfold alloc_cells, CloneResult in E. rewrite load_alloc in E. cbn [bind] in E.
    unfold alloc_cells in E.
    assert (L2 : load_cells ((qHeap q ++ rs) ++ rs) (seq (length (qHeap q)) (length rs)) = Ok rs)
      by (apply load_app, load_alloc).
    rewrite L2 in E. cbn [bind] in E. injection E as <- <-.
    destruct I' as (A & B). split; cbn [qOut qHeap qCache].
    + apply Forall_app. split.
      * eapply Forall_impl; [|exact A]. intros a Ha. cbv beta. rewrite !app_length. cbv beta in Ha. lia.
      * apply Forall_forall. intros a Ha. apply seq_bound in Ha. rewrite !app_length. lia.
    + assert (Old : forall key i, mload (qCache q) key = Some i ->
        exists k0 c0 t rs0 late0, key = wire_key k0 ++ EncodeSearchConfig c0 /\ query_ok k0 c0 /\
          In (EvFinish t k0 c0 rs0 late0) (es ++ [EvFinish now k c rs late]) /\
          load_cells ((qHeap q ++ rs) ++ rs) (ciAddrs i) = Ok rs0 /\
          (forall a, In a (ciAddrs i) -> ~ In a (qOut q ++ seq (length (qHeap q)) (length rs)))).
      { intros key i Li. destruct (B key i Li) as (k' & c' & t & rs' & late' & P & Q & R & S & T).
        exists k', c', t, rs', late'. repeat split; auto; try apply Q.
        - apply load_app, load_app. auto.
        - intros a Ha Hin. apply in_app_or in Hin as [Hin|Hin]; [eapply T; eauto|].
          apply seq_bound in Hin. apply load_lt in S. rewrite Forall_forall in S. specialize (S a Ha). lia. }
      intros key i Li. destruct (0 <? scCacheDuration c); [|apply Old; auto].
      rewrite mload_mstore in Li.
      destruct (bytes_eqb (wire_key k ++ EncodeSearchConfig c) key) eqn:Q; [|apply Old; auto].
      injection Li as <-. apply bytes_eqb_spec in Q. subst key. cbn [ciAddrs].
      exists k, c, now, rs, late. split; [auto|]. split; [split; auto|]. split; [|split].
      * apply in_or_app. right. left. auto.
      * apply (load_alloc rs (qHeap q ++ rs)).
      * intros a Ha Hin. apply seq_bound in Ha. rewrite app_length in Ha.
        apply in_app_or in Hin as [Hin|Hin].
        -- rewrite Forall_forall in A. specialize (A a Hin). lia.
        -- apply seq_bound in Hin. lia.
  - destruct (existsb (Nat.eqb a) (qOut q)) eqn:X; [|injection E as <- <-; auto].
    destruct (list_set (qHeap q) a x) as [h|] eqn:S; [|discriminate]. injection E as <- <-.
    apply existsb_exists in X. destruct X as (b & Hb & Q). apply Nat.eqb_eq in Q. subst b.
    destruct I' as (A & B). split; cbn [qOut qHeap qCache].
    + rewrite (set_length _ _ _ _ S). auto.
    + intros key i Li. destruct (B key i Li) as (k' & c' & t & rs' & late' & P & Q & R & Sx & T).
      exists k', c', t, rs', late'. repeat split; auto; try apply Q.
      eapply load_set; eauto. intros Hin. apply (T a Hin Hb).
  - injection E as <- <-. destruct I' as (A & B). split; auto. cbn [qOut qHeap qCache].
    intros key' i Li. rewrite mload_mdelete in Li. destruct (bytes_eqb key key'); [discriminate|]. auto.
Qed.

Lemma qrun_inv : forall byNow es es0 q q', qinv es0 q -> Forall event_ok es ->
  qrun byNow q es = Ok q' -> qinv (es0 ++ es) q'.
Proof.
  induction es as [|e es IH]; intros es0 q q' I F E; cbn in E.
  - injection E as <-. rewrite app_nil_r. auto.
  - inversion F; subst. destruct (qstep byNow q e) as [[q1 a]| |] eqn:S; try discriminate. cbn in E.
    replace (es0 ++ e :: es) with ((es0 ++ [e]) ++ es) by (rewrite <- app_assoc; auto).
    eapply IH; eauto. eapply qstep_inv; eauto.
Qed.

(** No event crashes: cached addresses are valid. *)
Lemma qstep_ok : forall byNow es q e, qinv es q -> event_ok e -> exists q' a, qstep byNow q e = Ok (q', a).
Proof.
  intros byNow es q e (A & B) O. destruct e as [now k c|now k c|now k c rs late|a x|key]; cbn [qstep event_ok] in *.
  - destruct O as (O1 & O2 & O3). rewrite search_key by auto. cbn [bind].
    destruct (0 <? scCacheDuration c); [|eauto]. destruct (CacheGet now q _) as [i|] eqn:G; [|eauto].
    unfold CacheGet in G. destruct (mload (qCache q) _) as [i0|] eqn:L0; [|discriminate].
    destruct (alive_at now i0); [|discriminate]. injection G as ->.
    destruct (B _ _ L0) as (k' & c' & t & rs' & late' & P & Q & R & Sx & T).
    unfold CloneResult. rewrite Sx. cbn [bind]. unfold alloc_cells. rewrite load_alloc. cbn [bind]. eauto.
  - destruct O as (O1 & O2 & O3). rewrite search_key by auto. cbn [bind].
    destruct (CacheGet now q _); eauto.
  - destruct O as (O1 & O2 & O3). rewrite search_key by auto. cbn [bind].
    unfold alloc_cells, CloneResult. rewrite load_alloc. cbn [bind]. unfold alloc_cells.
    rewrite (load_app (qHeap q ++ rs) rs _ rs) by apply load_alloc. cbn [bind]. eauto.
  - destruct (existsb (Nat.eqb a) (qOut q)) eqn:X; [|eauto].
    apply existsb_exists in X. destruct X as (b & Hb & Q). apply Nat.eqb_eq in Q. subst b.
    rewrite Forall_forall in A. specialize (A a Hb).
    assert (S : forall (h : list ScoredDatum) a, (a < length h)%nat -> exists h', list_set h a x = Some h').
    { induction h as [|y h IH]; intros [|b] Hl; cbn in *; try lia; eauto.
      destruct (IH b ltac:(lia)) as (h' & ->). eauto. }
    destruct (S _ _ A) as (h' & ->). eauto.
  - eauto.
Qed.

Theorem lookup_answer : forall byNow es q now k c q' rs,
  Forall event_ok es -> query_ok k c -> qrun byNow q_empty es = Ok q ->
  qstep byNow q (EvLookup now k c) = Ok (q', Some rs) ->
  exists t, executed es k c t rs.
Proof.
  intros byNow es q now k c q' rs F O R E.
  assert (I : qinv es q).
  { apply (qrun_inv byNow es [] q_empty q); auto. split; [constructor|discriminate]. }
  destruct I as (A & B). destruct O as (O1 & O2 & O3). cbn [qstep] in E. rewrite search_key in E by auto. cbn [bind] in E.
  destruct (0 <? scCacheDuration c); [|discriminate].
  destruct (CacheGet now q _) as [i|] eqn:G; [|discriminate].
  unfold CacheGet in G. destruct (mload (qCache q) _) as [i0|] eqn:L0; [|discriminate].
  destruct (alive_at now i0); [|discriminate]. injection G as ->.
  destruct (B _ _ L0) as (k' & c' & t & rs' & late' & P & Q & Rx & Sx & T).
  unfold CloneResult in E. rewrite Sx in E. cbn [bind] in E. unfold alloc_cells in E.
  rewrite load_alloc in E. cbn [bind] in E. injection E as <- <-.
  apply query_key_inj in P; [|split; auto|auto]. destruct P as [<- SC].
  exists t, c', late'. split; auto. apply same_config_sym. auto.
Qed.

(** * Age *)
Definition ns (c : SearchConfig) : Z := (Z.of_N (scCacheDuration c) * 1000000000)%Z.

Lemma cache_duration_small : forall c, (ns c < 9223372036854775808)%Z -> cache_duration c = ns c.
Proof.
  intros c H. unfold cache_duration, ns in *. unfold u64.
  rewrite N.mod_small by (unfold M64; lia).
  rewrite N2Z.inj_mul. change (Z.of_N 1000000000) with 1000000000%Z.
  apply Z.ltb_lt in H. rewrite H. auto.
Qed.

(** The item of a query expires at most d after the execution, plus d per
    extension. *)
Definition age_inv (es : list qevent) (q : qstate) : Prop :=
  forall k c i, query_ok k c -> (ns c < 9223372036854775808)%Z -> 0 < scCacheDuration c ->
    mload (qCache q) (wire_key k ++ EncodeSearchConfig c) = Some i ->
    exists es1 t c' rs late es2 n, es = es1 ++ EvFinish t k c' rs late :: es2 /\ same_config c' c /\
      extended k c es2 n /\ load_cells (qHeap q) (ciAddrs i) = Ok rs /\
      (0 < ciExpires i <= t + Z.of_nat (S n) * ns c)%Z.

Lemma same_ns : forall a b, same_config a b -> ns a = ns b.
Proof. unfold same_config, ns. intros. intuition congruence. Qed.

Lemma qstep_age : forall byNow es q e q' ans, qinv es q -> age_inv es q -> event_ok e -> time_ok e ->
  qstep byNow q e = Ok (q', ans) -> age_inv (es ++ [e]) q'.
Proof.
  intros byNow es q e q' ans QI I O TO E.
  (* an event that is not an extension and keeps cache and cells *)
  assert (Keep : forall h o, (forall now k c, e <> EvTouch now k c) ->
     (forall key i rs, mload (qCache q) key = Some i ->
        load_cells (qHeap q) (ciAddrs i) = Ok rs -> load_cells h (ciAddrs i) = Ok rs) ->
     age_inv (es ++ [e]) (mkQ h (qCache q) o)).
  { intros h o NT L k c i Ok_ Sm Pos Li. cbn [qCache] in Li.
    destruct (I k c i Ok_ Sm Pos Li) as (es1 & t & c' & rs & late & es2 & n & -> & SC & X & Lc & B).
    exists es1, t, c', rs, late, (es2 ++ [e]), n. repeat split; auto; try apply B; try apply SC.
    - rewrite <- app_assoc. auto.
    - apply ext_other; auto. intros now c0 ->. exfalso. eapply NT. eauto.
    - cbn [qHeap]. eapply L; eauto. }
  assert (Same : (forall now k c, e <> EvTouch now k c) -> age_inv (es ++ [e]) q).
  { intro NT. destruct q as [h0 m0 o0]. apply Keep; auto. }
  destruct e as [now k c|now k c|now k c rs late|a x|key]; cbn [qstep event_ok time_ok] in *.
  - destruct O as (O1 & O2 & O3). rewrite search_key in E by auto. cbn [bind] in E.
    destruct (0 <? scCacheDuration c); [|injection E as <- <-; apply Same; discriminate].
    destruct (CacheGet now q _) as [i|] eqn:G; [|injection E as <- <-; apply Same; discriminate].
    unfold CloneResult in E.
    destruct (load_cells (qHeap q) (ciAddrs i)) as [xs| |] eqn:L; cbn [bind] in E; try discriminate.
    unfold alloc_cells in E.
    rewrite load_alloc in E. cbn [bind] in E. injection E as <- <-.
    apply Keep; [discriminate|]. intros. apply load_app. auto.
  - destruct O as (O1 & O2 & O3). rewrite search_key in E by auto. cbn [bind] in E.
    set (key0 := wire_key k ++ EncodeSearchConfig c) in *.
    (* a query other than (k, c) *)
    assert (Other : forall k0 c0 i, query_ok k0 c0 -> (ns c0 < 9223372036854775808)%Z -> 0 < scCacheDuration c0 ->
      wire_key k0 ++ EncodeSearchConfig c0 <> key0 ->
      mload (qCache q) (wire_key k0 ++ EncodeSearchConfig c0) = Some i ->
      exists es1 t c' rs late es2 n, es ++ [EvTouch now k c] = es1 ++ EvFinish t k0 c' rs late :: es2 /\
        same_config c' c0 /\ extended k0 c0 es2 n /\ load_cells (qHeap q) (ciAddrs i) = Ok rs /\
        (0 < ciExpires i <= t + Z.of_nat (S n) * ns c0)%Z).
    { intros k0 c0 i Q0 Sm Pos D Li.
      destruct (I k0 c0 i Q0 Sm Pos Li) as (es1 & t & c' & rs & late & es2 & n & -> & SC & X & Lc & B).
      exists es1, t, c', rs, late, (es2 ++ [EvTouch now k c]), n.
      split; [rewrite <- app_assoc; auto|]. split; auto. split; [|auto].
      apply ext_other; auto. intros now0 c1 Ev SC1. injection Ev as -> -> ->. apply D. unfold key0.
      apply f_equal. symmetry. apply same_config_encode. auto. }
    (* (k, c) itself when nothing is found *)
    destruct (CacheGet now q key0) as [i|] eqn:G; injection E as <- <-.
    + unfold CacheGet in G. destruct (mload (qCache q) key0) as [i0|] eqn:L0; [|discriminate].
      destruct (alive_at now i0) eqn:Al; [|discriminate]. injection G as ->.
      intros k0 c0 j Q0 Sm Pos Lj. cbn [qCache qHeap] in *. rewrite mload_mstore in Lj.
      destruct (bytes_eqb key0 (wire_key k0 ++ EncodeSearchConfig c0)) eqn:Q.
      * apply bytes_eqb_spec in Q. injection Lj as <-. cbn [ciAddrs ciExpires touch].
        rewrite Q in L0. destruct (I k0 c0 i Q0 Sm Pos L0) as (es1 & t & c' & rs & late & es2 & n & -> & SC & X & Lc & B).
        apply query_key_inj in Q; [|split; auto|auto]. destruct Q as [<- SC2].
        exists es1, t, c', rs, late, (es2 ++ [EvTouch now k c]), (S n).
        split; [rewrite <- app_assoc; auto|]. split; auto. split; [apply ext_this; auto|]. split; auto.
        rewrite cache_duration_small by (rewrite (same_ns _ _ SC2); auto). rewrite (same_ns _ _ SC2).
        assert (E0 : (ciExpires i =? 0)%Z = false) by (apply Z.eqb_neq; lia). rewrite E0.
        unfold alive_at in Al. rewrite E0 in Al. cbn [orb] in Al. apply Z.leb_le in Al.
        assert (0 < ns c0)%Z by (unfold ns; lia).
        destruct byNow; lia.
      * apply Other; auto. apply bytes_eqb_neq in Q. auto.
    + intros k0 c0 j Q0 Sm Pos Lj.
      destruct (bytes_eqb key0 (wire_key k0 ++ EncodeSearchConfig c0)) eqn:Q.
      * apply bytes_eqb_spec in Q. unfold CacheGet in G. rewrite Q, Lj in G.
        destruct (I k0 c0 j Q0 Sm Pos Lj) as (es1 & t & c' & rs & late & es2 & n & -> & SC & X & Lc & B).
        apply query_key_inj in Q; [|split; auto|auto]. destruct Q as [<- SC2].
        exists es1, t, c', rs, late, (es2 ++ [EvTouch now k c]), (S n).
        split; [rewrite <- app_assoc; auto|]. split; auto. split; [apply ext_this; auto|]. split; auto.
        assert (0 < ns c0)%Z by (unfold ns; lia). lia.
      * apply Other; auto. apply bytes_eqb_neq in Q. auto.
  - destruct O as (O1 & O2 & O3). rewrite search_key in E by auto. cbn [bind] in E.
    unfold alloc_cells, CloneResult in E. rewrite load_alloc in E. cbn [bind] in E.
    unfold alloc_cells in E.
    rewrite (load_app (qHeap q ++ rs) rs _ rs) in E by apply load_alloc. cbn [bind] in E. injection E as <- <-.
    assert (Old : forall o, age_inv (es ++ [EvFinish now k c rs late]) (mkQ ((qHeap q ++ rs) ++ rs) (qCache q) o)).
    { intro o. apply Keep; [discriminate|]. intros. apply load_app, load_app. auto. }
    destruct (0 <? scCacheDuration c) eqn:CD; [|apply Old].
    intros k0 c0 j Q0 Sm Pos Lj. cbn [qCache qHeap] in *. rewrite mload_mstore in Lj.
    destruct (bytes_eqb (wire_key k ++ EncodeSearchConfig c) (wire_key k0 ++ EncodeSearchConfig c0)) eqn:Q.
    + apply bytes_eqb_spec in Q. injection Lj as <-. cbn [ciAddrs ciExpires].
      apply query_key_inj in Q; [|split; auto|auto]. destruct Q as [<- SC2].
      exists es, now, c, rs, late, [], O. split; auto. split; auto. split; [constructor|].
      split; [apply (load_alloc rs (qHeap q ++ rs))|].
      rewrite cache_duration_small by (rewrite (same_ns _ _ SC2); auto). rewrite (same_ns _ _ SC2).
      assert (0 < ns c0)%Z by (unfold ns; lia).
      unfold expiry_of. replace (ns c0 =? 0)%Z with false by (symmetry; apply Z.eqb_neq; lia).
      replace (0 <? ns c0)%Z with true by (symmetry; apply Z.ltb_lt; lia). lia.
    + apply (Old [] k0 c0 j Q0 Sm Pos Lj).
  - destruct (existsb (Nat.eqb a) (qOut q)) eqn:X; [|injection E as <- <-; apply Same; discriminate].
    destruct (list_set (qHeap q) a x) as [h|] eqn:S; [|discriminate]. injection E as <- <-.
    apply Keep; [discriminate|]. intros key i rs Li Lc.
    apply existsb_exists in X. destruct X as (b & Hb & Q). apply Nat.eqb_eq in Q. subst b.
    destruct QI as (_ & B). destruct (B key i Li) as (k' & c' & t & rs' & late' & P & Q & R & Sx & T).
    eapply load_set; eauto. intro Hin. apply (T a Hin Hb).
  - injection E as <- <-. intros k0 c0 j Q0 Sm Pos Lj. cbn [qCache qHeap] in *. rewrite mload_mdelete in Lj.
    destruct (bytes_eqb key _); [discriminate|]. apply Same; auto. discriminate.
Qed.

Lemma qrun_age : forall byNow es es0 q q', qinv es0 q -> age_inv es0 q -> Forall event_ok es -> Forall time_ok es ->
  qrun byNow q es = Ok q' -> age_inv (es0 ++ es) q'.
Proof.
  induction es as [|e es IH]; intros es0 q q' I A F T E; cbn in E.
  - injection E as <-. rewrite app_nil_r. auto.
  - inversion F; subst. inversion T; subst. destruct (qstep byNow q e) as [[q1 a]| |] eqn:S; try discriminate. cbn in E.
    replace (es0 ++ e :: es) with ((es0 ++ [e]) ++ es) by (rewrite <- app_assoc; auto).
    eapply IH; eauto; [eapply qstep_inv; eauto|eapply qstep_age; eauto].
Qed.

Theorem lookup_age : forall byNow es q now k c q' rs,
  Forall event_ok es -> Forall time_ok es -> query_ok k c -> (ns c < 9223372036854775808)%Z ->
  qrun byNow q_empty es = Ok q ->
  qstep byNow q (EvLookup now k c) = Ok (q', Some rs) ->
  exists es1 t c' late es2 n, es = es1 ++ EvFinish t k c' rs late :: es2 /\ same_config c' c /\
    extended k c es2 n /\ (now <= t + Z.of_nat (S n) * ns c)%Z.
Proof.
  intros byNow es q now k c q' rs F T O Sm R E.
  assert (I0 : qinv [] q_empty) by (split; [constructor|discriminate]).
  pose proof (qrun_age byNow es [] q_empty q I0 ltac:(intros ? ? ? ? ? ? H; discriminate) F T R) as A.
  pose proof O as (O1 & O2 & O3). cbn [qstep] in E. rewrite search_key in E by auto. cbn [bind] in E.
  destruct (0 <? scCacheDuration c) eqn:CD; [|discriminate]. apply N.ltb_lt in CD.
  destruct (CacheGet now q _) as [i|] eqn:G; [|discriminate].
  unfold CacheGet in G. destruct (mload (qCache q) _) as [i0|] eqn:L0; [|discriminate].
  destruct (alive_at now i0) eqn:Al; [|discriminate]. injection G as ->.
  destruct (A k c i O Sm CD L0) as (es1 & t & c' & rs' & late & es2 & n & Ees & SC & X & Lc & B).
  unfold CloneResult in E. rewrite Lc in E. cbn [bind] in E. unfold alloc_cells in E.
  rewrite load_alloc in E. cbn [bind] in E. injection E as <- <-.
  exists es1, t, c', late, es2, n. repeat split; auto; try apply SC.
  unfold alive_at in Al. apply orb_true_iff in Al as [Al|Al].
  - apply Z.eqb_eq in Al. lia.
  - apply Z.leb_le in Al. lia.
Qed.

(** * Timeouts *)
Lemma shrink_timeout : forall undef t, 0 < t < M64 -> ShrinkTimeout undef t < t.
Proof.
  intros undef t [H1 H2]. unfold ShrinkTimeout, f_to_u64.
  destruct t as [|p]; [lia|]. cbn [Z.of_N].
  destruct (times_0_9_trunc p) as (z & -> & B).
  { unfold M64 in H2. change (2 ^ 64)%Z with 18446744073709551616%Z. lia. }
  unfold M64 in H2.
  replace ((0 <=? z) && (z <? 18446744073709551616))%Z with true; [lia|].
  symmetry. apply andb_true_iff. split; [apply Z.leb_le|apply Z.ltb_lt]; lia.
Qed.
