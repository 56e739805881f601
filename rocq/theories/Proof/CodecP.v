(** Lemmas about the codec model. *)
From Verif.Base Require Import GoBase GoLemmas.
From Verif.Model Require Import Codec.
From Verif.Spec Require Import Wire.
Open Scope N_scope.

Ltac Zify.zify_post_hook ::= Z.div_mod_to_equations.

(** ** Facts about single bytes, by exhaustion *)

Lemma forall_byte : forall P : N -> bool,
  forallb P (map N.of_nat (seq 0 256)) = true -> forall b, b < 256 -> P b = true.
Proof.
  intros P H b Hb. rewrite forallb_forall in H. apply H.
  apply in_map_iff. exists (N.to_nat b). split; [apply N2Nat.id|].
  apply in_seq. lia.
Qed.

Lemma lor_byte_128 : forall t, N.lor (u8 t) 128 = 128 + t mod 128.
Proof.
  intro t. unfold u8, M8.
  replace (t mod 128) with ((t mod 256) mod 128) by lia.
  assert (H : t mod 256 < 256) by lia. revert H. generalize (t mod 256) as b.
  intros b Hb. apply N.eqb_eq.
  apply (forall_byte (fun b => N.lor b 128 =? 128 + b mod 128)); auto.
Qed.

Lemma land_128_small : forall b, b < 128 -> (N.land b 128 =? 128) = false.
Proof.
  intros b Hb.
  assert (H : (128 <=? b) || negb (N.land b 128 =? 128) = true).
  { apply (forall_byte (fun b => (128 <=? b) || negb (N.land b 128 =? 128)));
      [reflexivity|lia]. }
  destruct (128 <=? b) eqn:E; [apply N.leb_le in E; lia|].
  simpl in H. apply negb_true_iff in H. exact H.
Qed.

Lemma land_128_big : forall b, b < 128 -> (N.land (128 + b) 128 =? 128) = true.
Proof.
  intros b Hb.
  assert (H : (b <? 128) && (N.land (128 + b) 128 =? 128) || (128 <=? b) = true).
  { apply (forall_byte (fun b => (b <? 128) && (N.land (128 + b) 128 =? 128) || (128 <=? b)));
      [reflexivity|lia]. }
  destruct (128 <=? b) eqn:E; [apply N.leb_le in E; lia|].
  rewrite orb_false_r in H. apply andb_true_iff in H. tauto.
Qed.

Lemma land_127 : forall b, N.land b 127 = b mod 128.
Proof. intro b. change 127 with (N.ones 7). rewrite N.land_ones. reflexivity. Qed.

Lemma lor_disjoint : forall a b k, a < 2 ^ k -> N.lor a (b * 2 ^ k) = a + b * 2 ^ k.
Proof.
  intros a b k H.
  rewrite <- N.lxor_lor, N.add_nocarry_lxor; auto.
  - apply N.bits_inj. intro i. rewrite N.land_spec, N.bits_0.
    destruct (N.lt_ge_cases i k) as [Hi|Hi].
    + rewrite N.mul_pow2_bits_low by auto. apply andb_false_r.
    + assert (E : N.testbit a i = false).
      { destruct (N.eq_dec a 0) as [->|Ha]; [apply N.bits_0|].
        apply N.bits_above_log2. apply N.log2_lt_pow2 in H; lia. }
      rewrite E. reflexivity.
  - apply N.bits_inj. intro i. rewrite N.land_spec, N.bits_0.
    destruct (N.lt_ge_cases i k) as [Hi|Hi].
    + rewrite N.mul_pow2_bits_low by auto. apply andb_false_r.
    + assert (E : N.testbit a i = false).
      { destruct (N.eq_dec a 0) as [->|Ha]; [apply N.bits_0|].
        apply N.bits_above_log2. apply N.log2_lt_pow2 in H; lia. }
      rewrite E. reflexivity.
Qed.

(** ** Reading and writing at the end of a prefix *)

Lemma put_app : forall p y s i b,
  i = blen p -> put (p ++ y :: s) i b = Ok (p ++ b :: s).
Proof.
  intros. subst. unfold put, blen. rewrite Nat2N.id, list_set_app. reflexivity.
Qed.

Lemma get_app : forall p b s i, i = blen p -> get (p ++ b :: s) i = Ok b.
Proof.
  intros. subst. unfold get, blen. rewrite Nat2N.id.
  rewrite nth_error_app2 by lia. rewrite Nat.sub_diag. reflexivity.
Qed.

Lemma byte_at_le : forall v s, byte_at v s = (v / 2 ^ s) mod 256.
Proof. intros. unfold byte_at, u8, M8. rewrite N.shiftr_div_pow2. reflexivity. Qed.

Lemma le4_eq : forall v,
  le 4 v = [byte_at v 0; byte_at v 8; byte_at v 16; byte_at v 24].
Proof.
  intro v. rewrite !byte_at_le. simpl le.
  change (2 ^ 0) with 1. change (2 ^ 8) with 256. change (2 ^ 16) with (256 * 256).
  change (2 ^ 24) with (256 * 256 * 256).
  rewrite <- !N.div_div by lia. rewrite N.div_1_r. reflexivity.
Qed.

Lemma le8_eq : forall v,
  le 8 v = [byte_at v 0; byte_at v 8; byte_at v 16; byte_at v 24;
            byte_at v 32; byte_at v 40; byte_at v 48; byte_at v 56].
Proof.
  intro v. rewrite !byte_at_le. simpl le.
  change (2 ^ 0) with 1. change (2 ^ 8) with 256. change (2 ^ 16) with (256 * 256).
  change (2 ^ 24) with (256 * 256 * 256).
  change (2 ^ 32) with (256 * 256 * 256 * 256).
  change (2 ^ 40) with (256 * 256 * 256 * 256 * 256).
  change (2 ^ 48) with (256 * 256 * 256 * 256 * 256 * 256).
  change (2 ^ 56) with (256 * 256 * 256 * 256 * 256 * 256 * 256).
  rewrite <- !N.div_div by lia. rewrite N.div_1_r. reflexivity.
Qed.

Lemma le_length : forall n v, length (le n v) = n.
Proof. induction n; simpl; intros; auto. Qed.

Lemma le_is_bytes : forall n v, is_bytes (le n v).
Proof.
  induction n; simpl; intros; constructor; [|apply IHn].
  unfold is_byte, M8. lia.
Qed.

(** Buffer shapes used below: a written prefix and a rest to be overwritten. *)
Lemma put_step : forall p z i b,
  i = blen p -> z <> [] -> put (p ++ z) i b = Ok ((p ++ [b]) ++ tl z).
Proof.
  intros p z i b -> Hz. destruct z as [|y z]; [congruence|].
  simpl. rewrite (put_app p y z _ b eq_refl). rewrite <- app_assoc. reflexivity.
Qed.

Lemma skipn_tl : forall A n (z : list A), skipn n (tl z) = skipn (S n) z.
Proof. intros A n z. destruct z; simpl; auto. destruct n; reflexivity. Qed.

Lemma put_u32_spec : forall p z i v,
  i = blen p -> (4 <= length z)%nat -> blen p + 4 < M64 ->
  put_u32 (p ++ z) i v = Ok ((p ++ le 4 v) ++ skipn 4 z).
Proof.
  intros p z i v -> Hz Hm.
  destruct z as [|z0 [|z1 [|z2 [|z3 z]]]]; simpl in Hz; try lia.
  unfold put_u32. rewrite !u64_small by lia.
  rewrite put_step by (try congruence; lia). cbn [tl bind].
  rewrite put_step by (try congruence; rewrite !blen_app, !blen_cons, blen_nil; lia). cbn [tl bind].
  rewrite put_step by (try congruence; rewrite !blen_app, !blen_cons, blen_nil; lia). cbn [tl bind].
  rewrite put_step by (try congruence; rewrite !blen_app, !blen_cons, blen_nil; lia). cbn [tl bind].
  rewrite le4_eq. rewrite <- !app_assoc. reflexivity.
Qed.

Lemma put_u64_spec : forall p z i v,
  i = blen p -> (8 <= length z)%nat -> blen p + 8 < M64 ->
  put_u64 (p ++ z) i v = Ok ((p ++ le 8 v) ++ skipn 8 z).
Proof.
  intros p z i v -> Hz Hm.
  destruct z as [|z0 [|z1 [|z2 [|z3 [|z4 [|z5 [|z6 [|z7 z]]]]]]]]; simpl in Hz; try lia.
  unfold put_u64. rewrite !u64_small by lia.
  rewrite put_step by (try congruence; lia). cbn [tl bind].
  do 7 (rewrite put_step by (try congruence; rewrite !blen_app, !blen_cons, blen_nil; lia); cbn [tl bind]).
  rewrite le8_eq. rewrite <- !app_assoc. reflexivity.
Qed.

Lemma put_features_spec : forall fs p z i,
  i = blen p -> (4 * length fs <= length z)%nat ->
  blen p + 4 * blen fs + 4 < M64 ->
  put_features (p ++ z) i fs =
    Ok ((p ++ flat_map (le 4) fs) ++ skipn (4 * length fs) z, i + 4 * blen fs).
Proof.
  induction fs as [|v fs IH]; intros p z i -> Hz Hm.
  - cbn [put_features flat_map length]. rewrite app_nil_r, blen_nil.
    simpl skipn. rewrite N.mul_0_r, N.add_0_r. reflexivity.
  - rewrite blen_cons in *. cbn [length] in Hz.
    cbn [put_features]. rewrite put_u32_spec by (auto; lia). cbn [bind].
    assert (E : blen (p ++ le 4 v) = blen p + 4).
    { rewrite blen_app. unfold blen at 2. rewrite le_length. lia. }
    rewrite u64_small by lia. rewrite <- E.
    rewrite IH; [| reflexivity | rewrite skipn_length; lia | lia].
    rewrite E. cbn [flat_map length]. rewrite <- !app_assoc. f_equal. f_equal; [|lia].
    do 3 f_equal. rewrite skipn_skipn. f_equal. lia.
Qed.

(** ** Varints *)

Lemma leb128_length : forall f v, (length (leb128 f v) <= f)%nat.
Proof.
  induction f; simpl; intros; auto. destruct (v <? 128); simpl; [lia|].
  specialize (IHf (v / 128)). lia.
Qed.

Lemma pow128_step : forall f v, 128 <= v -> v < 128 ^ N.of_nat (S f) -> v / 128 < 128 ^ N.of_nat f.
Proof.
  intros f v H1 H2. rewrite Nat2N.inj_succ, N.pow_succ_r' in H2.
  apply N.div_lt_upper_bound; lia.
Qed.

Lemma pow128_fuel : forall f v, 128 <= v -> v < 128 ^ N.of_nat (S f) -> (0 < f)%nat.
Proof.
  intros f v H1 H2. pose proof (pow128_step f v H1 H2). destruct f; [simpl in *; lia | lia].
Qed.

Lemma u64_lt_pow128 : forall v, v < M64 -> v < 128 ^ N.of_nat 10.
Proof. intros v H. eapply N.lt_le_trans; [exact H|]. vm_compute. congruence. Qed.

Lemma leb128_pos : forall f v, (0 < f)%nat -> (0 < length (leb128 f v))%nat.
Proof. destruct f; simpl; intros; [lia|]. destruct (v <? 128); simpl; lia. Qed.

Lemma size_varint_spec : forall f v s,
  (0 < f)%nat -> v < 128 ^ N.of_nat f -> s + N.of_nat f < M64 ->
  size_varint f v s = Ok (s + blen (leb128 f v)).
Proof.
  induction f as [|f IH]; intros v s Hf Hv Hs.
  - lia.
  - cbn [size_varint leb128]. destruct (128 <=? v) eqn:E.
    + apply N.leb_le in E.
      assert (E' : (v <? 128) = false) by (apply N.ltb_ge; auto). rewrite E'.
      rewrite u64_small by lia. rewrite N.shiftr_div_pow2. change (2 ^ 7) with 128.
      rewrite IH; [|apply (pow128_fuel f v); auto|apply pow128_step; auto|lia]. rewrite blen_cons. f_equal. lia.
    + apply N.leb_gt in E.
      assert (E' : (v <? 128) = true) by (apply N.ltb_lt; auto). rewrite E'.
      rewrite u64_small by lia. rewrite blen_cons, blen_nil. f_equal.
Qed.

Lemma put_varint_spec : forall f o v p z i,
  (0 < f)%nat -> v < 128 ^ N.of_nat f -> i + o = blen p ->
  (length (leb128 f v) <= length z)%nat ->
  blen p + N.of_nat f < M64 ->
  put_varint f o (p ++ z) i v =
    Ok ((p ++ leb128 f v) ++ skipn (length (leb128 f v)) z, i + blen (leb128 f v)).
Proof.
  induction f as [|f IH]; intros o v p z i Hf Hv Hi Hz Hm.
  - lia.
  - cbn [put_varint leb128] in *. destruct (128 <=? v) eqn:E.
    + apply N.leb_le in E.
      assert (E' : (v <? 128) = false) by (apply N.ltb_ge; auto). rewrite E' in *.
      cbn [length] in Hz.
      rewrite (u64_small (i + o)) by lia.
      rewrite put_step; [|lia|destruct z; [simpl in Hz; lia|congruence]].
      cbn [bind]. rewrite lor_byte_128.
      rewrite N.shiftr_div_pow2. change (2 ^ 7) with 128.
      rewrite u64_small by lia.
      rewrite IH;
        [ | apply (pow128_fuel f v); auto | apply pow128_step; auto | rewrite blen_app, blen_cons, blen_nil; lia
          | destruct z; simpl in *; lia
          | rewrite blen_app, blen_cons, blen_nil; lia ].
      rewrite blen_cons. cbn [length]. rewrite <- !app_assoc.
      f_equal. f_equal; [|lia].
      simpl. do 3 f_equal. destruct z; [|reflexivity]. simpl.
      destruct (length (leb128 f (v / 128))); reflexivity.
    + apply N.leb_gt in E.
      assert (E' : (v <? 128) = true) by (apply N.ltb_lt; auto). rewrite E' in *.
      cbn [length] in Hz.
      rewrite (u64_small (i + o)) by lia.
      rewrite put_step; [|lia|destruct z; [simpl in Hz; lia|congruence]].
      cbn [bind]. rewrite u64_small by lia.
      unfold u8, M8. rewrite N.mod_small by lia.
      rewrite blen_cons, blen_nil. destruct z; [simpl in Hz; lia|]. reflexivity.
Qed.

Lemma get_varint_loop_spec : forall f v p s fuel o i k base,
  (0 < f)%nat -> v < 128 ^ N.of_nat f -> (length (leb128 f v) <= fuel)%nat ->
  i + o = blen p -> base < 2 ^ (7 * k) -> 7 * (k + N.of_nat f) + 7 < 256 ->
  base + v * 2 ^ (7 * k) < M64 -> blen p + N.of_nat f < M64 ->
  get_varint_loop fuel o (p ++ leb128 f v ++ s) i
      (base + (v mod 128) * 2 ^ (7 * k)) (7 * (k + 1)) =
    Ok (base + v * 2 ^ (7 * k), i + blen (leb128 f v)).
Proof.
  induction f as [|f IH]; intros v p s fuel o i k base Hf Hv Hfu Hi Hb Hbs Hval Hm.
  - lia.
  - destruct fuel as [|fuel].
    { pose proof (leb128_pos (S f) v). lia. }
    cbn [leb128] in *. destruct (v <? 128) eqn:E.
    + apply N.ltb_lt in E.
      cbn [get_varint_loop]. rewrite (u64_small (i + o)) by lia.
      change ([v] ++ s) with (v :: s).
      rewrite get_app by lia. cbn [bind].
      rewrite land_128_small by auto.
      rewrite u64_small by lia. rewrite blen_cons, blen_nil.
      rewrite N.mod_small by lia. f_equal.
    + apply N.ltb_ge in E.
      pose proof (pow128_step f v E Hv) as Hq.
      assert (Hf0 : (0 < f)%nat).
      { destruct f; [simpl in Hq; lia | lia]. }
      cbn [get_varint_loop]. rewrite (u64_small (i + o)) by lia.
      cbn [length] in Hfu.
      rewrite <- app_comm_cons.
      rewrite get_app by lia. cbn [bind].
      assert (Hr : v mod 128 < 128) by (apply N.mod_lt; lia).
      rewrite land_128_big by auto.
      rewrite (u64_small (i + 1)) by lia.
      rewrite (u64_small (i + 1 + o)) by lia.
      (* next digit *)
      assert (Hnext : exists r, leb128 f (v / 128) = r /\
                 exists b t, r = b :: t /\ b mod 128 = (v / 128) mod 128).
      { exists (leb128 f (v / 128)). split; auto.
        destruct f; [lia|]. cbn [leb128]. destruct (v / 128 <? 128) eqn:E2.
        - eexists; eexists; split; reflexivity.
        - eexists; eexists; split; [reflexivity|]. lia. }
      destruct Hnext as (r & Hr' & b & t & -> & Hbmod).
      replace (p ++ 128 + v mod 128 :: leb128 f (v / 128) ++ s)
        with ((p ++ [128 + v mod 128]) ++ leb128 f (v / 128) ++ s)
        by (rewrite <- app_assoc; reflexivity).
      rewrite Hr' at 1. rewrite <- app_comm_cons.
      rewrite get_app by (rewrite blen_app, blen_cons, blen_nil; lia).
      cbn [bind].
      rewrite land_127, Hbmod, N.shiftl_mul_pow2.
      assert (Hdm : v = 128 * (v / 128) + v mod 128) by (apply N.div_mod; lia).
      assert (Hpow : 2 ^ (7 * (k + 1)) = 128 * 2 ^ (7 * k)).
      { replace (7 * (k + 1)) with (7 * k + 7) by lia. rewrite N.pow_add_r.
        change (2 ^ 7) with 128. lia. }
      assert (Hdig : v / 128 mod 128 <= v / 128) by (apply N.mod_le; lia).
      assert (Hle : (v / 128 mod 128) * 2 ^ (7 * (k + 1)) <= v * 2 ^ (7 * k)).
      { rewrite Hpow. set (P := 2 ^ (7 * k)) in *.
        apply N.le_trans with ((128 * (v / 128)) * P);
          [|apply N.mul_le_mono_r; lia].
        rewrite (N.mul_assoc _ 128). apply N.mul_le_mono_r. lia. }
      rewrite u64_small by lia.
      assert (Hbase : base + v mod 128 * 2 ^ (7 * k) < 2 ^ (7 * (k + 1))).
      { rewrite Hpow. set (P := 2 ^ (7 * k)) in *. nia. }
      rewrite lor_disjoint by auto.
      assert (Hu8 : u8 (7 * (k + 1) + 7) = 7 * (k + 1 + 1)).
      { unfold u8, M8. rewrite N.mod_small; lia. }
      rewrite Hu8.
      clear Hr' Hbmod b t.
      assert (Hsum : base + v mod 128 * 2 ^ (7 * k) + v / 128 * 2 ^ (7 * (k + 1))
                     = base + v * 2 ^ (7 * k)).
      { rewrite Hpow. set (P := 2 ^ (7 * k)) in *.
        rewrite Hdm at 3. rewrite N.mul_add_distr_r. lia. }
      assert (Hbl : blen (p ++ [128 + v mod 128]) = blen p + 1)
        by (rewrite blen_app, blen_cons, blen_nil; lia).
      rewrite (IH (v / 128) (p ++ [128 + v mod 128]) s fuel o (i + 1) (k + 1)
                  (base + v mod 128 * 2 ^ (7 * k)));
        [ | lia | exact Hq | lia | lia | exact Hbase | lia | lia | lia ].
      rewrite Hsum, blen_cons. f_equal. f_equal. lia.
Qed.

Lemma get_varint_spec : forall v p s o i,
  v < M64 -> i + o = blen p -> blen p + 10 < M64 ->
  get_varint o (p ++ varint v ++ s) i = Ok (v, i + blen (varint v)).
Proof.
  intros v p s o i Hv Hi Hm. unfold get_varint, varint.
  rewrite (u64_small (i + o)) by lia.
  assert (Hnext : exists b t, leb128 10 v = b :: t /\ b mod 128 = v mod 128).
  { change (leb128 10 v) with (if v <? 128 then [v] else (128 + v mod 128) :: leb128 9 (v / 128)).
    destruct (v <? 128); eexists; eexists; split; try reflexivity. lia. }
  destruct Hnext as (b & t & E & Hb).
  rewrite E at 1. rewrite <- app_comm_cons, get_app by lia.
  cbn [bind]. rewrite land_127, Hb. clear E b t Hb.
  pose proof (get_varint_loop_spec 10 v p s (S (length (p ++ leb128 10 v ++ s))) o i 0 0) as H.
  change (7 * 0) with 0 in H. change (2 ^ 0) with 1 in H. rewrite !N.mul_1_r, !N.add_0_l in H.
  change (7 * 1) with 7 in H. apply H; auto; try lia.
  - apply u64_lt_pow128; auto.
  - rewrite !app_length. lia.
Qed.

(** ** Fixed-width reads *)

Lemma get_u32_spec : forall v p s i,
  is_u32 v -> i = blen p -> blen p + 4 < M64 ->
  get_u32 (p ++ le 4 v ++ s) i = Ok v.
Proof.
  intros v p s i Hv -> Hm. unfold is_u32, M32 in Hv. unfold get_u32.
  rewrite !u64_small by lia. simpl le. cbn [app].
  rewrite get_app by lia. cbn [bind].
  set (b0 := v mod 256). set (b1 := v / 256 mod 256).
  set (b2 := v / 256 / 256 mod 256). set (b3 := v / 256 / 256 / 256 mod 256).
  replace (p ++ b0 :: b1 :: b2 :: b3 :: s) with ((p ++ [b0]) ++ b1 :: b2 :: b3 :: s)
    by (rewrite <- app_assoc; reflexivity).
  rewrite get_app by (rewrite blen_app, blen_cons, blen_nil; lia). cbn [bind].
  replace ((p ++ [b0]) ++ b1 :: b2 :: b3 :: s) with ((p ++ [b0; b1]) ++ b2 :: b3 :: s)
    by (rewrite <- !app_assoc; reflexivity).
  rewrite get_app by (rewrite blen_app, !blen_cons, blen_nil; lia). cbn [bind].
  replace ((p ++ [b0; b1]) ++ b2 :: b3 :: s) with ((p ++ [b0; b1; b2]) ++ b3 :: s)
    by (rewrite <- !app_assoc; reflexivity).
  rewrite get_app by (rewrite blen_app, !blen_cons, blen_nil; lia). cbn [bind].
  f_equal. rewrite !N.shiftl_mul_pow2.
  assert (H0 : b0 < 256) by (unfold b0; lia).
  assert (H1 : b1 < 256) by (unfold b1; lia).
  assert (H2 : b2 < 256) by (unfold b2; lia).
  assert (H3 : b3 < 256) by (unfold b3; lia).
  assert (Hs : v = b0 + b1 * 256 + b2 * 65536 + b3 * 16777216).
  { unfold b0, b1, b2, b3. lia. }
  clearbody b0 b1 b2 b3. subst v.
  change (2 ^ 0) with 1. rewrite N.mul_1_r.
  unfold u32, M32.
  change (2 ^ 8) with 256. change (2 ^ 16) with 65536. change (2 ^ 24) with 16777216.
  rewrite !N.mod_small by lia.
  change 256 with (2 ^ 8) at 1. rewrite lor_disjoint by (change (2 ^ 8) with 256; lia).
  change (2 ^ 8) with 256.
  change 65536 with (2 ^ 16) at 1. rewrite lor_disjoint by (change (2 ^ 16) with 65536; lia).
  change (2 ^ 16) with 65536.
  change 16777216 with (2 ^ 24) at 1. rewrite lor_disjoint by (change (2 ^ 24) with 16777216; lia).
  reflexivity.
Qed.

Lemma get_off : forall p l k b, nth_error l (N.to_nat k) = Some b ->
  get (p ++ l) (blen p + k) = Ok b.
Proof.
  intros. unfold get, blen. rewrite nth_error_app2 by lia.
  replace (N.to_nat (N.of_nat (length p) + k) - length p)%nat with (N.to_nat k) by lia.
  rewrite H. reflexivity.
Qed.

Lemma get_u64_spec : forall v p s i,
  is_u64 v -> i = blen p -> blen p + 8 < M64 ->
  get_u64 (p ++ le 8 v ++ s) i = Ok v.
Proof.
  intros v p s i Hv -> Hm. unfold is_u64 in Hv.
  unfold get_u64. rewrite !u64_small by lia. simpl le. cbn [app].
  set (b0 := v mod 256). set (b1 := v / 256 mod 256).
  set (b2 := v / 256 / 256 mod 256). set (b3 := v / 256 / 256 / 256 mod 256).
  set (b4 := v / 256 / 256 / 256 / 256 mod 256).
  set (b5 := v / 256 / 256 / 256 / 256 / 256 mod 256).
  set (b6 := v / 256 / 256 / 256 / 256 / 256 / 256 mod 256).
  set (b7 := v / 256 / 256 / 256 / 256 / 256 / 256 / 256 mod 256).
  rewrite (get_off p _ _ b0) by reflexivity. cbn [bind].
  rewrite (get_off p _ _ b1) by reflexivity. cbn [bind].
  rewrite (get_off p _ _ b2) by reflexivity. cbn [bind].
  rewrite (get_off p _ _ b3) by reflexivity. cbn [bind].
  rewrite (get_off p _ _ b4) by reflexivity. cbn [bind].
  rewrite (get_off p _ _ b5) by reflexivity. cbn [bind].
  rewrite (get_off p _ _ b6) by reflexivity. cbn [bind].
  rewrite (get_off p _ _ b7) by reflexivity. cbn [bind].
  f_equal. rewrite !N.shiftl_mul_pow2.
  assert (Hd : forall x, x = 256 * (x / 256) + x mod 256 /\ x mod 256 < 256).
  { intro x. split; [apply N.div_mod; discriminate|apply N.mod_lt; discriminate]. }
  destruct (Hd v) as [E0 H0]. fold b0 in E0, H0. clearbody b0.
  set (q1 := v / 256) in *. destruct (Hd q1) as [E1 H1]. fold b1 in E1, H1. clearbody b1.
  set (q2 := q1 / 256) in *. destruct (Hd q2) as [E2 H2]. fold b2 in E2, H2. clearbody b2.
  set (q3 := q2 / 256) in *. destruct (Hd q3) as [E3 H3]. fold b3 in E3, H3. clearbody b3.
  set (q4 := q3 / 256) in *. destruct (Hd q4) as [E4 H4]. fold b4 in E4, H4. clearbody b4.
  set (q5 := q4 / 256) in *. destruct (Hd q5) as [E5 H5]. fold b5 in E5, H5. clearbody b5.
  set (q6 := q5 / 256) in *. destruct (Hd q6) as [E6 H6]. fold b6 in E6, H6. clearbody b6.
  set (q7 := q6 / 256) in *. destruct (Hd q7) as [E7 H7]. fold b7 in E7, H7. clearbody b7.
  set (q8 := q7 / 256) in *. clearbody q8. clearbody q7. clearbody q6.
  clearbody q5. clearbody q4. clearbody q3. clearbody q2. clearbody q1.
  clear Hd.
  assert (Hs : v = b0 + b1 * 2 ^ 8 + b2 * 2 ^ 16 + b3 * 2 ^ 24 + b4 * 2 ^ 32
                   + b5 * 2 ^ 40 + b6 * 2 ^ 48 + b7 * 2 ^ 56).
  { unfold M64 in Hv.
    change (2 ^ 8) with 256. change (2 ^ 16) with 65536.
    change (2 ^ 24) with 16777216. change (2 ^ 32) with 4294967296.
    change (2 ^ 40) with 1099511627776. change (2 ^ 48) with 281474976710656.
    change (2 ^ 56) with 72057594037927936. lia. }
  clear E0 E1 E2 E3 E4 E5 E6 E7. clear q1 q2 q3 q4 q5 q6 q7 q8. subst v.
  change (2 ^ 0) with 1. rewrite N.mul_1_r.
  unfold u64, M64 in *.
  rewrite !N.mod_small by
    (change (2 ^ 8) with 256; change (2 ^ 16) with 65536;
     change (2 ^ 24) with 16777216; change (2 ^ 32) with 4294967296;
     change (2 ^ 40) with 1099511627776; change (2 ^ 48) with 281474976710656;
     change (2 ^ 56) with 72057594037927936; lia).
  rewrite (lor_disjoint _ _ 8) by (change (2 ^ 8) with 256; lia).
  rewrite (lor_disjoint _ _ 16) by (change (2 ^ 8) with 256; change (2 ^ 16) with 65536; lia).
  rewrite (lor_disjoint _ _ 24) by (change (2 ^ 8) with 256; change (2 ^ 16) with 65536;
     change (2 ^ 24) with 16777216; lia).
  rewrite (lor_disjoint _ _ 32) by (change (2 ^ 8) with 256; change (2 ^ 16) with 65536;
     change (2 ^ 24) with 16777216; change (2 ^ 32) with 4294967296; lia).
  rewrite (lor_disjoint _ _ 40) by (change (2 ^ 8) with 256; change (2 ^ 16) with 65536;
     change (2 ^ 24) with 16777216; change (2 ^ 32) with 4294967296;
     change (2 ^ 40) with 1099511627776; lia).
  rewrite (lor_disjoint _ _ 48) by (change (2 ^ 8) with 256; change (2 ^ 16) with 65536;
     change (2 ^ 24) with 16777216; change (2 ^ 32) with 4294967296;
     change (2 ^ 40) with 1099511627776; change (2 ^ 48) with 281474976710656; lia).
  rewrite (lor_disjoint _ _ 56) by (change (2 ^ 8) with 256; change (2 ^ 16) with 65536;
     change (2 ^ 24) with 16777216; change (2 ^ 32) with 4294967296;
     change (2 ^ 40) with 1099511627776; change (2 ^ 48) with 281474976710656;
     change (2 ^ 56) with 72057594037927936; lia).
  reflexivity.
Qed.
