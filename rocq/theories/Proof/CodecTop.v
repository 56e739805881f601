(** The encoders produce the wire format; the decoders invert it. *)
From Verif.Base Require Import GoBase GoLemmas.
From Verif.Model Require Import Codec.
From Verif.Spec Require Import Wire.
From Verif.Proof Require Import CodecP.
Open Scope N_scope.

Lemma flat_map_le_length : forall n fs, length (flat_map (le n) fs) = (n * length fs)%nat.
Proof.
  induction fs as [|v fs IH]; simpl; [lia|]. rewrite app_length, le_length, IH. lia.
Qed.

Lemma blen_length : forall A (a : list A), N.to_nat (blen a) = length a.
Proof. intros. unfold blen. apply Nat2N.id. Qed.

Lemma varint_len : forall v, (length (varint v) <= 10)%nat.
Proof. intro. apply leb128_length. Qed.

Lemma varint_blen : forall v, blen (varint v) <= 10.
Proof. intro v. pose proof (varint_len v). unfold blen. lia. Qed.

Lemma blen_flat : forall fs, blen (flat_map (le 4) fs) = 4 * blen fs.
Proof. intros. unfold blen. rewrite flat_map_le_length. lia. Qed.

Lemma blen_le : forall n v, blen (le n v) = N.of_nat n.
Proof. intros. unfold blen. rewrite le_length. reflexivity. Qed.

Lemma wire_key_blen : forall k,
  blen (wire_key k) = blen (varint (blen (feature k))) + 4 * blen (feature k)
    + blen (varint (blen (groupLabel k))) + blen (groupLabel k) + 16.
Proof.
  intro k. unfold wire_key. rewrite !blen_app, !blen_le, blen_flat. lia.
Qed.

Lemma fits_bound : forall k, key_fits k -> blen (wire_key k) + 100 < M63.
Proof.
  intros k [H1 H2]. rewrite wire_key_blen.
  pose proof (varint_blen (blen (feature k))).
  pose proof (varint_blen (blen (groupLabel k))). unfold M63. lia.
Qed.

Lemma size_varint10 : forall v s, v < M64 -> s + 10 < M64 ->
  size_varint 10 v s = Ok (s + blen (varint v)).
Proof.
  intros. apply size_varint_spec; [lia|apply u64_lt_pow128; auto|lia].
Qed.

Lemma SizeKey_spec : forall k, key_fits k -> SizeKey (Some k) = Ok (blen (wire_key k)).
Proof.
  intros k Hf. pose proof (fits_bound k Hf) as Hb. rewrite wire_key_blen in *.
  destruct Hf as [H1 H2]. unfold SizeKey, M63 in *.
  pose proof (varint_blen (blen (feature k))) as L1.
  pose proof (varint_blen (blen (groupLabel k))) as L2.
  rewrite size_varint10 by (unfold M64; lia). cbn [bind].
  rewrite (u64_small (_ + 4 * _)) by (unfold M64; lia).
  rewrite size_varint10 by (unfold M64; lia). cbn [bind].
  rewrite (u64_small (_ + _ + blen (groupLabel k))) by (unfold M64; lia).
  rewrite u64_small by (unfold M64; lia). f_equal; lia.
Qed.

Lemma copy_into_spec : forall p z i src,
  i = blen p -> (length src <= length z)%nat ->
  copy_into (p ++ z) i src = Ok ((p ++ src) ++ skipn (length src) z).
Proof.
  intros p z i src -> H. unfold copy_into, slice_from.
  assert (E : (blen p <=? blen (p ++ z)) = true)
    by (apply N.leb_le; rewrite blen_app; lia).
  rewrite E. cbn [bind]. rewrite blen_length.
  f_equal. rewrite firstn_app, firstn_all, Nat.sub_diag. simpl firstn.
  rewrite app_nil_r, <- app_assoc. f_equal. f_equal.
  - rewrite app_length. apply firstn_all2. lia.
  - rewrite skipn_app. rewrite skipn_all2 by lia. simpl. f_equal. lia.
Qed.

Lemma slice_to_all : forall b, slice_to b (blen b) = Ok b.
Proof.
  intros. unfold slice_to. rewrite N.leb_refl, blen_length, firstn_all. reflexivity.
Qed.

Lemma MarshalKey_spec : forall k, key_fits k -> MarshalKey (Some k) = Ok (wire_key k).
Proof.
  intros k Hf. unfold MarshalKey. rewrite SizeKey_spec by auto. cbn [bind].
  pose proof (fits_bound k Hf) as Hb. unfold M63 in Hb.
  pose proof (wire_key_blen k) as HL.
  set (nf := blen (feature k)) in *. set (ng := blen (groupLabel k)) in *.
  assert (Hnf : nf < M64) by (unfold M64; lia).
  assert (Hng : ng < M64) by (unfold M64; lia).
  pose proof (varint_len nf) as L1. pose proof (varint_len ng) as L2.
  assert (Hz : length (repeat 0 (N.to_nat (blen (wire_key k)))) =
               (length (varint nf) + 4 * length (feature k) + length (varint ng)
                + length (groupLabel k) + 16)%nat).
  { rewrite repeat_length. rewrite HL. unfold nf, ng, blen. lia. }
  set (z := repeat 0 (N.to_nat (blen (wire_key k)))) in *.
  change z with ([] ++ z). unfold varint in *.
  rewrite put_varint_spec;
    [ | lia | apply u64_lt_pow128; auto | rewrite blen_nil; lia | lia
      | rewrite blen_nil; unfold M64; lia ].
  cbn [bind]. cbn [app]. rewrite N.add_0_l.
  rewrite put_features_spec;
    [ | reflexivity | rewrite skipn_length; lia
      | fold nf; unfold M64; lia ].
  cbn [bind]. fold nf.
  rewrite skipn_skipn.
  rewrite put_varint_spec;
    [ | lia | apply u64_lt_pow128; auto
      | rewrite blen_app, blen_flat; fold nf; lia
      | rewrite skipn_length; lia
      | rewrite blen_app, blen_flat; fold nf; unfold M64; lia ].
  cbn [bind]. rewrite skipn_skipn.
  rewrite copy_into_spec;
    [ | rewrite !blen_app, blen_flat; fold nf; lia | rewrite skipn_length; lia ].
  cbn [bind]. rewrite skipn_skipn. fold ng.
  set (p := ((leb128 10 nf ++ flat_map (le 4) (feature k)) ++ leb128 10 ng) ++ groupLabel k) in *.
  assert (Hp : blen p = blen (leb128 10 nf) + 4 * nf + blen (leb128 10 ng) + ng).
  { unfold p. rewrite !blen_app, blen_flat. fold nf ng. lia. }
  assert (Hi : u64 (blen (leb128 10 nf) + 4 * nf + blen (leb128 10 ng) + ng) = blen p).
  { rewrite u64_small by (unfold M64; lia). lia. }
  rewrite Hi.
  set (rest := skipn _ z).
  assert (Hrest : length rest = 16%nat).
  { unfold rest. rewrite skipn_length. lia. }
  rewrite put_u32_spec by (auto; try lia; unfold M64; lia). cbn [bind].
  rewrite put_u32_spec;
    [ | rewrite blen_app, blen_le, u64_small by (unfold M64; lia); lia
      | rewrite skipn_length; lia
      | rewrite blen_app, blen_le; unfold M64; lia ].
  cbn [bind].
  rewrite put_u32_spec;
    [ | rewrite !blen_app, !blen_le, u64_small by (unfold M64; lia); lia
      | rewrite !skipn_length; lia
      | rewrite !blen_app, !blen_le; unfold M64; lia ].
  cbn [bind].
  rewrite put_u32_spec;
    [ | rewrite !blen_app, !blen_le, u64_small by (unfold M64; lia); lia
      | rewrite !skipn_length; lia
      | rewrite !blen_app, !blen_le; unfold M64; lia ].
  cbn [bind].
  rewrite !skipn_skipn. rewrite (skipn_all2 rest) by lia. rewrite app_nil_r.
  assert (E : (((p ++ le 4 (size1 k)) ++ le 4 (size2 k)) ++ le 4 (dim1 k)) ++ le 4 (dim2 k)
              = wire_key k).
  { unfold p, wire_key, varint. fold nf ng. rewrite <- !app_assoc. reflexivity. }
  rewrite E. replace (u64 (blen p + 16)) with (blen (wire_key k)); [apply slice_to_all|].
  rewrite u64_small by (unfold M64; lia). unfold varint in HL. lia.
Qed.

Lemma value_fits_bound : forall v, value_fits v -> blen (wire_value v) + 100 < M63.
Proof.
  intros v H. unfold value_fits in H. unfold wire_value. rewrite !blen_app, blen_le.
  pose proof (varint_blen (blen (label v))). unfold M63. lia.
Qed.

Lemma SizeValue_spec : forall v, value_fits v -> SizeValue (Some v) = Ok (blen (wire_value v)).
Proof.
  intros v Hf. unfold value_fits in Hf. unfold SizeValue.
  pose proof (varint_blen (blen (label v))) as L1.
  rewrite size_varint10 by (unfold M64; lia). cbn [bind].
  rewrite (u64_small (_ + blen _)) by (unfold M64; lia).
  rewrite u64_small by (unfold M64; lia). f_equal.
  unfold wire_value. rewrite !blen_app, blen_le. lia.
Qed.

Lemma MarshalValue_spec : forall v, value_fits v -> MarshalValue (Some v) = Ok (wire_value v).
Proof.
  intros v Hf. unfold MarshalValue. rewrite SizeValue_spec by auto. cbn [bind].
  pose proof (value_fits_bound v Hf) as Hb. unfold M63 in Hb.
  assert (HL : blen (wire_value v) = 8 + blen (varint (blen (label v))) + blen (label v)).
  { unfold wire_value. rewrite !blen_app, blen_le. lia. }
  set (n := blen (label v)) in *.
  assert (Hn : n < M64) by (unfold M64; lia).
  assert (Hz : length (repeat 0 (N.to_nat (blen (wire_value v)))) =
               (8 + length (varint n) + length (label v))%nat).
  { rewrite repeat_length, HL. unfold n, blen. lia. }
  set (z := repeat 0 (N.to_nat (blen (wire_value v)))) in *.
  change z with ([] ++ z).
  rewrite put_u64_spec;
    [ | reflexivity | lia | rewrite blen_nil; unfold M64; lia ].
  cbn [bind]. rewrite app_nil_l.
  unfold varint in *.
  rewrite put_varint_spec;
    [ | lia | apply u64_lt_pow128; auto | rewrite blen_le; reflexivity
      | rewrite skipn_length; lia | rewrite blen_le; unfold M64; lia ].
  cbn [bind]. rewrite skipn_skipn.
  pose proof (varint_blen n) as L1. unfold varint in L1.
  rewrite (u64_small (0 + _ + 8)) by (unfold M64; lia).
  rewrite copy_into_spec;
    [ | rewrite blen_app, blen_le; lia | rewrite skipn_length; lia ].
  cbn [bind]. rewrite skipn_skipn. rewrite skipn_all2 by lia. rewrite app_nil_r.
  fold n. rewrite (u64_small (0 + _ + n)) by (unfold M64; lia).
  rewrite u64_small by (unfold M64; lia).
  rewrite <- app_assoc. change (leb128 10 n) with (varint n).
  change (le 8 (version v) ++ varint n ++ label v) with (wire_value v).
  replace (0 + blen (varint n) + n + 8) with (blen (wire_value v)); [apply slice_to_all|].
  unfold varint. lia.
Qed.

(** ** Decoders on the wire format *)

Lemma get_features_spec : forall fs p s acc fuel i n,
  Forall is_u32 fs -> (length fs <= fuel)%nat -> i = blen p -> n = blen fs ->
  blen p + 4 * blen fs + 4 < M64 ->
  get_features fuel (p ++ flat_map (le 4) fs ++ s) i n acc =
    Ok (rev acc ++ fs, i + 4 * n).
Proof.
  induction fs as [|v fs IH]; intros p s acc fuel i n Hfs Hfu -> -> Hm.
  - destruct fuel; cbn; rewrite app_nil_r, N.add_0_r; reflexivity.
  - inversion Hfs; subst. rewrite blen_cons in *.
    destruct fuel as [|fuel]; [simpl in Hfu; lia|].
    cbn [get_features flat_map].
    assert (E : (1 + blen fs =? 0) = false) by (apply N.eqb_neq; lia). rewrite E.
    rewrite <- app_assoc. rewrite get_u32_spec by (auto; lia). cbn [bind].
    rewrite u64_small by lia.
    rewrite app_assoc.
    rewrite IH; [ | auto | simpl in Hfu; lia | rewrite blen_app, blen_le; lia
                 | lia | rewrite blen_app, blen_le; lia ].
    cbn [rev]. rewrite <- app_assoc. cbn [app]. f_equal. f_equal. lia.
Qed.

Lemma get_label_spec : forall p g s i l,
  i = blen p -> l = blen g -> l <= 281474976710656 ->
  get_label (p ++ g ++ s) i l = Ok g.
Proof.
  intros p g s i l -> -> Hl. unfold get_label, make_ok, slice_from.
  assert (E : (1 * blen g <=? 281474976710656) = true) by (apply N.leb_le; lia).
  rewrite E.
  assert (E2 : (blen p <=? blen (p ++ g ++ s)) = true)
    by (apply N.leb_le; rewrite blen_app; lia).
  rewrite E2. cbn [bind]. rewrite !blen_length.
  rewrite skipn_app, skipn_all, Nat.sub_diag. simpl skipn. rewrite app_nil_l.
  rewrite firstn_app, firstn_all, Nat.sub_diag. simpl firstn. rewrite app_nil_r.
  rewrite Nat.sub_diag. simpl repeat. rewrite app_nil_r. reflexivity.
Qed.

Lemma UnmarshalKey_spec : forall k s, key_ok k -> key_fits k ->
  UnmarshalKey (wire_key k ++ s) = Ok (k, blen (wire_key k)).
Proof.
  intros k s Hk Hf.
  pose proof (fits_bound k Hf) as Hb. unfold M63 in Hb.
  pose proof (wire_key_blen k) as HL.
  destruct Hf as [Hf1 Hf2].
  destruct Hk as (Kf & Kg & K1 & K2 & K3 & K4).
  set (nf := blen (feature k)) in *. set (ng := blen (groupLabel k)) in *.
  assert (Hnf : nf < M64) by (unfold M64; lia).
  assert (Hng : ng < M64) by (unfold M64; lia).
  rewrite HL. set (a := blen (varint nf)) in *. set (b := blen (varint ng)) in *.
  pose proof (varint_blen nf) as La. fold a in La.
  pose proof (varint_blen ng) as Lb. fold b in Lb.
  (* the buffer, seen from each reading position *)
  pose (t6 := le 4 (dim2 k) ++ s).
  pose (t5 := le 4 (dim1 k) ++ t6).
  pose (t4 := le 4 (size2 k) ++ t5).
  pose (t3 := le 4 (size1 k) ++ t4).
  pose (t2 := groupLabel k ++ t3).
  pose (t1 := varint ng ++ t2).
  pose (t0 := flat_map (le 4) (feature k) ++ t1).
  assert (B : wire_key k ++ s = varint nf ++ t0).
  { unfold wire_key, t0, t1, t2, t3, t4, t5, t6. fold nf ng. rewrite <- !app_assoc. reflexivity. }
  unfold UnmarshalKey. rewrite B.
  pose proof (get_varint_spec nf [] t0 0 0 Hnf eq_refl) as V1.
  rewrite app_nil_l in V1. rewrite V1 by (rewrite blen_nil; unfold M64; lia).
  cbn [bind]. rewrite N.add_0_l. fold a.
  assert (M : make_ok 4 nf = true) by (unfold make_ok; apply N.leb_le; lia).
  rewrite M.
  unfold t0.
  rewrite get_features_spec;
    [ | auto | rewrite !app_length, flat_map_le_length; lia | reflexivity
      | reflexivity | fold nf; fold a; unfold M64; lia ].
  cbn [bind rev]. rewrite app_nil_l.
  rewrite app_assoc.
  set (p1 := varint nf ++ flat_map (le 4) (feature k)).
  assert (Hp1 : blen p1 = a + 4 * nf)
    by (unfold p1; rewrite blen_app, blen_flat; reflexivity).
  unfold t1.
  rewrite get_varint_spec by (auto; try lia; unfold M64; lia).
  cbn [bind]. fold b. rewrite app_assoc.
  set (p2 := p1 ++ varint ng).
  assert (Hp2 : blen p2 = a + 4 * nf + b) by (unfold p2; rewrite blen_app; lia).
  unfold t2. rewrite get_label_spec by (auto; lia).
  cbn [bind]. rewrite app_assoc.
  set (p3 := p2 ++ groupLabel k).
  assert (Hp3 : blen p3 = a + 4 * nf + b + ng) by (unfold p3; rewrite blen_app; lia).
  rewrite (u64_small (a + 4 * nf + b + ng)) by (unfold M64; lia).
  unfold t3. rewrite get_u32_spec by (auto; unfold M64; lia).
  cbn [bind]. rewrite app_assoc.
  rewrite (u64_small (_ + 4)) by (unfold M64; lia).
  unfold t4. rewrite get_u32_spec;
    [ | auto | rewrite blen_app, blen_le; lia | rewrite blen_app, blen_le; unfold M64; lia ].
  cbn [bind]. rewrite app_assoc.
  rewrite (u64_small (_ + 8)) by (unfold M64; lia).
  unfold t5. rewrite get_u32_spec;
    [ | auto | rewrite !blen_app, !blen_le; lia | rewrite !blen_app, !blen_le; unfold M64; lia ].
  cbn [bind]. rewrite app_assoc.
  rewrite (u64_small (_ + 12)) by (unfold M64; lia).
  unfold t6. rewrite get_u32_spec;
    [ | auto | rewrite !blen_app, !blen_le; lia | rewrite !blen_app, !blen_le; unfold M64; lia ].
  cbn [bind].
  rewrite u64_small by (unfold M64; lia).
  f_equal. f_equal. destruct k; reflexivity.
Qed.

Lemma UnmarshalValue_spec : forall v s, value_ok v -> value_fits v ->
  UnmarshalValue (wire_value v ++ s) = Ok (v, blen (wire_value v)).
Proof.
  intros v s [Hv Hl] Hf.
  pose proof (value_fits_bound v Hf) as Hb. unfold M63 in Hb. unfold value_fits in Hf.
  assert (HL : blen (wire_value v) = 8 + blen (varint (blen (label v))) + blen (label v)).
  { unfold wire_value. rewrite !blen_app, blen_le. lia. }
  rewrite HL in *. unfold UnmarshalValue, wire_value. rewrite <- !app_assoc.
  pose proof (get_u64_spec (version v) [] (varint (blen (label v)) ++ label v ++ s) 0 Hv eq_refl) as V1.
  rewrite app_nil_l in V1. rewrite V1 by (rewrite blen_nil; unfold M64; lia). cbn [bind].
  rewrite get_varint_spec;
    [ | unfold M64; lia | rewrite blen_le; reflexivity | rewrite blen_le; unfold M64; lia ].
  cbn [bind]. rewrite app_assoc.
  rewrite (u64_small (_ + 8)) by (unfold M64; lia).
  rewrite get_label_spec;
    [ | rewrite blen_app, blen_le; lia | reflexivity | lia ].
  cbn [bind]. rewrite (u64_small (_ + blen (label v))) by (unfold M64; lia).
  rewrite u64_small by (unfold M64; lia).
  f_equal. f_equal; [destruct v; reflexivity | lia].
Qed.

Lemma MarshalScore_spec : forall s, MarshalScore s = Ok (wire_score s).
Proof.
  intro s. unfold MarshalScore. change (u64 (0 + 8)) with 8.
  change (repeat 0 (N.to_nat 8)) with ([] ++ repeat 0 8).
  rewrite put_u64_spec by (try reflexivity; simpl; lia). cbn [bind].
  rewrite app_nil_l. simpl skipn. rewrite app_nil_r. reflexivity.
Qed.

Lemma UnmarshalScore_spec : forall v s, is_u64 v ->
  UnmarshalScore (wire_score v ++ s) = Ok (v, 8).
Proof.
  intros. unfold UnmarshalScore, wire_score.
  pose proof (get_u64_spec v [] s 0 H eq_refl) as V1. rewrite app_nil_l in V1.
  rewrite V1 by (rewrite blen_nil; reflexivity). reflexivity.
Qed.

(** ** Injectivity and prefix-freeness *)

Lemma wire_key_prefix_free : forall k1 k2 s1 s2,
  key_ok k1 -> key_ok k2 -> key_fits k1 -> key_fits k2 ->
  wire_key k1 ++ s1 = wire_key k2 ++ s2 -> k1 = k2 /\ s1 = s2.
Proof.
  intros k1 k2 s1 s2 O1 O2 F1 F2 E.
  pose proof (UnmarshalKey_spec k1 s1 O1 F1) as U1.
  pose proof (UnmarshalKey_spec k2 s2 O2 F2) as U2.
  rewrite E, U2 in U1. inversion U1; subst. split; auto.
  apply app_inv_head in E. auto.
Qed.

Lemma wire_value_prefix_free : forall v1 v2 s1 s2,
  value_ok v1 -> value_ok v2 -> value_fits v1 -> value_fits v2 ->
  wire_value v1 ++ s1 = wire_value v2 ++ s2 -> v1 = v2 /\ s1 = s2.
Proof.
  intros k1 k2 s1 s2 O1 O2 F1 F2 E.
  pose proof (UnmarshalValue_spec k1 s1 O1 F1) as U1.
  pose proof (UnmarshalValue_spec k2 s2 O2 F2) as U2.
  rewrite E, U2 in U1. inversion U1; subst. split; auto.
  apply app_inv_head in E. auto.
Qed.

(** ** Truncated input *)

Lemma get_ext : forall b s i x, get b i = Ok x -> get (b ++ s) i = Ok x.
Proof.
  unfold get. intros b s i x H. destruct (nth_error b (N.to_nat i)) eqn:E; [|discriminate].
  rewrite nth_error_app1; [rewrite E; auto|]. apply nth_error_Some. congruence.
Qed.

Lemma get_lt : forall b i x, get b i = Ok x -> i < blen b.
Proof.
  unfold get. intros b i x H. destruct (nth_error b (N.to_nat i)) eqn:E; [|discriminate].
  assert (N.to_nat i < length b)%nat by (apply nth_error_Some; congruence).
  unfold blen. lia.
Qed.

Ltac step_bind H x E :=
  match type of H with
  | bind ?e _ = Ok _ => destruct e as [x| |] eqn:E; cbn [bind] in H; [|discriminate H|discriminate H]
  end.

Lemma get_varint_loop_ext : forall f f' o b s i t bs r,
  (f <= f')%nat -> get_varint_loop f o b i t bs = Ok r ->
  get_varint_loop f' o (b ++ s) i t bs = Ok r.
Proof.
  induction f as [|f IH]; intros f' o b s i t bs r Hf H; [discriminate|].
  destruct f' as [|f']; [lia|]. cbn [get_varint_loop] in *.
  step_bind H x E. rewrite (get_ext _ s _ _ E). cbn [bind].
  destruct (N.land x 128 =? 128); [|auto].
  step_bind H y E2. rewrite (get_ext _ s _ _ E2). cbn [bind].
  eapply IH; eauto. lia.
Qed.

Lemma get_varint_ext : forall o b s i r,
  get_varint o b i = Ok r -> get_varint o (b ++ s) i = Ok r.
Proof.
  intros o b s i r H. unfold get_varint in *.
  step_bind H x E. rewrite (get_ext _ s _ _ E). cbn [bind].
  eapply get_varint_loop_ext; [|eauto]. rewrite app_length. lia.
Qed.

Lemma get_u32_ext : forall b s i r, get_u32 b i = Ok r -> get_u32 (b ++ s) i = Ok r.
Proof.
  intros b s i r H. unfold get_u32 in *.
  step_bind H x0 E0. rewrite (get_ext _ s _ _ E0). cbn [bind].
  step_bind H x1 E1. rewrite (get_ext _ s _ _ E1). cbn [bind].
  step_bind H x2 E2. rewrite (get_ext _ s _ _ E2). cbn [bind].
  step_bind H x3 E3. rewrite (get_ext _ s _ _ E3). cbn [bind]. auto.
Qed.

Lemma get_u32_lt : forall b i r, get_u32 b i = Ok r -> u64 (i + 3) < blen b /\ u64 (i + 0) < blen b.
Proof.
  intros b i r H. unfold get_u32 in *.
  step_bind H x0 E0. step_bind H x1 E1. step_bind H x2 E2. step_bind H x3 E3.
  split; eapply get_lt; eauto.
Qed.

Lemma get_features_ext : forall f f' b s i n acc r,
  (f <= f')%nat -> get_features f b i n acc = Ok r ->
  get_features f' (b ++ s) i n acc = Ok r.
Proof.
  induction f as [|f IH]; intros f' b s i n acc r Hf H.
  - cbn [get_features] in H. destruct (n =? 0) eqn:E; [|discriminate].
    destruct f'; cbn [get_features]; rewrite E; auto.
  - cbn [get_features] in H. destruct f' as [|f']; [lia|]. cbn [get_features].
    destruct (n =? 0) eqn:E; auto.
    step_bind H x E0. rewrite (get_u32_ext _ s _ _ E0). cbn [bind].
    eapply IH; eauto. lia.
Qed.

Lemma get_label_ext : forall b s i l g,
  i + l <= blen b -> get_label b i l = Ok g -> get_label (b ++ s) i l = Ok g.
Proof.
  unfold get_label, slice_from. intros b s i l g Hl H.
  destruct (make_ok 1 l); [|discriminate].
  assert (E1 : (i <=? blen b) = true) by (apply N.leb_le; lia). rewrite E1 in H.
  assert (E2 : (i <=? blen (b ++ s)) = true) by (apply N.leb_le; rewrite blen_app; lia).
  rewrite E2. cbn [bind] in *.
  assert (Hi : (N.to_nat i <= length b)%nat) by (unfold blen in *; lia).
  rewrite skipn_app. replace (N.to_nat i - length b)%nat with 0%nat by lia. simpl skipn.
  rewrite firstn_app.
  replace (N.to_nat l - length (skipn (N.to_nat i) b))%nat with 0%nat
    by (rewrite skipn_length; unfold blen in *; lia).
  simpl firstn. rewrite app_nil_r. auto.
Qed.

Lemma get_label_ok : forall b i l g, get_label b i l = Ok g ->
  i <= blen b /\ l <= 281474976710656.
Proof.
  unfold get_label, slice_from, make_ok. intros b i l g H.
  destruct (1 * l <=? 281474976710656) eqn:E; [|discriminate].
  destruct (i <=? blen b) eqn:E2; [|discriminate].
  apply N.leb_le in E, E2. lia.
Qed.

Lemma UnmarshalKey_ext : forall b s k n,
  blen b < M63 -> UnmarshalKey b = Ok (k, n) ->
  n <= blen b /\ UnmarshalKey (b ++ s) = Ok (k, n).
Proof.
  intros b s k n Hb H. unfold UnmarshalKey in *.
  step_bind H r1 E1. destruct r1 as [l i].
  rewrite (get_varint_ext _ _ s _ _ E1). cbn [bind].
  destruct (make_ok 4 l); [|discriminate].
  step_bind H r2 E2. destruct r2 as [fs i2].
  assert (HF : (S (length b) <= S (length (b ++ s)))%nat) by (rewrite app_length; lia).
  rewrite (get_features_ext _ _ _ s _ _ _ _ HF E2). cbn [bind].
  step_bind H r3 E3. destruct r3 as [l2 i3].
  rewrite (get_varint_ext _ _ s _ _ E3). cbn [bind].
  step_bind H g E4. destruct (get_label_ok _ _ _ _ E4) as [G1 G2].
  step_bind H s1 E5. step_bind H s2 E6. step_bind H d1 E7. step_bind H d2 E8.
  injection H as <- <-.
  unfold M63 in Hb.
  assert (Hi : u64 (i3 + l2) = i3 + l2) by (apply u64_small; unfold M64; lia).
  rewrite Hi in *.
  destruct (get_u32_lt _ _ _ E5) as [_ L5]. rewrite u64_small in L5 by (unfold M64; lia).
  destruct (get_u32_lt _ _ _ E8) as [L8 _].
  rewrite (u64_small (i3 + l2 + 12)) in L8 by (unfold M64; lia).
  rewrite (u64_small (_ + 3)) in L8 by (unfold M64; lia).
  assert (HG : i3 + l2 <= blen b) by lia.
  rewrite (get_label_ext _ s _ _ _ HG E4). cbn [bind].
  rewrite (get_u32_ext _ s _ _ E5). cbn [bind].
  rewrite (get_u32_ext _ s _ _ E6). cbn [bind].
  rewrite (get_u32_ext _ s _ _ E7). cbn [bind].
  rewrite (get_u32_ext _ s _ _ E8). cbn [bind].
  split; [|reflexivity]. rewrite u64_small by (unfold M64; lia). lia.
Qed.

Lemma no_err_get_varint_loop : forall f o b i t bs e, get_varint_loop f o b i t bs <> Err e.
Proof.
  induction f; intros; cbn [get_varint_loop]; try discriminate.
  unfold get. destruct (nth_error b (N.to_nat (u64 (i + o)))); cbn [bind]; try discriminate.
  destruct (N.land n 128 =? 128); try discriminate.
  destruct (nth_error b (N.to_nat (u64 (u64 (i + 1) + o)))); cbn [bind]; try discriminate.
  apply IHf.
Qed.

Ltac no_err_get :=
  match goal with
  | |- context [get ?b ?i] => unfold get at 1; destruct (nth_error b (N.to_nat i)); cbn [bind]; try discriminate
  end.

Lemma no_err_get_varint : forall o b i e, get_varint o b i <> Err e.
Proof.
  intros. unfold get_varint. no_err_get. apply no_err_get_varint_loop.
Qed.

Lemma no_err_get_u32 : forall b i e, get_u32 b i <> Err e.
Proof. intros. unfold get_u32. do 4 no_err_get. Qed.

Lemma no_err_get_u64 : forall b i e, get_u64 b i <> Err e.
Proof. intros. unfold get_u64. do 8 no_err_get. Qed.

Lemma no_err_get_features : forall f b i n acc e, get_features f b i n acc <> Err e.
Proof.
  induction f; intros; cbn [get_features]; destruct (n =? 0); try discriminate.
  destruct (get_u32 b i) eqn:E; cbn [bind]; try discriminate.
  - apply IHf.
  - exfalso. eapply no_err_get_u32; eauto.
Qed.

Lemma no_err_get_label : forall b i l e, get_label b i l <> Err e.
Proof.
  intros. unfold get_label, slice_from. destruct (make_ok 1 l); try discriminate.
  destruct (i <=? blen b); cbn [bind]; discriminate.
Qed.

Lemma UnmarshalKey_no_err : forall b e, UnmarshalKey b <> Err e.
Proof.
  intros b e. unfold UnmarshalKey.
  destruct (get_varint 0 b 0) as [[l i]|e1|] eqn:E1; cbn [bind]; try discriminate;
    [|exfalso; eapply no_err_get_varint; eauto].
  destruct (make_ok 4 l); try discriminate.
  destruct (get_features (S (length b)) b i l []) as [[fs i2]|e2|] eqn:E2; cbn [bind]; try discriminate;
    [|exfalso; eapply no_err_get_features; eauto].
  destruct (get_varint 0 b i2) as [[l2 i3]|e3|] eqn:E3; cbn [bind]; try discriminate;
    [|exfalso; eapply no_err_get_varint; eauto].
  destruct (get_label b i3 l2) as [g|e4|] eqn:E4; cbn [bind]; try discriminate;
    [|exfalso; eapply no_err_get_label; eauto].
  repeat (match goal with
  | |- context [get_u32 ?b ?i] =>
      let E := fresh in destruct (get_u32 b i) eqn:E; cbn [bind]; try discriminate;
      try (exfalso; eapply no_err_get_u32; eauto; fail)
  end).
Qed.

Lemma truncated_key_panics : forall k n,
  key_ok k -> key_fits k -> (n < length (wire_key k))%nat ->
  UnmarshalKey (firstn n (wire_key k)) = Panic.
Proof.
  intros k n Hk Hf Hn.
  pose proof (fits_bound k Hf) as Hb.
  assert (Hlen : blen (firstn n (wire_key k)) = N.of_nat n).
  { unfold blen. rewrite firstn_length. lia. }
  destruct (UnmarshalKey (firstn n (wire_key k))) as [[k' m]|e|] eqn:E; auto.
  - exfalso. apply (UnmarshalKey_ext _ (skipn n (wire_key k))) in E.
    + destruct E as [L E]. rewrite firstn_skipn in E.
      pose proof (UnmarshalKey_spec k [] Hk Hf) as U. rewrite app_nil_r in U.
      rewrite U in E. inversion E. subst. rewrite Hlen in L. unfold blen in L. lia.
    + rewrite Hlen. unfold blen in Hb. unfold M63 in *. lia.
  - exfalso. eapply UnmarshalKey_no_err; eauto.
Qed.

Lemma get_varint_loop_lt : forall f o b i t bs t' i',
  i < M64 -> get_varint_loop f o b i t bs = Ok (t', i') ->
  exists j, j < M64 /\ i' = u64 (j + 1) /\ u64 (j + o) < blen b.
Proof.
  induction f as [|f IH]; intros o b i t bs t' i' Hi H; [discriminate|].
  cbn [get_varint_loop] in H. step_bind H x E.
  destruct (N.land x 128 =? 128).
  - step_bind H y E2. eapply IH; [|eauto]. unfold u64. apply N.mod_lt. discriminate.
  - injection H as <- <-. exists i. repeat split; auto. eapply get_lt; eauto.
Qed.

Lemma get_varint_lt : forall o b i t' i',
  i < M64 -> get_varint o b i = Ok (t', i') ->
  exists j, j < M64 /\ i' = u64 (j + 1) /\ u64 (j + o) < blen b.
Proof.
  intros o b i t' i' Hi H. unfold get_varint in H. step_bind H x E.
  eapply get_varint_loop_lt; eauto.
Qed.

Lemma get_u64_ext : forall b s i r, get_u64 b i = Ok r -> get_u64 (b ++ s) i = Ok r.
Proof.
  intros b s i r H. unfold get_u64 in *.
  step_bind H x0 E0. rewrite (get_ext _ s _ _ E0). cbn [bind].
  step_bind H x1 E1. rewrite (get_ext _ s _ _ E1). cbn [bind].
  step_bind H x2 E2. rewrite (get_ext _ s _ _ E2). cbn [bind].
  step_bind H x3 E3. rewrite (get_ext _ s _ _ E3). cbn [bind].
  step_bind H x4 E4. rewrite (get_ext _ s _ _ E4). cbn [bind].
  step_bind H x5 E5. rewrite (get_ext _ s _ _ E5). cbn [bind].
  step_bind H x6 E6. rewrite (get_ext _ s _ _ E6). cbn [bind].
  step_bind H x7 E7. rewrite (get_ext _ s _ _ E7). cbn [bind]. auto.
Qed.

(** A value cut before its label panics; a value cut inside its label decodes to
    a label of the announced length whose missing bytes are zero. *)
Lemma truncated_value : forall v n,
  value_ok v -> value_fits v -> (n < length (wire_value v))%nat ->
  let h := (8 + length (varint (blen (label v))))%nat in
  if (n <? h)%nat then UnmarshalValue (firstn n (wire_value v)) = Panic
  else UnmarshalValue (firstn n (wire_value v)) =
         Ok (mkValue (version v)
               (firstn (n - h) (label v) ++ repeat 0 (length (label v) - (n - h))),
             blen (wire_value v)).
Proof.
  intros v n [Hv Hl] Hf Hn h.
  pose proof (value_fits_bound v Hf) as Hb. unfold M63 in Hb.
  assert (HL : blen (wire_value v) = 8 + blen (varint (blen (label v))) + blen (label v)).
  { unfold wire_value. rewrite !blen_app, blen_le. lia. }
  assert (HLn : length (wire_value v) = (h + length (label v))%nat).
  { unfold wire_value, h. rewrite !app_length, le_length. lia. }
  pose proof (varint_blen (blen (label v))) as HV.
  assert (Hh : N.of_nat h = 8 + blen (varint (blen (label v)))) by (unfold h, blen; lia).
  unfold value_fits in Hf.
  assert (G1 : get_u64 (wire_value v) 0 = Ok (version v)).
  { unfold wire_value.
    pose proof (get_u64_spec (version v) [] (varint (blen (label v)) ++ label v) 0 Hv eq_refl) as V1.
    rewrite app_nil_l in V1. apply V1. rewrite blen_nil. reflexivity. }
  assert (G2 : get_varint 8 (wire_value v) 0 = Ok (blen (label v), blen (varint (blen (label v))))).
  { unfold wire_value.
    rewrite get_varint_spec;
      [ reflexivity | unfold M64; lia | rewrite blen_le; reflexivity
        | rewrite blen_le; unfold M64; lia ]. }
  destruct (n <? h)%nat eqn:E.
  - apply Nat.ltb_lt in E. unfold UnmarshalValue.
    destruct (get_u64 (firstn n (wire_value v)) 0) eqn:E1; cbn [bind]; auto;
      [|exfalso; eapply no_err_get_u64; eauto].
    destruct (get_varint 8 (firstn n (wire_value v)) 0) as [[l i]| |] eqn:E2; cbn [bind]; auto;
      [|exfalso; eapply no_err_get_varint; eauto].
    exfalso.
    destruct (get_varint_lt 8 (firstn n (wire_value v)) 0 l i ltac:(reflexivity) E2)
      as (j & J1 & J2 & J3).
    pose proof (get_varint_ext _ _ (skipn n (wire_value v)) _ _ E2) as E3.
    rewrite firstn_skipn, G2 in E3. injection E3 as Ev Ei.
    assert (Hlen : blen (firstn n (wire_value v)) = N.of_nat n).
    { unfold blen. rewrite firstn_length. lia. }
    rewrite Hlen in J3.
    assert (Hpos : 0 < blen (varint (blen (label v)))).
    { unfold varint, blen at 1. pose proof (leb128_pos 10 (blen (label v))). lia. }
    assert (Hj : j + 1 < M64).
    { destruct (N.eq_dec (j + 1) M64) as [Ej|]; [|lia].
      rewrite J2, Ej in Ei. unfold u64 in Ei. rewrite N.mod_same in Ei by discriminate. lia. }
    rewrite u64_small in J2 by auto.
    rewrite u64_small in J3 by (unfold M64; lia). lia.
  - apply Nat.ltb_ge in E.
    assert (HB : firstn n (wire_value v) =
                 le 8 (version v) ++ varint (blen (label v)) ++ firstn (n - h) (label v)).
    { unfold wire_value. rewrite app_assoc, firstn_app.
      rewrite firstn_all2 by (rewrite app_length, le_length; fold h; lia).
      rewrite app_length, le_length. fold h. rewrite <- app_assoc. reflexivity. }
    rewrite HB. unfold UnmarshalValue.
    set (r := firstn (n - h) (label v)).
    pose proof (get_u64_spec (version v) [] (varint (blen (label v)) ++ r) 0 Hv eq_refl) as V1.
    rewrite app_nil_l in V1. rewrite V1 by (rewrite blen_nil; reflexivity). cbn [bind].
    rewrite get_varint_spec;
      [ | unfold M64; lia | rewrite blen_le; reflexivity | rewrite blen_le; unfold M64; lia ].
    cbn [bind]. rewrite (u64_small (_ + 8)) by (unfold M64; lia).
    unfold get_label, make_ok, slice_from.
    assert (M : (1 * blen (label v) <=? 281474976710656) = true) by (apply N.leb_le; lia).
    rewrite M.
    assert (M2 : (0 + blen (varint (blen (label v))) + 8 <=?
                  blen (le 8 (version v) ++ varint (blen (label v)) ++ r)) = true).
    { apply N.leb_le. rewrite !blen_app, blen_le. lia. }
    rewrite M2. cbn [bind].
    assert (HS : skipn (N.to_nat (0 + blen (varint (blen (label v))) + 8))
                   (le 8 (version v) ++ varint (blen (label v)) ++ r) = r).
    { rewrite app_assoc, skipn_app.
      assert (Hx : N.to_nat (0 + blen (varint (blen (label v))) + 8) =
                   length (le 8 (version v) ++ varint (blen (label v)))).
      { rewrite app_length, le_length. unfold blen at 1. lia. }
      rewrite Hx, skipn_all, Nat.sub_diag. reflexivity. }
    rewrite HS. rewrite blen_length.
    assert (Hr : (length r <= length (label v))%nat).
    { unfold r. rewrite firstn_length. lia. }
    rewrite firstn_all2 by lia.
    assert (Hr2 : length r = (n - h)%nat) by (unfold r; rewrite firstn_length; lia).
    rewrite Hr2.
    rewrite (u64_small (_ + blen (label v))) by (unfold M64; lia).
    rewrite u64_small by (unfold M64; lia). f_equal. f_equal. rewrite HL. lia.
Qed.
