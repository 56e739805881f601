(** The decoders on arbitrary strings of bytes. *)
From Verif.Base Require Import GoBase GoLemmas.
From Verif.Model Require Import Codec.
From Verif.Spec Require Import Wire DecodeSpec.
From Verif.Proof Require Import CodecP CodecTop.
From Coq Require Import Lia.
Open Scope N_scope.

(** ** Numbers *)

Lemma on_wire_cons : forall b l, 128 <= b -> (on_wire (b :: l) <-> on_wire l).
Proof.
  intros b l B. split.
  - intros ([|c l'] & d & E & F & D); cbn in E; injection E as -> E; [lia|]. inversion F as [|? ? _ F']. subst.
    exists l', d. auto.
  - intros (l' & d & -> & F & D). exists (b :: l'), d. split; [reflexivity|]. split; [constructor; assumption|exact D].
Qed.

Lemma on_wire_last : forall b l, b < 128 -> (on_wire (b :: l) <-> l = []).
Proof.
  intros b l B. split.
  - intros ([|c l'] & d & E & F & D); cbn in E; injection E as -> E; [exact E|]. inversion F as [|? ? F' _]. lia.
  - intros ->. exists [], b. split; [reflexivity|]. split; [constructor|exact B].
Qed.

Lemma on_wire_nil : ~ on_wire [].
Proof. intros ([|c l'] & d & E & _); discriminate E. Qed.

Lemma on_wire_unique : forall l l' r r', on_wire l -> on_wire l' -> l ++ r = l' ++ r' -> l = l' /\ r = r'.
Proof.
  induction l as [|b l IH]; intros l' r r' O O' E; [destruct (on_wire_nil O)|].
  destruct l' as [|c l']; [destruct (on_wire_nil O')|]. cbn in E. injection E as -> E.
  destruct (N.lt_ge_cases c 128) as [C|C].
  - apply on_wire_last in O; [|exact C]. apply on_wire_last in O'; [|exact C]. subst. cbn in E. auto.
  - apply on_wire_cons in O; [|exact C]. apply on_wire_cons in O'; [|exact C].
    destruct (IH _ _ _ O O' E) as (-> & ->). auto.
Qed.

Lemma high_bit : forall b, b < 256 -> (N.land b 128 =? 128) = (128 <=? b).
Proof.
  intros b B.
  assert (H : Bool.eqb (N.land b 128 =? 128) (128 <=? b) = true).
  { apply (forall_byte (fun b => Bool.eqb (N.land b 128 =? 128) (128 <=? b))); [vm_compute; reflexivity|exact B]. }
  apply Bool.eqb_prop. exact H.
Qed.

Lemma loop_read : forall s fuel o p b i t j,
  i + o = blen p -> is_bytes (b :: s) -> (length s < fuel)%nat -> blen (p ++ b :: s) < 2 ^ 60 ->
  (exists l r, b :: s = l ++ r /\ on_wire l /\
     get_varint_loop fuel o (p ++ b :: s) i t (u8 (7 * (j + 1))) = Ok (N.lor t (contributions (j + 1) (tl l)), i + blen l)) \/
  (get_varint_loop fuel o (p ++ b :: s) i t (u8 (7 * (j + 1))) = Panic /\ forall l r, b :: s = l ++ r -> ~ on_wire l).
Proof.
  change (2 ^ 60) with 1152921504606846976.
  induction s as [|c s IH]; intros fuel o p b i t j Hi HB HF HL; (destruct fuel as [|fuel]; [cbn in HF; lia|]);
    cbn [get_varint_loop]; rewrite blen_app in HL; rewrite !blen_cons in HL;
    rewrite (u64_small (i + o)) by (unfold M64; lia); rewrite get_app by exact Hi; cbn [bind];
    (assert (B : b < 256) by (inversion HB; assumption)); rewrite high_bit by exact B;
    destruct (N.leb_spec 128 b) as [C|C].
  - rewrite (u64_small (i + 1)) by (unfold M64; lia). rewrite (u64_small (i + 1 + o)) by (unfold M64; lia).
    unfold get. rewrite (proj2 (nth_error_None (p ++ [b]) (N.to_nat (i + 1 + o)))); [|rewrite app_length; cbn; unfold blen in Hi; lia].
    cbn [bind]. right. split; [reflexivity|]. intros l r E O. destruct l as [|x l]; [destruct (on_wire_nil O)|].
    cbn in E. injection E as <- E. apply on_wire_cons in O; [|exact C]. destruct l; [destruct (on_wire_nil O)|discriminate E].
  - left. exists [b], []. split; [reflexivity|]. split; [apply on_wire_last; [exact C|reflexivity]|].
    cbn [tl contributions]. rewrite N.lor_0_r. rewrite u64_small by (unfold M64; lia). reflexivity.
  - rewrite (u64_small (i + 1)) by (unfold M64; lia). rewrite (u64_small (i + 1 + o)) by (unfold M64; lia).
    replace (p ++ b :: c :: s) with ((p ++ [b]) ++ c :: s) by (rewrite <- app_assoc; reflexivity).
    assert (P1 : i + 1 + o = blen (p ++ [b])) by (rewrite blen_app; change (blen [b]) with 1; lia).
    rewrite get_app by exact P1. cbn [bind].
    replace (u8 (u8 (7 * (j + 1)) + 7)) with (u8 (7 * (j + 1 + 1))).
    2: { unfold u8, M8. rewrite N.add_mod_idemp_l by lia. f_equal. lia. }
    assert (HB' : is_bytes (c :: s)) by (inversion HB; assumption).
    assert (HL' : blen ((p ++ [b]) ++ c :: s) < 1152921504606846976).
    { rewrite !blen_app, !blen_cons. change (blen (@nil N)) with 0. lia. }
    destruct (IH fuel o (p ++ [b]) c (i + 1) (N.lor t (u64 (N.shiftl (N.land c 127) (u8 (7 * (j + 1)))))) (j + 1) P1 HB' ltac:(cbn in HF; lia) HL')
      as [(l & r & E & O & R)|(R & NO)]; rewrite R.
    + left. exists (b :: l), r. split; [rewrite E; reflexivity|]. split; [apply on_wire_cons; assumption|].
      destruct l as [|c' l]; [destruct (on_wire_nil O)|]. cbn in E. injection E as <- E.
      cbn [tl contributions]. f_equal. f_equal; [|rewrite !blen_cons; lia].
      rewrite <- N.lor_assoc. f_equal. rewrite land_127, N.shiftl_mul_pow2. reflexivity.
    + right. split; [reflexivity|]. intros l r E O. destruct l as [|x l]; [destruct (on_wire_nil O)|].
      cbn in E. injection E as <- E. apply on_wire_cons in O; [|exact C]. exact (NO l r E O).
  - left. exists [b], (c :: s). split; [reflexivity|]. split; [apply on_wire_last; [exact C|reflexivity]|].
    cbn [tl contributions]. rewrite N.lor_0_r. rewrite u64_small by (unfold M64; lia). reflexivity.
Qed.

Lemma number_cons : forall b l, b < 256 -> number_read (b :: l) = N.lor (b mod 128) (contributions 1 l).
Proof.
  intros b l B. unfold number_read. cbn [contributions]. change ((7 * 0) mod 256) with 0. change (2 ^ 0) with 1.
  rewrite N.mul_1_r. f_equal. apply N.mod_small. change (2 ^ 64) with 18446744073709551616.
  pose proof (N.mod_upper_bound b 128). lia.
Qed.

Lemma varint_read : forall s o p i,
  i + o = blen p -> is_bytes s -> blen (p ++ s) < 2 ^ 60 ->
  (exists l r, s = l ++ r /\ on_wire l /\ get_varint o (p ++ s) i = Ok (number_read l, i + blen l)) \/
  (get_varint o (p ++ s) i = Panic /\ forall l r, s = l ++ r -> ~ on_wire l).
Proof.
  intros s o p i Hi HB HL. unfold get_varint.
  assert (L : i + o < 1152921504606846976).
  { change (2 ^ 60) with 1152921504606846976 in HL. rewrite blen_app in HL. lia. }
  rewrite (u64_small (i + o)) by (unfold M64; lia).
  destruct s as [|b s].
  - right. split.
    + unfold get. rewrite (proj2 (nth_error_None (p ++ []) (N.to_nat (i + o)))); [reflexivity|].
      rewrite app_nil_r. unfold blen in Hi. lia.
    + intros l r E O. destruct l; [destruct (on_wire_nil O)|discriminate E].
  - rewrite get_app by exact Hi. cbn [bind]. rewrite land_127.
    assert (B : b < 256) by (inversion HB; assumption).
    destruct (loop_read s (S (length (p ++ b :: s))) o p b i (b mod 128) 0 Hi HB) as [(l & r & E & O & R)|(R & NO)].
    { rewrite app_length. cbn. lia. }
    { exact HL. }
    + left. exists l, r. split; [exact E|]. split; [exact O|].
      change (u8 (7 * (0 + 1))) with 7 in R. rewrite R. destruct l as [|b' l]; [destruct (on_wire_nil O)|].
      cbn in E. injection E as <- E. rewrite number_cons by exact B. reflexivity.
    + right. change (u8 (7 * (0 + 1))) with 7 in R. auto.
Qed.

Lemma varint_there : forall l s o p i,
  i + o = blen p -> is_bytes (l ++ s) -> blen (p ++ l ++ s) < 2 ^ 60 -> on_wire l ->
  get_varint o (p ++ l ++ s) i = Ok (number_read l, i + blen l).
Proof.
  intros l s o p i Hi HB HL O. destruct (varint_read (l ++ s) o p i Hi HB HL) as [(l' & r & E & O' & R)|(_ & NO)].
  - destruct (on_wire_unique _ _ _ _ O O' E) as (-> & _). exact R.
  - destruct (NO l s eq_refl O).
Qed.

(** ** Fixed sizes *)

Lemma le4_of : forall a b c d, a < 256 -> b < 256 -> c < 256 -> d < 256 ->
  exists v, is_u32 v /\ le 4 v = [a; b; c; d].
Proof.
  intros a b c d A B C D. exists (a + 256 * (b + 256 * (c + 256 * d))). split; [unfold is_u32, M32; lia|].
  assert (X : forall x y, x < 256 -> (x + 256 * y) mod 256 = x /\ (x + 256 * y) / 256 = y).
  { intros x y H. split; symmetry; [apply (N.mod_unique _ _ y)|apply (N.div_unique _ _ _ x)]; lia. }
  cbn [le]. destruct (X a (b + 256 * (c + 256 * d)) A) as (-> & ->). destruct (X b (c + 256 * d) B) as (-> & ->).
  destruct (X c d C) as (-> & ->). rewrite N.mod_small by exact D. reflexivity.
Qed.

Lemma get_beyond : forall b i, blen b <= i -> get b i = Panic.
Proof.
  intros b i H. unfold get. rewrite (proj2 (nth_error_None b (N.to_nat i))); [reflexivity|]. unfold blen in H. lia.
Qed.

Lemma get_cases : forall b i, (exists x, get b i = Ok x) \/ get b i = Panic.
Proof. intros b i. unfold get. destruct (nth_error b (N.to_nat i)); eauto. Qed.

Lemma u32_read : forall p s i, i = blen p -> is_bytes s -> blen p < 2 ^ 60 ->
  (exists v r, s = le 4 v ++ r /\ is_u32 v /\ get_u32 (p ++ s) i = Ok v) \/
  (get_u32 (p ++ s) i = Panic /\ (length s < 4)%nat).
Proof.
  intros p s i -> HB HL. change (2 ^ 60) with 1152921504606846976 in HL.
  destruct (Nat.lt_ge_cases (length s) 4) as [C|C].
  - right. split; [|exact C]. unfold get_u32. rewrite !u64_small by (unfold M64; lia).
    destruct (get_cases (p ++ s) (blen p + 0)) as [(x & ->)| ->]; [|reflexivity]. cbn [bind].
    destruct (get_cases (p ++ s) (blen p + 1)) as [(y & ->)| ->]; [|reflexivity]. cbn [bind].
    destruct (get_cases (p ++ s) (blen p + 2)) as [(z & ->)| ->]; [|reflexivity]. cbn [bind].
    rewrite get_beyond; [reflexivity|]. rewrite blen_app. unfold blen. lia.
  - left. destruct s as [|a [|b [|c [|d r]]]]; cbn in C; try lia.
    inversion HB as [|? ? A HB1]. inversion HB1 as [|? ? B HB2]. inversion HB2 as [|? ? C' HB3]. inversion HB3 as [|? ? D _]. subst.
    destruct (le4_of a b c d A B C' D) as (v & V & E). exists v, r. rewrite E. split; [reflexivity|]. split; [exact V|].
    change (a :: b :: c :: d :: r) with ([a; b; c; d] ++ r). rewrite <- E. apply get_u32_spec; [exact V|reflexivity|]. unfold M64. lia.
Qed.

Lemma features_read : forall n fuel p s i acc, i = blen p -> is_bytes s -> blen (p ++ s) < 2 ^ 60 -> (length s < fuel)%nat ->
  (exists fs r, s = flat_map (le 4) fs ++ r /\ Forall is_u32 fs /\ blen fs = n /\
     get_features fuel (p ++ s) i n acc = Ok (rev acc ++ fs, i + 4 * n)) \/
  get_features fuel (p ++ s) i n acc = Panic.
Proof.
  intros n fuel. revert n. induction fuel as [|fuel IH]; intros n p s i acc Hi HB HL HF; [lia|].
  cbn [get_features]. destruct (N.eqb_spec n 0) as [->|N0].
  { left. exists [], s. split; [reflexivity|]. split; [constructor|]. split; [reflexivity|].
    rewrite app_nil_r, N.mul_0_r, N.add_0_r. reflexivity. }
  assert (HP : blen p < 2 ^ 60) by (rewrite blen_app in HL; lia).
  destruct (u32_read p s i Hi HB HP) as [(v & r & E & V & R)|(R & _)]; rewrite R; cbn [bind]; [|right; reflexivity].
  subst s. rewrite (u64_small (i + 4)) by (rewrite Hi; change (2 ^ 60) with 1152921504606846976 in HP; unfold M64; lia).
  rewrite app_assoc. assert (HB2 : is_bytes r) by (apply Forall_app in HB; apply HB).
  destruct (IH (n - 1) (p ++ le 4 v) r (i + 4) (v :: acc)) as [(fs & r' & E & F & L & G)|G].
  - rewrite blen_app, blen_le. lia.
  - exact HB2.
  - rewrite <- app_assoc. exact HL.
  - rewrite app_length, le_length in HF. lia.
  - left. exists (v :: fs), r'. split; [cbn [flat_map]; rewrite E, app_assoc; reflexivity|]. split; [constructor; assumption|].
    split; [rewrite blen_cons, L; lia|]. rewrite G. cbn [rev]. rewrite <- app_assoc. cbn [app]. f_equal. f_equal. lia.
  - right. exact G.
Qed.

Lemma label_read : forall p s i l, i = blen p ->
  get_label (p ++ s) i l =
    if l <=? 281474976710656 then Ok (firstn (N.to_nat l) s ++ repeat 0 (N.to_nat l - length s)) else Panic.
Proof.
  intros p s i l ->. unfold get_label, make_ok, slice_from. rewrite N.mul_1_l.
  destruct (l <=? 281474976710656); [|reflexivity].
  rewrite (proj2 (N.leb_le (blen p) (blen (p ++ s)))) by (rewrite blen_app; lia). cbn [bind]. rewrite blen_length.
  rewrite skipn_app, skipn_all, Nat.sub_diag. cbn [skipn app]. rewrite firstn_length. do 3 f_equal. lia.
Qed.

(** ** Keys *)

Lemma bytes_tail : forall a b, is_bytes (a ++ b) -> is_bytes b.
Proof. intros a b H. apply Forall_app in H. apply H. Qed.
Lemma bytes_head : forall a b, is_bytes (a ++ b) -> is_bytes a.
Proof. intros a b H. apply Forall_app in H. apply H. Qed.

Lemma key_read : forall b, is_bytes b -> blen b < 2 ^ 60 ->
  (exists k n, UnmarshalKey b = Ok (k, n) /\ key_ok k /\ key_fits k /\ stands_for_key b k) \/ UnmarshalKey b = Panic.
Proof.
  intros b HB HL. pose proof HL as HL'. change (2 ^ 60) with 1152921504606846976 in HL'. unfold UnmarshalKey.
  destruct (varint_read b 0 [] 0 eq_refl HB HL) as [(l1 & r1 & E1 & O1 & R1)|(R1 & _)]; cbn [app] in R1; rewrite R1; cbn [bind]; [|auto].
  rewrite N.add_0_l. unfold make_ok. destruct (N.leb_spec (4 * number_read l1) 281474976710656) as [M1|]; [|auto].
  assert (HB1 : is_bytes r1) by (apply (bytes_tail l1); rewrite <- E1; exact HB).
  destruct (features_read (number_read l1) (S (length b)) l1 r1 (blen l1) [] eq_refl HB1) as [(fs & r2 & E2 & F & LF & G)|G].
  { rewrite <- E1. exact HL. }
  { rewrite E1, app_length. lia. }
  2: { rewrite <- E1 in G. rewrite G. auto. }
  rewrite <- E1 in G. rewrite G. cbn [bind rev app].
  assert (EB : b = (l1 ++ flat_map (le 4) fs) ++ r2) by (rewrite E1, E2, app_assoc; reflexivity).
  assert (HB2 : is_bytes r2) by (apply (bytes_tail (l1 ++ flat_map (le 4) fs)); rewrite <- EB; exact HB).
  assert (I2 : blen l1 + 4 * number_read l1 + 0 = blen (l1 ++ flat_map (le 4) fs)) by (rewrite blen_app, blen_flat, LF; lia).
  destruct (varint_read r2 0 (l1 ++ flat_map (le 4) fs) (blen l1 + 4 * number_read l1) I2 HB2) as [(l2 & r3 & E3 & O2 & R2)|(R2 & _)].
  { rewrite <- EB. exact HL. }
  2: { rewrite <- EB in R2. rewrite R2. auto. }
  rewrite <- EB in R2. rewrite R2. cbn [bind].
  assert (EB3 : b = (l1 ++ flat_map (le 4) fs ++ l2) ++ r3) by (rewrite EB, E3, <- !app_assoc; reflexivity).
  assert (I3 : blen l1 + 4 * number_read l1 + blen l2 = blen (l1 ++ flat_map (le 4) fs ++ l2)) by (rewrite !blen_app, blen_flat, LF; lia).
  assert (HB3 : is_bytes r3) by (apply (bytes_tail (l1 ++ flat_map (le 4) fs ++ l2)); rewrite <- EB3; exact HB).
  pose proof (label_read _ r3 _ (number_read l2) I3) as LR. rewrite <- EB3 in LR. rewrite LR.
  destruct (N.leb_spec (number_read l2) 281474976710656) as [M2|]; [|cbn [bind]; auto]. cbn [bind].
  assert (BL : blen b = blen (l1 ++ flat_map (le 4) fs ++ l2) + blen r3) by (rewrite EB3, blen_app; reflexivity).
  set (i3 := blen l1 + 4 * number_read l1 + blen l2) in *.
  rewrite (u64_small (i3 + number_read l2)) by (unfold M64; lia).
  destruct (N.lt_ge_cases (blen r3) (number_read l2)) as [SH|SH].
  { right. unfold get_u32. rewrite u64_small by (unfold M64; lia). rewrite get_beyond by lia. reflexivity. }
  set (g := firstn (N.to_nat (number_read l2)) r3). set (r4 := skipn (N.to_nat (number_read l2)) r3).
  assert (E4 : r3 = g ++ r4) by (symmetry; apply firstn_skipn).
  assert (LG : blen g = number_read l2) by (unfold g, blen; rewrite firstn_length; unfold blen in SH; lia).
  replace (N.to_nat (number_read l2) - length r3)%nat with 0%nat by (unfold blen in SH; lia). cbn [repeat]. rewrite app_nil_r.
  assert (HB4 : is_bytes r4) by (apply (bytes_tail g); rewrite <- E4; exact HB3).
  assert (HG : is_bytes g) by (apply (bytes_head g r4); rewrite <- E4; exact HB3).
  set (p4 := l1 ++ flat_map (le 4) fs ++ l2 ++ g).
  assert (EB4 : b = p4 ++ r4) by (rewrite EB3, E4; unfold p4; rewrite <- !app_assoc; reflexivity).
  assert (I4 : i3 + number_read l2 = blen p4).
  { unfold p4. rewrite I3, <- LG, !blen_app. lia. }
  assert (BL4 : blen b = blen p4 + blen r4) by (rewrite EB4, blen_app; reflexivity).
  assert (P4 : blen p4 < 2 ^ 60) by (change (2 ^ 60) with 1152921504606846976; lia).
  destruct (u32_read p4 r4 _ I4 HB4 P4) as [(s1 & r5 & E5 & V1 & U1)|(U1 & _)]; rewrite <- EB4 in U1; rewrite U1; cbn [bind]; [|auto].
  assert (HB5 : is_bytes r5) by (apply (bytes_tail (le 4 s1)); rewrite <- E5; exact HB4).
  assert (BL5 : blen r4 = 4 + blen r5) by (rewrite E5, blen_app, blen_le; reflexivity).
  rewrite !u64_small by (unfold M64; lia).
  destruct (u32_read (p4 ++ le 4 s1) r5 (i3 + number_read l2 + 4)) as [(s2 & r6 & E6 & V2 & U2)|(U2 & _)];
    [rewrite blen_app, blen_le; lia|exact HB5|rewrite blen_app, blen_le; change (2 ^ 60) with 1152921504606846976; lia| |];
    rewrite <- app_assoc, <- E5, <- EB4 in U2; rewrite U2; cbn [bind]; [|auto].
  assert (HB6 : is_bytes r6) by (apply (bytes_tail (le 4 s2)); rewrite <- E6; exact HB5).
  assert (BL6 : blen r5 = 4 + blen r6) by (rewrite E6, blen_app, blen_le; reflexivity).
  destruct (u32_read (p4 ++ le 4 s1 ++ le 4 s2) r6 (i3 + number_read l2 + 8)) as [(d1 & r7 & E7 & V3 & U3)|(U3 & _)];
    [rewrite !blen_app, !blen_le; lia|exact HB6|rewrite !blen_app, !blen_le; change (2 ^ 60) with 1152921504606846976; lia| |];
    rewrite <- !app_assoc, <- E6, <- E5, <- EB4 in U3; rewrite U3; cbn [bind]; [|auto].
  assert (HB7 : is_bytes r7) by (apply (bytes_tail (le 4 d1)); rewrite <- E7; exact HB6).
  assert (BL7 : blen r6 = 4 + blen r7) by (rewrite E7, blen_app, blen_le; reflexivity).
  destruct (u32_read (p4 ++ le 4 s1 ++ le 4 s2 ++ le 4 d1) r7 (i3 + number_read l2 + 12)) as [(d2 & r8 & E8 & V4 & U4)|(U4 & _)];
    [rewrite !blen_app, !blen_le; lia|exact HB7|rewrite !blen_app, !blen_le; change (2 ^ 60) with 1152921504606846976; lia| |];
    rewrite <- !app_assoc, <- E7, <- E6, <- E5, <- EB4 in U4; rewrite U4; cbn [bind]; [|auto].
  left. eexists. eexists. split; [reflexivity|]. split.
  { split; [exact F|]. split; [exact HG|]. auto. }
  split.
  { split; cbn [feature groupLabel]; [rewrite LF; lia|rewrite LG; exact M2]. }
  exists l1, l2, r8. cbn [feature groupLabel size1 size2 dim1 dim2]. split.
  { rewrite <- E8, <- E7, <- E6, <- E5, EB4. unfold p4. rewrite <- !app_assoc. reflexivity. }
  split; [exact O1|]. split; [symmetry; exact LF|]. split; [exact O2|]. symmetry. exact LG.
Qed.

Lemma key_there : forall b k, is_bytes b -> blen b < 2 ^ 60 -> key_ok k -> key_fits k -> stands_for_key b k ->
  exists n, UnmarshalKey b = Ok (k, n).
Proof.
  intros b k HB HL (K1 & K2 & K3 & K4 & K5 & K6) (F1 & F2) (l1 & l2 & rest & E & O1 & N1 & O2 & N2).
  pose proof HL as HL'. change (2 ^ 60) with 1152921504606846976 in HL'.
  set (t4 := le 4 (dim2 k) ++ rest) in *. set (t3 := le 4 (dim1 k) ++ t4) in *. set (t2 := le 4 (size2 k) ++ t3) in *.
  set (t1 := le 4 (size1 k) ++ t2) in *.
  assert (BL : blen b = blen l1 + 4 * blen (feature k) + blen l2 + blen (groupLabel k) + 16 + blen rest).
  { rewrite E. unfold t1, t2, t3, t4. rewrite !blen_app, blen_flat, !blen_le. lia. }
  eexists. unfold UnmarshalKey.
  rewrite E at 1. change (l1 ++ ?x) with ([] ++ l1 ++ x). rewrite varint_there; [|reflexivity|rewrite <- E; exact HB|cbn [app]; rewrite <- E; exact HL|exact O1].
  cbn [bind]. rewrite N1, N.add_0_l. unfold make_ok. rewrite (proj2 (N.leb_le (4 * blen (feature k)) 281474976710656)) by lia.
  rewrite E at 2. rewrite get_features_spec; [|exact K1| |reflexivity|reflexivity|unfold M64; lia].
  2: { rewrite E, !app_length, flat_map_le_length. lia. }
  cbn [bind rev app].
  assert (HBE : is_bytes (l2 ++ groupLabel k ++ t1)).
  { apply (bytes_tail (flat_map (le 4) (feature k))). apply (bytes_tail l1). rewrite <- E. exact HB. }
  rewrite E at 1. rewrite app_assoc. rewrite varint_there; [|rewrite blen_app, blen_flat; lia|exact HBE|rewrite <- app_assoc, <- E; exact HL|exact O2].
  cbn [bind]. rewrite N2. rewrite E at 1. rewrite !app_assoc. rewrite <- (app_assoc _ (groupLabel k)).
  rewrite get_label_spec; [|rewrite !blen_app, blen_flat; lia|reflexivity|exact F2]. cbn [bind].
  rewrite (u64_small (_ + blen (groupLabel k))) by (unfold M64; lia). rewrite !u64_small by (unfold M64; lia).
  assert (X1 : b = (l1 ++ flat_map (le 4) (feature k) ++ l2 ++ groupLabel k) ++ le 4 (size1 k) ++ t2) by (rewrite E; unfold t1; rewrite <- !app_assoc; reflexivity).
  assert (X2 : b = (l1 ++ flat_map (le 4) (feature k) ++ l2 ++ groupLabel k ++ le 4 (size1 k)) ++ le 4 (size2 k) ++ t3) by (rewrite E; unfold t1, t2; rewrite <- !app_assoc; reflexivity).
  assert (X3 : b = (l1 ++ flat_map (le 4) (feature k) ++ l2 ++ groupLabel k ++ le 4 (size1 k) ++ le 4 (size2 k)) ++ le 4 (dim1 k) ++ t4) by (rewrite E; unfold t1, t2, t3; rewrite <- !app_assoc; reflexivity).
  assert (X4 : b = (l1 ++ flat_map (le 4) (feature k) ++ l2 ++ groupLabel k ++ le 4 (size1 k) ++ le 4 (size2 k) ++ le 4 (dim1 k)) ++ le 4 (dim2 k) ++ rest) by (rewrite E; unfold t1, t2, t3, t4; rewrite <- !app_assoc; reflexivity).
  rewrite X1 at 1. rewrite get_u32_spec; [|exact K3|rewrite !blen_app, blen_flat; lia|rewrite !blen_app, blen_flat; unfold M64; lia]. cbn [bind].
  rewrite X2 at 1. rewrite get_u32_spec; [|exact K4|rewrite !blen_app, blen_flat, !blen_le; lia|rewrite !blen_app, blen_flat, !blen_le; unfold M64; lia]. cbn [bind].
  rewrite X3 at 1. rewrite get_u32_spec; [|exact K5|rewrite !blen_app, blen_flat, !blen_le; lia|rewrite !blen_app, blen_flat, !blen_le; unfold M64; lia]. cbn [bind].
  rewrite X4 at 1. rewrite get_u32_spec; [|exact K6|rewrite !blen_app, blen_flat, !blen_le; lia|rewrite !blen_app, blen_flat, !blen_le; unfold M64; lia]. cbn [bind].
  destruct k. reflexivity.
Qed.

(** ** Values and scores *)

Lemma le8_of : forall a b c d e f g h, a < 256 -> b < 256 -> c < 256 -> d < 256 -> e < 256 -> f < 256 -> g < 256 -> h < 256 ->
  exists v, is_u64 v /\ le 8 v = [a; b; c; d; e; f; g; h].
Proof.
  intros a b c d e f g h A B C D E F G H.
  exists (a + 256 * (b + 256 * (c + 256 * (d + 256 * (e + 256 * (f + 256 * (g + 256 * h))))))). split; [unfold is_u64, M64; lia|].
  assert (X : forall x y, x < 256 -> (x + 256 * y) mod 256 = x /\ (x + 256 * y) / 256 = y).
  { intros x y L. split; symmetry; [apply (N.mod_unique _ _ y)|apply (N.div_unique _ _ _ x)]; lia. }
  cbn [le]. destruct (X a (b + 256 * (c + 256 * (d + 256 * (e + 256 * (f + 256 * (g + 256 * h)))))) A) as (-> & ->).
  destruct (X b (c + 256 * (d + 256 * (e + 256 * (f + 256 * (g + 256 * h))))) B) as (-> & ->).
  destruct (X c (d + 256 * (e + 256 * (f + 256 * (g + 256 * h)))) C) as (-> & ->).
  destruct (X d (e + 256 * (f + 256 * (g + 256 * h))) D) as (-> & ->).
  destruct (X e (f + 256 * (g + 256 * h)) E) as (-> & ->).
  destruct (X f (g + 256 * h) F) as (-> & ->). destruct (X g h G) as (-> & ->).
  rewrite N.mod_small by exact H. reflexivity.
Qed.

Lemma u64_read : forall s, is_bytes s ->
  (exists v r, s = le 8 v ++ r /\ is_u64 v /\ get_u64 s 0 = Ok v) \/
  (get_u64 s 0 = Panic /\ (length s < 8)%nat).
Proof.
  intros s HB. destruct (Nat.lt_ge_cases (length s) 8) as [C|C].
  - right. split; [|exact C]. unfold get_u64. rewrite !u64_small by (unfold M64; lia).
    destruct (get_cases s (0 + 0)) as [(x0 & ->)| ->]; [|reflexivity]. cbn [bind].
    destruct (get_cases s (0 + 1)) as [(x1 & ->)| ->]; [|reflexivity]. cbn [bind].
    destruct (get_cases s (0 + 2)) as [(x2 & ->)| ->]; [|reflexivity]. cbn [bind].
    destruct (get_cases s (0 + 3)) as [(x3 & ->)| ->]; [|reflexivity]. cbn [bind].
    destruct (get_cases s (0 + 4)) as [(x4 & ->)| ->]; [|reflexivity]. cbn [bind].
    destruct (get_cases s (0 + 5)) as [(x5 & ->)| ->]; [|reflexivity]. cbn [bind].
    destruct (get_cases s (0 + 6)) as [(x6 & ->)| ->]; [|reflexivity]. cbn [bind].
    rewrite get_beyond; [reflexivity|]. unfold blen. lia.
  - left. destruct s as [|a [|b [|c [|d [|e [|f [|g [|h r]]]]]]]]; cbn in C; try lia.
    change (a :: b :: c :: d :: e :: f :: g :: h :: r) with ([a; b; c; d; e; f; g; h] ++ r) in *.
    assert (HB' : is_bytes [a; b; c; d; e; f; g; h]) by (eapply bytes_head; exact HB).
    unfold is_bytes in HB'. rewrite Forall_forall in HB'.
    destruct (le8_of a b c d e f g h) as (v & V & E); try (apply HB'; cbn; tauto).
    exists v, r. rewrite <- E. split; [reflexivity|]. split; [exact V|]. apply (get_u64_spec v [] r 0 V eq_refl). reflexivity.
Qed.

Lemma value_read : forall b, is_bytes b -> blen b < 2 ^ 60 ->
  (exists v n, UnmarshalValue b = Ok (v, n) /\ value_ok v /\ value_fits v /\ stands_for_value b v) \/ UnmarshalValue b = Panic.
Proof.
  intros b HB HL. pose proof HL as HL'. change (2 ^ 60) with 1152921504606846976 in HL'. unfold UnmarshalValue.
  destruct (u64_read b HB) as [(ver & r1 & E1 & V & R1)|(R1 & _)]; rewrite R1; cbn [bind]; [|auto].
  assert (HB1 : is_bytes r1) by (apply (bytes_tail (le 8 ver)); rewrite <- E1; exact HB).
  destruct (varint_read r1 8 (le 8 ver) 0) as [(l & r2 & E2 & O & R2)|(R2 & _)];
    [rewrite blen_le; reflexivity|exact HB1|rewrite <- E1; exact HL| |]; rewrite <- E1 in R2; rewrite R2; cbn [bind]; [|auto].
  assert (EB : b = (le 8 ver ++ l) ++ r2) by (rewrite E1, E2, app_assoc; reflexivity).
  assert (BL : blen b = 8 + blen l + blen r2) by (rewrite EB, !blen_app, blen_le; reflexivity).
  rewrite N.add_0_l. rewrite (u64_small (blen l + 8)) by (unfold M64; lia).
  pose proof (label_read (le 8 ver ++ l) r2 (blen l + 8) (number_read l)) as LR. rewrite <- EB in LR.
  rewrite LR by (rewrite blen_app, blen_le; lia).
  destruct (N.leb_spec (number_read l) 281474976710656) as [M2|]; [|cbn [bind]; auto]. cbn [bind].
  set (g := firstn (N.to_nat (number_read l)) r2 ++ repeat 0 (N.to_nat (number_read l) - length r2)).
  assert (LG : length g = N.to_nat (number_read l)).
  { unfold g. rewrite app_length, firstn_length, repeat_length. lia. }
  left. eexists. eexists. split; [reflexivity|]. split.
  { split; [exact V|]. cbn [label]. apply Forall_app. split.
    - apply (bytes_head _ (skipn (N.to_nat (number_read l)) r2)). rewrite firstn_skipn. apply (bytes_tail (le 8 ver ++ l)). rewrite <- EB. exact HB.
    - apply Forall_forall. intros x X. apply repeat_spec in X. subst x. reflexivity. }
  split; [unfold value_fits, blen; cbn [label]; rewrite LG; lia|].
  exists l, r2. cbn [version label]. split; [rewrite EB, <- app_assoc; reflexivity|]. split; [exact O|].
  split; [unfold blen; rewrite LG; lia|]. rewrite LG. reflexivity.
Qed.

Lemma value_there : forall b v, is_bytes b -> blen b < 2 ^ 60 -> value_ok v -> value_fits v -> stands_for_value b v ->
  exists n, UnmarshalValue b = Ok (v, n).
Proof.
  intros b v HB HL (V1 & V2) F (l & rest & E & O & NB & LB). unfold value_fits in F.
  pose proof HL as HL'. change (2 ^ 60) with 1152921504606846976 in HL'.
  assert (BL : blen b = 8 + blen l + blen rest) by (rewrite E, !blen_app, blen_le; lia).
  eexists. unfold UnmarshalValue.
  assert (R1 : get_u64 b 0 = Ok (version v)) by (rewrite E; apply (get_u64_spec (version v) [] (l ++ rest) 0 V1 eq_refl); reflexivity).
  rewrite R1. cbn [bind].
  assert (R2 : get_varint 8 b 0 = Ok (number_read l, 0 + blen l)).
  { rewrite E. apply varint_there; [rewrite blen_le; reflexivity|apply (bytes_tail (le 8 (version v))); rewrite <- E; exact HB|rewrite <- E; exact HL|exact O]. }
  rewrite R2. cbn [bind]. rewrite N.add_0_l, NB. rewrite (u64_small (blen l + 8)) by (unfold M64; lia).
  assert (R3 : get_label b (blen l + 8) (blen (label v)) = Ok (label v)).
  { rewrite E, app_assoc, label_read by (rewrite blen_app, blen_le; lia). rewrite (proj2 (N.leb_le _ _) F), blen_length.
    rewrite <- LB. reflexivity. }
  rewrite R3. cbn [bind]. destruct v. reflexivity.
Qed.

(** ** Shortest numbers *)

Lemma lor_below : forall a b k, a < 2 ^ k -> b < 2 ^ k -> N.lor a b < 2 ^ k.
Proof.
  intros a b k A B. destruct (N.eq_0_gt_0_cases (N.lor a b)) as [Z|P]; [rewrite Z; apply N.neq_0_lt_0, N.pow_nonzero; lia|].
  apply N.log2_lt_pow2; [exact P|]. rewrite N.log2_lor.
  assert (X : forall x, x < 2 ^ k -> N.lor a b <> 0 -> N.log2 x < k \/ x = 0).
  { intros x H _. destruct (N.eq_0_gt_0_cases x) as [->|Q]; [auto|]. left. apply N.log2_lt_pow2; assumption. }
  assert (NZ : N.lor a b <> 0) by lia.
  destruct (X a A NZ) as [LA|LA]; destruct (X b B NZ) as [LB|LB]; try lia.
  - subst b. cbn [N.log2]. destruct (N.log2 a); lia.
  - subst a. cbn [N.log2]. lia.
  - subst a b. exfalso. apply NZ. reflexivity.
Qed.

Lemma contributions_below : forall l j, 7 * (j + blen l) < 64 -> contributions j l < 2 ^ (7 * (j + blen l)).
Proof.
  induction l as [|b l IH]; intros j H; cbn [contributions].
  - apply N.neq_0_lt_0, N.pow_nonzero. lia.
  - rewrite blen_cons in *. apply lor_below.
    + eapply N.le_lt_trans; [apply N.mod_le; discriminate|]. rewrite (N.mod_small (7 * j) 256) by lia.
      apply N.lt_le_trans with (2 ^ 7 * 2 ^ (7 * j)).
      * apply N.mul_lt_mono_pos_r; [apply N.neq_0_lt_0, N.pow_nonzero; lia|]. change (2 ^ 7) with 128. apply N.mod_upper_bound. lia.
      * rewrite <- N.pow_add_r. apply N.pow_le_mono_r; lia.
    + replace (7 * (j + (1 + blen l))) with (7 * (j + 1 + blen l)) by lia. apply IH. lia.
Qed.

Lemma leb128_short : forall f n v, (0 < n)%nat -> v < 128 ^ N.of_nat n -> (length (leb128 f v) <= n)%nat.
Proof.
  induction f as [|f IH]; intros n v P H; cbn [leb128 length]; [lia|].
  destruct (N.ltb_spec v 128) as [C|C]; cbn [length]; [lia|].
  destruct n as [|[|n]]; [lia|cbn in H; lia|]. apply le_n_S. apply IH; [lia|]. apply pow128_step; assumption.
Qed.

Lemma shortest : forall l, on_wire l -> (length (varint (number_read l)) <= length l)%nat.
Proof.
  intros l O. destruct (Nat.le_gt_cases (length l) 9) as [C|C].
  - apply leb128_short.
    + destruct l; [destruct (on_wire_nil O)|cbn; lia].
    + unfold number_read. pose proof (contributions_below l 0) as B. rewrite N.add_0_l in B. unfold blen in B.
      replace (128 ^ N.of_nat (length l)) with (2 ^ (7 * N.of_nat (length l))); [apply B; lia|].
      rewrite N.pow_mul_r. reflexivity.
  - pose proof (varint_len (number_read l)). lia.
Qed.
