(** C144, C145: the histogram follows the distances; the level of eviction. *)
From Verif.Base Require Import GoBase GoLemmas Assoc Float.
From Verif.Model Require Import Codec Store Data Insert Vector Search Dataset Sync.
From Verif.Spec Require Import Wire StoreSpec InsertSpec VectorSpec SyncSpec.
From Verif.Proof Require Import FloatP RoundP VectorP MonoP MonoQ TruncP SyncP SyncStat.
From Verif.Props Require Import StoreProps SyncProps.
From Coq Require Import Lia ZArith.
Open Scope N_scope.

(** ** C144 *)

Lemma positive_is : forall M, positive64 M -> exists m e, M = S754_finite false m e /\ bounded 53 1024 m e = true.
Proof.
  intros M (V & F & L). destruct M as [s|s| |[] m e]; try contradiction; try discriminate. eauto.
Qed.

(** 64 d / M, before the integer part is taken. *)
Definition ratio (d M : float) : float := f64mul (f64div d M) (f64_of_Z 64).

Lemma sixtyfour : u53 (f64_of_Z 64).
Proof. reflexivity. Qed.

Lemma ratio_within : forall d M, positive64 M -> is_float64 d -> SFleb (S754_zero false) d = true ->
  SFleb d M = true ->
  u53 d /\ u53 (f64div d M) /\ fleb (f64div d M) (f64_of_Z 1) = true.
Proof.
  intros d M P V A B. destruct (positive_is M P) as (m & e & -> & Bd).
  assert (U : u53 d) by (apply (within_unsigned d (S754_finite false m e)); auto).
  split; auto. unfold f64div, prec64, emax64.
  assert (L : fleb (SFdiv 53 1024 d (S754_finite false m e)) (f64_of_Z 1) = true).
  { (* M / M is one *)
    assert (Q : fleb (SFdiv 53 1024 (S754_finite false m e) (S754_finite false m e)) (f64_of_Z 1) = true).
    { apply (div_self m e Bd). }
    pose proof (div_mono 53 1024 ltac:(lia) d (S754_finite false m e) m e U Bd Bd B) as L0.
    eapply leb_trans; [exact L0|exact Q]. }
  split; auto. destruct (div_range 53 1024 ltac:(lia) d m e U Bd) as [T|T]; auto.
  rewrite T in L. discriminate.
Qed.

Lemma ratio_bound : forall d M, positive64 M -> is_float64 d -> SFleb (S754_zero false) d = true ->
  SFleb d M = true -> exists z, f_trunc (ratio d M) = Some z /\ (0 <= z <= 64)%Z /\ u53 (ratio d M).
Proof.
  intros d M P V A B. destruct (ratio_within d M P V A B) as (U & Q & L).
  assert (K : fleb (ratio d M) (f64_of_Z 64) = true).
  { replace (f64_of_Z 64) with (f64mul (f64_of_Z 1) (f64_of_Z 64)) by (vm_compute; reflexivity).
    unfold ratio. apply mul_mono; auto using sixtyfour; reflexivity. }
  assert (R : u53 (ratio d M)).
  { destruct (mul_range _ _ Q sixtyfour) as [R|R]; [exact R|]. fold (ratio d M) in R. rewrite R in K. discriminate. }
  destruct (trunc_mono _ _ R sixtyfour K) as (a & b & E1 & E2 & H).
  rewrite (of_Z_trunc 64) in E2 by lia. injection E2 as <-. exists a. auto.
Qed.

(** C144 The histogram follows the distances: within the scale of the previous run
    a datum that is nearer to the centre is never counted in a higher bucket, the
    centre is in the lowest bucket and the end of the scale in the highest.
    Beyond the scale see below. *)
Theorem C144_order_partial : forall M d d' i i', positive64 M ->
  is_float64 d -> is_float64 d' -> SFleb (S754_zero false) d = true -> SFleb d d' = true -> SFleb d' M = true ->
  right_bucket d M i -> right_bucket d' M i' ->
  (i <= i')%nat /\ (SFeqb d (S754_zero false) = true -> i = 0%nat) /\ (SFeqb d' M = true -> i' = 63%nat).
Proof.
  intros M d d' i i' P V V' A L B [_ R] [_ R'].
  assert (A' : SFleb (S754_zero false) d' = true).
  { eapply leb_trans; eauto. }
  assert (B0 : SFleb d M = true).
  { eapply leb_trans; eauto. }
  destruct (ratio_bound d M P V A B0) as (z & E & Hz & U).
  destruct (ratio_bound d' M P V' A' B) as (z' & E' & Hz' & U').
  specialize (R z E ltac:(lia)). specialize (R' z' E' ltac:(lia)).
  split; [|split].
  - destruct (ratio_within d M P V A B0) as (U1 & Q1 & _), (ratio_within d' M P V' A' B) as (U2 & Q2 & _).
    assert (K : fleb (ratio d M) (ratio d' M) = true).
    { unfold ratio. apply mul_mono; auto using sixtyfour.
      destruct (positive_is M P) as (m & e & -> & Bd). unfold f64div, prec64, emax64. apply div_mono; auto. lia. }
    destruct (trunc_mono _ _ U U' K) as (a & b & F1 & F2 & F3). rewrite E in F1. rewrite E' in F2.
    injection F1 as <-. injection F2 as <-. lia.
  - intro Z. destruct d as [s|s| |[] m e]; try discriminate; [|destruct s; discriminate].
    destruct (positive_is M P) as (m & e & -> & Bd). unfold ratio, f64div, f64mul in E. cbn in E.
    injection E as <-. lia.
  - intro Z. destruct (positive_is M P) as (m & e & -> & Bd).
    (* the quotient is one, 64 times it is 64 *)
    assert (Ed : d' = S754_finite false m e).
    { destruct d' as [s|[]| |[] m' e']; try discriminate.
      unfold SFeqb, SFcompare in Z. destruct (Z.compare_spec e' e); try discriminate.
      change (Pcompare m' m Eq) with (m' ?= m)%positive in Z. destruct (Pos.compare_spec m' m); try discriminate. subst. reflexivity. }
    subst d'. assert (z' = 64)%Z; [|lia].
    assert (Q : fleb (f64_of_Z 1) (f64div (S754_finite false m e) (S754_finite false m e)) = true).
    { apply (div_self m e Bd). }
    destruct (ratio_within _ _ P V' A' B) as (U2 & Q2 & _).
    assert (K : fleb (f64_of_Z 64) (ratio (S754_finite false m e) (S754_finite false m e)) = true).
    { replace (f64_of_Z 64) with (f64mul (f64_of_Z 1) (f64_of_Z 64)) at 1 by (vm_compute; reflexivity).
      unfold ratio. apply mul_mono; auto using sixtyfour; reflexivity. }
    destruct (trunc_mono _ _ sixtyfour U' K) as (a & b & F1 & F2 & F3). rewrite E' in F2. injection F2 as <-.
    rewrite (of_Z_trunc 64) in F1 by lia. injection F1 as <-. lia.
Qed.
Print Assumptions C144_order_partial.

Lemma div_M : forall d d' M, positive64 M -> u53 d -> u53 d' -> SFleb d d' = true ->
  fleb (f64div d M) (f64div d' M) = true.
Proof.
  intros d d' M P U U' L. destruct (positive_is M P) as (m & e & -> & Bd).
  unfold f64div, prec64, emax64. apply div_mono; auto. lia.
Qed.

(** Beyond the scale, as long as 64 d / M is a number of 64 bits: the highest
    bucket. *)
Theorem C144_beyond_partial : forall M d i, positive64 M -> is_float64 d -> SFleb M d = true ->
  SFltb (f64mul (f64div d M) (f64_of_Z 64)) (f64_of_Z 9223372036854775808) = true ->
  right_bucket d M i -> i = 63%nat.
Proof.
  intros M d i P V L B [_ R].
  pose proof P as P0. destruct (positive_is M P0) as (m & e & -> & Bd).
  set (M := S754_finite false m e) in *.
  assert (UM : u53 M) by exact Bd.
  assert (U : u53 d).
  { destruct d as [s|s| |[] md ed]; try discriminate; try exact I; [|exact V].
    destruct s; [discriminate|]. cbn in B. discriminate. }
  assert (Q : in_range 53 1024 (f64div d M)) by (apply (div_range 53 1024); auto; lia).
  assert (Q' : u53 (f64div d M)).
  { destruct Q as [Q|Q]; auto. rewrite Q in B. vm_compute in B. discriminate. }
  assert (T : in_range 53 1024 (ratio d M)) by (apply mul_range; auto; apply sixtyfour).
  assert (T' : u53 (ratio d M)).
  { destruct T as [T|T]; auto. unfold ratio in T. rewrite T in B. vm_compute in B. discriminate. }
  assert (K : fleb (f64_of_Z 64) (ratio d M) = true).
  { replace (f64_of_Z 64) with (f64mul (f64_of_Z 1) (f64_of_Z 64)) at 1 by (vm_compute; reflexivity).
    unfold ratio. apply mul_mono; auto using sixtyfour; try reflexivity.
    apply (leb_trans _ (f64div M M)); [apply (div_self m e Bd)|apply div_M; auto]. }
  destruct (trunc_mono _ _ sixtyfour T' K) as (a & b & F1 & F2 & F3).
  rewrite (of_Z_trunc 64) in F1 by lia. injection F1 as <-.
  assert (H : (b < 9223372036854775808)%Z).
  { assert (B' : fleb (ratio d M) (f64_of_Z 9223372036854775808) = true).
    { unfold ratio. clear - B. destruct (f64mul _ _) as [s|s| |s m1 e1]; try discriminate; unfold SFltb, fleb, SFleb in *;
        destruct (SFcompare _ _) as [[]|]; try discriminate; reflexivity. }
    destruct (Z.lt_ge_cases b 9223372036854775808) as [H|H]; auto. exfalso.
    (* then the number would be at least 2^63 *)
    rewrite (trunc_units _ (-1074) T') in F2 by lia. injection F2 as F2.
    assert (UB : u53 (f64_of_Z 9223372036854775808)) by reflexivity.
    assert (L2 : fleb (f64_of_Z 9223372036854775808) (ratio d M) = true).
    { apply (fleb_units 53 1024 ltac:(lia) _ _ (-1074)); auto; [rewrite emin53; lia|].
      replace (units (-1074) (f64_of_Z 9223372036854775808)) with (9223372036854775808 * 2 ^ 1074)%Z by (vm_compute; reflexivity).
      rewrite <- F2 in H. pose proof (Z.mul_div_le (units (-1074) (ratio d M)) (2 ^ 1074) ltac:(apply Z.pow_pos_nonneg; lia)) as X.
      change (- -1074)%Z with 1074%Z in H. 
      pose proof (Z.mul_le_mono_nonneg_r _ _ (2 ^ 1074) ltac:(apply Z.pow_nonneg; lia) H) as Y. lia. }
    destruct (leb_not_nan _ _ L2) as [N1 N2]. rewrite SFleb_ltb in L2 by auto. unfold ratio in L2. rewrite B in L2. discriminate. }
  specialize (R b F2 ltac:(lia)). lia.
Qed.
Print Assumptions C144_beyond_partial.

(** What a statistics run leaves: every bucket of the histogram holds one share
    per datum of which the distance to the previous centre belongs there, and
    the assignment follows the distances. *)
Theorem C144_histogram_partial : forall M P dt dt' r force,
  Process M P dt force = Ok (dt', r) -> blen (pOrder P) < M64 ->
  positive64 (dMaxDistance dt) ->
  (exists li, GetDataInfo dt = Ok li /\ dN dt' = dN dt /\
     process_due dt (pNow P) (snd (DataSourceDiffMap M (pItems P) (pInfo P) li)) force = false) \/
  exists b : float -> nat,
    (forall i, (i < 64)%nat ->
       nth i (dHist dt') fzero =
       pile (f32div (f32_of_Z 1) (f32_of_Z (Z.of_N (N.max 1 (dN dt)))))
         (in_bucket b i (map (fun d => VectorDistance M (dAvg dt) (features d)) (live_data (pTick P) (pOrder P))))) /\
    (forall d d', is_float64 d -> is_float64 d' -> SFleb (S754_zero false) d = true ->
       SFleb d d' = true -> SFleb d' (dMaxDistance dt) = true -> (b d <= b d' < 64)%nat) /\
    (forall d, SFeqb d (S754_zero false) = true -> b d = 0%nat) /\
    (forall d, is_float64 d -> SFleb (dMaxDistance dt) d = true ->
       SFltb (f64mul (f64div d (dMaxDistance dt)) (f64_of_Z 64)) (f64_of_Z 9223372036854775808) = true ->
       b d = 63%nat).
Proof.
  intros M P dt dt' r force PR SM PM.
  destruct (C52_statistics_partial _ _ _ _ _ _ PR SM) as [C|C]; [left; exact C|right].
  cbv zeta in C. destruct C as (_ & _ & _ & _ & H & _).
  assert (Z0 : feqb (dMaxDistance dt) fzero = false).
  { destruct (positive_is _ PM) as (m & e & -> & _). reflexivity. }
  destruct (H Z0) as (b & Rb & Hb). exists b. split; [exact Hb|]. split; [|split].
  - intros d d' V V' A L B.
    destruct (C144_order_partial _ d d' _ _ PM V V' A L B (Rb d) (Rb d')) as [X _].
    split; [exact X|apply (Rb d')].
  - intros d E. assert (d = S754_zero false \/ d = S754_zero true) as D.
    { destruct d as [[]|[]| |[] ? ?]; auto; discriminate. }
    destruct (positive_is _ PM) as (m & e & EM & Bd). pose proof (Rb d) as [_ X]. rewrite EM in X.
    specialize (X 0%Z). destruct D as [-> | ->]; specialize (X eq_refl ltac:(lia)); lia.
  - intros d V L B. eapply C144_beyond_partial; eauto.
Qed.
Print Assumptions C144_histogram_partial.

(** Features 1, 3 and 6 and the centre 0; the scale ends at 4. *)
Definition far_map : dbmap := stock 100000 [1065353216; 1077936128; 1086324736].
Definition far_dt (n : N) (M : float) (m : dbmap) : Data :=
  mkData (Some (cfg_s 9 true)) [fzero] n M [] 0 0 false (Some []) true true 0 m 0.
Example C144_instance : exists dt' r,
  Process mathlib_ex (pe [] 0 far_map) (far_dt 4 (f64_of_Z 4) far_map) true = Ok (dt', r) /\
  positive64 (f64_of_Z 4) /\
  map (fun d => VectorDistance mathlib_ex [fzero] (features d)) (live_data (fun _ => 1000%Z) far_map) =
    [f64_of_Z 1; f64_of_Z 3; f64_of_Z 6] /\
  nth 16 (dHist dt') fzero = f32div (f32_of_Z 1) (f32_of_Z 4) /\
  nth 48 (dHist dt') fzero = f32div (f32_of_Z 1) (f32_of_Z 4) /\
  nth 63 (dHist dt') fzero = f32div (f32_of_Z 1) (f32_of_Z 4).
Proof. eexists. eexists. split; [vm_compute; reflexivity|]. vm_compute. repeat split; auto. Qed.
Example C144_instance_order :
  right_bucket (f64_of_Z 1) (f64_of_Z 4) 16 /\ right_bucket (f64_of_Z 3) (f64_of_Z 4) 48 /\
  right_bucket (f64_of_Z 6) (f64_of_Z 4) 63 /\
  SFltb (f64mul (f64div (f64_of_Z 6) (f64_of_Z 4)) (f64_of_Z 64)) (f64_of_Z 9223372036854775808) = true.
Proof.
  split; [|split; [|split]]; try (split; [lia|]; intros z E _; vm_compute in E; injection E as <-; reflexivity).
  reflexivity.
Qed.

(** C144 refuted beyond the scale, where the conversion to an integer does not
    fit: the scale ends at 1; with the conversion of amd64 the datum at distance 3
    is in the highest bucket and the datum at distance 2^60 in the lowest. *)
Definition huge_map : dbmap := stock 100000 [1077936128; 1568669696].
Definition huge_pe : penv :=
  mkPenv 1000 1000 1000 [] (fun _ => Some (info_s 0)) huge_map (fun _ => 1000%Z) (fun _ => 1000) (fun _ => fzero)
    (-9223372036854775808).
Theorem C144_order_refuted : exists M P dt dt' r,
  Process M P dt true = Ok (dt', r) /\ positive64 (dMaxDistance dt) /\ dMaxDistance dt = f64_of_Z 1 /\
  map (fun d => VectorDistance M (dAvg dt) (features d)) (live_data (pTick P) (pOrder P)) =
    [f64_of_Z 3; f64_of_Z (2 ^ 60)] /\
  dHist dt' = f32div (f32_of_Z 1) (f32_of_Z 2) :: repeat fzero 62 ++ [f32div (f32_of_Z 1) (f32_of_Z 2)] /\
  bucket (pUndef P) (f64_of_Z 3) (f64_of_Z 1) = 63%nat /\ bucket (pUndef P) (f64_of_Z (2 ^ 60)) (f64_of_Z 1) = 0%nat.
Proof.
  exists mathlib_ex, huge_pe, (far_dt 2 (f64_of_Z 1) huge_map). eexists. eexists.
  split; [vm_compute; reflexivity|]. vm_compute. repeat split; auto.
Qed.
Print Assumptions C144_order_refuted.

(** ** C145 *)

Lemma share_u53 : forall u, share u -> u53 u.
Proof. intros u (V & A & B). apply (within_unsigned u (f64_of_Z 1)); auto. reflexivity. Qed.

Lemma trunc_whole : forall y n, u53 y -> units (-1074) y = (n * 2 ^ 1074)%Z -> f_trunc y = Some n.
Proof.
  intros y n U E. rewrite (trunc_units _ (-1074) U), E by lia. f_equal. apply Z.div_mul. apply Z.pow_nonzero; lia.
Qed.

(** The product and its integer part, for targets up to 2^53. *)
Lemma level_is : forall undef T u, share u -> T <= 9007199254740992 ->
  exists z, f_trunc (f64mul (f64_of_Z (Z.of_N T)) u) = Some z /\ (0 <= z <= Z.of_N T)%Z /\ level undef T u = Z.to_N z /\
    u53 (f64mul (f64_of_Z (Z.of_N T)) u).
Proof.
  intros undef T u S B. pose proof (share_u53 u S) as U. destruct S as (V & S0 & S1).
  destruct (of_Z_exact (Z.of_N T) ltac:(lia)) as [UT ET].
  destruct (mul_one _ UT) as (y & Ey & Uy & Vy).
  assert (K : fleb (f64mul (f64_of_Z (Z.of_N T)) u) y = true).
  { rewrite <- Ey. apply mul_mono; auto; try reflexivity.
    apply (fleb_units 53 1024 ltac:(lia) _ _ (-1074)); auto; [rewrite emin53|]; lia. }
  assert (R : u53 (f64mul (f64_of_Z (Z.of_N T)) u)).
  { destruct (mul_range _ _ UT U) as [R|R]; auto. rewrite R in K. destruct y as [|[]| |[]]; cbn in Uy, K; try contradiction; discriminate. }
  destruct (trunc_mono _ _ R Uy K) as (a & b & E1 & E2 & H).
  rewrite ET in Vy. rewrite (trunc_whole y _ Uy Vy) in E2. injection E2 as <-.
  exists a. split; auto. split; [lia|]. split; auto. unfold level, f_to_u64. rewrite E1.
  destruct (Z.leb_spec 0 a), (Z.ltb_spec a 18446744073709551616); cbn; auto; lia.
Qed.

(** C145 With a utilization between 0 and 1 the level down to which a dataset
    hands over data never exceeds its target, grows with the target and with the
    utilization, is the target for 1 and nothing for 0.
    Missing: targets above 2^53, refuted below. *)
Theorem C145_level_partial : forall undef T T' u u', share u -> share u' -> T' <= 9007199254740992 ->
  T <= T' -> SFleb u u' = true ->
  level undef T u <= T /\ level undef T u <= level undef T' u' /\
  level undef T (f64_of_Z 1) = T /\ level undef T (S754_zero false) = 0.
Proof.
  intros undef T T' u u' S S' B LT LU.
  destruct (level_is undef T u S ltac:(lia)) as (z & E & H & EL & U).
  destruct (level_is undef T' u' S' B) as (z' & E' & H' & EL' & U').
  split; [lia|]. split; [|split].
  - destruct (trunc_mono _ _ U U') as (a & b & F1 & F2 & F3).
    + destruct (of_Z_exact (Z.of_N T) ltac:(lia)) as [UT _], (of_Z_exact (Z.of_N T') ltac:(lia)) as [UT' _].
      apply mul_mono; auto using share_u53. apply of_Z_mono. lia.
    + rewrite E in F1. rewrite E' in F2. injection F1 as <-. injection F2 as <-. lia.
  - destruct (of_Z_exact (Z.of_N T) ltac:(lia)) as [UT ET]. destruct (mul_one _ UT) as (y & Ey & Uy & Vy).
    rewrite ET in Vy. unfold level, f_to_u64. rewrite Ey, (trunc_whole y _ Uy Vy).
    destruct (Z.leb_spec 0 (Z.of_N T)), (Z.ltb_spec (Z.of_N T) 18446744073709551616); cbn; lia.
  - destruct (of_Z_exact (Z.of_N T) ltac:(lia)) as [UT _]. unfold level, f_to_u64.
    destruct (f64_of_Z (Z.of_N T)) as [[]|[]| |[]]; cbn in UT; try contradiction; reflexivity.
Qed.
Print Assumptions C145_level_partial.

(** A dataset that refuses inserts because its target is reached makes room: the
    first datum its sender gets acknowledged is removed. *)
Theorem C145_room_partial : forall M undef P force dt dt' r c,
  Process M P dt force = Ok (dt', Some r) -> dConfig dt = Some c -> over_target dt -> dN dt < M64 ->
  share (cTargetUtilization c) -> cTargetN c <= 9007199254740992 ->
  forall dt1 r1 d cf id ids dt2 r2,
  rInfo r1 = rInfo r -> rConf r1 = rConf r -> rDeleted r1 = 0 -> rPc r1 = Acked d cf id ids ->
  sender_step undef dt1 r1 SDecide = Some (dt2, r2) ->
  DeleteBDMap (dDBMap dt1) (Some d) = Ok (dDBMap dt2) /\ rDeleted r2 = 1.
Proof.
  intros M undef P force dt dt' r c PR DC (c' & DC' & NT & OT) SM SH B dt1 r1 d cf id ids dt2 r2 EI EC E0 EP ST.
  rewrite DC in DC'. injection DC' as <-.
  destruct (process_spec _ _ _ _ _ _ PR) as (li & c1 & limit & dm & GI & DC1 & _ & _ & _ & _ & C).
  rewrite DC in DC1. injection DC1 as <-.
  assert (IN : iN li = dN dt) by (unfold GetDataInfo in GI; rewrite DC in GI; injection GI as <-; reflexivity).
  assert (IT : iTargetN li = cTargetN c).
  { unfold GetDataInfo in GI. rewrite DC in GI. injection GI as <-. reflexivity. }
  assert (RR : rInfo r = li /\ rConf r = c).
  { destruct C as [(_ & C)|(_ & _ & C & _)]; [|discriminate]. cbv zeta in C.
    destruct C as (_ & _ & _ & _ & _ & C). destruct (0 <? dN dt); [injection C as ->; auto|discriminate]. }
  destruct RR as [R1 R2].
  unfold sender_step in ST. rewrite EP in ST.
  assert (EV : isEvictionOn undef (rInfo r1) (rConf r1) (rDeleted r1) = true).
  { unfold isEvictionOn. rewrite EI, EC, E0, R1, R2, NT. cbn [negb andb].
    unfold lowerThreshold. rewrite IN, IT. fold (level undef (cTargetN c) (cTargetUtilization c)).
    destruct (level_is undef _ _ SH B) as (z & _ & H & -> & _). apply N.leb_le.
    unfold sub64, M64 in *. change (0 mod 18446744073709551616) with 0.
    rewrite N.sub_0_r, <- N.add_mod_idemp_r, N.mod_same, N.add_0_r, N.mod_small by lia. lia. }
  rewrite EV, orb_true_r in ST. destruct (DeleteBDMap (dDBMap dt1) (Some d)) as [m| |]; try discriminate.
  injection ST as <- <-. split; [destruct dt1; reflexivity|]. cbn. rewrite E0. reflexivity.
Qed.
Print Assumptions C145_room_partial.

(** The default configuration of a dataset: target 1000 of which 0.4 are to be
    used, so data are handed over down to 400. *)
Example C145_instance :
  share f0_4 /\ share (f64_of_Z 1) /\ share (S754_zero false) /\ SFleb f0_4 (f64_of_Z 1) = true /\
  level 0 1000 f0_4 = 400 /\ level 0 500 f0_4 = 200 /\ level 0 1000 (f64_of_Z 1) = 1000 /\
  cTargetN (GetDefaultConfig (bs "x")) = 1000 /\ cTargetUtilization (GetDefaultConfig (bs "x")) = f0_4.
Proof. vm_compute. repeat split; auto; discriminate. Qed.

(** A full dataset of three with target two and one source: the datum acknowledged
    first is removed. *)
Definition half64 : float := S754_finite false 4503599627370496 (-53).
Definition cfg_full : DataConfig := mkDataConfig (bs "x") 0 2 half64 false 1 true 0.
Definition full_dt : Data := dt_s cfg_full 3 (stock 100000 [1; 2; 3]) [A1].
Example C145_instance_room : exists dt' r r1 dt2 r2 d cf ids,
  Process mathlib_ex (pe [A1] 1 (stock 100000 [1; 2; 3])) full_dt true = Ok (dt', Some r) /\
  over_target full_dt /\ share half64 /\
  sync_run mathlib_ex 0 (mkSync dt' [r]) [YSend 0 (STake [A1]); YSend 0 (SOffer true)] = Some (mkSync dt' [r1]) /\
  rInfo r1 = rInfo r /\ rConf r1 = rConf r /\ rDeleted r1 = 0 /\ rPc r1 = Acked d cf A1 ids /\
  sender_step 0 dt' r1 SDecide = Some (dt2, r2) /\ rDeleted r2 = 1 /\
  blen (dDBMap dt') = 3 /\ blen (dDBMap dt2) = 2.
Proof.
  do 8 eexists. split; [vm_compute; reflexivity|].
  split; [exists cfg_full; vm_compute; repeat split; discriminate|].
  split; [vm_compute; repeat split; auto|].
  split; [vm_compute; reflexivity|]. vm_compute. repeat split; auto.
Qed.

(** C145 refuted for a target above 2^53: the product is rounded up beyond the
    target. *)
Theorem C145_level_refuted : exists T u, share u /\ T < M64 /\ forall undef, T < level undef T u.
Proof.
  exists 9007199254740995, (f64_of_Z 1). split; [vm_compute; repeat split; auto|]. split; [reflexivity|].
  intro undef. vm_compute. reflexivity.
Qed.
Print Assumptions C145_level_refuted.

(** C145 refuted for a utilization above 1: a full dataset that has two sources
    refuses inserts and keeps everything it hands over. *)
Definition greedy : DataConfig := mkDataConfig (bs "x") 0 2 (f64_of_Z 2) false 1 true 0.
Theorem C145_room_refuted : exists M undef P dt dt' r r1 dt2 r2,
  Process M P dt true = Ok (dt', Some r) /\ over_target dt /\
  sync_run M undef (mkSync dt' [r]) [YSend 0 (STake [A1]); YSend 0 (SOffer true)] = Some (mkSync dt' [r1]) /\
  sender_step undef dt' r1 SDecide = Some (dt2, r2) /\ dDBMap dt2 = dDBMap dt' /\ rDeleted r2 = 0.
Proof.
  exists mathlib_ex, 0, (pe [A1] 1 (stock 100000 [1; 2; 3])), (dt_s greedy 3 (stock 100000 [1; 2; 3]) [A1]).
  do 5 eexists. split; [vm_compute; reflexivity|].
  split; [exists greedy; vm_compute; repeat split; discriminate|].
  split; [vm_compute; reflexivity|]. split; [vm_compute; reflexivity|]. vm_compute. auto.
Qed.
Print Assumptions C145_room_refuted.
