(** C166: a search by angles finds the data with the truly smallest angles, up to the error. *)
From Verif.Base Require Import GoBase GoLemmas Assoc Float GoSort.
From Verif.Model Require Import Codec Store Data Vector Search Aggregator CallTree Annoy.
From Verif.Spec Require Import Wire StoreSpec TopK TreeSpec VectorSpec SizeSpec AccuracySpec ArcSpec.
From Verif.Proof Require Import FloatP RoundP VectorP MonoP MonoQ TruncP StoreP StoreQ SearchP ExactP SizeP NearP AngleP ErrorP ErrorQ SelfP DotP CosineP CosineQ.
From Verif.Props Require Import StoreProps SearchProps AccuracyProps FoundProps RankProps DirectionProps AcrossProps.
From Coq Require Import Lia ZArith.
Open Scope Z_scope.

(** A number that is rounded, also a small one. *)
Lemma rounds_error_any : forall prec emax, 1 < prec -> forall b E a r, 0 < b -> E <= emin prec emax ->
  rounds prec emax b E a r -> unsigned prec emax r ->
  Z.abs (b * units E r - a) * 2 ^ prec <= a + b * 2 ^ (prec - 1) * 2 ^ (emin prec emax - E).
Proof.
  intros prec emax Hprec b E a r Hb HL (m & e & l & HE & [I1 I2] & M & X & Y & R) U.
  assert (P0 : 0 < 2 ^ (e - E)) by (apply Z.pow_pos_nonneg; lia).
  assert (PL : 0 < 2 ^ (emin prec emax - E)) by (apply Z.pow_pos_nonneg; lia).
  assert (PQ : 0 < 2 ^ (prec - 1)) by (apply Z.pow_pos_nonneg; lia).
  assert (PP : 2 ^ prec = 2 * 2 ^ (prec - 1)) by (rewrite <- Z.pow_succ_r by lia; f_equal; lia).
  assert (RM : 0 <= round_nearest_even m l <= 2 ^ prec) by (destruct (rne_cases m l) as [-> | ->]; lia).
  assert (V : units E r = round_nearest_even m l * 2 ^ (e - E)).
  { destruct R as [-> | [Z [s ->]]].
    - apply (written_units prec emax Hprec); auto.
    - rewrite Z. reflexivity. }
  rewrite V. set (u := 2 ^ (e - E)) in *. set (w := b * u) in *.
  assert (W0 : 0 < w) by (unfold w; nia).
  replace (b * (round_nearest_even m l * u)) with (round_nearest_even m l * w) by (unfold w; ring).
  assert (H : 2 * Z.abs (round_nearest_even m l * w - a) <= w).
  { destruct l as [|c]; cbn [round_nearest_even].
    - rewrite I2. replace (m * w - m * w) with 0 by ring. lia.
    - destruct I2 as [I2 I3]. destruct c.
      + apply Z.compare_eq in I3. destruct (Z.even m); [rewrite Z.abs_neq by lia|rewrite Z.abs_eq by lia]; lia.
      + change (2 * a < (2 * m + 1) * w) in I3. rewrite Z.abs_neq by lia. lia.
      + apply Z.compare_gt_iff in I3. rewrite Z.abs_eq by lia. lia. }
  assert (A0 : 0 <= a) by nia.
  assert (K : 2 ^ (prec - 1) * w <= a + b * 2 ^ (prec - 1) * 2 ^ (emin prec emax - E)).
  { destruct Y as [Y|Y].
    - subst e. fold u. unfold w. nia.
    - assert (2 ^ (prec - 1) * w <= m * w) by (apply Z.mul_le_mono_nonneg_r; lia).
      assert (m * w <= a) by lia. assert (0 <= b * 2 ^ (prec - 1) * 2 ^ (emin prec emax - E)) by nia. lia. }
  rewrite PP. set (d := Z.abs _) in *. assert (0 <= d) by (unfold d; lia).
  apply Z.le_trans with (2 ^ (prec - 1) * w); [|exact K].
  replace (d * (2 * 2 ^ (prec - 1))) with (2 ^ (prec - 1) * (2 * d)) by ring. apply Z.mul_le_mono_nonneg_l; lia.
Qed.

Lemma unsigned_signed : forall x, unsigned 53 1024 x -> signed 53 1024 x.
Proof. intros [s|s| |[] m e] U; cbn in *; auto. Qed.
Lemma unsigned_value : forall E x, unsigned 53 1024 x -> value E x = units E x.
Proof. intros E [s|s| |[] m e] U; cbn in *; try contradiction; reflexivity. Qed.

Lemma unsigned_valid : forall x, unsigned 53 1024 x -> is_float64 x.
Proof. intros [s|s| |[] m e] U; cbn in U; try contradiction; [reflexivity|exact U]. Qed.

Definition pi_m : Z := 7074237752028440.

(** The share of pi. *)
Lemma part_error : forall x, unsigned 53 1024 x -> fleb x f64_pi = true ->
  Z.abs (pi_m * value (-1074) (part x) - value (-1074) x * 2 ^ 51) * 2 ^ 53 <= 2 * pi_m * 2 ^ 1074.
Proof.
  intros x U L. destruct (part_ok x U L) as [PU PL]. rewrite !unsigned_value by assumption.
  assert (UL : units (-1074) x <= pi_m * 2 ^ 1023).
  { rewrite pi_is in L. apply (fleb_units 53 1024 ltac:(lia) x (S754_finite false 7074237752028440 (-51)) (-1074) ltac:(cbn; lia) U (eq_refl true)) in L.
    cbn [units] in L. exact L. }
  destruct x as [s|s| |[] m e]; cbn [unsigned] in U; try contradiction.
  { unfold part, f64div. rewrite pi_is. change (SFdiv prec64 emax64 (S754_zero s) (S754_finite false 7074237752028440 (-51))) with (S754_zero (xorb s false)).
    cbn [units]. rewrite Z.mul_0_r, Z.mul_0_l. change (Z.abs (0 - 0) * 2 ^ 53) with 0.
    apply Z.mul_nonneg_nonneg; [vm_compute; discriminate|apply Z.pow_nonneg; lia]. }
  destruct (bounded_spec 53 1024 ltac:(lia) m e U) as (_ & B & _). change (emin 53 1024) with (-1074) in B.
  pose proof (rounds_div 53 1024 ltac:(lia) m e 7074237752028440 (-51) (-1074) U (eq_refl true) ltac:(cbn; lia) ltac:(lia)) as R.
  unfold part, f64div in *. change prec64 with 53 in *. change emax64 with 1024 in *. rewrite pi_is in *.
  pose proof (rounds_error_any 53 1024 ltac:(lia) 7074237752028440 (-1074) _ _ (eq_refl Lt) ltac:(cbn; lia) R PU) as E.
  change (emin 53 1024 - -1074) with 0 in E. change (Zpos 7074237752028440) with pi_m in E.
  set (r := units (-1074) (SFdiv 53 1024 (S754_finite false m e) (S754_finite false 7074237752028440 (-51)))) in *.
  cbn [units] in UL |- *. replace (e - -51 - -1074) with ((e - -1074) + 51) in E by lia. rewrite Z.pow_add_r in E by lia.
  set (A := Zpos m * 2 ^ (e - -1074)) in *.
  replace (Zpos m * (2 ^ (e - -1074) * 2 ^ 51)) with (A * 2 ^ 51) in E by (unfold A; ring). clearbody A r.
  assert (A1 : A * 2 ^ 51 <= pi_m * 2 ^ 1074).
  { replace (2 ^ 1074) with (2 ^ 1023 * 2 ^ 51) by reflexivity. rewrite Z.mul_assoc. apply Z.mul_le_mono_nonneg_r; [apply Z.pow_nonneg; lia|exact UL]. }
  assert (A2 : pi_m * 2 ^ 52 * 2 ^ 0 <= pi_m * 2 ^ 1074) by (vm_compute; discriminate).
  change (53 - 1) with 52 in E. set (p := 2 ^ 1074) in *. clearbody p. lia.
Qed.

(** The score itself. *)
Lemma angular_error : forall M a b, acos_ok M -> is_nan (CosineSimilarity a b) = false ->
  let p := part (acos M (CosineSimilarity a b)) in
  signed 53 1024 (AngularDistance M a b) /\ 0 <= value (-1074) p <= 2 ^ 1074 /\
  Z.abs (value (-1074) (AngularDistance M a b) - (2 ^ 1074 - value (-1074) p)) * 2 ^ 53 <= 2 ^ 1074.
Proof.
  intros M a b H N p. destruct (angle_ok M a b H N) as [U L]. destruct (part_ok _ U L) as [PU PL]. fold p in PU, PL.
  destruct (C142_range M a b H N) as [[W1 W2] V].
  assert (AU : unsigned 53 1024 (AngularDistance M a b)).
  { unfold is_float64 in V. destruct (AngularDistance M a b) as [s|s| |[] m e]; try discriminate; [exact I| |exact V].
    destruct s; [discriminate W1|discriminate W2]. }
  assert (PV : 0 <= value (-1074) p <= 2 ^ 1074).
  { rewrite unsigned_value by exact PU. split; [apply units_nonneg|].
    apply (fleb_units 53 1024 ltac:(lia) p f64_one (-1074) ltac:(cbn; lia) PU (eq_refl true)) in PL. exact PL. }
  split; [apply unsigned_signed, AU|]. split; [exact PV|].
  pose proof (sub_abs_rounds 53 1024 ltac:(lia) f64_one p (eq_refl true) (unsigned_signed _ PU)) as R.
  change (emin 53 1024) with (-1074) in R. rewrite angular_is in *. fold p in AU |- *. unfold f64sub in *.
  change prec64 with 53 in *. change emax64 with 1024 in *.
  set (r := SFsub 53 1024 f64_one p) in *.
  assert (AR : unsigned 53 1024 (SFabs r)) by (apply signed_unsigned, unsigned_signed, AU).
  change (value (-1074) f64_one) with (2 ^ 1074) in R.
  assert (Q : 0 <= 2 ^ 1074 - value (-1074) p) by lia. rewrite Z.abs_eq in R by exact Q.
  pose proof (rounds_relative 53 1024 ltac:(lia) _ _ Q R AR) as E. change (emin 53 1024) with (-1074) in E.
  rewrite units_abs in E. rewrite (unsigned_value (-1074) r AU). set (v := 2 ^ 1074) in *. clearbody v.
  eapply Z.le_trans; [exact E|]. lia.
Qed.

(** What scores no worse by the angle has a cosine that is not smaller by 2^-39 or more. *)
Lemma angular_back : forall M a b c d, acos_ok M -> acos_steep M ->
  signed 53 1024 (CosineSimilarity a b) -> signed 53 1024 (CosineSimilarity c d) ->
  SFleb (AngularDistance M c d) (AngularDistance M a b) = true ->
  value (-1074) (CosineSimilarity c d) <= value (-1074) (CosineSimilarity a b) + 2 ^ (1074 - 39).
Proof.
  intros M a b c d H HS Sa Sc L.
  destruct (signed_finite _ Sa) as [_ Na]. destruct (signed_finite _ Sc) as [_ Nc].
  destruct (SFleb (CosineSimilarity c d) (CosineSimilarity a b)) eqn:O.
  { apply (leb_value _ _ Sc Sa) in O. assert (0 <= 2 ^ (1074 - 39)) by (apply Z.pow_nonneg; lia). lia. }
  assert (O' : SFleb (CosineSimilarity a b) (CosineSimilarity c d) = true).
  { rewrite SFleb_ltb in O by assumption. apply negb_false_iff in O. unfold SFltb in O. unfold SFleb. destruct (SFcompare (CosineSimilarity a b) (CosineSimilarity c d)) as [[]|]; [discriminate O|reflexivity|discriminate O|discriminate O]. }
  pose proof (HS _ _ (cos_valid c d) (cos_valid a b) (cos_within c d Nc) (cos_within a b Na) O') as ST.
  destruct (angle_ok M a b H Na) as [Ua La]. destruct (angle_ok M c d H Nc) as [Uc Lc].
  pose proof (part_error _ Ua La) as Pa. pose proof (part_error _ Uc Lc) as Pc.
  destruct (angular_error M a b H Na) as (SAa & Ra & Ea). destruct (angular_error M c d H Nc) as (SAc & Rc & Ec).
  apply (leb_value _ _ SAc SAa) in L.
  set (x := value (-1074) (CosineSimilarity c d)) in *. set (y := value (-1074) (CosineSimilarity a b)) in *.
  set (px := value (-1074) (part (acos M (CosineSimilarity c d)))) in *. set (py := value (-1074) (part (acos M (CosineSimilarity a b)))) in *.
  set (ax := value (-1074) (acos M (CosineSimilarity c d))) in *. set (ay := value (-1074) (acos M (CosineSimilarity a b))) in *.
  set (gx := value (-1074) (AngularDistance M c d)) in *. set (gy := value (-1074) (AngularDistance M a b)) in *.
  replace (2 ^ (1074 - 40)) with (2 ^ 20 * 2 ^ 1014) in ST by reflexivity.
  replace (2 ^ (1074 - 39)) with (2 ^ 21 * 2 ^ 1014) by reflexivity.
  replace (2 ^ 1074) with (2 ^ 60 * 2 ^ 1014) in * by reflexivity.
  assert (QP : 0 < 2 ^ 1014) by reflexivity. set (q := 2 ^ 1014) in *.
  clearbody x y px py ax ay gx gy q. clear - ST Pa Pc Ea Ec L QP Ra Rc.
  unfold pi_m in *. change (2 ^ 53) with 9007199254740992 in *. change (2 ^ 51) with 2251799813685248 in *.
  change (2 ^ 60) with 1152921504606846976 in *. change (2 ^ 20) with 1048576 in *. change (2 ^ 21) with 2097152. lia.
Qed.

(** The larger cosine up to the error of both scores. *)
Definition angle_upto n a b c d : Prop :=
  inner32 c d * lengths32 a b * 2 ^ 24 <= inner32 a b * lengths32 c d * 2 ^ 24 + (2 * (12 * n + 59) + 1) * (lengths32 a b * lengths32 c d).

Theorem C166_order : forall M a b c d n, acos_ok M -> acos_steep M ->
  n <= 2 ^ 19 -> directed n a -> directed n b -> directed n c -> directed n d ->
  SFleb (AngularDistance M c d) (AngularDistance M a b) = true -> angle_upto n a b c d.
Proof.
  intros M a b c d n HM HS N [[FA LA] XA] [[FB LB] XB] [[FC LC] XC] [[FD LD] XD] L.
  destruct (cosine_error a b n FA FB XA XB LA LB N) as (R & S & E). destruct (cosine_error c d n FC FD XC XD LC LD N) as (R' & S' & E').
  apply (angular_back M a b c d HM HS S S') in L. fold (lengths32 a b) in *. fold (lengths32 c d) in *.
  assert (R0 : 0 < lengths32 a b) by (eapply Z.lt_le_trans; [|exact R]; reflexivity).
  assert (R0' : 0 < lengths32 c d) by (eapply Z.lt_le_trans; [|exact R']; reflexivity).
  replace (2 ^ (1074 - 39)) with (2 ^ 21 * 2 ^ 1014) in L by reflexivity.
  replace (2 ^ 1074) with (2 ^ 60 * 2 ^ 1014) in * by reflexivity.
  assert (P : 0 < 2 ^ 1014) by reflexivity. unfold angle_upto. apply (Z.mul_le_mono_pos_r _ _ (2 ^ 60 * 2 ^ 1014)); [reflexivity|].
  set (q := 2 ^ 1014) in *. clearbody q. change (2 ^ 24) with 16777216 in *. change (2 ^ 21) with 2097152 in *. 
  set (v := value (-1074) (CosineSimilarity a b)) in *. set (w := value (-1074) (CosineSimilarity c d)) in *.
  set (r := lengths32 a b) in *. set (s := lengths32 c d) in *. set (x := inner32 a b) in *. set (y := inner32 c d) in *.
  set (k := 12 * n + 59) in *. clearbody v w r s x y k. clear -E E' L R0 R0' P.
  assert (PP : 2 ^ 60 * q = 32768 * (2 ^ 45 * q)) by (change (2 ^ 60) with (32768 * 2 ^ 45); ring).
  assert (PQ : 16777216 * (2097152 * q) = 2 ^ 45 * q) by (change (2 ^ 45) with (16777216 * 2097152); ring).
  set (p := 2 ^ 60 * q) in *. set (o := 2 ^ 45 * q) in *. assert (O : 0 < o) by (unfold o; apply Z.mul_pos_pos; [reflexivity|exact P]). clearbody p o.
  assert (RS : 0 < r * s) by (apply Z.mul_pos_pos; assumption).
  assert (K1 : (v * r - x * p) * 16777216 * s <= k * r * p * s) by (apply Z.mul_le_mono_nonneg_r; lia).
  assert (K2 : (y * p - w * s) * 16777216 * r <= k * s * p * r) by (apply Z.mul_le_mono_nonneg_r; lia).
  assert (K3 : 16777216 * w * (r * s) <= (16777216 * v + o) * (r * s)) by (apply Z.mul_le_mono_nonneg_r; lia).
  assert (K4 : o * (r * s) <= p * (r * s)) by (apply Z.mul_le_mono_nonneg_r; lia).
  replace ((v * r - x * p) * 16777216 * s) with (16777216 * v * (r * s) - x * s * 16777216 * p) in K1 by ring.
  replace ((y * p - w * s) * 16777216 * r) with (y * r * 16777216 * p - 16777216 * w * (r * s)) in K2 by ring.
  replace ((16777216 * v + o) * (r * s)) with (16777216 * v * (r * s) + o * (r * s)) in K3 by ring.
  replace ((x * s * 16777216 + (2 * k + 1) * (r * s)) * p) with (x * s * 16777216 * p + k * r * p * s + k * s * p * r + p * (r * s)) by ring. lia.
Qed.
Print Assumptions C166_order.

(** A search by AngularDistance returns the data with the largest cosines, that is the
    smallest angles, up to that error. *)
Theorem C166_search : forall M t0 h t1 t2 G ex config q qv tick ord n, acos_ok M -> acos_steep M ->
  (10 <= t0)%Z -> history t0 h t1 -> (forall b, (t1 <= tick b <= t2)%Z) ->
  (forall m, Permutation (ord m) m) -> (1 <= scLimit config < M32)%N -> scHigherIsBetter config = true ->
  n <= 2 ^ 19 -> directed n (vec q) ->
  (forall k v t ttl, latest h k = Some (t, v, ttl) -> directed n (vec k)) ->
  exists m m' l,
    run_calls [] h = Ok m /\
    Search G ex (AngularDistance M) tick (ord m) m (Some (mkDatum (Some q) qv)) config = (m', Ok l) /\
    returns_by (fun k k' => angle_upto n (vec k) (vec q) (vec k') (vec q)) h t2 ex config l.
Proof.
  intros M t0 h t1 t2 G ex config q qv tick ord n HM HS H10 Hh Ht Ho HL Hd HN Hq HF.
  apply (search_higher t0 h t1); auto.
  - intros k v t ttl L. apply signed_finite, angular_error; [exact HM|]. pose proof Hq as [[FB LB] XB]. destruct (HF k v t ttl L) as [[FA LA] XA].
    apply signed_finite, (cosine_error _ _ n FA FB XA XB LA LB HN).
  - intros k v t ttl k' v' t' ttl' L L' S. apply (C166_order M); eauto.
Qed.
Print Assumptions C166_search.

(** ... and so does a query to the cluster, over the data of all reached nodes. *)
Theorem C166_cluster : forall G M ex config q qv t n, acos_ok M -> acos_steep M ->
  scScoreFuncName config = bs "AngularDistance" -> scHigherIsBetter config = true ->
  (1 <= scLimit config < M32)%N -> (scResultLimit config < M63)%N -> scGroupLimit config = 0%N -> tree_wf t ->
  n <= 2 ^ 19 -> directed n (vec q) -> (forall k v now e, placed t k v now e -> directed n (vec k)) ->
  (exists out, answer G M ex config (mkDatum (Some q) qv) t out) /\
  forall out, answer G M ex config (mkDatum (Some q) qv) t out ->
    finds_by (fun k k' => angle_upto n (vec k) (vec q) (vec k') (vec q)) t ex config out.
Proof.
  intros G M ex config q qv t n HM HS Hs Hh HL HR HG W N Hq HF.
  assert (F : GetVectorComparisonFunction M (scScoreFuncName config) = AngularDistance M) by (rewrite Hs; reflexivity).
  apply tree_by; auto; try rewrite F.
  - rewrite Hs. reflexivity.
  - intros k v now e L. apply signed_finite, angular_error; [exact HM|]. pose proof Hq as [[FB LB] XB]. destruct (HF k v now e L) as [[FA LA] XA].
    apply signed_finite, (cosine_error _ _ n FA FB XA XB LA LB N).
  - intros k v now e k' v' now' e' L L' S. apply (C166_order M); eauto.
Qed.
Print Assumptions C166_cluster.

(** ** Concrete cases *)

(** 1 - x instead of the arc cosine: it meets the assumptions. *)
Definition line_lib : mathlib := mkMath (fun x => f32mul x x) (fun x => SFabs (f64sub f64_one x)).

Lemma near_one : forall x, is_float64 x -> within (f64_of_Z (-1)) (f64_of_Z 1) x ->
  signed 53 1024 x /\ - 2 ^ 1074 <= value (-1074) x <= 2 ^ 1074.
Proof.
  intros x V [A B]. assert (S : signed 53 1024 x).
  { unfold is_float64 in V. destruct x as [s|s| |s m e]; try discriminate; [exact I| |exact V]. destruct s; discriminate. }
  split; [exact S|]. apply (leb_value (f64_of_Z (-1)) x (eq_refl true) S) in A. apply (leb_value x (f64_of_Z 1) S (eq_refl true)) in B.
  split; [exact A|exact B].
Qed.

Lemma line_rounds : forall x, is_float64 x -> within (f64_of_Z (-1)) (f64_of_Z 1) x ->
  rounds 53 1024 1 (-1074) (2 ^ 1074 - value (-1074) x) (acos line_lib x) /\ unsigned 53 1024 (acos line_lib x).
Proof.
  intros x V W. destruct (near_one x V W) as [S R].
  pose proof (sub_abs_rounds 53 1024 ltac:(lia) f64_one x (eq_refl true) S) as Q. change (emin 53 1024) with (-1074) in Q.
  change (value (-1074) f64_one) with (2 ^ 1074) in Q. assert (N : 0 <= 2 ^ 1074 - value (-1074) x) by lia.
  rewrite Z.abs_eq in Q by exact N. cbn [acos line_lib]. split; [exact Q|].
  destruct (rounds_range 53 1024 ltac:(lia) _ _ _ _ Q) as [U|I]; [exact U|exfalso].
  assert (T : rounds 53 1024 1 (-1074) (units (-1074) (f64_of_Z 2)) (f64_of_Z 2)).
  { apply rounds_itself; [lia|cbn; lia|exact (eq_refl true)]. }
  assert (LE : 2 ^ 1074 - value (-1074) x <= units (-1074) (f64_of_Z 2)).
  { change (units (-1074) (f64_of_Z 2)) with (2 ^ 1075). replace (2 ^ 1075) with (2 * 2 ^ 1074) by reflexivity. lia. }
  pose proof (rounds_mono 53 1024 ltac:(lia) 1 (-1074) _ _ _ _ ltac:(lia) LE Q T) as L. 
  change (f64sub f64_one x) with (SFsub 53 1024 f64_one x) in I. rewrite I in L. discriminate L.
Qed.

Lemma near_one' : forall x y, is_float64 x -> is_float64 y -> SFleb (f64_of_Z (-1)) x = true -> SFleb x y = true ->
  SFleb y (f64_of_Z 1) = true -> SFleb x (f64_of_Z 1) = true /\ SFleb (f64_of_Z (-1)) y = true.
Proof.
  intros x y _ _ A L B.
  assert (Nx : is_nan x = false) by (destruct x; auto; discriminate).
  assert (Ny : is_nan y = false) by (destruct y; auto; discriminate).
  split; (eapply leb_trans; eassumption).
Qed.

Lemma line_ok : acos_ok line_lib /\ acos_steep line_lib.
Proof.
  split; [split|].
  - intros x V W. destruct (line_rounds x V W) as [Q U].
    split; [apply unsigned_valid, U|]. split; [apply (range_bottom 53 1024 _ false); left; exact U|].
    rewrite <- pi_digits, pi_is. destruct (near_one x V W) as [_ R].
    assert (T : rounds 53 1024 1 (-1074) (units (-1074) (S754_finite false 7074237752028440 (-51))) (S754_finite false 7074237752028440 (-51))).
    { apply rounds_itself; [lia|cbn; lia|exact (eq_refl true)]. }
    eapply (rounds_mono 53 1024 ltac:(lia) 1 (-1074)); [| |exact Q|exact T]; [lia|].
    assert (2 * 2 ^ 1074 <= units (-1074) (S754_finite false 7074237752028440 (-51))) by (vm_compute; discriminate). lia.
  - intros x y Vx Vy A L B.
    assert (Nx : SFleb x (f64_of_Z 1) = true /\ SFleb (f64_of_Z (-1)) y = true).
    { destruct (near_one' x y Vx Vy A L B); auto. }
    destruct Nx as [A' B'].
    destruct (line_rounds x Vx (conj A A')) as [Qx Ux]. destruct (line_rounds y Vy (conj B' B)) as [Qy Uy].
    eapply (rounds_mono 53 1024 ltac:(lia) 1 (-1074)); [| |exact Qy|exact Qx]; [lia|].
    apply (leb_value x y) in L; [lia| |]; eapply near_one; eauto; split; auto.
  - intros x y Vx Vy Wx Wy L.
    destruct (line_rounds x Vx Wx) as [Qx Ux]. destruct (line_rounds y Vy Wy) as [Qy Uy].
    destruct (near_one x Vx Wx) as [_ Rx]. destruct (near_one y Vy Wy) as [_ Ry].
    assert (Zx : 0 <= 2 ^ 1074 - value (-1074) x) by lia. assert (Zy : 0 <= 2 ^ 1074 - value (-1074) y) by lia.
    pose proof (rounds_relative 53 1024 ltac:(lia) _ _ Zx Qx Ux) as Ex. pose proof (rounds_relative 53 1024 ltac:(lia) _ _ Zy Qy Uy) as Ey.
    change (emin 53 1024) with (-1074) in *. rewrite !(unsigned_value (-1074) (acos line_lib _)) by assumption.
    set (vx := value (-1074) x) in *. set (vy := value (-1074) y) in *. set (ax := units (-1074) (acos line_lib x)) in *. set (ay := units (-1074) (acos line_lib y)) in *.
    clearbody vx vy ax ay. replace (2 ^ (1074 - 40)) with (2 ^ 20 * 2 ^ 1014) by reflexivity.
    replace (2 ^ 1074) with (2 ^ 60 * 2 ^ 1014) in * by reflexivity.
    assert (QP : 0 < 2 ^ 1014) by reflexivity. set (q := 2 ^ 1014) in *. clearbody q.
    change (2 ^ 53) with 9007199254740992 in *. change (2 ^ 60) with 1152921504606846976 in *. change (2 ^ 20) with 1048576. lia.
Qed.

(** Two stored vectors, (1, 6) and (97, 581), and a search with (1, 7) by the angle: the first
    makes the smaller angle. *)
Example C166_instance :
  acos_ok line_lib /\ acos_steep line_lib /\
  history 100 found_h 101 /\ directed 2 (vec across_q) /\
  (forall k v t ttl, latest found_h k = Some (t, v, ttl) -> directed 2 (vec k)) /\
  exists m, run_calls [] found_h = Ok m /\
    match snd (Search insertion_sort any_filter (AngularDistance line_lib) (fun _ => 103) m m
                 (Some (mkDatum (Some across_q) None)) (cfg1 true 2)) with
    | Ok l => map sDatum l = [kv found_16 va; kv found_97 va]
    | _ => False
    end.
Proof.
  split; [apply line_ok|]. split; [apply line_ok|]. destruct C151_instance_search as (A & B & C & _).
  split; [exact A|]. split; [exact B|]. split; [exact C|]. eexists. split; [vm_compute; reflexivity|]. vm_compute. reflexivity.
Qed.

(** The same two vectors on two nodes. *)
Example C166_instance_cluster :
  tree_wf across_tree /\ (forall k v now e, placed across_tree k v now e -> directed 2 (vec k)) /\
  exists out, answer insertion_sort line_lib any_filter (across_config (bs "AngularDistance")) (mkDatum (Some across_q) None) across_tree out /\
    map skey out = [Some found_16].
Proof.
  destruct C153_instance as (A & _ & B & _). split; [exact A|]. split; [exact B|].
  eexists. split; [across_answer|reflexivity].
Qed.
