(** C152: how far the reported average may be from the mean. *)
From Verif.Base Require Import GoBase GoLemmas Assoc Float.
From Verif.Model Require Import Codec Store Data Insert Vector Search Dataset Sync.
From Verif.Spec Require Import SyncSpec AccuracySpec.
From Verif.Proof Require Import VectorP SyncP SyncQ SyncR SyncStat SizeP MeanP.
From Verif.Props Require Import SyncProps AverageProps.
From Coq Require Import Lia ZArith.
Open Scope Z_scope.

Lemma signed_finite32 : forall x, signed 24 128 x -> finite32 x.
Proof. intros [s|s| |s m e] U; cbn in *; auto. Qed.

Lemma scaled_error : forall c xs, 1 <= c < 2 ^ 24 -> Forall moderate xs -> Z.of_nat (length xs) <= 2 ^ 22 ->
  let r := scaled_sum (f32_of_Z c) xs in
  finite32 r /\ Z.abs (value (-149) r * c - sum32 xs) * 2 ^ 24 <= 3 * Z.of_nat (length xs) * weight32 xs.
Proof.
  intros c xs C F L. change (2 ^ 22) with 4194304 in L.
  destruct (sum_error c xs (S754_zero false) 0 0 0 C I ltac:(lia) ltac:(cbn; lia) ltac:(cbn; lia) ltac:(lia) F ltac:(change (2 ^ 24) with 16777216; lia)) as [S E].
  split; [apply signed_finite32, S|]. rewrite !Z.add_0_l in E. exact E.
Qed.

Lemma coordinates_some : forall j vs, (length (coordinates j vs) <= length vs)%nat /\
  (Forall (Forall moderate) vs -> Forall moderate (coordinates j vs)).
Proof.
  intros j. induction vs as [|v vs [L F]]; [split; [cbn; lia|constructor]|].
  unfold coordinates in *. cbn [flat_map length]. split.
  - rewrite app_length. destruct (nth_error v j); cbn [length]; lia.
  - intro H. inversion H as [|? ? Hv H']; subst. apply Forall_app. split; [|auto].
    destruct (nth_error v j) as [x|] eqn:E; [|constructor]. constructor; [|constructor].
    rewrite Forall_forall in Hv. eapply Hv, nth_error_In, E.
Qed.

(** C152 Every number of the average is finite and, up to 3n parts in 2^24 of the sum of
    the sizes, the sum of the numbers of the vectors read (from the first of the longest
    on), divided by the previous count, for n vectors of moderate size. *)
Theorem C152_average : forall M P dt dt' r force li before w after,
  Process M P dt force = Ok (dt', r) -> GetDataInfo dt = Ok li ->
  (dN dt < 2 ^ 24)%N -> (dLastRunTimestamp dt < M63)%N -> (pNow P < M63)%N ->
  (forall id i, pInfo P id = Some i -> iN i < M63)%N ->
  refresh_due (dN dt) (dRecentInsertCount dt) (dLastRunTimestamp dt) (pNow P) (granted M P li) force ->
  map features (live_data (pTick P) (pOrder P)) = before ++ w :: after ->
  Forall (fun v => (length v < length w)%nat) before -> Forall (fun v => (length v <= length w)%nat) after ->
  Forall (Forall moderate) (w :: after) -> Z.of_nat (length (w :: after)) <= 2 ^ 22 ->
  length (dAvg dt') = length w /\
  forall j, (j < length w)%nat ->
    let x := nth j (dAvg dt') fzero in let xs := coordinates j (w :: after) in
    finite32 x /\
    Z.abs (value (-149) x * Z.of_N (N.max 1 (dN dt)) - sum32 xs) * 2 ^ 24 <= 3 * Z.of_nat (length xs) * weight32 xs.
Proof.
  intros M P dt dt' r force li before w after PR GI B1 B2 B3 INF DUE V FB FA FM LN.
  change (2 ^ 24)%N with 16777216%N in B1.
  destruct (C140_average M P dt dt' r force li before w after PR GI ltac:(unfold M63; lia) B2 B3 INF DUE V FB FA) as [L E].
  split; [exact L|]. intros j J. cbn zeta. rewrite (E j J). destruct (coordinates_some j (w :: after)) as [C1 C2].
  apply scaled_error; [change (2 ^ 24) with 16777216; lia|exact (C2 FM)|lia].
Qed.
Print Assumptions C152_average.

(** After two refreshes between which the number of live data stays the same, the average
    is the mean up to 3n parts in 2^24 of the mean of the sizes, if all vectors have one
    length. *)
Theorem C152_mean : forall M P1 P2 dt dt1 dt2 r1 r2 force1 force2 li1 li2 dim,
  Process M P1 dt force1 = Ok (dt1, r1) -> GetDataInfo dt = Ok li1 ->
  Process M P2 dt1 force2 = Ok (dt2, r2) -> GetDataInfo dt1 = Ok li2 ->
  (dN dt < M63)%N -> (dLastRunTimestamp dt < M63)%N -> (pNow P1 < M63)%N -> (pNow2 P1 < M63)%N -> (pNow P2 < M63)%N ->
  (blen (pOrder P1) < M63)%N ->
  (forall id i, pInfo P1 id = Some i -> iN i < M63)%N -> (forall id i, pInfo P2 id = Some i -> iN i < M63)%N ->
  refresh_due (dN dt) (dRecentInsertCount dt) (dLastRunTimestamp dt) (pNow P1) (granted M P1 li1) force1 ->
  refresh_due (dN dt1) (dRecentInsertCount dt1) (dLastRunTimestamp dt1) (pNow P2) (granted M P2 li2) force2 ->
  let xs := live_data (pTick P2) (pOrder P2) in
  length xs = length (live_data (pTick P1) (pOrder P1)) -> xs <> [] ->
  Forall (fun d => length (features d) = dim) xs ->
  Forall (fun d => Forall moderate (features d)) xs -> Z.of_nat (length xs) <= 2 ^ 22 ->
  length (dAvg dt2) = dim /\
  forall j, (j < dim)%nat ->
    let x := nth j (dAvg dt2) fzero in let ys := map (fun d => nth j (features d) fzero) xs in let n := Z.of_nat (length xs) in
    finite32 x /\ Z.abs (value (-149) x * n - sum32 ys) * 2 ^ 24 <= 3 * n * weight32 ys.
Proof.
  intros M P1 P2 dt dt1 dt2 r1 r2 force1 force2 li1 li2 dim PR1 G1 PR2 G2 B1 B2 B3 B4 B5 B6 I1 I2 D1 D2 xs L NE FD FM LN.
  destruct (C140_second M P1 P2 dt dt1 dt2 r1 r2 force1 force2 li1 li2 dim PR1 G1 PR2 G2 B1 B2 B3 B4 B5 B6 I1 I2 D1 D2 L NE FD) as [LA E].
  fold xs in E. split; [exact LA|]. intros j J. cbn zeta. rewrite (E j J).
  set (ys := map (fun d => nth j (features d) fzero) xs).
  assert (LY : length ys = length xs) by apply map_length.
  rewrite <- LY. unfold float_mean. apply scaled_error.
  - rewrite LY. destruct xs; [congruence|]. cbn [length] in *. change (2 ^ 22) with 4194304 in LN. change (2 ^ 24) with 16777216. lia.
  - unfold ys. apply Forall_map. rewrite Forall_forall in *. intros d Hd. specialize (FM d Hd). specialize (FD d Hd). cbn in FD.
    rewrite Forall_forall in FM. apply FM, nth_In. lia.
  - rewrite LY. exact LN.
Qed.
Print Assumptions C152_mean.

(** Vectors of one, two and one number, counted as three before (see C140): 5/3 is not a
    float32 number. *)
Ltac some_moderate :=
  match goal with |- Forall moderate ?l => let g := eval vm_compute in l in change l with g; repeat apply Forall_cons; try apply Forall_nil end;
  (split; [reflexivity || exact Logic.I|split; [vm_compute; discriminate|(left; reflexivity) || (right; vm_compute; discriminate)]]).
Definition mixed_run := Process mathlib_ex (pe [] 0 mixed) (mixed_dt 3) true.
Example C152_instance : exists dt' r li before w after,
  mixed_run = Ok (dt', r) /\ GetDataInfo (mixed_dt 3) = Ok li /\
  refresh_due 3 (dRecentInsertCount (mixed_dt 3)) (dLastRunTimestamp (mixed_dt 3)) (pNow (pe [] 0 mixed)) (granted mathlib_ex (pe [] 0 mixed) li) true /\
  map features (live_data (pTick (pe [] 0 mixed)) (pOrder (pe [] 0 mixed))) = before ++ w :: after /\
  Forall (fun v => (length v < length w)%nat) before /\ Forall (fun v => (length v <= length w)%nat) after /\
  Forall (Forall moderate) (w :: after) /\
  value (-149) (nth 1 (dAvg dt') fzero) * 3 <> sum32 (coordinates 1 (w :: after)).
Proof.
  assert (PR : exists dt' r, mixed_run = Ok (dt', r) /\
    value (-149) (nth 1 (dAvg dt') fzero) * 3 <> sum32 (coordinates 1 [[f32_of_Z 2; f32_of_Z 5]; [f32_of_Z 4]])).
  { assert (E : match mixed_run with Ok (d, _) => (value (-149) (nth 1 (dAvg d) fzero) * 3 =? sum32 (coordinates 1 [[f32_of_Z 2; f32_of_Z 5]; [f32_of_Z 4]])) = false | _ => False end)
      by (vm_compute; reflexivity).
    destruct mixed_run as [[d x]|e|] eqn:R; try contradiction. exists d, x. split; [reflexivity|]. apply Z.eqb_neq. exact E. }
  assert (GI : exists li, GetDataInfo (mixed_dt 3) = Ok li) by (eexists; reflexivity).
  destruct PR as (dt' & r & PR & NE). destruct GI as (li & GI).
  exists dt', r, li, [[f32_of_Z 7]], [f32_of_Z 2; f32_of_Z 5], [[f32_of_Z 4]].
  split; [exact PR|]. split; [exact GI|]. split; [unfold refresh_due; tauto|].
  split; [vm_compute; reflexivity|]. split; [repeat constructor|]. split; [repeat constructor|]. split.
  - apply Forall_cons; [some_moderate|]. apply Forall_cons; [some_moderate|]. constructor.
  - exact NE.
Qed.

(** The features 1 and 3 (see C140). *)
Example C152_instance_mean :
  let xs := live_data (pTick (pe [] 0 stat_map)) (pOrder (pe [] 0 stat_map)) in
  length xs = 2%nat /\ Forall (fun d => length (features d) = 1%nat) xs /\ Forall (fun d => Forall moderate (features d)) xs /\
  exists dt1 r1 dt2 r2, Process mathlib_ex (pe [] 0 stat_map) (stat_dt 0) true = Ok (dt1, r1) /\
    Process mathlib_ex (pe [] 0 stat_map) dt1 true = Ok (dt2, r2) /\ dAvg dt2 = [f32_of_Z 2].
Proof.
  cbn zeta. split; [vm_compute; reflexivity|]. split; [|split].
  - match goal with |- Forall _ ?l => let g := eval vm_compute in l in change l with g end. repeat constructor.
  - match goal with |- Forall _ ?l => let g := eval vm_compute in l in change l with g end.
    apply Forall_cons; [some_moderate|]. apply Forall_cons; [some_moderate|]. constructor.
  - destruct C140_instance_second as (dt1 & r1 & dt2 & r2 & A & _ & B & C). exists dt1, r1, dt2, r2. auto.
Qed.
