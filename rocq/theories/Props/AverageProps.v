(** C140: exactly what is reported as the average of a dataset. *)
From Verif.Base Require Import GoBase GoLemmas Assoc Float.
From Verif.Model Require Import Codec Store Data Insert Vector Search Dataset Sync.
From Verif.Spec Require Import SyncSpec.
From Verif.Proof Require Import VectorP SyncP SyncQ SyncR SyncStat.
From Verif.Props Require Import SyncProps.
From Coq Require Import Lia.
Open Scope N_scope.

(** The entries with number [j] of those vectors that have one. *)
Definition coordinates (j : nat) (vs : list (list float)) : list float :=
  flat_map (fun v => match nth_error v j with Some x => [x] | None => [] end) vs.

(** Everything divided by [n] and added up in float32 arithmetic, in this order. *)
Definition scaled_sum (n : float) (xs : list float) : float :=
  fold_left (fun a x => f32add a (f32div x n)) xs (S754_zero false).

(** The first of the longest vectors. *)
Lemma longest_first : forall (vs : list (list float)), vs <> [] ->
  exists before w after, vs = before ++ w :: after /\
    Forall (fun v => (length v < length w)%nat) before /\ Forall (fun v => (length v <= length w)%nat) after.
Proof.
  intros vs. induction vs as [|v vs IH]; intro NE; [congruence|].
  destruct vs as [|v' vs']; [exists [], v, []; auto|].
  destruct IH as (b & w & a & E & B & A); [discriminate|].
  destruct (Nat.ltb_spec (length v) (length w)) as [L|L].
  - exists (v :: b), w, a. rewrite E. split; [reflexivity|]. split; [constructor; auto|exact A].
  - exists [], v, (v' :: vs'). split; [reflexivity|]. split; [constructor|]. rewrite E.
    apply Forall_app. split; [|constructor; [exact L|]].
    + eapply Forall_impl; [|exact B]. cbn. intros. lia.
    + eapply Forall_impl; [|exact A]. cbn. intros. lia.
Qed.

Lemma add_scaled_any : forall n avg p j,
  nth j (add_scaled avg p n) fzero =
  match nth_error p j with
  | Some x => if (j <? length avg)%nat then f32add (nth j avg fzero) (f32div x n) else fzero
  | None => nth j avg fzero
  end.
Proof.
  intros n. induction avg as [|a avg IH]; intros p j.
  - destruct p as [|x p], j as [|j]; cbn; auto. destruct (nth_error p j); reflexivity.
  - destruct p as [|x p], j as [|j]; cbn [add_scaled nth nth_error length]; auto.
    rewrite IH. reflexivity.
Qed.

Lemma add_scaled_len : forall n avg p, length (add_scaled avg p n) = length avg.
Proof. intros n. induction avg; intros [|x p]; cbn; auto. Qed.

(** Running averages of vectors none of which is longer than the running average. *)
Lemma averages : forall n vs avg, feqb n fzero = false ->
  Forall (fun v => (length v <= length avg)%nat) vs ->
  let a := fold_left (fun a v => CalculateAverage a v n) vs avg in
  length a = length avg /\
  forall j, (j < length avg)%nat ->
    nth j a fzero = fold_left (fun a x => f32add a (f32div x n)) (coordinates j vs) (nth j avg fzero).
Proof.
  intros n. induction vs as [|v vs IH]; intros avg NZ F; cbv zeta; [auto|].
  cbn [fold_left]. pose proof (Forall_inv F) as L. pose proof (Forall_inv_tail F) as F'. cbn in L.
  set (avg1 := CalculateAverage avg v n).
  assert (E1 : avg1 = add_scaled avg v n).
  { unfold avg1, CalculateAverage. rewrite NZ. destruct (Nat.ltb_spec (length avg) (length v)); [lia|reflexivity]. }
  assert (L1 : length avg1 = length avg) by (rewrite E1; apply add_scaled_len).
  destruct (IH avg1 NZ) as [A B]; [rewrite L1; exact F'|]. split; [congruence|].
  intros j LJ. rewrite B by lia. unfold coordinates. cbn [flat_map].
  rewrite fold_left_app. f_equal. rewrite E1, add_scaled_any.
  destruct (nth_error v j); [|reflexivity]. destruct (Nat.ltb_spec j (length avg)); [reflexivity|lia].
Qed.

(** ... and whatever came before a longer vector is forgotten. *)
Lemma averages_all : forall n before w after, feqb n fzero = false ->
  Forall (fun v => (length v < length w)%nat) before -> Forall (fun v => (length v <= length w)%nat) after ->
  let a := fold_left (fun a v => CalculateAverage a v n) (before ++ w :: after) [] in
  length a = length w /\
  forall j, (j < length w)%nat -> nth j a fzero = scaled_sum n (coordinates j (w :: after)).
Proof.
  intros n before w after NZ FB FA. cbv zeta. rewrite fold_left_app.
  set (a0 := fold_left (fun a v => CalculateAverage a v n) before []).
  assert (L0 : w <> [] -> (length a0 < length w)%nat).
  { intro NE. assert (G : forall vs avg, Forall (fun v => (length v < length w)%nat) vs -> (length avg < length w)%nat ->
      (length (fold_left (fun a v => CalculateAverage a v n) vs avg) < length w)%nat).
    { induction vs as [|v vs IH]; intros avg F L; [exact L|]. cbn [fold_left]. apply IH; [exact (Forall_inv_tail F)|].
      pose proof (Forall_inv F) as LV. cbn in LV. unfold CalculateAverage. rewrite NZ.
      rewrite add_scaled_len. destruct (_ <? _)%nat; [rewrite repeat_length|]; lia. }
    apply G; [exact FB|]. destruct w; [congruence|cbn; lia]. }
  destruct w as [|x w].
  - destruct before as [|v before]; [|pose proof (Forall_inv FB) as Q; cbn in Q; lia]. subst a0.
    destruct (averages n ([] :: after) [] NZ) as [A _]; [constructor; [cbn; lia|exact FA]|].
    split; [exact A|]. cbn. intros j LJ. lia.
  - specialize (L0 ltac:(discriminate)). set (v := x :: w) in *.
    assert (EQ : CalculateAverage a0 v n = CalculateAverage (repeat fzero (length v)) v n).
    { unfold CalculateAverage. rewrite NZ, repeat_length.
      destruct (Nat.ltb_spec (length a0) (length v)); [|lia].
      destruct (Nat.ltb_spec (length v) (length v)); [lia|reflexivity]. }
    cbn [fold_left]. rewrite EQ.
    destruct (averages n (v :: after) (repeat fzero (length v)) NZ) as [A B].
    { rewrite repeat_length. constructor; [lia|exact FA]. }
    cbn [fold_left] in A, B. rewrite repeat_length in *. split; [exact A|].
    intros j LJ. rewrite (B j LJ). unfold scaled_sum. f_equal. rewrite nth_repeat. reflexivity.
Qed.

Lemma scan_averages : forall M E l s,
  sAvg (scan_fold M E l s) =
  fold_left (fun a v => CalculateAverage a v (eNFloat E)) (map (fun p => features (edatum (snd p))) l) (sAvg s).
Proof.
  intros M E. induction l as [|p l IH]; intro s; [reflexivity|].
  unfold scan_fold in *. cbn [fold_left map]. rewrite IH.
  destruct (scan_fields M E s (snd p)) as (EA & _ & _). rewrite EA. reflexivity.
Qed.

Lemma reported : forall M P dt dt' r force li,
  Process M P dt force = Ok (dt', r) -> GetDataInfo dt = Ok li ->
  dN dt < M63 -> dLastRunTimestamp dt < M63 -> pNow P < M63 ->
  (forall id i, pInfo P id = Some i -> iN i < M63) ->
  refresh_due (dN dt) (dRecentInsertCount dt) (dLastRunTimestamp dt) (pNow P) (granted M P li) force ->
  exists n, n = f32_of_Z (Z.of_N (N.max 1 (dN dt))) /\ feqb n fzero = false /\
  dAvg dt' = fold_left (fun a v => CalculateAverage a v n) (map features (live_data (pTick P) (pOrder P))) [].
Proof.
  intros M P dt dt' r force li PR GI B1 B2 B3 INF DUE.
  destruct (process_spec _ _ _ _ _ _ PR) as (li' & cf & limit & dm & GI' & _ & DM & _ & _ & _ & C).
  rewrite GI in GI'. injection GI' as <-.
  apply (due_exact M P dt force li dm limit GI B1 B2 B3 INF DM) in DUE.
  destruct C as [(_ & C)|(C & _)]; [|congruence].
  cbv zeta in C. destruct C as (_ & _ & EAV & _).
  set (l := live_of (pTick P) (pOrder P)) in *. set (E := senv_of P dt limit) in *.
  fold (scan_fold M E l scan0) in EAV.
  exists (eNFloat E).
  assert (NF : feqb (eNFloat E) fzero = false /\ eNFloat E = f32_of_Z (Z.of_N (N.max 1 (dN dt)))).
  { unfold E. cbn [senv_of eNFloat]. destruct (dN dt) as [|p] eqn:DN.
    - cbn. auto.
    - change (Z.of_N (Npos p)) with (Zpos p). rewrite f32_of_pos_nonzero.
      split; [apply f32_of_pos_nonzero|]. rewrite N.max_r by lia. reflexivity. }
  destruct NF as [NF1 NF2]. split; [exact NF2|]. split; [exact NF1|].
  rewrite EAV, scan_averages. unfold live_data. fold (live_of (pTick P) (pOrder P)). fold l.
  rewrite map_map. reflexivity.
Qed.

(** C140 After a refresh the average has as many numbers as the longest vector read.  Each
    of them is the sum of the numbers of the vectors read from the first of the longest on
    - what was read before is lost -, divided by the previous count (by 1 if that was 0). *)
Theorem C140_average : forall M P dt dt' r force li before w after,
  Process M P dt force = Ok (dt', r) -> GetDataInfo dt = Ok li ->
  dN dt < M63 -> dLastRunTimestamp dt < M63 -> pNow P < M63 ->
  (forall id i, pInfo P id = Some i -> iN i < M63) ->
  refresh_due (dN dt) (dRecentInsertCount dt) (dLastRunTimestamp dt) (pNow P) (granted M P li) force ->
  map features (live_data (pTick P) (pOrder P)) = before ++ w :: after ->
  Forall (fun v => (length v < length w)%nat) before -> Forall (fun v => (length v <= length w)%nat) after ->
  length (dAvg dt') = length w /\
  forall j, (j < length w)%nat ->
    nth j (dAvg dt') fzero =
    scaled_sum (f32_of_Z (Z.of_N (N.max 1 (dN dt)))) (coordinates j (w :: after)).
Proof.
  intros M P dt dt' r force li before w after PR GI B1 B2 B3 INF DUE V FB FA.
  destruct (reported M P dt dt' r force li PR GI B1 B2 B3 INF DUE) as (n & EN & NZ & E).
  rewrite <- EN, E, V. exact (averages_all n before w after NZ FB FA).
Qed.
Print Assumptions C140_average.

(** There always is a first longest vector, unless nothing was read; then the average is
    empty. *)
Theorem C140_longest : forall M P dt dt' r force li,
  Process M P dt force = Ok (dt', r) -> GetDataInfo dt = Ok li ->
  dN dt < M63 -> dLastRunTimestamp dt < M63 -> pNow P < M63 ->
  (forall id i, pInfo P id = Some i -> iN i < M63) ->
  refresh_due (dN dt) (dRecentInsertCount dt) (dLastRunTimestamp dt) (pNow P) (granted M P li) force ->
  (live_data (pTick P) (pOrder P) = [] /\ dAvg dt' = []) \/
  exists before w after, map features (live_data (pTick P) (pOrder P)) = before ++ w :: after /\
    Forall (fun v => (length v < length w)%nat) before /\ Forall (fun v => (length v <= length w)%nat) after.
Proof.
  intros M P dt dt' r force li PR GI B1 B2 B3 INF DUE.
  destruct (reported M P dt dt' r force li PR GI B1 B2 B3 INF DUE) as (n & EN & NZ & E).
  destruct (live_data (pTick P) (pOrder P)) as [|d ds] eqn:LD.
  - left. rewrite E. auto.
  - right. apply longest_first. discriminate.
Qed.
Print Assumptions C140_longest.

(** So after two refreshes between which the number of live data stays the same, the
    average is the mean if all vectors have one length. *)
Theorem C140_second : forall M P1 P2 dt dt1 dt2 r1 r2 force1 force2 li1 li2 dim,
  Process M P1 dt force1 = Ok (dt1, r1) -> GetDataInfo dt = Ok li1 ->
  Process M P2 dt1 force2 = Ok (dt2, r2) -> GetDataInfo dt1 = Ok li2 ->
  dN dt < M63 -> dLastRunTimestamp dt < M63 -> pNow P1 < M63 -> pNow2 P1 < M63 -> pNow P2 < M63 ->
  blen (pOrder P1) < M63 ->
  (forall id i, pInfo P1 id = Some i -> iN i < M63) -> (forall id i, pInfo P2 id = Some i -> iN i < M63) ->
  refresh_due (dN dt) (dRecentInsertCount dt) (dLastRunTimestamp dt) (pNow P1) (granted M P1 li1) force1 ->
  refresh_due (dN dt1) (dRecentInsertCount dt1) (dLastRunTimestamp dt1) (pNow P2) (granted M P2 li2) force2 ->
  let xs := live_data (pTick P2) (pOrder P2) in
  length xs = length (live_data (pTick P1) (pOrder P1)) -> xs <> [] ->
  Forall (fun d => length (features d) = dim) xs ->
  length (dAvg dt2) = dim /\
  forall j, (j < dim)%nat -> nth j (dAvg dt2) fzero = float_mean (map (fun d => nth j (features d) fzero) xs).
Proof.
  intros M P1 P2 dt dt1 dt2 r1 r2 force1 force2 li1 li2 dim PR1 G1 PR2 G2 B1 B2 B3 B4 B5 B6 I1 I2 D1 D2 xs L NE FA.
  destruct (C119_refresh M P1 dt dt1 r1 force1 li1 PR1 G1 B1 B2 B3 B6 I1) as (A & _).
  destruct (A D1) as (N1 & T1 & _).
  assert (LE : (length (live_data (pTick P1) (pOrder P1)) <= length (pOrder P1))%nat).
  { unfold live_data. rewrite map_length. clear. induction (pOrder P1) as [|x q IH]; cbn; auto. destruct (negb _); cbn; lia. }
  assert (B1' : dN dt1 < M63) by (rewrite N1; unfold blen in *; lia).
  assert (B2' : dLastRunTimestamp dt1 < M63) by (rewrite T1; exact B4).
  destruct xs as [|d ds] eqn:XS; [congruence|].
  pose proof (Forall_inv FA) as FD. pose proof (Forall_inv_tail FA) as FDS. cbn in FD.
  destruct (C140_average M P2 dt1 dt2 r2 force2 li2 [] (features d) (map features ds) PR2 G2 B1' B2' B5 I2 D2) as [LN V].
  - fold xs. rewrite XS. reflexivity.
  - constructor.
  - apply Forall_map. eapply Forall_impl; [|exact FDS]. cbn. intros q Q. lia.
  - split; [congruence|]. intros j LJ. rewrite V by lia. unfold scaled_sum, float_mean.
    rewrite map_length.
    assert (NN : Z.of_N (N.max 1 (dN dt1)) = Z.of_nat (length (d :: ds))).
    { rewrite N1. unfold blen. rewrite <- L. cbn [length] in *. lia. }
    rewrite NN. f_equal. unfold coordinates. rewrite flat_map_concat_map.
    change (features d :: map features ds) with (map features (d :: ds)). rewrite map_map.
    clear -FA LJ. induction (d :: ds) as [|q l IH]; [reflexivity|].
    cbn [map concat]. pose proof (Forall_inv FA) as Q. cbn in Q.
    rewrite (nth_error_nth' (features q) fzero) by lia. cbn [app]. f_equal. apply IH. exact (Forall_inv_tail FA).
Qed.
Print Assumptions C140_second.

(** Vectors of one, two and one number, read in this order, counted as three before: the
    first is lost, and the first coordinate is (2 + 4) / 3 in float32. *)
Definition of_numbers (l : list N) : Datum := mkDatum (Some (mkKey l [] 0 0 0 0)) (Some (mkValue 1 [])).
Definition mixed : list (bytes * entry) :=
  [([1], mkEntry 0 (of_numbers [1088421888])); ([2], mkEntry 0 (of_numbers [1073741824; 1084227584])); ([3], mkEntry 0 (of_numbers [1082130432]))].
Definition mixed_dt (n : N) : Data :=
  mkData (Some (cfg_s 9 true)) [] n (f64_of_Z 1) [] 0 0 false (Some []) true true 0 mixed 0.
Example C140_instance : exists dt' r,
  Process mathlib_ex (pe [] 0 mixed) (mixed_dt 3) true = Ok (dt', r) /\
  map features (live_data (pTick (pe [] 0 mixed)) (pOrder (pe [] 0 mixed))) =
    [[f32_of_Z 7]] ++ [f32_of_Z 2; f32_of_Z 5] :: [[f32_of_Z 4]] /\
  dAvg dt' = [f32add (f32div (f32_of_Z 2) (f32_of_Z 3)) (f32div (f32_of_Z 4) (f32_of_Z 3)); f32div (f32_of_Z 5) (f32_of_Z 3)].
Proof. eexists. eexists. split; [vm_compute; reflexivity|]. vm_compute. auto. Qed.

(** The features 1 and 3, never counted before: the first refresh reports 4, the second
    the mean 2. *)
Example C140_instance_second : exists dt1 r1 dt2 r2,
  Process mathlib_ex (pe [] 0 stat_map) (stat_dt 0) true = Ok (dt1, r1) /\ dAvg dt1 = [f32_of_Z 4] /\
  Process mathlib_ex (pe [] 0 stat_map) dt1 true = Ok (dt2, r2) /\ dAvg dt2 = [f32_of_Z 2].
Proof.
  do 4 eexists. split; [vm_compute; reflexivity|]. split; [vm_compute; reflexivity|].
  split; [vm_compute; reflexivity|]. vm_compute. reflexivity.
Qed.
