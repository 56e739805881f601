(** C148: vectors of moderate size have distances in the approximate index. *)
From Verif.Base Require Import GoBase GoLemmas Assoc Float GoSort.
From Verif.Model Require Import Codec Store Vector Search Data Sync Annoy.
From Verif.Spec Require Import AnnoySpec SizeSpec.
From Verif.Proof Require Import FloatP StoreP AnnoyP AngleP.
From Verif.Props Require Import AnnoyProps.
From Coq Require Import Lia.
Open Scope nat_scope.

(** If the coordinates of a query are at most 2^K and those of the items at most 2^L,
    and the dimension times 2^(K + L) is below 2^128, every distance is a number. *)
Definition sizes (K L : Z) (f : nat) : Prop :=
  (-149 <= K /\ -149 <= L /\ 104 <= K + L /\ Z.of_nat f * 2 ^ (K + L) < 2 ^ 128)%Z.

Theorem C148_number : forall K L x y, sizes K L (length x) -> Forall (upto K) x -> Forall (upto L) y ->
  is_nan (adist x y) = false.
Proof. intros K L x y (A & B & C & D) X Y. apply (adist_number K L); auto. Qed.
Print Assumptions C148_number.

Lemma Forall_firstn : forall A (P : A -> Prop) n l, Forall P l -> Forall P (firstn n l).
Proof.
  intros A P n l. revert n. induction l as [|a l IH]; intros [|n] H; try constructor; inversion H; subst; auto.
Qed.

Lemma numbers : forall I f nodes outs ix w K L,
  Forall (fun nd => aDesc nd = 1) nodes -> Build I f nodes outs = Done ix -> f <= length w ->
  sizes K L f -> Forall (upto K) w -> Forall (fun nd => Forall (upto L) (aVec nd)) nodes ->
  forall i, i < length nodes -> is_nan (adist (firstn f w) (item_vec ix i)) = false.
Proof.
  intros I f nodes outs ix w K L A H Lw S W N i Hi.
  destruct (C60_every_item I f nodes outs A) as [_ Q]. destruct (Q ix H) as (_ & V & _).
  destruct (nth_error nodes i) as [nd|] eqn:E; [|apply nth_error_None in E; lia].
  unfold item_vec. rewrite (V i nd E). apply (C148_number K L); [|apply Forall_firstn; auto|].
  - rewrite firstn_length_le by exact Lw. exact S.
  - rewrite Forall_forall in N. apply N. apply nth_error_In in E. exact E.
Qed.

(** So for such vectors C61 holds without exception: a query returns items by
    non-decreasing distance, ... *)
Theorem C148_ordered : forall I G f nodes outs ix pick w n k r K L,
  Forall (fun nd => aDesc nd = 1) nodes -> Build I f nodes outs = Done ix -> f <= length w ->
  sizes K L f -> Forall (upto K) w -> Forall (fun nd => Forall (upto L) (aVec nd)) nodes ->
  GetNns G ix pick (nns_fuel ix) w n k = Ok r ->
  StronglySorted (fun i j => fltb (adist (firstn f w) (item_vec ix j)) (adist (firstn f w) (item_vec ix i)) = false) r.
Proof.
  intros I G f nodes outs ix pick w n k r K L A H Lw S W N E.
  apply (C61_ordered_partial I G f nodes outs ix pick w n k r A H Lw); auto.
  apply (numbers I f nodes outs ix w K L); auto.
Qed.
Print Assumptions C148_ordered.

(** ... and with a budget for all items of all trees exactly the n nearest. *)
Theorem C148_exact : forall I G f nodes outs ix pick w n k K L,
  Forall (fun nd => aDesc nd = 1) nodes -> Build I f nodes outs = Done ix -> f <= length w ->
  sizes K L f -> Forall (upto K) w -> Forall (fun nd => Forall (upto L) (aVec nd)) nodes ->
  ((N.of_nat (length (xRoots ix) * length nodes) <= budget k n (length (xRoots ix)))%N \/
   (length nodes <= f + 2 /\ budget k n (length (xRoots ix)) <> 0%N)) ->
  exists r, GetNns G ix pick (nns_fuel ix) w n k = Ok r /\
    nearest (fun i => adist (firstn f w) (item_vec ix i)) (length nodes) n r.
Proof.
  intros I G f nodes outs ix pick w n k K L A H Lw S W N U.
  apply (C61_exact_partial I G f nodes outs ix pick w n k A H Lw U).
  apply (numbers I f nodes outs ix w K L); auto.
Qed.
Print Assumptions C148_exact.

(** The distance of a vector to itself is zero, whatever was rounded on the way: if no
    coordinate is above 2^20 and one is at least 2^-31, and there are fewer than 2^23. *)
Theorem C148_itself : forall x, Forall (upto 20) x -> Exists (from (-31)) x ->
  (Z.of_nat (length x) < 2 ^ 23)%Z -> adist x x = S754_zero false.
Proof. intros. apply adist_itself; auto. Qed.
Print Assumptions C148_itself.

(** So a query with the vector of an item finds the item, or others that are as near:
    the first result is at distance zero (or below, by rounding). *)
Theorem C148_found : forall I G f nodes outs ix pick w n k i nd,
  Forall (fun nd => aDesc nd = 1) nodes -> Build I f nodes outs = Done ix -> f <= length w ->
  (Z.of_nat f < 2 ^ 23)%Z -> Forall (upto 20) w -> Forall (fun nd => Forall (upto 20) (aVec nd)) nodes ->
  ((N.of_nat (length (xRoots ix) * length nodes) <= budget k n (length (xRoots ix)))%N \/
   (length nodes <= f + 2 /\ budget k n (length (xRoots ix)) <> 0%N)) ->
  nth_error nodes i = Some nd -> aVec nd = firstn f w -> Exists (from (-31)) (aVec nd) -> 1 <= n ->
  exists j r, GetNns G ix pick (nns_fuel ix) w n k = Ok (j :: r) /\
    fleb (adist (firstn f w) (item_vec ix j)) (S754_zero false) = true.
Proof.
  intros I G f nodes outs ix pick w n k i nd A H Lw Hf W N U E V X Hn.
  assert (WK : forall l, Forall (upto 20) l -> Forall (upto 52) l).
  { intros l. apply Forall_impl. intros x. destruct x as [s|s| |s m e]; cbn [upto]; auto. intros [B L]. split; auto.
    eapply Z.le_trans; [exact L|]. vm_compute. discriminate. }
  assert (S : sizes 52 52 f).
  { unfold sizes. change (2 ^ (52 + 52))%Z with (2 ^ 104)%Z. change (2 ^ 128)%Z with (2 ^ 24 * 2 ^ 104)%Z.
    split; [lia|]. split; [lia|]. split; [lia|]. apply Z.mul_lt_mono_pos_r; [reflexivity|].
    eapply Z.lt_trans; [exact Hf|reflexivity]. }
  assert (N' : Forall (fun nd => Forall (upto 52) (aVec nd)) nodes) by (eapply Forall_impl; [|exact N]; cbn; auto).
  destruct (C148_exact I G f nodes outs ix pick w n k 52 52 A H Lw S (WK _ W) N' U) as (r & R & NR).
  assert (LI : i < length nodes) by (apply nth_error_Some; congruence).
  destruct (C60_every_item I f nodes outs A) as [_ Q]. destruct (Q ix H) as (_ & VV & _).
  pose proof (numbers I f nodes outs ix w 52 52 A H Lw S (WK _ W) N') as NN.
  assert (Z0 : adist (firstn f w) (item_vec ix i) = S754_zero false).
  { unfold item_vec. rewrite (VV i nd E), V. apply C148_itself; [apply Forall_firstn; auto|rewrite <- V; auto|].
    rewrite firstn_length_le by exact Lw. exact Hf. }
  destruct r as [|j r]; [destruct NR as [_ _ LR _ _]; cbn in LR; lia|].
  exists j, r. split; auto.
  assert (LJ : j < length nodes) by (destruct NR as [_ F _ _ _]; inversion F; auto).
  assert (LT : fltb (adist (firstn f w) (item_vec ix i)) (adist (firstn f w) (item_vec ix j)) = false).
  { destruct (in_dec Nat.eq_dec i (j :: r)) as [[->|IN]|NI].
    - rewrite Z0. reflexivity.
    - destruct NR as [_ _ _ SR _]. inversion SR as [|? ? _ F]; subst. rewrite Forall_forall in F. apply F. exact IN.
    - destruct NR as [_ _ _ _ BR]. apply BR; auto. left; reflexivity. }
  rewrite Z0 in LT. specialize (NN j LJ).
  destruct (adist (firstn f w) (item_vec ix j)) as [s|[]| |[] m e]; try discriminate; reflexivity.
Qed.
Print Assumptions C148_found.

(** Items of a hundred million and of a millionth; the rounding is felt ((1/3)^2 and
    such), the distances to themselves are zero. *)
Definition c148_items : list anode :=
  [mkANode 1 [] [f32_of_bits 1287568416; f32_of_bits 1051372203]; mkANode 1 [] [f32_of_bits 897988541; f32_of_bits 1051372203]].
Definition c148_w : list float := [f32_of_bits 897988541; f32_of_bits 1051372203].
Example C148_instance : exists ix r,
  Forall (fun nd => aDesc nd = 1) c148_items /\ Build exact_imb 2 c148_items [] = Done ix /\
  sizes 52 52 2 /\ Forall (fun nd => Forall (upto 52) (aVec nd)) c148_items /\
  length c148_items <= 2 + 2 /\ budget 10 1 (length (xRoots ix)) <> 0%N /\
  item_vec ix 1 = c148_w /\ Forall (upto 20) c148_w /\ Exists (from (-31)) c148_w /\
  GetNns insertion_sort ix pick_max (nns_fuel ix) c148_w 1 10 = Ok r /\ r = [1] /\
  adist c148_w c148_w = S754_zero false /\
  adist (item_vec ix 0) (item_vec ix 0) = S754_zero false.
Proof.
  eexists. exists [1]. split; [repeat constructor|]. split; [vm_compute; reflexivity|].
  split; [unfold sizes; split; [lia|]; split; [lia|]; split; [lia|reflexivity]|].
  split; [repeat constructor; vm_compute; discriminate|]. split; [cbn; lia|]. split; [vm_compute; discriminate|].
  split; [vm_compute; reflexivity|].
  split; [repeat constructor; vm_compute; discriminate|]. split; [apply Exists_cons_tl, Exists_cons_hd; vm_compute; discriminate|].
  split; [vm_compute; reflexivity|]. repeat split; vm_compute; reflexivity.
Qed.
