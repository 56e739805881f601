(** C163: exactly which times and cache keys the vectors of a query get. *)
From Verif.Base Require Import GoBase GoLemmas Assoc Float.
From Verif.Model Require Import Codec Store Data Vector Search Json QueryCache SharedConfig.
From Verif.Spec Require Import Wire StoreSpec CacheSpec TimesSpec.
From Verif.Proof Require Import CodecTop QueryCacheP SharedConfigP NineTenthsP.
From Verif.Props Require Import QueryProps SharedConfigProps.
From Coq Require Import Lia.
Open Scope N_scope.

Lemma shortened_le : forall j t, shortened j t <= t.
Proof.
  induction j as [|j IH]; intro t; [cbn; lia|]. cbn [shortened]. specialize (IH t).
  apply N.div_le_upper_bound; lia.
Qed.
Lemma left_shortened : forall undef j t, t <= 2 ^ 49 -> Nat.iter j (ShrinkTimeout undef) t = shortened j t.
Proof.
  intros undef j t H. induction j as [|j IH]; [reflexivity|]. cbn [shortened].
  change (Nat.iter (S j) (ShrinkTimeout undef) t) with (ShrinkTimeout undef (Nat.iter j (ShrinkTimeout undef) t)).
  rewrite IH. apply shrink_exact. pose proof (shortened_le j t). lia.
Qed.

(** One step: nine tenths, rounded down, for timeouts up to 2^49 ms. *)
Theorem C163_shrink : forall undef t, t <= 2 ^ 49 -> ShrinkTimeout undef t = 9 * t / 10.
Proof. exact shrink_exact. Qed.
Print Assumptions C163_shrink.

Lemma searchable_key : forall d c, searchable d -> exists k, dkey d = Some k /\
  GetSearchKey (Some d) c = Ok (wire_key k ++ EncodeSearchConfig c).
Proof.
  intros d c (k & E & O & F). exists k. split; [exact E|].
  unfold GetSearchKey, GetKeyAsBytes. rewrite E. rewrite MarshalKey_spec by auto. reflexivity.
Qed.

Lemma iter_shift : forall A (f : A -> A) n x, Nat.iter (S n) f x = Nat.iter n f (f x).
Proof.
  intros A f. induction n as [|n IH]; intro x; [reflexivity|].
  change (f (Nat.iter (S n) f x) = f (Nat.iter n f (f x))). rewrite IH. reflexivity.
Qed.
Lemma iter_plus : forall A (f : A -> A) m n x, Nat.iter (m + n) f x = Nat.iter m f (Nat.iter n f x).
Proof.
  intros A f. induction m as [|m IH]; intros n x; [reflexivity|].
  change (f (Nat.iter (m + n) f x) = f (Nat.iter m f (Nat.iter n f x))). rewrite IH. reflexivity.
Qed.

Section S.
Variable undef : N.
Notation shrink := (ShrinkTimeout undef).

(** Some goroutines run one after the other. *)
Lemma in_turn : forall ds c gs1 gs2, Forall searchable ds -> exists done, length done = length ds /\
  Forall (fun g => v_done g = true) done /\
  vruns undef (c, gs1 ++ map VStart ds ++ gs2)
    (with_timeout c (Nat.iter (length ds) shrink (scTimeout c)), gs1 ++ done ++ gs2).
Proof.
  induction ds as [|d ds IH]; intros c gs1 gs2 F.
  - exists []. split; [reflexivity|]. split; [constructor|]. cbn. rewrite with_timeout_same. apply vr_refl.
  - inversion F as [|? ? F1 F2]; subst. destruct (searchable_key d c F1) as (k & _ & Ek).
    pose proof (one_goroutine undef c d _ gs1 (map VStart ds ++ gs2) Ek) as R1.
    set (g := VRuns d (time_limit (scTimeout c)) (wire_key k ++ EncodeSearchConfig c)) in *.
    destruct (IH (with_timeout c (shrink (scTimeout c))) (gs1 ++ [g]) gs2 F2) as (done & L & A & R).
    exists (g :: done). split; [cbn; lia|]. split; [constructor; [reflexivity|exact A]|].
    cbn [map app length]. eapply vruns_trans; [exact R1|].
    rewrite <- !app_assoc in R. cbn [app] in R. rewrite with_timeout_twice, with_timeout_timeout in R.
    replace (Nat.iter (S (length ds)) shrink (scTimeout c))
      with (Nat.iter (length ds) shrink (shrink (scTimeout c))); [exact R|].
    symmetry. apply iter_shift.
Qed.

(** Some goroutines get to the write together. *)
Lemma together : forall ds c gs1 gs2, Forall searchable ds -> exists rd,
  map v_datum rd = ds /\
  Forall (fun g => exists d k, g = VRead d (time_limit (scTimeout c)) k (scTimeout c)) rd /\
  vruns undef (c, gs1 ++ map VStart ds ++ gs2) (c, gs1 ++ rd ++ gs2).
Proof.
  induction ds as [|d ds IH]; intros c gs1 gs2 F.
  - exists []. split; [reflexivity|]. split; [constructor|apply vr_refl].
  - inversion F as [|? ? F1 F2]; subst. destruct (searchable_key d c F1) as (k & _ & Ek).
    set (g := VRead d (time_limit (scTimeout c)) (wire_key k ++ EncodeSearchConfig c) (scTimeout c)).
    destruct (IH c (gs1 ++ [g]) gs2 F2) as (rd & D & A & R).
    exists (g :: rd). split; [cbn; congruence|]. split; [constructor; [eexists; eexists; reflexivity|exact A]|].
    cbn [map app]. rewrite <- !app_assoc in R. cbn [app] in R.
    eapply vr_step; [apply v_timed|]. eapply vr_step; [apply v_keyed, Ek|]. eapply vr_step; [apply v_read|]. exact R.
Qed.
Lemma all_write : forall rd c t l gs1 gs2, rd <> [] ->
  Forall (fun g => exists d k, g = VRead d l k t) rd -> exists done,
  map v_datum done = map v_datum rd /\
  Forall (fun g => v_done g = true /\ given_time g = Some l) done /\
  vruns undef (c, gs1 ++ rd ++ gs2) (with_timeout c (shrink t), gs1 ++ done ++ gs2).
Proof.
  induction rd as [|g rd IH]; intros c t l gs1 gs2 NE F; [congruence|].
  inversion F as [|? ? (d & k & ->) F2]; subst. destruct rd as [|g rd].
  - exists [VRuns d l k]. split; [reflexivity|]. split; [constructor; [split; reflexivity|constructor]|].
    cbn [app]. eapply vr_step; [apply v_write|apply vr_refl].
  - destruct (IH (with_timeout c (shrink t)) t l (gs1 ++ [VRuns d l k]) gs2 ltac:(discriminate) F2) as (done & D & A & R).
    exists (VRuns d l k :: done). split; [cbn [map]; f_equal; exact D|]. split; [constructor; [split; reflexivity|exact A]|].
    rewrite <- !app_assoc in R. rewrite with_timeout_twice in R. cbn [app] in R |- *. eapply vr_step; [apply v_write|exact R].
Qed.
End S.

(** Before goroutine i starts, any number of the others may have shortened the time. *)
Lemma late_start : forall undef c ds i d j, Forall searchable ds -> nth_error ds i = Some d -> (j < length ds)%nat ->
  exists gs1 gs2, length gs1 = i /\
    vruns undef (query_start c ds) (with_timeout c (Nat.iter j (ShrinkTimeout undef) (scTimeout c)), gs1 ++ VStart d :: gs2).
Proof.
  intros undef c ds i d j F N L. destruct (nth_error_split _ _ N) as (a & b & -> & La).
  rewrite app_length in L. cbn [length] in L. apply Forall_app in F. destruct F as [Fa Fb]. inversion Fb as [|? ? Fd Fb']; subst.
  unfold query_start. rewrite map_app. cbn [map].
  destruct (Nat.le_gt_cases j (length a)) as [J|J].
  - assert (Fj : Forall searchable (firstn j a)).
    { rewrite Forall_forall in *. intros x X. apply Fa. rewrite <- (firstn_skipn j a). apply in_or_app. left. exact X. }
    destruct (in_turn undef (firstn j a) c [] (map VStart (skipn j a) ++ VStart d :: map VStart b) Fj) as (done & Ld & _ & R).
    rewrite firstn_length_le in * by lia. cbn [app] in R. rewrite !app_assoc, <- map_app, firstn_skipn in R.
    exists (done ++ map VStart (skipn j a)), (map VStart b). split; [|exact R].
    rewrite app_length, map_length, skipn_length. lia.
  - set (m := (j - length a)%nat). assert (Fm : Forall searchable (firstn m b)).
    { rewrite Forall_forall in *. intros x X. apply Fb'. rewrite <- (firstn_skipn m b). apply in_or_app. left. exact X. }
    destruct (in_turn undef a c [] (VStart d :: map VStart b) Fa) as (da & Lda & _ & Ra).
    destruct (in_turn undef (firstn m b) (with_timeout c (Nat.iter (length a) (ShrinkTimeout undef) (scTimeout c)))
                (da ++ [VStart d]) (map VStart (skipn m b)) Fm) as (db & Ldb & _ & Rb).
    exists da, (db ++ map VStart (skipn m b)). split; [exact Lda|]. cbn [app] in Ra.
    eapply vruns_trans; [exact Ra|]. rewrite <- map_app, firstn_skipn in Rb.
    rewrite <- !app_assoc in Rb. cbn [app] in Rb. rewrite with_timeout_twice, with_timeout_timeout in Rb.
    rewrite firstn_length_le in Rb by lia. rewrite <- iter_plus in Rb.
    replace (m + length a)%nat with j in Rb by lia. exact Rb.
Qed.

Lemma gets_bound : forall undef c ds i g, gets undef c ds i g ->
  (exists w, (w < length ds)%nat /\ v_good undef c w g) /\ nth_error ds i = Some (v_datum g).
Proof.
  intros undef c ds i g (s & R & N).
  destruct (vruns_inv undef c _ _ R (vinv_start undef c ds)) as [_ F].
  pose proof (vruns_data undef _ _ R) as D. cbn [query_start snd] in D. rewrite map_map in D. cbn [v_datum] in D. rewrite map_id in D.
  split.
  - destruct (nth_error_split _ _ N) as (gs1 & gs2 & Hg & _). specialize (F gs1 g gs2 Hg).
    exists (written gs1 + written gs2)%nat. split; [|exact F].
    rewrite Hg in D. apply (f_equal (@length _)) in D. rewrite map_length, app_length in D. cbn [length] in D.
    pose proof (written_le gs1). pose proof (written_le gs2). lia.
  - rewrite <- D, nth_error_map, N. reflexivity.
Qed.

(** The time a vector gets in a query of n vectors: what it asked for, shortened any number
    of times below n; each of these is possible for each vector. *)
Theorem C163_time : forall undef c ds i l,
  scTimeout c <= 9223372036854 -> Forall searchable ds -> (i < length ds)%nat ->
  ((exists g, gets undef c ds i g /\ given_time g = Some l) <->
   exists j, (j < length ds)%nat /\ l = (Z.of_N (shortened j (scTimeout c)) * 1000000)%Z).
Proof.
  intros undef c ds i l T F Li.
  assert (T' : scTimeout c <= 2 ^ 49) by (change (2 ^ 49) with 562949953421312 in *; lia).
  assert (TL : forall j, time_limit (shortened j (scTimeout c)) = (Z.of_N (shortened j (scTimeout c)) * 1000000)%Z).
  { intro j. apply time_limit_exact. pose proof (shortened_le j (scTimeout c)). lia. }
  split.
  - intros (g & Gg & E). destruct (gets_bound _ _ _ _ _ Gg) as ((w & Lw & A & _) & _). destruct (A l E) as (j & Lj & ->).
    exists j. split; [lia|]. rewrite left_shortened by exact T'. apply TL.
  - intros (j & Lj & ->). destruct (nth_error ds i) as [d|] eqn:N; [|apply nth_error_None in N; lia].
    destruct (late_start undef c ds i d j F N Lj) as (gs1 & gs2 & L1 & R).
    exists (VTimed d (time_limit (Nat.iter j (ShrinkTimeout undef) (scTimeout c)))). split.
    + eexists. split.
      * eapply vruns_trans; [exact R|]. eapply vr_step; [apply v_timed|apply vr_refl].
      * cbn [snd]. rewrite nth_error_app2 by lia. rewrite L1, Nat.sub_diag. cbn [nth_error]. rewrite with_timeout_timeout. reflexivity.
    + cbn [given_time]. rewrite left_shortened by exact T'. rewrite TL. reflexivity.
Qed.
Print Assumptions C163_time.

(** The key under which its answer is looked up and stored: the vector and the configuration
    with the timeout shortened any number of times below n. *)
Theorem C163_key : forall undef c ds i b,
  scTimeout c <= 9223372036854 -> Forall searchable ds -> (i < length ds)%nat ->
  ((exists g, gets undef c ds i g /\ cache_key g = Some b) <->
   exists j d k, (j < length ds)%nat /\ nth_error ds i = Some d /\ dkey d = Some k /\
     b = wire_key k ++ EncodeSearchConfig (with_timeout c (shortened j (scTimeout c)))).
Proof.
  intros undef c ds i b T F Li.
  assert (T' : scTimeout c <= 2 ^ 49) by (change (2 ^ 49) with 562949953421312 in *; lia).
  split.
  - intros (g & Gg & E). destruct (gets_bound _ _ _ _ _ Gg) as ((w & Lw & _ & B & _) & N). destruct (B b E) as (j & Lj & K).
    assert (Fd : searchable (v_datum g)) by (rewrite Forall_forall in F; apply F; eapply nth_error_In; eauto).
    rewrite left_shortened in K by exact T'.
    destruct (searchable_key _ (with_timeout c (shortened j (scTimeout c))) Fd) as (k & Ek & K'). rewrite K in K'. injection K' as ->.
    exists j, (v_datum g), k. split; [lia|]. auto.
  - intros (j & d & k & Lj & N & Ek & ->).
    destruct (late_start undef c ds i d j F N Lj) as (gs1 & gs2 & L1 & R).
    set (c' := with_timeout c (Nat.iter j (ShrinkTimeout undef) (scTimeout c))) in *.
    assert (Fd : searchable d) by (rewrite Forall_forall in F; apply F; eapply nth_error_In; eauto).
    destruct (searchable_key d c' Fd) as (k' & Ek' & K). rewrite Ek in Ek'. injection Ek' as <-.
    exists (VKeyed d (time_limit (scTimeout c')) (wire_key k ++ EncodeSearchConfig c')). split.
    + eexists. split.
      * eapply vruns_trans; [exact R|]. eapply vr_step; [apply v_timed|]. eapply vr_step; [apply v_keyed, K|apply vr_refl].
      * cbn [snd]. rewrite nth_error_app2 by lia. rewrite L1, Nat.sub_diag. reflexivity.
    + cbn [cache_key]. unfold c'. rewrite left_shortened by exact T'. reflexivity.
Qed.
Print Assumptions C163_key.

Lemma written_some : forall undef c s s', vruns undef s s' -> vinv undef c s ->
  (written (snd s) = 0%nat \/ exists j, (1 <= j <= written (snd s))%nat /\ fst s = with_timeout c (Nat.iter j (ShrinkTimeout undef) (scTimeout c))) ->
  (written (snd s') = 0%nat \/ exists j, (1 <= j <= written (snd s'))%nat /\ fst s' = with_timeout c (Nat.iter j (ShrinkTimeout undef) (scTimeout c))).
Proof.
  intros undef c s s' R. induction R as [s|c1 gs1 g gs2 c2 g' s St R IH]; intros I H; [exact H|].
  apply IH; [eapply vstep_inv; eauto|]. cbn [fst snd] in *. destruct I as [(j0 & _ & E0) F]. cbn [fst snd] in E0, F.
  specialize (F gs1 g gs2 eq_refl).
  assert (W : forall x, written (gs1 ++ x :: gs2) = (written gs1 + written gs2 + if v_done x then 1 else 0)%nat).
  { intro x. rewrite written_app. unfold written at 2. cbn [filter]. fold (written gs2). destruct (v_done x); cbn [length]; fold (written gs2); lia. }
  rewrite W in H |- *.
  destruct St; cbn [v_done] in *; try (destruct H as [H|(j & Lj & H)]; [left; lia|right; exists j; split; [lia|exact H]]).
  right. destruct F as (_ & _ & C). destruct (C d l k t eq_refl) as (i & Li & ->). exists (S i). split; [lia|].
  rewrite E0, with_timeout_twice. reflexivity.
Qed.

(** The timeout passed on to other nodes once all n goroutines have read the request: shortened
    between once and n times; each is possible. *)
Theorem C163_passed_on : forall undef c ds t,
  scTimeout c <= 9223372036854 -> Forall searchable ds -> ds <> [] ->
  ((exists s, vruns undef (query_start c ds) s /\ all_done s /\ scTimeout (fst s) = t) <->
   exists j, (1 <= j <= length ds)%nat /\ t = shortened j (scTimeout c)).
Proof.
  intros undef c ds t T F NE.
  assert (T' : scTimeout c <= 2 ^ 49) by (change (2 ^ 49) with 562949953421312 in *; lia).
  assert (W : forall gs, Forall (fun g => v_done g = true) gs -> written gs = length gs).
  { intros gs A. induction A as [|g gs E A IH]; [reflexivity|]. unfold written in *. cbn [filter]. rewrite E. cbn [length]. congruence. }
  split.
  - intros (s & R & A & <-).
    destruct (written_some undef c _ _ R (vinv_start undef c ds)) as [K|(j & Lj & E)].
    + left. cbn [query_start snd]. clear. induction ds; auto.
    + exfalso. rewrite (W _ A) in K. pose proof (vruns_data undef _ _ R) as D. apply (f_equal (@length _)) in D.
      cbn [query_start snd] in D. rewrite !map_length in D. destruct ds; [congruence|cbn in D; lia].
    + exists j. rewrite (W _ A) in Lj. pose proof (vruns_data undef _ _ R) as D. apply (f_equal (@length _)) in D.
      cbn [query_start snd] in D. rewrite !map_length in D. split; [lia|]. rewrite E, with_timeout_timeout. apply left_shortened, T'.
  - intros (j & Lj & ->). set (m := (length ds - j)%nat).
    (* the first m + 1 goroutines write at the same time, the others one after the other *)
    set (a := firstn (S m) ds). set (b := skipn (S m) ds).
    assert (EAB : ds = a ++ b) by (symmetry; apply firstn_skipn).
    assert (La : length a = S m) by (apply firstn_length_le; lia).
    assert (Lb : length b = (j - 1)%nat) by (unfold b; rewrite skipn_length; lia).
    rewrite EAB in F. apply Forall_app in F. destruct F as [Fa Fb].
    destruct (together undef a c [] (map VStart b) Fa) as (rd & D & A & R1).
    assert (NR : rd <> []) by (intro Z; rewrite Z in D; rewrite <- D in La; discriminate La).
    destruct (all_write undef rd c (scTimeout c) (time_limit (scTimeout c)) [] (map VStart b) NR A) as (da & Da & Aa & R2).
    destruct (in_turn undef b (with_timeout c (ShrinkTimeout undef (scTimeout c))) da [] Fb) as (db & Ldb & Ab & R3).
    cbn [app] in R1, R2. rewrite !app_nil_r in R3. rewrite with_timeout_twice, with_timeout_timeout in R3.
    rewrite <- iter_shift in R3. rewrite Lb in R3. replace (S (j - 1)) with j in R3 by lia.
    eexists. split; [|split].
    + unfold query_start. rewrite EAB, map_app. eapply vruns_trans; [exact R1|]. eapply vruns_trans; [exact R2|exact R3].
    + unfold all_done. cbn [snd]. apply Forall_app. split; [|exact Ab]. eapply Forall_impl; [|exact Aa]. intros g [G _]. exact G.
    + cbn [fst]. rewrite with_timeout_timeout. apply left_shortened, T'.
Qed.
Print Assumptions C163_passed_on.

(** All vectors may get the whole time, whatever their number. *)
Theorem C163_all_of_it : forall undef c ds,
  scTimeout c <= 9223372036854 -> Forall searchable ds ->
  exists s, vruns undef (query_start c ds) s /\ all_done s /\ length (snd s) = length ds /\
    Forall (fun g => given_time g = Some (Z.of_N (scTimeout c) * 1000000)%Z) (snd s).
Proof.
  intros undef c ds T F. destruct ds as [|d ds]; [exists (query_start c []); split; [apply vr_refl|]; split; [constructor|]; split; [reflexivity|constructor]|].
  destruct (together undef (d :: ds) c [] [] F) as (rd & D & A & R1).
  assert (NR : rd <> []) by (intros ->; discriminate D).
  destruct (all_write undef rd c (scTimeout c) (time_limit (scTimeout c)) [] [] NR A) as (da & Da & Aa & R2).
  cbn [app] in R1, R2. rewrite !app_nil_r in R1, R2. rewrite time_limit_exact in Aa by exact T.
  eexists. split; [eapply vruns_trans; [exact R1|exact R2]|]. cbn [snd]. split; [|split].
  - eapply Forall_impl; [|exact Aa]. intros g [G _]. exact G.
  - rewrite <- D. rewrite <- (map_length v_datum da), Da, !map_length. reflexivity.
  - eapply Forall_impl; [|exact Aa]. intros g [_ G]. exact G.
Qed.
Print Assumptions C163_all_of_it.

(** Three vectors, 1000 ms: each gets 1000, 900 or 810 ms; 900, 810 or 729 ms are passed on. *)
Example C163_instance :
  scTimeout (qc 0 []) = 1000 /\ scTimeout (qc 0 []) <= 9223372036854 /\
  Forall searchable (repeat (mkDatum (Some qk) None) 3) /\
  map (fun j => shortened j 1000) [0; 1; 2; 3]%nat = [1000; 900; 810; 729] /\
  (exists g, gets 0 (qc 0 []) (repeat (mkDatum (Some qk) None) 3) 1 g /\ given_time g = Some 810000000%Z) /\
  ~ (exists g, gets 0 (qc 0 []) (repeat (mkDatum (Some qk) None) 3) 1 g /\ given_time g = Some 729000000%Z).
Proof.
  assert (F : Forall searchable (repeat (mkDatum (Some qk) None) 3)).
  { apply Forall_forall. intros x X. apply repeat_spec in X. subst. exists qk. split; [reflexivity|]. split; [exact (proj1 qk_ok)|exact (proj2 qk_ok)]. }
  assert (T : scTimeout (qc 0 []) <= 9223372036854) by (apply N.leb_le; vm_compute; reflexivity).
  split; [reflexivity|]. split; [exact T|]. split; [exact F|]. split; [vm_compute; reflexivity|]. split.
  - apply (C163_time 0 (qc 0 []) _ 1 _ T F); [cbn; lia|]. exists 2%nat. split; [cbn; lia|vm_compute; reflexivity].
  - intro H. apply (C163_time 0 (qc 0 []) _ 1 _ T F) in H; [|cbn; lia]. destruct H as (j & Lj & E). cbn [repeat length] in Lj.
    destruct j as [|[|[|j]]]; [| | |lia]; vm_compute in E; discriminate E.
Qed.
