(** Property C131: the messages of one query. *)
From Verif.Base Require Import GoBase GoLemmas.
From Verif.Model Require Import QueryCache Flood.
From Verif.Spec Require Import TrafficSpec.
From Verif.Proof Require Import FloodP.
From Coq Require Import Lia.
Open Scope nat_scope.

(** C131.  One query with v vectors in a cluster of n nodes causes at most 6 (v + n)
    messages between the nodes, whatever the nodes answer and in whatever order; with
    an identifier given by the client at most 6 (v + n - 1). *)
Theorem C131_bounded : forall D undef sources univ o (ds : list D) timeout (given : bool) s0 k s,
  (forall m, incl (sources m) univ) -> In o univ ->
  flood_start undef sources o ds timeout given s0 -> handles undef sources k s0 s ->
  sent k s <= 6 * (length ds + length univ - if given then 1 else 0).
Proof.
  intros D undef sources univ o ds timeout given s0 k s U Io St R.
  assert (I0 : in_univ univ s0 /\ (length (fReqs s0) <= 6 * length ds) /\ length (fSeen s0) = if given then 1 else 0).
  { destruct St as [reqs F]. split; [split; [|split]|]; cbn [fReqs fSeen].
    - eapply forwarded_univ; eauto.
    - destruct given; intros x; [intros [<-|[]]; auto|intros []].
    - destruct given; repeat constructor; intros [].
    - split; [eapply forwarded_small; eauto|]. destruct given; reflexivity. }
  destruct I0 as (I0 & L0 & E0).
  assert (G : in_univ univ s /\
    sent k s + 6 * (length univ - length (fSeen s)) <= length (fReqs s0) + 6 * (length univ - length (fSeen s0))).
  { clear L0 E0 St. induction R as [s|k s s1 s2 R IH St]; [split; auto; unfold sent; lia|].
    destruct (IH I0) as [I1 W1]. pose proof (univ_step _ _ _ _ _ U I1 St) as I2. split; [exact I2|].
    destruct I2 as (_ & B' & C').
    assert (length (fSeen s2) <= length univ) by (apply NoDup_incl_length; auto).
    unfold sent in *.
    destruct St; cbn [fReqs fSeen] in *; rewrite ?app_length in *; cbn [length] in *; try lia.
    match goal with F : forwarded _ _ _ _ _ _ |- _ => apply forwarded_small in F; cbn [length] in F end. lia. }
  destruct G as [_ W]. rewrite E0 in W.
  assert (1 <= length univ) by (destruct univ; [destruct Io|cbn; lia]).
  destruct given; lia.
Qed.
Print Assumptions C131_bounded.

(** A cluster in which node m has the six nodes after it as sources. *)
Definition next_six (n m : N) : list N := map (fun i => ((m + i) mod n)%N) [1; 2; 3; 4; 5; 6]%N.

Lemma mod_apart : forall n m i j, (i < j -> j < i + n -> (m + i) mod n <> (m + j) mod n)%N.
Proof.
  intros n m i j L B E. assert (N0 : (n <> 0)%N) by lia.
  pose proof (N.div_mod (m + i) n N0) as A1. pose proof (N.div_mod (m + j) n N0) as A2.
  rewrite E in A1. set (q1 := ((m + i) / n)%N) in *. set (q2 := ((m + j) / n)%N) in *.
  set (r := ((m + j) mod n)%N) in *. destruct (N.le_gt_cases q2 q1); nia.
Qed.

Lemma next_six_distinct : forall n m, (7 <= n)%N -> NoDup (next_six n m).
Proof.
  intros n m L. unfold next_six. cbn [map].
  repeat constructor; cbn [In]; intro H;
    repeat (destruct H as [H|H]; [symmetry in H; revert H; apply mod_apart; lia|]); destruct H.
Qed.

Lemma next_six_all : forall D undef n m t (ds : list D), (7 <= n)%N -> ds <> [] ->
  exists reqs, forwarded undef (next_six n) m t ds reqs /\ length reqs = 6 * length ds /\
    (exists r, In r reqs /\ rTo r = ((m + 1) mod n)%N) /\ (forall r, In r reqs -> (rTo r < n)%N).
Proof.
  intros D undef n m t ds L. assert (N0 : (n <> 0)%N) by lia.
  assert (C : consulted (next_six n) m (next_six n m)).
  { split; [apply next_six_distinct, L|split; [intros x I; exact I|cbn; lia]]. }
  set (ts := repeat (ShrinkTimeout undef t) 6).
  assert (Ft : Forall (fun x => exists j, x = Nat.iter (S j) (ShrinkTimeout undef) t) ts).
  { apply Forall_forall. intros x I. apply repeat_spec in I. exists 0. cbn. exact I. }
  induction ds as [|d ds IH]; intro Ne; [congruence|].
  assert (B : forall r, In r (map (fun p => mkReq (fst p) d (snd p)) (combine (next_six n m) ts)) -> (rTo r < n)%N).
  { intros r I. apply in_map_iff in I as ((a & b) & <- & I). apply in_combine_l in I.
    apply in_map_iff in I as (i & <- & _). cbn. apply N.mod_lt, N0. }
  destruct ds as [|d' ds'].
  - eexists. split; [exact (fw_cons _ _ _ _ d [] (next_six n m) ts [] C eq_refl Ft (fw_nil _ _ _ _))|].
    rewrite app_nil_r. split; [reflexivity|]. split; [|exact B].
    exists (mkReq ((m + 1) mod n)%N d (ShrinkTimeout undef t)). split; [left|]; reflexivity.
  - destruct (IH ltac:(discriminate)) as (reqs & F & Lr & (r & Ir & Er) & Br).
    eexists. split; [exact (fw_cons _ _ _ _ d (d' :: ds') (next_six n m) ts reqs C eq_refl Ft F)|].
    split; [rewrite app_length, Lr; cbn [length map combine next_six ts repeat]; lia|]. split.
    + exists r. split; [apply in_or_app; right; exact Ir|exact Er].
    + intros x I. apply in_app_or in I as [I|I]; auto.
Qed.

Lemma finish : forall D undef sources (reqs : list (request D)) seen log,
  (forall r, In r reqs -> In (rTo r) seen) ->
  forall k s0, handles undef sources k s0 (mkFlood seen reqs log) ->
  handles undef sources (k + length reqs) s0 (mkFlood seen [] log).
Proof.
  induction reqs as [|r reqs IH]; intros seen log A k s0 H; cbn [length]; [rewrite Nat.add_0_r; exact H|].
  replace (k + S (length reqs)) with (S k + length reqs) by lia. apply IH; [intros; apply A; right; auto|].
  eapply h_one; [exact H|]. exact (st_duplicate undef sources seen [] r reqs log (A r (or_introl eq_refl))).
Qed.

(** No smaller bound holds: for every size of the cluster from seven nodes on and
    every number of vectors there is a cluster in which all 6 (v + n) messages are
    sent, and every node executes the query (the node asked twice). *)
Theorem C131_attained : forall D undef n (ds : list D) timeout, 7 <= n -> ds <> [] ->
  exists sources s0 s, (forall m x, In x (sources m) -> (x < N.of_nat n)%N) /\
    flood_start undef sources 0%N ds timeout false s0 /\
    handles undef sources (6 * (length ds + n)) s0 s /\ fReqs s = [] /\ length (fLog s) = S n.
Proof.
  intros D undef n ds timeout L Ne. set (nn := N.of_nat n). assert (Ln : (7 <= nn)%N) by lia.
  assert (N0 : (nn <> 0)%N) by lia.
  destruct (next_six_all D undef nn 0 timeout ds Ln Ne) as (reqs & F & Lr & X & B).
  set (s0 := mkFlood (@nil N) reqs [(0%N, ds)]).
  assert (St : forall k, k <= n -> exists s, handles undef (next_six nn) k s0 s /\
    (forall x, In x (fSeen s) <-> exists i, (1 <= i <= N.of_nat k)%N /\ x = (i mod nn)%N) /\
    length (fReqs s) = 6 * length ds + 5 * k /\
    (exists r, In r (fReqs s) /\ rTo r = ((N.of_nat k + 1) mod nn)%N) /\
    (forall r, In r (fReqs s) -> (rTo r < nn)%N) /\ length (fLog s) = S k).
  { induction k as [|k IH]; intro Lk.
    - exists s0. split; [constructor|]. cbn [fSeen fReqs fLog s0 length]. repeat split; auto; try lia.
      + intros [].
      + intros (i & Hi & _). cbn in Hi. lia.
    - destruct IH as (s & H & Sn & Lq & (r & Ir & Er) & Bq & Lg); [lia|]. destruct s as [seen rq log].
      cbn [fSeen fReqs fLog] in *. apply in_split in Ir as (r1 & r2 & ->).
      destruct (next_six_all D undef nn (rTo r) (rTimeout r) [rDatum r] Ln ltac:(discriminate)) as (new & Fn & Lnw & (y & Iy & Ey) & Bn).
      assert (Nin : ~ In (rTo r) seen).
      { rewrite Sn. intros (i & Hi & E). rewrite Er in E. revert E. replace (i) with (0 + i)%N by lia.
        replace (N.of_nat k + 1)%N with (0 + (N.of_nat k + 1))%N by lia. intro E. symmetry in E. revert E.
        apply mod_apart; lia. }
      exists (mkFlood (rTo r :: seen) (r1 ++ r2 ++ new) ((rTo r, [rDatum r]) :: log)).
      split; [eapply h_one; [exact H|apply st_execute; auto]|]. cbn [fSeen fReqs fLog].
      split; [|split; [|split; [|split]]].
      + intro x. cbn [In]. rewrite Sn. split.
        * intros [<-|(i & Hi & ->)]; [exists (N.of_nat k + 1)%N; split; [lia|exact Er]|exists i; split; [lia|reflexivity]].
        * intros (i & Hi & ->). destruct (N.eq_dec i (N.of_nat k + 1)) as [->|Q]; [left; exact Er|right].
          exists i. split; [lia|reflexivity].
      + rewrite !app_length in *. cbn [length] in *. lia.
      + exists y. split; [apply in_or_app; right; apply in_or_app; right; exact Iy|].
        rewrite Ey, Er. rewrite N.add_mod_idemp_l by exact N0. f_equal. lia.
      + intros x I. apply in_app_or in I as [I|I]; [|apply in_app_or in I as [I|I]; auto];
          apply Bq, in_or_app; [left|right; right]; exact I.
      + cbn [length]. lia. }
  destruct (St n (le_n n)) as (s & H & Sn & Lq & _ & Bq & Lg). destruct s as [seen rq log]. cbn [fSeen fReqs fLog] in *.
  exists (next_six nn), s0, (mkFlood seen [] log). cbn [fReqs fLog]. split; [|split; [|split; [|split]]]; auto.
  - intros m x I. apply in_map_iff in I as (i & <- & _). apply N.mod_lt, N0.
  - constructor. exact F.
  - replace (6 * (length ds + n)) with (n + length rq) by lia. apply finish; [|exact H].
    intros r I. apply Sn. specialize (Bq r I). destruct (N.eq_dec (rTo r) 0) as [E|Q].
    + exists nn. split; [lia|]. rewrite E. symmetry. apply N.mod_same, N0.
    + exists (rTo r). split; [lia|]. symmetry. apply N.mod_small, Bq.
Qed.
Print Assumptions C131_attained.

(** Seven nodes, one vector: 48 messages and no more. *)
Example C131_instance : exists sources s0 s,
  flood_start 0 sources 0%N [tt] 1000%N false s0 /\ handles 0 sources 48 s0 s /\ fReqs s = [] /\
  forall k s', handles 0 sources k s0 s' -> sent k s' <= 48.
Proof.
  destruct (C131_attained unit 0 7 [tt] 1000) as (sources & s0 & s & B & S0 & H & E & _); [lia|discriminate|].
  exists sources, s0, s. split; [exact S0|split; [exact H|split; [exact E|]]]. intros k s' H'.
  assert (U : forall m, incl (sources m) [0; 1; 2; 3; 4; 5; 6]%N).
  { intros m x I. apply B in I. cbn [In].
    assert (x = 0 \/ x = 1 \/ x = 2 \/ x = 3 \/ x = 4 \/ x = 5 \/ x = 6)%N by lia. intuition. }
  refine (C131_bounded unit 0 sources _ 0%N [tt] 1000%N false s0 k s' U _ S0 H'). left. reflexivity.
Qed.
