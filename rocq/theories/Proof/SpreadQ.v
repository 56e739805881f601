(** Proofs about a query that spreads without losses. *)
From Verif.Base Require Import GoBase GoLemmas Assoc Float GoSort.
From Verif.Model Require Import Codec Store Search QueryCache Flood CallTree Spread.
From Verif.Spec Require Import TopK TreeSpec ReachSpec.
From Verif.Proof Require Import FloodP.
From Coq Require Import Lia.

Section SpreadP.
Context {D : Type}.
Implicit Types s : spread D.

Lemma sent_targets : forall undef sources n t (d : D) i reqs, sent undef sources n t d i reqs ->
  asked sources n (map (fun e => rTo (snd e)) reqs) /\ (forall e, In e reqs -> fst e = i /\ rDatum (snd e) = d).
Proof.
  intros undef sources n t d i reqs S. destruct S as [targets times A L F]. split.
  - rewrite map_map. cbn [snd rTo].
    assert (E : map (fun x => fst x) (combine targets times) = targets).
    { clear -L. revert times L. induction targets as [|a l IH]; intros [|b m] L; cbn in *; try discriminate; auto.
      f_equal. apply IH. lia. }
    rewrite E. exact A.
  - intros e I. apply in_map_iff in I. destruct I as (p & <- & _). auto.
Qed.

Lemma asked_all : forall sources n targets, NoDup (sources n) -> (length (sources n) <= 6)%nat ->
  asked sources n targets -> incl (sources n) targets.
Proof.
  intros sources n targets ND L (A & B & C). apply NoDup_length_incl; auto. lia.
Qed.

(** * The steps are those of Model/Flood.v *)
Definition erase (d : D) (s : spread D) : flood D :=
  mkFlood (sSeen s) (map snd (sReqs s)) (map (fun e => (fst e, [d])) (sLog s)).

Lemma sent_forwarded : forall undef sources n t (d : D) i reqs, sent undef sources n t d i reqs ->
  forwarded undef sources n t [d] (map snd reqs).
Proof.
  intros undef sources n t d i reqs S. destruct S as [targets times (A & B & C) L F].
  rewrite map_map. cbn [snd].
  rewrite <- (app_nil_r (map (fun x => mkReq (fst x) d (snd x)) (combine targets times))).
  constructor; auto; [|constructor]. split; auto. split; auto. lia.
Qed.

Lemma step_erases : forall undef sources d s s', (forall e, In e (sReqs s) -> rDatum (snd e) = d) ->
  spread_step undef sources s s' ->
  flood_step undef sources (erase d s) (erase d s') /\ (forall e, In e (sReqs s') -> rDatum (snd e) = d).
Proof.
  intros undef sources d s s' H St. destruct St as [seen r1 i r r2 log I|seen r1 i r r2 log reqs I F];
    unfold erase; cbn [sSeen sReqs sLog] in *; rewrite !map_app; cbn [map snd].
  - split; [apply st_duplicate; auto|]. intros e X. apply H. apply in_mid. auto.
  - assert (E : rDatum r = d) by (apply (H (i, r)); apply in_or_app; right; left; auto). split.
    + rewrite <- E. apply st_execute; auto. eapply sent_forwarded; eauto.
    + intros e X. rewrite app_assoc in X. apply in_app_or in X as [X|X]; [apply H, in_mid; auto|].
      rewrite <- E. eapply sent_targets; eauto.
Qed.

Lemma runs_erase : forall undef sources d s s', spread_runs undef sources s s' ->
  (forall e, In e (sReqs s) -> rDatum (snd e) = d) -> flood_runs undef sources (erase d s) (erase d s').
Proof.
  induction 1; intros; [constructor|].
  destruct (step_erases _ _ d _ _ H1 H). econstructor; eauto.
Qed.

Lemma start_erases : forall undef sources o d timeout given s, spread_start undef sources o d timeout given s ->
  flood_start undef sources o [d] timeout given (erase d s) /\ (forall e, In e (sReqs s) -> rDatum (snd e) = d).
Proof.
  intros. destruct H. unfold erase. cbn [sSeen sReqs sLog map fst]. split.
  - constructor. eapply sent_forwarded; eauto.
  - intros e I. eapply sent_targets; eauto.
Qed.

(** * Who is reached *)
Section Reach.
Variables (undef : N) (sources : N -> list N) (o : N).
Hypothesis small : forall n, linked sources o n -> NoDup (sources n) /\ (length (sources n) <= 6)%nat.

Record reach_inv (s : spread D) : Prop := {
  ri_linked : forall n, executed n (sLog s) -> linked sources o n;
  ri_reqs : forall e, In e (sReqs s) -> linked sources o (rTo (snd e));
  ri_seen : forall n, In n (sSeen s) -> executed n (sLog s);
  ri_asked : forall n m, executed n (sLog s) -> In m (sources n) ->
    executed m (sLog s) \/ exists e, In e (sReqs s) /\ rTo (snd e) = m;
  ri_start : executed o (sLog s) }.

Lemma sent_linked : forall n t d i reqs, linked sources o n -> sent (D := D) undef sources n t d i reqs ->
  (forall e, In e reqs -> linked sources o (rTo (snd e))) /\
  (forall m, In m (sources n) -> exists e, In e reqs /\ rTo (snd e) = m).
Proof.
  intros n t d i reqs L S. destruct (sent_targets _ _ _ _ _ _ _ S) as [A _]. destruct (small n L) as [ND Le]. split.
  - intros e I. econstructor; [exact L|]. apply A. apply in_map_iff. eauto.
  - intros m I. pose proof (asked_all _ _ _ ND Le A m I) as X. apply in_map_iff in X. destruct X as (e & E & X). eauto.
Qed.

Lemma reach_start : forall d timeout given s, spread_start undef sources o d timeout given s -> reach_inv s.
Proof.
  intros d timeout given s H. destruct H as [reqs S].
  destruct (sent_linked o _ _ _ _ (linked_here _ _) S) as [A B]. constructor; cbn [sSeen sReqs sLog].
  - intros n [<-|[]]. constructor.
  - exact A.
  - intros n I. destruct given; [destruct I as [<-|[]]; left; auto|destruct I].
  - intros n m [<-|[]] I. right. auto.
  - left. auto.
Qed.

Lemma reach_step : forall s s', reach_inv s -> spread_step undef sources s s' -> reach_inv s'.
Proof.
  intros s s' [A B C E F] St. destruct St as [seen r1 i r r2 log I|seen r1 i r r2 log reqs I S];
    cbn [sSeen sReqs sLog] in *.
  - constructor; cbn [sSeen sReqs sLog]; auto.
    + intros e X. apply B. apply in_mid. auto.
    + intros n m X Y. destruct (E n m X Y) as [|(e & Ie & <-)]; auto.
      apply in_app_or in Ie as [Ie|[<-|Ie]].
      * right. exists e. split; auto. apply in_or_app. auto.
      * left. apply C. auto.
      * right. exists e. split; auto. apply in_or_app. auto.
  - assert (L : linked sources o (rTo r)) by (apply (B (i, r)); apply in_or_app; right; left; auto).
    destruct (sent_linked (rTo r) _ _ _ _ L S) as [P Q]. constructor; cbn [sSeen sReqs sLog].
    + intros n [<-|X]; auto.
    + intros e X. rewrite app_assoc in X. apply in_app_or in X as [X|X]; auto. apply B, in_mid. auto.
    + intros n [<-|X]; [left; auto|right; apply C; auto].
    + intros n m [<-|X] Y.
      * right. destruct (Q m Y) as (e & Ie & Ee). exists e. split; auto. rewrite app_assoc. apply in_or_app. auto.
      * destruct (E n m X Y) as [Z|(e & Ie & <-)]; [left; right; auto|].
        apply in_app_or in Ie as [Ie|[<-|Ie]].
        -- right. exists e. split; auto. apply in_or_app. auto.
        -- left. left. auto.
        -- right. exists e. split; auto. apply in_or_app. right. apply in_or_app. auto.
    + right. auto.
Qed.

Lemma reach_runs : forall s s', spread_runs undef sources s s' -> reach_inv s -> reach_inv s'.
Proof. induction 1; eauto using reach_step. Qed.

Lemma reach_end : forall s, reach_inv s -> sReqs s = [] -> forall n, executed n (sLog s) <-> linked sources o n.
Proof.
  intros s [A B C E F] Z n. split; auto. induction 1; auto.
  destruct (E m k IHlinked H0) as [|(e & Ie & _)]; auto. rewrite Z in Ie. destruct Ie.
Qed.
End Reach.

(** * A run without losses goes to its end *)
Lemma sent_exists : forall undef sources n t (d : D) i, NoDup (sources n) ->
  exists reqs, sent undef sources n t d i reqs.
Proof.
  intros undef sources n t d i ND.
  eexists. apply (sent_to undef sources n t d i (firstn 6 (sources n))
    (repeat (ShrinkTimeout undef t) (length (firstn 6 (sources n))))).
  - split; [|split].
    + rewrite <- (firstn_skipn 6 (sources n)) in ND. revert ND. generalize (firstn 6 (sources n)), (skipn 6 (sources n)).
      intros l l' H. induction l; [constructor|]. inversion H; subst. constructor; auto.
      intro X. apply H2. apply in_or_app. auto.
    + intros x I. rewrite <- (firstn_skipn 6 (sources n)). apply in_or_app. auto.
    + rewrite firstn_length. reflexivity.
  - apply repeat_length.
  - apply Forall_forall. intros x I. apply repeat_spec in I. subst. exists 0%nat. reflexivity.
Qed.

Lemma spread_ends : forall undef sources univ d s, (forall m, incl (sources m) univ) -> (forall m, NoDup (sources m)) ->
  in_univ univ (erase d s) -> (forall e, In e (sReqs s) -> rDatum (snd e) = d) ->
  exists s', spread_runs undef sources s s' /\ sReqs s' = [].
Proof.
  intros undef sources univ d s U ND. remember (weight univ (erase d s)) as w eqn:W. revert s W.
  induction w as [w IH] using lt_wf_ind. intros s -> I H.
  destruct s as [seen reqs log]. destruct reqs as [|(i, r) reqs].
  { eexists. split; [constructor|reflexivity]. }
  assert (exists s1, spread_step undef sources (mkSpread seen ((i, r) :: reqs) log) s1) as (s1 & St).
  { destruct (in_dec N.eq_dec (rTo r) seen) as [Y|Y].
    - eexists. apply (sp_duplicate undef sources seen [] i r reqs log Y).
    - destruct (sent_exists undef sources (rTo r) (rTimeout r) (rDatum r) (length log) (ND _)) as (new & S).
      eexists. apply (sp_execute undef sources seen [] i r reqs log new Y S). }
  destruct (step_erases _ _ d _ _ H St) as [F H1].
  destruct (IH (weight univ (erase d s1))) with (s := s1) as (s' & R & Z); auto.
  - eapply weight_step; eauto.
  - eapply univ_step; eauto.
  - exists s'. split; auto. econstructor; eauto.
Qed.

(** * The tree of calls *)
(** The log ends in the first execution, and every execution was asked for by an
    earlier one. *)
Definition log_ok (o : N) (s : spread D) : Prop :=
  exists later, sLog s = later ++ [(o, 0%nat)] /\
    (forall l1 n p l2, later = l1 ++ (n, p) :: l2 -> (p <= length l2)%nat) /\
    (forall e, In e (sReqs s) -> (fst e <= length later)%nat).

Lemma log_start : forall undef sources o d timeout given s,
  spread_start undef sources o d timeout given s -> log_ok o s.
Proof.
  intros. destruct H as [reqs S]. exists []. split; [reflexivity|]. split.
  - intros [|? ?] ? ? ? E; discriminate E.
  - cbn [sReqs]. intros e I. destruct (sent_targets _ _ _ _ _ _ _ S) as [_ X]. destruct (X e I) as [-> _]. auto.
Qed.

Lemma log_step : forall undef sources o s s', log_ok o s -> spread_step undef sources s s' -> log_ok o s'.
Proof.
  intros undef sources o s s' (later & E & P & Q) St. destruct St as [seen r1 i r r2 log I|seen r1 i r r2 log reqs I S];
    cbn [sSeen sReqs sLog] in *.
  - exists later. cbn [sReqs sLog]. split; auto. split; auto. intros e X. apply Q, in_mid. auto.
  - exists ((rTo r, i) :: later). cbn [sReqs sLog]. split; [rewrite E; reflexivity|]. split.
    + intros [|a l1] n p l2 X; injection X; intros; subst; eauto.
      apply (Q (p, r)). apply in_or_app. right. left. auto.
    + intros e X. rewrite app_assoc in X. apply in_app_or in X as [X|X].
      * specialize (Q e (in_mid _ _ _ _ _ X)). cbn [length]. lia.
      * destruct (sent_targets _ _ _ _ _ _ _ S) as [_ Y]. destruct (Y e X) as [-> _].
        rewrite E, app_length. cbn [length]. lia.
Qed.

Lemma log_runs : forall undef sources o s s', spread_runs undef sources s s' -> log_ok o s -> log_ok o s'.
Proof. induction 1; eauto using log_step. Qed.
End SpreadP.

Lemma children_of_in : forall rest k i j n, In (j, n) (children_of rest k i) <->
  exists q, nth_error rest q = Some (n, i) /\ j = (k + q)%nat.
Proof.
  induction rest as [|[m p] rest IH]; intros k i j n; cbn [children_of].
  - split; [intros []|]. intros (q & E & _). destruct q; discriminate.
  - rewrite in_app_iff, IH. split.
    + intros [H|(q & E & ->)].
      * destruct (Nat.eqb_spec p i); [|destruct H]. destruct H as [H|[]]. injection H as <- <-. subst p.
        exists 0%nat. split; [reflexivity|lia].
      * exists (S q). split; [exact E|lia].
    + intros ([|q] & E & ->).
      * left. cbn in E. injection E as -> ->. rewrite Nat.eqb_refl. left. f_equal. lia.
      * right. exists q. split; [exact E|lia].
Qed.

Section Calls.
Variables (store : N -> dbmap) (tick : N -> bytes -> Z) (order : N -> list (bytes * entry)).
Variables (ex : bytes -> bytes -> bool) (f : list float -> list float -> float) (config : SearchConfig) (q : Codec.DatumKey).
Let found := fun n => candidates ex f config q (tick n) (store n).
Let all := reached ex f config q.

Lemma reached_unfold : forall rest g i n,
  all (tree_of store tick order rest (S g) i n) =
  found n ++ flat_map all (map (fun c => tree_of store tick order rest g (fst c) (snd c)) (children_of rest 1 i)).
Proof. reflexivity. Qed.

Lemma tree_within : forall rest g i n x, In x (all (tree_of store tick order rest g i n)) ->
  In x (found n) \/ exists m, In m (map fst rest) /\ In x (found m).
Proof.
  intros rest. induction g as [|g IH]; intros i n x H.
  - cbn in H. rewrite app_nil_r in H. left. exact H.
  - rewrite reached_unfold in H. apply in_app_or in H as [H|H]; auto. right.
    apply in_flat_map in H. destruct H as (t & T & H). apply in_map_iff in T. destruct T as ((j, m) & <- & T).
    cbn [fst snd] in H. apply children_of_in in T. destruct T as (p & E & _).
    apply nth_error_In in E. destruct (IH _ _ _ H) as [X|X]; auto.
    exists m. split; auto. apply in_map_iff. exists (m, i). auto.
Qed.

Lemma tree_covers : forall rest o fuel,
  (forall k n p, nth_error rest k = Some (n, p) -> (p <= k)%nat) -> (length rest < fuel)%nat ->
  forall j n, (j = 0%nat /\ n = o) \/ (exists k p, j = S k /\ nth_error rest k = Some (n, p)) ->
  exists g, (fuel <= g + j)%nat /\
    incl (all (tree_of store tick order rest g j n)) (all (tree_of store tick order rest fuel 0 o)).
Proof.
  intros rest o fuel P L. induction j as [j IH] using lt_wf_ind. intros n [(-> & ->)|(k & p & -> & E)].
  - exists fuel. split; [lia|]. intros x; auto.
  - pose proof (P _ _ _ E) as Le. assert (K : (k < length rest)%nat) by (apply nth_error_Some; congruence).
    assert (exists np, (p = 0%nat /\ np = o) \/ (exists k' p', p = S k' /\ nth_error rest k' = Some (np, p'))) as (np & X).
    { destruct p as [|k']; [exists o; auto|].
      destruct (nth_error rest k') as [(np, p')|] eqn:Q; [exists np; right; eauto|].
      apply nth_error_None in Q. lia. }
    destruct (IH p ltac:(lia) np X) as (g & G & I). destruct g as [|g]; [lia|].
    exists g. split; [lia|]. intros x Hx. apply I. rewrite reached_unfold. apply in_or_app. right.
    apply in_flat_map. exists (tree_of store tick order rest g (S k) n). split; auto.
    apply in_map_iff. exists (S k, n). split; auto. apply children_of_in. exists k. auto.
Qed.

Lemma calls_reached : forall D o (s : spread D), log_ok o s -> forall x,
  In x (all (calls store tick order o s)) <-> exists n, executed n (sLog s) /\ In x (found n).
Proof.
  intros D o s (later & E & P & _) x. unfold calls. rewrite E, rev_app_distr. cbn [rev app tl].
  rewrite app_length. cbn [length].
  assert (P' : forall k n p, nth_error (rev later) k = Some (n, p) -> (p <= k)%nat).
  { intros k n p H. apply nth_error_split in H. destruct H as (l1 & l2 & H & <-).
    apply (f_equal (@rev _)) in H. rewrite rev_involutive, rev_app_distr in H. cbn [rev] in H.
    rewrite <- app_assoc in H. apply P in H. rewrite rev_length in H. exact H. }
  split.
  - intro H. apply tree_within in H. destruct H as [H|(m & I & H)].
    + exists o. split; auto. unfold executed. rewrite map_app. apply in_or_app. right. left. reflexivity.
    + exists m. split; auto. unfold executed. rewrite map_app. apply in_or_app. left.
      rewrite map_rev in I. apply in_rev. exact I.
  - intros (n & I & H). unfold executed in I. rewrite map_app in I. apply in_app_or in I.
    assert (exists j, (j = 0%nat /\ n = o) \/ (exists k p, j = S k /\ nth_error (rev later) k = Some (n, p))) as (j & X).
    { destruct I as [I|[<-|[]]].
      - apply in_map_iff in I. destruct I as ((n', p) & <- & I). apply in_rev in I. apply In_nth_error in I.
        destruct I as (k & I). exists (S k). right. eauto.
      - exists 0%nat. left. auto. }
    destruct (tree_covers (rev later) o (length later + 1) P' ltac:(rewrite rev_length; lia) j n X) as (g & _ & Inc).
    apply Inc. destruct g; apply in_or_app; left; exact H.
Qed.

Lemma calls_wf : (forall n, store_wf (store n)) -> (forall n, Permutation (order n) (store n)) ->
  forall D o (s : spread D), tree_wf (calls store tick order o s).
Proof.
  intros W O D o s. unfold calls. generalize (tl (rev (sLog s))), (length (sLog s)), 0%nat. intros rest fuel.
  revert o. induction fuel as [|fuel IH]; intros n i; cbn [tree_of tree_wf]; split; auto; split; auto.
  induction (children_of rest 1 i) as [|c l IHl]; cbn [map]; auto.
Qed.
End Calls.
