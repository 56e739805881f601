(** Proofs about the spreading of a query. *)
From Verif.Base Require Import GoBase GoLemmas Float.
From Verif.Model Require Import QueryCache Flood.
From Coq Require Import Lia.

Section FloodP.
Context {D : Type}.
Implicit Types s : flood D.

(** Executions on node n. *)
Definition runs_on (n : N) (log : list (N * list D)) : list (list D) :=
  map snd (filter (fun e => N.eqb (fst e) n) log).

Lemma runs_on_cons_same : forall n ds log, runs_on n ((n, ds) :: log) = ds :: runs_on n log.
Proof. intros. unfold runs_on. cbn [filter fst]. rewrite N.eqb_refl. reflexivity. Qed.
Lemma runs_on_cons_other : forall n m ds log, m <> n -> runs_on n ((m, ds) :: log) = runs_on n log.
Proof. intros n m ds log H. unfold runs_on. cbn [filter fst]. apply N.eqb_neq in H. rewrite H. reflexivity. Qed.

(** After the start: executions beyond the first are of a single datum and
    happened on a recorded node. *)
Definition flood_inv (o : N) (ds : list D) (s : flood D) : Prop :=
  exists later, fLog s = later ++ [(o, ds)] /\
    forall n, runs_on n later = [] \/
      exists d, runs_on n later = [[d]] /\ In n (fSeen s).

Lemma flood_step_inv : forall undef sources o ds s s',
  flood_inv o ds s -> flood_step undef sources s s' -> flood_inv o ds s'.
Proof.
  intros undef sources o ds s s' (later & E & H) St. destruct St; cbn [fLog fSeen] in *; subst.
  - exists later. auto.
  - exists ((rTo r, [rDatum r]) :: later). split; auto. intro n.
    destruct (N.eq_dec (rTo r) n) as [Q|Q].
    + subst n. rewrite runs_on_cons_same. destruct (H (rTo r)) as [->|(d & _ & I)]; [|contradiction].
      right. exists (rDatum r). split; auto. left. auto.
    + rewrite runs_on_cons_other by auto. destruct (H n) as [->|(d & -> & I)]; auto.
      right. exists d. split; auto. right. auto.
  - exists later. auto.
  - exists later. split; auto. intro n. destruct (H n) as [->|(d & -> & I)]; auto.
    right. exists d. split; auto. right. auto.
Qed.

Lemma flood_runs_inv : forall undef sources o ds s s',
  flood_runs undef sources s s' -> flood_inv o ds s -> flood_inv o ds s'.
Proof. induction 1; intros; auto. eauto using flood_step_inv. Qed.

Lemma flood_start_inv : forall undef sources o ds timeout given s,
  flood_start undef sources o ds timeout given s -> flood_inv o ds s.
Proof. intros. destruct H. exists []. split; auto. Qed.

(** * Termination *)
Definition in_univ (univ : list N) (s : flood D) : Prop :=
  (forall r, In r (fReqs s) -> In (rTo r) univ) /\ incl (fSeen s) univ /\ NoDup (fSeen s).

Lemma forwarded_univ : forall undef sources univ n t ds reqs,
  (forall m, incl (sources m) univ) ->
  forwarded (D := D) undef sources n t ds reqs -> forall r, In r reqs -> In (rTo r) univ.
Proof.
  intros undef sources univ n t ds reqs U F. induction F as [|d ds targets times reqs (C1 & C2 & C3) L T F IH]; intros r I; [destruct I|].
  apply in_app_or in I as [I|I]; auto. apply in_map_iff in I. destruct I as ((a & b) & <- & I). cbn.
  apply in_combine_l in I. apply (U n). auto.
Qed.

Lemma forwarded_small : forall undef sources n t ds reqs,
  forwarded (D := D) undef sources n t ds reqs -> (length reqs <= 6 * length ds)%nat.
Proof.
  intros undef sources n t ds reqs F. induction F as [|d ds targets times reqs (C1 & C2 & C3) L T F IH]; cbn; auto.
  rewrite app_length, map_length, combine_length. lia.
Qed.

Lemma in_mid : forall A (x y : A) l1 l2, In x (l1 ++ l2) -> In x (l1 ++ y :: l2).
Proof. intros. apply in_app_or in H. apply in_or_app. destruct H; auto. right. right. auto. Qed.

Lemma univ_step : forall undef sources univ s s',
  (forall m, incl (sources m) univ) ->
  in_univ univ s -> flood_step undef sources s s' -> in_univ univ s'.
Proof.
  intros undef sources univ s s' U (A & B & C) St. destruct St; cbn [fReqs fSeen] in *.
  - split; [|split]; auto. intros x I. apply A. apply in_mid. auto.
  - split; [|split].
    + intros x I. rewrite app_assoc in I. apply in_app_or in I as [I|I].
      * apply A. apply in_mid. auto.
      * eapply forwarded_univ; eauto.
    + intros x [<-|I]; auto. apply A. apply in_or_app. right. left. auto.
    + constructor; auto.
  - split; [|split]; auto. intros x I. apply A. apply in_mid. auto.
  - split; [|split].
    + intros x I. apply A. apply in_mid. auto.
    + intros x [<-|I]; auto. apply A. apply in_or_app. right. left. auto.
    + constructor; auto.
Qed.

(** Every step handles a request, and new requests come only with a newly
    recorded node. *)
Definition weight (univ : list N) (s : flood D) : nat :=
  (7 * (length univ - length (fSeen s)) + length (fReqs s))%nat.

Lemma weight_step : forall undef sources univ s s',
  (forall m, incl (sources m) univ) ->
  in_univ univ s -> flood_step undef sources s s' -> (weight univ s' < weight univ s)%nat.
Proof.
  intros undef sources univ s s' U I St. pose proof (univ_step _ _ _ _ _ U I St) as (_ & B' & C').
  assert (length (fSeen s') <= length univ)%nat by (apply NoDup_incl_length; auto).
  unfold weight. destruct St; cbn [fReqs fSeen] in *; rewrite ?app_length in *; cbn [length] in *; try lia.
  match goal with F : forwarded _ _ _ _ _ _ |- _ => apply forwarded_small in F; cbn [length] in F end. lia.
Qed.

Lemma flood_terminates : forall undef sources univ s,
  (forall m, incl (sources m) univ) -> in_univ univ s ->
  Acc (fun s2 s1 => flood_step undef sources s1 s2) s.
Proof.
  intros undef sources univ s U. remember (weight univ s) as w eqn:W. revert s W.
  induction w as [w IH] using lt_wf_ind. intros s -> I. constructor. intros s' St.
  eapply IH; [eapply weight_step; eauto|reflexivity|eapply univ_step; eauto].
Qed.

Lemma flood_runs_weight : forall undef sources univ s s',
  (forall m, incl (sources m) univ) -> flood_runs undef sources s s' -> in_univ univ s ->
  in_univ univ s' /\ (weight univ s' <= weight univ s)%nat.
Proof.
  intros undef sources univ s s' U R. induction R; intro I; auto.
  destruct IHR as [I2 W]; [eapply univ_step; eauto|].
  split; auto. pose proof (weight_step _ _ _ _ _ U I H). lia.
Qed.

(** A state in which no step is possible has no request under way. *)
Lemma flood_stuck : forall undef sources s,
  (forall s', ~ flood_step undef sources s s') -> fReqs s = [].
Proof.
  intros undef sources [seen reqs log] H. cbn. destruct reqs as [|r reqs]; auto. exfalso.
  eapply H. apply (st_lost undef sources seen [] r reqs log).
Qed.
End FloodP.
