(** Property C135: exactly when the hand-over of a dataset that is closed comes to an end. *)
From Verif.Base Require Import GoBase GoLemmas Assoc Float.
From Verif.Model Require Import Codec Store Data Insert Vector Search Dataset Sync.
From Verif.Spec Require Import Wire StoreSpec SyncSpec.
From Verif.Proof Require Import StoreP VectorP DatasetP SyncP SyncQ SyncR.
From Verif.Props Require Import StoreProps SyncProps.
From Coq Require Import Lia.
Open Scope N_scope.

Lemma run_shrinks : forall M undef es s s', Forall background es -> sync_run M undef s es = Some s' ->
  (length (store s') <= length (store s))%nat /\
  forall k e, mload (store s') k = Some e -> mload (store s) k = Some e.
Proof.
  induction es as [|e es IH]; intros s s' F R; cbn in R; [injection R as <-; auto|].
  inversion F; subst. destruct (sync_step M undef s e) as [s1|] eqn:E; [|discriminate R].
  destruct (background_shrinks _ _ _ _ _ H1 E) as [A B]. destruct (IH _ _ H2 R) as [C D]. split; [lia|auto].
Qed.

Lemma run_app : forall M undef es1 es2 s s', sync_run M undef s (es1 ++ es2) = Some s' ->
  exists s1, sync_run M undef s es1 = Some s1 /\ sync_run M undef s1 es2 = Some s'.
Proof.
  induction es1 as [|e es1 IH]; intros es2 s s' R; cbn in *; [eauto|].
  destruct (sync_step M undef s e); [apply IH; exact R|discriminate R].
Qed.

Lemma every_then : forall M undef ok es1 es2 s s1, every M undef ok s (es1 ++ es2) -> sync_run M undef s es1 = Some s1 ->
  every M undef ok s1 es2.
Proof.
  induction es1 as [|e es1 IH]; intros es2 s s1 V R; cbn in *; [injection R as <-; exact V|].
  destruct V as [_ V]. destruct (sync_step M undef s e); [eapply IH; eauto|discriminate R].
Qed.

(** A run over a store all of whose entries have expired empties it and reports nothing. *)
Lemma process_all_expired : forall M undef P s s', mwf (store s) -> Permutation (pOrder P) (store s) ->
  (forall k e, mload (store s) k = Some e -> expired (pTick P k) e = true) ->
  sync_step M undef s (YProcess P true) = Some s' -> dN (yData s') = 0 /\ store s' = [].
Proof.
  intros M undef P s s' W PO X H. cbn [sync_step] in H.
  destruct (Process M P (yData s) true) as [[dt r]| |] eqn:PR; try discriminate H.
  destruct (process_spec _ _ _ _ _ _ PR) as (li & cf & limit & dm & _ & _ & _ & _ & _ & _ & C).
  assert (ST : yData s' = dt) by (destruct r; injection H as <-; reflexivity). unfold store. rewrite ST.
  assert (XO : forall p, In p (pOrder P) -> expired (pTick P (fst p)) (snd p) = true).
  { intros [k e] I. cbn. apply X. apply in_mload; [exact W|]. apply (Permutation_in _ PO I). }
  assert (LV : live_of (pTick P) (pOrder P) = []).
  { unfold live_of. clear - XO. induction (pOrder P) as [|p l IH]; [reflexivity|]. cbn.
    rewrite (XO p (or_introl eq_refl)). cbn. apply IH. intros. apply XO. right. auto. }
  destruct C as [(_ & C)|(C & _)].
  - cbv zeta in C. destruct C as (DM & DN & _). rewrite DN, LV. split; [reflexivity|].
    rewrite DM. assert (FI : filter (fun p => expired (pTick P (fst p)) (snd p)) (pOrder P) = pOrder P).
    { clear - XO. induction (pOrder P) as [|p l IH]; [reflexivity|]. cbn.
      rewrite (XO p (or_introl eq_refl)). f_equal. apply IH. intros. apply XO. right. auto. }
    rewrite FI. destruct (fold_left mdelete (map fst (pOrder P)) (dDBMap (yData s))) as [|[k e] m] eqn:E; [reflexivity|].
    exfalso. assert (ML : mload (fold_left mdelete (map fst (pOrder P)) (dDBMap (yData s))) k = Some e).
    { rewrite E. cbn. rewrite bytes_eqb_refl. reflexivity. }
    rewrite mload_fold_delete in ML. destruct (existsb (fun k' => bytes_eqb k' k) (map fst (pOrder P))) eqn:EX; [discriminate ML|].
    apply mload_in in ML. apply (Permutation_in _ (Permutation_sym PO)) in ML.
    apply (in_map fst) in ML. assert (Y : existsb (fun k' => bytes_eqb k' k) (map fst (pOrder P)) = true).
    { apply existsb_exists. exists k. split; [exact ML|apply bytes_eqb_refl]. }
    rewrite Y in EX. discriminate EX.
  - unfold process_due in C. rewrite Bool.orb_true_r in C. discriminate C.
Qed.

(** C135.  A dataset is being closed and reports data: as long as nobody inserts, the
    hand-over can come to an end exactly if no stored datum is without TTL. *)
Theorem C135_exact : forall M undef s,
  ySenders s = [] -> mwf (store s) -> keyed (store s) -> blen (store s) < M64 ->
  0 < dN (yData s) -> dConfig (yData s) <> None -> dSources (yData s) <> None ->
  ((exists es s', every M undef range_ok s es /\ Forall background es /\
      sync_run M undef s es = Some s' /\ close_loops s' = false) <->
   forall k e, mload (store s) k = Some e -> exprireAt e <> 0%Z).
Proof.
  intros M undef s NS W KD SM POS CF SR. split.
  - intros (es & s' & V & F & R & CL) k e L X.
    assert (J : Jstay k e s []).
    { split; [exact L|]. split; [exact POS|]. split; [exact SM|]. split; [|split; [exact KD|]].
      - split; [exact W|]. split; [|split].
        + intros k' e' L' E. pose proof (KD _ _ L) as H1. pose proof (KD _ _ L') as H2. rewrite E in H2. unfold has_key in *.
          assert (k' = k) by congruence. subst k'. congruence.
        + intros i r N. rewrite NS in N. destruct i; discriminate N.
        + intros i id ok [].
      - intros i r d N. rewrite NS in N. destruct i; discriminate N. }
    destruct (Jstay_run M undef k e es s [] s' X J V F R) as (_ & P & _).
    unfold close_loops in CL. apply N.ltb_ge in CL. lia.
  - intro X. set (t := fold_right (fun p z => Z.max (exprireAt (snd p)) z) 0%Z (store s)).
    set (P := mkPenv 0 0 0 [] (fun _ => None) (store s) (fun _ => t) (fun _ => 0) (fun _ => fzero) 0).
    destruct (sync_step M undef s (YProcess P true)) as [s'|] eqn:E.
    + exists [YProcess P true], s'.
      assert (XX : dN (yData s') = 0 /\ store s' = []).
      { apply (process_all_expired M undef P s s' W); [apply Permutation_refl| |exact E].
        intros k e L. unfold expired. cbn. specialize (X k e L). apply Bool.andb_true_iff. split.
        - apply Bool.negb_true_iff, Z.eqb_neq, X.
        - apply Z.leb_le. apply mload_in in L. unfold t. clear - L.
          induction (store s) as [|p m IH]; [destruct L|]. destruct L as [->|L]; cbn; [lia|]. specialize (IH L). lia. }
      split; [|split; [|split]].
      * cbn [every]. split; [apply Permutation_refl|]. rewrite E. exact Logic.I.
      * repeat constructor.
      * cbn [sync_run]. rewrite E. reflexivity.
      * unfold close_loops. rewrite (proj1 XX). reflexivity.
    + exfalso. cbn [sync_step] in E. unfold Process, GetDataInfo in E. destruct (dConfig (yData s)) as [c|]; [|congruence].
      destruct (dSources (yData s)) as [l|]; [|congruence].
      destruct (DataSourceDiffMap _ _ _ _) as [dm limit]. unfold process_due in E. rewrite Bool.orb_true_r in E.
      destruct (LoopDBMap _ _ _ _ _) as [[m sc] er]. destruct (0 <? dN (yData s)); discriminate E.
Qed.
Print Assumptions C135_exact.

(** It is over at the latest with the first run after the last datum has expired, whatever
    the sources do until then. *)
Theorem C135_latest : forall M undef s es P s', mwf (store s) ->
  every M undef range_ok s (es ++ [YProcess P true]) -> Forall background es ->
  (forall k e, mload (store s) k = Some e -> exprireAt e <> 0%Z /\ (exprireAt e <= pTick P k)%Z) ->
  sync_run M undef s (es ++ [YProcess P true]) = Some s' ->
  close_loops s' = false /\ store s' = [].
Proof.
  intros M undef s es P s' W V F X R. destruct (run_app _ _ _ _ _ _ R) as (s1 & R1 & R2).
  pose proof (every_then _ _ _ _ _ _ _ V R1) as V2. cbn [every] in V2. destruct V2 as [PO _].
  destruct (run_shrinks _ _ _ _ _ F R1) as [_ SH].
  assert (W1 : mwf (store s1)).
  { clear - W F R1. revert s W R1. induction es as [|e es IH]; intros s W R; cbn in R; [injection R as <-; exact W|].
    inversion F; subst. destruct (sync_step M undef s e) as [s2|] eqn:E; [|discriminate R].
    apply (IH H2 s2); [|exact R]. eapply step_wf; eauto. }
  cbn [sync_run] in R2. destruct (sync_step M undef s1 (YProcess P true)) as [s2|] eqn:E; [|discriminate R2].
  injection R2 as <-.
  destruct (process_all_expired M undef P s1 s2 W1 PO) as [A B]; [|exact E|].
  - intros k e L. destruct (X k e (SH k e L)) as [X1 X2]. unfold expired. apply Bool.andb_true_iff. split.
    + apply Bool.negb_true_iff, Z.eqb_neq, X1.
    + apply Z.leb_le, X2.
  - split; [|exact B]. unfold close_loops. rewrite A. reflexivity.
Qed.
Print Assumptions C135_latest.

(** One datum with a TTL: acknowledged by nobody, gone when it has expired; with a second
    one without TTL there is no end. *)
Definition late_run (m : dbmap) (t : Z) : penv :=
  mkPenv 1000 1000 1000 [A1] (fun _ => Some (info_s 0)) m (fun _ => t) (fun _ => 1000) (fun _ => fzero) 0.
Example C135_instance :
  (exists s', sync_run mathlib_ex 0 (s_closed (stock 100000 [1]) 1)
                [YProcess (late_run (stock 100000 [1]) 99999) true; YProcess (late_run (stock 100000 [1]) 100000) true] = Some s' /\
     close_loops s' = false /\ store s' = []) /\
  (exists s', sync_run mathlib_ex 0 (s_closed (stock 100000 [1]) 1)
                [YProcess (late_run (stock 100000 [1]) 99999) true] = Some s' /\ close_loops s' = true) /\
  (exists k e, mload (store (s_closed (stock 100000 [1] ++ stock 0 [2]) 2)) k = Some e /\ exprireAt e = 0%Z) /\
  mwf (store (s_closed (stock 100000 [1] ++ stock 0 [2]) 2)).
Proof.
  split; [eexists; split; [vm_compute; reflexivity|split; reflexivity]|].
  split; [eexists; split; [vm_compute; reflexivity|reflexivity]|].
  split; [exists (keyof (dn 2)), (mkEntry 0 (dn 2)); split; vm_compute; reflexivity|].
  vm_compute. repeat constructor; cbn; intros H; repeat (destruct H as [H|H]; [discriminate H|]); destruct H.
Qed.
