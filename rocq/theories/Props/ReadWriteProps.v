(** C87, C88: what a query finds after an insert. *)
From Verif.Base Require Import GoBase GoLemmas Assoc Float GoSort.
From Verif.Model Require Import Codec Store Data Vector Search Aggregator CallTree Insert.
From Verif.Spec Require Import Wire StoreSpec TopK TreeSpec InsertSpec VectorSpec.
From Verif.Proof Require Import CodecTop StoreP StoreQ SearchP AggP CallTreeP InsertP InsertClusterP VectorP.
From Verif.Props Require Import StoreProps SearchProps InsertProps.
Open Scope N_scope.

(** The query reaches a node with the given store and clock. *)
Inductive visits : calltree -> dbmap -> (bytes -> Z) -> Prop :=
| visits_here m tick order ts : visits (CNode m tick order ts) m tick
| visits_below m tick order ts t m' tick' :
    In t ts -> visits t m' tick' -> visits (CNode m tick order ts) m' tick'.

Lemma visits_reached : forall ex score config q t m tick x,
  visits t m tick -> In x (candidates ex score config q tick m) -> In x (reached ex score config q t).
Proof.
  intros ex score config q t m tick x V I. induction V; cbn [reached]; apply in_or_app.
  - left. exact I.
  - right. apply in_flat_map. eauto.
Qed.
Lemma reached_visits : forall ex score config q t x, In x (reached ex score config q t) ->
  exists m tick, visits t m tick /\ In x (candidates ex score config q tick m).
Proof.
  intros ex score config q. induction t as [m tick order ts IH] using calltree_ind2.
  cbn [reached]. intros x I. apply in_app_or in I. destruct I as [I|I].
  - exists m, tick. split; [constructor|exact I].
  - apply in_flat_map in I. destruct I as (t & T & I). rewrite Forall_forall in IH.
    destruct (IH t T x I) as (m' & tick' & V & J). exists m', tick'. split; [|exact J].
    econstructor; eauto.
Qed.
Lemma visits_wf : forall t m tick, visits t m tick -> tree_wf t -> store_wf m.
Proof.
  intros t m tick V. induction V; intro W; apply tree_wf_children in W; destruct W as (A & _ & B); auto.
  apply IHV. rewrite Forall_forall in B. auto.
Qed.

(** The store's entry for k, if there is one, has not expired when it is looked
    at (C10 says how long that is). *)
Definition live (m : dbmap) (tick : bytes -> Z) (k : DatumKey) : Prop :=
  forall e, mload m (wire_key k) = Some e -> (exprireAt e = 0 \/ tick (wire_key k) < exprireAt e)%Z.

(** C87 A query finds what was inserted: after an acknowledged insert, a query
    that reaches the node while the datum is alive either reports its key with
    its score, or reports as many results as were asked for, none of them worse. *)
Theorem C87_found : forall E fuel w i k v icfg w',
  (2 <= fuel)%nat -> kv_ok k v -> (forall j, slot_fine (dDBMap (nData (wNodes w j))) k) ->
  count_of icfg = 0 ->
  NodeInsert E fuel w i (Some (kv k v)) icfg = (w', None) ->
  forall G M ex config q qv t tick out,
  scHigherIsBetter config = true ->
  1 <= scLimit config < M32 -> scResultLimit config < M63 -> scGroupLimit config = 0 ->
  tree_wf t -> visits t (dDBMap (nData (wNodes w' i))) tick ->
  live (dDBMap (nData (wNodes w' i))) tick k ->
  passes ex config (kv k v) = true ->
  let score := GetVectorComparisonFunction M (scScoreFuncName config) in
  no_nan (reached ex score config q t) ->
  answer G M ex config (mkDatum (Some q) qv) t out ->
  (exists x, In x out /\ skey x = Some k /\ sScore x = score (vec k) (vec q)) \/
  (length out = wanted (scLimit config) (scResultLimit config) /\
   forall x, In x out -> SFltb (sScore x) (score (vec k) (vec q)) = false).
Proof.
  intros E fuel w i k v icfg w' HF K F HC HI G M ex config q qv t tick out Hh HL HR HG W V L P score NN A.
  destruct (node_insert_nodes E fuel w i k v icfg w' None HF K F HC HI) as (_ & X).
  destruct (X eq_refl) as ((e & Le & De) & _). clear X.
  pose proof (C23_call_tree_exact G M ex config q qv t out Hh HL HR HG W NN A) as (_ & D2 & _ & _ & D5).
  assert (I : In (mkScored (score (vec k) (vec q)) (kv k v)) (reached ex score config q t)).
  { eapply visits_reached; [exact V|]. apply candidates_in.
    exists (wire_key k), e, k, (Some v). split; [apply mload_in; exact Le|]. split; [exact De|].
    split; [apply L; exact Le|]. rewrite De. auto. }
  destruct (D5 _ I) as [C|(C1 & C2)].
  - left. apply in_map_iff in C. destruct C as (x & Ex & Ix). cbn in Ex.
    exists x. split; auto. split; [exact Ex|].
    destruct (reached_visits _ _ _ _ _ _ (D2 x Ix)) as (m' & tick' & V' & J).
    apply candidates_in in J. destruct J as (b & e' & k' & v' & _ & De' & _ & _ & ->).
    unfold skey in Ex. cbn in Ex. rewrite De' in Ex. cbn in Ex. injection Ex as ->. reflexivity.
  - right. split; [exact C1|exact C2].
Qed.
Print Assumptions C87_found.

(** C88 A query reports the inserted value: the value reported with the key is
    the one of the insert.  Refuted below; it holds when no node that the query
    reaches holds another value of the key. *)
Theorem C88_value_partial : forall G M ex config q qv t out k v,
  scHigherIsBetter config = true ->
  1 <= scLimit config < M32 -> scResultLimit config < M63 -> scGroupLimit config = 0 ->
  tree_wf t ->
  (forall m tick v', visits t m tick -> holds m k v' -> v' = v) ->
  let score := GetVectorComparisonFunction M (scScoreFuncName config) in
  no_nan (reached ex score config q t) ->
  answer G M ex config (mkDatum (Some q) qv) t out ->
  forall x, In x out -> skey x = Some k -> x = mkScored (score (vec k) (vec q)) (kv k v).
Proof.
  intros G M ex config q qv t out k v Hh HL HR HG W U score NN A x Ix Ex.
  pose proof (C23_call_tree_exact G M ex config q qv t out Hh HL HR HG W NN A) as (_ & D2 & _).
  destruct (reached_visits _ _ _ _ _ _ (D2 x Ix)) as (m & tick & V & J).
  apply candidates_in in J. destruct J as (b & e & k' & v' & Ib & De & _ & _ & ->).
  unfold skey in Ex. cbn in Ex. rewrite De in Ex. cbn in Ex. injection Ex as ->.
  destruct (visits_wf _ _ _ V W) as (WM & WF). destruct (WF b e Ib) as (k2 & v2 & _ & -> & De2).
  rewrite De in De2. injection De2 as <- ->.
  rewrite De. rewrite (U m tick v2 V); auto. exists e. split; auto. apply in_mload; auto.
Qed.
Print Assumptions C88_value_partial.

(** ** The witness: replication 2, the first insert is copied to node 1, the
    second one to node 2; node 1 still has the old value. *)
Definition rw_env : env :=
  mkEnv (fun n => Z.of_nat n) (fun n l => match n with O => l | _ => rev l end) (fun _ => Deliver)
    (fun s => if bytes_eqb s (bs "a:1") then Some 1 else if bytes_eqb s (bs "b:1") then Some 2 else None).
Definition rw_start : world :=
  mkWorld (fun j => if j =? 0 then mkNode true false (dt_ex 0 true 2 [bs "a:1"; bs "b:1"])
                    else mkNode true false (dt_ex 0 true 2 [])) 0 [] false.
Definition rw_world1 : world := fst (NodeInsert rw_env 2 rw_start 0 (Some (kv ka va)) None).
Definition rw_world2 : world := fst (NodeInsert rw_env 2 rw_world1 0 (Some (kv ka vb)) None).
Definition store_of (w : world) (i : N) : dbmap := dDBMap (nData (wNodes w i)).
(** Node 0 is asked and asks node 1 and node 2. *)
Definition leaf (m : dbmap) : calltree := CNode m (fun _ => 100%Z) m [].
Definition rw_tree (w : world) : calltree :=
  CNode (store_of w 0) (fun _ => 100%Z) (store_of w 0) [leaf (store_of w 1); leaf (store_of w 2)].

Lemma rw_acks : snd (NodeInsert rw_env 2 rw_start 0 (Some (kv ka va)) None) = None /\
  snd (NodeInsert rw_env 2 rw_world1 0 (Some (kv ka vb)) None) = None.
Proof. split; vm_compute; reflexivity. Qed.
Lemma rw_stores : map (fun i => map snd (store_of rw_world2 i)) [0; 1; 2] =
  [[mkEntry 0 (kv ka vb)]; [mkEntry 0 (kv ka va)]; [mkEntry 0 (kv ka vb)]].
Proof. vm_compute. reflexivity. Qed.

(** The answer of a node that asks nobody. *)
Lemma leaf_answer : forall m q r out,
  Search insertion_sort any_filter QuickVectorDistance (fun _ => 100%Z) m m (Some q) (cfg1 true 2) = (m, Ok r) ->
  Merge insertion_sort (aggOf mathlib_ex (cfg1 true 2) None) r = Ok r ->
  Merge insertion_sort (aggOf mathlib_ex (cfg1 true 2) None) r = Ok out ->
  answer insertion_sort mathlib_ex any_filter (cfg1 true 2) q (leaf m) out.
Proof.
  intros m q r out S M1 M2.
  apply (answer_node _ _ _ _ _ m (fun _ => 100%Z) m [] m r [] r r r (fun gs => gs)); auto.
  - constructor.
  - cbn. rewrite app_nil_r. auto.
Qed.

Definition old_copy : ScoredDatum := mkScored (QuickVectorDistance (vec ka) (vec kb)) (kv ka va).
Definition new_copy : ScoredDatum := mkScored (QuickVectorDistance (vec ka) (vec kb)) (kv ka vb).

Lemma rw_answer : answer insertion_sort mathlib_ex any_filter (cfg1 true 2) (mkDatum (Some kb) None)
  (rw_tree rw_world2) [old_copy].
Proof.
  assert (S0 : store_of rw_world2 0 = [(wire_key ka, mkEntry 0 (kv ka vb))]) by (vm_compute; reflexivity).
  assert (S1 : store_of rw_world2 1 = [(wire_key ka, mkEntry 0 (kv ka va))]) by (vm_compute; reflexivity).
  assert (S2 : store_of rw_world2 2 = [(wire_key ka, mkEntry 0 (kv ka vb))]) by (vm_compute; reflexivity).
  unfold rw_tree. rewrite S0, S1, S2.
  apply (answer_node _ _ _ _ _ _ (fun _ => 100%Z) _ _ [(wire_key ka, mkEntry 0 (kv ka vb))]
    [new_copy] [[old_copy]; [new_copy]] [old_copy; new_copy; new_copy] [old_copy] [old_copy] (fun gs => gs)).
  - reflexivity.
  - vm_compute. reflexivity.
  - constructor; [apply (leaf_answer _ _ [old_copy]); vm_compute; reflexivity|].
    constructor; [apply (leaf_answer _ _ [new_copy]); vm_compute; reflexivity|]. constructor.
  - cbn. apply perm_swap.
  - vm_compute. reflexivity.
  - auto.
  - auto.
  - vm_compute. reflexivity.
Qed.

Lemma rw_wf : tree_wf (rw_tree rw_world2).
Proof.
  assert (S1 : forall v, kv_ok ka v -> store_wf [ (wire_key ka, mkEntry 0 (kv ka v)) ]).
  { intros v Hv. split; [repeat constructor; cbn; auto|]. intros b e [H|[]]. injection H as <- <-.
    exists ka, v. auto. }
  destruct kva_ok as (A & B & _).
  assert (T0 : store_of rw_world2 0 = [(wire_key ka, mkEntry 0 (kv ka vb))]) by (vm_compute; reflexivity).
  assert (T1 : store_of rw_world2 1 = [(wire_key ka, mkEntry 0 (kv ka va))]) by (vm_compute; reflexivity).
  assert (T2 : store_of rw_world2 2 = [(wire_key ka, mkEntry 0 (kv ka vb))]) by (vm_compute; reflexivity).
  unfold rw_tree. rewrite T0, T1, T2. cbn [tree_wf leaf]. repeat split; auto; apply S1; auto.
Qed.

(** Refuted: node 0 acknowledges (ka, va) and then (ka, vb); asked afterwards, it
    reports the old value, because the copy on node 1 arrives first. *)
Theorem C88_value_refuted :
  exists E w0 w1 w2 k v v' G M ex config q qv out,
    NodeInsert E 2 w0 0 (Some (kv k v)) None = (w1, None) /\
    NodeInsert E 2 w1 0 (Some (kv k v')) None = (w2, None) /\ v <> v' /\
    scHigherIsBetter config = true /\ tree_wf (rw_tree w2) /\
    answer G M ex config (mkDatum (Some q) qv) (rw_tree w2) out /\
    exists x, In x out /\ sDatum x = kv k v.
Proof.
  exists rw_env, rw_start, rw_world1, rw_world2, ka, va, vb, insertion_sort, mathlib_ex, any_filter, (cfg1 true 2), kb, None,
    [old_copy].
  split; [vm_compute; reflexivity|]. split; [vm_compute; reflexivity|]. split; [discriminate|].
  split; [reflexivity|]. split; [|split; [exact rw_answer|exists old_copy; split; [left|]; reflexivity]].
  exact rw_wf.
Qed.
Print Assumptions C88_value_refuted.

Lemma rw_no_nan : no_nan (reached any_filter QuickVectorDistance (cfg1 true 2) kb (rw_tree rw_world2)).
Proof.
  unfold no_nan. apply Forall_forall. intros x Hx. vm_compute in Hx.
  repeat destruct Hx as [<-|Hx]; try reflexivity. destruct Hx.
Qed.

Lemma rw_fine : forall w, store_of w 0 = [(wire_key ka, mkEntry 0 (kv ka va))] ->
  store_of w 1 = [(wire_key ka, mkEntry 0 (kv ka va))] ->
  (forall j, j <> 0 -> j <> 1 -> store_of w j = []) ->
  forall j, slot_fine (dDBMap (nData (wNodes w j))) ka.
Proof.
  intros w A B C j e L. fold (store_of w j) in L. exists va.
  assert (H : store_of w j = [(wire_key ka, mkEntry 0 (kv ka va))] \/ store_of w j = []).
  { destruct (N.eq_dec j 0) as [->|]; auto. destruct (N.eq_dec j 1) as [->|]; auto. }
  destruct H as [H|H]; rewrite H in L; [|discriminate]. cbn [mload] in L.
  rewrite bytes_eqb_refl in L. injection L as <-. split; [apply kva_ok|reflexivity].
Qed.

(** The second insert of the witness: the key is found, with its score. *)
Lemma rw_found : forall w1 w2, NodeInsert rw_env 2 w1 0 (Some (kv ka vb)) None = (w2, None) ->
  (forall j, slot_fine (dDBMap (nData (wNodes w1 j))) ka) ->
  tree_wf (rw_tree w2) -> store_of w2 0 = [(wire_key ka, mkEntry 0 (kv ka vb))] ->
  no_nan (reached any_filter QuickVectorDistance (cfg1 true 2) kb (rw_tree w2)) ->
  answer insertion_sort mathlib_ex any_filter (cfg1 true 2) (mkDatum (Some kb) None) (rw_tree w2) [old_copy] ->
  exists x, In x [old_copy] /\ skey x = Some ka /\ sScore x = QuickVectorDistance (vec ka) (vec kb).
Proof.
  intros w1 w2 HI F W T0 NN A.
  destruct (C87_found rw_env 2 w1 0 ka vb None w2 (le_n 2)) with
    (G := insertion_sort) (M := mathlib_ex) (ex := any_filter) (config := cfg1 true 2) (q := kb) (qv := @None DatumValue)
    (t := rw_tree w2) (tick := fun _ : bytes => 100%Z) (out := [old_copy]) as [H|[H _]]; auto.
  - apply kva_ok.
  - cbn. unfold M32. lia.
  - cbn. unfold M63. lia.
  - constructor.
  - fold (store_of w2 0). rewrite T0. intros e L. cbn [mload] in L. rewrite bytes_eqb_refl in L.
    injection L as <-. left. reflexivity.
  - discriminate.
Qed.
Example C87_instance :
  (exists w1 w2, NodeInsert rw_env 2 w1 0 (Some (kv ka vb)) None = (w2, None) /\
   (forall j, slot_fine (dDBMap (nData (wNodes w1 j))) ka) /\ tree_wf (rw_tree w2) /\
   answer insertion_sort mathlib_ex any_filter (cfg1 true 2) (mkDatum (Some kb) None) (rw_tree w2) [old_copy]) /\
  exists x, In x [old_copy] /\ skey x = Some ka /\ sScore x = QuickVectorDistance (vec ka) (vec kb).
Proof.
  assert (I : NodeInsert rw_env 2 rw_world1 0 (Some (kv ka vb)) None = (rw_world2, None)).
  { unfold rw_world2. destruct rw_acks as (_ & <-). apply surjective_pairing. }
  assert (F : forall j, slot_fine (dDBMap (nData (wNodes rw_world1 j))) ka).
  { apply rw_fine; try (vm_compute; reflexivity).
    intros j J0 J1. destruct j as [|[p|p|]]; try congruence; reflexivity. }
  split.
  - exists rw_world1, rw_world2. split; [exact I|]. split; [exact F|]. split; [exact rw_wf|exact rw_answer].
  - apply (rw_found rw_world1 rw_world2 I F rw_wf); [vm_compute; reflexivity|exact rw_no_nan|exact rw_answer].
Qed.

(** After the first insert alone every reached node has the value or nothing. *)
Example C88_instance :
  tree_wf (rw_tree rw_world1) /\
  (forall m tick v', visits (rw_tree rw_world1) m tick -> holds m ka v' -> v' = va) /\
  answer insertion_sort mathlib_ex any_filter (cfg1 true 2) (mkDatum (Some kb) None) (rw_tree rw_world1) [old_copy].
Proof.
  assert (S1 : forall v, kv_ok ka v -> store_wf [ (wire_key ka, mkEntry 0 (kv ka v)) ]).
  { intros v Hv. split; [repeat constructor; cbn; auto|]. intros b e [H|[]]. injection H as <- <-.
    exists ka, v. auto. }
  destruct kva_ok as (A & B & _).
  assert (T0 : store_of rw_world1 0 = [(wire_key ka, mkEntry 0 (kv ka va))]) by (vm_compute; reflexivity).
  assert (T1 : store_of rw_world1 1 = [(wire_key ka, mkEntry 0 (kv ka va))]) by (vm_compute; reflexivity).
  assert (T2 : store_of rw_world1 2 = []) by (vm_compute; reflexivity).
  unfold rw_tree. rewrite T0, T1, T2. split; [|split].
  - cbn [tree_wf leaf]. repeat split; auto; try (apply S1; auto).
    + constructor.
    + intros b e [].
  - assert (H1 : forall v', holds [(wire_key ka, mkEntry 0 (kv ka va))] ka v' -> v' = va).
    { intros v' (e & L & D). cbn [mload] in L. rewrite bytes_eqb_refl in L. injection L as <-.
      injection D as <-. reflexivity. }
    assert (HL : forall m m' tick v', (forall v', holds m ka v' -> v' = va) -> visits (leaf m) m' tick -> holds m' ka v' -> v' = va).
    { intros m m' tick v' Hm V Hv. inversion V; subst; [auto|]. match goal with I : In _ [] |- _ => destruct I end. }
    intros m tick v' V Hv. inversion V as [|? ? ? ? t ? ? I V']; subst; [auto|].
    assert (H0 : forall v', holds [] ka v' -> v' = va) by (intros v2 (e & L & _); discriminate).
    destruct I as [<-|[<-|[]]]; [exact (HL _ _ _ v' H1 V' Hv)|exact (HL _ _ _ v' H0 V' Hv)].
  - apply (answer_node _ _ _ _ _ _ (fun _ => 100%Z) _ _ [(wire_key ka, mkEntry 0 (kv ka va))]
      [old_copy] [[old_copy]; []] [old_copy; old_copy] [old_copy] [old_copy] (fun gs => gs)).
    + reflexivity.
    + vm_compute. reflexivity.
    + constructor; [apply (leaf_answer _ _ [old_copy]); vm_compute; reflexivity|].
      constructor; [apply (leaf_answer _ _ []); vm_compute; reflexivity|]. constructor.
    + auto.
    + vm_compute. reflexivity.
    + auto.
    + auto.
    + vm_compute. reflexivity.
Qed.
