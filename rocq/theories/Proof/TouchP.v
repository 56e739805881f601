(** How many nodes an insert can change. *)
From Verif.Base Require Import GoBase GoLemmas Assoc Float.
From Verif.Model Require Import Codec Store Data Insert.
From Verif.Spec Require Import Wire StoreSpec InsertSpec.
From Verif.Proof Require Import CodecP CodecTop StoreP StoreQ InsertP InsertClusterP.
From Coq Require Import Lia.
Open Scope N_scope.

(** All nodes but these are as before. *)
Definition same_but (T : list N) (w w' : world) : Prop := forall j, ~ In j T -> wNodes w' j = wNodes w j.

Lemma loop_touched : forall E fuel dc cfg k v, Count cfg <> 0 -> kv_ok k v ->
  let f := (fun '(w, counter) source =>
            let '(w, e) := remote E fuel w source (Some (kv k v)) cfg in
            let counter := match e with
                           | None => u32 (counter + 1)
                           | Some _ => counter
                           end in
            ((w, counter),
             if cReplicationOnInsert dc <=? counter then Some errReached else None)) in
  forall items limit w c w' c' e, (-1 <= limit)%Z -> all_fine w k ->
  RunOnRandomSources limit items f (w, c) = ((w', c'), e) ->
  exists T, (length T <= Z.to_nat (limit + 1))%nat /\ same_but T w w'.
Proof.
  intros E fuel dc cfg k v HC K f. induction items as [|id items IH]; intros limit w c w' c' e LI F H.
  - cbn in H. injection H as <- <- <-. exists []. split; [cbn; lia|]. intros j _. reflexivity.
  - cbn [RunOnRandomSources] in H. destruct (limit <? 0)%Z eqn:LN.
    { injection H as <- <- <-. exists []. split; [cbn; lia|]. intros j _. reflexivity. }
    apply Z.ltb_ge in LN.
    destruct (f (w, c) id) as [[w1 c1] oe] eqn:B. unfold f in B.
    destruct (remote E fuel w id (Some (kv k v)) cfg) as [w2 e2] eqn:SE.
    destruct (remote_nodes _ _ _ _ _ _ _ _ _ HC K F SE) as (G & O & _). injection B as -> <- <-.
    set (here := match eResolve E id with Some j => [j] | None => [] end).
    assert (SH : same_but here w w1).
    { intros j J. apply O. intro X. apply J. unfold here. rewrite X. left. reflexivity. }
    assert (LH : (length here <= 1)%nat) by (unfold here; destruct (eResolve E id); cbn; lia).
    destruct (cReplicationOnInsert dc <=? _).
    + injection H as <- <- <-. exists here. split; [lia|exact SH].
    + assert (F1 : all_fine w1 k) by (destruct G as (_ & _ & _ & _ & G5); auto).
      destruct (IH (limit - 1)%Z _ _ _ _ _ ltac:(lia) F1 H) as (T & LT & ST). exists (here ++ T). split.
      * rewrite app_length. lia.
      * intros j J. rewrite ST, SH; [reflexivity| |]; intro X; apply J, in_or_app; auto.
Qed.

(** An original insert changes at most seven nodes: its own and six others. *)
Lemma insert_touches : forall E fuel w i k v config w' e,
  (2 <= fuel)%nat -> kv_ok k v -> all_fine w k -> count_of config = 0 ->
  NodeInsert E fuel w i (Some (kv k v)) config = (w', e) ->
  exists T, (length T <= 7)%nat /\ same_but T w w'.
Proof.
  intros E fuel w i k v config w' e HF K F HC H.
  destruct fuel as [|[|fuel]]; [lia|lia|].
  change (NodeInsert E (S (S fuel)) w i (Some (kv k v)) config) with
   (let n := wNodes w i in
      if negb (nRunning n) then (w, Some errLink)
      else if nDrain n then (w, Some errDrain)
      else
        let w := log_exec w i (match config with Some c => Count c | None => 0 end) in
        let now := eNow E (wStep w) in
        match InsertLocal now (nData n) (Some (kv k v)) config with
        | Panic | Err _ => (set_node w i (mkNode false (nDrain n) (nData n)), Some errLink)
        | Ok (dt', Some e) => (set_node w i (mkNode true (nDrain n) dt'), Some e)
        | Ok (dt', None) =>
            let items := eOrder E (wStep w)
                           (match dSources dt' with Some l => l | None => [] end) in
            let w := next_step (set_node w i (mkNode true (nDrain n) dt')) in
            match Replicate (remote E fuel) items w (dConfig dt') (Some (kv k v)) config
            with
            | Ok r => (rW r, rErr r)
            | Panic | Err _ =>
                (set_node w i (mkNode false (nDrain n) (nData n)), Some errLink)
            end
        end) in H.
  cbv zeta in H.
  assert (NO : exists T, (length T <= 7)%nat /\ same_but T w w) by (exists []; split; [cbn; lia|intros j _; reflexivity]).
  destruct (nRunning (wNodes w i)) eqn:RN; cbn [negb] in H; [|injection H as <- <-; exact NO].
  destruct (nDrain (wNodes w i)) eqn:DR; [injection H as <- <-; exact NO|].
  set (w1 := log_exec w i _) in *.
  assert (ME : forall n, same_but [i] w (set_node w1 i n)).
  { intros n j J. cbn. destruct (N.eqb_spec j i) as [->|_]; [|reflexivity]. exfalso. apply J. left. reflexivity. }
  assert (ONE : forall n, exists T, (length T <= 7)%nat /\ same_but T w (set_node w1 i n))
    by (intro n; exists [i]; split; [cbn; lia|apply ME]).
  destruct (InsertLocal _ _ _ _) as [[dt' [er|]]|er|] eqn:IL; try (injection H as <- <-; apply ONE).
  destruct (local_keeps _ _ _ _ _ _ _ K (F i) IL) as [(_ & HH & CC)|[X _]]; [|congruence].
  set (w2 := next_step (set_node w1 i (mkNode true false dt'))) in *.
  assert (M2 : same_but [i] w w2) by exact (ME (mkNode true false dt')).
  assert (F2 : all_fine w2 k).
  { intros j. unfold w2, w1. cbn. destruct (N.eqb_spec j i) as [->|_]; [eapply holds_fine; eauto|apply F]. }
  destruct (dConfig dt') as [dc|] eqn:DC.
  2: { cbn [Replicate] in H. injection H as <- <-. exists [i]. split; [cbn; lia|].
       intros j J. cbn. destruct (N.eqb_spec j i) as [->|NE]; [exfalso; apply J; left; reflexivity|].
       destruct (N.eqb_spec j i); [contradiction|reflexivity]. }
  unfold Replicate in H.
  assert (CZ : (Count match config with Some c => c | None => mkInsertConfig 0 0 end =? 0) = true).
  { apply N.eqb_eq. destruct config; exact HC. }
  rewrite CZ, andb_true_r in H.
  destruct (cEnforceReplicationOnInsert dc) eqn:EN.
  2: { injection H as <- <-. cbn [rW]. exists [i]. split; [cbn; lia|exact M2]. }
  destruct (RunOnRandomSources _ _ _ _) as [[w3 c3] e3] eqn:RR in H.
  apply (loop_touched E fuel dc) in RR; auto; [|cbn [Count]; apply N.eqb_eq in CZ; rewrite CZ; vm_compute; discriminate|lia].
  destruct RR as (T & LT & ST). change (Z.to_nat (5 + 1)) with 6%nat in LT.
  assert (X : exists T, (length T <= 7)%nat /\ same_but T w w3).
  { exists (i :: T). split; [cbn [length]; lia|]. intros j J.
    rewrite ST, M2; [reflexivity| |]; intro Y; apply J; [destruct Y as [<-|[]]; left; reflexivity|right; exact Y]. }
  destruct (c3 <? cReplicationOnInsert dc); injection H as <- <-; exact X.
Qed.
