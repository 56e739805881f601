(** C113, C114: requests about one dataset and the others. *)
From Verif.Base Require Import GoBase GoLemmas Assoc Float GoSort.
From Verif.Model Require Import Codec Store Data Insert Vector Search Dataset Json Index DatasetAll Aggregator CallTree QueryCache SearchStream Requests.
From Verif.Spec Require Import RegistrySpec IsolationSpec.
From Verif.Proof Require Import VectorP FloatLibP DatasetP IsolationP.
From Verif.Props Require Import QueryProps AnswerProps.
From Coq Require Import Lia.
Open Scope N_scope.

(** C113 Datasets are isolated: whatever the requests about other datasets are, and
    however they are mixed with those about x, the answers to the requests about x
    and the dataset x itself are those of a node that only gets the requests about
    x.  The full statement has no hypothesis about uuids:

      forall x es n outs, nrun nstart es = Ok (n, outs) ->
        exists n' outs', nrun nstart (about x es) = Ok (n', outs') /\
          map snd outs' = answers_about x outs /\ view x (nsReg n') = view x (nsReg n)

    It is false: uuids of searches are remembered for all datasets together. *)
Definition in_env (dt : Data) : searchEnv :=
  mkEnv insertion_sort mathlib_ex ex_all (dDBMap dt) (fun _ _ => 5%Z) (fun _ => dDBMap dt)
    (fun _ => None) (fun _ => []) (fun l => l) (fun gs => gs).
Definition ask (name uid : bytes) : SearchRequest :=
  mkSearchRequest [mkDatum (Some qk) None]
    (Some (mkSearchConfig (bs "QuickVectorDistance") false 0 1000 5 0 name 0 [] [] 5 [] uid)) None.
Definition put (now : Z) (name : bytes) (d : Datum) : nevent :=
  QInsert now name (fun _ => []) (fun _ => None) (Some d) None.
Definition find (now : Z) (name uid : bytes) : nevent := QSearch now (ask name uid) in_env (fun dt => dt).
Definition add (now d old : Z) : Z := (old + d)%Z.
Definition same (dt : Data) : Data := dt.

Theorem C113_uuid_refuted : exists x es es' n outs n' outs',
  nrun simple_lib add same nstart es = Ok (n, outs) /\ nrun simple_lib add same nstart es' = Ok (n', outs') /\
  about x es = about x es' /\ answers_about x outs <> answers_about x outs'.
Proof.
  exists (bs "a"), [put 1 (bs "a") d0; find 2 (bs "a") (bs "u")],
    [put 1 (bs "a") d0; find 2 (bs "b") (bs "u"); find 2 (bs "a") (bs "u")].
  assert (X : match nrun simple_lib add same nstart [put 1 (bs "a") d0; find 2 (bs "a") (bs "u")],
                nrun simple_lib add same nstart [put 1 (bs "a") d0; find 2 (bs "b") (bs "u"); find 2 (bs "a") (bs "u")] with
              | Ok (_, o), Ok (_, o') =>
                  answers_about (bs "a") o = [RDone; RResults [mkScored fzero d0]] /\ answers_about (bs "a") o' = [RDone; RResults []]
              | _, _ => False end).
  { vm_compute. split; reflexivity. }
  destruct (nrun simple_lib add same nstart [put 1 (bs "a") d0; find 2 (bs "a") (bs "u")]) as [[n o]| |]; try contradiction.
  destruct (nrun simple_lib add same nstart [put 1 (bs "a") d0; find 2 (bs "b") (bs "u"); find 2 (bs "a") (bs "u")]) as [[n' o']| |];
    try contradiction.
  destruct X as [X1 X2]. exists n, o, n', o'. split; auto. split; auto. split; [reflexivity|].
  rewrite X1, X2. discriminate.
Qed.
Print Assumptions C113_uuid_refuted.

(** It holds if no uuid of a search of x is used to search another dataset. *)
Theorem C113_isolated_partial : forall L inc closed x es n outs,
  keeps_config closed -> own_uuids x es -> nrun L inc closed nstart es = Ok (n, outs) ->
  exists n' outs', nrun L inc closed nstart (about x es) = Ok (n', outs') /\
    map snd outs' = answers_about x outs /\ view x (nsReg n') = view x (nsReg n).
Proof.
  intros L inc closed x es n outs K O E.
  set (Q := fun u => exists e, In e es /\ uuid_of e = Some (x, u)).
  destruct (run_alike L inc closed K x Q es nstart nstart n outs) as (m & o & A & B & C).
  - split; [apply start_inv|]. split; [apply start_inv|]. auto.
  - intros e In_ y u U. split.
    + intros ->. exists e. auto.
    + intros (e' & In' & U'). eapply (O e' e u y); eauto.
  - exact E.
  - destruct C as (_ & _ & _ & V & _). exists m, o. auto.
Qed.
Print Assumptions C113_isolated_partial.

(** Two clients' views: histories that agree about x give the same answers about x. *)
Theorem C113_same_answers_partial : forall L inc closed x es es' n n' outs outs',
  keeps_config closed -> own_uuids x es -> own_uuids x es' -> about x es = about x es' ->
  nrun L inc closed nstart es = Ok (n, outs) -> nrun L inc closed nstart es' = Ok (n', outs') ->
  answers_about x outs = answers_about x outs' /\ view x (nsReg n) = view x (nsReg n').
Proof.
  intros L inc closed x es es' n n' outs outs' K O O' A E E'.
  destruct (C113_isolated_partial _ _ _ _ _ _ _ K O E) as (m & o & M1 & M2 & M3).
  destruct (C113_isolated_partial _ _ _ _ _ _ _ K O' E') as (m' & o' & M1' & M2' & M3').
  rewrite A, M1' in M1. injection M1 as <- <-. split; congruence.
Qed.
Print Assumptions C113_same_answers_partial.

(** Two datasets in use at the same time; one is removed, checked, saved. *)
Definition mixed : list nevent :=
  [QCreate 1 (mkDataConfig (bs "a") 3 9 fzero true 1 false 0); put 2 (bs "b") d1; put 3 (bs "a") d0;
   BTask (bs "b") (fun dt => set_map dt []); find 4 (bs "a") (bs "u1"); find 5 (bs "b") (bs "u2");
   BSave 6 [bs "b"; bs "a"]; BReload 7 (fun _ => None) [bs "b"]; find 8 (bs "b") (bs "u3"); BForget 9 (bs "u2");
   QStream 10 (bs "a") (fun _ => 10%Z) (fun m => m); BDelete 11 (bs "b"); QInfo 12 (bs "a"); QInfo 13 (bs "b");
   BClose 14 [bs "a"; bs "b"] [bs "b"; bs "a"]; put 15 (bs "b") d0; put 16 (bs "a") d1].

Example C113_instance : keeps_config same /\ own_uuids (bs "a") mixed /\
  match nrun simple_lib add same nstart mixed with
  | Ok (_, outs) => length outs = 11%nat /\
      match answers_about (bs "a") outs with
      | [RInfo _; RDone; RResults [r]; RData [d]; RInfo i; RFail e] => sDatum r = d0 /\ d = d0 /\ iVersion i = 3 /\ e = errDrain
      | _ => False
      end
  | _ => False
  end.
Proof.
  split; [intro; reflexivity|]. split.
  - intros e e' u y I I' U U'. unfold mixed in I, I'. cbn [In] in I, I'.
    repeat (destruct I as [I|I]; [subst e; cbn in U; try discriminate U|]); [|destruct I].
    injection U as <-.
    repeat (destruct I' as [I'|I']; [subst e'; cbn in U'; try discriminate U'; injection U' as <-; reflexivity|]). destruct I'.
  - vm_compute. repeat split.
Qed.

(** C114 Exactly which requests create a dataset: if the dataset x cannot be found,
    it is created by an insert (unless the node drains), by a request for its
    information or its data - with the default configuration - and by a creation
    with the given one; a search, a request about another dataset and the node's own
    housekeeping do not create it. *)
Theorem C114_creation : forall L inc closed x es n outs e n' o now,
  keeps_config closed -> nrun L inc closed nstart es = Ok (n, outs) ->
  nstep L inc closed n e = Ok (n', o) -> (forall t, nevent_time e = Some t -> t = now) ->
  visits_registered (nsReg n) e -> ~ there now x (nsReg n) ->
  match made_by x (nsDrain n) e with
  | Some c => exists dt ex, view x (nsReg n') = Some (dt, ex) /\ dConfig dt = Some c
  | None => ~ there now x (nsReg n')
  end.
Proof.
  intros L inc closed x es n outs e n' o now K E S T V N.
  pose proof (run_inv L inc closed K es nstart n outs start_inv E) as I.
  assert (G : dl_get now (nsReg n) x = None).
  { destruct (dl_get now (nsReg n) x) eqn:G; auto. destruct N. apply there_iff; auto. congruence. }
  pose proof (step_makes L inc closed K x n e n' o now I S T V G) as H.
  destruct (made_by x (nsDrain n) e); auto. intro Th. apply there_iff in Th; auto.
  apply (step_view L inc closed K x n e n' o I S).
Qed.
Print Assumptions C114_creation.

(** So polling a dataset that was removed brings it back, empty. *)
Example C114_instance :
  match nrun simple_lib add same nstart [put 1 (bs "a") d0; BDelete 2 (bs "a")] with
  | Ok (n, _) =>
      view (bs "a") (nsReg n) = None /\ made_by (bs "a") (nsDrain n) (QInfo 3 (bs "a")) = Some (GetDefaultConfig (bs "a")) /\
      match nstep simple_lib add same n (QInfo 3 (bs "a")) with
      | Ok (n', Some (_, RInfo i)) => iN i = 0 /\ view (bs "a") (nsReg n') <> None
      | _ => False
      end /\
      match nstep simple_lib add same n (find 3 (bs "a") (bs "u")) with
      | Ok (n', Some (_, RFail e)) => e = errNoDataset /\ view (bs "a") (nsReg n') = None
      | _ => False
      end
  | _ => False
  end.
Proof. vm_compute. repeat split. discriminate. Qed.
