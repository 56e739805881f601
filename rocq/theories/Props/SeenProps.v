(** C172: how many identifiers of queries a node remembers. *)
From Verif.Base Require Import GoBase GoLemmas Assoc Float GoSort.
From Verif.Model Require Import Codec Store Data Insert Vector Search Dataset Json Index DatasetAll Aggregator CallTree QueryCache SearchStream Requests.
From Verif.Spec Require Import Wire StoreSpec InsertSpec RegistrySpec IsolationSpec RequestSpec SeenSpec.
From Verif.Proof Require Import VectorP FloatLibP DatasetP IsolationP RequestP.
From Verif.Props Require Import QueryProps AnswerProps IsolationProps RequestProps.
From Coq Require Import Lia.
Open Scope N_scope.

(** Every remembered identifier expires five minutes after a search with it. *)
Definition seen_from (P : nevent -> Prop) (n : nstate) : Prop :=
  mwf (nsSeen n) /\ forall uid x, mload (nsSeen n) uid = Some x ->
  exists now rq env aft, P (QSearch now rq env aft) /\ request_uuid rq = uid /\ uid <> [] /\ x = (now + 300000000000)%Z.

Lemma seen_step : forall L inc closed (P : nevent -> Prop) n e n' o, P e -> seen_from P n -> nstep L inc closed n e = Ok (n', o) -> seen_from P n'.
Proof.
  intros L inc closed P n e n' o PE (W & A) E.
  assert (SAME : nsSeen n' = nsSeen n -> seen_from P n') by (intro Q; unfold seen_from; rewrite Q; split; assumption).
  destruct e as [now k items answers d c|now k|now k tick order|now rq env aft|now c|k f|now k|now v|now k|now names|now names|now info names|now l1 l2];
    cbn [nstep] in E;
    try (match type of E with bind ?X _ = _ => destruct X as [y| |]; try discriminate; try destruct y; cbn [bind] in E; injection E as <- <-; apply SAME; reflexivity end).
  - destruct (nsDrain n); [injection E as <- <-; apply SAME; reflexivity|].
    match type of E with bind ?X _ = _ => destruct X as [y| |]; try discriminate; try destruct y; cbn [bind] in E; injection E as <- <-; apply SAME; reflexivity end.
  - destruct (srConfig rq) as [c|] eqn:C; [|discriminate].
    destruct (match scUuid c with [] => false | _ => _ end) eqn:KN; [injection E as <- <-; apply SAME; reflexivity|].
    assert (NEW : nsSeen n' = match scUuid c with [] => nsSeen n | _ => mstore (nsSeen n) (scUuid c) (now + uuid_life)%Z end).
    { destruct (GetNoCreate now (nsReg n) (scDataName c)) as [ob|]; [|injection E as <- <-; reflexivity].
      destruct (on_object (nsReg n) ob _) as [[s r]| |]; try discriminate. cbn [bind] in E. injection E as <- <-. reflexivity. }
    destruct (scUuid c) as [|b u0] eqn:U; [apply SAME; exact NEW|]. unfold seen_from. rewrite NEW. split; [apply mstore_wf, W|].
    intros uid x. rewrite mload_mstore. destruct (bytes_eqb (b :: u0) uid) eqn:B; [|apply A].
    apply bytes_eqb_spec in B. subst uid. intro Q. injection Q as <-. exists now, rq, env, aft. split; [exact PE|].
    unfold request_uuid. rewrite C. split; [exact U|]. split; [discriminate|reflexivity].
  - injection E as <- <-. unfold seen_from. cbn [nsSeen]. destruct (uuid_there now (nsSeen n) v); [split; assumption|].
    split; [apply mdelete_wf, W|]. intros uid x. rewrite mload_mdelete. destruct (bytes_eqb v uid); [discriminate|apply A].
Qed.

Lemma seen_run : forall L inc closed (P : nevent -> Prop) es n n' outs, (forall e, In e es -> P e) -> seen_from P n ->
  nrun L inc closed n es = Ok (n', outs) -> seen_from P n'.
Proof.
  intros L inc closed P. induction es as [|e es IH]; intros n n' outs PE S0 R; cbn [nrun] in R.
  - injection R as <- <-. exact S0.
  - destruct (nstep L inc closed n e) as [[n1 o]| |] eqn:E; try discriminate R. cbn [bind] in R.
    destruct (nrun L inc closed n1 es) as [[n2 o2]| |] eqn:R2; try discriminate R. cbn [bind] in R. injection R as <- <-.
    eapply IH; [intros; apply PE; right; assumption| |exact R2]. eapply seen_step; [apply PE; left; reflexivity|exact S0|exact E].
Qed.

(** C172 After the janitor has been through at the time p, a node remembers at most as many
    identifiers as there have been searches with an identifier since five minutes before p -
    however many searches there were before, and whatever else the node has been asked. *)
Theorem C172_memory : forall L inc closed es1 p n outs1 es2 n' outs2,
  nrun L inc closed nstart es1 = Ok (n, outs1) -> forgotten_until p n -> Forall (searches_from p) es2 ->
  nrun L inc closed n es2 = Ok (n', outs2) ->
  (length (nsSeen n') <= length (filter (search_since (p - 300000000000)) (es1 ++ es2)))%nat.
Proof.
  intros L inc closed es1 p n outs1 es2 n' outs2 R1 FO SF R2.
  assert (S1 : seen_from (fun e => In e es1) n).
  { eapply seen_run; [intros e X; exact X| |exact R1]. split; [constructor|intros uid x Q; discriminate Q]. }
  destruct S1 as (W & A).
  assert (S2 : seen_from (fun e => In e (es1 ++ es2) /\ searches_from (p - 300000000000) e) n').
  { eapply seen_run; [| |exact R2].
    - intros e IN. split; [apply in_or_app; right; exact IN|]. rewrite Forall_forall in SF. pose proof (SF e IN).
      destruct e; cbn in *; try exact Logic.I; lia.
    - split; [exact W|]. intros uid x Q. destruct (A uid x Q) as (now & rq & env & aft & IN & U & NU & X).
      exists now, rq, env, aft. split; [|auto]. split; [apply in_or_app; left; exact IN|]. cbn.
      pose proof (FO uid x (mload_in _ _ _ Q)). lia. }
  destruct S2 as (W' & A').
  replace (length (nsSeen n')) with (length (mkeys (nsSeen n'))) by (unfold mkeys; apply map_length).
  rewrite <- (map_length (fun e => match e with QSearch _ rq _ _ => request_uuid rq | _ => [] end)).
  apply NoDup_incl_length; [exact W'|]. intros uid IN.
  destruct (mload (nsSeen n') uid) as [x|] eqn:Q; [|apply mload_none in Q; contradiction].
  destruct (A' uid x Q) as (now & rq & env & aft & (IN2 & SF2) & U & NU & _). apply in_map_iff.
  exists (QSearch now rq env aft). split; [exact U|]. apply filter_In. split; [exact IN2|]. cbn in SF2 |- *.
  rewrite U. apply Bool.andb_true_iff. split; [|apply Z.leb_le; exact SF2].
  destruct uid; [contradiction|reflexivity].
Qed.
Print Assumptions C172_memory.

(** Three searches, one identifier cleaned up at second 400, one more search: two of the four
    searches are recent, and two identifiers are remembered. *)
Definition asked_early : list nevent :=
  [put (sec 10) (bs "a") d1; find (sec 22) (bs "a") (bs "u1"); find (sec 200) (bs "a") (bs "u2"); find (sec 210) (bs "a") []; BForget (sec 400) (bs "u1")].
Definition asked_late : list nevent := [find (sec 401) (bs "a") (bs "u3")].

Example C172_instance : exists n outs n' outs',
  nrun simple_lib never same nstart asked_early = Ok (n, outs) /\ forgotten_until (sec 400) n /\
  Forall (searches_from (sec 400)) asked_late /\ nrun simple_lib never same n asked_late = Ok (n', outs') /\
  length (nsSeen n') = 2%nat /\ length (filter (search_since (sec 400 - 300000000000)) (asked_early ++ asked_late)) = 2%nat.
Proof.
  assert (E0 : forall (x : res (nstate * list (bytes * response))), (exists n o, x = Ok (n, o)) \/ (forall n o, x <> Ok (n, o))).
  { intros [[n o]|e|]; [left; eauto|right; discriminate|right; discriminate]. }
  destruct (E0 (nrun simple_lib never same nstart asked_early)) as [(n & outs & R)|R].
  2: { exfalso. vm_compute in R. eapply R. reflexivity. }
  destruct (E0 (nrun simple_lib never same n asked_late)) as [(n' & outs' & R2)|R2].
  2: { exfalso. pose proof R as Q. vm_compute in Q. injection Q as <- <-. vm_compute in R2. eapply R2. reflexivity. }
  exists n, outs, n', outs'. split; [exact R|]. split.
  { vm_compute in R. injection R as <- _. intros uid x [H|[]]. injection H as _ <-. vm_compute. discriminate. }
  split; [constructor; [vm_compute; discriminate|constructor]|]. split; [exact R2|].
  vm_compute in R. injection R as <- _. vm_compute in R2. injection R2 as <- _. split; reflexivity.
Qed.
