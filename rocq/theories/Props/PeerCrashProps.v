(** C158: exactly when a message about a peer crashes a node. *)
From Verif.Base Require Import GoBase GoLemmas Assoc GoSort.
From Verif.Model Require Import Codec Store Data Insert Dataset Node.
From Verif.Spec Require Import NodeSpec.
From Verif.Proof Require Import SyncP NodeP.
From Verif.Props Require Import NodeProps.
From Coq Require Import Lia.
Open Scope N_scope.

(** No addresses, or a single empty one. *)
Definition nameless (l : list bytes) : Prop := l = [] \/ l = [[]].
(** A time after the first five minutes of 1970. *)
Definition modern (e : pev) : Prop :=
  match e with PStep now _ => (300 <= seconds now < 18446744073709551616)%Z | _ => True end.
(** A record without addresses is listed and has not expired. *)
Definition lists_nameless (now : Z) (n : nstate) : Prop :=
  exists it, mload (nPeers n) [] = Some it /\ peer_live now it = true.

Lemma join_nameless : forall c l, join c l = [] <-> nameless l.
Proof.
  intros c [|a [|b l]]; cbn [join]; unfold nameless; split; intro H; try discriminate; auto.
  - subst a. auto.
  - destruct H as [H|H]; [discriminate|]. injection H as ->. reflexivity.
  - destruct a; discriminate H.
  - destruct H as [H|H]; discriminate H.
Qed.
Lemma perm_nameless : forall l l', Permutation l l' -> nameless l -> nameless l'.
Proof.
  intros l l' P [->| ->]; [left; apply Permutation_nil; exact P|right].
  apply Permutation_length_1_inv. exact P.
Qed.
Lemma serial_nameless : forall G l, snd (SerializeStringArray G l) = [] <-> nameless l.
Proof.
  intros G l. cbn [SerializeStringArray snd]. rewrite join_nameless. pose proof (sort_perm G _ string_less l) as P.
  split; apply perm_nameless; [apply Permutation_sym|]; exact P.
Qed.
Lemma nil_id : forall G, GetIdOfPeer G None = [].
Proof. intro G. apply serial_nameless. left. reflexivity. Qed.
Lemma nil_similar : forall G n, isPeerSimilarToNode G n None = true <-> nameless (own_addresses n).
Proof.
  intros G n. unfold isPeerSimilarToNode. rewrite bytes_eqb_spec, nil_id. apply serial_nameless.
Qed.
Lemma not_1970 : forall now, (300 <= seconds now < 18446744073709551616)%Z -> IsRecent now 0 = false.
Proof.
  intros now H. unfold IsRecent, getCurrentTime. apply N.ltb_ge. fold (seconds now). rewrite Z.mod_small by lia.
  change (u64 (0 + 300)) with 300. lia.
Qed.

Lemma step_crash : forall G inc s e, modern e ->
  (pstep G inc s e = Panic <->
   exists now i, e = PStep now i /\ nth_error (psThreads s) i = Some (AStart None) /\
     ~ nameless (own_addresses (psNode s)) /\ lists_nameless now (psNode s)).
Proof.
  intros G inc s e MD. destruct e as [p|a|now k|now p|now]; try (cbn; split; [discriminate|intros (? & ? & X & _); discriminate X]).
  cbn [pstep modern] in *. destruct (nth_error (psThreads s) k) as [pc|] eqn:N.
  2:{ split; [discriminate|]. intros (now' & i & X & Y & _). injection X as <- <-. congruence. }
  assert (NOT : pc <> AStart None -> ~ exists now' i, PStep now k = PStep now' i /\ nth_error (psThreads s) i = Some (AStart None) /\
     ~ nameless (own_addresses (psNode s)) /\ lists_nameless now' (psNode s)).
  { intros X (now' & i & E & Y & _). injection E as <- <-. congruence. }
  destruct pc as [[p|]|[p|]|a|a|].
  - destruct (check_ok G now (psNode s) p) as (b & ->). cbn [bind snd fst].
    destruct (set_some _ _ _ _ (if b then AStore (Some p) else ADone) N) as (l' & ->).
    split; [discriminate|intro X; destruct (NOT ltac:(congruence) X)].
  - unfold peer_check. destruct (isPeerSimilarToNode G (psNode s) None) eqn:SI.
    + cbn [bind snd fst]. destruct (set_some _ _ _ _ ADone N) as (l' & ->). split; [discriminate|].
      intros (now' & i & _ & _ & X & _). apply nil_similar in SI. contradiction.
    + rewrite nil_id. unfold PeerList_Get.
      assert (NS : ~ nameless (own_addresses (psNode s))) by (intro X; apply (nil_similar G) in X; congruence).
      destruct (mload (nPeers (psNode s)) []) as [it|] eqn:ML; [destruct (peer_live now it) eqn:LV|].
      * cbn [bind]. split; [|reflexivity]. intros _. exists now, k. split; [reflexivity|]. split; [exact N|]. split; [exact NS|].
        exists it. auto.
      * cbn [bind snd fst]. destruct (set_some _ _ _ _ (AStore None) N) as (l' & ->). split; [discriminate|].
        intros (now' & i & E & _ & _ & it' & X & Y). injection E as <- <-. congruence.
      * cbn [bind snd fst]. destruct (set_some _ _ _ _ (AStore None) N) as (l' & ->). split; [discriminate|].
        intros (now' & i & E & _ & _ & it' & X & Y). congruence.
  - cbn [peer_store]. destruct (set_some _ _ _ _ ADone N) as (l' & E).
    split; [|intro X; destruct (NOT ltac:(congruence) X)].
    destruct (IsRecent now (pTimestamp p)); cbn [bind snd fst]; rewrite E; discriminate.
  - cbn [peer_store]. destruct (set_some _ _ _ _ ADone N) as (l' & E). rewrite (not_1970 now MD). cbn [bind snd fst]. rewrite E.
    split; [discriminate|intro X; destruct (NOT ltac:(congruence) X)].
  - cbn [bind snd fst]. destruct (set_some _ _ _ _ (if join_check (psNode s) a then JAppend a else ADone) N) as (l' & ->).
    split; [discriminate|intro X; destruct (NOT ltac:(congruence) X)].
  - cbn [bind snd fst]. destruct (set_some _ _ _ _ ADone N) as (l' & ->).
    split; [discriminate|intro X; destruct (NOT ltac:(congruence) X)].
  - split; [discriminate|intro X; destruct (NOT ltac:(congruence) X)].
Qed.
Lemma step_ok_or_crash : forall G inc s e er, pstep G inc s e <> Err er.
Proof.
  intros G inc s e er. destruct e as [p|a|now k|now p|now]; cbn [pstep]; try discriminate.
  destruct (nth_error (psThreads s) k) as [pc|] eqn:N; [|discriminate].
  destruct pc as [p|p|a|a|]; try discriminate.
  - unfold peer_check. destruct (isPeerSimilarToNode G (psNode s) p).
    + cbn [bind snd fst]. destruct (list_set _ _ _); discriminate.
    + destruct (PeerList_Get now (psNode s) (GetIdOfPeer G p)); [destruct p|]; cbn [bind snd fst]; try discriminate;
        destruct (list_set _ _ _); discriminate.
  - destruct p as [p|]; cbn [peer_store]; [destruct (IsRecent now (pTimestamp p))|destruct (IsRecent now 0)]; cbn [bind snd fst]; try discriminate;
      destruct (list_set _ _ _); discriminate.
  - cbn [bind snd fst]. destruct (list_set _ _ _); discriminate.
  - cbn [bind snd fst]. destruct (list_set _ _ _); discriminate.
Qed.

(** In every execution: the node crashes exactly when a message without a peer is checked while
    a record without addresses is listed, and the node itself has an address. *)
Theorem C158_crash : forall G inc s es, Forall modern es ->
  (prun G inc s es = Panic <->
   exists es1 now i es2 u, es = es1 ++ PStep now i :: es2 /\ prun G inc s es1 = Ok u /\
     nth_error (psThreads u) i = Some (AStart None) /\
     ~ nameless (own_addresses (psNode u)) /\ lists_nameless now (psNode u)).
Proof.
  intros G inc s es. revert s. induction es as [|e es IH]; intros s F; cbn [prun].
  - split; [discriminate|]. intros (es1 & now & i & es2 & u & X & _). destruct es1; discriminate X.
  - inversion_clear F as [|? ? F1 F2]. pose proof (step_crash G inc s e F1) as SC.
    destruct (pstep G inc s e) as [s'|er|] eqn:S; cbn [bind].
    + rewrite (IH s' F2). split.
      * intros (es1 & now & i & es2 & u & -> & R & X). exists (e :: es1), now, i, es2, u. split; [reflexivity|].
        split; [cbn [prun]; rewrite S; exact R|exact X].
      * intros (es1 & now & i & es2 & u & E & R & X). destruct es1 as [|e1 es1]; cbn [app] in E; injection E as E1 E; subst.
        -- cbn in R. injection R as <-. destruct X as (X1 & X2 & X3). exfalso.
           assert (Y : Ok s' = Panic) by (apply SC; exists now, i; auto). discriminate Y.
        -- cbn [prun] in R. rewrite S in R. cbn [bind] in R. exists es1, now, i, es2, u. auto.
    + destruct (step_ok_or_crash _ _ _ _ _ S).
    + split; [intros _|reflexivity]. destruct (proj1 SC eq_refl) as (now & i & -> & X).
      exists [], now, i, es, s. split; [reflexivity|]. split; [reflexivity|exact X].
Qed.
Print Assumptions C158_crash.

(** Where records and threads come from. *)
Definition traced (es : list pev) (s : pstate) : Prop :=
  (forall i p, nth_error (psThreads s) i = Some (AStart p) \/ nth_error (psThreads s) i = Some (AStore p) -> In (PRecv p) es) /\
  (forall it, In ([], it) (nPeers (psNode s)) -> exists p, In (PRecv (Some p)) es /\ nameless (pAddressList p)).
Lemma traced_step : forall G inc es s e s', traced es s -> pstep G inc s e = Ok s' -> traced (es ++ [e]) s'.
Proof.
  intros G inc es s e s' [T1 T2] S.
  assert (W1 : forall x, In x es -> In x (es ++ [e])) by (intros x X; apply in_or_app; auto).
  assert (APP : forall pc, (forall p, pc = AStart p \/ pc = AStore p -> In (PRecv p) (es ++ [e])) -> traced (es ++ [e]) (mkP (psNode s) (psThreads s ++ [pc]))).
  { intros pc X. split; cbn [psThreads psNode].
    - intros i p H. destruct (Nat.lt_ge_cases i (length (psThreads s))) as [LT|GE].
      + rewrite nth_error_app1 in H by auto. eauto.
      + rewrite nth_error_app2 in H by auto. apply X. destruct (i - length (psThreads s))%nat as [|[|j]]; cbn in H.
        * destruct H as [H|H]; injection H as ->; auto.
        * destruct H as [H|H]; discriminate H.
        * destruct H as [H|H]; discriminate H.
    - intros it H. destruct (T2 it H) as (p & X1 & X2). eauto. }
  destruct e as [p|a|now k|now p|now].
  - injection S as <-. apply APP. intros q [H|H]; [|discriminate H]. injection H as ->. apply in_or_app. right. left. reflexivity.
  - injection S as <-. apply APP. intros q [H|H]; discriminate H.
  - destruct (thread_cases _ _ _ _ _ _ S) as [->|(pc & r & N & LS & EN & C)].
    { split; [eauto|]. intros it H. destruct (T2 it H) as (p & X1 & X2). eauto. }
    split.
    + intros i p H. rewrite !(nth_set _ _ _ _ _ i LS) in H. destruct (Nat.eqb k i); [|eauto].
      destruct C as [(q & -> & _ & [[E _]|E])|[(q & -> & E & _)|[(a & -> & _ & [[E _]|E])|(a & -> & E & _)]]]; rewrite E in H;
        destruct H as [H|H]; try discriminate H. injection H as <-. apply W1. eapply T1. left. exact N.
    + intros it H. rewrite EN in H.
      assert (OLD : In ([], it) (nPeers (psNode s)) -> exists p, In (PRecv (Some p)) (es ++ [PStep now k]) /\ nameless (pAddressList p)).
      { intro X. destruct (T2 it X) as (p & X1 & X2). eauto. }
      destruct C as [(q & -> & E & _)|[(q & -> & _ & E)|[(a & -> & E & _)|(a & -> & _ & E)]]].
      * rewrite E in H. auto.
      * destruct q as [q|]; cbn [peer_store] in E.
        -- destruct (IsRecent now (pTimestamp q)); injection E as E; rewrite <- E in H; [|auto].
           cbn [set_peers nPeers] in H. unfold mstore in H. destruct H as [H|H].
           ++ injection H as ID _. exists q. split; [apply W1; eapply T1; right; exact N|]. apply (serial_nameless G). exact ID.
           ++ apply OLD. apply mdelete_incl in H. exact H.
        -- destruct (IsRecent now 0); [discriminate E|]. injection E as E. rewrite <- E in H. auto.
      * rewrite E in H. auto.
      * rewrite E in H. cbn in H. auto.
  - cbn [pstep] in S. injection S as <-. split; cbn [psThreads psNode]; [eauto|]. intros it H.
    destruct (T2 it) as (q & X1 & X2); [|eauto]. unfold CheckPeer in H.
    destruct (isPeerSimilarToNode G (psNode s) (Some p)); [exact H|]. destruct (IsRecent now (pTimestamp p)); [exact H|].
    cbn in H. apply mdelete_incl in H. exact H.
  - cbn [pstep] in S. injection S as <-. split; cbn [psThreads psNode]; [eauto|]. intros it H.
    destruct (T2 it) as (q & X1 & X2); [|eauto]. cbn in H. apply filter_In in H. apply H.
Qed.

(** So it takes two messages: one without a peer, and before its check one with a peer that has
    no addresses. *)
Theorem C158_two_messages : forall G inc n es, Forall modern es -> nPeers n = [] ->
  prun G inc (mkP n []) es = Panic ->
  In (PRecv None) es /\ exists p, In (PRecv (Some p)) es /\ nameless (pAddressList p).
Proof.
  intros G inc n es F NP H. apply C158_crash in H; [|exact F]. destruct H as (es1 & now & i & es2 & u & -> & R & N & _ & it & L & _).
  assert (TR : forall l s pre, traced pre s -> prun G inc s l = Ok u -> traced (pre ++ l) u).
  { induction l as [|e l IH]; intros s pre T E; cbn [prun] in E.
    - injection E as <-. rewrite app_nil_r. exact T.
    - destruct (pstep G inc s e) as [s1| |] eqn:S; try discriminate E. cbn [bind] in E.
      change (e :: l) with ([e] ++ l). rewrite app_assoc. eapply IH; [eapply traced_step; eauto|exact E]. }
  assert (T0 : traced [] (mkP n [])).
  { split; cbn [psThreads psNode]; [intros j p [X|X]; destruct j; discriminate X|]. rewrite NP. intros x []. }
  destruct (TR _ _ _ T0 R) as [T1 T2]. cbn [app] in T1, T2. split.
  - apply in_or_app. left. eapply T1. left. exact N.
  - apply mload_in in L. destruct (T2 _ L) as (p & X & Y). exists p. split; [apply in_or_app; auto|exact Y].
Qed.
Print Assumptions C158_two_messages.

(** And two messages are enough: any node that lists no such record crashes when, within five
    minutes, a recent record without addresses and a message without a peer are handled. *)
Theorem C158_enough : forall G inc s p t1 t2 t3,
  nameless (pAddressList p) -> ~ nameless (own_addresses (psNode s)) -> mload (nPeers (psNode s)) [] = None ->
  IsRecent t2 (pTimestamp p) = true -> (t2 <= t3 <= t2 + 300000000000)%Z -> (forall t old, (old <= inc t 600000000000 old)%Z) ->
  let i := length (psThreads s) in
  prun G inc s [PRecv (Some p); PStep t1 i; PStep t2 i; PRecv None; PStep t3 (S i)] = Panic.
Proof.
  intros G inc s p t1 t2 t3 NP OWN ML RC TT IO i.
  assert (ID : GetIdOfPeer G (Some p) = []) by (apply serial_nameless; exact NP).
  assert (SI : isPeerSimilarToNode G (psNode s) (Some p) = false).
  { destruct (isPeerSimilarToNode G (psNode s) (Some p)) eqn:E; [|reflexivity]. exfalso. apply OWN.
    unfold isPeerSimilarToNode in E. apply bytes_eqb_spec in E. rewrite ID in E. apply (serial_nameless G). exact E. }
  assert (SET : forall pc pc', list_set (psThreads s ++ [pc]) i pc' = Some (psThreads s ++ [pc'])).
  { intros pc pc'. unfold i. induction (psThreads s) as [|x l IH]; cbn; [reflexivity|]. rewrite IH. reflexivity. }
  assert (NTH : forall pc, nth_error (psThreads s ++ [pc]) i = Some pc).
  { intro pc. unfold i. rewrite nth_error_app2, Nat.sub_diag by lia. reflexivity. }
  cbn [prun pstep bind psThreads psNode]. rewrite NTH. unfold peer_check at 1. rewrite SI.
  unfold PeerList_Get at 1. rewrite ID, ML. cbn [bind snd fst]. rewrite SET. cbn [bind psThreads psNode]. rewrite NTH. cbn [peer_store]. rewrite RC. cbn [bind snd fst].
  rewrite SET. cbn [bind psThreads psNode]. rewrite <- app_assoc. cbn [app].
  assert (E2 : nth_error (psThreads s ++ [ADone; AStart None]) (S i) = Some (AStart None)).
  { unfold i. rewrite nth_error_app2 by lia. replace (S (length (psThreads s)) - length (psThreads s))%nat with 1%nat by lia. reflexivity. }
  rewrite E2. unfold peer_check. destruct (isPeerSimilarToNode G _ None) eqn:S2.
  { exfalso. apply nil_similar in S2. exact (OWN S2). }
  rewrite nil_id, ID. unfold PeerList_Get, set_peers. cbn [nPeers]. rewrite mload_mstore_same.
  unfold peer_live. cbn [piExpires]. specialize (IO t2 (t2 + 300000000000)%Z).
  destruct (Z.ltb_spec (inc t2 600000000000 (t2 + 300000000000))%Z t3) as [X|X]; [lia|]. rewrite andb_false_r. reflexivity.
Qed.
Print Assumptions C158_enough.

Example C158_instance :
  nameless (pAddressList (pr 1000 [])) /\ ~ nameless (own_addresses me) /\ mload (nPeers me) [] = None /\
  IsRecent (sec 1000) 1000 = true /\ (forall t old, (old <= add_inc t 600000000000 old)%Z) /\
  Forall modern [PRecv (Some (pr 1000 [])); PStep (sec 1000) 0; PStep (sec 1000) 0; PRecv None; PStep (sec 1100) 1] /\
  prun insertion_sort add_inc (mkP me []) [PRecv (Some (pr 1000 [])); PStep (sec 1000) 0; PStep (sec 1000) 0; PRecv None; PStep (sec 1100) 1] = Panic /\
  exists u, prun insertion_sort add_inc (mkP me []) [PRecv None; PStep (sec 1000) 0; PStep (sec 1000) 0; PRecv (Some (pr 1000 [])); PStep (sec 1100) 1; PStep (sec 1100) 1] = Ok u.
Proof.
  split; [left; reflexivity|]. split; [intros [X|X]; vm_compute in X; discriminate X|]. split; [reflexivity|]. split; [reflexivity|].
  split; [intros; unfold add_inc; lia|].
  split; [repeat constructor; cbn; vm_compute; try discriminate; reflexivity|]. split; [vm_compute; reflexivity|]. eexists. vm_compute. reflexivity.
Qed.
