(** C165: which nodes a query consults in a cluster of any size. *)
From Verif.Base Require Import GoBase.
From Verif.Model Require Import QueryCache Flood Spread.
From Verif.Spec Require Import ReachSpec BigSpec.
From Verif.Proof Require Import SpreadQ.
From Verif.Props Require Import ReachProps.
From Coq Require Import Lia.
Open Scope nat_scope.

Section S.
Context {D : Type}.
Variable undef : N.

(** A choice of sources among the sources. *)
Lemma chosen_asked : forall sources choice n targets,
  asked sources n (choice n) -> asked choice n targets -> asked sources n targets.
Proof.
  intros sources choice n targets (A1 & A2 & A3) (B1 & B2 & B3). split; [exact B1|]. split.
  - intros x X. apply A2, B2, X.
  - rewrite B3, A3. lia.
Qed.
Lemma chosen_sent : forall sources choice n t (d : D) i reqs, asked sources n (choice n) ->
  sent undef choice n t d i reqs -> sent undef sources n t d i reqs.
Proof. intros sources choice n t d i reqs A S. destruct S as [targets times B L F]. constructor; auto. eapply chosen_asked; eauto. Qed.

Lemma chosen_runs : forall sources choice, (forall n, asked sources n (choice n)) ->
  forall s s' : spread D, spread_runs undef choice s s' -> spread_runs undef sources s s'.
Proof.
  intros sources choice A s s' R. induction R as [s|s s1 s2 St R IH]; [constructor|].
  econstructor; [|exact IH]. destruct St as [seen r1 i r r2 log I|seen r1 i r r2 log reqs I S].
  - constructor. exact I.
  - constructor; [exact I|]. eapply chosen_sent; eauto.
Qed.

(** Everything that was asked for by the first execution takes place. *)
Definition first_done (T : list N) (s : spread D) : Prop :=
  (forall n, In n (sSeen s) -> executed n (sLog s)) /\
  forall m, In m T -> executed m (sLog s) \/ exists e, In e (sReqs s) /\ rTo (snd e) = m.

Lemma first_step : forall sources T s s', spread_step undef sources s s' -> first_done T s -> first_done T s'.
Proof.
  intros sources T s s' St [A B]. destruct St as [seen r1 i r r2 log I|seen r1 i r r2 log reqs I S]; cbn [sSeen sReqs sLog] in *.
  - split; cbn [sSeen sReqs sLog]; [exact A|]. intros m M. destruct (B m M) as [X|(e & X & E)]; [left; exact X|].
    apply in_app_or in X. destruct X as [X|[<-|X]].
    + right. exists e. split; [apply in_or_app; left; exact X|exact E].
    + left. cbn [snd] in E. subst m. apply A, I.
    + right. exists e. split; [apply in_or_app; right; exact X|exact E].
  - split; cbn [sSeen sReqs sLog].
    + intros n [<-|N]; [left; reflexivity|right; apply A, N].
    + intros m M. destruct (B m M) as [X|(e & X & E)]; [left; right; exact X|].
      apply in_app_or in X. destruct X as [X|[<-|X]].
      * right. exists e. split; [apply in_or_app; left; exact X|exact E].
      * left. left. exact E.
      * right. exists e. split; [apply in_or_app; right; apply in_or_app; left; exact X|exact E].
Qed.
Lemma first_runs : forall sources T s s', spread_runs undef sources s s' -> first_done T s -> first_done T s'.
Proof. intros sources T s s' R. induction R as [s|s s1 s2 St R IH]; intro F; auto. apply IH. eapply first_step; eauto. Qed.
End S.

(** The nodes that a query consults include six sources of the first node, or all of them. *)
Lemma reached_six : forall D undef sources o (d : D) timeout given S, query_reaches undef sources o d timeout given S ->
  In o S /\ exists T, asked sources o T /\ incl T S.
Proof.
  intros D undef sources o d timeout given S (s0 & s & St & R & Z & E). destruct St as [reqs SE].
  destruct (sent_targets _ _ _ _ _ _ _ SE) as [A _]. set (T := map (fun e => rTo (snd e)) reqs) in *.
  assert (F0 : first_done T (mkSpread (if given then [o] else []) reqs [(o, 0)])).
  { split; cbn [sSeen sReqs sLog].
    - intros n N. destruct given; [|destruct N]. destruct N as [<-|[]]. left. reflexivity.
    - intros m M. right. apply in_map_iff in M. destruct M as (e & <- & M). exists e. auto. }
  destruct (first_runs undef sources T _ _ R F0) as [_ B]. split.
  - apply E. clear - R. remember (mkSpread (if given then [o] else []) reqs [(o, 0)]) as s0 eqn:E0.
    assert (X : executed o (sLog s0)) by (subst; left; reflexivity). clear E0.
    induction R as [s|s s1 s2 St R IH]; [exact X|]. apply IH. destruct St; [exact X|right; exact X].
  - exists T. split; [exact A|]. intros m M. apply E. destruct (B m M) as [X|(e & X & _)]; [exact X|]. rewrite Z in X. destruct X.
Qed.

(** In a cluster in which everybody is a source of everybody, at least seven nodes are
    query_reaches, or all of them. *)
Theorem C165_at_least : forall D undef nodes sources o (d : D) timeout given S,
  full nodes sources -> In o nodes -> query_reaches undef sources o d timeout given S ->
  exists S', NoDup S' /\ incl S' S /\ length S' = Nat.min 7 (length nodes).
Proof.
  intros D undef nodes sources o d timeout given S [ND F] O R.
  destruct (reached_six _ _ _ _ _ _ _ _ R) as (I & T & (A1 & A2 & A3) & B). destruct (F o O) as [NS FS].
  exists (o :: T). split; [|split].
  - constructor; [|exact A1]. intro X. apply A2, FS in X. destruct X as [_ X]. congruence.
  - intros x [<-|X]; [exact I|apply B, X].
  - cbn [length]. rewrite A3. assert (L : length nodes = 1 + length (sources o)).
    { assert (P : NoDup (o :: sources o)).
      { constructor; [|exact NS]. intro X. apply FS in X. destruct X as [_ X]. congruence. }
      assert (A : length (o :: sources o) <= length nodes).
      { apply NoDup_incl_length; [exact P|]. intros x [<-|X]; [exact O|apply FS, X]. }
      assert (A' : length nodes <= length (o :: sources o)).
      { apply NoDup_incl_length; [exact ND|]. intros x X. destruct (N.eq_dec x o) as [->|N]; [left; reflexivity|right; apply FS; auto]. }
      cbn [length] in A, A'. lia. }
    lia.
Qed.
Print Assumptions C165_at_least.

(** ** Exactly these sets are possible *)

(** What follows x in a list, and what comes before. *)
Fixpoint after (x : N) (l : list N) : list N :=
  match l with [] => [] | y :: l' => if N.eqb x y then l' else after x l' end.
Fixpoint before (x : N) (l : list N) : list N :=
  match l with [] => [] | y :: l' => if N.eqb x y then [] else y :: before x l' end.
Definition follow (S : list N) (x : N) : list N := firstn 6 (after x S ++ before x S).

Lemma around : forall x u v, ~ In x u -> after x (u ++ x :: v) = v /\ before x (u ++ x :: v) = u.
Proof.
  intros x. induction u as [|y u IH]; intros v N; cbn [app after before].
  - rewrite N.eqb_refl. auto.
  - destruct (N.eqb_spec x y) as [->|NE]; [exfalso; apply N; left; reflexivity|].
    destruct (IH v ltac:(intro X; apply N; right; exact X)) as [A B]. rewrite A, B. auto.
Qed.
Lemma follow_at : forall u x v, NoDup (u ++ x :: v) -> follow (u ++ x :: v) x = firstn 6 (v ++ u).
Proof.
  intros u x v ND. apply NoDup_remove_2 in ND. rewrite in_app_iff in ND. unfold follow.
  destruct (around x u v ltac:(tauto)) as [A B]. rewrite A, B. reflexivity.
Qed.
Lemma firstn_part : forall A (l : list A) k, NoDup l -> NoDup (firstn k l) /\ incl (firstn k l) l.
Proof.
  intros A l k ND. split.
  - rewrite <- (firstn_skipn k l) in ND. revert ND. generalize (firstn k l) (skipn k l). clear.
    induction l as [|x l IH]; intros m H; [constructor|]. inversion H as [|? ? H1 H2]; subst.
    constructor; [intro X; apply H1, in_or_app; left; exact X|eapply IH; exact H2].
  - intros x X. rewrite <- (firstn_skipn k l). apply in_or_app. left. exact X.
Qed.

Section Pick.
Variables (nodes S : list N) (sources : N -> list N).
Hypothesis FU : full nodes sources.
Hypothesis ND : NoDup S.
Hypothesis IN : incl S nodes.
Hypothesis LE : 7 <= length S.

Lemma follow_ok : forall x, In x S -> asked sources x (follow S x) /\ incl (follow S x) S /\ NoDup (follow S x) /\ length (follow S x) <= 6.
Proof.
  intros x X. destruct (in_split _ _ X) as (u & v & E). pose proof (follow_at u x v) as FA. rewrite <- E in FA. rewrite (FA ND). rewrite E in ND.
  assert (NU : NoDup (v ++ u)).
  { apply NoDup_remove_1 in ND. apply (Permutation.Permutation_NoDup (Permutation.Permutation_app_comm u v)), ND. }
  destruct (firstn_part _ (v ++ u) 6 NU) as [A B].
  assert (NX : ~ In x (v ++ u)) by (apply NoDup_remove_2 in ND; rewrite in_app_iff in *; tauto).
  assert (IS : incl (v ++ u) S).
  { intros y Y. rewrite E. rewrite in_app_iff in *. cbn [In]. tauto. }
  assert (LL : length (v ++ u) >= 6).
  { rewrite E in LE. rewrite !app_length in *. cbn [length] in LE. lia. }
  destruct FU as [_ F]. destruct (F x (IN x X)) as [NS FS].
  assert (IO : incl (v ++ u) (sources x)).
  { intros y Y. apply FS. split; [apply IN, IS, Y|]. intros ->. contradiction. }
  split; [|split; [|split; [exact A|rewrite firstn_length; lia]]].
  - split; [exact A|]. split; [intros y Y; apply IO, B, Y|]. rewrite firstn_length.
    pose proof (NoDup_incl_length NU IO). lia.
  - intros y Y. apply IS, B, Y.
Qed.
End Pick.

(** For every set of at least seven nodes that contains the first one there is an execution
    that consults exactly these. *)
Theorem C165_any : forall D undef nodes sources o (d : D) timeout given S,
  full nodes sources -> NoDup S -> incl S nodes -> In o S -> 7 <= length S ->
  query_reaches undef sources o d timeout given S.
Proof.
  intros D undef nodes sources o d timeout given S0 FU ND0 IN0 IO LE0.
  (* begin with o *)
  destruct (in_split _ _ IO) as (a & b & ES). set (S := o :: b ++ a).
  assert (PS : Permutation.Permutation S0 S).
  { rewrite ES. unfold S. eapply Permutation.perm_trans; [apply Permutation.Permutation_sym, Permutation.Permutation_middle|].
    constructor. apply Permutation.Permutation_app_comm. }
  assert (ND : NoDup S) by (eapply Permutation.Permutation_NoDup; eauto).
  assert (IN : incl S nodes) by (intros x X; apply IN0; eapply Permutation.Permutation_in; [apply Permutation.Permutation_sym, PS|exact X]).
  assert (LE : 7 <= length S) by (rewrite <- (Permutation.Permutation_length PS); exact LE0).
  pose proof (follow_ok nodes S sources FU ND IN LE) as FO.
  set (choice := fun n => if existsb (N.eqb n) S then follow S n else []).
  assert (CI : forall n, In n S -> choice n = follow S n).
  { intros n I. unfold choice. replace (existsb (N.eqb n) S) with true; [reflexivity|].
    symmetry. apply existsb_exists. exists n. split; [exact I|apply N.eqb_refl]. }
  assert (CO : forall n, choice n = [] \/ In n S).
  { intro n. unfold choice. destruct (existsb (N.eqb n) S) eqn:X; [|left; reflexivity].
    apply existsb_exists in X. destruct X as (y & Y & E). apply N.eqb_eq in E. subst. right. exact Y. }
  assert (LK : forall n, linked choice o n <-> In n S).
  { intro n. split.
    - induction 1 as [|m k L IH I]; [left; reflexivity|]. rewrite (CI m IH) in I. apply (FO m IH), I.
    - intro I. destruct (in_split _ _ I) as (u & v & E). clear I. revert n v E. induction u as [|y u IH] using rev_ind; intros n v E.
      + injection E as <- _. constructor.
      + rewrite <- app_assoc in E. cbn [app] in E. apply (linked_on _ _ y); [apply (IH y (n :: v) E)|].
        rewrite CI by (rewrite E; apply in_or_app; right; left; reflexivity).
        rewrite E. rewrite E in ND. rewrite (follow_at u y (n :: v) ND). left. reflexivity. }
  assert (SX : six choice o).
  { intros n L. apply LK in L. rewrite (CI n L). destruct (FO n L) as (_ & _ & A & B). auto. }
  destruct (C155_ends D undef choice S o d timeout given) as [(s0 & ST) EN].
  { intros m x X. destruct (CO m) as [C|C]; [rewrite C in X; destruct X|]. rewrite (CI m C) in X. apply (FO m C), X. }
  { left. reflexivity. }
  { intro m. destruct (CO m) as [C|C]; [rewrite C; constructor|]. rewrite (CI m C). apply (FO m C). }
  destruct (EN s0 s0 ST ltac:(constructor)) as (s & R & Z).
  pose proof (C155_reaches D undef choice o d timeout given s0 s SX ST R Z) as EX.
  assert (OS : In o S) by (left; reflexivity).
  exists s0, s. split; [|split; [|split; [exact Z|]]].
  - destruct ST as [reqs SE]. constructor. eapply chosen_sent; [|exact SE]. rewrite (CI o OS). apply (FO o OS).
  - (* every execution is on a node of S *)
    assert (I0 : forall e, In e (sReqs s0) -> In (rTo (snd e)) S).
    { destruct ST as [reqs SE]. cbn [sReqs]. intros e I. destruct (sent_targets _ _ _ _ _ _ _ SE) as [(_ & A & _) _].
      assert (X : In (rTo (snd e)) (choice o)) by (apply A, in_map_iff; exists e; auto).
      rewrite (CI o OS) in X. apply (FO o OS), X. }
    clear - R I0 FO CI. induction R as [s|s s1 s2 St R IH]; [constructor|].
    destruct St as [seen r1 i r r2 log I|seen r1 i r r2 log reqs I SE]; cbn [sReqs] in I0.
    + econstructor; [constructor; exact I|]. apply IH. cbn [sReqs]. intros e X. apply I0. rewrite in_app_iff in *. cbn [In]. tauto.
    + assert (IR : In (rTo r) S) by (apply (I0 (i, r)), in_elt).
      econstructor.
      * constructor; [exact I|]. eapply chosen_sent; [|exact SE]. rewrite (CI _ IR). apply (FO _ IR).
      * apply IH. cbn [sReqs]. intros e X. rewrite !in_app_iff in X. destruct X as [X|[X|X]].
        -- apply I0. rewrite in_app_iff. tauto.
        -- apply I0. rewrite in_app_iff. cbn [In]. tauto.
        -- destruct (sent_targets _ _ _ _ _ _ _ SE) as [(_ & A & _) _].
           assert (Y : In (rTo (snd e)) (choice (rTo r))) by (apply A, in_map_iff; exists e; auto).
           rewrite (CI _ IR) in Y. apply (FO _ IR), Y.
  - intro n. rewrite EX, LK. split; intro X; [eapply Permutation.Permutation_in; [exact PS|exact X]|].
    eapply Permutation.Permutation_in; [apply Permutation.Permutation_sym, PS|exact X].
Qed.
Print Assumptions C165_any.

(** Only nodes of the cluster are query_reaches. *)
Lemma consulted_nodes : forall D undef nodes sources o (d : D) timeout given S,
  full nodes sources -> In o nodes -> query_reaches undef sources o d timeout given S -> incl S nodes.
Proof.
  intros D undef nodes sources o d timeout given S [_ F] O (s0 & s & St & R & _ & E).
  assert (W : (forall n, executed n (sLog s0) -> In n nodes) /\ forall e, In e (sReqs s0) -> In (rTo (snd e)) nodes).
  { destruct St as [reqs SE]. cbn [sLog sReqs]. split; [intros n [<-|[]]; exact O|]. intros e I.
    destruct (sent_targets _ _ _ _ _ _ _ SE) as [(_ & A & _) _]. apply (F o O), A, in_map_iff. exists e. auto. }
  cut (forall n, executed n (sLog s) -> In n nodes); [intros C x X; apply C, E, X|].
  clear E St. induction R as [s|s s1 s2 St R IH]; [apply W|]. apply IH. destruct W as [W1 W2].
  destruct St as [seen r1 i r r2 log I|seen r1 i r r2 log reqs I SE]; cbn [sReqs sLog] in *.
  - split; [exact W1|]. intros e X. apply W2. rewrite in_app_iff in *. cbn [In]. tauto.
  - assert (IR : In (rTo r) nodes) by (apply (W2 (i, r)), in_elt).
    split; [intros n [<-|X]; [exact IR|apply W1, X]|].
    intros e X. rewrite !in_app_iff in X. destruct X as [X|[X|X]].
    + apply W2. rewrite in_app_iff. tauto.
    + apply W2. rewrite in_app_iff. cbn [In]. tauto.
    + destruct (sent_targets _ _ _ _ _ _ _ SE) as [(_ & A & _) _]. apply (F _ IR), A, in_map_iff. exists e. auto.
Qed.

Lemma without_in : forall H nodes n, In n (without H nodes) <-> In n nodes /\ ~ In n H.
Proof.
  intros H nodes n. unfold without. rewrite filter_In, negb_true_iff. split; intros [A B]; split; auto.
  - intro I. assert (X : existsb (N.eqb n) H = true) by (apply existsb_exists; exists n; split; [exact I|apply N.eqb_refl]). congruence.
  - destruct (existsb (N.eqb n) H) eqn:X; [|reflexivity]. apply existsb_exists in X. destruct X as (y & Y & E). apply N.eqb_eq in E. subst. contradiction.
Qed.

(** So a query is sure to consult one of the holders of a datum exactly if it starts on one or
    at most six nodes do not hold it. *)
Theorem C165_sure : forall D undef nodes sources o (d : D) timeout given holders,
  full nodes sources -> In o nodes -> holders <> [] -> incl holders nodes ->
  ((forall S, query_reaches undef sources o d timeout given S -> exists h, In h holders /\ In h S) <->
   In o holders \/ length (without holders nodes) <= 6).
Proof.
  intros D undef nodes sources o d timeout given holders FU O NE IH. split.
  - intro H. destruct (in_dec N.eq_dec o holders) as [I|I]; [left; exact I|right].
    destruct (Nat.le_gt_cases (length (without holders nodes)) 6) as [L|L]; [exact L|exfalso].
    destruct (H (without holders nodes)) as (h & A & B).
    + apply (C165_any D undef nodes); auto.
      * apply NoDup_filter, FU.
      * intros x X. apply without_in in X. apply X.
      * apply without_in. auto.
    + apply without_in in B. tauto.
  - intros H S R. destruct (reached_six _ _ _ _ _ _ _ _ R) as [IO _]. destruct H as [H|H]; [exists o; auto|].
    destruct (C165_at_least D undef nodes sources o d timeout given S FU O R) as (S' & ND & I & L).
    destruct (Forall_dec (fun n => ~ In n holders) (fun n => match in_dec N.eq_dec n holders with left i => right (fun f => f i) | right i => left i end) S') as [A|A].
    + exfalso. rewrite Forall_forall in A. pose proof (consulted_nodes _ _ _ _ _ _ _ _ _ FU O R) as SN.
      assert (L' : length S' <= length (without holders nodes)).
      { apply NoDup_incl_length; [exact ND|]. intros x X. apply without_in. split; [apply SN, I, X|apply A, X]. }
      assert (LW : length (without holders nodes) < length nodes).
      { destruct holders as [|h hs]; [congruence|]. set (H0 := h :: hs) in *.
        assert (X : length (h :: without H0 nodes) <= length nodes).
        { apply NoDup_incl_length.
          - constructor; [|apply NoDup_filter, FU]. intro X. apply without_in in X. apply X. left. reflexivity.
          - intros x [<-|X]; [apply IH; left; reflexivity|]. apply without_in in X. apply X. }
        cbn [length] in X. lia. }
      lia.
    + apply neg_Forall_Exists_neg in A; [|intro n; destruct (in_dec N.eq_dec n holders); [right; tauto|left; auto]].
      apply Exists_exists in A. destruct A as (h & Hh & B). exists h. split; [|apply I, Hh].
      destruct (in_dec N.eq_dec h holders); [auto|contradiction].
Qed.
Print Assumptions C165_sure.

Lemma nodup_join : forall (a b : list N), NoDup a -> NoDup b -> (forall x, In x a -> ~ In x b) -> NoDup (a ++ b).
Proof.
  induction a as [|x a IH]; intros b A B D; [exact B|]. inversion A as [|? ? A1 A2]; subst. cbn [app]. constructor.
  - intro X. apply in_app_or in X. destruct X as [X|X]; [contradiction|]. apply (D x); [left; reflexivity|exact X].
  - apply IH; [exact A2|exact B|]. intros y Y. apply D. right. exact Y.
Qed.
Lemma without_length : forall holders nodes, NoDup nodes -> NoDup holders -> incl holders nodes ->
  length holders + length (without holders nodes) = length nodes.
Proof.
  intros holders nodes ND NH IH. rewrite <- app_length. apply Nat.le_antisymm; apply NoDup_incl_length.
  - apply nodup_join; [exact NH|apply NoDup_filter, ND|]. intros x A B. apply without_in in B. tauto.
  - intros x X. apply in_app_or in X. destruct X as [X|X]; [apply IH, X|apply without_in in X; apply X].
  - exact ND.
  - intros x X. apply in_or_app. destruct (in_dec N.eq_dec x holders) as [I|I]; [left; exact I|right; apply without_in; auto].
Qed.

(** A datum with h copies on different nodes of a cluster of n is found from everywhere for sure
    exactly if n is at most h + 6. *)
Theorem C165_everywhere : forall D undef nodes sources (d : D) timeout given holders,
  full nodes sources -> NoDup holders -> holders <> [] -> incl holders nodes ->
  ((forall o S, In o nodes -> query_reaches undef sources o d timeout given S -> exists h, In h holders /\ In h S) <->
   length nodes <= length holders + 6).
Proof.
  intros D undef nodes sources d timeout given holders FU NH NE IH.
  pose proof (without_length holders nodes (proj1 FU) NH IH) as L. split.
  - intro H. destruct (without holders nodes) as [|o w] eqn:W; [cbn [length] in L; lia|].
    assert (O : In o (without holders nodes)) by (rewrite W; left; reflexivity).
    apply without_in in O. destruct O as [O NO].
    destruct (proj1 (C165_sure D undef nodes sources o d timeout given holders FU O NE IH)) as [X|X].
    + intros S. apply H. exact O.
    + contradiction.
    + rewrite W in X. lia.
  - intros H o S O. apply (C165_sure D undef nodes sources o d timeout given holders FU O NE IH). right. lia.
Qed.
Print Assumptions C165_everywhere.

(** ** Any cluster *)

(** Every node that executes the query asks as many of its sources as it may, and these execute it too. *)
Definition all_asked {D} (sources : N -> list N) (s : spread D) : Prop :=
  (forall n, In n (sSeen s) -> executed n (sLog s)) /\
  forall n, executed n (sLog s) -> exists T, asked sources n T /\
    forall m, In m T -> executed m (sLog s) \/ exists e, In e (sReqs s) /\ rTo (snd e) = m.

Lemma all_asked_step : forall D undef sources (s s' : spread D), spread_step undef sources s s' -> all_asked sources s -> all_asked sources s'.
Proof.
  intros D undef sources s s' St [A B]. destruct St as [seen r1 i r r2 log I|seen r1 i r r2 log reqs I S]; cbn [sSeen sReqs sLog] in *.
  - split; cbn [sSeen sReqs sLog]; [exact A|]. intros n E. destruct (B n E) as (T & TA & TB). exists T. split; [exact TA|].
    intros m M. destruct (TB m M) as [X|(e & X & Ee)]; [left; exact X|].
    apply in_app_or in X. destruct X as [X|[<-|X]].
    + right. exists e. split; [apply in_or_app; left; exact X|exact Ee].
    + left. cbn [snd] in Ee. subst m. apply A, I.
    + right. exists e. split; [apply in_or_app; right; exact X|exact Ee].
  - split; cbn [sSeen sReqs sLog].
    + intros n [<-|N]; [left; reflexivity|right; apply A, N].
    + intros n [E|E].
      * cbn [fst] in E. subst n. destruct (sent_targets _ _ _ _ _ _ _ S) as [SA _]. eexists. split; [exact SA|].
        intros m M. right. apply in_map_iff in M. destruct M as (e & <- & M). exists e.
        split; [rewrite !in_app_iff; auto|reflexivity].
      * destruct (B n E) as (T & TA & TB). exists T. split; [exact TA|].
        intros m M. destruct (TB m M) as [X|(e & X & Ee)]; [left; right; exact X|].
        apply in_app_or in X. destruct X as [X|[<-|X]].
        -- right. exists e. split; [rewrite !in_app_iff; auto|exact Ee].
        -- left. left. exact Ee.
        -- right. exists e. split; [rewrite !in_app_iff; auto|exact Ee].
Qed.

(** A set of nodes that a query need not leave: each has as many sources in it as it asks. *)
Lemma reaches_closed : forall D undef sources o (d : D) timeout given S, query_reaches undef sources o d timeout given S ->
  In o S /\ forall n, In n S -> exists T, asked sources n T /\ incl T S.
Proof.
  intros D undef sources o d timeout given S QR. split; [apply (reached_six _ _ _ _ _ _ _ _ QR)|].
  destruct QR as (s0 & s & St & R & Z & E).
  assert (A0 : all_asked sources s0).
  { destruct St as [reqs SE]. split; cbn [sSeen sReqs sLog].
    - intros n N. destruct given; [|destruct N]. destruct N as [<-|[]]. left. reflexivity.
    - intros n [N|[]]. cbn [fst] in N. subst n. destruct (sent_targets _ _ _ _ _ _ _ SE) as [SA _]. eexists. split; [exact SA|].
      intros m M. right. apply in_map_iff in M. destruct M as (e & <- & M). exists e. auto. }
  assert (A1 : all_asked sources s).
  { clear - R A0. induction R as [s|s s1 s2 St R IH]; auto. apply IH. eapply all_asked_step; eauto. }
  intros n N. destruct A1 as [_ A]. destruct (A n) as (T & TA & TB); [apply E, N|]. exists T. split; [exact TA|].
  intros m M. apply E. destruct (TB m M) as [X|(e & X & _)]; [exact X|]. rewrite Z in X. destruct X.
Qed.

(** Choosing for each node of a list. *)
Lemma list_choice : forall (P : N -> list N -> Prop) W, (forall n, In n W -> exists T, P n T) ->
  exists f : N -> list N, (forall n, In n W -> P n (f n)) /\ forall n, ~ In n W -> f n = [].
Proof.
  intros P. induction W as [|x W IH]; intro H.
  - exists (fun _ => []). split; [intros n []|reflexivity].
  - destruct (H x ltac:(left; reflexivity)) as (T & HT). destruct IH as (f & F1 & F2); [intros n I; apply H; right; exact I|].
    exists (fun n => if N.eq_dec n x then T else f n). split.
    + intros n I. destruct (N.eq_dec n x) as [->|NE]; [exact HT|]. apply F1. destruct I as [->|I]; [congruence|exact I].
    + intros n I. destruct (N.eq_dec n x) as [->|NE]; [exfalso; apply I; left; reflexivity|]. apply F2. intro X. apply I. right. exact X.
Qed.

(** Whatever the sources are, there is an execution that stays in such a set. *)
Lemma stays : forall D undef sources o (d : D) timeout given W, In o W ->
  (forall n, In n W -> exists T, asked sources n T /\ incl T W) ->
  exists S, query_reaches undef sources o d timeout given S /\ incl S W.
Proof.
  intros D undef sources o d timeout given W O H.
  destruct (list_choice _ W H) as (choice & F & FO).
  assert (IW : forall m, incl (choice m) W).
  { intros m x X. destruct (in_dec N.eq_dec m W) as [I|I]; [apply (F m I), X|]. rewrite (FO m I) in X. destruct X. }
  assert (NC : forall m, NoDup (choice m)).
  { intro m. destruct (in_dec N.eq_dec m W) as [I|I]; [apply (F m I)|]. rewrite (FO m I). constructor. }
  destruct (C155_ends D undef choice W o d timeout given IW O NC) as [(s0 & ST) EN].
  destruct (EN s0 s0 ST ltac:(constructor)) as (s & R & Z).
  assert (K : forall s1, spread_runs undef choice s0 s1 ->
    (forall e, In e (sReqs s1) -> In (rTo (snd e)) W) /\ (forall n, executed n (sLog s1) -> In n W) /\ spread_runs undef sources s0 s1).
  { assert (I0 : (forall e, In e (sReqs s0) -> In (rTo (snd e)) W) /\ (forall n, executed n (sLog s0) -> In n W)).
    { destruct ST as [reqs SE]. cbn [sReqs sLog]. split; [|intros n [<-|[]]; exact O].
      intros e I. destruct (sent_targets _ _ _ _ _ _ _ SE) as [(_ & A & _) _]. apply (IW o), A, in_map_iff. exists e. auto. }
    clear - I0 F IW. intros s1 R. induction R as [s|s s1 s2 St R IH]; [destruct I0; split; [|split]; auto; constructor|].
    destruct I0 as [I1 I2]. destruct St as [seen r1 i r r2 log I|seen r1 i r r2 log reqs I SE]; cbn [sReqs sLog] in *.
    - destruct IH as (J1 & J2 & J3).
      { split; [|exact I2]. intros e X. apply I1. rewrite in_app_iff in *. cbn [In]. tauto. }
      split; [exact J1|split; [exact J2|]]. econstructor; [constructor; exact I|exact J3].
    - assert (IR : In (rTo r) W) by (apply (I1 (i, r)), in_elt).
      destruct IH as (J1 & J2 & J3).
      { split.
        - intros e X. rewrite !in_app_iff in X. destruct X as [X|[X|X]].
          + apply I1. rewrite in_app_iff. tauto.
          + apply I1. rewrite in_app_iff. cbn [In]. tauto.
          + destruct (sent_targets _ _ _ _ _ _ _ SE) as [(_ & A & _) _]. apply (IW (rTo r)), A, in_map_iff. exists e. auto.
        - intros n [<-|X]; [exact IR|apply I2, X]. }
      split; [exact J1|split; [exact J2|]]. econstructor; [|exact J3]. constructor; [exact I|].
      eapply chosen_sent; [|exact SE]. apply (F _ IR). }
  destruct (K s R) as (_ & K2 & K3). exists (map fst (sLog s)). split; [|exact K2].
  exists s0, s. split; [|split; [exact K3|split; [exact Z|intro n; reflexivity]]].
  destruct ST as [reqs SE]. constructor. eapply chosen_sent; [|exact SE]. apply (F o O).
Qed.

(** Whatever the sources of each node are: the query is sure to get to one of the holders exactly if
    every set of nodes that contains the first node and in which each node has as many sources as it
    asks (six, or all it has) contains a holder. *)
Theorem C165_any_cluster : forall D undef sources o (d : D) timeout given holders,
  ((forall S, query_reaches undef sources o d timeout given S -> exists h, In h holders /\ In h S) <->
   (forall W, In o W -> (forall n, In n W -> exists T, asked sources n T /\ incl T W) ->
      exists h, In h holders /\ In h W)).
Proof.
  intros D undef sources o d timeout given holders. split.
  - intros H W O HW. destruct (stays D undef sources o d timeout given W O HW) as (S & QR & I).
    destruct (H S QR) as (h & A & B). exists h. split; [exact A|apply I, B].
  - intros H S QR. destruct (reaches_closed _ _ _ _ _ _ _ _ QR) as [O HS]. apply H; assumption.
Qed.
Print Assumptions C165_any_cluster.

(** * A concrete case *)

(** Nine nodes.  A datum that nodes 7 and 8 hold may be missed by a query at node 0: seven
    nodes do not hold it.  With a third holder it cannot be missed. *)
Definition nine : list N := [0; 1; 2; 3; 4; 5; 6; 7; 8]%N.
Definition others (n : N) : list N := filter (fun m => negb (N.eqb m n)) nine.

Lemma nine_full : full nine others.
Proof.
  assert (ND : NoDup nine) by (unfold nine; repeat constructor; cbn [In]; intuition discriminate).
  split; [exact ND|]. intros n _. split; [apply NoDup_filter, ND|]. intro m. unfold others.
  rewrite filter_In, negb_true_iff, N.eqb_neq. tauto.
Qed.

Example C165_instance :
  (exists S, query_reaches 9 others 0%N tt 1000 true S /\ ~ In 7%N S /\ ~ In 8%N S) /\
  (forall S, query_reaches 9 others 0%N tt 1000 true S -> exists h, In h [6; 7; 8]%N /\ In h S) /\
  (exists S, query_reaches 9 others 0%N tt 1000 true S /\ length S = 8) /\
  (forall o S, In o nine -> query_reaches 9 others o tt 1000 true S -> exists h, In h [1; 4; 8]%N /\ In h S).
Proof.
  split; [|split; [|split]].
  - exists (without [7; 8]%N nine). split; [|split; intro X; apply without_in in X; destruct X as [_ X]; apply X; cbn [In]; auto].
    apply (C165_any _ _ nine); [apply nine_full|apply NoDup_filter, nine_full| | |].
    + intros x X. apply without_in in X. apply X.
    + vm_compute. auto.
    + vm_compute. lia.
  - apply (C165_sure unit 9 nine others 0%N tt 1000 true [6; 7; 8]%N nine_full).
    + left. reflexivity.
    + discriminate.
    + intros x X. unfold nine. cbn [In] in *. tauto.
    + right. vm_compute. lia.
  - exists (without [3]%N nine). split; [|reflexivity].
    apply (C165_any _ _ nine); [apply nine_full|apply NoDup_filter, nine_full| | |].
    + intros x X. apply without_in in X. apply X.
    + vm_compute. auto.
    + vm_compute. lia.
  - apply (C165_everywhere unit 9 nine others tt 1000 true [1; 4; 8]%N nine_full).
    + repeat constructor; cbn [In]; intuition discriminate.
    + discriminate.
    + intros x X. unfold nine. cbn [In] in *. tauto.
    + vm_compute. lia.
Qed.


(** The seven nodes that a query at node 0 certainly gets to are not always the same. *)
Example C165_instance_two_sets :
  query_reaches 9 others 0%N tt 1000 false [0; 1; 2; 3; 4; 5; 6]%N /\
  query_reaches 9 others 0%N tt 1000 false [0; 8; 2; 7; 4; 5; 6]%N.
Proof.
  assert (G : forall S, NoDup S -> incl S nine -> In 0%N S -> 7 <= length S -> query_reaches 9 others 0%N tt 1000 false S).
  { intros. apply (C165_any _ _ nine); auto. apply nine_full. }
  split; apply G; try (cbn [In length]; auto; lia); try (repeat constructor; cbn [In]; intuition discriminate);
    intros x X; unfold nine; cbn [In] in *; tauto.
Qed.

(** A star: node 0 has eight sources, of which 1 to 6 have only 0 as source.  The query
    need not get to node 7, which only 0 and 8 have as a source; if 0 loses one of the others, it must. *)
Definition star (k n : N) : list N :=
  match n with
  | 0 => filter (fun m => N.leb m k) [1; 2; 3; 4; 5; 6]%N ++ [7; 8]%N
  | 8 => [7]%N
  | _ => [0]%N
  end%N.

Example C165_instance_any :
  (exists S, query_reaches 9 (star 6) 0%N tt 1000 true S /\ ~ In 7%N S) /\
  (forall S, query_reaches 9 (star 5) 0%N tt 1000 true S -> exists h, In h [7]%N /\ In h S).
Proof.
  split.
  - destruct (stays unit 9 (star 6) 0%N tt 1000 true [0; 1; 2; 3; 4; 5; 6]%N) as (S & Q & I).
    + left. reflexivity.
    + intros n Hn. cbn [In] in Hn. destruct Hn as [<-|Hn].
      * exists [1; 2; 3; 4; 5; 6]%N. split; [|intros x X; right; exact X].
        split; [repeat constructor; cbn [In]; intuition discriminate|]. split; [|reflexivity].
        intros x X. cbn [star filter N.leb N.compare Pos.compare Pos.compare_cont app In] in *. tauto.
      * exists [0%N]. split; [|intros x [<-|[]]; left; reflexivity].
        repeat (destruct Hn as [<-|Hn]; [split; [repeat constructor; intros []|split; [intros x X; exact X|reflexivity]]|]). destruct Hn.
    + exists S. split; [exact Q|]. intro X. apply I in X. cbn [In] in X. intuition discriminate.
  - apply (C165_any_cluster unit 9 (star 5) 0%N tt 1000 true [7]%N). intros W O H. exists 7%N. split; [left; reflexivity|].
    destruct (H 0%N O) as (T & (A1 & A2 & A3) & I).
    destruct (in_dec N.eq_dec 7%N T) as [T7|T7]; [apply I, T7|].
    destruct (in_dec N.eq_dec 8%N T) as [T8|T8].
    + destruct (H 8%N (I _ T8)) as (T' & (B1 & B2 & B3) & I'). apply I'.
      destruct T' as [|y T']; [discriminate B3|]. assert (Y : In y [7]%N) by (apply B2; left; reflexivity).
      destruct Y as [<-|[]]. left. reflexivity.
    + exfalso. assert (X : length T <= length [1; 2; 3; 4; 5]%N).
      { apply NoDup_incl_length; [exact A1|]. intros x Hx. pose proof (A2 x Hx) as Y.
        cbn [star filter N.leb N.compare Pos.compare Pos.compare_cont app In] in *.
        destruct (N.eq_dec x 7) as [->|]; [contradiction|]. destruct (N.eq_dec x 8) as [->|]; [contradiction|]. intuition congruence. }
      rewrite A3 in X. vm_compute in X. lia.
Qed.
