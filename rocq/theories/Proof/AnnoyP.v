From Verif.Base Require Import GoBase GoLemmas Assoc Float GoSort.
From Verif.Model Require Import Codec Store Vector Search Data Sync Annoy.
From Verif.Spec Require Import AnnoySpec.
From Verif.Proof Require Import FloatP StoreP.
From Coq Require Import Lia.
Open Scope nat_scope.

(** * Random numbers *)
Lemma u64_lt : forall n, (u64 n < M64)%N.
Proof. intro n. unfold u64. apply N.mod_lt. unfold M64. lia. Qed.

Lemma kiss_index_lt : forall n s, n <> 0%N -> exists i s', kiss_index n s = Ok (i, s') /\ (i < n)%N.
Proof.
  intros n s H. unfold kiss_index. destruct (N.eqb_spec n 0); [contradiction|].
  destruct (kiss s) as [r s']. exists (r mod n)%N, s'. split; auto. apply N.mod_lt. auto.
Qed.

Lemma two_points_ok : forall count s, (2 <= count < M64)%N ->
  exists i j s', two_points count s = Ok (i, j, s') /\ (i < count)%N /\ (j < count)%N /\ i <> j.
Proof.
  intros count s [H1 H2]. unfold two_points.
  destruct (kiss_index_lt count s) as (i & s1 & -> & Hi); [lia|]. cbn [bind].
  assert (E : u64 (count + M64 - 1) = (count - 1)%N).
  { unfold u64. replace (count + M64 - 1)%N with ((count - 1) + 1 * M64)%N by lia.
    rewrite N.mod_add by (unfold M64; lia). apply N.mod_small. lia. }
  rewrite E. destruct (kiss_index_lt (count - 1) s1) as (j & s2 & -> & Hj); [lia|]. cbn [bind].
  do 3 eexists. split; [reflexivity|].
  destruct (N.leb_spec i j); unfold u64; rewrite N.mod_small by lia; lia.
Qed.

Lemma kiss_flip_bit : forall s, (fst (kiss_flip s) < 2)%N.
Proof.
  intro s. unfold kiss_flip. destruct (kiss s) as [r s']. cbn [fst].
  change 1%N with (N.ones 1). rewrite N.land_ones. apply N.mod_lt. discriminate.
Qed.

(** * The tests of the imbalance in exact arithmetic *)
Definition exact_good (l r : nat) : bool :=
  match exact_cmp 95 (N.of_nat l) (N.of_nat r) with Lt => true | _ => false end.
Definition exact_bad (l r : nat) : bool :=
  match exact_cmp 99 (N.of_nat l) (N.of_nat r) with Gt => true | _ => false end.
Lemma exact_left : forall n, 0 < n -> exact_bad 0 n = true.
Proof.
  intros n H. unfold exact_bad, exact_cmp.
  destruct (N.compare_spec (100 * N.max (N.of_nat 0 * 1000000000) ((N.of_nat 0 + N.of_nat n) * 1000000000 + 1 - N.of_nat 0 * 1000000000))
              (99 * ((N.of_nat 0 + N.of_nat n) * 1000000000 + 1))); auto; exfalso; lia.
Qed.
Lemma exact_right : forall n, 0 < n -> exact_bad n 0 = true.
Proof.
  intros n H. unfold exact_bad, exact_cmp.
  destruct (N.compare_spec (100 * N.max (N.of_nat n * 1000000000) ((N.of_nat n + N.of_nat 0) * 1000000000 + 1 - N.of_nat n * 1000000000))
              (99 * ((N.of_nat n + N.of_nat 0) * 1000000000 + 1))); auto; exfalso; lia.
Qed.
Definition exact_imb : imbalance := mkImb exact_good exact_bad exact_left exact_right.

(** * Building *)

Lemma sides_perm : forall s ids, Permutation (fst (sides s ids) ++ snd (sides s ids)) ids.
Proof.
  intros s ids. unfold sides. cbn [fst snd]. induction ids as [|x ids IH]; cbn; [constructor|].
  destruct (s x); cbn.
  - rewrite <- Permutation_middle. constructor. exact IH.
  - constructor. exact IH.
Qed.

Lemma attempts_perm : forall I k ids outs l0 r0 v0 l r v outs',
  attempts I k ids outs (l0, r0, v0) = Done (l, r, v, outs') ->
  k <> 0 \/ Permutation (l0 ++ r0) ids -> Permutation (l ++ r) ids.
Proof.
  induction k as [|k IH]; intros ids outs l0 r0 v0 l r v outs' H P; cbn [attempts] in H.
  - inversion H; subst. destruct P; [lia|auto].
  - destruct outs as [|[s v1] outs1]; [discriminate|].
    destruct (sides s ids) as [l1 r1] eqn:S.
    assert (Q : Permutation (l1 ++ r1) ids) by (pose proof (sides_perm s ids) as Q; rewrite S in Q; exact Q).
    destruct (im_good I (length l1) (length r1)); [inversion H; subst; auto|].
    eapply IH; [exact H|right; exact Q].
Qed.

Lemma attempts_not_stuck : forall I k ids outs cur, attempts I k ids outs cur <> Stuck.
Proof.
  induction k as [|k IH]; intros ids outs cur; cbn [attempts]; [discriminate|].
  destruct outs as [|[s v1] outs1]; [discriminate|]. destruct (sides s ids) as [l r].
  destruct (im_good I (length l) (length r)); [discriminate|]. apply IH.
Qed.

Lemma randomize_spec : forall I f ids outs l0 r0 v0 l r v outs',
  Permutation (l0 ++ r0) ids ->
  randomize I f ids outs (l0, r0, v0) = Done (l, r, v, outs') ->
  Permutation (l ++ r) ids /\ im_bad I (length l) (length r) = false.
Proof.
  induction outs as [|[s v1] outs IH]; intros l0 r0 v0 l r v outs' P H; cbn [randomize] in H.
  - destruct (im_bad I (length l0) (length r0)) eqn:B; [discriminate|]. inversion H; subst; auto.
  - destruct (im_bad I (length l0) (length r0)) eqn:B; [|inversion H; subst; auto].
    destruct (sides s ids) as [l1 r1] eqn:S.
    eapply (IH l1 r1); [|exact H]. pose proof (sides_perm s ids) as Q; rewrite S in Q; exact Q.
Qed.

Lemma randomize_not_stuck : forall I f ids outs cur, randomize I f ids outs cur <> Stuck.
Proof.
  induction outs as [|[s v1] outs IH]; intros [[l r] v]; cbn [randomize].
  - destruct (im_bad _ _ _); discriminate.
  - destruct (im_bad _ _ _); [|discriminate]. apply IH.
Qed.

(** The items below a node, with the number of nodes on the way. *)
Inductive tree (f n : nat) (nodes : list anode) : nat -> list nat -> nat -> Prop :=
| tree_item : forall i nd, nth_error nodes i = Some nd -> aDesc nd = 1 -> i < n ->
    tree f n nodes i [i] 1
| tree_list : forall i nd, nth_error nodes i = Some nd ->
    ~ (aDesc nd = 1 /\ i < n) -> aDesc nd <= leaf_cap f -> length (aKids nd) = aDesc nd ->
    tree f n nodes i (aKids nd) 1
| tree_split : forall i nd a b la lb sa sb, nth_error nodes i = Some nd ->
    leaf_cap f < aDesc nd -> aKids nd = [a; b] ->
    tree f n nodes a la sa -> tree f n nodes b lb sb ->
    tree f n nodes i (la ++ lb) (S (sa + sb)).

Lemma tree_app : forall f n nodes more i l s, tree f n nodes i l s -> tree f n (nodes ++ more) i l s.
Proof.
  intros f n nodes more i l s T.
  assert (A : forall j nd, nth_error nodes j = Some nd -> nth_error (nodes ++ more) j = Some nd).
  { intros j nd H. rewrite nth_error_app1; auto. apply nth_error_Some. congruence. }
  induction T; [eapply tree_item|eapply tree_list|eapply tree_split]; eauto.
Qed.

Lemma tree_below : forall ix i l s, tree (xF ix) (xItems ix) (xNodes ix) i l s -> below ix i l.
Proof.
  intros ix i l s T. induction T; [eapply below_item|eapply below_list|eapply below_split]; eauto.
Qed.

Lemma below_fun : forall ix i l l', below ix i l -> below ix i l' -> l = l'.
Proof.
  intros ix i l l' B. revert l'.
  induction B as [i nd E D L|i nd E D C L|i nd a b la lb E C K Ba IHa Bb IHb]; intros l' B';
    inversion B' as [i2 nd2 E2 D2 L2|i2 nd2 E2 D2 C2 L2|i2 nd2 a2 b2 la2 lb2 E2 C2 K2 Ba2 Bb2]; subst;
    rewrite E in E2; injection E2 as <-; try tauto; try (unfold leaf_cap in *; lia); auto.
  rewrite K in K2. injection K2 as <- <-. f_equal; auto.
Qed.

Section Make.
Variable I : imbalance.
Variables f n : nat.

(** The items are there. *)
Definition items_ok (nodes : list anode) : Prop :=
  n <= length nodes /\ forall i, i < n -> exists nd, nth_error nodes i = Some nd /\ aDesc nd = 1.

Lemma items_ok_app : forall nodes more, items_ok nodes -> items_ok (nodes ++ more).
Proof.
  intros nodes more [A B]. split; [rewrite app_length; lia|]. intros i Hi.
  destruct (B i Hi) as (nd & E & D). exists nd. split; auto.
  rewrite nth_error_app1; auto. lia.
Qed.

Lemma nth_error_last : forall (A : Type) (l : list A) x, nth_error (l ++ [x]) (length l) = Some x.
Proof. intros A l x. rewrite nth_error_app2 by lia. rewrite Nat.sub_diag. reflexivity. Qed.

Lemma make_tree_spec : forall fuel root ids nodes outs r nodes' outs',
  items_ok nodes -> Forall (fun i => i < n) ids -> ids <> [] ->
  (root = true -> length ids = n) ->
  make_tree I f n fuel root ids nodes outs = Done (r, nodes', outs') ->
  exists more l s, nodes' = nodes ++ more /\ tree f n nodes' r l s /\ Permutation l ids /\
    s <= length more + length ids /\ (root = true -> more <> [] /\ (n <= leaf_cap f -> s = 1)).
Proof.
  induction fuel as [|fuel IH]; intros root ids nodes outs r nodes' outs' OK F NE R H; [discriminate|].
  cbn [make_tree] in H.
  assert (Case : (exists i, ids = [i] /\ root = false /\ Done (i, nodes, outs) = Done (r, nodes', outs')) \/
     (~ (length ids = 1 /\ root = false) /\
       (if (length ids <=? leaf_cap f) && (negb root || (n <=? leaf_cap f) || (length ids =? 1))
          then Done (length nodes, nodes ++ [mkANode (if root then n else length ids) ids []], outs)
          else
            match attempts I 3 ids outs ([], [], []) with
            | Done (cur, outs) =>
                match randomize I f ids outs cur with
                | Done (l, r, v, outs) =>
                    let '(first, second) := if length r <? length l then (r, l) else (l, r) in
                    match make_tree I f n fuel false first nodes outs with
                    | Done (c1, nodes, outs) =>
                        match make_tree I f n fuel false second nodes outs with
                        | Done (c2, nodes, outs) =>
                            let kids := if length r <? length l then [c2; c1] else [c1; c2] in
                            Done (length nodes, nodes ++ [mkANode (if root then n else length ids) kids v], outs)
                        | Starved => Starved
                        | Stuck => Stuck
                        end
                    | Starved => Starved
                    | Stuck => Stuck
                    end
                | Starved => Starved
                | Stuck => Stuck
                end
            | Starved => Starved
            | Stuck => Stuck
            end) = Done (r, nodes', outs'))).
  { destruct ids as [|i [|j ids]]; [contradiction| |].
    - destruct root; [right; split; [intros [_ ?]; discriminate|exact H]|left; eauto].
    - right. split; [intros [? _]; cbn in *; lia|]. destruct root; exact H. }
  clear H. destruct Case as [(i & -> & -> & H)|[NI H]].
  { inversion H; subst. inversion F; subst. destruct OK as [_ OK]. destruct (OK r) as (nd & E & D); auto.
    exists [], [r], 1. rewrite app_nil_r. split; [reflexivity|]. split; [eapply tree_item; eauto|]. split; [reflexivity|].
    split; [cbn; lia|discriminate]. }
  destruct ((length ids <=? leaf_cap f) && (negb root || (n <=? leaf_cap f) || (length ids =? 1))) eqn:C.
  { inversion H; subst. apply andb_true_iff in C. destruct C as [C1 C2]. apply Nat.leb_le in C1.
    exists [mkANode (if root then n else length ids) ids []], ids, 1.
    split; auto. split; [|split; [reflexivity|split; [cbn; lia|split; [discriminate|auto]]]].
    apply (tree_list f n _ _ (mkANode (if root then n else length ids) ids [])).
    - apply nth_error_last.
    - intros [_ L]. destruct OK. lia.
    - cbn. destruct root; auto. rewrite <- (R eq_refl). auto.
    - cbn. destruct root; auto. }
  destruct (attempts I 3 ids outs ([], [], [])) as [[[[l0 r0] v0] outs0]| |] eqn:A; try discriminate.
  apply attempts_perm in A; [|left; discriminate].
  destruct (randomize I f ids outs0 (l0, r0, v0)) as [[[[l1 r1] v1] outs1]| |] eqn:Z; try discriminate.
  apply randomize_spec in Z; auto. destruct Z as [P B].
  assert (L : length l1 + length r1 = length ids) by (rewrite <- app_length; apply Permutation_length; auto).
  assert (NL : l1 <> []).
  { intros ->. cbn in B. rewrite im_left in B; [discriminate|]. destruct ids; [contradiction|]. cbn in *. lia. }
  assert (NR : r1 <> []).
  { intros ->. cbn in B. rewrite im_right in B; [discriminate|]. destruct ids; [contradiction|]. cbn in *. lia. }
  assert (Fl : Forall (fun i => i < n) l1 /\ Forall (fun i => i < n) r1).
  { apply Forall_app. eapply Permutation_Forall; [apply Permutation_sym; exact P|exact F]. }
  destruct Fl as [Fl Fr].
  assert (Big : leaf_cap f < (if root then n else length ids)).
  { apply andb_false_iff in C. destruct root.
    - rewrite (R eq_refl) in C. destruct C as [C|C]; [apply Nat.leb_gt in C; auto|].
      apply orb_false_iff in C. destruct C as [C _]. cbn in C. apply Nat.leb_gt in C. auto.
    - destruct C as [C|C]; [apply Nat.leb_gt in C; auto|discriminate]. }
  destruct (length r1 <? length l1) eqn:O.
  - destruct (make_tree I f n fuel false r1 nodes outs1) as [[[c1 n1] o1]| |] eqn:M1; try discriminate.
    destruct (make_tree I f n fuel false l1 n1 o1) as [[[c2 n2] o2]| |] eqn:M2; try discriminate.
    inversion H; subst r nodes' outs'. clear H.
    apply IH in M1; auto; [|discriminate]. destruct M1 as (m1 & t1 & s1 & -> & T1 & P1 & S1 & _).
    apply IH in M2; auto; [|apply items_ok_app; auto|discriminate].
    destruct M2 as (m2 & t2 & s2 & -> & T2 & P2 & S2 & _).
    eexists (m1 ++ m2 ++ [_]), (t2 ++ t1), (S (s2 + s1)). split; [rewrite <- !app_assoc; reflexivity|].
    split; [|split; [rewrite P2, P1; exact P|split; [rewrite !app_length; cbn; lia|]]].
    + eapply tree_split; [apply nth_error_last|exact Big|reflexivity| |]; cbn.
      * apply tree_app; auto.
      * rewrite <- app_assoc. apply tree_app; auto.
    + intros ->. split; [|intro; lia].
      intro E. apply app_eq_nil in E. destruct E as [_ E]. apply app_eq_nil in E. destruct E. discriminate.
  - destruct (make_tree I f n fuel false l1 nodes outs1) as [[[c1 n1] o1]| |] eqn:M1; try discriminate.
    destruct (make_tree I f n fuel false r1 n1 o1) as [[[c2 n2] o2]| |] eqn:M2; try discriminate.
    inversion H; subst r nodes' outs'. clear H.
    apply IH in M1; auto; [|discriminate]. destruct M1 as (m1 & t1 & s1 & -> & T1 & P1 & S1 & _).
    apply IH in M2; auto; [|apply items_ok_app; auto|discriminate].
    destruct M2 as (m2 & t2 & s2 & -> & T2 & P2 & S2 & _).
    eexists (m1 ++ m2 ++ [_]), (t1 ++ t2), (S (s1 + s2)). split; [rewrite <- !app_assoc; reflexivity|].
    split; [|split; [rewrite P2, P1; exact P|split; [rewrite !app_length; cbn; lia|]]].
    + eapply tree_split; [apply nth_error_last|exact Big|reflexivity| |]; cbn.
      * rewrite <- app_assoc. apply tree_app; auto.
      * apply tree_app; auto.
    + intros ->. split; [|intro; lia].
      intro E. apply app_eq_nil in E. destruct E as [_ E]. apply app_eq_nil in E. destruct E. discriminate.
Qed.

Lemma make_tree_not_stuck : forall fuel root ids nodes outs,
  ids <> [] -> length ids < fuel -> make_tree I f n fuel root ids nodes outs <> Stuck.
Proof.
  induction fuel as [|fuel IH]; intros root ids nodes outs NE L; [lia|]. cbn [make_tree].
  assert (Gen : (if (length ids <=? leaf_cap f) && (negb root || (n <=? leaf_cap f) || (length ids =? 1))
          then Done (length nodes, nodes ++ [mkANode (if root then n else length ids) ids []], outs)
          else
            match attempts I 3 ids outs ([], [], []) with
            | Done (cur, outs) =>
                match randomize I f ids outs cur with
                | Done (l, r, v, outs) =>
                    let '(first, second) := if length r <? length l then (r, l) else (l, r) in
                    match make_tree I f n fuel false first nodes outs with
                    | Done (c1, nodes, outs) =>
                        match make_tree I f n fuel false second nodes outs with
                        | Done (c2, nodes, outs) =>
                            let kids := if length r <? length l then [c2; c1] else [c1; c2] in
                            Done (length nodes, nodes ++ [mkANode (if root then n else length ids) kids v], outs)
                        | Starved => Starved
                        | Stuck => Stuck
                        end
                    | Starved => Starved
                    | Stuck => Stuck
                    end
                | Starved => Starved
                | Stuck => Stuck
                end
            | Starved => Starved
            | Stuck => Stuck
            end) <> Stuck).
  { destruct ((length ids <=? leaf_cap f) && (negb root || (n <=? leaf_cap f) || (length ids =? 1))); [discriminate|].
    destruct (attempts I 3 ids outs ([], [], [])) as [[[[l0 r0] v0] outs0]| |] eqn:A; try discriminate;
      [|exfalso; eapply attempts_not_stuck; eauto].
    apply attempts_perm in A; [|left; discriminate].
    destruct (randomize I f ids outs0 (l0, r0, v0)) as [[[[l1 r1] v1] outs1]| |] eqn:Z; try discriminate;
      [|exfalso; eapply randomize_not_stuck; eauto].
    apply randomize_spec in Z; auto. destruct Z as [P B].
    assert (LE : length l1 + length r1 = length ids) by (rewrite <- app_length; apply Permutation_length; auto).
    assert (NL : l1 <> []).
    { intros ->. cbn in B. rewrite im_left in B; [discriminate|]. destruct ids; [contradiction|]. cbn in *. lia. }
    assert (NR : r1 <> []).
    { intros ->. cbn in B. rewrite im_right in B; [discriminate|]. destruct ids; [contradiction|]. cbn in *. lia. }
    assert (SL : length r1 < fuel /\ length l1 < fuel).
    { destruct l1; [contradiction|]. destruct r1; [contradiction|]. cbn in *. lia. }
    destruct SL as [SR SL].
    destruct (length r1 <? length l1).
    - destruct (make_tree I f n fuel false r1 nodes outs1) as [[[c1 n1] o1]| |] eqn:M1; try discriminate;
        [|exfalso; eapply IH; [| |exact M1]; auto].
      destruct (make_tree I f n fuel false l1 n1 o1) as [[[c2 n2] o2]| |] eqn:M2; try discriminate.
      exfalso; eapply IH; [| |exact M2]; auto.
    - destruct (make_tree I f n fuel false l1 nodes outs1) as [[[c1 n1] o1]| |] eqn:M1; try discriminate;
        [|exfalso; eapply IH; [| |exact M1]; auto].
      destruct (make_tree I f n fuel false r1 n1 o1) as [[[c2 n2] o2]| |] eqn:M2; try discriminate.
      exfalso; eapply IH; [| |exact M2]; auto. }
  destruct ids as [|i [|j ids]]; [contradiction| |]; destruct root; try exact Gen; discriminate.
Qed.

Lemma present_all : forall nodes, items_ok nodes -> present n nodes = seq 0 n.
Proof.
  intros nodes [_ OK]. unfold present.
  assert (G : forall l, Forall (fun i => i < n) l ->
    filter (fun i => match nth_error nodes i with Some d => 1 <=? aDesc d | None => false end) l = l).
  { induction l as [|x l IHl]; intro F; [reflexivity|]. inversion F as [|? ? Hx F']; subst. cbn [filter].
    destruct (OK x Hx) as (nd & -> & ->). change (1 <=? 1) with true. cbn match. rewrite IHl; auto. }
  apply G. apply Forall_forall. intros x Hx. apply in_seq in Hx. lia.
Qed.

Definition good_root (nodes : list anode) (r : nat) : Prop :=
  r < length nodes /\ exists l s, tree f n nodes r l s /\ Permutation l (seq 0 n) /\ s <= length nodes /\
    (n <= leaf_cap f -> s = 1).

Lemma tree_bound : forall nodes i l s, tree f n nodes i l s -> i < length nodes.
Proof. intros nodes i l s T. apply nth_error_Some. inversion T; subst; congruence. Qed.

Lemma thread_build_spec : forall fuel nodes roots outs nodes' roots',
  items_ok nodes -> Forall (good_root nodes) roots ->
  thread_build I f n fuel nodes roots outs = Done (nodes', roots') ->
  (exists more, nodes' = nodes ++ more) /\ Forall (good_root nodes') roots' /\ 2 * n <= length nodes' /\
  (exists rs, roots' = roots ++ rs /\ length rs <= fuel /\ (length nodes < 2 * n -> rs <> [])).
Proof.
  induction fuel as [|fuel IH]; intros nodes roots outs nodes' roots' OK F H; cbn [thread_build] in H.
  - destruct (Nat.leb_spec (2 * n) (length nodes)); [|discriminate]. inversion H; subst.
    split; [exists []; rewrite app_nil_r; auto|]. split; auto. split; auto.
    exists []. rewrite app_nil_r. repeat split; auto. lia.
  - destruct (Nat.leb_spec (2 * n) (length nodes)).
    { inversion H; subst. split; [exists []; rewrite app_nil_r; auto|]. split; auto. split; auto.
      exists []. rewrite app_nil_r. repeat split; auto; cbn; lia. }
    rewrite (present_all nodes OK) in H.
    destruct (make_tree I f n (S (length (seq 0 n))) true (seq 0 n) nodes outs) as [[[r n1] o1]| |] eqn:M; try discriminate.
    assert (N0 : n <> 0) by lia.
    apply make_tree_spec in M; auto; cycle 1.
    { apply Forall_forall. intros x Hx. apply in_seq in Hx. lia. }
    { destruct n; [contradiction|discriminate]. }
    { intros _. apply seq_length. }
    destruct M as (m & l & s & -> & T & P & S & NE). destruct (NE eq_refl) as [NE1 NE2].
    apply IH in H; auto; [|apply items_ok_app; auto|].
    + destruct H as ((more & ->) & G & B & rs & -> & LR & _).
      split; [exists (m ++ more); rewrite app_assoc; auto|]. split; auto. split; auto.
      exists (r :: rs). rewrite <- app_assoc. cbn. repeat split; auto; [lia|discriminate].
    + apply Forall_app. split.
      * eapply Forall_impl; [|exact F]. intros a [La (la & sa & Ta & Pa & Sa & Za)]. split; [rewrite app_length; lia|].
        exists la, sa. split; [apply tree_app; auto|]. split; auto. split; auto. rewrite app_length. lia.
      * constructor; auto. split; [eapply tree_bound; eauto|]. exists l, s. split; auto. split; auto. split; auto.
        rewrite app_length. rewrite seq_length in S. destruct OK. lia.
Qed.

Lemma thread_build_not_stuck : forall fuel nodes roots outs,
  items_ok nodes -> 2 * n <= length nodes + fuel -> thread_build I f n fuel nodes roots outs <> Stuck.
Proof.
  induction fuel as [|fuel IH]; intros nodes roots outs OK L; cbn [thread_build].
  - destruct (Nat.leb_spec (2 * n) (length nodes)); [discriminate|lia].
  - destruct (Nat.leb_spec (2 * n) (length nodes)); [discriminate|].
    rewrite (present_all nodes OK).
    assert (NE : seq 0 n <> []) by (destruct n; [lia|discriminate]).
    destruct (make_tree I f n (S (length (seq 0 n))) true (seq 0 n) nodes outs) as [[[r n1] o1]| |] eqn:M; try discriminate.
    + apply make_tree_spec in M; auto; cycle 1.
      { apply Forall_forall. intros x Hx. apply in_seq in Hx. lia. }
      { intros _. apply seq_length. }
      destruct M as (m & l & s & -> & T & P & S & NM).
      apply IH; [apply items_ok_app; auto|]. rewrite app_length. destruct (NM eq_refl) as [NM1 _]. destruct m; [contradiction|cbn; lia].
    + exfalso. eapply make_tree_not_stuck; [exact NE| |exact M]. lia.
Qed.
End Make.

Definition all_items (nodes : list anode) : Prop := Forall (fun nd => aDesc nd = 1) nodes.

Lemma all_items_ok : forall nodes, all_items nodes -> items_ok (length nodes) nodes.
Proof.
  intros nodes F. split; auto. intros i Hi. destruct (nth_error nodes i) as [nd|] eqn:E.
  - exists nd. split; auto. unfold all_items in F. rewrite Forall_forall in F. apply F. eapply nth_error_In; eauto.
  - apply nth_error_None in E. lia.
Qed.

(** A built index. *)
Record built (nodes : list anode) (ix : aindex) : Prop := mkBuilt {
  bt_items : xItems ix = length nodes;
  bt_nodes : exists more, xNodes ix = nodes ++ more;
  bt_ok : items_ok (xItems ix) (xNodes ix);
  bt_roots : Forall (good_root (xF ix) (xItems ix) (xNodes ix)) (xRoots ix);
  bt_some : nodes <> [] -> xRoots ix <> [];
  bt_few : length (xRoots ix) <= length nodes }.

Lemma Build_spec : forall I f nodes outs ix, all_items nodes -> Build I f nodes outs = Done ix ->
  built nodes ix /\ xF ix = f.
Proof.
  intros I f nodes outs ix A H. unfold Build in H.
  destruct (thread_build I f (length nodes) (length nodes) nodes [] outs) as [[n1 roots]| |] eqn:T; try discriminate.
  inversion H; subst. clear H.
  pose proof (all_items_ok nodes A) as OK.
  apply thread_build_spec in T; auto. destruct T as ((more & ->) & G & B & rs & E & LR & NE).
  cbn in E. subst rs. split; [|reflexivity].
  constructor; cbn [xItems xNodes xF xRoots]; auto.
  - rewrite <- app_assoc. eauto.
  - do 2 apply items_ok_app. auto.
  - eapply Forall_impl; [|exact G]. intros a [La (la & sa & Ta & Pa & Sa & Za)]. split; [rewrite app_length; lia|].
    exists la, sa. split; [apply tree_app; auto|]. split; auto. split; auto. rewrite app_length. lia.
  - intro N. apply NE. destruct nodes; [contradiction|cbn; lia].
Qed.

Lemma Build_not_stuck : forall I f nodes outs, all_items nodes -> Build I f nodes outs <> Stuck.
Proof.
  intros I f nodes outs A H. unfold Build in H.
  destruct (thread_build I f (length nodes) (length nodes) nodes [] outs) as [[n1 roots]| |] eqn:T; try discriminate.
  eapply thread_build_not_stuck; [| |exact T]; [apply all_items_ok; auto|lia].
Qed.

(** * Queries *)

Lemma take_at_perm : forall (A : Type) k (l : list A) x l', take_at k l = Some (x, l') -> Permutation l (x :: l').
Proof.
  intros A k l. revert k. induction l as [|y l IH]; intros k x l' H; cbn in H; [discriminate|].
  destruct k as [|k]; [inversion H; subst; reflexivity|].
  destruct (take_at k l) as [[z l'']|] eqn:E; inversion H; subst; [|reflexivity].
  rewrite (IH _ _ _ E). apply perm_swap.
Qed.
Lemma take_at_none : forall (A : Type) k (l : list A), take_at k l = None -> l = [].
Proof.
  intros A k l H. destruct l as [|x l]; auto. cbn in H. destruct k; [discriminate|].
  destruct (take_at k l) as [[]|]; discriminate.
Qed.

Lemma perm_sum : forall a b : list (list nat * nat), Permutation a b ->
  list_sum (map snd a) = list_sum (map snd b).
Proof. intros a b P. unfold list_sum. induction P; cbn in *; lia. Qed.
Lemma perm_concat : forall a b : list (list nat * nat), Permutation a b ->
  Permutation (concat (map fst a)) (concat (map fst b)).
Proof.
  intros a b P. induction P; cbn in *; auto.
  - apply Permutation_app_head; auto.
  - rewrite !app_assoc. apply Permutation_app_tail. apply Permutation_app_comm.
  - etransitivity; eauto.
Qed.

Lemma ltb_swo : forall P, swo Nat.ltb P.
Proof.
  intro P. constructor; intros.
  - apply Nat.ltb_irrefl.
  - rewrite Nat.ltb_lt in *. lia.
  - rewrite Nat.ltb_ge in *. lia.
Qed.

Lemma pair_swo : forall P : float * nat -> Prop, (forall x, P x -> is_nan (fst x) = false) -> swo pair_less P.
Proof.
  intros P N. unfold pair_less, fltb. constructor.
  - intros x Hx. rewrite SFltb_irr, Nat.ltb_irrefl. reflexivity.
  - intros x y z Hx Hy Hz A B. apply orb_true_iff in A, B. apply orb_true_iff.
    pose proof (N _ Hx). pose proof (N _ Hy). pose proof (N _ Hz).
    destruct A as [A|A], B as [B|B].
    + left. eapply SFltb_trans; eauto.
    + apply andb_true_iff in B. destruct B as [B _]. apply negb_true_iff in B. left.
      destruct (SFltb (fst x) (fst z)) eqn:E; auto.
      assert (SFltb (fst x) (fst y) = false) by (apply SFltb_neg with (fst z); auto). congruence.
    + apply andb_true_iff in A. destruct A as [A _]. apply negb_true_iff in A. left.
      destruct (SFltb (fst x) (fst z)) eqn:E; auto.
      assert (SFltb (fst y) (fst z) = false) by (apply SFltb_neg with (fst x); auto). congruence.
    + apply andb_true_iff in A, B. destruct A as [A1 A2], B as [B1 B2].
      apply negb_true_iff in A1, B1. right. apply andb_true_iff. split.
      * apply negb_true_iff. apply SFltb_neg with (fst y); auto.
      * rewrite Nat.ltb_lt in *. lia.
  - intros x y z Hx Hy Hz A B. apply orb_false_iff in A, B. apply orb_false_iff.
    pose proof (N _ Hx). pose proof (N _ Hy). pose proof (N _ Hz).
    destruct A as [A1 A2], B as [B1 B2]. split; [apply SFltb_neg with (fst y); auto|].
    apply andb_false_iff in A2, B2. apply andb_false_iff.
    rewrite negb_false_iff in *. rewrite Nat.ltb_ge in *.
    destruct A2 as [A2|A2].
    + left. destruct (SFltb (fst z) (fst x)) eqn:E; auto.
      assert (SFltb (fst y) (fst x) = false) by (apply SFltb_neg with (fst z); auto). congruence.
    + destruct B2 as [B2|B2].
      * left. destruct (SFltb (fst z) (fst x)) eqn:E; auto.
        assert (SFltb (fst z) (fst y) = false) by (apply SFltb_neg with (fst x); auto). congruence.
      * right. lia.
Qed.

Section Query.
Variable ix : aindex.
Let T (qe : float * nat) (ls : list nat * nat) : Prop :=
  tree (xF ix) (xItems ix) (xNodes ix) (snd qe) (fst ls) (snd ls).

Lemma nns_loop_spec : forall v k pick fuel q nns lss,
  Forall2 T q lss -> list_sum (map snd lss) <= fuel ->
  exists out rest, nns_loop ix v k pick fuel q nns = Ok out /\
    Permutation (out ++ rest) (nns ++ concat (map fst lss)) /\
    (rest = [] \/ (k <= N.of_nat (length out))%N).
Proof.
  intros v k pick. induction fuel as [|fuel IH]; intros q nns lss F S; cbn [nns_loop].
  - destruct (N.ltb_spec (N.of_nat (length nns)) k).
    + destruct (take_at (pick q) q) as [[[d i] q']|] eqn:E.
      * apply take_at_perm in E.
        destruct (Permutation_Forall2 E F) as (lss' & P & F').
        inversion F' as [|? [li si] ? lss1 Ti F1]; subst.
        assert (S' : list_sum (map snd lss) = list_sum (map snd ((li, si) :: lss1))).
        { apply perm_sum. exact P. }
        change (list_sum (map snd ((li, si) :: lss1))) with (si + list_sum (map snd lss1)) in S'. unfold T in Ti. cbn in Ti. inversion Ti; subst; lia.
      * apply take_at_none in E. subst q. inversion F; subst. exists nns, []. cbn. rewrite !app_nil_r. auto.
    + exists nns, (concat (map fst lss)). split; auto.
  - destruct (N.ltb_spec (N.of_nat (length nns)) k).
    + destruct (take_at (pick q) q) as [[[d i] q']|] eqn:E.
      * apply take_at_perm in E.
        destruct (Permutation_Forall2 E F) as (lss' & P & F').
        inversion F' as [|? [li si] ? lss1 Ti F1]; subst.
        assert (S' : list_sum (map snd lss) = list_sum (map snd ((li, si) :: lss1))).
        { apply perm_sum. exact P. }
        assert (C : Permutation (concat (map fst lss)) (li ++ concat (map fst lss1))).
        { change (li ++ concat (map fst lss1)) with (concat (map fst ((li, si) :: lss1))).
          apply perm_concat. exact P. }
        change (list_sum (map snd ((li, si) :: lss1))) with (si + list_sum (map snd lss1)) in S'. unfold T in Ti. cbn in Ti.
        inversion Ti as [i0 nd En D L|i0 nd En D K L|i0 nd a b la lb sa sb En K Kd Ta Tb]; subst; rewrite En.
        -- rewrite D. rewrite (proj2 (Nat.ltb_lt _ _) L). cbn [andb Nat.eqb].
           destruct (IH q' (nns ++ [i]) lss1 F1) as (out & rest & -> & P1 & R); [lia|].
           exists out, rest. split; auto. split; auto. rewrite P1, C, <- app_assoc. reflexivity.
        -- assert (X : (aDesc nd =? 1) && (i <? xItems ix) = false).
           { destruct (Nat.eqb_spec (aDesc nd) 1); auto. destruct (Nat.ltb_spec i (xItems ix)); auto. tauto. }
           rewrite X, (proj2 (Nat.leb_le _ _) K), (proj2 (Nat.eqb_eq _ _) L).
           destruct (IH q' (nns ++ aKids nd) lss1 F1) as (out & rest & -> & P1 & R); [lia|].
           exists out, rest. split; auto. split; auto. rewrite P1, C, <- app_assoc. reflexivity.
        -- assert (X : (aDesc nd =? 1) && (i <? xItems ix) = false).
           { destruct (Nat.eqb_spec (aDesc nd) 1); auto. unfold leaf_cap in K. lia. }
           rewrite X, (proj2 (Nat.leb_gt _ _) K), Kd.
           match goal with |- exists out rest, nns_loop _ _ _ _ _ (_ ++ [(?d1, _); (?d2, _)]) _ = _ /\ _ =>
             destruct (IH (q' ++ [(d1, b); (d2, a)]) nns (lss1 ++ [(lb, sb); (la, sa)])) as (out & rest & -> & P1 & R) end.
           { apply Forall2_app; auto. }
           { rewrite map_app, list_sum_app. change (list_sum (map snd [(lb, sb); (la, sa)])) with (sb + (sa + 0)). lia. }
           exists out, rest. split; auto. split; auto. rewrite P1, C, map_app, concat_app. cbn.
           rewrite app_nil_r. apply Permutation_app_head. rewrite Permutation_app_comm.
           apply Permutation_app_tail. apply Permutation_app_comm.
      * apply take_at_none in E. subst q. inversion F; subst. exists nns, []. cbn. rewrite !app_nil_r. auto.
    + exists nns, (concat (map fst lss)). split; auto.
Qed.

(** The first state of the queue. *)
Lemma roots_queue : forall roots, Forall (good_root (xF ix) (xItems ix) (xNodes ix)) roots ->
  exists lss, Forall2 T (map (fun r => (S754_infinity false, r)) roots) lss /\
    list_sum (map snd lss) <= length (xNodes ix) * length roots /\
    Forall (fun ls => Permutation (fst ls) (seq 0 (xItems ix))) lss.
Proof.
  induction roots as [|r roots IH]; intro F; cbn.
  - exists []. split; [constructor|]. split; [cbn; lia|constructor].
  - inversion F as [|? ? [_ (l & s & Tr & P & S & _)] F']; subst. destruct (IH F') as (lss & A & B & C).
    exists ((l, s) :: lss). split; [constructor; auto|].
    change (list_sum (map snd ((l, s) :: lss))) with (s + list_sum (map snd lss)). split; [lia|constructor; auto].
Qed.

(** Distances of sorted ids. *)
Definition below_last (last : option nat) (l : list nat) : Prop :=
  match last with Some i => Forall (fun j => i <= j) l | None => True end.

Lemma dists_spec : forall v l last,
  sorted Nat.ltb l -> below_last last l ->
  Forall (fun j => exists nd, nth_error (xNodes ix) j = Some nd /\ aDesc nd = 1) l ->
  exists ds, dists ix v last l = Ok ds /\
    NoDup (map snd ds) /\
    (forall j, In j (map snd ds) <-> In j l /\ last <> Some j) /\
    Forall (fun d => fst d = adist v (item_vec ix (snd d))) ds.
Proof.
  intros v. induction l as [|j l IH]; intros last S B F.
  - exists []. cbn. repeat split; try constructor; intros; tauto.
  - inversion S as [|? ? S' SF]; subst. inversion F as [|? ? (nd & E & D) F']; subst.
    assert (LE : Forall (fun x => j <= x) l).
    { eapply Forall_impl; [|exact SF]. intros x Hx. cbn in Hx. apply Nat.ltb_ge in Hx. exact Hx. }
    cbn [dists].
    destruct (match last with Some i => j =? i | None => false end) eqn:X.
    + destruct last as [i|]; [|discriminate]. apply Nat.eqb_eq in X. subst i.
      destruct (IH (Some j) S') as (ds & -> & ND & M & A); auto.
      exists ds. split; auto. split; auto. split; auto.
      intro x. rewrite M. cbn. split; [tauto|]. intros [[->|Hx] N]; [congruence|tauto].
    + rewrite E. destruct (IH (Some j) S') as (ds & -> & ND & M & A); auto.
      cbn [bind]. rewrite D. cbn [Nat.eqb]. eexists. split; [reflexivity|]. cbn [map snd].
      split; [constructor; auto; rewrite M; tauto|]. split.
      * intro x. cbn. rewrite M. split.
        -- intros [<-|[H1 H2]].
           ++ split; auto. intro Q. subst last. rewrite Nat.eqb_refl in X. discriminate.
           ++ split; auto. intro Q. subst last. cbn in B. inversion B; subst.
              rewrite Forall_forall in LE. specialize (LE _ H1). assert (x = j) by lia. subst. congruence.
        -- intros [[<-|H1] H2]; auto. destruct (Nat.eq_dec j x) as [->|N]; auto. right. split; auto. congruence.
      * constructor; auto. cbn. unfold item_vec. rewrite E. reflexivity.
Qed.

(** The result of a query, given the candidates that the loop has found. *)
Lemma rank_spec : forall G v n nns, items_ok (xItems ix) (xNodes ix) ->
  Forall (fun j => j < xItems ix) nns ->
  exists ds, dists ix v None (sort_run G Nat.ltb nns) = Ok ds /\
    let r := map snd (firstn n (sort_run G pair_less ds)) in
    NoDup r /\ incl r nns /\
    (forall m, NoDup m -> (forall j, In j m <-> In j nns) -> length r = Nat.min n (length m)) /\
    ((forall i, i < xItems ix -> is_nan (adist v (item_vec ix i)) = false) ->
     let dist i := adist v (item_vec ix i) in
     StronglySorted (fun i j => fltb (dist j) (dist i) = false) r /\
     forall i j, In i r -> In j nns -> ~ In j r -> fltb (dist j) (dist i) = false).
Proof.
  intros G v n nns [_ OK] F.
  destruct (dists_spec v (sort_run G Nat.ltb nns) None) as (ds & E & ND & M & A).
  { apply sort_sorted. apply ltb_swo. }
  { exact Logic.I. }
  { eapply Permutation_Forall; [apply sort_perm|]. eapply Forall_impl; [|exact F]. intros j Hj. apply OK. exact Hj. }
  exists ds. split; auto. cbv zeta.
  assert (M' : forall j, In j (map snd ds) <-> In j nns).
  { intro j. rewrite M. split.
    - intros [H _]. eapply Permutation_in; [apply Permutation_sym, (sort_perm G _ Nat.ltb)|exact H].
    - intro H. split; [eapply Permutation_in; [apply sort_perm|exact H]|discriminate]. }
  set (sd := sort_run G pair_less ds).
  assert (P : Permutation ds sd) by apply sort_perm.
  assert (NDs : NoDup (map snd sd)) by (eapply Permutation_NoDup; [apply Permutation_map; exact P|exact ND]).
  assert (Split : map snd sd = map snd (firstn n sd) ++ map snd (skipn n sd)) by (rewrite <- map_app, firstn_skipn; auto).
  rewrite Split in NDs.
  assert (ND1 : NoDup (map snd (firstn n sd))) by (clear - NDs; induction (map snd (firstn n sd)) as [|x l IH]; [constructor|];
    cbn in NDs; inversion NDs as [|? ? N1 N2]; subst; constructor; [intro Q; apply N1, in_or_app; auto|apply IH; auto]).
  split; [exact ND1|].
  assert (In1 : forall j, In j nns <-> In j (map snd (firstn n sd)) \/ In j (map snd (skipn n sd))).
  { intro j. rewrite <- M', <- in_app_iff, <- Split.
    split; apply Permutation_in; [|apply Permutation_sym]; apply Permutation_map; exact P. }
  split; [intros j Hj; apply In1; auto|].
  split.
  { intros m Nm Hm. rewrite map_length, firstn_length. f_equal.
    transitivity (length (map snd sd)); [rewrite map_length; auto|].
    apply Permutation_length. apply NoDup_Permutation; auto; [rewrite Split; auto|].
    intro j. rewrite Hm, In1, Split, in_app_iff. tauto. }
  intro NN.
  assert (NNd : forall d, In d ds -> is_nan (fst d) = false).
  { intros d Hd. rewrite Forall_forall in A. rewrite (A d Hd). apply NN.
    rewrite Forall_forall in F. apply F. apply M'. apply in_map. exact Hd. }
  assert (Ss : sorted pair_less sd) by (apply sort_sorted, pair_swo; exact NNd).
  assert (A' : forall d, In d sd -> fst d = adist v (item_vec ix (snd d))).
  { intros d Hd. rewrite Forall_forall in A. apply A. eapply Permutation_in; [apply Permutation_sym; exact P|exact Hd]. }
  assert (Ord : forall a b, In a sd -> In b sd -> pair_less b a = false ->
     fltb (adist v (item_vec ix (snd b))) (adist v (item_vec ix (snd a))) = false).
  { intros a b Ha Hb H. unfold pair_less in H. apply orb_false_iff in H. destruct H as [H _].
    rewrite <- (A' a Ha), <- (A' b Hb). exact H. }
  clear - Ss Ord In1 Split. 
  assert (SS1 : StronglySorted (fun a b => pair_less b a = false) (firstn n sd) /\
     forall a b, In a (firstn n sd) -> In b (skipn n sd) -> pair_less b a = false).
  { unfold sorted in Ss. clear - Ss. revert n. induction Ss as [|x l S IH Fx]; intro n.
    - rewrite firstn_nil, skipn_nil. split; [constructor|intros a b []].
    - destruct n as [|n]; cbn.
      + split; [constructor|intros a b []].
      + destruct (IH n) as [I1 I2]. rewrite Forall_forall in Fx.
        assert (Sp : forall z, In z (firstn n l) \/ In z (skipn n l) -> In z l).
        { intros z Hz. rewrite <- (firstn_skipn n l). apply in_or_app. exact Hz. }
        split.
        * constructor; auto. apply Forall_forall. intros z Hz. apply Fx. apply Sp. auto.
        * intros a b [<-|Ha] Hb; [apply Fx, Sp; auto|auto]. }
  destruct SS1 as [S1 S2].
  assert (In2 : forall z, In z (firstn n sd) \/ In z (skipn n sd) -> In z sd).
  { intros z Hz. rewrite <- (firstn_skipn n sd). apply in_or_app. exact Hz. }
  split.
  - assert (Sub : forall z, In z (firstn n sd) -> In z sd) by auto.
    clear - S1 Ord Sub. induction S1 as [|x l S IH Fx]; cbn; constructor.
    + apply IH. intros z Hz. apply Sub. right. exact Hz.
    + apply Forall_forall. intros j Hj. apply in_map_iff in Hj. destruct Hj as (b & <- & Hb).
      apply Ord; [apply Sub; left; auto|apply Sub; right; auto|]. rewrite Forall_forall in Fx. apply Fx. exact Hb.
  - intros i j Hi Hj NI. apply In1 in Hj. destruct Hj as [Hj|Hj]; [contradiction|].
    apply in_map_iff in Hi, Hj. destruct Hi as (a & <- & Ha), Hj as (b & <- & Hb).
    apply Ord; auto.
Qed.
End Query.

Lemma concat_seq_in : forall n lss, Forall (fun ls : list nat * nat => Permutation (fst ls) (seq 0 n)) lss ->
  (forall j, In j (concat (map fst lss)) -> j < n) /\ length (concat (map fst lss)) = length lss * n /\
  (lss <> [] -> forall j, j < n -> In j (concat (map fst lss))).
Proof.
  intros n lss F. induction F as [|[l s] lss P F (A & B & C)]; cbn.
  - split; [intros j []|]. split; [reflexivity|congruence].
  - cbn in P. split; [|split].
    + intros j H. apply in_app_or in H. destruct H as [H|H]; auto.
      apply (Permutation_in _ P) in H. apply in_seq in H. lia.
    + rewrite app_length, B, (Permutation_length P), seq_length. lia.
    + intros _ j H. apply in_or_app. left. apply (Permutation_in _ (Permutation_sym P)). apply in_seq. lia.
Qed.

Lemma Forall2_len : forall (A B : Type) (R : A -> B -> Prop) l l', Forall2 R l l' -> length l = length l'.
Proof. intros A B R l l' F. induction F; cbn; auto. Qed.

(** What a query finds: its candidates, ranked. *)
Lemma GetNns_found : forall G nodes ix pick w n k, built nodes ix -> xF ix <= length w ->
  exists nns rest,
    nns_loop ix (firstn (xF ix) w) (budget k n (length (xRoots ix))) pick (nns_fuel ix)
      (map (fun r => (S754_infinity false, r)) (xRoots ix)) [] = Ok nns /\
    Permutation (nns ++ rest) (concat (map (fun _ => seq 0 (xItems ix)) (xRoots ix))) /\
    (rest = [] \/ (budget k n (length (xRoots ix)) <= N.of_nat (length nns))%N) /\
    exists ds, dists ix (firstn (xF ix) w) None (sort_run G Nat.ltb nns) = Ok ds /\
      GetNns G ix pick (nns_fuel ix) w n k = Ok (map snd (firstn n (sort_run G pair_less ds))).
Proof.
  intros G nodes ix pick w n k B L. unfold GetNns.
  rewrite (proj2 (Nat.ltb_ge _ _) L).
  destruct (roots_queue ix (xRoots ix) (bt_roots _ _ B)) as (lss & F & S & PP).
  destruct (nns_loop_spec ix (firstn (xF ix) w) (budget k n (length (xRoots ix))) pick (nns_fuel ix) _ [] lss F)
    as (nns & rest & EL & P & R); [unfold nns_fuel; lia|]. rewrite EL.
  cbn [app] in P. cbn [bind].
  destruct (concat_seq_in _ _ PP) as (C1 & C2 & C3).
  destruct (rank_spec ix G (firstn (xF ix) w) n nns (bt_ok _ _ B)) as (ds & E & _).
  { apply Forall_forall. intros j Hj. apply C1. apply (Permutation_in _ P). apply in_or_app. auto. }
  exists nns, rest. split; [reflexivity|]. split; [|split; auto].
  - rewrite P. clear - F PP. remember (map (fun r => (S754_infinity false, r)) (xRoots ix)) as q eqn:Q.
    revert Q. generalize (xRoots ix) as roots. revert PP. induction F; intros PP roots Q; destruct roots; try discriminate; cbn; auto.
    inversion Q; subst. inversion PP; subst. apply Permutation_app; auto.
  - exists ds. rewrite E. auto.
Qed.

Lemma nns_loop_keeps : forall ix v k pick fuel q nns out,
  nns_loop ix v k pick fuel q nns = Ok out -> exists more, out = nns ++ more.
Proof.
  intros ix v k pick. induction fuel as [|fuel IH]; intros q nns out H; cbn [nns_loop] in H.
  - destruct (_ <? _)%N; [|injection H as <-; exists []; rewrite app_nil_r; auto].
    destruct (take_at _ _) as [[[d i] q']|]; [discriminate|injection H as <-; exists []; rewrite app_nil_r; auto].
  - destruct (_ <? _)%N; [|injection H as <-; exists []; rewrite app_nil_r; auto].
    destruct (take_at _ _) as [[[d i] q']|]; [|injection H as <-; exists []; rewrite app_nil_r; auto].
    destruct (nth_error (xNodes ix) i) as [nd|]; [|discriminate].
    destruct (_ && _).
    { apply IH in H. destruct H as [more ->]. exists ([i] ++ more). rewrite app_assoc. auto. }
    destruct (_ <=? _).
    { destruct (_ =? _); [|discriminate]. apply IH in H. destruct H as [more ->]. exists (aKids nd ++ more). rewrite app_assoc. auto. }
    destruct (aKids nd) as [|c0 [|c1 [|]]]; try discriminate. eapply IH; eauto.
Qed.

(** In an index that fits into one list, the first step finds everything. *)
Lemma nns_loop_small : forall nodes ix v k pick fuel out, built nodes ix -> nodes <> [] ->
  xItems ix <= leaf_cap (xF ix) -> k <> 0%N ->
  nns_loop ix v k pick fuel (map (fun r => (S754_infinity false, r)) (xRoots ix)) [] = Ok out ->
  forall j, j < xItems ix -> In j out.
Proof.
  intros nodes ix v k pick fuel out B NE SM K0 H j Hj.
  assert (C : (N.of_nat (length (@nil nat)) <? k)%N = true) by (cbn; apply N.ltb_lt; lia).
  assert (S1 : exists nns q', incl (seq 0 (xItems ix)) nns /\
    exists fuel', nns_loop ix v k pick fuel' q' nns = Ok out).
  { destruct fuel as [|fuel]; cbn [nns_loop] in H; rewrite C in H;
      destruct (take_at _ _) as [[[d i] q']|] eqn:E; try discriminate;
      try (apply take_at_none in E; exfalso; apply map_eq_nil in E; revert E; apply (bt_some _ _ B); exact NE).
    apply take_at_perm in E.
    assert (Hi : In i (xRoots ix)).
    { assert (X : In (d, i) (map (fun r => (S754_infinity false, r)) (xRoots ix)))
        by (apply (Permutation_in _ (Permutation_sym E)); left; auto).
      apply in_map_iff in X. destruct X as (r & X & Hr). injection X as _ <-. exact Hr. }
    pose proof (bt_roots _ _ B) as R. rewrite Forall_forall in R. destruct (R i Hi) as [_ (l & s & T & P & _ & S1)].
    specialize (S1 SM). inversion T as [i0 nd En D L|i0 nd En D Kc L|i0 nd a b la lb sa sb En Kc Kd Ta Tb]; subst;
      rewrite En in H.
    - rewrite D, (proj2 (Nat.ltb_lt _ _) L) in H. cbn [andb Nat.eqb app] in H.
      exists [i], q'. split; [|eauto]. intros x Hx. apply (Permutation_in _ (Permutation_sym P)). exact Hx.
    - assert (X : (aDesc nd =? 1) && (i <? xItems ix) = false).
      { destruct (Nat.eqb_spec (aDesc nd) 1); auto. destruct (Nat.ltb_spec i (xItems ix)); auto. tauto. }
      rewrite X, (proj2 (Nat.leb_le _ _) Kc), (proj2 (Nat.eqb_eq _ _) L) in H. cbn [app] in H.
      exists (aKids nd), q'. split; [|eauto]. intros x Hx. apply (Permutation_in _ (Permutation_sym P)). exact Hx.
    - exfalso. inversion Ta; inversion Tb; subst; lia. }
  destruct S1 as (nns & q' & IN & fuel' & H'). apply nns_loop_keeps in H'. destruct H' as [more ->].
  apply in_or_app. left. apply IN. apply in_seq. lia.
Qed.

Lemma concat_repeat : forall n (roots : list nat), 
  (forall j, In j (concat (map (fun _ => seq 0 n) roots)) -> j < n) /\
  length (concat (map (fun _ => seq 0 n) roots)) = length roots * n /\
  (roots <> [] -> forall j, j < n -> In j (concat (map (fun _ => seq 0 n) roots))).
Proof.
  intros n roots. induction roots as [|r roots (A & B & C)]; cbn.
  - split; [intros j []|]. split; [reflexivity|congruence].
  - split; [|split].
    + intros j H. apply in_app_or in H. destruct H as [H|H]; auto. apply in_seq in H. lia.
    + rewrite app_length, B, seq_length. lia.
    + intros _ j H. apply in_or_app. left. apply in_seq. lia.
Qed.

Lemma GetNns_sound : forall G nodes ix pick w n k, built nodes ix -> xF ix <= length w ->
  exists r, GetNns G ix pick (nns_fuel ix) w n k = Ok r /\
    NoDup r /\ Forall (fun i => i < xItems ix) r /\ length r <= n /\
    (let dist i := adist (firstn (xF ix) w) (item_vec ix i) in
     (forall i, i < xItems ix -> is_nan (dist i) = false) ->
     StronglySorted (fun i j => fltb (dist j) (dist i) = false) r).
Proof.
  intros G nodes ix pick w n k B L.
  destruct (GetNns_found G nodes ix pick w n k B L) as (nns & rest & _ & P & _ & ds & E & ->).
  destruct (concat_repeat (xItems ix) (xRoots ix)) as (C1 & _).
  assert (F : Forall (fun j => j < xItems ix) nns).
  { apply Forall_forall. intros j Hj. apply C1. apply (Permutation_in _ P). apply in_or_app. auto. }
  destruct (rank_spec ix G (firstn (xF ix) w) n nns (bt_ok _ _ B) F) as (ds' & E' & R1 & R2 & R3 & R4).
  rewrite E in E'. injection E' as <-.
  eexists. split; [reflexivity|]. split; [exact R1|]. split; [|split].
  - apply Forall_forall. intros j Hj. rewrite Forall_forall in F. apply F, R2, Hj.
  - rewrite map_length, firstn_length. lia.
  - cbv zeta. intro NN. apply R4. exact NN.
Qed.

(** Enough budget for every tree, or all items in one list. *)
Definition unlimited (ix : aindex) (k : Z) (n : nat) : Prop :=
  (N.of_nat (length (xRoots ix) * xItems ix) <= budget k n (length (xRoots ix)))%N \/
  (xItems ix <= leaf_cap (xF ix) /\ budget k n (length (xRoots ix)) <> 0%N).

Lemma GetNns_all : forall G nodes ix pick w n k, built nodes ix -> xF ix <= length w -> unlimited ix k n ->
  exists r, GetNns G ix pick (nns_fuel ix) w n k = Ok r /\ NoDup r /\ Forall (fun i => i < xItems ix) r /\
    length r = Nat.min n (xItems ix) /\
    (let dist i := adist (firstn (xF ix) w) (item_vec ix i) in
     (forall i, i < xItems ix -> is_nan (dist i) = false) -> nearest dist (xItems ix) n r).
Proof.
  intros G nodes ix pick w n k B L K.
  destruct (GetNns_found G nodes ix pick w n k B L) as (nns & rest & EL & P & R & ds & E & ->).
  destruct (concat_repeat (xItems ix) (xRoots ix)) as (C1 & C2 & C3).
  assert (F : Forall (fun j => j < xItems ix) nns).
  { apply Forall_forall. intros j Hj. apply C1. apply (Permutation_in _ P). apply in_or_app. auto. }
  assert (All : forall j, In j nns <-> j < xItems ix).
  { intro j. split; [rewrite Forall_forall in F; apply F|]. intro H.
    assert (NE : nodes <> []) by (rewrite (bt_items _ _ B) in H; destruct nodes; [cbn in H; lia|discriminate]).
    destruct K as [K|[K1 K2]].
    - assert (RE : rest = []).
      { destruct R as [R|R]; auto. apply Permutation_length in P. rewrite app_length, C2 in P.
        destruct rest; auto. cbn in P. lia. }
      subst rest. rewrite app_nil_r in P.
      apply (Permutation_in _ (Permutation_sym P)). apply C3; auto. apply (bt_some _ _ B). exact NE.
    - eapply nns_loop_small; eauto. }
  destruct (rank_spec ix G (firstn (xF ix) w) n nns (bt_ok _ _ B) F) as (ds' & E' & R1 & R2 & R3 & R4).
  rewrite E in E'. injection E' as <-.
  assert (FR : Forall (fun i => i < xItems ix) (map snd (firstn n (sort_run G pair_less ds)))).
  { apply Forall_forall. intros j Hj. apply All, R2, Hj. }
  assert (LR : length (map snd (firstn n (sort_run G pair_less ds))) = Nat.min n (xItems ix)).
  { rewrite (R3 (seq 0 (xItems ix))); [rewrite seq_length; auto|apply seq_NoDup|].
    intro j. rewrite in_seq, All. lia. }
  eexists. split; [reflexivity|]. split; [exact R1|]. split; [exact FR|]. split; [exact LR|].
  cbv zeta. intro NN. specialize (R4 NN). destruct R4 as [S1 S2]. constructor; auto.
  intros i j Hi Hj Hn. apply S2; auto. apply All. exact Hj.
Qed.

Lemma sort_nil : forall G (A : Type) (less : A -> A -> bool), sort_run G less [] = [].
Proof. intros G A less. apply Permutation_nil, sort_perm. Qed.
Lemma nns_loop_zero : forall ix v pick fuel q, nns_loop ix v 0 pick fuel q [] = Ok [].
Proof. intros ix v pick fuel q. destruct fuel; reflexivity. Qed.

Lemma GetNns_zero : forall G ix pick fuel w n k r, budget k n (length (xRoots ix)) = 0%N ->
  GetNns G ix pick fuel w n k = Ok r -> r = [].
Proof.
  intros G ix pick fuel w n k r Z H. unfold GetNns in H. destruct (_ <? _); [discriminate|].
  rewrite Z, nns_loop_zero in H. cbn [bind] in H. rewrite sort_nil in H. cbn [dists bind] in H.
  rewrite sort_nil, firstn_nil in H. injection H as <-. reflexivity.
Qed.

(** * The index of a dataset *)

Lemma loop_fold : forall (S : Type) (g : S -> entry -> S) tick order (m : dbmap) s,
  snd (fst (LoopDBMap tick (fun s e => (g s e, None)) order m s)) = fold_left g (visited tick order) s.
Proof.
  intros S g tick. induction order as [|[k e] order IH]; intros m s; cbn; [reflexivity|].
  unfold visited. cbn. destruct (expired (tick k) e); cbn; apply IH.
Qed.

Lemma list_set_mid : forall (A : Type) (a : list A) x b y, list_set (a ++ x :: b) (length a) y = Some (a ++ y :: b).
Proof. intros A a x b y. induction a as [|z a IH]; cbn; [reflexivity|]. rewrite IH. reflexivity. Qed.
Lemma list_set_end : forall (A : Type) (a : list A) y, list_set a (length a) y = None.
Proof. intros A a y. induction a as [|z a IH]; cbn; [reflexivity|]. rewrite IH. reflexivity. Qed.

(** The dimension, the items and the data index after a scan. *)
Definition dim_of (seen : list entry) : option nat :=
  match seen with [] => None | e :: _ => Some (length (features (edatum e))) end.
Definition item_of (f : nat) (e : entry) : anode := mkANode 1 [] (firstn f (features (edatum e))).
Record scanned (c : nat) (seen : list entry) (s : istate) : Prop := mkScanned {
  sc_n : iN s = N.of_nat (length seen);
  sc_dim : iDim s = dim_of seen;
  sc_nodes : forall f, dim_of seen = Some f -> iNodes s = map (item_of f) (firstn c seen);
  sc_none : dim_of seen = None -> iNodes s = [];
  sc_data : iData s = map (fun e => Some (edatum e)) (firstn c seen) ++ repeat None (c - length seen);
  sc_len : forall f e, dim_of seen = Some f -> In e (firstn c seen) -> f <= length (features (edatum e));
  sc_key : forall e, In e seen -> dkey (edatum e) <> None }.

Lemma featureOf_ok : forall d fe, featureOf (Some d) = Ok fe -> fe = features d /\ dkey d <> None.
Proof.
  intros [[k|] v] fe H; cbn in *; [|discriminate]. injection H as <-. split; [reflexivity|discriminate].
Qed.

Lemma firstn_snoc_lt : forall (A : Type) c (l : list A) x, length l < c -> firstn c (l ++ [x]) = firstn c l ++ [x].
Proof. intros A c l x H. rewrite firstn_app, (firstn_all2 l) by lia. f_equal. destruct (c - length l) eqn:E; [lia|]. cbn. rewrite firstn_nil. reflexivity. Qed.
Lemma firstn_snoc_ge : forall (A : Type) c (l : list A) x, c <= length l -> firstn c (l ++ [x]) = firstn c l.
Proof. intros A c l x H. rewrite firstn_app. replace (c - length l) with 0 by lia. cbn. apply app_nil_r. Qed.

Lemma index_entry_inv : forall c seen s e s', scanned c seen s -> 0 < c -> (N.of_nat (length seen) + 1 < M64)%N ->
  index_entry true s e = Ok s' -> scanned c (seen ++ [e]) s'.
Proof.
  intros c seen s e s' [N D Nd Nn Da Le Ky] C B H. unfold index_entry in H.
  assert (U : u64 (iN s + 1) = N.of_nat (S (length seen))).
  { rewrite N. unfold u64. rewrite N.mod_small by lia. lia. }
  rewrite U in H. destruct (featureOf (Some (edatum e))) as [fe| |] eqn:FE; try discriminate. cbn [bind] in H.
  destruct (featureOf_ok _ _ FE) as [-> KE].
  replace (N.to_nat (N.of_nat (S (length seen)) - 1)) with (length seen) in H by lia.
  assert (LD : length (iData s) = c).
  { rewrite Da, app_length, map_length, firstn_length, repeat_length. lia. }
  rewrite LD in H. cbn [andb] in H.
  assert (K2 : forall x, In x (seen ++ [e]) -> dkey (edatum x) <> None).
  { intros x Hx. apply in_app_or in Hx. destruct Hx as [Hx|[<-|[]]]; auto. }
  assert (D2 : forall f, dim_of seen = Some f -> dim_of (seen ++ [e]) = Some f) by (intros f; destruct seen; [discriminate|auto]).
  destruct (Nat.ltb_spec (length seen) c) as [LT|GE].
  - set (f := match iDim s with Some f => f | None => length (features (edatum e)) end) in *.
    assert (Df : dim_of (seen ++ [e]) = Some f).
    { unfold f. rewrite D. destruct seen; reflexivity. }
    assert (Nf : iNodes s = map (item_of f) (firstn c seen)).
    { destruct (dim_of seen) as [f0|] eqn:DS.
      - specialize (D2 _ eq_refl). rewrite Df in D2. injection D2 as ->. apply Nd. reflexivity.
      - destruct seen; [|discriminate]. rewrite firstn_nil. apply Nn. reflexivity. }
    unfold AddItem in H. destruct (Nat.ltb_spec (length (features (edatum e))) f) as [Lf|Lf]; [discriminate|].
    assert (LN : length (iNodes s) = length seen) by (rewrite Nf, map_length, firstn_length; lia).
    rewrite <- LN in H. rewrite list_set_end in H. cbn [bind] in H. rewrite LN, Nat.sub_diag in H. cbn [repeat app] in H.
    assert (E1 : iData s = map (fun e => Some (edatum e)) (firstn c seen) ++ None :: repeat None (c - length (seen ++ [e]))).
    { rewrite Da. f_equal. rewrite app_length. cbn. replace (c - length seen) with (S (c - (length seen + 1))) by lia. reflexivity. }
    rewrite E1 in H. replace (length seen) with (length (map (fun e => Some (edatum e)) (firstn c seen))) in H at 1
      by (rewrite map_length, firstn_length; lia).
    rewrite list_set_mid in H. injection H as <-. constructor; cbn [iN iDim iNodes iData]; auto.
    + rewrite app_length. cbn. lia.
    + intros g Hg. rewrite Df in Hg. injection Hg as <-. rewrite firstn_snoc_lt by auto. rewrite map_app, Nf. reflexivity.
    + intro Z. rewrite Df in Z. discriminate.
    + rewrite firstn_snoc_lt by auto. rewrite map_app, <- app_assoc. reflexivity.
    + intros g x Hg Hx. rewrite Df in Hg. injection Hg as <-. rewrite firstn_snoc_lt in Hx by auto.
      apply in_app_or in Hx. destruct Hx as [Hx|[<-|[]]]; auto.
      destruct (dim_of seen) as [f0|] eqn:DS.
      * specialize (D2 _ eq_refl). rewrite Df in D2. injection D2 as ->. apply Le; auto.
      * destruct seen; [|discriminate]. rewrite firstn_nil in Hx. destruct Hx.
  - injection H as <-.
    assert (Df : dim_of (seen ++ [e]) = dim_of seen) by (destruct seen; [cbn in GE; lia|reflexivity]).
    constructor; cbn [iN iDim iNodes iData]; auto.
    + rewrite app_length. cbn. lia.
    + rewrite Df. exact D.
    + intros g Hg. rewrite Df in Hg. rewrite firstn_snoc_ge by auto. apply Nd; auto.
    + intro Z. rewrite Df in Z. auto.
    + rewrite firstn_snoc_ge by auto. rewrite Da. f_equal. f_equal. rewrite app_length. cbn. lia.
    + intros g x Hg Hx. rewrite Df in Hg. rewrite firstn_snoc_ge in Hx by auto. apply Le; auto.
Qed.

Definition index_fold (alive : bool) (seen : list entry) (s : res istate) : res istate :=
  fold_left (fun s e => r <- s ;; index_entry alive r e) seen s.

Lemma index_scan_fold : forall alive N0 tick order m,
  index_scan alive N0 tick order m =
  index_fold alive (visited tick order) (Ok (mkIstate 0 None [] (repeat None (N.to_nat (N.max 1000 N0))))).
Proof.
  intros alive N0 tick order m. unfold index_scan, index_fold. rewrite <- (loop_fold _ _ tick order m).
  destruct (LoopDBMap _ _ _ _ _) as [[m' s] er]. reflexivity.
Qed.

Lemma index_fold_fail : forall alive seen s, (forall r, s <> Ok r) -> forall r, index_fold alive seen s <> Ok r.
Proof.
  intros alive seen. induction seen as [|e seen IH]; intros s N r; cbn; [apply N|].
  apply IH. intros r' H. destruct s; cbn in H; try discriminate. eapply N; reflexivity.
Qed.

Lemma index_fold_inv : forall c rest seen s s', scanned c seen s -> 0 < c ->
  (N.of_nat (length seen + length rest) < M64)%N ->
  index_fold true rest (Ok s) = Ok s' -> scanned c (seen ++ rest) s'.
Proof.
  intros c rest. induction rest as [|e rest IH]; intros seen s s' S C B H.
  - cbn in H. injection H as <-. rewrite app_nil_r. exact S.
  - cbn [index_fold fold_left bind] in H. destruct (index_entry true s e) as [s1| |] eqn:E.
    + rewrite (app_assoc seen [e] rest : seen ++ e :: rest = _). eapply IH; [|exact C| |exact H].
      * eapply index_entry_inv; eauto. cbn in B. lia.
      * rewrite app_length. cbn in *. lia.
    + exfalso. eapply index_fold_fail; [|exact H]. intros r Q. discriminate.
    + exfalso. eapply index_fold_fail; [|exact H]. intros r Q. discriminate.
Qed.

Lemma scanned_init : forall c, scanned c [] (mkIstate 0 None [] (repeat None c)).
Proof.
  intro c. constructor; cbn [iN iDim iNodes iData dim_of]; auto; try discriminate.
  rewrite firstn_nil. cbn. rewrite Nat.sub_0_r. reflexivity.
Qed.

Lemma index_scan_spec : forall N0 tick order m s, (N.of_nat (length order) < M64)%N ->
  index_scan true N0 tick order m = Ok s ->
  scanned (N.to_nat (N.max 1000 N0)) (visited tick order) s.
Proof.
  intros N0 tick order m s B H. rewrite index_scan_fold in H.
  change (visited tick order) with ([] ++ visited tick order). eapply index_fold_inv; [apply scanned_init| | |exact H].
  - lia.
  - assert (length (visited tick order) <= length order); [|cbn; lia].
    unfold visited. rewrite map_length. clear. induction order as [|a l IH]; cbn; auto. destruct (negb _); cbn; lia.
Qed.

(** With vectors of one length and keys everywhere the scan succeeds. *)
Lemma index_entry_ok : forall c seen s e, scanned c seen s -> 0 < c -> (N.of_nat (length seen) + 1 < M64)%N ->
  dkey (edatum e) <> None -> (forall f, dim_of seen = Some f -> f <= length (features (edatum e))) ->
  exists s', index_entry true s e = Ok s'.
Proof.
  intros c seen s e [N D Nd Nn Da Le Ky] C B KE LE. unfold index_entry.
  assert (U : u64 (iN s + 1) = N.of_nat (S (length seen))).
  { rewrite N. unfold u64. rewrite N.mod_small by lia. lia. }
  rewrite U. assert (FE : featureOf (Some (edatum e)) = Ok (features (edatum e))).
  { unfold featureOf, features. destruct (edatum e) as [[k|] v]; cbn in *; [reflexivity|congruence]. }
  rewrite FE. cbn [bind].
  replace (N.to_nat (N.of_nat (S (length seen)) - 1)) with (length seen) by lia.
  assert (LD : length (iData s) = c).
  { rewrite Da, app_length, map_length, firstn_length, repeat_length. lia. }
  rewrite LD. cbn [andb]. destruct (Nat.ltb_spec (length seen) c) as [LT|GE]; [|eauto].
  unfold AddItem.
  assert (LF : match iDim s with Some f => f | None => length (features (edatum e)) end <= length (features (edatum e))).
  { rewrite D. destruct (dim_of seen) eqn:DS; auto. }
  rewrite (proj2 (Nat.ltb_ge _ _) LF).
  assert (S : exists data, list_set (iData s) (length seen) (Some (edatum e)) = Some data).
  { rewrite Da. replace (c - length seen) with (Datatypes.S (c - length seen - 1)) by lia. cbn [repeat].
    pose proof (list_set_mid _ (map (fun e => Some (edatum e)) (firstn c seen)) None
      (repeat None (c - length seen - 1)) (Some (edatum e))) as Q.
    rewrite map_length, firstn_length, Nat.min_r in Q by lia. eauto. }
  destruct S as [data ->]. destruct (list_set (iNodes s) _ _); cbn [bind]; eauto.
Qed.

Lemma index_scan_ok : forall N0 tick order m f, (N.of_nat (length order) < M64)%N ->
  (forall e, In e (visited tick order) -> dkey (edatum e) <> None /\ length (features (edatum e)) = f) ->
  exists s, index_scan true N0 tick order m = Ok s.
Proof.
  intros N0 tick order m f B H. rewrite index_scan_fold.
  set (c := N.to_nat (N.max 1000 N0)). assert (C : 0 < c) by (unfold c; lia).
  assert (LV : (N.of_nat (length (visited tick order)) < M64)%N).
  { assert (length (visited tick order) <= length order); [|lia].
    unfold visited. rewrite map_length. clear. induction order as [|a l IH]; cbn; auto. destruct (negb _); cbn; lia. }
  assert (Gen : forall rest seen s, scanned c seen s -> (N.of_nat (length seen + length rest) < M64)%N ->
    (forall e, In e (seen ++ rest) -> dkey (edatum e) <> None /\ length (features (edatum e)) = f) ->
    exists s', index_fold true rest (Ok s) = Ok s').
  { induction rest as [|e rest IH]; intros seen s S L A; [cbn; eauto|].
    cbn [index_fold fold_left bind].
    destruct (A e) as [KE LE]; [apply in_or_app; right; left; auto|].
    destruct (index_entry_ok c seen s e S C) as [s1 E1]; auto.
    { cbn in L. lia. }
    { intros g Hg. destruct seen as [|e0 seen0]; [discriminate|]. injection Hg as <-.
      destruct (A e0) as [_ L0]; [left; auto|]. lia. }
    rewrite E1. eapply (IH (seen ++ [e])).
    - eapply index_entry_inv; eauto. cbn in L. lia.
    - rewrite app_length. cbn in *. lia.
    - intros x Hx. apply A. rewrite <- app_assoc in Hx. exact Hx. }
  eapply (Gen _ []); [apply scanned_init|cbn; exact LV|exact H].
Qed.

Lemma nth_repeat_none : forall (A : Type) k i (x : A), nth_error (repeat x k) i = if i <? k then Some x else None.
Proof.
  induction k as [|k IH]; intros i x; destruct i; cbn [repeat nth_error]; auto. rewrite IH.
  destruct (Nat.ltb_spec i k), (Nat.ltb_spec (S i) (S k)); auto; lia.
Qed.

Lemma items_of_all : forall f l, all_items (map (item_of f) l).
Proof. intros f l. apply Forall_forall. intros nd H. apply in_map_iff in H. destruct H as (e & <- & _). reflexivity. Qed.

Lemma scan_dead : forall N0 tick order m s, index_scan false N0 tick order m = Ok s -> iDim s = None.
Proof.
  intros N0 tick order m s H. rewrite index_scan_fold in H.
  assert (Gen : forall seen s0 s1, iDim s0 = None -> index_fold false seen (Ok s0) = Ok s1 -> iDim s1 = None).
  { induction seen as [|e seen IH]; intros s0 s1 D E; [cbn in E; injection E as <-; auto|].
    cbn [index_fold fold_left bind] in E. destruct (index_entry false s0 e) as [s2| |] eqn:X.
    - eapply IH; [|exact E]. unfold index_entry in X. destruct (featureOf _); try discriminate. cbn in X.
      injection X as <-. exact D.
    - exfalso. eapply index_fold_fail; [|exact E]. intros r Q. discriminate.
    - exfalso. eapply index_fold_fail; [|exact E]. intros r Q. discriminate. }
  eapply Gen; [|exact H]. reflexivity.
Qed.

Record idx (a : annoyer) (c : nat) (live : list entry) : Prop := mkIdx {
  ix_cap : 1000 <= c;
  ix_dim : dim_of live = Some (xF (yIndex a));
  ix_built : built (map (item_of (xF (yIndex a))) (firstn c live)) (yIndex a);
  ix_data : yFrom a = map (fun e => Some (edatum e)) (firstn c live) ++ repeat None (c - length live);
  ix_len : forall e, In e (firstn c live) -> xF (yIndex a) <= length (features (edatum e));
  ix_key : forall e, In e live -> dkey (edatum e) <> None }.

Lemma scan_idx : forall I old N0 tick order m s outs a, (N.of_nat (length order) < M64)%N ->
  index_scan true N0 tick order m = Ok s -> visited tick order <> [] -> index_swap I old s outs = Done (Some a) ->
  idx a (N.to_nat (N.max 1000 N0)) (visited tick order).
Proof.
  intros I old N0 tick order m s outs a B S NE H. apply index_scan_spec in S; auto.
  destruct S as [N D Nd Nn Da Le Ky]. unfold index_swap in H.
  destruct (dim_of (visited tick order)) as [f|] eqn:DS; [|destruct (visited tick order); [contradiction|discriminate]].
  rewrite D in H. destruct (Build I f (iNodes s) outs) as [ix| |] eqn:BU; try discriminate.
  injection H as <-. rewrite (Nd f eq_refl) in BU. apply Build_spec in BU; [|apply items_of_all].
  destruct BU as [BT <-]. constructor; cbn [yIndex yFrom]; auto. lia.
Qed.

Lemma index_of_idx : forall I an, index_of I an -> forall a, an = Some a ->
  exists tick order m N0 s outs old, index_of I old /\ index_scan true N0 tick order m = Ok s /\
    index_swap I old s outs = Done (Some a) /\ idx a (N.to_nat (N.max 1000 N0)) (visited tick order).
Proof.
  intros I an H. induction H as [|old alive N0 tick order m s outs new H IH B S W]; intros a E; [discriminate|].
  subst new. destruct (iDim s) as [f|] eqn:D.
  - destruct alive; [|apply scan_dead in S; congruence].
    assert (NE : visited tick order <> []).
    { intro Z. apply index_scan_spec in S; auto. rewrite Z in S. destruct S as [_ SD _ _ _ _ _]. cbn in SD. congruence. }
    exists tick, order, m, N0, s, outs, old. split; auto. split; auto. split; auto.
    eapply scan_idx; eauto.
  - unfold index_swap in W. rewrite D in W. injection W as ->. apply IH. reflexivity.
Qed.

Lemma idx_indexed : forall a c live, idx a c live -> indexed a c live.
Proof.
  intros a c live [C D BT Da Le Ky]. constructor; auto.
  - destruct live; [discriminate|congruence].
  - rewrite (bt_items _ _ BT). apply map_length.
  - intro i. rewrite Da. destruct (nth_error (firstn c live) i) as [e|] eqn:E.
    + rewrite nth_error_app1; [|rewrite map_length; apply nth_error_Some; congruence].
      rewrite nth_error_map, E. reflexivity.
    + apply nth_error_None in E. rewrite nth_error_app2 by (rewrite map_length; auto).
      rewrite map_length, nth_repeat_none. rewrite firstn_length in *.
      destruct (Nat.ltb_spec i c), (Nat.ltb_spec (i - Nat.min c (length live)) (c - length live)); auto; lia.
  - intros i e E. split; [|apply Le; eapply nth_error_In; eauto].
    destruct (bt_nodes _ _ BT) as [more X]. unfold item_vec. rewrite X, nth_error_app1.
    + rewrite nth_error_map, E. reflexivity.
    + rewrite map_length. apply nth_error_Some. congruence.
Qed.

(** * Collecting *)

Section Collect.
Variables (exists_ : bytes -> bytes -> bool) (score : list float -> list float -> float)
  (config : SearchConfig) (fq : list float).
Definition scored_of (e : entry) : ScoredDatum := mkScored (score fq (features (edatum e))) (edatum e).

Lemma collect_spec : forall (ds : list entry) index (ids : list nat) (es : list entry) counter,
  (forall i e, nth_error ds i = Some e -> nth_error index i = Some (Some (edatum e))) ->
  Forall2 (fun i e => nth_error ds i = Some e) ids es ->
  filterable exists_ config es -> (forall e, In e es -> dkey (edatum e) <> None) ->
  (counter < scLimit config < M32)%N ->
  annoy_collect exists_ score config fq index ids counter =
    Ok (map scored_of (firstn (N.to_nat (scLimit config - counter)) (filter (passes exists_ config) es))).
Proof.
  intros ds index ids es counter IX F. revert counter.
  induction F as [|i e ids es E F IH]; intros counter FI KY L.
  - cbn. rewrite firstn_nil. reflexivity.
  - cbn [annoy_collect]. rewrite (IX i e E).
    destruct (FI e) as [b EB]; [left; auto|].
    cbn [filter]. unfold passes at 1. rewrite EB. cbn [bind].
    assert (FI' : filterable exists_ config es) by (intros x Hx; apply FI; right; auto).
    assert (KY' : forall x, In x es -> dkey (edatum x) <> None) by (intros x Hx; apply KY; right; auto).
    destruct b; [|apply IH; auto].
    assert (FE : featureOf (Some (edatum e)) = Ok (features (edatum e))).
    { specialize (KY e (or_introl eq_refl)). unfold featureOf, features.
      destruct (edatum e) as [[k|] v]; cbn in *; [reflexivity|congruence]. }
    rewrite FE. cbn [bind].
    assert (U : u32 (counter + 1) = (counter + 1)%N) by (unfold u32; rewrite N.mod_small; lia).
    rewrite U.
    replace (N.to_nat (scLimit config - counter)) with (S (N.to_nat (scLimit config - (counter + 1)))) by lia.
    cbn [firstn map].
    destruct (N.leb_spec (scLimit config) (counter + 1)) as [LE|GT].
    + replace (N.to_nat (scLimit config - (counter + 1))) with 0 by lia. reflexivity.
    + rewrite IH; auto. lia.
Qed.
End Collect.

Lemma budget_zero : forall n r, budget 0 n r = 0%N.
Proof. reflexivity. Qed.

Lemma ids_entries : forall (ds : list entry) ids, Forall (fun i => i < length ds) ids ->
  exists es, Forall2 (fun i e => nth_error ds i = Some e) ids es.
Proof.
  intros ds ids F. induction F as [|i ids H F [es E]]; [exists []; constructor|].
  destruct (nth_error ds i) as [e|] eqn:X; [|apply nth_error_None in X; lia]. exists (e :: es). constructor; auto.
Qed.

Lemma ids_in : forall (ds : list entry) ids es, Forall2 (fun i e => nth_error ds i = Some e) ids es ->
  incl es ds.
Proof. intros ds ids es F. induction F as [|i e ids es E F IH]; intros x []; subst; [eapply nth_error_In; eauto|auto]. Qed.

Lemma ids_all : forall (ds : list entry) ids es, Forall2 (fun i e => nth_error ds i = Some e) ids es ->
  NoDup ids -> length ids = length ds -> Permutation es ds.
Proof.
  intros ds ids es F ND L.
  assert (P : Permutation ids (seq 0 (length ds))).
  { apply NoDup_Permutation_bis; auto; [rewrite seq_length; lia|].
    intros i Hi. apply in_seq. split; [lia|]. cbn. clear - F Hi. induction F as [|j e ids es E F IH]; [destruct Hi|].
    destruct Hi as [<-|Hi]; auto. apply nth_error_Some. congruence. }
  destruct (Permutation_Forall2 P F) as (es' & P' & F'). rewrite P'.
  assert (es' = ds); [|subst; reflexivity].
  clear - F'. assert (Gen : forall k pre suf es', pre ++ suf = ds -> length pre = k ->
    Forall2 (fun i e => nth_error ds i = Some e) (seq k (length suf)) es' -> es' = suf).
  { intros k pre suf. revert k pre. induction suf as [|x suf IH]; intros k pre es1 Q LK F.
    - inversion F; auto.
    - cbn in F. inversion F as [|? e ? es2 E F2]; subst. f_equal.
      + rewrite nth_error_app2 in E by lia. rewrite Nat.sub_diag in E. injection E as ->. reflexivity.
      + apply (IH (S (length pre)) (pre ++ [x])); auto; [rewrite <- app_assoc; reflexivity|rewrite app_length; cbn; lia]. }
  apply (Gen 0 [] ds); auto.
Qed.

Lemma SearchAnnoy_idx : forall G exists_ score tick order m a c live pick d config,
  idx a c live -> dkey d <> None -> xF (yIndex a) <= length (features d) ->
  (scLimit config < M32)%N -> filterable exists_ config (firstn c live) ->
  exists ids es, GetNns G (yIndex a) pick (nns_fuel (yIndex a)) (features d) c (Z.of_N (scLimit config)) = Ok ids /\
    NoDup ids /\ Forall2 (fun i e => nth_error (firstn c live) i = Some e) ids es /\
    SearchAnnoy G exists_ score tick order m (Some a) pick (Some d) config =
      (m, Ok (map (scored_of score (features d))
                (firstn (N.to_nat (scLimit config)) (filter (passes exists_ config) es)))).
Proof.
  intros G exists_ score tick order m a c live pick d config IX KD LD LM FI.
  pose proof (ix_built _ _ _ IX) as BT.
  destruct (GetNns_sound G _ (yIndex a) pick (features d) c (Z.of_N (scLimit config)) BT LD) as (ids & E & ND & F & _ & _).
  rewrite (bt_items _ _ BT), map_length in F.
  destruct (ids_entries _ _ F) as [es FE].
  exists ids, es. split; auto. split; auto. split; auto.
  unfold SearchAnnoy.
  assert (LF : length (yFrom a) = c).
  { rewrite (ix_data _ _ _ IX), app_length, map_length, firstn_length, repeat_length. lia. }
  pose proof (ix_cap _ _ _ IX) as C.
  rewrite LF. rewrite (proj2 (Nat.ltb_lt 0 c)) by lia.
  assert (FD : featureOf (Some d) = Ok (features d)).
  { unfold featureOf, features. destruct d as [[k|] v]; cbn in *; [reflexivity|congruence]. }
  rewrite FD. cbn [bind]. rewrite E. cbn [bind]. f_equal.
  destruct (N.eq_dec (scLimit config) 0) as [Z|NZ].
  - apply GetNns_zero in E; [|rewrite Z; apply budget_zero]. subst ids. inversion FE; subst. cbn. rewrite firstn_nil. reflexivity.
  - rewrite (collect_spec exists_ score config (features d) (firstn c live) (yFrom a) ids es).
    + rewrite N.sub_0_r. reflexivity.
    + intros i e H. pose proof (id_data _ _ _ (idx_indexed _ _ _ IX) i) as D. rewrite H in D. exact D.
    + exact FE.
    + intros e He. apply FI. eapply ids_in; eauto.
    + intros e He. apply (ix_key _ _ _ IX). rewrite <- (firstn_skipn c live). apply in_or_app. left. eapply ids_in; eauto.
    + lia.
Qed.
