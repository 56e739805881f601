(** Lemmas about the life time of copies. *)
From Verif.Base Require Import GoBase GoLemmas Assoc Float.
From Verif.Model Require Import Codec Store Data Insert Vector Dataset Sync Cluster.
From Verif.Spec Require Import SyncSpec ClusterSpec LifetimeSpec.
From Verif.Proof Require Import StoreP InsertP DatasetP SyncP SyncQ ClusterP.
From Coq Require Import Lia.
Open Scope Z_scope.

(** The data a sender still has to offer. *)
Definition holds_item (r : sender) (d : Datum) (c : InsertConfig) : Prop :=
  In (d, c) (rQueue r) \/ (exists ids, rPc r = Visit d c ids) \/ (exists id ids, rPc r = Acked d c id ids).

Lemma sender_items : forall undef dt r e dt' r' d c, sender_step undef dt r e = Some (dt', r') ->
  holds_item r' d c -> holds_item r d c.
Proof.
  intros undef dt r e dt' r' d c SS H. unfold sender_step in SS.
  destruct e as [order| |ok|]; destruct (rPc r) as [|d0 c0 [|id0 ids0]|d0 c0 id0 ids0] eqn:PC0; try discriminate SS.
  - destruct (rQueue r) as [|[d1 c1] q] eqn:Q; [discriminate SS|]. injection SS as <- <-.
    destruct H as [H|[(ids & H)|(id & ids & H)]]; cbn [rQueue rPc] in H.
    + left. rewrite Q. right. exact H.
    + injection H as <- <- <-. left. rewrite Q. left. reflexivity.
    + discriminate H.
  - injection SS as <- <-. destruct H as [H|[(ids & H)|(id & ids & H)]]; cbn [set_pc rQueue rPc] in H; try discriminate H. left. exact H.
  - destruct (serves dt r id0); [discriminate SS|]. injection SS as <- <-.
    destruct H as [H|[(ids & H)|(id & ids & H)]]; cbn [set_pc rQueue rPc] in H; try discriminate H; [left; exact H|].
    injection H as <- <- <-. right. left. eexists. exact PC0.
  - destruct (serves dt r id0); [|discriminate SS]. injection SS as <- <-.
    destruct H as [H|[(ids & H)|(id & ids & H)]]; cbn [set_pc rQueue rPc] in H; [left; exact H| |];
      destruct ok; try discriminate H; injection H as <- <-; subst; right; left; eexists; exact PC0.
  - destruct (negb (dAlive dt) || _).
    + destruct (DeleteBDMap (dDBMap dt) (Some d0)); try discriminate SS. injection SS as <- <-.
      destruct H as [H|[(ids & H)|(id & ids & H)]]; cbn [rQueue rPc] in H; try discriminate H; [left; exact H|].
      injection H as <- <- <-. right. right. eexists. eexists. exact PC0.
    + injection SS as <- <-.
      destruct H as [H|[(ids & H)|(id & ids & H)]]; cbn [set_pc rQueue rPc] in H; try discriminate H; [left; exact H|].
      injection H as <- <- <-. right. right. eexists. eexists. exact PC0.
Qed.

Lemma keyed_store : forall m k e, keyed m -> has_key (edatum e) k -> keyed (mstore m k e).
Proof.
  intros m k e K H k' e' L. rewrite mload_mstore in L. destruct (bytes_eqb k k') eqn:B; [|apply K; exact L].
  apply bytes_eqb_spec in B. subst k'. injection L as <-. exact H.
Qed.

(** Everything about one node: the stored data of key k expire between A and U, and so
    would the data on offer if they arrived in the second of their scan. *)
Definition node_ok (k : bytes) (A U t : Z) (s : sync) (b : list Z) : Prop :=
  mwf (store s) /\ keyed (store s) /\
  (forall e, mload (store s) k = Some e -> A <= exprireAt e <= U) /\
  length b = length (ySenders s) /\ (forall x, In x b -> x <= t) /\
  (forall j r x, nth_error (ySenders s) j = Some r -> nth_error b j = Some x ->
     forall d c, holds_item r d c -> has_key d k -> 0 < Z.of_N (TTL c) /\ A <= x + Z.of_N (TTL c) <= U).

Lemma node_ok_mono : forall k A U U' t t' s b, U <= U' -> t <= t' -> node_ok k A U t s b -> node_ok k A U' t' s b.
Proof.
  intros k A U U' t t' s b HU Ht (W & K & E & L & T & I). split; [exact W|]. split; [exact K|].
  split; [intros e X; specialize (E e X); lia|]. split; [exact L|]. split; [intros x X; specialize (T x X); lia|].
  intros j r x N1 N2 d c H1 H2. specialize (I j r x N1 N2 d c H1 H2). lia.
Qed.

(** A side condition of single steps (cf. on_time). *)
Definition step_ok (k : bytes) (A U t : Z) (s : sync) (e : yev) : Prop :=
  match e with
  | YProcess P _ => Permutation (pOrder P) (store s) /\ (forall n, Z.of_N (pClock P n) = t) /\ (forall key, pTick P key = t)
  | YInsert now d c => now = t /\ forall d0, d = Some d0 -> has_key d0 k ->
        exists cf, c = Some cf /\ 0 < Z.of_N (TTL cf) /\ A <= t + Z.of_N (TTL cf) <= U
  | _ => True
  end.

Lemma expire_exact : forall t c, 0 <= t -> 0 < Z.of_N (TTL c) -> t + Z.of_N (TTL c) < 9223372036854775808 ->
  expireAtOf t (Some c) = t + Z.of_N (TTL c).
Proof.
  intros t c H0 H1 H2. unfold expireAtOf. destruct (N.eqb_spec (TTL c) 0) as [E|E]; [rewrite E in H1; cbn in H1; lia|].
  assert (S : forall z, 0 <= z < 9223372036854775808 -> i64 z = z).
  { intros z Z0. unfold i64. rewrite Z.mod_small by lia. lia. }
  unfold i64_of_u64. rewrite (S (Z.of_N (TTL c))) by lia. apply S. lia.
Qed.

Lemma left_exact : forall t n ex, Z.of_N n = t -> 0 <= t < ex -> ex < 9223372036854775808 ->
  Z.of_N (TTL (InsertConfigFromExpireAt n (u64_of_i64 ex))) = ex - t.
Proof.
  intros t n ex E H1 H2. unfold InsertConfigFromExpireAt, u64_of_i64. rewrite Z.mod_small by lia. cbn [TTL].
  destruct (N.ltb_spec 0 (Z.to_N ex)) as [L|L]; [|lia].
  rewrite sub64_small; [lia|lia|unfold M64; lia].
Qed.

Lemma local_ok : forall M undef k A U t t' s b e s',
  0 < A -> U < 9223372036854775808 -> 0 <= t -> t <= t' < 9223372036854775808 ->
  node_ok k A U t s b -> step_ok k A U t' s e -> sync_step M undef s e = Some s' ->
  node_ok k A U t' s' (if (length (ySenders s) <? length (ySenders s'))%nat then b ++ [t'] else b).
Proof.
  intros M undef k A U t t' s b e s' HA HU H0 Ht OK SO ST.
  pose proof (step_wf _ _ _ _ _ ST (proj1 OK)) as W'.
  apply (node_ok_mono k A U U t t' s b) in OK; [|lia|lia].
  destruct OK as (W & K & E & L & T & I).
  destruct e as [P force|i e|now d0 c0|d0|l|]; cbn [sync_step] in ST.
  - destruct SO as (PM & CL & TK).
    destruct (Process M P (yData s) force) as [[dt r0]| |] eqn:PR; try discriminate ST.
    destruct (process_spec _ _ _ _ _ _ PR) as (li & cf & limit & dm & _ & _ & _ & _ & _ & _ & C).
    assert (SD : store s' = dDBMap dt) by (destruct r0; injection ST as <-; reflexivity).
    assert (OLD : forall k' e', mload (dDBMap dt) k' = Some e' -> mload (store s) k' = Some e').
    { intros k' e' LD. unfold store. destruct C as [(_ & E1 & _)|(_ & E1 & _)]; rewrite E1 in LD; [|exact LD].
      destruct (mload_fold_delete_cases (map fst (filter (fun p => expired (pTick P (fst p)) (snd p)) (pOrder P))) (dDBMap (yData s)) k') as [E2|[E2 _]]; congruence. }
    split; [exact W'|]. rewrite SD. split; [intros k' e' X; apply K; apply OLD; exact X|].
    split; [intros e' X; apply E; apply OLD; exact X|].
    destruct r0 as [r0|]; injection ST as <-; cbn [ySenders].
    2:{ rewrite Nat.ltb_irrefl. auto. }
    rewrite app_length. cbn [length]. rewrite (proj2 (Nat.ltb_lt _ _)) by lia.
    split; [rewrite !app_length; cbn; lia|]. split.
    { intros x X. apply in_app_iff in X. destruct X as [X|[<-|[]]]; [apply T; exact X|lia]. }
    intros j r x N1 N2 d c HI HK. destruct (Nat.lt_ge_cases j (length (ySenders s))) as [LT|GE].
    { rewrite nth_error_app1 in N1 by auto. rewrite nth_error_app1 in N2 by lia. eapply I; eauto. }
    rewrite nth_error_app2 in N1 by auto. rewrite nth_error_app2 in N2 by lia. rewrite L in N2.
    destruct (j - length (ySenders s))%nat as [|j']; [|destruct j'; discriminate N1]. cbn in N1, N2. injection N1 as <-. injection N2 as <-.
    destruct C as [(_ & C)|(_ & _ & C & _)]; [|discriminate C]. cbv zeta in C. destruct C as (_ & _ & _ & _ & _ & C).
    destruct (0 <? dN (yData s))%N; [|discriminate C]. injection C as ->.
    destruct HI as [HI|[(ids & HI)|(id & ids & HI)]]; [|discriminate HI|discriminate HI]. cbn [rQueue] in HI.
    apply fold_out in HI. destruct HI as [[]|(k' & e' & IN & -> & TP & n & ->)]. split; [lia|].
    unfold live_of in IN. apply filter_In in IN. destruct IN as [IN X]. cbn [fst snd] in X. rewrite TK in X.
    assert (LD : mload (store s) k' = Some e'). { apply in_mload; [exact W|]. eapply Permutation_in; [exact PM|exact IN]. }
    assert (k' = k) by (pose proof (K _ _ LD) as Y; unfold has_key in *; congruence). subst k'.
    specialize (E _ LD). unfold expired in X. destruct (Z.eqb_spec (exprireAt e') 0) as [Z0|_]; [lia|].
    cbn [negb andb] in X. destruct (Z.leb_spec (exprireAt e') t') as [Z1|Z1]; [discriminate X|].
    cbn [senv_of eClock]. rewrite (left_exact t' _ _ (CL n)) by lia. lia.
  - destruct (nth_error (ySenders s) i) as [r0|] eqn:N0; [|discriminate ST].
    destruct (sender_step undef (yData s) r0 e) as [[dt r']|] eqn:SS; [|discriminate ST].
    destruct (list_set (ySenders s) i r') as [l|] eqn:LS; [|discriminate ST]. injection ST as <-.
    assert (LL : length l = length (ySenders s)).
    { clear - LS. revert i l LS. induction (ySenders s) as [|x xs IH]; intros [|i] l LS; cbn in LS; try discriminate LS.
      - injection LS as <-. reflexivity.
      - destruct (list_set xs i r') as [l'|] eqn:Q; [|discriminate LS]. injection LS as <-. cbn. f_equal. eapply IH; eauto. }
    cbn [ySenders]. rewrite LL, Nat.ltb_irrefl. split; [exact W'|]. unfold store in *. cbn [yData] in *.
    assert (OLD : forall k' e', mload (dDBMap dt) k' = Some e' -> mload (dDBMap (yData s)) k' = Some e').
    { intros k' e' X. destruct (sender_store _ _ _ _ _ _ SS) as [EQ|(d & c & id & ids & k0 & _ & _ & _ & EQ)]; [rewrite EQ in X; exact X|].
      rewrite EQ in X. cbn [set_map dDBMap] in X. rewrite mload_mdelete in X. destruct (bytes_eqb k0 k'); [discriminate X|exact X]. }
    split; [intros k' e' X; apply K; apply OLD; exact X|]. split; [intros e' X; apply E; apply OLD; exact X|].
    split; [cbn [ySenders]; congruence|]. split; [exact T|].
    intros j r x N1 N2 d c HI HK. cbn [ySenders] in N1. rewrite (nth_set _ _ _ _ _ j LS) in N1. destruct (Nat.eqb_spec i j) as [<-|NE].
    + injection N1 as <-. eapply I; [exact N0|exact N2| |exact HK]. eapply sender_items; eauto.
    + eapply I; eauto.
  - destruct SO as (-> & SO). destruct (InsertLocal t' (yData s) d0 c0) as [[dt o]| |] eqn:IL; try discriminate ST. injection ST as <-.
    cbn [ySenders]. rewrite Nat.ltb_irrefl. unfold store in *. cbn [yData] in *.
    unfold node_ok, store. cbn [yData ySenders]. split; [exact W'|]. destruct (insert_shape _ _ _ _ _ _ IL) as [EQ|(d & k0 & -> & HK & EQ)]; rewrite EQ in *; [split; [exact K|]; split; [exact E|]; auto|].
    split; [apply keyed_store; auto|]. split; [|auto].
    intros e' X. rewrite mload_mstore in X. destruct (bytes_eqb k0 k) eqn:BB; [|apply E; exact X].
    apply bytes_eqb_spec in BB. subst k0. injection X as <-. cbn [exprireAt].
    destruct (SO d eq_refl HK) as (cf & -> & P1 & P2). rewrite expire_exact by lia. exact P2.
  - destruct (DeleteBDMap (dDBMap (yData s)) d0) as [m| |] eqn:DB; try discriminate ST. injection ST as <-.
    cbn [ySenders]. rewrite Nat.ltb_irrefl. unfold store in *. cbn [yData set_map dDBMap] in *.
    unfold DeleteBDMap in DB. destruct (GetKeyAsBytes d0) as [k0| |]; try discriminate DB. injection DB as <-.
    unfold node_ok, store. cbn [yData ySenders set_map dDBMap]. split; [exact W'|]. split; [apply keyed_delete; exact K|]. split; [|auto].
    intros e' X. rewrite mload_mdelete in X. destruct (bytes_eqb k0 k); [discriminate X|apply E; exact X].
  - injection ST as <-. cbn [ySenders]. rewrite Nat.ltb_irrefl. unfold node_ok, store in *. cbn in *. auto 10.
  - injection ST as <-. cbn [ySenders]. rewrite Nat.ltb_irrefl. unfold node_ok, store in *. cbn in *. auto 10.
Qed.

(** Receiving is a local insert. *)
Lemma receive_step : forall M undef now s d c, fst (receive now s d c) = s \/
  sync_step M undef s (YInsert now (Some d) (Some c)) = Some (fst (receive now s d c)).
Proof.
  intros. unfold receive. cbn [sync_step]. destruct (InsertLocal now (yData s) (Some d) (Some c)) as [[dt [e|]]| |]; cbn; auto.
Qed.
Lemma receive_senders : forall now s d c, ySenders (fst (receive now s d c)) = ySenders s.
Proof. intros. unfold receive. destruct (InsertLocal now (yData s) (Some d) (Some c)) as [[dt [e|]]| |]; reflexivity. Qed.

Lemma receive_ok : forall (M : mathlib) (undef : N) k A U t t' s b d c,
  0 < A -> U < 9223372036854775808 -> 0 <= t -> t <= t' < 9223372036854775808 ->
  node_ok k A U t s b -> (has_key d k -> 0 < Z.of_N (TTL c) /\ A <= t' + Z.of_N (TTL c) <= U) ->
  node_ok k A U t' (fst (receive t' s d c)) b.
Proof.
  intros M undef k A U t t' s b d c HA HU H0 Ht OK SO.
  destruct (receive_step M undef t' s d c) as [E|E].
  - rewrite E. eapply node_ok_mono; [| |exact OK]; lia.
  - pose proof (local_ok M undef k A U t t' s b (YInsert t' (Some d) (Some c)) (fst (receive t' s d c)) HA HU H0 Ht OK) as P.
    assert (X : step_ok k A U t' s (YInsert t' (Some d) (Some c))).
    { split; [reflexivity|]. intros d0 Q HK. injection Q as <-. exists c. split; [reflexivity|]. auto. }
    specialize (P X E). rewrite receive_senders, Nat.ltb_irrefl in P. exact P.
Qed.

Lemma nth_starts : forall (b : list Z) j t, nth j b t = match nth_error b j with Some x => x | None => t end.
Proof. induction b as [|x b IH]; intros [|j] t; cbn; auto. Qed.

Lemma cluster_ok : forall M undef resolve k A U t t' B w b e w',
  0 < A -> 0 <= t -> t <= t' < 9223372036854775808 -> B <= U -> U + waited t' b e < 9223372036854775808 ->
  (forall i, node_ok k A U t (w i) (b i)) -> on_time k A B t' w e ->
  cluster_step M undef resolve w e = Some w' ->
  0 <= waited t' b e /\ forall i, node_ok k A (U + waited t' b e) t' (w' i) (note t' w w' b i).
Proof.
  intros M undef resolve k A U t t' B w b e w' HA H0 Ht HB HU OK OT ST.
  destruct e as [i e|i j now l].
  - split; [cbn; lia|]. intro i'. unfold note. cbn [waited] in *.
    assert (X : exists s, sync_step M undef (w i) e = Some s /\ w' = set_sync w i s).
    { cbn [cluster_step] in ST. destruct e as [P force|j0 [o| |ok|]|now d0 c0|d0|l|]; try discriminate ST;
      match goal with |- context[sync_step ?a ?b ?c ?d] => destruct (sync_step a b c d) as [s|]; [|discriminate ST] end;
      injection ST as <-; exists s; auto. }
    destruct X as (s & SS & ->). replace (U + 0) with U in * by lia.
    destruct (Nat.eqb_spec i' i) as [->|NE].
    + rewrite set_sync_same. eapply local_ok; [exact HA|lia|exact H0|exact Ht|apply OK| |exact SS].
      destruct e as [P force|j0 e|now d0 c0|d0|l|]; cbn [on_time step_ok] in *; auto.
      destruct OT as (-> & OT). split; [reflexivity|]. intros d1 E HK. destruct (OT d1 E HK) as (cf & -> & P1 & P2).
      exists cf. split; [reflexivity|]. lia.
    + rewrite set_sync_other by exact NE. rewrite Nat.ltb_irrefl. eapply node_ok_mono; [| |apply OK]; lia.
  - cbn [on_time] in OT. subst now. cbn [cluster_step] in ST.
    destruct (nth_error (ySenders (w i)) j) as [r|] eqn:N0; [|discriminate ST].
    destruct (rPc r) as [|d c [|id ids]|] eqn:PC; try discriminate ST.
    destruct (OK i) as (_ & _ & _ & L & T & I).
    assert (NB : exists x, nth_error (b i) j = Some x).
    { destruct (nth_error (b i) j) as [x|] eqn:Q; [eauto|]. apply nth_error_None in Q. assert (j < length (ySenders (w i)))%nat by (apply nth_error_Some; congruence). lia. }
    destruct NB as (x & NB). assert (WT : waited t' b (COffer i j t' l) = t' - x) by (cbn [waited]; rewrite nth_starts, NB; reflexivity).
    rewrite WT in *. assert (XT : x <= t) by (apply T; eapply nth_error_In; eauto).
    assert (IT : holds_item r d c) by (right; left; eauto). specialize (I j r x N0 NB d c IT).
    split; [lia|].
    assert (W1 : exists w1 ok, sync_step M undef (w1 i) (YSend j (SOffer ok)) <> None /\
       (forall s, sync_step M undef (w1 i) (YSend j (SOffer ok)) = Some s -> w' = set_sync w1 i s) /\
       (forall i', ySenders (w1 i') = ySenders (w i')) /\ forall i', node_ok k A (U + (t' - x)) t' (w1 i') (b i')).
    { assert (RC : forall tgt, node_ok k A (U + (t' - x)) t' (fst (receive t' (w tgt) d c)) (b tgt)).
      { intro tgt. eapply receive_ok; [exact M|exact undef|exact HA|lia|exact H0|exact Ht| |].
        - eapply node_ok_mono; [| |apply OK]; lia.
        - intro HK. specialize (I HK). split; lia. }
      assert (SAME : forall i', node_ok k A (U + (t' - x)) t' (w i') (b i')) by (intro i'; eapply node_ok_mono; [| |apply OK]; lia).
      assert (SET : forall tgt ok', match sync_step M undef (set_sync w tgt (fst (receive t' (w tgt) d c)) i) (YSend j (SOffer ok')) with
          | Some s => Some (set_sync (set_sync w tgt (fst (receive t' (w tgt) d c))) i s) | None => None end = Some w' ->
        exists w1 ok, sync_step M undef (w1 i) (YSend j (SOffer ok)) <> None /\
       (forall s, sync_step M undef (w1 i) (YSend j (SOffer ok)) = Some s -> w' = set_sync w1 i s) /\
       (forall i', ySenders (w1 i') = ySenders (w i')) /\ forall i', node_ok k A (U + (t' - x)) t' (w1 i') (b i')).
      { intros tgt ok' Q. exists (set_sync w tgt (fst (receive t' (w tgt) d c))), ok'.
        destruct (sync_step M undef _ _) as [s|] eqn:SS; [|discriminate Q].
        split; [discriminate|]. split; [intros s0 Q0; congruence|].
        split; intro i'; destruct (Nat.eqb_spec i' tgt) as [->|NE]; rewrite ?set_sync_same, ?(set_sync_other _ _ _ i') by assumption; auto.
        apply receive_senders. }
      assert (KEEP : forall ok', match sync_step M undef (w i) (YSend j (SOffer ok')) with
          | Some s => Some (set_sync w i s) | None => None end = Some w' ->
        exists w1 ok, sync_step M undef (w1 i) (YSend j (SOffer ok)) <> None /\
       (forall s, sync_step M undef (w1 i) (YSend j (SOffer ok)) = Some s -> w' = set_sync w1 i s) /\
       (forall i', ySenders (w1 i') = ySenders (w i')) /\ forall i', node_ok k A (U + (t' - x)) t' (w1 i') (b i')).
      { intros ok' Q. exists w, ok'. destruct (sync_step M undef (w i) _) as [s|] eqn:SS; [|discriminate Q].
        split; [discriminate|]. split; [intros s0 Q0; congruence|]. auto. }
      destruct (resolve id) as [tgt|].
      2:{ apply (KEEP false). exact ST. }
      specialize (SET tgt). destruct (receive t' (w tgt) d c) as [s ok] eqn:RV. cbn [fst] in SET.
      destruct l; [apply (SET ok)|apply (KEEP false)|apply (SET false)]; exact ST. }
    destruct W1 as (w1 & ok & NN & EQ & SN & N1). destruct (sync_step M undef (w1 i) (YSend j (SOffer ok))) as [s|] eqn:SS; [|congruence].
    specialize (EQ s eq_refl). subst w'. intro i'. unfold note.
    destruct (Nat.eqb_spec i' i) as [->|NE].
    + rewrite set_sync_same. rewrite <- (SN i).
      eapply local_ok; [exact HA|exact HU| | |apply N1| |exact SS]; [lia|lia|exact Logic.I].
    + rewrite set_sync_other by exact NE. rewrite SN, Nat.ltb_irrefl. apply N1.
Qed.

Lemma waited_nonneg : forall t b e, (forall i x, In x (b i) -> x <= t) -> 0 <= waited t b e.
Proof.
  intros t b e T. destruct e as [i e|i j now l]; cbn [waited]; [lia|].
  destruct (nth_in_or_default j (b i) t) as [X|X]; [specialize (T i _ X); lia|rewrite X; lia].
Qed.
Lemma note_le : forall t w w' (b : starts), (forall i x, In x (b i) -> x <= t) -> forall i x, In x (note t w w' b i) -> x <= t.
Proof.
  intros t w w' b T i x X. unfold note in X. destruct (_ <? _)%nat; [|eauto].
  apply in_app_iff in X. destruct X as [X|[<-|[]]]; [eauto|lia].
Qed.
Lemma lateness_nonneg : forall M undef resolve k A B es t w (b : starts), (forall i x, In x (b i) -> x <= t) ->
  timed M undef resolve k A B t w es -> 0 <= lateness M undef resolve w b es.
Proof.
  intros M undef resolve k A B. induction es as [|[t' e] es IH]; intros t w b T TM; cbn [lateness timed] in *; [lia|].
  destruct TM as (Ht & _ & TM). assert (T' : forall i x, In x (b i) -> x <= t') by (intros i x X; specialize (T i x X); lia).
  pose proof (waited_nonneg t' b e T'). destruct (cluster_step M undef resolve w e) as [w1|]; [|lia].
  specialize (IH t' w1 (note t' w w1 b) (note_le _ _ _ _ T') TM). lia.
Qed.

(** The whole execution. *)
Lemma timed_ok : forall M undef resolve k A B es t U w b w',
  0 < A -> 0 <= t -> B <= U -> U + lateness M undef resolve w b es < 9223372036854775808 ->
  (forall i, node_ok k A U t (w i) (b i)) -> timed M undef resolve k A B t w es ->
  cluster_run M undef resolve w (map snd es) = Some w' ->
  forall i e, mload (store (w' i)) k = Some e -> A <= exprireAt e <= U + lateness M undef resolve w b es.
Proof.
  intros M undef resolve k A B. induction es as [|[t' e] es IH]; intros t U w b w' HA H0 HB HL OK TM R.
  - cbn in *. injection R as <-. intros i e L. destruct (OK i) as (_ & _ & E & _). specialize (E e L). lia.
  - cbn [map snd cluster_run] in R. cbn [timed lateness] in *. destruct TM as (Ht & OT & TM).
    destruct (cluster_step M undef resolve w e) as [w1|] eqn:ST; [|discriminate R].
    assert (T' : forall i x, In x (b i) -> x <= t').
    { intros i x X. destruct (OK i) as (_ & _ & _ & _ & T & _). specialize (T x X). lia. }
    pose proof (lateness_nonneg M undef resolve k A B es t' w1 _ (note_le t' w w1 b T') TM) as LN.
    destruct (cluster_ok M undef resolve k A U t t' B w b e w1) as (W0 & OK1); auto; try lia.
    intros i en L. destruct (IH t' (U + waited t' b e) w1 (note t' w w1 b) w' HA) with (i := i) (e := en); auto; try lia.
Qed.

Lemma blank_ok : forall k A U t w, blank w -> forall i, node_ok k A U t (w i) [].
Proof.
  intros k A U t w BL i. destruct (BL i) as [E1 E2]. unfold node_ok. rewrite E1, E2.
  split; [constructor|]. split; [intros k' e L; discriminate L|]. split; [intros e L; discriminate L|].
  split; [reflexivity|]. split; [intros x []|]. intros j r x N. destruct j; discriminate N.
Qed.
