(** C141: how many entries the pools of connections may have. *)
From Verif.Base Require Import GoBase GoLemmas Assoc.
From Verif.Model Require Import Pool.
From Coq Require Import Lia.
Open Scope nat_scope.

(** The number of entries of all pools together. *)
Definition entries (s : pools) : nat := list_sum (map (fun p => length (plItems p)) (lPools s)).

(** How often a connection was given back. *)
Definition returns (es : list plev) : nat :=
  length (filter (fun e => match e with EPut _ => true | _ => false end) es).

(** A caller between taking an entry and putting it back, or giving a connection back. *)
Definition owes (t : tstate) : nat :=
  match t with TGot _ _ _ | TInc _ _ | TLoad _ _ | TPut _ _ | TDec _ _ | THealth _ _ => 1 | _ => 0 end.
Definition owed (ts : list tstate) : nat := list_sum (map owes ts).

Lemma set_sum : forall A (f : A -> nat) l i x l' y, nth_error l i = Some x -> list_set l i y = Some l' ->
  list_sum (map f l') + f x = list_sum (map f l) + f y.
Proof.
  intros A f. induction l as [|a l IH]; intros [|i] x l' y N S; cbn in *; try discriminate.
  - injection N as ->. injection S as <-. cbn. lia.
  - destruct (list_set l i y) as [l1|] eqn:E; [|discriminate]. injection S as <-.
    specialize (IH _ _ _ _ N E). unfold list_sum in *. cbn [map fold_right]. lia.
Qed.

Lemma set_len : forall A (l : list A) i y l', list_set l i y = Some l' -> length l' = length l.
Proof.
  intros A. induction l as [|a l IH]; intros [|i] y l' S; cbn in *; try discriminate.
  - injection S as <-. reflexivity.
  - destruct (list_set l i y) as [l1|] eqn:E; [|discriminate]. injection S as <-. cbn. f_equal. eauto.
Qed.

Definition total (ps : list pool) : nat := list_sum (map (fun p => length (plItems p)) ps).

Lemma put_total : forall ps p c, total (pool_put ps p c) <= S (total ps).
Proof.
  intros ps p c. unfold pool_put. destruct (nth_error ps p) as [q|] eqn:N; [|lia].
  destruct (list_set ps p _) as [l|] eqn:S; [|lia].
  pose proof (set_sum _ (fun p => length (plItems p)) _ _ _ _ _ N S) as E. cbn [plItems length] in E.
  unfold total. lia.
Qed.

Lemma remove_len : forall A (l : list A) k x, nth_error l k = Some x -> S (length (list_remove l k)) = length l.
Proof.
  intros A l k x N. unfold list_remove. rewrite app_length, firstn_length, skipn_length.
  assert (k < length l) by (apply nth_error_Some; congruence). lia.
Qed.

Lemma take_total : forall ps p k c ps', pool_take ps p k = Some (c, ps') -> S (total ps') = total ps.
Proof.
  intros ps p k c ps' H. unfold pool_take in H. destruct (nth_error ps p) as [q|] eqn:N; [|discriminate].
  destruct (nth_error (plItems q) k) as [x|] eqn:K; [|discriminate].
  destruct (list_set ps p _) as [l|] eqn:S; [|discriminate]. injection H as <- <-.
  pose proof (set_sum _ (fun p => length (plItems p)) _ _ _ _ _ N S) as E. cbn [plItems] in E.
  pose proof (remove_len _ _ _ _ K). unfold total. lia.
Qed.

Lemma close_total : forall ps p, total (pool_close ps p) = total ps.
Proof.
  intros ps p. unfold pool_close. destruct (nth_error ps p) as [q|] eqn:N; [|reflexivity].
  destruct (list_set ps p _) as [l|] eqn:S; [|reflexivity].
  pose proof (set_sum _ (fun p => length (plItems p)) _ _ _ _ _ N S) as E. cbn [plItems] in E. unfold total. lia.
Qed.

Lemma state_len : forall l c st, length (set_state l c st) = length l.
Proof.
  intros. unfold set_state. destruct (nth_error l c); [|reflexivity].
  destruct (list_set l c _) eqn:S; [eapply set_len; eauto|reflexivity].
Qed.
Lemma counter_len : forall l c d, length (add_counter l c d) = length l.
Proof.
  intros. unfold add_counter. destruct (nth_error l c); [|reflexivity].
  destruct (list_set l c _) eqn:S; [eapply set_len; eauto|reflexivity].
Qed.

Lemma tstep_entries : forall s pick dial t cs ps t', tstep s pick dial t = (cs, ps, t') ->
  total ps + owes t' + length (lConns s) <= total (lPools s) + owes t + length cs.
Proof.
  intros s pick dial t cs ps t' H. destruct t; cbn [tstep] in H.
  - destruct (3 <? n); [injection H as <- <- <-; cbn; lia|].
    destruct (pool_take (lPools s) p pick) as [[c ps1]|] eqn:T.
    + injection H as <- <- <-. apply take_total in T. cbn. lia.
    + destruct (negb _ && dial).
      * injection H as <- <- <-. rewrite app_length. cbn. lia.
      * injection H as <- <- <-. cbn. lia.
  - destruct (is_shutdown _); injection H as <- <- <-; cbn; lia.
  - injection H as <- <- <-. rewrite counter_len. cbn. lia.
  - injection H as <- <- <-. destruct (_ <=? _)%Z; cbn; lia.
  - injection H as <- <- <-. pose proof (put_total (lPools s) p c). cbn. lia.
  - injection H as <- <- <-. cbn. lia.
  - injection H as <- <- <-. cbn. lia.
  - injection H as <- <- <-. rewrite counter_len. cbn. lia.
  - destruct (is_ready _); injection H as <- <- <-.
    + pose proof (put_total (lPools s) p c). cbn. lia.
    + rewrite state_len. cbn. lia.
  - injection H as <- <- <-. rewrite close_total. cbn. lia.
  - destruct n as [|n]; [injection H as <- <- <-; cbn; lia|].
    destruct (pool_take (lPools s) p pick) as [[c ps1]|] eqn:T.
    + injection H as <- <- <-. apply take_total in T. cbn. lia.
    + injection H as <- <- <-. cbn. lia.
  - injection H as <- <- <-. rewrite state_len. cbn. lia.
  - injection H as <- <- <-. cbn. lia.
Qed.

Lemma step_entries : forall s e,
  entries (plstep s e) + owed (lThreads (plstep s e)) + length (lConns s) <=
  entries s + owed (lThreads s) + length (lConns (plstep s e)) + returns [e].
Proof.
  intros s e. unfold entries, owed. destruct e; cbn [plstep].
  - cbn [lConns lPools lThreads returns filter length]. rewrite map_app, list_sum_app. cbn [map owes].
    change (list_sum [0]) with 0. lia.
  - destruct (nth_error (lThreads s) i) as [t|] eqn:N; [|cbn; lia].
    destruct (tstep s pick dial t) as [[cs ps] t'] eqn:T.
    destruct (list_set (lThreads s) i t') as [ts|] eqn:S; [|cbn; lia].
    pose proof (set_sum _ owes _ _ _ _ _ N S). pose proof (tstep_entries _ _ _ _ _ _ _ T).
    unfold total in *. cbn [lConns lPools lThreads returns filter length]. lia.
  - destruct (nth_error (lThreads s) i) as [t|] eqn:N; [|cbn; lia]. destruct t; try (cbn; lia).
    destruct (list_set (lThreads s) i _) as [ts|] eqn:S; [|cbn; lia].
    pose proof (set_sum _ owes _ _ _ _ _ N S) as E. cbn [owes] in E. cbn [lConns lPools lThreads returns filter length]. lia.
  - cbn [lConns lPools lThreads returns filter length]. rewrite !map_app, !list_sum_app. cbn [map owes plItems length].
    change (list_sum [0]) with 0. lia.
  - destruct (pool_take (lPools s) p k) as [[c ps]|] eqn:T; [|cbn; lia].
    apply take_total in T. unfold total in T. cbn [lConns lPools lThreads returns filter length]. lia.
  - destruct (_ || _); [cbn; lia|]. cbn [lConns lPools lThreads returns filter length]. rewrite state_len. lia.
Qed.

Lemma run_entries : forall es s,
  entries (plrun s es) + owed (lThreads (plrun s es)) + length (lConns s) <=
  entries s + owed (lThreads s) + length (lConns (plrun s es)) + returns es.
Proof.
  induction es as [|e es IH]; intro s; [cbn; lia|]. cbn [plrun].
  specialize (IH (plstep s e)). pose proof (step_entries s e) as Q.
  assert (R : returns (e :: es) = returns [e] + returns es).
  { unfold returns. destruct e; reflexivity. }
  rewrite R. lia.
Qed.

(** C141 The pools have at most as many entries as connections were opened plus times one
    was given back, counting those that a caller has taken out and not put back yet. *)
Theorem C141_bound : forall es,
  entries (plrun pools0 es) + owed (lThreads (plrun pools0 es)) <=
  length (lConns (plrun pools0 es)) + returns es.
Proof. intro es. pose proof (run_entries es pools0) as Q. cbn in Q. lia. Qed.
Print Assumptions C141_bound.

(** One caller after the other: caller [i] takes the first entry (or opens a connection),
    the connection is ready, and it is given back. *)
Definition use (i : nat) : list plev :=
  [EGet; EStep i 0 true; EStep i 0 true; EStep i 0 true; EStep i 0 true; EStep i 0 true;
   EState 0 Ready; EPut i; EStep i 0 true; EStep i 0 true].
Fixpoint uses (n : nat) : list plev :=
  match n with O => [] | S n' => uses n' ++ use n' end.

Lemma run_app : forall es1 es2 s, plrun s (es1 ++ es2) = plrun (plrun s es1) es2.
Proof. induction es1; intros; cbn; auto. Qed.

Lemma uses_state : forall n, 0 < n ->
  plrun pools0 (uses n) = mkPools [mkConn 0 Ready] [mkPool (repeat 0 (S n)) false] 0 (repeat TDone n).
Proof.
  induction n as [|n IH]; intro L; [lia|]. destruct n as [|n]; [reflexivity|].
  change (uses (S (S n))) with (uses (S n) ++ use (S n)). rewrite run_app, IH by lia. clear IH L.
  change (repeat 0 (S (S n))) with (0 :: repeat 0 (S n)). change (repeat 0 (S (S (S n)))) with (0 :: 0 :: repeat 0 (S n)).
  replace (repeat TDone (S (S n))) with (repeat TDone (S n) ++ [TDone])
    by (change [TDone] with (repeat TDone 1); rewrite <- repeat_app; f_equal; lia).
  assert (SET : forall t x, list_set (repeat TDone (S n) ++ [x]) (S n) t = Some (repeat TDone (S n) ++ [t])).
  { intros t x. pose proof (list_set_app _ (repeat TDone (S n)) x [] t) as Q. rewrite repeat_length in Q. exact Q. }
  assert (NTH : forall x, nth_error (repeat TDone (S n) ++ [x]) (S n) = Some x).
  { intro x. rewrite nth_error_app2 by (rewrite repeat_length; lia). rewrite repeat_length, Nat.sub_diag. reflexivity. }
  generalize dependent (repeat TDone (S n)). generalize (repeat 0 (S n)). generalize (S n). clear n.
  intros m r ts SET NTH.
  set (A := fun k t items => mkPools [mkConn k Ready] [mkPool items false] 0 (ts ++ [t])).
  assert (E : forall k t items k' t' items',
    tstep (A k t items) 0 true t = ([mkConn k' Ready], [mkPool items' false], t') ->
    plstep (A k t items) (EStep m 0 true) = A k' t' items').
  { intros k t items k' t' items' T. unfold A in *. cbn [plstep lThreads]. rewrite NTH, T, SET. reflexivity. }
  unfold use. cbn [plrun].
  change (plstep (mkPools [mkConn 0 Ready] [mkPool (0 :: r) false] 0 ts) EGet) with (A 0%Z (TTry 0 0) (0 :: r)).
  rewrite (E 0%Z (TTry 0 0) (0 :: r) 0%Z (TGot 0 0 0) r eq_refl).
  rewrite (E 0%Z (TGot 0 0 0) r 0%Z (TInc 0 0) r eq_refl).
  rewrite (E 0%Z (TInc 0 0) r 1%Z (TLoad 0 0) r eq_refl).
  rewrite (E 1%Z (TLoad 0 0) r 1%Z (TPut 0 0) r eq_refl).
  rewrite (E 1%Z (TPut 0 0) r 1%Z (THeld 0) (0 :: r) eq_refl).
  change (plstep (A 1%Z (THeld 0) (0 :: r)) (EState 0 Ready)) with (A 1%Z (THeld 0) (0 :: r)).
  assert (P : plstep (A 1%Z (THeld 0) (0 :: r)) (EPut m) = A 1%Z (TDec 0 0) (0 :: r)).
  { unfold A. cbn [plstep lThreads lCur]. rewrite NTH, SET. reflexivity. }
  rewrite P.
  rewrite (E 1%Z (TDec 0 0) (0 :: r) 0%Z (THealth 0 0) (0 :: r) eq_refl).
  rewrite (E 0%Z (THealth 0 0) (0 :: r) 0%Z TDone (0 :: 0 :: r) eq_refl). reflexivity.
Qed.

(** This is reached, however often: after n uses one after the other of a single
    connection, which nobody holds any more, the pool has n + 1 entries for it. *)
Theorem C141_reached : forall n, 0 < n ->
  let s := plrun pools0 (uses n) in
  length (lConns s) = 1 /\ returns (uses n) = n /\ Forall (fun t => t = TDone) (lThreads s) /\
  lPools s = [mkPool (repeat 0 (S n)) false] /\ entries s = length (lConns s) + returns (uses n).
Proof.
  intros n L s. unfold s. rewrite (uses_state n L).
  assert (R : forall k, returns (uses k) = k).
  { induction k as [|k IH]; [reflexivity|]. cbn [uses]. unfold returns in *. rewrite filter_app, app_length, IH. cbn. lia. }
  split; [reflexivity|]. split; [apply R|]. split; [|split; [reflexivity|]].
  - apply Forall_forall. intros x I. apply repeat_spec in I. exact I.
  - rewrite R. unfold entries. cbn [lPools lConns map plItems list_sum fold_right length]. rewrite repeat_length. lia.
Qed.
Print Assumptions C141_reached.

(** Three uses leave four entries. *)
Example C141_instance : lPools (plrun pools0 (uses 3)) = [mkPool [0; 0; 0; 0] false] /\
  length (lConns (plrun pools0 (uses 3))) = 1.
Proof. vm_compute. auto. Qed.
