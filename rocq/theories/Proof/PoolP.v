(** Lemmas about the connection pools. *)
From Verif.Base Require Import GoBase GoLemmas Assoc.
From Verif.Model Require Import Pool.
From Verif.Spec Require Import PoolSpec.
From Verif.Proof Require Import SyncP NodeP.
Open Scope nat_scope.

(** ** Sums *)
Fixpoint cnt {A} (f : A -> nat) (l : list A) : nat :=
  match l with [] => 0 | x :: l' => f x + cnt f l' end.
Definition b2n (b : bool) : nat := if b then 1 else 0.

Lemma cnt_app : forall A (f : A -> nat) l l', cnt f (l ++ l') = cnt f l + cnt f l'.
Proof. induction l; intros; cbn; auto. rewrite IHl. lia. Qed.
Lemma cnt_set : forall A (f : A -> nat) l i x y l', nth_error l i = Some x -> list_set l i y = Some l' ->
  cnt f l' + f x = cnt f l + f y.
Proof.
  induction l as [|z l IH]; intros [|i] x y l' N S; try discriminate N; cbn in N, S.
  - injection N as ->. injection S as <-. cbn. lia.
  - destruct (list_set l i y) as [l2|] eqn:E; [|discriminate S]. injection S as <-. cbn.
    specialize (IH i x y l2 N E). lia.
Qed.
Lemma cnt_filter : forall A (f : A -> bool) l, length (filter f l) = cnt (fun x => b2n (f x)) l.
Proof. induction l; cbn; auto. destruct (f a); cbn; auto. Qed.
Lemma cnt_pos : forall A (f : A -> nat) l i x, nth_error l i = Some x -> f x <= cnt f l.
Proof. induction l as [|y l IH]; intros [|i] x N; try discriminate N; cbn in *; [injection N as ->; lia|]. specialize (IH _ _ N). lia. Qed.
Lemma cnt_remove : forall A (f : A -> nat) l i x, nth_error l i = Some x -> cnt f (list_remove l i) + f x = cnt f l.
Proof.
  unfold list_remove. induction l as [|y l IH]; intros [|i] x N; try discriminate N; cbn in *.
  - injection N as ->. lia.
  - specialize (IH _ _ N). cbn in IH. lia.
Qed.
Lemma set_some' : forall A (l : list A) i x y, nth_error l i = Some x -> exists l', list_set l i y = Some l'.
Proof. exact set_some. Qed.
Lemma set_len : forall A (l : list A) i y l', list_set l i y = Some l' -> length l' = length l.
Proof.
  induction l as [|z l IH]; intros [|i] y l' S; try discriminate S; cbn in S.
  - injection S as <-. reflexivity.
  - destruct (list_set l i y) as [l2|] eqn:E; [|discriminate S]. injection S as <-. cbn. f_equal. eauto.
Qed.

(** ** Pools and connections *)
Definition wE (c x : nat) : nat := b2n (Nat.eqb x c).
Definition entries (ps : list pool) (c : nat) : nat := cnt (fun q => cnt (wE c) (plItems q)) ps.

Lemma entries_put : forall ps p x c, entries (pool_put ps p x) c <= entries ps c + wE c x.
Proof.
  intros ps p x c. unfold pool_put, entries. destruct (nth_error ps p) as [q|] eqn:N; [|lia].
  destruct (set_some' _ _ _ _ (mkPool (x :: plItems q) (plClosed q)) N) as (ps' & S). rewrite S.
  pose proof (cnt_set _ (fun q => cnt (wE c) (plItems q)) _ _ _ _ _ N S) as H. cbn in H. lia.
Qed.
Lemma entries_take : forall ps p k x ps' c, pool_take ps p k = Some (x, ps') ->
  entries ps' c + wE c x = entries ps c.
Proof.
  intros ps p k x ps' c H. unfold pool_take in H. destruct (nth_error ps p) as [q|] eqn:N; [|discriminate H].
  destruct (nth_error (plItems q) k) as [y|] eqn:NI; [|discriminate H].
  destruct (list_set ps p (mkPool (list_remove (plItems q) k) (plClosed q))) as [ps2|] eqn:S; [|discriminate H].
  injection H as -> ->. unfold entries.
  pose proof (cnt_set _ (fun q => cnt (wE c) (plItems q)) _ _ _ _ _ N S) as X. cbn in X.
  pose proof (cnt_remove _ (wE c) _ _ _ NI). lia.
Qed.
Lemma entries_close : forall ps p c, entries (pool_close ps p) c = entries ps c.
Proof.
  intros ps p c. unfold pool_close, entries. destruct (nth_error ps p) as [q|] eqn:N; [|lia].
  destruct (set_some' _ _ _ _ (mkPool (plItems q) true) N) as (ps' & S). rewrite S.
  pose proof (cnt_set _ (fun q => cnt (wE c) (plItems q)) _ _ _ _ _ N S) as H. cbn in H. lia.
Qed.

Lemma set_state_len : forall l c st, length (set_state l c st) = length l.
Proof.
  intros l c st. unfold set_state. destruct (nth_error l c) as [k|]; auto.
  destruct (list_set _ _ _) eqn:S; auto. eapply set_len; eauto.
Qed.
Lemma add_counter_len : forall l c d, length (add_counter l c d) = length l.
Proof.
  intros l c st. unfold add_counter. destruct (nth_error l c) as [k|]; auto.
  destruct (list_set _ _ _) eqn:S; auto. eapply set_len; eauto.
Qed.
Lemma set_state_state : forall l c st x, state_of (set_state l c st) x = if Nat.eqb c x && (c <? length l) then st else state_of l x.
Proof.
  intros l c st x. unfold set_state, state_of. destruct (nth_error l c) as [k|] eqn:N.
  - assert (LT : c < length l) by (apply nth_error_Some; congruence). rewrite (proj2 (Nat.ltb_lt _ _) LT), andb_true_r.
    destruct (set_some' _ _ _ _ (mkConn (kCounter k) st) N) as (l' & S). rewrite S. rewrite (nth_set _ _ _ _ _ x S).
    destruct (Nat.eqb c x); auto.
  - apply nth_error_None in N. rewrite (proj2 (Nat.ltb_ge _ _) N), andb_false_r. reflexivity.
Qed.
Lemma set_state_counter : forall l c st x, counter_of (set_state l c st) x = counter_of l x.
Proof.
  intros l c st x. unfold set_state, counter_of. destruct (nth_error l c) as [k|] eqn:N; auto.
  destruct (set_some' _ _ _ _ (mkConn (kCounter k) st) N) as (l' & S). rewrite S. rewrite (nth_set _ _ _ _ _ x S).
  destruct (Nat.eqb_spec c x); auto. subst. rewrite N. reflexivity.
Qed.
Lemma add_counter_counter : forall l c d x, c < length l ->
  counter_of (add_counter l c d) x = (counter_of l x + if Nat.eqb c x then d else 0)%Z.
Proof.
  intros l c d x LT. unfold add_counter, counter_of. destruct (nth_error l c) as [k|] eqn:N.
  - destruct (set_some' _ _ _ _ (mkConn (kCounter k + d) (kState k)) N) as (l' & S). rewrite S.
    rewrite (nth_set _ _ _ _ _ x S). destruct (Nat.eqb_spec c x); [subst; rewrite N; reflexivity|]. lia.
  - apply nth_error_None in N. lia.
Qed.
Lemma add_counter_state : forall l c d x, state_of (add_counter l c d) x = state_of l x.
Proof.
  intros l c d x. unfold add_counter, state_of. destruct (nth_error l c) as [k|] eqn:N; auto.
  destruct (set_some' _ _ _ _ (mkConn (kCounter k + d) (kState k)) N) as (l' & S). rewrite S.
  rewrite (nth_set _ _ _ _ _ x S). destruct (Nat.eqb_spec c x); auto. subst. rewrite N. reflexivity.
Qed.
Lemma new_counter : forall l x st, counter_of (l ++ [mkConn 0 st]) x = counter_of l x.
Proof.
  intros l x st. unfold counter_of. destruct (Nat.lt_ge_cases x (length l)) as [LT|GE].
  - rewrite nth_error_app1 by auto. reflexivity.
  - rewrite nth_error_app2 by auto. rewrite (proj2 (nth_error_None l x) GE).
    destruct (x - length l) as [|[|j]]; reflexivity.
Qed.
Lemma new_state : forall l x k, x < length l -> state_of (l ++ [k]) x = state_of l x.
Proof. intros l x k LT. unfold state_of. rewrite nth_error_app1 by auto. reflexivity. Qed.

(** ** The invariant *)
Definition wU (c : nat) (t : tstate) : nat := b2n (uses c t).
Definition wM (c : nat) (t : tstate) : nat := b2n (mentions c t).
Definition wI (c : nat) (t : tstate) : nat :=
  match t with
  | TGot _ _ d | TInc _ d | TPut _ d | TDec d _ | THealth d _ => wE c d
  | _ => 0
  end.
Definition wL (c : nat) (t : tstate) : nat := match t with TLoad _ d => wE c d | _ => 0 end.

Record Pinv (s : pools) (rel : nat -> nat) : Prop := {
  P_fresh : forall c, length (lConns s) <= c -> cnt (wM c) (lThreads s) = 0 /\ entries (lPools s) c = 0;
  P_count : forall c, counter_of (lConns s) c = Z.of_nat (cnt (wU c) (lThreads s));
  P_total : forall c, entries (lPools s) c + cnt (wI c) (lThreads s) + cnt (wL c) (lThreads s) <= 1 + rel c;
  P_share : forall c, (cnt (wU c) (lThreads s) - 20) + entries (lPools s) c + cnt (wI c) (lThreads s) <= 1 + rel c
}.

Definition rel_of (s : pools) (e : plev) (c : nat) : nat :=
  match e with
  | EPut i => match nth_error (lThreads s) i with
              | Some (THeld d) => if Nat.eqb d c then 1 else 0
              | _ => 0
              end
  | _ => 0
  end.

Ltac wts := unfold wU, wM, wI, wL, wE in *; cbn [uses mentions b2n] in *.
Ltac cases_eqb := repeat match goal with
  | |- context[Nat.eqb ?a ?b] => destruct (Nat.eqb_spec a b); try subst
  | H : context[Nat.eqb ?a ?b] |- _ => destruct (Nat.eqb_spec a b); try subst
  end; cbn [b2n] in *.

Lemma zero_weights : forall c ts, cnt (fun t => b2n (mentions c t)) ts = 0 ->
  cnt (wI c) ts = 0 /\ cnt (wL c) ts = 0 /\ cnt (wU c) ts = 0.
Proof.
  intros c. induction ts as [|t ts IH]; cbn [cnt]; [auto|]. intro H.
  destruct IH as (A & B & C); [lia|]. rewrite A, B, C.
  destruct t; unfold wI, wL, wU, wE; cbn [uses mentions] in *; unfold b2n in *; cbn in *; lia.
Qed.

Lemma Pinv_thread : forall s rel i t pick dial, Pinv s rel -> nth_error (lThreads s) i = Some t ->
  forall cs ps t' ts, tstep s pick dial t = (cs, ps, t') -> list_set (lThreads s) i t' = Some ts ->
  Pinv (mkPools cs ps (lCur s) ts) rel.
Proof.
  intros s rel i t pick dial [F B C D] N cs ps t' ts ST LS.
  pose proof (fun c => cnt_set _ (wM c) _ _ _ _ _ N LS) as HM.
  pose proof (fun c => cnt_set _ (wU c) _ _ _ _ _ N LS) as HU.
  pose proof (fun c => cnt_set _ (wI c) _ _ _ _ _ N LS) as HI.
  pose proof (fun c => cnt_set _ (wL c) _ _ _ _ _ N LS) as HL.
  pose proof (fun c => cnt_pos _ (wM c) _ _ _ N) as QM.
  pose proof (fun c => cnt_pos _ (wU c) _ _ _ N) as QU.
  assert (LT : forall c, wM c t = 1 -> c < length (lConns s)).
  { intros c W. destruct (Nat.lt_ge_cases c (length (lConns s))) as [X|X]; auto.
    destruct (F c X) as [Y _]. specialize (QM c). lia. }
  assert (NE : forall c, wE c c = 1) by (intro c; unfold wE; rewrite Nat.eqb_refl; reflexivity).
  destruct t as [p n|p n x|p x|p x|p x|x| |x p|x p|p|p [|n]|p n x|]; cbn [tstep] in ST.
  - destruct (3 <? n).
    { injection ST as <- <- <-. constructor; cbn [lConns lPools lThreads]; intro c; specialize (F c); specialize (B c);
        specialize (C c); specialize (D c); specialize (HM c); specialize (HU c); specialize (HI c); specialize (HL c); wts; lia. }
    destruct (pool_take (lPools s) p pick) as [[x ps']|] eqn:PT.
    { injection ST as <- <- <-. pose proof (fun c => entries_take _ _ _ _ _ c PT) as HE.
      constructor; cbn [lConns lPools lThreads]; intro c; specialize (F c); specialize (B c); specialize (HE c);
        specialize (C c); specialize (D c); specialize (HM c); specialize (HU c); specialize (HI c); specialize (HL c); wts; lia. }
    destruct (negb (pool_closed (lPools s) p) && dial); injection ST as <- <- <-;
      constructor; cbn [lConns lPools lThreads]; intro c; rewrite ?new_counter, ?app_length; cbn [length];
        specialize (F c); specialize (B c); specialize (C c); specialize (D c);
        specialize (HM c); specialize (HU c); specialize (HI c); specialize (HL c); wts; cases_eqb; try lia.
    all: destruct (F (le_n _)) as [F1 F2]; destruct (zero_weights _ _ F1) as (Z1 & Z2 & Z3);
         unfold wI, wL, wU, wE in *; lia.
  - destruct (is_shutdown (state_of (lConns s) x)); injection ST as <- <- <-;
      constructor; cbn [lConns lPools lThreads]; intro c; specialize (F c); specialize (B c);
        specialize (C c); specialize (D c); specialize (HM c); specialize (HU c); specialize (HI c); specialize (HL c); wts; lia.
  - assert (LX : x < length (lConns s)) by (apply LT; apply NE).
    injection ST as <- <- <-. constructor; cbn [lConns lPools lThreads]; intro c; rewrite ?add_counter_len, ?add_counter_counter by auto;
      specialize (F c); specialize (B c);
      specialize (C c); specialize (D c); specialize (HM c); specialize (HU c); specialize (HI c); specialize (HL c); wts; cases_eqb; lia.
  - assert (LX : x < length (lConns s)) by (apply LT; apply NE). pose proof (B x) as BX.
    destruct (Z.leb_spec (counter_of (lConns s) x) 20); injection ST as <- <- <-;
      constructor; cbn [lConns lPools lThreads]; intro c; specialize (F c); specialize (B c);
        specialize (C c); specialize (D c); specialize (HM c); specialize (HU c); specialize (HI c); specialize (HL c); wts;
        cases_eqb; lia.
  - injection ST as <- <- <-. pose proof (entries_put (lPools s) p x) as HE.
    constructor; cbn [lConns lPools lThreads]; intro c; specialize (F c); specialize (B c); specialize (HE c); specialize (QM c);
        specialize (C c); specialize (D c); specialize (HM c); specialize (HU c); specialize (HI c); specialize (HL c); wts; lia.
  - injection ST as <- <- <-. constructor; cbn [lConns lPools lThreads]; intro c; specialize (F c); specialize (B c);
        specialize (C c); specialize (D c); specialize (HM c); specialize (HU c); specialize (HI c); specialize (HL c); wts; lia.
  - injection ST as <- <- <-. constructor; cbn [lConns lPools lThreads]; intro c; specialize (F c); specialize (B c);
        specialize (C c); specialize (D c); specialize (HM c); specialize (HU c); specialize (HI c); specialize (HL c); wts; lia.
  - assert (LX : x < length (lConns s)) by (apply LT; apply NE).
    injection ST as <- <- <-. constructor; cbn [lConns lPools lThreads]; intro c; rewrite ?add_counter_len, ?add_counter_counter by auto;
      specialize (F c); specialize (B c); specialize (QU c);
      specialize (C c); specialize (D c); specialize (HM c); specialize (HU c); specialize (HI c); specialize (HL c); wts; cases_eqb; lia.
  - destruct (is_ready (state_of (lConns s) x)); injection ST as <- <- <-.
    + pose proof (entries_put (lPools s) p x) as HE.
      constructor; cbn [lConns lPools lThreads]; intro c; specialize (F c); specialize (B c); specialize (HE c); specialize (QM c);
        specialize (C c); specialize (D c); specialize (HM c); specialize (HU c); specialize (HI c); specialize (HL c); wts; lia.
    + constructor; cbn [lConns lPools lThreads]; intro c; rewrite ?set_state_len, ?set_state_counter; specialize (F c); specialize (B c);
        specialize (C c); specialize (D c); specialize (HM c); specialize (HU c); specialize (HI c); specialize (HL c); wts; lia.
  - injection ST as <- <- <-. constructor; cbn [lConns lPools lThreads]; intro c; rewrite ?entries_close; specialize (F c); specialize (B c);
        specialize (C c); specialize (D c); specialize (HM c); specialize (HU c); specialize (HI c); specialize (HL c); wts; lia.
  - injection ST as <- <- <-. constructor; cbn [lConns lPools lThreads]; intro c; specialize (F c); specialize (B c);
        specialize (C c); specialize (D c); specialize (HM c); specialize (HU c); specialize (HI c); specialize (HL c); wts; lia.
  - destruct (pool_take (lPools s) p pick) as [[x ps']|] eqn:PT; injection ST as <- <- <-.
    + pose proof (fun c => entries_take _ _ _ _ _ c PT) as HE.
      constructor; cbn [lConns lPools lThreads]; intro c; specialize (F c); specialize (B c); specialize (HE c);
        specialize (C c); specialize (D c); specialize (HM c); specialize (HU c); specialize (HI c); specialize (HL c); wts; lia.
    + constructor; cbn [lConns lPools lThreads]; intro c; specialize (F c); specialize (B c);
        specialize (C c); specialize (D c); specialize (HM c); specialize (HU c); specialize (HI c); specialize (HL c); wts; lia.
  - injection ST as <- <- <-. constructor; cbn [lConns lPools lThreads]; intro c; rewrite ?set_state_len, ?set_state_counter; specialize (F c); specialize (B c);
        specialize (C c); specialize (D c); specialize (HM c); specialize (HU c); specialize (HI c); specialize (HL c); wts; lia.
  - injection ST as <- <- <-. constructor; cbn [lConns lPools lThreads]; intro c; specialize (F c); specialize (B c);
        specialize (C c); specialize (D c); specialize (HM c); specialize (HU c); specialize (HI c); specialize (HL c); wts; lia.
Qed.

Lemma Pinv_step : forall s rel e, Pinv s rel -> Pinv (plstep s e) (fun c => rel c + rel_of s e c).
Proof.
  intros s rel e I.
  assert (W : forall s', Pinv s' rel -> Pinv s' (fun c => rel c + rel_of s e c)).
  { intros s' [F B C D]. constructor; auto; intro c; [specialize (C c)|specialize (D c)]; lia. }
  destruct e as [|i pick dial|i| |p k|c0 st]; cbn [plstep].
  - apply W. destruct I as [F B C D]. constructor; cbn [lConns lPools lThreads]; intro c; rewrite !cnt_app; cbn [cnt];
      specialize (F c); specialize (B c); specialize (C c); specialize (D c); wts; lia.
  - destruct (nth_error (lThreads s) i) as [t|] eqn:N; [|apply W; exact I].
    destruct (tstep s pick dial t) as [[cs ps] t'] eqn:ST.
    destruct (list_set (lThreads s) i t') as [ts|] eqn:LS; [|apply W; exact I].
    apply W. eapply Pinv_thread; eauto.
  - destruct (nth_error (lThreads s) i) as [t|] eqn:N; [|apply W; exact I].
    destruct t as [p n|p n x|p x|p x|p x|x| |x p|x p|p|p n|p n x|]; try (apply W; exact I).
    destruct (list_set (lThreads s) i (TDec x (lCur s))) as [ts|] eqn:LS; [|apply W; exact I].
    destruct I as [F B C D].
    pose proof (fun c => cnt_set _ (wM c) _ _ _ _ _ N LS) as HM.
    pose proof (fun c => cnt_set _ (wU c) _ _ _ _ _ N LS) as HU.
    pose proof (fun c => cnt_set _ (wI c) _ _ _ _ _ N LS) as HI.
    pose proof (fun c => cnt_set _ (wL c) _ _ _ _ _ N LS) as HL.
    constructor; cbn [lConns lPools lThreads rel_of]; intro c; rewrite ?N; specialize (F c); specialize (B c);
        specialize (C c); specialize (D c); specialize (HM c); specialize (HU c); specialize (HI c); specialize (HL c); wts;
        cases_eqb; lia.
  - apply W. destruct I as [F B C D]. constructor; cbn [lConns lPools lThreads]; intro c; rewrite !cnt_app;
      specialize (F c); specialize (B c); specialize (C c); specialize (D c); unfold entries in *; rewrite ?cnt_app; cbn [cnt plItems]; wts; lia.
  - destruct (pool_take (lPools s) p k) as [[x ps]|] eqn:PT; [|apply W; exact I].
    apply W. destruct I as [F B C D]. pose proof (fun c => entries_take _ _ _ _ _ c PT) as HE.
    constructor; cbn [lConns lPools lThreads]; intro c; specialize (F c); specialize (B c); specialize (C c); specialize (D c);
      specialize (HE c); wts; lia.
  - destruct (is_shutdown (state_of (lConns s) c0) || is_shutdown st); [apply W; exact I|].
    apply W. destruct I as [F B C D]. constructor; cbn [lConns lPools lThreads]; intro c; rewrite ?set_state_len, ?set_state_counter; auto.
Qed.

Lemma Pinv_ext : forall s r r', (forall c, r c = r' c) -> Pinv s r -> Pinv s r'.
Proof. intros s r r' E [F B C D]. constructor; auto; intro c; rewrite <- E; auto. Qed.

Lemma Pinv_run : forall es s rel, Pinv s rel -> Pinv (plrun s es) (fun c => rel c + releases c s es).
Proof.
  induction es as [|e es IH]; intros s rel I; cbn [plrun releases].
  - eapply Pinv_ext; [|exact I]. intro. cbn. lia.
  - eapply Pinv_ext; [|apply IH; apply Pinv_step; exact I]. intro c. cbn. unfold rel_of. lia.
Qed.

Lemma Pinv0 : Pinv pools0 (fun _ => 0).
Proof.
  constructor; intro c; cbn; auto; unfold counter_of; try lia. cbn. destruct c; reflexivity.
Qed.

(** ** Single goroutines *)
Lemma set_app_last : forall A (l : list A) x y, list_set (l ++ [x]) (length l) y = Some (l ++ [y]).
Proof. induction l; intros; cbn; auto. rewrite IHl. reflexivity. Qed.
Lemma nth_app_last : forall A (l : list A) x, nth_error (l ++ [x]) (length l) = Some x.
Proof. intros. rewrite nth_error_app2 by lia. rewrite Nat.sub_diag. reflexivity. Qed.

(** What an event does to goroutine i. *)
Lemma thread_step : forall s e i t', nth_error (lThreads (plstep s e)) i = Some t' ->
  nth_error (lThreads s) i = Some t' \/
  (nth_error (lThreads s) i = None /\ i = length (lThreads s) /\ (t' = TTry (lCur s) 0 \/ (e = EEvict /\ t' = TClosing (lCur s)))) \/
  (exists t pick dial, nth_error (lThreads s) i = Some t /\ e = EStep i pick dial /\ t' = snd (tstep s pick dial t)) \/
  (exists c, nth_error (lThreads s) i = Some (THeld c) /\ e = EPut i /\ t' = TDec c (lCur s)).
Proof.
  intros s e i t' H.
  assert (APP : forall x, nth_error (lThreads s ++ [x]) i = Some t' -> nth_error (lThreads s) i = Some t' \/
    (nth_error (lThreads s) i = None /\ i = length (lThreads s) /\ t' = x)).
  { intros x X. destruct (Nat.lt_ge_cases i (length (lThreads s))) as [LT|GE].
    - rewrite nth_error_app1 in X by auto. auto.
    - right. rewrite nth_error_app2 in X by auto. destruct (i - length (lThreads s)) as [|j] eqn:E.
      + cbn in X. injection X as <-. split; [apply nth_error_None; auto|]. split; [lia|auto].
      + destruct j; discriminate X. }
  destruct e as [|j pick dial|j| |p k|c0 st]; cbn [plstep] in H.
  - cbn [lThreads] in H. destruct (APP _ H) as [X|(X & Y & Z)]; auto 10.
  - destruct (nth_error (lThreads s) j) as [t|] eqn:N; [|auto].
    destruct (tstep s pick dial t) as [[cs ps] t2] eqn:ST.
    destruct (list_set (lThreads s) j t2) as [ts|] eqn:LS; [|auto]. cbn [lThreads] in H.
    rewrite (nth_set _ _ _ _ _ i LS) in H. destruct (Nat.eqb_spec j i) as [EQ|NE]; [|auto]. subst j.
    injection H as <-. right. right. left. exists t, pick, dial. rewrite ST. auto.
  - destruct (nth_error (lThreads s) j) as [t|] eqn:N; [|auto].
    destruct t as [p n|p n x|p x|p x|p x|x| |x p|x p|p|p n|p n x|]; auto.
    destruct (list_set (lThreads s) j (TDec x (lCur s))) as [ts|] eqn:LS; [|auto]. cbn [lThreads] in H.
    rewrite (nth_set _ _ _ _ _ i LS) in H. destruct (Nat.eqb_spec j i) as [EQ|NE]; [|auto]. subst j.
    injection H as <-. right. right. right. exists x. auto.
  - cbn [lThreads] in H. destruct (APP _ H) as [X|(X & Y & Z)]; auto 10.
  - destruct (pool_take (lPools s) p k) as [[x ps]|]; auto.
  - destruct (is_shutdown (state_of (lConns s) c0) || is_shutdown st); auto.
Qed.

Lemma plrun_app : forall es1 es2 s, plrun s (es1 ++ es2) = plrun (plrun s es1) es2.
Proof. induction es1; intros; cbn; auto. Qed.

Lemma chosen_checked : forall es i t c,
  nth_error (lThreads (plrun pools0 es)) i = Some t -> chosen c t = true ->
  exists es1 es2 p n, es = es1 ++ es2 /\
    nth_error (lThreads (plrun pools0 es1)) i = Some (TGot p n c) /\
    state_of (lConns (plrun pools0 es1)) c <> Shutdown.
Proof.
  induction es as [|e es IH] using rev_ind; intros i t c N CH.
  - destruct i; discriminate N.
  - rewrite plrun_app in N. cbn [plrun] in N. set (s := plrun pools0 es) in *.
    assert (OLD : forall t0, nth_error (lThreads s) i = Some t0 -> chosen c t0 = true ->
      exists es1 es2 p n, es ++ [e] = es1 ++ es2 /\
        nth_error (lThreads (plrun pools0 es1)) i = Some (TGot p n c) /\
        state_of (lConns (plrun pools0 es1)) c <> Shutdown).
    { intros t0 N0 C0. destruct (IH i t0 c N0 C0) as (es1 & es2 & p & n & E & X). exists es1, (es2 ++ [e]), p, n.
      rewrite E, <- app_assoc. auto. }
    destruct (thread_step _ _ _ _ N) as [X|[(X & _ & [Y|[_ Y]])|[(t0 & pick & dial & N0 & _ & ->)|(x & N0 & _ & ->)]]].
    + eauto.
    + subst t. discriminate CH.
    + subst t. discriminate CH.
    + destruct t0 as [p n|p n x|p x|p x|p x|x| |x p|x p|p|p [|n]|p n x|]; cbn [tstep] in CH.
      * destruct (3 <? n); [discriminate CH|]. destruct (pool_take (lPools s) p pick) as [[y ps']|]; [discriminate CH|].
        destruct (negb _ && dial); discriminate CH.
      * destruct (is_shutdown (state_of (lConns s) x)) eqn:SH; [discriminate CH|]. cbn in CH. apply Nat.eqb_eq in CH. subst x.
        exists es, [e], p, n. split; [auto|]. split; [exact N0|]. fold s. intro X. rewrite X in SH. discriminate SH.
      * apply (OLD _ N0). exact CH.
      * apply (OLD _ N0). cbn [snd] in CH. destruct (counter_of (lConns s) x <=? 20)%Z; exact CH.
      * apply (OLD _ N0). exact CH.
      * apply (OLD _ N0). exact CH.
      * discriminate CH.
      * apply (OLD _ N0). exact CH.
      * destruct (is_ready _); discriminate CH.
      * discriminate CH.
      * discriminate CH.
      * destruct (pool_take (lPools s) p pick) as [[y ps']|]; discriminate CH.
      * discriminate CH.
      * discriminate CH.
    + apply (OLD _ N0). exact CH.
Qed.

(** The work left until Get returns. *)
Definition work (t : tstate) : nat :=
  match t with
  | TTry _ n => 2 * (4 - n) + 4
  | TGot _ n _ => 2 * (4 - n) + 3
  | TInc _ _ => 3 | TLoad _ _ => 2 | TPut _ _ => 1
  | _ => 0
  end.
Definition getting (t : tstate) : Prop :=
  match t with TTry _ n => n <= 4 | TGot _ n _ => n <= 3 | TInc _ _ | TLoad _ _ | TPut _ _ => True | _ => False end.
Definition returned (t : tstate) : Prop :=
  match t with THeld _ | TNil | TDec _ _ | THealth _ _ | TDone => True | _ => False end.
Definition left_tries (t : tstate) : nat :=
  match t with TTry _ n => 4 - n | TGot _ n _ => 3 - n | _ => 0 end.
Definition a_try (t : tstate) : nat := match t with TTry _ n => if n <=? 3 then 1 else 0 | _ => 0 end.

Lemma getting_step : forall s pick dial t, getting t ->
  let t' := snd (tstep s pick dial t) in
  (getting t' \/ (returned t' /\ (t' = TNil \/ exists c, t' = THeld c))) /\ work t' < work t /\ a_try t + left_tries t' <= left_tries t.
Proof.
  intros s pick dial t G t'. subst t'.
  destruct t as [p n|p n x|p x|p x|p x|x| |x p|x p|p|p n|p n x|]; cbn in G; try contradiction; cbn [tstep].
  - destruct (Nat.ltb_spec 3 n).
    { cbn. split; [auto|]. destruct (Nat.leb_spec n 3); lia. }
    destruct (pool_take (lPools s) p pick) as [[y ps']|].
    { cbn [snd getting work left_tries a_try]. split; [left; lia|]. destruct (Nat.leb_spec n 3); lia. }
    destruct (negb _ && dial); cbn [snd getting work left_tries a_try]; (split; [left; lia|]); destruct (Nat.leb_spec n 3); lia.
  - destruct (is_shutdown (state_of (lConns s) x)); cbn [snd getting work left_tries a_try]; split; (lia || (left; lia) || (left; exact I)).
  - cbn. split; [auto|lia].
  - destruct (counter_of (lConns s) x <=? 20)%Z; cbn; split; eauto; lia.
  - cbn. split; eauto.
Qed.

Lemma returned_step : forall s e i t t', nth_error (lThreads s) i = Some t ->
  nth_error (lThreads (plstep s e)) i = Some t' -> returned t -> returned t'.
Proof.
  intros s e i t t' N N' R.
  destruct (thread_step _ _ _ _ N') as [X|[(X & _)|[(t0 & pick & dial & N0 & _ & ->)|(x & N0 & _ & ->)]]].
  - congruence.
  - congruence.
  - rewrite N in N0. injection N0 as <-. destruct t; cbn in R; try contradiction; cbn [tstep snd returned]; auto.
    destruct (is_ready _); exact I.
  - exact I.
Qed.
Lemma thread_stays : forall s e i t, nth_error (lThreads s) i = Some t -> exists t', nth_error (lThreads (plstep s e)) i = Some t'.
Proof.
  intros s e i t N.
  assert (L : length (lThreads s) <= length (lThreads (plstep s e))).
  { destruct e as [|j pick dial|j| |p k|c0 st]; cbn [plstep].
    - cbn. rewrite app_length. lia.
    - destruct (nth_error (lThreads s) j) as [t0|]; [|lia]. destruct (tstep s pick dial t0) as [[cs ps] t2].
      destruct (list_set (lThreads s) j t2) as [ts|] eqn:LS; [|lia]. cbn. rewrite (set_len _ _ _ _ _ LS). lia.
    - destruct (nth_error (lThreads s) j) as [t0|]; [|lia].
      destruct t0; try lia. destruct (list_set (lThreads s) j _) as [ts|] eqn:LS; [|lia]. cbn. rewrite (set_len _ _ _ _ _ LS). lia.
    - cbn. rewrite app_length. lia.
    - destruct (pool_take (lPools s) p k) as [[x ps]|]; cbn; lia.
    - destruct (is_shutdown (state_of (lConns s) c0) || is_shutdown st); cbn; lia. }
  assert (i < length (lThreads s)) by (apply nth_error_Some; congruence).
  destruct (nth_error (lThreads (plstep s e)) i) as [t'|] eqn:E; [eauto|]. apply nth_error_None in E. lia.
Qed.

Lemma run_returned : forall es s i t, nth_error (lThreads s) i = Some t -> returned t ->
  exists t', nth_error (lThreads (plrun s es)) i = Some t' /\ returned t' /\ attempts i s es = 0.
Proof.
  induction es as [|e es IH]; intros s i t N R; cbn [plrun attempts]; [eauto|].
  destruct (thread_stays s e i t N) as (t1 & N1). pose proof (returned_step _ _ _ _ _ N N1 R) as R1.
  destruct (IH _ _ _ N1 R1) as (t' & N' & R' & A). exists t'. split; [auto|]. split; [auto|]. rewrite A.
  destruct e as [|j pick dial|j| |p k|c0 st]; auto. destruct (Nat.eqb i j); auto. rewrite N.
  destruct t; cbn in R; try contradiction; auto.
Qed.

Lemma run_getting : forall es s i t, nth_error (lThreads s) i = Some t -> getting t ->
  exists t', nth_error (lThreads (plrun s es)) i = Some t' /\ (getting t' \/ returned t') /\
    (work t <= steps_of i es -> returned t') /\ attempts i s es <= left_tries t.
Proof.
  induction es as [|e es IH]; intros s i t N G; cbn [plrun attempts].
  - exists t. split; [auto|]. split; [auto|]. split; [|lia]. cbn. intro. destruct t; cbn in *; try contradiction; lia.
  - destruct (thread_stays s e i t N) as (t1 & N1).
    destruct (thread_step _ _ _ _ N1) as [X|[(X & _)|[(t0 & pick & dial & N0 & -> & E1)|(x & N0 & _ & _)]]].
    + rewrite N in X. injection X as <-.
      destruct e as [|j pick dial|j| |p k|c0 st];
        try (destruct (IH _ _ _ N1 G) as (t' & N' & GR & W & A); exists t'; split; [auto|]; split; [auto|]; split; [exact W|lia]).
      destruct (Nat.eqb_spec i j) as [<-|NE].
      * (* a step that leaves the state unchanged is impossible while getting *)
        exfalso. cbn [plstep] in N1. rewrite N in N1. destruct (tstep s pick dial t) as [[cs ps] t2] eqn:ST.
        destruct (set_some' _ _ _ _ t2 N) as (ts & LS). rewrite LS in N1. cbn [lThreads] in N1.
        rewrite (nth_set _ _ _ _ _ i LS), Nat.eqb_refl in N1. injection N1 as ->.
        destruct (getting_step s pick dial t G) as (_ & W & _). rewrite ST in W. cbn in W. lia.
      * destruct (IH _ _ _ N1 G) as (t' & N' & GR & W & A). exists t'. split; [auto|]. split; [auto|].
        split; [|lia]. unfold steps_of in *. cbn [filter own_step]. rewrite (proj2 (Nat.eqb_neq i j) NE). exact W.
    + congruence.
    + rewrite N in N0. injection N0 as <-. rewrite Nat.eqb_refl, N.
      destruct (getting_step s pick dial t G) as (GR1 & W1 & A1). rewrite <- E1 in GR1, W1, A1.
      assert (ST : steps_of i (EStep i pick dial :: es) = S (steps_of i es)).
      { unfold steps_of. cbn [filter own_step]. rewrite Nat.eqb_refl. reflexivity. }
      rewrite ST. destruct GR1 as [G1|[R1 _]].
      * destruct (IH _ _ _ N1 G1) as (t' & N' & GR & W & A). exists t'. split; [auto|]. split; [auto|].
        split; [intro; apply W; lia|]. fold (a_try t). destruct t; cbn [a_try] in *; lia.
      * destruct (run_returned es _ _ _ N1 R1) as (t' & N' & R' & A). exists t'. split; [auto|]. split; [auto|].
        split; [auto|]. rewrite A. fold (a_try t). destruct t; cbn [a_try] in *; lia.
    + rewrite N in N0. injection N0 as ->. contradiction.
Qed.

(** ** Nothing is closed in calm executions *)
Definition no_closer (t : tstate) : Prop := match t with TClosing _ | TCloseAll _ _ | TClose _ _ _ => False | _ => True end.
Definition Iopen (s : pools) : Prop :=
  (forall c, c < length (lConns s) -> state_of (lConns s) c <> Shutdown) /\ Forall no_closer (lThreads s).

Lemma Forall_set : forall A (P : A -> Prop) l i y l', Forall P l -> P y -> list_set l i y = Some l' -> Forall P l'.
Proof.
  induction l as [|z l IH]; intros [|i] y l' F PY S; try discriminate S; cbn in S; inversion F; subst.
  - injection S as <-. constructor; auto.
  - destruct (list_set l i y) as [l2|] eqn:E; [|discriminate S]. injection S as <-. constructor; eauto.
Qed.

Lemma Iopen_run : forall es s, Iopen s -> calm s es -> Iopen (plrun s es).
Proof.
  induction es as [|e es IH]; intros s I K; cbn [plrun]; auto. cbn [calm] in K. destruct K as [K1 K]. apply IH; auto.
  destruct I as [O NC]. clear IH K.
  destruct e as [|i pick dial|i| |p k|c0 st]; cbn [plstep]; try contradiction.
  - split; [exact O|]. cbn. apply Forall_app. split; [auto|]. constructor; [exact I|constructor].
  - destruct (nth_error (lThreads s) i) as [t|] eqn:N; [|split; auto].
    destruct (tstep s pick dial t) as [[cs ps] t'] eqn:ST.
    destruct (list_set (lThreads s) i t') as [ts|] eqn:LS; [|split; auto].
    assert (NT : no_closer t) by (rewrite Forall_forall in NC; apply NC; eapply nth_error_In; eauto).
    assert (X : (forall c, c < length cs -> state_of cs c <> Shutdown) /\ no_closer t').
    { destruct t as [p n|p n x|p x|p x|p x|x| |x p|x p|p|p n|p n x|]; cbn [tstep] in ST; cbn in NT; try contradiction.
      - destruct (3 <? n); [injection ST as <- <- <-; split; [auto|exact I]|].
        destruct (pool_take (lPools s) p pick) as [[y ps']|]; [injection ST as <- <- <-; split; [auto|exact I]|].
        destruct (negb _ && dial); injection ST as <- <- <-; (split; [|exact I]); auto.
        intros c L. rewrite app_length in L. cbn in L. destruct (Nat.lt_ge_cases c (length (lConns s))).
        + rewrite new_state by auto. auto.
        + unfold state_of. rewrite nth_error_app2 by auto. replace (c - length (lConns s)) with 0 by lia. discriminate.
      - destruct (is_shutdown _); injection ST as <- <- <-; split; auto; exact I.
      - injection ST as <- <- <-. split; [|exact I]. intros c L. rewrite add_counter_len in L. rewrite add_counter_state. auto.
      - injection ST as <- <- <-. split; [auto|]. destruct (_ <=? 20)%Z; exact I.
      - injection ST as <- <- <-. split; auto; exact I.
      - injection ST as <- <- <-. split; auto; exact I.
      - injection ST as <- <- <-. split; auto; exact I.
      - injection ST as <- <- <-. split; [|exact I]. intros c L. rewrite add_counter_len in L. rewrite add_counter_state. auto.
      - rewrite K1 in ST. cbn [is_ready] in ST. injection ST as <- <- <-. split; auto; exact I.
      - injection ST as <- <- <-. split; auto; exact I. }
    destruct X as [X1 X2]. split; [exact X1|]. cbn. eapply Forall_set; eauto.
  - destruct (nth_error (lThreads s) i) as [t|] eqn:N; [|split; auto]. destruct t; try (split; auto; fail).
    destruct (list_set (lThreads s) i _) as [ts|] eqn:LS; [|split; auto]. split; [exact O|]. cbn. eapply Forall_set; eauto. exact I.
  - destruct (pool_take (lPools s) p k) as [[x ps]|]; split; auto.
  - destruct (is_shutdown (state_of (lConns s) c0)) eqn:A; [split; auto|]. destruct (is_shutdown st) eqn:B; cbn [orb]; [split; auto|].
    split; [|exact NC]. cbn [lConns]. intros c L. rewrite set_state_len in L. rewrite set_state_state.
    destruct (Nat.eqb c0 c && (c0 <? length (lConns s))); [intro X; subst st; discriminate B|auto].
Qed.

(** ** No connection is lost *)
Lemma entries_put_eq : forall ps p x c, p < length ps -> entries (pool_put ps p x) c = entries ps c + wE c x.
Proof.
  intros ps p x c L. unfold pool_put, entries. destruct (nth_error ps p) as [q|] eqn:N; [|apply nth_error_None in N; lia].
  destruct (set_some' _ _ _ _ (mkPool (x :: plItems q) (plClosed q)) N) as (ps' & S). rewrite S.
  pose proof (cnt_set _ (fun q => cnt (wE c) (plItems q)) _ _ _ _ _ N S) as H. cbn in H. lia.
Qed.
Lemma pool_put_len : forall ps p x, length (pool_put ps p x) = length ps.
Proof. intros ps p x. unfold pool_put. destruct (nth_error ps p); auto. destruct (list_set _ _ _) eqn:S; auto. eapply set_len; eauto. Qed.
Lemma pool_take_len : forall ps p k x ps', pool_take ps p k = Some (x, ps') -> length ps' = length ps.
Proof.
  intros ps p k x ps' H. unfold pool_take in H. destruct (nth_error ps p) as [q|]; [|discriminate H].
  destruct (nth_error (plItems q) k) as [y|]; [|discriminate H].
  destruct (list_set _ _ _) as [ps2|] eqn:S; [|discriminate H]. injection H as _ ->. eapply set_len; eauto.
Qed.
Definition pool_idx (t : tstate) : option nat :=
  match t with
  | TTry p _ | TGot p _ _ | TInc p _ | TLoad p _ | TPut p _ | TDec _ p | THealth _ p => Some p
  | _ => None
  end.
Definition pool_ok (t : tstate) : Prop := no_closer t /\ match pool_idx t with Some p => p = 0 | None => True end.
Record Kinv (s : pools) : Prop := {
  K_cur : lCur s = 0 /\ length (lPools s) = 1;
  K_idx : Forall pool_ok (lThreads s);
  K_kept : forall c, c < length (lConns s) -> state_of (lConns s) c <> Shutdown ->
     1 <= entries (lPools s) c + cnt (wM c) (lThreads s) }.

Lemma Kinv_step : forall s e, Kinv s -> undisturbed e -> Kinv (plstep s e).
Proof.
  intros s e [[CU LP] ID KE] U.
  destruct e as [|i pick dial|i| |p k|c0 st]; cbn [plstep]; try contradiction.
  - constructor; cbn [lConns lPools lThreads lCur]; auto.
    + apply Forall_app. split; auto. constructor; [|constructor]. split; [exact I|exact CU].
    + intros c L S. rewrite cnt_app. specialize (KE c L S). lia.
  - destruct (nth_error (lThreads s) i) as [t|] eqn:N; [|constructor; auto].
    destruct (tstep s pick dial t) as [[cs ps] t'] eqn:ST.
    destruct (list_set (lThreads s) i t') as [ts|] eqn:LS; [|constructor; auto].
    pose proof (fun c => cnt_set _ (wM c) _ _ _ _ _ N LS) as HM.
    assert (OT : pool_ok t) by (rewrite Forall_forall in ID; apply ID; eapply nth_error_In; eauto).
    assert (X : length ps = 1 /\ pool_ok t' /\
      forall c, c < length cs -> state_of cs c <> Shutdown -> 1 <= entries ps c + cnt (wM c) ts).
    { destruct OT as [NT PI]. unfold pool_ok.
      destruct t as [p n|p n x|p x|p x|p x|x| |x p|x p|p|p n|p n x|]; cbn [tstep] in ST; cbn in NT, PI; try contradiction.
      - destruct (3 <? n).
        { injection ST as <- <- <-. split; [auto|]. split; [cbn; auto|]. intros c L S. specialize (KE c L S); specialize (HM c); wts; lia. }
        destruct (pool_take (lPools s) p pick) as [[y ps']|] eqn:PT.
        { injection ST as <- <- <-. split; [rewrite (pool_take_len _ _ _ _ _ PT); auto|]. split; [cbn; auto|].
          intros c L S. specialize (KE c L S); specialize (HM c). pose proof (entries_take _ _ _ _ _ c PT). wts. lia. }
        destruct (negb _ && dial); injection ST as <- <- <-; (split; [auto|]); (split; [cbn; auto|]); intros c L S; specialize (HM c).
        + rewrite app_length in L. cbn in L. wts. destruct (Nat.eqb_spec (length (lConns s)) c) as [EQ|NE]; cbn [b2n] in *; [lia|].
          rewrite new_state in S by lia. specialize (KE c ltac:(lia) S). lia.
        + specialize (KE c L S). wts; lia.
      - destruct (is_shutdown (state_of (lConns s) x)) eqn:SH; injection ST as <- <- <-; (split; [auto|]); (split; [cbn; auto|]);
          intros c L S; specialize (HM c); specialize (KE c L S); wts; [|lia].
        destruct (Nat.eqb_spec x c) as [EQ|NE]; cbn [b2n] in *; [|lia]. subst x. destruct (state_of (lConns s) c); try discriminate SH. congruence.
      - injection ST as <- <- <-. split; [auto|]. split; [cbn; auto|]. intros c L S. rewrite add_counter_len in L.
        rewrite add_counter_state in S. specialize (HM c); specialize (KE c L S); wts; lia.
      - injection ST as <- <- <-. split; [auto|]. split; [destruct (_ <=? 20)%Z; cbn; auto|].
        intros c L S. specialize (HM c); specialize (KE c L S). destruct (_ <=? 20)%Z; wts; lia.
      - injection ST as <- <- <-. split; [rewrite pool_put_len; auto|]. split; [cbn; auto|].
        intros c L S. specialize (HM c); specialize (KE c L S). rewrite entries_put_eq by lia. wts; lia.
      - injection ST as <- <- <-. split; [auto|]. split; [cbn; auto|]. intros c L S. specialize (HM c); specialize (KE c L S); wts; lia.
      - injection ST as <- <- <-. split; [auto|]. split; [cbn; auto|]. intros c L S. specialize (HM c); specialize (KE c L S); wts; lia.
      - injection ST as <- <- <-. split; [auto|]. split; [cbn; auto|]. intros c L S. rewrite add_counter_len in L.
        rewrite add_counter_state in S. specialize (HM c); specialize (KE c L S); wts; lia.
      - destruct (is_ready (state_of (lConns s) x)); injection ST as <- <- <-.
        + split; [rewrite pool_put_len; auto|]. split; [cbn; auto|].
          intros c L S. specialize (HM c); specialize (KE c L S). rewrite entries_put_eq by lia. wts; lia.
        + split; [auto|]. split; [cbn; auto|]. intros c L S. rewrite set_state_len in L. rewrite set_state_state in S. specialize (HM c).
          destruct (Nat.eqb_spec x c) as [EQ|NE]; cbn [andb] in S.
          * subst x. rewrite (proj2 (Nat.ltb_lt _ _) L) in S. congruence.
          * specialize (KE c L S). wts. destruct (Nat.eqb_spec x c); [congruence|]. cbn [b2n] in *. lia.
      - injection ST as <- <- <-. split; [auto|]. split; [cbn; auto|]. intros c L S. specialize (HM c); specialize (KE c L S); wts; lia. }
    destruct X as (X1 & X2 & X3). constructor; cbn [lConns lPools lThreads lCur]; auto. eapply Forall_set; eauto.
  - destruct (nth_error (lThreads s) i) as [t|] eqn:N; [|constructor; auto]. destruct t; try (constructor; auto; fail).
    destruct (list_set (lThreads s) i _) as [ts|] eqn:LS; [|constructor; auto].
    pose proof (fun c => cnt_set _ (wM c) _ _ _ _ _ N LS) as HM.
    constructor; cbn [lConns lPools lThreads lCur]; auto.
    + eapply Forall_set; eauto. split; [exact I|exact CU].
    + intros c' L S. specialize (HM c'); specialize (KE c' L S); wts; lia.
  - destruct (is_shutdown (state_of (lConns s) c0)) eqn:A; [constructor; auto|].
    destruct (is_shutdown st) eqn:B; cbn [orb]; [constructor; auto|].
    constructor; cbn [lConns lPools lThreads lCur]; auto. intros c L S. rewrite set_state_len in L. rewrite set_state_state in S.
    apply KE; auto. destruct (Nat.eqb_spec c0 c) as [EQ|NE]; cbn [andb] in S; auto. subst c0. intro X. rewrite X in A. discriminate A.
Qed.
Lemma Kinv_run : forall es s, Kinv s -> Forall undisturbed es -> Kinv (plrun s es).
Proof. induction es; intros s K F; cbn; auto. inversion_clear F. apply IHes; auto. apply Kinv_step; auto. Qed.

(** ** ... but those the garbage collector drops *)
Definition in_range (n : nat) (t : tstate) : Prop :=
  match t with
  | TTry p _ | TGot p _ _ | TInc p _ | TLoad p _ | TPut p _ | TDec _ p | THealth _ p | TClosing p | TCloseAll p _ | TClose p _ _ => p < n
  | _ => True
  end.
Lemma in_range_more : forall n m t, n <= m -> in_range n t -> in_range m t.
Proof. intros n m t L. destruct t; cbn; lia. Qed.
Lemma pool_close_len : forall ps p, length (pool_close ps p) = length ps.
Proof. intros ps p. unfold pool_close. destruct (nth_error ps p); auto. destruct (list_set _ _ _) eqn:S; auto. eapply set_len; eauto. Qed.
Record Jinv (d : nat -> nat) (s : pools) : Prop := {
  J_cur : lCur s < length (lPools s);
  J_idx : Forall (in_range (length (lPools s))) (lThreads s);
  J_kept : forall c, c < length (lConns s) -> state_of (lConns s) c <> Shutdown ->
     1 <= d c + (entries (lPools s) c + cnt (wM c) (lThreads s)) }.
Definition drops (s : pools) (e : plev) (c : nat) : nat :=
  match e with
  | EDrop p k => match pool_take (lPools s) p k with Some (x, _) => wE c x | None => 0 end
  | _ => 0
  end.

Lemma Jinv_step : forall d s e, Jinv d s -> Jinv (fun c => d c + drops s e c) (plstep s e).
Proof.
  intros d s e [CU ID KE].
  assert (E0 : (forall c, drops s e c = 0) -> Jinv d (plstep s e) -> Jinv (fun c => d c + drops s e c) (plstep s e)).
  { intros Z [A B C]. constructor; auto. intros c L S. rewrite Z, Nat.add_0_r. auto. }
  destruct e as [|i pick dial|i| |p k|c0 st]; [apply E0; [reflexivity|]..| |apply E0; [reflexivity|]]; clear E0; cbn [plstep].
  - constructor; cbn [lConns lPools lThreads lCur]; auto.
    + apply Forall_app. split; auto.
    + intros c L S. rewrite cnt_app. specialize (KE c L S). lia.
  - destruct (nth_error (lThreads s) i) as [t|] eqn:N; [|constructor; auto].
    destruct (tstep s pick dial t) as [[cs ps] t'] eqn:ST.
    destruct (list_set (lThreads s) i t') as [ts|] eqn:LS; [|constructor; auto].
    pose proof (fun c => cnt_set _ (wM c) _ _ _ _ _ N LS) as HM.
    assert (OT : in_range (length (lPools s)) t) by (rewrite Forall_forall in ID; apply ID; eapply nth_error_In; eauto).
    assert (X : length ps = length (lPools s) /\ in_range (length (lPools s)) t' /\
      forall c, c < length cs -> state_of cs c <> Shutdown -> 1 <= d c + (entries ps c + cnt (wM c) ts)).
    { destruct t as [p n|p n x|p x|p x|p x|x| |x p|x p|p|p n|p n x|]; cbn [tstep] in ST; cbn in OT.
      - destruct (3 <? n).
        { injection ST as <- <- <-. split; [auto|]. split; [cbn; auto|]. intros c L S. specialize (KE c L S); specialize (HM c); wts; lia. }
        destruct (pool_take (lPools s) p pick) as [[y ps']|] eqn:PT.
        { injection ST as <- <- <-. split; [rewrite (pool_take_len _ _ _ _ _ PT); auto|]. split; [cbn; auto|].
          intros c L S. specialize (KE c L S); specialize (HM c). pose proof (entries_take _ _ _ _ _ c PT). wts. lia. }
        destruct (negb _ && dial); injection ST as <- <- <-; (split; [auto|]); (split; [cbn; auto|]); intros c L S; specialize (HM c).
        + rewrite app_length in L. cbn in L. wts. destruct (Nat.eqb_spec (length (lConns s)) c) as [EQ|NE]; cbn [b2n] in *; [lia|].
          rewrite new_state in S by lia. specialize (KE c ltac:(lia) S). lia.
        + specialize (KE c L S). wts; lia.
      - destruct (is_shutdown (state_of (lConns s) x)) eqn:SH; injection ST as <- <- <-; (split; [auto|]); (split; [cbn; auto|]);
          intros c L S; specialize (HM c); specialize (KE c L S); wts; [|lia].
        destruct (Nat.eqb_spec x c) as [EQ|NE]; cbn [b2n] in *; [|lia]. subst x. destruct (state_of (lConns s) c); try discriminate SH. congruence.
      - injection ST as <- <- <-. split; [auto|]. split; [cbn; auto|]. intros c L S. rewrite add_counter_len in L.
        rewrite add_counter_state in S. specialize (HM c); specialize (KE c L S); wts; lia.
      - injection ST as <- <- <-. split; [auto|]. split; [destruct (_ <=? 20)%Z; cbn; auto|].
        intros c L S. specialize (HM c); specialize (KE c L S). destruct (_ <=? 20)%Z; wts; lia.
      - injection ST as <- <- <-. split; [rewrite pool_put_len; auto|]. split; [cbn; auto|].
        intros c L S. specialize (HM c); specialize (KE c L S). rewrite entries_put_eq by lia. wts; lia.
      - injection ST as <- <- <-. split; [auto|]. split; [cbn; auto|]. intros c L S. specialize (HM c); specialize (KE c L S); wts; lia.
      - injection ST as <- <- <-. split; [auto|]. split; [cbn; auto|]. intros c L S. specialize (HM c); specialize (KE c L S); wts; lia.
      - injection ST as <- <- <-. split; [auto|]. split; [cbn; auto|]. intros c L S. rewrite add_counter_len in L.
        rewrite add_counter_state in S. specialize (HM c); specialize (KE c L S); wts; lia.
      - destruct (is_ready (state_of (lConns s) x)); injection ST as <- <- <-.
        + split; [rewrite pool_put_len; auto|]. split; [cbn; auto|].
          intros c L S. specialize (HM c); specialize (KE c L S). rewrite entries_put_eq by lia. wts; lia.
        + split; [auto|]. split; [cbn; auto|]. intros c L S. rewrite set_state_len in L. rewrite set_state_state in S. specialize (HM c).
          destruct (Nat.eqb_spec x c) as [EQ|NE]; cbn [andb] in S.
          * subst x. rewrite (proj2 (Nat.ltb_lt _ _) L) in S. congruence.
          * specialize (KE c L S). wts. destruct (Nat.eqb_spec x c); [congruence|]. cbn [b2n] in *. lia.
      - injection ST as <- <- <-. split; [apply pool_close_len|]. split; [cbn; auto|].
        intros c L S. specialize (HM c); specialize (KE c L S). rewrite entries_close. wts; lia.
      - destruct n as [|n]; [injection ST as <- <- <-; split; [auto|]; split; [cbn; auto|]; intros c L S; specialize (HM c); specialize (KE c L S); wts; lia|].
        destruct (pool_take (lPools s) p pick) as [[y ps']|] eqn:PT; injection ST as <- <- <-.
        + split; [rewrite (pool_take_len _ _ _ _ _ PT); auto|]. split; [cbn; auto|].
          intros c L S. specialize (KE c L S); specialize (HM c). pose proof (entries_take _ _ _ _ _ c PT). wts. lia.
        + split; [auto|]. split; [cbn; auto|]. intros c L S. specialize (HM c); specialize (KE c L S); wts; lia.
      - injection ST as <- <- <-. split; [auto|]. split; [cbn; auto|]. intros c L S. rewrite set_state_len in L. rewrite set_state_state in S. specialize (HM c).
        destruct (Nat.eqb_spec x c) as [EQ|NE]; cbn [andb] in S.
        * subst x. rewrite (proj2 (Nat.ltb_lt _ _) L) in S. congruence.
        * specialize (KE c L S). wts. destruct (Nat.eqb_spec x c); [congruence|]. cbn [b2n] in *. lia.
      - injection ST as <- <- <-. split; [auto|]. split; [cbn; auto|]. intros c L S. specialize (HM c); specialize (KE c L S); wts; lia. }
    destruct X as (X1 & X2 & X3). constructor; cbn [lConns lPools lThreads lCur]; rewrite ?X1; auto. eapply Forall_set; eauto.
  - destruct (nth_error (lThreads s) i) as [t|] eqn:N; [|constructor; auto]. destruct t; try (constructor; auto; fail).
    destruct (list_set (lThreads s) i _) as [ts|] eqn:LS; [|constructor; auto].
    pose proof (fun c => cnt_set _ (wM c) _ _ _ _ _ N LS) as HM.
    constructor; cbn [lConns lPools lThreads lCur]; auto.
    + eapply Forall_set; eauto. exact CU.
    + intros c' L S. specialize (HM c'); specialize (KE c' L S); wts; lia.
  - constructor; cbn [lConns lPools lThreads lCur].
    + rewrite app_length. cbn. lia.
    + rewrite app_length. apply Forall_app. split; [|constructor; [cbn; lia|constructor]].
      eapply Forall_impl; [|exact ID]. intros t. apply in_range_more. lia.
    + intros c L S. specialize (KE c L S). unfold entries in *. rewrite !cnt_app. cbn. lia.
  - cbn [drops]. destruct (pool_take (lPools s) p k) as [[x ps]|] eqn:PT.
    + constructor; cbn [lConns lPools lThreads lCur]; rewrite ?(pool_take_len _ _ _ _ _ PT); auto.
      intros c L S. specialize (KE c L S). pose proof (entries_take _ _ _ _ _ c PT). lia.
    + constructor; auto. intros c L S. rewrite Nat.add_0_r. auto.
  - destruct (is_shutdown (state_of (lConns s) c0)) eqn:A; [constructor; auto|].
    destruct (is_shutdown st) eqn:B; cbn [orb]; [constructor; auto|].
    constructor; cbn [lConns lPools lThreads lCur]; auto. intros c L S. rewrite set_state_len in L. rewrite set_state_state in S.
    apply KE; auto. destruct (Nat.eqb_spec c0 c) as [EQ|NE]; cbn [andb] in S; auto. subst c0. intro X. rewrite X in A. discriminate A.
Qed.
Lemma Jinv_run : forall es d s, Jinv d s -> (forall c, d c = 0) ->
  forall c, c < length (lConns (plrun s es)) -> state_of (lConns (plrun s es)) c <> Shutdown ->
  1 <= entries (lPools (plrun s es)) c + cnt (wM c) (lThreads (plrun s es)) \/
  exists es1 p k es2 ps, es = es1 ++ EDrop p k :: es2 /\ pool_take (lPools (plrun s es1)) p k = Some (c, ps).
Proof.
  intros es d s J D0 c.
  assert (K : forall es d s, Jinv d s -> c < length (lConns (plrun s es)) -> state_of (lConns (plrun s es)) c <> Shutdown ->
    1 <= d c + (entries (lPools (plrun s es)) c + cnt (wM c) (lThreads (plrun s es))) \/
    exists es1 p k es2 ps, es = es1 ++ EDrop p k :: es2 /\ pool_take (lPools (plrun s es1)) p k = Some (c, ps)).
  { clear. induction es as [|e es IH]; intros d s J L S; cbn [plrun] in *.
    - left. apply (J_kept _ _ J); auto.
    - destruct (IH _ _ (Jinv_step d s e J) L S) as [X|(es1 & p & k & es2 & ps & -> & PT)].
      + destruct (drops s e c) eqn:E; [left; rewrite Nat.add_0_r in X; exact X|]. right.
        destruct e; try discriminate E. cbn [drops] in E. destruct (pool_take (lPools s) p k) as [[x ps]|] eqn:PT; [|discriminate E].
        unfold wE, b2n in E. destruct (Nat.eqb_spec x c); [|discriminate E]. subst x.
        exists [], p, k, es, ps. auto.
      + right. exists (e :: es1), p, k, es2, ps. auto. }
  intros L S. destruct (K es d s J L S) as [X|X]; [left; rewrite D0 in X; exact X|right; exact X].
Qed.

Lemma cnt_witness : forall A (f : A -> nat) l, 1 <= cnt f l -> exists x, In x l /\ 1 <= f x.
Proof.
  induction l as [|y l IH]; cbn; intro H; [lia|]. destruct (f y) eqn:E.
  - destruct IH as (x & IN & X); [lia|]. eauto.
  - exists y. split; [auto|lia].
Qed.
Lemma weight_reachable : forall s c, 1 <= entries (lPools s) c + cnt (wM c) (lThreads s) -> reachable s c.
Proof.
  intros s c H. destruct (entries (lPools s) c) eqn:E.
  - right. destruct (cnt_witness _ (wM c) (lThreads s)) as (t & IN & W); [lia|]. exists t. split; [auto|].
    unfold wM, b2n in W. destruct (mentions c t); [auto|lia].
  - left. destruct (cnt_witness _ (fun q => cnt (wE c) (plItems q)) (lPools s)) as (q & IN & W); [unfold entries in E; lia|].
    destruct (cnt_witness _ (wE c) (plItems q) W) as (x & IX & WX). unfold wE, b2n in WX.
    destruct (Nat.eqb_spec x c); [|lia]. subst x. apply In_nth_error in IN. destruct IN as (p & N). eauto.
Qed.

(** ** Unbounded sharing *)
Definition st_of (h : Z) (m : nat) (l : list tstate) : pools :=
  mkPools [mkConn h Ready] [mkPool (repeat 0 m) false] 0 l.
Definition get_events (i : nat) (last : bool) : list plev :=
  EGet :: repeat (EStep i 0 true) (if last then 5 else 4).

Ltac one_step l := rewrite (nth_app_last _ l); cbn [tstep]; cbn; rewrite (set_app_last _ l); cbn.
Lemma one_get : forall l h m, (0 <= h)%Z ->
  plrun (st_of h (S m) l) (get_events (length l) (h + 1 <=? 20)%Z) =
  st_of (h + 1) (if (h + 1 <=? 20)%Z then S m else m) (l ++ [THeld 0]).
Proof.
  intros l h m H. unfold get_events, st_of.
  destruct (h + 1 <=? 20)%Z eqn:LE; cbn [repeat plrun plstep lThreads lConns lPools lCur].
  - do 3 one_step l. rewrite (nth_app_last _ l). cbn [tstep]. cbn. rewrite LE. rewrite (set_app_last _ l). cbn.
    one_step l. reflexivity.
  - do 3 one_step l. rewrite (nth_app_last _ l). cbn [tstep]. cbn. rewrite LE. rewrite (set_app_last _ l). cbn. reflexivity.
Qed.
Lemma one_put : forall l h m,
  plrun (st_of h m (l ++ [THeld 0])) [EPut (length l); EStep (length l) 0 true; EStep (length l) 0 true] =
  st_of (h - 1) (S m) (l ++ [TDone]).
Proof.
  intros l h m. unfold st_of. cbn [plrun plstep lThreads lConns lPools lCur].
  rewrite (nth_app_last _ l). rewrite (set_app_last _ l). cbn.
  do 2 one_step l. replace (h + -1)%Z with (h - 1)%Z by lia. reflexivity.
Qed.

Lemma many_entries : forall k, exists es l, plrun pools0 es = st_of 0 (S k) l.
Proof.
  induction k as [|k (es & l & E)].
  - exists (get_events 0 true ++ [EState 0 Ready; EPut 0; EStep 0 0 true; EStep 0 0 true] ++
            [EDrop 0 0]), [TDone]. reflexivity.
  - exists (es ++ get_events (length l) true ++ [EPut (length l); EStep (length l) 0 true; EStep (length l) 0 true]).
    exists (l ++ [TDone]). rewrite plrun_app, E, plrun_app.
    change (get_events (length l) true) with (get_events (length l) (0 + 1 <=? 20)%Z). rewrite one_get by lia.
    exact (one_put l 1 (S k)).
Qed.
Lemma many_gets : forall n l h m, (0 <= h)%Z -> n <= m -> exists es m',
  plrun (st_of h m l) es = st_of (h + Z.of_nat n) m' (l ++ repeat (THeld 0) n).
Proof.
  induction n as [|n IH]; intros l h m H L.
  - exists [], m. cbn. rewrite app_nil_r, Z.add_0_r. reflexivity.
  - destruct m as [|m]; [lia|].
    set (m1 := if (h + 1 <=? 20)%Z then S m else m).
    destruct (IH (l ++ [THeld 0]) (h + 1)%Z m1) as (es & m' & E); [lia|subst m1; destruct (_ <=? _)%Z; lia|].
    exists (get_events (length l) (h + 1 <=? 20)%Z ++ es), m'. rewrite plrun_app, one_get by auto. fold m1. rewrite E.
    replace (h + 1 + Z.of_nat n)%Z with (h + Z.of_nat (S n))%Z by lia. cbn [repeat]. rewrite <- app_assoc. reflexivity.
Qed.
