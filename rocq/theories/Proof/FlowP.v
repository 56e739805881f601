From Verif.Base Require Import GoBase GoLemmas.
From Verif.Model Require Import Flow.
From Verif.Spec Require Import FlowSpec.
From Coq Require Import Lia Permutation.

Section F.
Context {X : Type}.
Implicit Types (ls : list (list X)) (m : list X).

(** [consumed ls tr rs]: taking elements from the fronts of ls in the order tr
    leaves rs. *)
Inductive consumed : list (list X) -> list X -> list (list X) -> Prop :=
| co_nil ls : consumed ls [] ls
| co_snoc ls tr rs1 x l rs2 :
    consumed ls tr (rs1 ++ (x :: l) :: rs2) -> consumed ls (tr ++ [x]) (rs1 ++ l :: rs2).

Lemma consumed_extend : forall ls tr rs l, consumed ls tr rs -> consumed (ls ++ [l]) tr (rs ++ [l]).
Proof.
  induction 1. constructor. rewrite <- app_assoc. cbn. apply co_snoc.
  rewrite <- app_assoc in IHconsumed. exact IHconsumed.
Qed.

Lemma consumed_front : forall ls tr rs, consumed ls tr rs ->
  (tr = [] /\ rs = ls) \/
  exists ls1 x l ls2 tr', ls = ls1 ++ (x :: l) :: ls2 /\ tr = x :: tr' /\ consumed (ls1 ++ l :: ls2) tr' rs.
Proof.
  induction 1. { left. auto. }
  right. destruct IHconsumed as [[-> <-]|(ls1 & y & l' & ls2 & tr' & -> & -> & C)].
  - exists rs1, x, l, rs2, []. repeat split. constructor.
  - exists ls1, y, l', ls2, (tr' ++ [x]). repeat split. apply co_snoc. exact C.
Qed.

Lemma consumed_interleaving : forall tr ls rs, consumed ls tr rs -> Forall (fun l => l = []) rs ->
  interleaving ls tr.
Proof.
  induction tr as [|a tr IH]; intros ls rs C F; destruct (consumed_front _ _ _ C) as
    [[E ->]|(ls1 & x & l & ls2 & tr' & -> & E & C')]; try discriminate.
  - constructor. auto.
  - injection E as -> ->. apply il_cons. eauto.
Qed.

Lemma interleaving_perm : forall ls m, interleaving ls m -> Permutation m (concat ls).
Proof.
  induction 1.
  - replace (concat ls) with (@nil X); auto. induction H; auto. subst. cbn. auto.
  - rewrite concat_app in *. cbn in *. rewrite IHinterleaving. apply Permutation_middle.
Qed.

Lemma consumed_perm : forall ls tr rs, consumed ls tr rs -> Permutation (concat ls) (tr ++ concat rs).
Proof.
  induction 1. auto. rewrite IHconsumed, !concat_app. cbn. rewrite <- app_assoc.
  apply Permutation_app_head. cbn. symmetry. apply Permutation_middle.
Qed.

Definition live (ps : list (producer X)) : nat := length (filter (fun p => negb (pDone p)) ps).

Definition todo_of (c : consumer X) : list (list X) := match c with CSpawn t => t | _ => [] end.

Record flow_inv (work : list (list X)) (s : flow X) : Prop := {
  iv_work : exists started, work = started ++ todo_of (fCons s) /\
              consumed started (fMerged s ++ fBuf s) (map pRest (fProds s));
  iv_done : Forall (fun p => pDone p = true -> pRest p = []) (fProds s);
  iv_wg : fWg s = Z.of_nat (live (fProds s));
  iv_wait : (fWaiter s = WNotStarted <-> exists t, fCons s = CSpawn t);
  iv_closed : fWaiter s = WClosed -> live (fProds s) = O;
  iv_open : fOpen s = false <-> (fCons s = CDrain \/ fCons s = CEnd AllFinished);
  iv_drain : fOpen s = false -> fWaiter s = WClosed;
  iv_end : fCons s = CEnd AllFinished -> fBuf s = [];
  iv_cap : (length (fBuf s) <= chan_cap)%nat;
  iv_timer : fCons s = CEnd TimedOut -> fTimer s = true }.

Lemma live_mid : forall ps1 p ps2, live (ps1 ++ p :: ps2) = (live ps1 + live [p] + live ps2)%nat.
Proof.
  intros. unfold live. rewrite filter_app, app_length. cbn. destruct (pDone p); cbn; lia.
Qed.
Lemma live_app : forall ps1 ps2, live (ps1 ++ ps2) = (live ps1 + live ps2)%nat.
Proof. intros. unfold live. rewrite filter_app, app_length. auto. Qed.

Lemma flow_inv_init : forall work, flow_inv work (flow_init work).
Proof.
  intro work. constructor; cbn [flow_init fProds fBuf fOpen fWg fWaiter fCons fMerged fTimer todo_of];
    try discriminate.
  - exists []. split; auto. constructor.
  - constructor.
  - reflexivity.
  - split; eauto.
  - split; [discriminate|intros [H|H]; discriminate].
  - cbn. lia.
Qed.

Ltac iff_tac := split; intros; try (match goal with H : _ \/ _ |- _ => destruct H end);
  try (match goal with H : exists _, _ |- _ => destruct H end); try discriminate; auto.

Lemma flow_inv_step : forall work s s', flow_inv work s -> flow_step s (Next s') -> flow_inv work s'.
Proof.
  intros work s s' I St.
  remember (Next s') as o eqn:Eo. destruct St; try discriminate Eo;
    try (injection Eo as <-); destruct I as [(started & Ew & C) D W Wt Cl Op Dr En Cap Ti];
    cbn [fProds fBuf fOpen fWg fWaiter fCons fMerged fTimer todo_of] in *.
  - (* spawn *)
    constructor; cbn [fProds fBuf fOpen fWg fWaiter fCons fMerged fTimer todo_of]; auto; try discriminate.
    + exists (started ++ [l]). rewrite <- app_assoc. cbn. split; auto.
      rewrite map_app. cbn. apply consumed_extend. auto.
    + apply Forall_app. split; auto. repeat constructor. cbn. discriminate.
    + rewrite live_mid. cbn. rewrite W. lia.
    + split; eauto. intros _. apply Wt. eauto.
    + intro H. exfalso. assert (wt = WNotStarted) by (apply Wt; eauto). congruence.
    + split; [intro H; apply Op in H; destruct H; discriminate|intros [H|H]; discriminate].
  - (* start waiter *)
    constructor; cbn [fProds fBuf fOpen fWg fWaiter fCons fMerged fTimer todo_of]; auto; try discriminate.
    + exists started. auto.
    + split; [discriminate|intros [t' H]; discriminate].
    + split; [intro H; apply Op in H; destruct H; discriminate|intros [H|H]; discriminate].
    + intro H. apply Op in H. destruct H; discriminate.
  - (* send *)
    constructor; cbn [fProds fBuf fOpen fWg fWaiter fCons fMerged fTimer todo_of]; auto; try discriminate.
    + exists started. split; auto. rewrite app_assoc. rewrite map_app in *. cbn [map pRest] in *.
      apply co_snoc. auto.
    + apply Forall_app in D. destruct D as [D1 D2]. inversion D2; subst.
      apply Forall_app. split; auto. constructor; auto. cbn. discriminate.
    + rewrite live_mid in *. cbn in *. auto.
    + intro H1. apply Cl in H1. rewrite live_mid in *. cbn in *. auto.
    + intro H1. exfalso. assert (true = false) by (apply Op; auto). discriminate.
    + rewrite app_length. cbn. lia.
  - (* done *)
    destruct (w - 1 <? 0)%Z eqn:Ew1; [discriminate|]. injection Eo as <-. apply Z.ltb_ge in Ew1.
    constructor; cbn [fProds fBuf fOpen fWg fWaiter fCons fMerged fTimer todo_of]; auto.
    + exists started. split; auto. rewrite map_app in *. auto.
    + apply Forall_app in D. destruct D as [D1 D2]. inversion D2; subst.
      apply Forall_app. split; auto.
    + rewrite live_mid in *. cbn in *. lia.
    + intro H1. apply Cl in H1. rewrite live_mid in *. cbn in *. lia.
  - (* wait *)
    constructor; cbn [fProds fBuf fOpen fWg fWaiter fCons fMerged fTimer todo_of]; auto.
    + exists started; auto.
    + split; [discriminate|]. intro H. apply Wt in H. discriminate.
    + intros _. lia.
  - (* timer *)
    constructor; cbn [fProds fBuf fOpen fWg fWaiter fCons fMerged fTimer todo_of]; auto. exists started; auto.
  - (* recv *)
    constructor; cbn [fProds fBuf fOpen fWg fWaiter fCons fMerged fTimer todo_of]; auto; try discriminate.
    + exists started. split; auto. rewrite <- app_assoc. cbn. auto.
    + cbn in Cap. lia.
  - (* finish *)
    destruct o; [|discriminate]. injection Eo as <-.
    constructor; cbn [fProds fBuf fOpen fWg fWaiter fCons fMerged fTimer todo_of]; auto; try discriminate.
    + exists started; auto.
    + split; [discriminate|intros [t' H]; discriminate].
    + split; auto.
  - (* drain *)
    constructor; cbn [fProds fBuf fOpen fWg fWaiter fCons fMerged fTimer todo_of]; auto; try discriminate.
    + exists started. split; auto. rewrite <- app_assoc. cbn. auto.
    + cbn in Cap. lia.
  - (* drained *)
    constructor; cbn [fProds fBuf fOpen fWg fWaiter fCons fMerged fTimer todo_of]; auto; try discriminate.
    + exists started; auto.
    + split; [intro H|intros [t' H]; discriminate]. apply Wt in H. destruct H; discriminate.
    + split; auto.
  - (* timeout *)
    constructor; cbn [fProds fBuf fOpen fWg fWaiter fCons fMerged fTimer todo_of]; auto; try discriminate.
    + exists started; auto.
    + split; [intro H|intros [t' H]; discriminate]. apply Wt in H. destruct H; discriminate.
    + split; [intro H|intros [H|H]; discriminate]. apply Op in H. destruct H; discriminate.
Qed.

Lemma flow_inv_runs : forall work s s', flow_runs s s' -> flow_inv work s -> flow_inv work s'.
Proof. induction 1; auto. intro I. apply IHflow_runs. eapply flow_inv_step; eauto. Qed.

Lemma flow_no_crash : forall work s, flow_inv work s -> ~ flow_step s Crash.
Proof.
  intros work s I St. remember Crash as o eqn:Eo.
  destruct St; try discriminate Eo; destruct I as [_ D W Wt Cl Op Dr _ _ _];
    cbn [fProds fBuf fOpen fWg fWaiter fCons fMerged fTimer] in *.
  - (* send on closed *)
    specialize (Cl (Dr eq_refl)). rewrite live_mid in Cl. cbn in Cl. lia.
  - destruct (w - 1 <? 0)%Z eqn:E; [|discriminate]. apply Z.ltb_lt in E.
    rewrite live_mid in W. cbn in W. lia.
  - destruct o; [discriminate|].
    destruct (proj1 Op eq_refl); discriminate.
Qed.

Lemma live_zero : forall ps, live ps = O -> Forall (fun p => pDone p = true) ps.
Proof.
  induction ps as [|p ps IH]; intro H; constructor.
  - unfold live in H. cbn in H. destruct (pDone p); auto. discriminate.
  - apply IH. unfold live in *. cbn in H. destruct (pDone p); auto. discriminate.
Qed.

Lemma inv_finished : forall work s, flow_inv work s -> fCons s = CEnd AllFinished ->
  interleaving work (fMerged s) /\ fOpen s = false /\ all_finished s.
Proof.
  intros work s [(started & Ew & C) D W Wt Cl Op Dr En Cap Ti] E.
  assert (fOpen s = false) by (apply Op; auto).
  assert (F : Forall (fun p => pDone p = true) (fProds s)) by (apply live_zero, Cl, Dr; auto).
  rewrite E in Ew. cbn in Ew. rewrite app_nil_r in Ew. subst started.
  rewrite (En E), app_nil_r in C. split; [|split; auto].
  - eapply consumed_interleaving; eauto. apply Forall_forall. intros l Hl.
    apply in_map_iff in Hl. destruct Hl as (p & <- & Hp).
    rewrite Forall_forall in F, D. apply D; auto.
  - split; auto. split; eauto.
Qed.

Lemma inv_part : forall work s, flow_inv work s ->
  exists rest, Permutation (concat work) (fMerged s ++ rest).
Proof.
  intros work s [(started & Ew & C) _ _ _ _ _ _ _ _ _]. apply consumed_perm in C.
  exists (fBuf s ++ concat (map pRest (fProds s)) ++ concat (todo_of (fCons s))).
  rewrite Ew, concat_app, C, <- !app_assoc. auto.
Qed.

Lemma inv_total : forall work s, flow_inv work s ->
  (length (fBuf s) + length (concat (map pRest (fProds s))) <= length (concat work))%nat.
Proof.
  intros work s [(started & Ew & C) _ _ _ _ _ _ _ _ _]. apply consumed_perm in C.
  apply Permutation_length in C. rewrite Ew, concat_app. rewrite !app_length in *. lia.
Qed.

(** * Termination *)
Definition prod_m (p : producer X) : nat := (2 * length (pRest p) + (if pDone p then 0 else 1))%nat.
Definition cons_m (c : consumer X) : nat :=
  match c with CSpawn t => (3 + list_sum (map (fun l => 2 * length l + 2) t))%nat
             | CLoop => 2%nat | CDrain => 1%nat | CEnd _ => 0%nat end.
Definition wait_m (w : waiter) : nat := match w with WNotStarted => 2%nat | WWaiting => 1%nat | WClosed => 0%nat end.
Definition flow_m (s : flow X) : nat :=
  (list_sum (map prod_m (fProds s)) + length (fBuf s) + wait_m (fWaiter s) + cons_m (fCons s)
   + (if fTimer s then 0 else 1))%nat.

Lemma list_sum_cons : forall a l, list_sum (a :: l) = (a + list_sum l)%nat.
Proof. reflexivity. Qed.
Lemma list_sum_nil : list_sum [] = 0%nat.
Proof. reflexivity. Qed.

Ltac measure := unfold flow_m, prod_m;
  cbn [fProds fBuf fOpen fWg fWaiter fCons fMerged fTimer wait_m cons_m map pRest pDone];
  rewrite ?map_app, ?list_sum_app; cbn [map pRest pDone];
  rewrite ?list_sum_cons, ?list_sum_nil, ?app_length; cbn [length pRest pDone]; try lia.

Lemma flow_decreases : forall s s', flow_step s (Next s') -> (flow_m s' < flow_m s)%nat.
Proof.
  intros s s' St. remember (Next s') as o eqn:Eo. destruct St; try discriminate Eo;
    try (injection Eo as <-); measure.
  - destruct (w - 1 <? 0)%Z; [discriminate|]. injection Eo as <-. measure.
  - destruct o; [|discriminate]. injection Eo as <-. measure.
Qed.

Lemma flow_terminates : forall s : flow X, no_infinite_run s.
Proof.
  intro s. unfold no_infinite_run. remember (flow_m s) as n eqn:E. revert s E.
  induction n as [n IH] using (well_founded_induction lt_wf). intros s ->.
  constructor. intros s' H. eapply IH; [|reflexivity]. apply flow_decreases. auto.
Qed.

(** In a state where nothing but the timer can move, a producer that is not done
    is blocked on a full channel that nobody reads any more. *)
Lemma stuck_shape : forall work s, flow_inv work s -> stuck s ->
  (exists e, fCons s = CEnd e) /\
  (all_finished s \/ (length (fBuf s) = chan_cap /\
     exists ps1 x l ps2, fProds s = ps1 ++ mkProd (x :: l) false :: ps2)).
Proof.
  intros work s I St. destruct s as [ps b o w wt c m t].
  assert (NX : forall s', flow_step (mkFlow ps b o w wt c m t) (Next s') -> t = false /\ fTimer s' = true).
  { intros s' H. destruct (St _ H) as (s1 & E & A & B). injection E as <-. auto. }
  assert (L : live ps = O \/ exists ps1 l ps2, ps = ps1 ++ mkProd l false :: ps2).
  { clear. induction ps as [|[l d] ps IH]; auto. destruct d.
    - destruct IH as [E|(ps1 & l' & ps2 & ->)]; [left; exact E|right; exists (mkProd l true :: ps1), l', ps2; reflexivity].
    - right. exists [], l, ps. auto. }
  assert (PB : live ps = O \/ ((length b = chan_cap /\ exists ps1 x l ps2, ps = ps1 ++ mkProd (x :: l) false :: ps2)
                  /\ b <> [])).
  { destruct L as [L|(ps1 & l & ps2 & ->)]; [left; auto|right].
    destruct l as [|x l].
    - exfalso. pose proof (f_done ps1 ps2 b o w wt c m t) as H.
      destruct (w - 1 <? 0)%Z.
      + apply (flow_no_crash _ _ I). exact H.
      + destruct (NX _ H) as [A B]. cbn in B. rewrite A in B. discriminate.
    - destruct o.
      + destruct (Nat.lt_ge_cases (length b) chan_cap) as [Hl|Hl].
        * destruct (NX _ (f_send ps1 x l ps2 b w wt c m t Hl)) as [A B]. cbn in B. rewrite A in B. discriminate.
        * destruct I. cbn in *. split; [split; [unfold chan_cap in *; lia|eauto 6]|].
          intros ->. cbn in Hl. unfold chan_cap in Hl. lia.
      + exfalso. apply (flow_no_crash _ _ I). constructor. }
  assert (NXb : forall s', flow_step (mkFlow ps b o w wt c m t) (Next s') -> fTimer s' = t -> False).
  { intros s' H E. destruct (NX _ H). congruence. }
  pose proof (iv_wg _ _ I) as W. pose proof (iv_wait _ _ I) as Wt. pose proof (iv_open _ _ I) as Op.
  cbn [fProds fBuf fOpen fWg fWaiter fCons fMerged fTimer] in *.
  assert (EndC : exists e, c = CEnd e).
  { destruct c as [todo| | |e]; eauto.
    - exfalso. destruct todo.
      + assert (wt = WNotStarted) by (apply Wt; eauto). subst wt.
        eapply NXb; [apply f_start_waiter|reflexivity].
      + eapply NXb; [apply f_spawn|reflexivity].
    - exfalso. destruct b as [|x b].
      + destruct PB as [PB|[_ PB]]; [|congruence].
        rewrite PB in W. cbn in W. subst w. destruct wt.
        * destruct (proj1 Wt eq_refl); discriminate.
        * eapply NXb; [apply f_wait|reflexivity].
        * pose proof (f_finish ps [] o 0%Z m t) as H. destruct o.
          -- eapply NXb; [exact H|reflexivity].
          -- apply (flow_no_crash _ _ I). exact H.
      + eapply NXb; [apply f_recv|reflexivity].
    - exfalso. assert (o = false) by (apply Op; auto). subst o. destruct b.
      + eapply NXb; [apply f_drained|reflexivity].
      + eapply NXb; [apply f_drain|reflexivity]. }
  split; auto. destruct PB as [PB|[PB _]]; [left|right; auto].
  split; [apply live_zero; auto|]. cbn [fProds fBuf fOpen fWg fWaiter fCons fMerged fTimer].
  split; auto. destruct wt; auto.
  - destruct (proj1 Wt eq_refl) as [td ->]. destruct EndC; discriminate.
  - exfalso. rewrite PB in W. cbn in W. subst w. eapply NXb; [apply f_wait|reflexivity].
Qed.

Lemma stuck_small : forall work s, (length (concat work) <= chan_cap)%nat ->
  flow_inv work s -> stuck s -> all_finished s.
Proof.
  intros work s Hc I St.
  destruct (stuck_shape work s I St) as [(e & E) [A|(B & ps1 & x & l & ps2 & Ep)]]; auto.
  pose proof (inv_total work s I) as T. rewrite Ep, map_app, concat_app in T. cbn in T.
  rewrite app_length in T. cbn in T. lia.
Qed.

Lemma runs_trans : forall s1 s2 s3 : flow X, flow_runs s1 s2 -> flow_runs s2 s3 -> flow_runs s1 s3.
Proof. induction 1; auto. intro. eapply fr_step; eauto. Qed.

Lemma send_many : forall xs rest b w wt c m t, (length b + length xs <= chan_cap)%nat ->
  flow_runs (mkFlow [mkProd (xs ++ rest) false] b true w wt c m t)
            (mkFlow [mkProd rest false] (b ++ xs) true w wt c m t).
Proof.
  induction xs as [|x xs IH]; intros rest b w wt c m t H.
  - rewrite app_nil_r. constructor.
  - cbn [length] in H. eapply fr_step; [apply (f_send [] x (xs ++ rest) [] b w wt c m t); lia|].
    cbn [app]. replace (b ++ x :: xs) with ((b ++ [x]) ++ xs) by (rewrite <- app_assoc; reflexivity).
    apply IH. rewrite app_length. cbn. lia.
Qed.

(** One source with more results than the channel holds, and a search that times
    out before reading any: the source's goroutine is blocked for good. *)
Definition leaked (x : X) : flow X :=
  mkFlow [mkProd [x] false] (repeat x chan_cap) true 1 WWaiting (CEnd TimedOut) [] true.

Lemma leak_reached : forall x, flow_runs (flow_init [repeat x (S chan_cap)]) (leaked x).
Proof.
  intro x. eapply fr_step; [apply f_spawn|]. eapply fr_step; [apply f_start_waiter|].
  eapply fr_step; [apply f_timer|]. eapply fr_step; [apply f_timeout|].
  cbn [app]. replace (repeat x (S chan_cap)) with (repeat x chan_cap ++ [x]).
  - unfold leaked. apply (send_many (repeat x chan_cap) [x] [] (0 + 1) WWaiting (CEnd TimedOut) [] true).
    rewrite repeat_length. cbn. auto.
  - change [x] with (repeat x 1). rewrite <- repeat_app. rewrite Nat.add_comm. reflexivity.
Qed.

Lemma leak_stuck : forall x o, ~ flow_step (leaked x) o.
Proof.
  intros x o H. unfold leaked in H. inversion H; subst.
  - unfold chan_cap in *. cbn in *. lia.
  - match goal with E : ps1 ++ _ = _ |- _ => rename E into EP end.
    destruct ps1 as [|p ps1]; cbn in EP.
    + discriminate.
    + injection EP. intros E _. destruct ps1; discriminate.
Qed.

(** * DataStream *)
Definition held (k : sender X) : list X := match k with SSending x => [x] | _ => [] end.
Definition todo_h (h : handler X) : list X :=
  match h with HStream t => t | HFlush k => held k | HReturned => [] end.

Definition ds_inv (data : list X) (s : dstream X) : Prop :=
  exists lost, Permutation data (dSent s ++ lost ++ held (dBack s) ++ dBuf s ++ todo_h (dHandler s)) /\
    (length (lost ++ held (dBack s)) <= 1)%nat /\
    (dHandler s <> HReturned -> lost = []) /\
    (dHandler s = HReturned -> dBuf s = []) /\
    (dOpen s = true <-> exists t, dHandler s = HStream t).

Lemma ds_inv_init : forall data, ds_inv data (ds_init data).
Proof.
  intro data. exists []. cbn. repeat split; auto; try discriminate. eauto.
Qed.

Ltac ds5 := cbn [dBuf dOpen dHandler dBack dSent todo_h held app] in *;
  refine (conj _ (conj _ (conj _ (conj _ _))));
  [ | try assumption | try assumption; try (intros; congruence)
    | try assumption; try (intros; congruence)
    | try assumption; try (split; [intros; try discriminate; eauto|let H := fresh in intro H; destruct H; discriminate]) ].

Lemma ds_inv_step : forall data s s', ds_inv data s -> ds_step s s' -> ds_inv data s'.
Proof.
  intros data s s' (lost & P & L & N1 & R & O) St.
  destruct St; cbn [dBuf dOpen dHandler dBack dSent todo_h held] in *.
  - exists lost. ds5.
    + rewrite <- app_assoc. exact P.
    + intros _. apply N1. discriminate.
    + split; auto. intros _. eauto.
  - exists lost. ds5; auto. intros _. apply N1. discriminate.
  - assert (lost = [] \/ h = HReturned) as [-> | ->].
    { destruct h; auto; left; apply N1; discriminate. }
    + exists []. ds5; auto. intro H. apply R in H. discriminate.
    + discriminate (R eq_refl).
  - rewrite (N1 H) in *. exists []. ds5; auto. rewrite <- app_assoc. exact P.
  - exists (lost ++ [x]). ds5; auto; try congruence.
    + rewrite <- app_assoc. exact P.
    + rewrite app_nil_r. exact L.
  - exists lost. ds5; auto.
  - exists lost. ds5; auto.
    + rewrite P. apply Permutation_app_head. apply Permutation_app_head. apply Permutation_app_head.
      rewrite app_nil_r. apply Permutation_cons_append.
    + intros _. apply N1. discriminate.
  - rewrite N1 in * by discriminate. exists []. ds5; auto.
    + rewrite P. rewrite <- app_assoc. apply Permutation_app_head. cbn.
      rewrite app_nil_r, app_assoc. symmetry. apply Permutation_cons_append.
  - exists lost. ds5; auto.
Qed.

Lemma ds_inv_runs : forall data s s', ds_runs s s' -> ds_inv data s -> ds_inv data s'.
Proof. induction 1; auto. intro I. apply IHds_runs. eapply ds_inv_step; eauto. Qed.

(** If the background goroutine is not inside Send when the handler returns,
    nothing is lost. *)
Lemma ds_return_clean : forall data s s',
  ds_inv data s -> dHandler s <> HReturned -> ds_step s s' -> dHandler s' = HReturned ->
  (forall x, dBack s <> SSending x) -> Permutation data (dSent s').
Proof.
  intros data s s' (lost & P & L & N1 & R & O) H St H' NB.
  destruct St; cbn [dBuf dOpen dHandler dBack dSent todo_h held] in *; try discriminate; try congruence.
  - rewrite N1 in P by discriminate. destruct k; cbn in P.
    + rewrite app_nil_r in P. auto.
    + exfalso. apply (NB x). reflexivity.
    + rewrite app_nil_r in P. auto.
Qed.
End F.
