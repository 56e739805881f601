(** C11: what a larger TTL does to the life of a datum, in any history of calls. *)
From Verif.Base Require Import GoBase GoLemmas Assoc.
From Verif.Model Require Import Codec Store.
From Verif.Spec Require Import Wire StoreSpec RenewSpec LongerSpec.
From Verif.Proof Require Import CodecP CodecTop StoreP StoreQ.
From Verif.Props Require Import StoreProps RenewProps.
Open Scope Z_scope.

Definition okd (d : Z) : Prop := d = 0 \/ 10 <= d < 2 ^ 63.

Lemma near_okd : forall a b, okd a -> okd b -> (near a b <-> -10 < a - b < 10).
Proof.
  intros a b A B. unfold near, seconds, okd in *.
  change (2 ^ 63) with 9223372036854775808 in *. change (2 ^ 64) with 18446744073709551616.
  rewrite Z.mod_small by lia. lia.
Qed.

Lemma deadline_okd : forall t ttl, 10 <= t -> t + Z.of_N ttl < 2 ^ 63 ->
  okd (deadline t ttl) /\ (ttl <> 0%N -> deadline t ttl = t + Z.of_N ttl) /\
  (ttl = 0%N -> deadline t ttl = 0).
Proof.
  intros t ttl T L. unfold deadline, okd, seconds.
  change (2 ^ 63) with 9223372036854775808 in *. change (2 ^ 64) with 18446744073709551616.
  destruct (N.eq_dec ttl 0) as [->|N].
  - split; [auto|]. split; [intros X; contradiction|auto].
  - rewrite Z.mod_small by lia. split; [lia|]. split; [lia|]. intros; contradiction.
Qed.

Lemma deadlines_ordered : forall t a b, 10 <= t -> t + Z.of_N a < 2 ^ 63 ->
  t + Z.of_N b < 2 ^ 63 -> grants a b ->
  deadline t b = 0 \/ (deadline t a <> 0 /\ deadline t a <= deadline t b).
Proof.
  intros t a b T A B G.
  destruct (deadline_okd t a T A) as (_ & A1 & A2).
  destruct (deadline_okd t b T B) as (_ & B1 & B2).
  destruct G as [->|[G1 G2]]; [left; auto|].
  assert (b <> 0%N) by lia. rewrite A1, B1 by auto. right. lia.
Qed.

(** The holdings of one key in two histories of which the second grants more
    time, at a moment not before now. *)
Definition behind (now : Z) (x y : holding) : Prop :=
  (forall v a, x = Some (v, a) -> okd a) /\
  (forall v b, y = Some (v, b) -> okd b) /\
  (forall v a, x = Some (v, a) ->
     (y = None /\ a <> 0 /\ a <= now + 9) \/
     exists b, y = Some (v, b) /\ (b = 0 \/ (a <> 0 /\ a <= b + 9))).

Lemma behind_later : forall n n' x y, n <= n' -> behind n x y -> behind n' x y.
Proof.
  intros n n' x y L (A & B & C). split; [auto|]. split; [auto|].
  intros v a E. destruct (C v a E) as [(-> & N & Q)|X]; [left|right; auto].
  split; [auto|]. split; [auto|lia].
Qed.

Lemma behind_step : forall t1 t2 c c' k x y, 10 <= t1 -> t1 <= t2 ->
  call_ok t1 t2 c -> call_ok t1 t2 c' -> longer c c' ->
  behind t1 x y -> behind t2 (after k c x) (after k c' y).
Proof.
  intros t1 t2 c c' k x y T L O O' G (A & B & C). inversion G; subst; cbn [after call_ok] in *.
  - destruct (DatumKey_eq_dec k0 k) as [<-|N].
    2: { apply (behind_later t1); [lia|]. split; auto. }
    destruct O as (Ot & _ & Oa), O' as (_ & _ & Ob).
    change 9223372036854775808 with (2 ^ 63) in Oa, Ob.
    pose proof (deadlines_ordered t ttl1 ttl2 ltac:(lia) Oa Ob H) as D.
    destruct (deadline_okd t ttl1 ltac:(lia) Oa) as (Ka & _ & _).
    destruct (deadline_okd t ttl2 ltac:(lia) Ob) as (Kb & _ & _).
    set (d1 := deadline t ttl1) in *. set (d2 := deadline t ttl2) in *. clearbody d1 d2.
    assert (New : behind t2 (Some (v, d1)) (Some (v, d2))).
    { split; [intros v0 a [= <- <-]; auto|]. split; [intros v0 b [= <- <-]; auto|].
      intros v0 a [= <- <-]. right. exists d2. split; [auto|]. lia. }
    assert (Right : forall b, y = Some (v, b) -> near d2 b -> behind t2 (Some (v, d1)) (Some (v, b))).
    { intros b E N. pose proof (B _ _ E) as Qb. apply (near_okd d2 b) in N; auto.
      split; [intros v0 a [= <- <-]; auto|]. split; [intros v0 b' [= <- <-]; auto|].
      intros v0 a [= <- <-]. right. exists b. split; [auto|]. unfold okd in *. lia. }
    assert (Left : forall a, x = Some (v, a) -> near d1 a -> behind t2 (Some (v, a)) (Some (v, d2))).
    { intros a E N. pose proof (A _ _ E) as Qa. apply (near_okd d1 a) in N; auto.
      split; [intros v0 a' [= <- <-]; auto|]. split; [intros v0 b' [= <- <-]; auto|].
      intros v0 a' [= <- <-]. right. exists d2. split; [auto|]. unfold okd in *. lia. }
    destruct x as [[vx a]|], y as [[vy b]|]; cbn.
    + destruct (DatumValue_eq_dec v vx) as [<-|Nx], (DatumValue_eq_dec v vy) as [<-|Ny];
        repeat match goal with |- context [near_dec ?p ?q] => destruct (near_dec p q) end; auto.
      * apply (behind_later t1); [lia|]. split; auto.
    + destruct (DatumValue_eq_dec v vx) as [<-|Nx]; auto. destruct (near_dec d1 a); auto.
    + destruct (DatumValue_eq_dec v vy) as [<-|Ny]; auto. destruct (near_dec d2 b); auto.
    + exact New.
  - destruct (DatumKey_eq_dec k0 k); [|apply (behind_later t1); [lia|]; split; auto].
    split; [discriminate|]. split; discriminate.
  - destruct O as (Ot & _). specialize (Ot (wire_key k)). set (n := tick (wire_key k)) in *. clearbody n.
    split; [|split].
    + intros v a E. destruct x as [[vx ax]|]; [|discriminate].
      destruct (lasts_dec n ax); [|discriminate]. eauto.
    + intros v b E. destruct y as [[vy b']|]; [|discriminate].
      destruct (lasts_dec n b'); [|discriminate]. eauto.
    + intros v a E. destruct x as [[vx ax]|]; [|discriminate].
      destruct (lasts_dec n ax) as [La|]; [|discriminate]. injection E as -> ->.
      destruct (C v a eq_refl) as [(-> & N & Q)|(b & -> & Q)].
      * left. split; [auto|]. split; [auto|lia].
      * destruct (lasts_dec n b) as [Lb|Lb]; [right; eauto|].
        left. unfold lasts in *. split; [auto|]. lia.
Qed.

Lemma afters_snoc : forall k h c s, afters k (h ++ [c]) s = after k c (afters k h s).
Proof. intros k h c. induction h as [|d h IH]; intros s; cbn [app afters]; auto. Qed.

Lemma history_mono : forall t0 h t1, history t0 h t1 -> t0 <= t1.
Proof. induction 1; lia. Qed.

Lemma behind_runs : forall t0 h1 t1, history t0 h1 t1 -> 10 <= t0 ->
  forall h2, Forall2 longer h1 h2 -> Forall call_fits h2 ->
  (forall t k v ttl, In (CInsert t k v ttl) h2 -> t + Z.of_N ttl < 2 ^ 63) ->
  forall k, behind t1 (afters k h1 None) (afters k h2 None).
Proof.
  intros t0 h1 t1 H T. induction H as [t|t0 h t1 c t2 H IH L O]; intros h2 F P X k.
  - inversion F; subst. split; [discriminate|]. split; discriminate.
  - apply Forall2_app_inv_l in F. destruct F as (h2a & h2b & F1 & F2 & ->).
    inversion F2 as [|? c' ? ? G F3]; subst. inversion F3; subst.
    rewrite !afters_snoc. apply (behind_step t1 t2 c c'); auto.
    + apply history_mono in H. lia.
    + inversion G; subst; cbn [call_ok] in *; auto.
      * destruct O as (O1 & O2 & O3). split; [auto|]. split; [auto|].
        apply (X t k0 v ttl2). apply in_or_app. right. left. auto.
      * split; [apply O|]. apply Forall_app in P. destruct P as [_ P].
        inversion P as [|? ? P1 _]; subst. exact P1.
    + apply IH; auto; [apply Forall_app in P; apply P|]. intros t k' v ttl Hi. apply (X t k' v ttl). apply in_or_app. auto.
Qed.

Lemma history_fits : forall t0 h t1, history t0 h t1 -> Forall call_fits h.
Proof.
  induction 1 as [|t0 h t1 c t2 H IH L O]; [constructor|]. apply Forall_app. split; [auto|].
  constructor; [|constructor]. destruct c; cbn in *; tauto.
Qed.

Lemma history_room : forall t0 h t1, history t0 h t1 ->
  forall t k v ttl, In (CInsert t k v ttl) h -> t + Z.of_N ttl < 2 ^ 63.
Proof.
  induction 1 as [|t0 h t1 c t2 H IH L O]; intros t' k v ttl Hi; [destruct Hi|].
  apply in_app_or in Hi. destruct Hi as [Hi|[->|[]]]; [apply (IH t' k v); auto|].
  destruct O as (_ & _ & O). exact O.
Qed.

(** C11, in any history: if inserts of the second history grant at least as much
    time as those of the first, then what the first shows at some moment the
    second shows nine seconds before that moment.  Missing: without the nine
    seconds, and for TTLs beyond the range of the clock; both are refuted
    below. *)
Theorem C11_history_partial : forall t0 h1 t1 h2 tick1 tick2 (ord1 ord2 : dbmap -> list (bytes * entry)) k v,
  10 <= t0 -> history t0 h1 t1 -> Forall2 longer h1 h2 -> Forall call_fits h2 ->
  (forall t k v ttl, In (CInsert t k v ttl) h2 -> t + Z.of_N ttl < 2 ^ 63) ->
  (forall m, Permutation (ord1 m) m) -> (forall m, Permutation (ord2 m) m) ->
  (forall b, t1 <= tick2 b /\ tick2 b + 9 <= tick1 b) -> key_ok k -> key_fits k ->
  exists m1 m2, run_calls [] h1 = Ok m1 /\ run_calls [] h2 = Ok m2 /\
    (In (kv k v) (snd (StreamAll tick1 (ord1 m1) m1)) ->
     In (kv k v) (snd (StreamAll tick2 (ord2 m2) m2))).
Proof.
  intros t0 h1 t1 h2 tick1 tick2 ord1 ord2 k v T H F P X O1 O2 K A B.
  destruct (C123_exact h1 tick1 ord1) as (m1 & ys1 & E1 & Q1 & _ & _ & Y1); auto.
  { apply (history_fits _ _ _ H). }
  destruct (C123_exact h2 tick2 ord2) as (m2 & ys2 & E2 & Q2 & _ & _ & Y2); auto.
  exists m1, m2. split; [auto|]. split; [auto|]. rewrite Q1, Q2, Y1, Y2 by auto.
  intros (a & E & L). destruct (behind_runs t0 h1 t1 H T h2 F P X k) as (_ & _ & C).
  specialize (K (wire_key k)). unfold lasts in *.
  destruct (C v a E) as [(_ & N & Q)|(b & Eb & Q)]; [exfalso; lia|].
  exists b. split; [auto|]. lia.
Qed.
Print Assumptions C11_history_partial.

(** C11, one insert: after the same calls, an insert with a larger TTL shows every
    datum at every moment at which the insert with the smaller one shows it,
    also when the same datum was stored before. *)
Theorem C11_insert_partial : forall t0 h t1 t k v ttl1 ttl2 tick (ord : dbmap -> list (bytes * entry)) k' v',
  10 <= t0 -> history t0 h t1 -> t1 <= t -> kv_ok k v -> grants ttl1 ttl2 ->
  t + Z.of_N ttl1 < 2 ^ 63 -> t + Z.of_N ttl2 < 2 ^ 63 ->
  (forall m, Permutation (ord m) m) -> key_ok k' -> key_fits k' ->
  exists m1 m2, run_calls [] (h ++ [CInsert t k v ttl1]) = Ok m1 /\
    run_calls [] (h ++ [CInsert t k v ttl2]) = Ok m2 /\
    (In (kv k' v') (snd (StreamAll tick (ord m1) m1)) ->
     In (kv k' v') (snd (StreamAll tick (ord m2) m2))).
Proof.
  intros t0 h t1 t k v ttl1 ttl2 tick ord k' v' T H L O G A B P K1 K2.
  pose proof (history_fits _ _ _ H) as F. pose proof (history_mono _ _ _ H) as Tm.
  assert (FI : forall ttl, Forall call_fits (h ++ [CInsert t k v ttl])).
  { intros ttl. apply Forall_app. split; [auto|]. constructor; [exact O|constructor]. }
  destruct (C123_exact _ tick ord (FI ttl1) P) as (m1 & ys1 & E1 & Q1 & _ & _ & Y1).
  destruct (C123_exact _ tick ord (FI ttl2) P) as (m2 & ys2 & E2 & Q2 & _ & _ & Y2).
  exists m1, m2. split; [auto|]. split; [auto|]. rewrite Q1, Q2, Y1, Y2 by auto.
  rewrite !afters_snoc. cbn [after].
  destruct (DatumKey_eq_dec k k') as [<-|N]; [|auto].
  assert (OK : forall v a, afters k h None = Some (v, a) -> okd a).
  { intros v0 a E. destruct (behind_runs t0 h t1 H T h) with (k := k) as (X & _); auto; [| |eauto].
    - clear -h. induction h as [|c h IH]; constructor; auto.
      destruct c; constructor. unfold grants. destruct (N.eq_dec ttl 0); [left; auto|right; split; [auto|lia]].
    - apply (history_room t0 h t1 H). }
  pose proof (deadlines_ordered t ttl1 ttl2 ltac:(lia) A B G) as D.
  destruct (deadline_okd t ttl1 ltac:(lia) A) as (Ka & _ & _).
  destruct (deadline_okd t ttl2 ltac:(lia) B) as (Kb & _ & _).
  set (d1 := deadline t ttl1) in *. set (d2 := deadline t ttl2) in *. clearbody d1 d2.
  unfold lasts.
  assert (New : (exists dl, Some (v, d1) = Some (v', dl) /\ (dl = 0 \/ tick (wire_key k) < dl)) ->
                exists dl, Some (v, d2) = Some (v', dl) /\ (dl = 0 \/ tick (wire_key k) < dl)).
  { intros (dl & [= <- <-] & Q). exists d2. split; [auto|]. unfold okd in *. lia. }
  destruct (afters k h None) as [[v0 a]|]; [|auto].
  destruct (DatumValue_eq_dec v v0) as [<-|]; [|auto].
  pose proof (OK _ _ eq_refl) as Qa.
  destruct (near_dec d1 a) as [N1|N1], (near_dec d2 a) as [N2|N2]; auto;
    rewrite near_okd in N1, N2 by auto; intros (dl & [= <- <-] & Q).
  - exists d2. split; [auto|]. unfold okd in *. lia.
  - exists a. split; [auto|]. unfold okd in *. lia.
Qed.
Print Assumptions C11_insert_partial.

(** C11 refuted in a history: a datum is inserted for 10 and then for 5 seconds;
    it is gone earlier if the first insert was for 20 seconds. *)
Theorem C11_history_refuted : exists h1 h2 m1 m2 t,
  history 100 h1 100 /\ history 100 h2 100 /\ Forall2 longer h1 h2 /\
  run_calls [] h1 = Ok m1 /\ run_calls [] h2 = Ok m2 /\ 100 <= t /\
  In (kv ka va) (snd (StreamAll (fun _ => t) m1 m1)) /\
  ~ In (kv ka va) (snd (StreamAll (fun _ => t) m2 m2)).
Proof.
  exists [CInsert 100 ka va 10; CInsert 100 ka va 5], [CInsert 100 ka va 20; CInsert 100 ka va 5].
  eexists. eexists. exists 107.
  assert (Hh : forall a, (a < 100)%N -> history 100 [CInsert 100 ka va a; CInsert 100 ka va 5] 100).
  { intros a La. apply (h_snoc 100 [CInsert 100 ka va a] 100); [|lia|].
    - apply (h_snoc 100 [] 100); [constructor|lia|]. split; [lia|]. split; [apply kva_ok|lia].
    - split; [lia|]. split; [apply kva_ok|lia]. }
  split; [apply Hh; lia|]. split; [apply Hh; lia|]. split.
  { repeat apply Forall2_cons; try apply Forall2_nil; apply lg_insert; right; split; lia. }
  split; [vm_compute; reflexivity|]. split; [vm_compute; reflexivity|]. split; [lia|].
  split; vm_compute; auto.
Qed.
Print Assumptions C11_history_refuted.

(** Both theorems apply to these two histories, which also contain a scan; the
    datum is shown at 109 and at 102. *)
Definition brief := [CInsert 100 ka va 10; CScan (fun _ => 101) (fun m => m); CInsert 102 ka va 12].
Definition lasting := [CInsert 100 ka va 20; CScan (fun _ => 101) (fun m => rev m); CInsert 102 ka va 12].
Example C11_instance :
  history 100 brief 102 /\ Forall2 longer brief lasting /\ Forall call_fits lasting /\
  (forall t k v ttl, In (CInsert t k v ttl) lasting -> t + Z.of_N ttl < 2 ^ 63) /\
  exists m1 m2, run_calls [] brief = Ok m1 /\ run_calls [] lasting = Ok m2 /\
    In (kv ka va) (snd (StreamAll (fun _ => 109) m1 m1)) /\
    In (kv ka va) (snd (StreamAll (fun _ => 109 - 9 + 2) m2 m2)).
Proof.
  split; [|split; [|split; [|split]]].
  - unfold brief. apply (h_snoc 100 [CInsert 100 ka va 10; CScan (fun _ => 101) (fun m => m)] 101); [|lia|].
    + apply (h_snoc 100 [CInsert 100 ka va 10] 100); [|lia|].
      * apply (h_snoc 100 [] 100); [constructor|lia|]. split; [lia|]. split; [apply kva_ok|lia].
      * split; [intros; lia|auto].
    + split; [lia|]. split; [apply kva_ok|lia].
  - repeat apply Forall2_cons; try apply Forall2_nil; try apply lg_scan;
      apply lg_insert; right; split; lia.
  - repeat constructor; try apply kva_ok. intros m. apply Permutation_sym, Permutation_rev.
  - intros t k v ttl [E|[E|[E|[]]]]; try discriminate; injection E as <- <- <- <-; lia.
  - eexists. eexists. split; [vm_compute; reflexivity|]. split; [vm_compute; reflexivity|].
    split; vm_compute; auto.
Qed.
