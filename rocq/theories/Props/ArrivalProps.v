(** C138: exactly what a search may have taken when it ends. *)
From Verif.Base Require Import GoBase Float GoSort.
From Verif.Model Require Import Codec Store Data Vector Search Aggregator CallTree Flow.
From Verif.Spec Require Import Wire StoreSpec FlowSpec.
From Verif.Proof Require Import FlowP VectorP.
From Verif.Props Require Import FlowProps StoreProps SearchProps.
From Coq Require Import Permutation Lia.
Open Scope nat_scope.

(** [p] is the beginning of [l]. *)
Definition begins {X} (p l : list X) : Prop := exists rest, l = p ++ rest.

Section A.
Context {X : Type}.

Lemma taken : forall (m b : list X) ls rs, consumed ls (m ++ b) rs ->
  exists parts, Forall2 begins parts ls /\ interleaving parts m.
Proof.
  induction m as [|a m IH]; intros b ls rs C.
  - exists (map (fun _ => []) ls). split.
    + clear C. induction ls as [|l ls IH]; constructor; auto. exists l. reflexivity.
    + constructor. apply Forall_forall. intros x Hx. apply in_map_iff in Hx.
      destruct Hx as (? & <- & _). reflexivity.
  - destruct (consumed_front _ _ _ C) as [[E _]|(ls1 & x & l & ls2 & tr & -> & E & C')]; [discriminate|].
    injection E as -> <-. destruct (IH b _ _ C') as (parts & F & I).
    apply Forall2_app_inv_r in F. destruct F as (p1 & p2 & F1 & F2 & ->).
    inversion F2 as [|p l' q ls' B F3]; subst. destruct B as (rest & ->).
    exists (p1 ++ (x :: p) :: q). split; [|constructor; exact I].
    apply Forall2_app; [exact F1|]. constructor; [exists rest; reflexivity|exact F3].
Qed.

(** A producer that has been started and not sent anything. *)
Definition fresh (l : list X) : producer X := mkProd l false.

Lemma spawn_all : forall todo ps w,
  flow_runs (mkFlow ps [] true w WNotStarted (CSpawn todo) [] false)
    (mkFlow (ps ++ map fresh todo) [] true (w + Z.of_nat (length todo)) WNotStarted (CSpawn []) [] false).
Proof.
  induction todo as [|l todo IH]; intros ps w.
  - cbn. rewrite app_nil_r, Z.add_0_r. constructor.
  - eapply fr_step; [apply f_spawn|]. specialize (IH (ps ++ [mkProd l false]) (w + 1)%Z).
    rewrite <- app_assoc in IH. cbn [app map length] in *.
    replace (w + Z.of_nat (S (length todo)))%Z with (w + 1 + Z.of_nat (length todo))%Z by lia. exact IH.
Qed.

(** Each element is sent and taken at once. *)
Lemma feed : forall parts (l : list X), interleaving parts l ->
  forall prs w m, map fst prs = parts ->
  flow_runs
    (mkFlow (map fresh (map (fun p => fst p ++ snd p) prs)) [] true w WWaiting CLoop m false)
    (mkFlow (map fresh (map snd prs)) [] true w WWaiting CLoop (m ++ l) false).
Proof.
  induction 1 as [ls E|ls1 x l ls2 tr I IH]; intros prs w m Q.
  - rewrite app_nil_r. replace (map (fun p => fst p ++ snd p) prs) with (map snd prs); [constructor|].
    subst ls. clear -E. induction prs as [|[a b] prs IH]; auto.
    pose proof (Forall_inv E) as E1. cbn in E1. subst a. cbn. rewrite <- IH; auto.
    exact (Forall_inv_tail E).
  - apply map_eq_app in Q. destruct Q as (q1 & q2 & -> & Q1 & Q2).
    apply map_eq_cons in Q2. destruct Q2 as ((a & r) & q3 & -> & Qa & Q3). cbn in Qa. subst a ls1 ls2.
    rewrite !map_app. cbn [map fst snd app].
    eapply fr_step; [apply (f_send _ x (l ++ r)); cbn; unfold chan_cap; lia|]. cbn [app].
    eapply fr_step; [apply f_recv|].
    specialize (IH (q1 ++ (l, r) :: q3) w (m ++ [x])). rewrite !map_app in IH. cbn [map fst snd] in IH.
    rewrite <- app_assoc in IH. cbn [app] in IH. apply IH. reflexivity.
Qed.

Lemma all_say_done : forall n k (m : list X),
  flow_runs
    (mkFlow (repeat (mkProd [] true) k ++ repeat (mkProd [] false) n) [] true (Z.of_nat n) WWaiting CLoop m false)
    (mkFlow (repeat (mkProd [] true) (k + n)) [] true 0 WWaiting CLoop m false).
Proof.
  induction n as [|n IH]; intros k m.
  - cbn. rewrite app_nil_r, Nat.add_0_r. constructor.
  - cbn [repeat]. eapply fr_step.
    + pose proof (f_done (X := X) (repeat (mkProd [] true) k) (repeat (mkProd [] false) n) [] true
        (Z.of_nat (S n)) WWaiting CLoop m false) as D.
      destruct (Z.ltb_spec (Z.of_nat (S n) - 1) 0) as [L|L]; [lia|]. exact D.
    + replace (Z.of_nat (S n) - 1)%Z with (Z.of_nat n) by lia.
      specialize (IH (S k) m). replace (S k + n) with (k + S n) in IH by lia.
      replace (repeat (mkProd (X:=X) [] true) k ++ mkProd [] true :: repeat (mkProd [] false) n)
        with (repeat (mkProd (X:=X) [] true) (S k) ++ repeat (mkProd [] false) n); [exact IH|].
      change (mkProd (X:=X) [] true :: repeat (mkProd [] false) n)
        with ([mkProd (X:=X) [] true] ++ repeat (mkProd [] false) n).
      rewrite app_assoc. f_equal. cbn [repeat]. apply repeat_cons.
Qed.

Lemma reach_loop : forall parts (l : list X) prs, interleaving parts l -> map fst prs = parts ->
  flow_runs (flow_init (map (fun p => fst p ++ snd p) prs))
    (mkFlow (map fresh (map snd prs)) [] true (Z.of_nat (length prs)) WWaiting CLoop l false).
Proof.
  intros parts l prs I Q. unfold flow_init. eapply runs_trans; [apply spawn_all|].
  cbn [app]. rewrite map_length. eapply fr_step; [apply f_start_waiter|].
  exact (feed parts l I prs _ [] Q).
Qed.

Lemma zip_begins : forall parts (work : list (list X)), Forall2 begins parts work ->
  exists prs, map fst prs = parts /\ map (fun p => fst p ++ snd p) prs = work.
Proof.
  induction 1 as [|p l parts work (rest & ->) F (prs & A & B)]; [exists []; auto|].
  exists ((p, rest) :: prs). cbn. subst. auto.
Qed.
End A.

(** C138 The results a search has merged when all its sources have finished can be
    exactly the interleavings of the results of the sources, in no way fewer. *)
Theorem C138_finished : forall X (work : list (list X)) l,
  (exists s, flow_runs (flow_init work) s /\ fCons s = CEnd AllFinished /\ fMerged s = l) <->
  interleaving work l.
Proof.
  intros X work l. split.
  - intros (s & R & E & <-). apply (C28_fan_in X work s R). exact E.
  - intro I.
    assert (Q : map fst (map (fun l => (l, @nil X)) work) = work).
    { rewrite map_map. apply map_id. }
    pose proof (reach_loop work l (map (fun l => (l, @nil X)) work) I Q) as R.
    rewrite !map_map, map_length in R. cbn [fst snd] in R.
    replace (map (fun l => l ++ []) work) with work in R
      by (symmetry; rewrite <- (map_id work) at 2; apply map_ext; intro; apply app_nil_r).
    replace (map (fun _ : list X => fresh []) work) with (repeat (mkProd (X:=X) [] false) (length work)) in R
      by (clear; unfold fresh; induction work; cbn; congruence).
    exists (mkFlow (repeat (mkProd [] true) (length work)) [] false 0 WClosed (CEnd AllFinished) l false).
    split; [|split; reflexivity].
    eapply runs_trans; [exact R|]. eapply runs_trans; [apply (all_say_done (length work) 0 l)|].
    cbn [Nat.add]. eapply fr_step; [apply f_wait|].
    eapply fr_step; [exact (f_finish _ _ true _ _ _)|].
    eapply fr_step; [apply f_drained|]. constructor.
Qed.
Print Assumptions C138_finished.

(** When its time is over it can have merged exactly the interleavings of beginnings
    of the results of the sources: of each source nothing, a part or everything,
    always in the order the source sent. *)
Theorem C138_timed_out : forall X (work : list (list X)) l,
  (exists s, flow_runs (flow_init work) s /\ fCons s = CEnd TimedOut /\ fMerged s = l) <->
  exists parts, Forall2 begins parts work /\ interleaving parts l.
Proof.
  intros X work l. split.
  - intros (s & R & E & <-). assert (I := flow_inv_runs work _ _ R (flow_inv_init work)).
    destruct (iv_work _ _ I) as (started & W & C). rewrite E in W. cbn in W. rewrite app_nil_r in W. subst started.
    exact (taken _ _ _ _ C).
  - intros (parts & F & I). destruct (zip_begins parts work F) as (prs & Q1 & Q2).
    pose proof (reach_loop parts l prs I Q1) as R. rewrite Q2 in R.
    eexists. split; [eapply runs_trans; [exact R|]|].
    + eapply fr_step; [apply f_timer|]. eapply fr_step; [apply f_timeout|]. constructor.
    + split; reflexivity.
Qed.
Print Assumptions C138_timed_out.

(** Two sources, of one and two results: three orders are possible, not six; after a
    timeout also six shorter lists. *)
Example C138_instance :
  let work := [[1]; [2; 3]] in
  (forall l, (exists s, flow_runs (flow_init work) s /\ fCons s = CEnd AllFinished /\ fMerged s = l) ->
     l = [1; 2; 3] \/ l = [2; 1; 3] \/ l = [2; 3; 1]) /\
  (exists s, flow_runs (flow_init work) s /\ fCons s = CEnd AllFinished /\ fMerged s = [2; 3; 1]) /\
  (exists s, flow_runs (flow_init work) s /\ fCons s = CEnd TimedOut /\ fMerged s = [2; 1]) /\
  ~ (exists s, flow_runs (flow_init work) s /\ fCons s = CEnd TimedOut /\ fMerged s = [3]).
Proof.
  cbv zeta. split; [|split; [|split]].
  - intros l H. apply C138_finished in H.
    assert (K : forall ls1 x l (ls2 : list (list nat)) a b, ls1 ++ (x :: l) :: ls2 = [a; b] ->
      (ls1 = [] /\ a = x :: l /\ ls2 = [b]) \/ (ls1 = [a] /\ b = x :: l /\ ls2 = [])).
    { intros ls1 x l0 ls2 a b E. destruct ls1 as [|y [|z ls1]]; cbn in E; injection E as; subst; auto.
      destruct ls1; discriminate. }
    assert (D : forall (a b m : list nat), interleaving [a; b] m ->
      (a = [] /\ b = [] /\ m = []) \/
      (exists x a' m', a = x :: a' /\ m = x :: m' /\ interleaving [a'; b] m') \/
      (exists x b' m', b = x :: b' /\ m = x :: m' /\ interleaving [a; b'] m')).
    { intros a b m I. inversion I as [ls F E1 E2|ls1 x l0 ls2 m' I' E1 E2].
      - subst. left. inversion F as [|? ? F1 F2]; subst. inversion F2; subst. auto.
      - right. destruct (K _ _ _ _ _ _ E1) as [(-> & -> & ->)|(-> & -> & ->)]; [left|right]; eauto 8. }
    apply D in H. destruct H as [(H & _)|[(x & a & m & E & -> & H)|(x & b & m & E & -> & H)]]; [discriminate| |];
      inversion E; subst; clear E.
    + apply D in H. destruct H as [(_ & H & _)|[(x & a & m' & E & _)|(x & b & m' & E & -> & H)]]; try discriminate.
      inversion E; subst; clear E.
      apply D in H. destruct H as [(_ & H & _)|[(x & a & m & E & _)|(x & b & m & E & -> & H)]]; try discriminate.
      inversion E; subst; clear E.
      apply D in H. destruct H as [(_ & _ & ->)|[(x & a & m' & E & _)|(x & b & m' & E & _)]]; try discriminate. auto.
    + apply D in H. destruct H as [(H & _)|[(x & a & m' & E & -> & H)|(x & b & m' & E & -> & H)]]; [discriminate| |];
        inversion E; subst; clear E.
      * apply D in H. destruct H as [(_ & H & _)|[(x & a & m & E & _)|(x & b & m & E & -> & H)]]; try discriminate.
        inversion E; subst; clear E.
        apply D in H. destruct H as [(_ & _ & ->)|[(x & a & m' & E & _)|(x & b & m' & E & _)]]; try discriminate. auto.
      * apply D in H. destruct H as [(H & _)|[(x & a & m & E & -> & H)|(x & b & m & E & _)]]; try discriminate.
        inversion E; subst; clear E.
        apply D in H. destruct H as [(_ & _ & ->)|[(x & a & m' & E & _)|(x & b & m' & E & _)]]; try discriminate. auto.
  - apply C138_finished. apply (il_cons [[1]] 2 [3] []), (il_cons [[1]] 3 [] []), (il_cons [] 1 [] [[]]).
    constructor. repeat constructor.
  - apply C138_timed_out. exists [[1]; [2]]. split.
    + repeat constructor; [exists []|exists [3]]; reflexivity.
    + apply (il_cons [[1]] 2 [] []), (il_cons [] 1 [] [[]]). constructor. repeat constructor.
  - intro H. apply C138_timed_out in H. destruct H as (parts & F & I).
    inversion F as [|p a ps w (r1 & B1) F1]; subst. inversion F1 as [|q b qs w' (r2 & B2) F2]; subst.
    inversion F2; subst. inversion I as [ls E1 E2|ls1 x l0 ls2 m' I' E1 E2]; subst.
    destruct ls1 as [|y [|z ls1]]; cbn in E1; injection E1 as; subst.
    + discriminate B1.
    + discriminate B2.
    + destruct ls1; discriminate.
Qed.

(** A node with one datum that asks one other node with one: a case for
    C28_fan_in_answers, in which the answer of the other node arrives first. *)
Definition near_node : list (bytes * entry) := [(wire_key ka, mkEntry 0 (kv ka va))].
Definition far_node : list (bytes * entry) := [(wire_key kb, mkEntry 0 (kv kb va))].
Definition two_nodes : calltree :=
  CNode near_node (fun _ => 100%Z) near_node [CNode far_node (fun _ => 100%Z) far_node []].
Definition found (m : list (bytes * entry)) : list ScoredDatum :=
  match snd (Search insertion_sort any_filter QuickVectorDistance (fun _ => 100%Z) m m
               (Some (mkDatum (Some kb) None)) (cfg1 true 2%N)) with Ok l => l | _ => [] end.
Definition merged (xs : list ScoredDatum) : list ScoredDatum :=
  match Merge insertion_sort (aggOf mathlib_ex (cfg1 true 2%N) None) xs with Ok l => l | _ => [] end.

Lemma in_turn : forall X (ls : list (list X)), interleaving ls (concat ls).
Proof.
  intros X ls. induction ls as [|l ls IH]; [constructor; constructor|].
  induction l as [|x l IHl].
  - cbn. clear -IH. remember (concat ls) as c eqn:E. clear E. induction IH as [ls F|ls1 x l ls2 m I IH].
    + constructor. constructor; auto.
    + exact (il_cons ([] :: ls1) x l ls2 m IH).
  - exact (il_cons [] x l ls _ IHl).
Qed.

Example C28_instance_answers : exists s s2 out,
  flow_runs (flow_init [found near_node; merged (found far_node)]) s /\ fCons s = CEnd AllFinished /\
  fMerged s = merged (found far_node) ++ found near_node /\
  flow_runs (flow_init [merged (fMerged s)]) s2 /\ fCons s2 = CEnd AllFinished /\
  answer insertion_sort mathlib_ex any_filter (cfg1 true 2%N) (mkDatum (Some kb) None) two_nodes out /\
  length out = 2.
Proof.
  assert (L : exists a b, found near_node = [a] /\ merged (found far_node) = [b]).
  { eexists. eexists. split; vm_compute; reflexivity. }
  destruct L as (a & b & La & Lb).
  assert (I : interleaving [found near_node; merged (found far_node)] (merged (found far_node) ++ found near_node)).
  { rewrite La, Lb. apply (il_cons [[a]] b [] []), (il_cons [] a [] [[]]). constructor. repeat constructor. }
  apply C138_finished in I. destruct I as (s & R & E & M).
  set (r1 := merged (fMerged s)).
  assert (I2 : interleaving [r1] r1).
  { pose proof (in_turn _ [r1]) as T. cbn in T. rewrite app_nil_r in T. exact T. }
  apply C138_finished in I2. destruct I2 as (s2 & R2 & E2 & M2).
  exists s, s2, (merged r1). split; [exact R|]. split; [exact E|]. split; [exact M|].
  split; [exact R2|]. split; [exact E2|].
  split; [|unfold r1; rewrite M; vm_compute; reflexivity].
  refine (C28_fan_in_answers insertion_sort mathlib_ex any_filter (cfg1 true 2%N) (mkDatum (Some kb) None)
    near_node (fun _ => 100%Z) near_node _ near_node (found near_node) [merged (found far_node)] s r1
    (fun gs => gs) (merged r1) _ _ _ R E _ s2 R2 E2 _ _).
  - reflexivity.
  - vm_compute. reflexivity.
  - constructor; [|constructor].
    refine (answer_node insertion_sort mathlib_ex any_filter (cfg1 true 2%N) (mkDatum (Some kb) None)
      far_node (fun _ => 100%Z) far_node [] far_node (found far_node) [] (found far_node)
      (merged (found far_node)) (merged (found far_node)) (fun gs => gs) (merged (found far_node)) _ _ _ _ _ _ _ _).
    + reflexivity.
    + vm_compute. reflexivity.
    + constructor.
    + rewrite app_nil_r. apply Permutation_refl.
    + vm_compute. reflexivity.
    + apply Permutation_refl.
    + intro. apply Permutation_refl.
    + vm_compute. reflexivity.
  - unfold r1. rewrite M. vm_compute. reflexivity.
  - intro. apply Permutation_refl.
  - rewrite M2. unfold r1. rewrite M. vm_compute. reflexivity.
Qed.
