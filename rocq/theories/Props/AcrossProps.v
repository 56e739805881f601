(** C153: queries to the cluster by inner product or cosine find the truly best data of
    all the nodes they reach, up to the rounding error. *)
From Verif.Base Require Import GoBase GoLemmas Assoc Float GoSort.
From Verif.Model Require Import Codec Store Data Vector Search Aggregator CallTree Insert.
From Verif.Spec Require Import Wire StoreSpec TopK TreeSpec InsertSpec VectorSpec SizeSpec AccuracySpec.
From Verif.Proof Require Import FloatP RoundP VectorP MonoP TruncP StoreP StoreQ SearchP AggP CallTreeP ExactP SizeP NearP AngleP ErrorP ErrorQ SelfP DotP CosineP CosineQ.
From Verif.Props Require Import StoreProps SearchProps ReadWriteProps AccuracyProps FoundProps DirectionProps.
From Coq Require Import Lia ZArith.
Open Scope Z_scope.

(** A datum with this key and value, with expiry time x, is stored under b on a node the
    query reaches, whose clock shows (tick b) when it is looked at. *)
Definition placed (t : calltree) (k : DatumKey) (v : option DatumValue) (now x : Z) : Prop :=
  exists m tick b e, visits t m tick /\ In (b, e) m /\ edatum e = mkDatum (Some k) v /\ now = tick b /\ x = exprireAt e.

(** What a caller gets: data that are stored on reached nodes, have not expired and pass the
    filters, each key once, best first; and any other such datum is missing only because the
    wanted number is reached and it is no better, all in the sense of P. *)
Definition finds_by (P : DatumKey -> DatumKey -> Prop) (t : calltree) (ex : bytes -> bytes -> bool) (config : SearchConfig)
    (l : list ScoredDatum) : Prop :=
  (forall x, In x l -> exists k v now e, placed t k v now e /\ sDatum x = mkDatum (Some k) v /\
     (e = 0 \/ now < e) /\ passes ex config (mkDatum (Some k) v) = true) /\
  NoDup (map skey l) /\
  (forall l1 x l2 y l3 k v k' v', l = l1 ++ x :: l2 ++ y :: l3 ->
     sDatum x = mkDatum (Some k) v -> sDatum y = mkDatum (Some k') v' -> P k k') /\
  (length l <= wanted (scLimit config) (scResultLimit config))%nat /\
  (forall k v now e, placed t k v now e -> e = 0 \/ now < e -> passes ex config (mkDatum (Some k) v) = true ->
     (exists x, In x l /\ skey x = Some k) \/
     (length l = wanted (scLimit config) (scResultLimit config) /\
      forall x k' v', In x l -> sDatum x = mkDatum (Some k') v' -> P k' k)).

Lemma reached_placed : forall ex f config q t x, In x (reached ex f config q t) <->
  exists k v now e, placed t k v now e /\ (e = 0 \/ now < e) /\ passes ex config (mkDatum (Some k) v) = true /\
    x = mkScored (f (vec k) (vec q)) (mkDatum (Some k) v).
Proof.
  intros ex f config q t x. split.
  - intro I. apply reached_visits in I. destruct I as (m & tick & V & I). apply candidates_in in I.
    destruct I as (b & e & k & v & I & E & L & P & ->). rewrite E in *. exists k, v, (tick b), (exprireAt e).
    split; [exists m, tick, b, e; auto|]. auto.
  - intros (k & v & now & x' & (m & tick & b & e & V & I & E & -> & ->) & L & P & ->).
    eapply visits_reached; [exact V|]. apply candidates_in. exists b, e, k, v. rewrite E. auto 6.
Qed.

Lemma tree_by : forall G M ex config q qv t (P : DatumKey -> DatumKey -> Prop),
  scHigherIsBetter config = true -> HasPrefix (scScoreFuncName config) (bs "Annoy") = false ->
  (1 <= scLimit config < M32)%N -> (scResultLimit config < M63)%N -> scGroupLimit config = 0%N -> tree_wf t ->
  let f := GetVectorComparisonFunction M (scScoreFuncName config) in
  (forall k v now e, placed t k v now e -> is_nan (f (vec k) (vec q)) = false) ->
  (forall k v now e k' v' now' e', placed t k v now e -> placed t k' v' now' e' ->
     SFleb (f (vec k') (vec q)) (f (vec k) (vec q)) = true -> P k k') ->
  (exists out, answer G M ex config (mkDatum (Some q) qv) t out) /\
  forall out, answer G M ex config (mkDatum (Some q) qv) t out -> finds_by P t ex config out.
Proof.
  intros G M ex config q qv t P Hh HA HL HR HG W f HN HP.
  assert (NN : no_nan (reached ex f config q t)).
  { apply Forall_forall. intros x I. apply reached_placed in I. destruct I as (k & v & now & e & Pl & _ & _ & ->). cbn. eauto. }
  split; [eapply C23_call_tree_answers; eauto|].
  intros out A. pose proof (C23_call_tree_exact G M ex config q qv t out Hh HL HR HG W NN A) as (ND & IN & SO & LE & CP).
  assert (SC : forall x k v, In x out -> sDatum x = mkDatum (Some k) v ->
    sScore x = f (vec k) (vec q) /\ exists now e, placed t k v now e).
  { intros x k v Hx E. apply IN, reached_placed in Hx. destruct Hx as (k1 & v1 & now & e & Pl & _ & _ & ->).
    cbn [sDatum sScore] in *. injection E as -> ->. eauto. }
  assert (BT : forall x y k v k', In x out -> beats true y x = false -> sDatum x = mkDatum (Some k) v ->
    sScore y = f (vec k') (vec q) -> (exists v' now' e', placed t k' v' now' e') -> P k k').
  { intros x y k v k' Hx B E E' (v' & now' & e' & L'). unfold beats in B.
    destruct (SC x k v Hx E) as (S1 & now & e & L). rewrite S1, E' in B.
    apply (HP k v now e k' v' now' e' L L'). rewrite SFleb_ltb by eauto. rewrite B. reflexivity. }
  split; [|split; [exact ND|split; [|split; [exact LE|]]]].
  - intros x Hx. apply IN, reached_placed in Hx. destruct Hx as (k & v & now & e & Pl & L & F & ->). exists k, v, now, e. auto.
  - intros l1 x l2 y l3 k v k' v' El E E'.
    assert (Hx : In x out) by (rewrite El; apply in_or_app; right; left; auto).
    assert (Hy : In y out) by (rewrite El; apply in_or_app; right; right; apply in_or_app; right; left; auto).
    destruct (SC y k' v' Hy E') as (S1 & now & e & L').
    apply (BT x y k v k' Hx); eauto.
    rewrite El in SO. clear - SO. induction l1 as [|z l1 IH]; cbn [app] in SO.
    + inversion SO as [|? ? _ F]; subst. rewrite Forall_forall in F. apply F. apply in_or_app. right. left. auto.
    + inversion SO; subst. auto.
  - intros k v now e Pl L F.
    destruct (CP (mkScored (f (vec k) (vec q)) (mkDatum (Some k) v))) as [I|[Len Wo]].
    { apply reached_placed. exists k, v, now, e. auto. }
    + left. apply in_map_iff in I. destruct I as (x & E & Hx). exists x. split; [exact Hx|exact E].
    + right. split; [exact Len|]. intros x k' v' Hx E. apply (BT x _ k' v' k Hx (Wo x Hx) E); [reflexivity|eauto].
Qed.

(** C153 A query to the cluster by VectorMultiplication is answered, and every answer is the
    data of all the reached nodes with the largest inner products, up to the rounding error. *)
Theorem C153_product : forall G M ex config q qv t n,
  scScoreFuncName config = bs "VectorMultiplication" -> scHigherIsBetter config = true ->
  (1 <= scLimit config < M32)%N -> (scResultLimit config < M63)%N -> scGroupLimit config = 0%N -> tree_wf t ->
  n <= 2 ^ 22 -> fits n (vec q) -> (forall k v now e, placed t k v now e -> fits n (vec k)) ->
  (exists out, answer G M ex config (mkDatum (Some q) qv) t out) /\
  forall out, answer G M ex config (mkDatum (Some q) qv) t out ->
    finds_by (fun k k' => product_upto n (vec k) (vec q) (vec k') (vec q)) t ex config out.
Proof.
  intros G M ex config q qv t n Hs Hh HL HR HG W N Hq HF.
  assert (F : GetVectorComparisonFunction M (scScoreFuncName config) = VectorMultiplication) by (rewrite Hs; reflexivity).
  apply tree_by; auto; try rewrite F.
  - rewrite Hs. reflexivity.
  - intros k v now e L. apply signed_finite, (mult_error _ _ n); eauto.
  - intros k v now e k' v' now' e' L L' S. apply C151_product_order; eauto.
Qed.
Print Assumptions C153_product.

(** ... and one by CosineSimilarity by the data nearest in direction. *)
Theorem C153_cosine : forall G M ex config q qv t n,
  scScoreFuncName config = bs "CosineSimilarity" -> scHigherIsBetter config = true ->
  (1 <= scLimit config < M32)%N -> (scResultLimit config < M63)%N -> scGroupLimit config = 0%N -> tree_wf t ->
  n <= 2 ^ 19 -> directed n (vec q) -> (forall k v now e, placed t k v now e -> directed n (vec k)) ->
  (exists out, answer G M ex config (mkDatum (Some q) qv) t out) /\
  forall out, answer G M ex config (mkDatum (Some q) qv) t out ->
    finds_by (fun k k' => cosine_upto n (vec k) (vec q) (vec k') (vec q)) t ex config out.
Proof.
  intros G M ex config q qv t n Hs Hh HL HR HG W N Hq HF.
  assert (F : GetVectorComparisonFunction M (scScoreFuncName config) = CosineSimilarity) by (rewrite Hs; reflexivity).
  apply tree_by; auto; try rewrite F.
  - rewrite Hs. reflexivity.
  - intros k v now e L. destruct Hq as [[FB LB] XB]. destruct (HF k v now e L) as [[FA LA] XA].
    apply signed_finite, (cosine_error _ _ n FA FB XA XB LA LB N).
  - intros k v now e k' v' now' e' L L' S. apply C151_cosine_order; eauto.
Qed.
Print Assumptions C153_cosine.

(** ** A concrete case *)
(** The vector (1, 6) on the node asked, (97, 581) on another that has also a copy of the
    first; one result is wanted, with (1, 7): the inner product chooses the second, the
    cosine the first. *)
Definition across_config (f : bytes) : SearchConfig := mkSearchConfig f true 0 1000 1 0 (bs "d") 0 [] [] 0 [] [].
Definition across_16 : bytes * entry := (wire_key found_16, mkEntry 0 (kv found_16 va)).
Definition across_97 : bytes * entry := (wire_key found_97, mkEntry 0 (kv found_97 va)).
Definition across_tree : calltree :=
  CNode [across_16] (fun _ => 100) [across_16]
    [CNode [across_97; across_16] (fun _ => 101) [across_16; across_97] []].

Lemma across_wf : tree_wf across_tree.
Proof.
  assert (A : forall k, In k [found_16; found_97] -> kv_ok k va) by (intros k H; apply found_ok; cbn in *; tauto).
  cbn. split; [|split; [reflexivity|]].
  - split; [repeat constructor; cbn; auto|]. intros b e [H|[]]. injection H as <- <-. exists found_16, va. split; [apply A; cbn; auto|auto].
  - split; [|exact I]. split; [|split; [apply perm_swap|exact I]]. split.
    + constructor; [|repeat constructor; cbn; auto]. vm_compute. intros [H|[]]. discriminate H.
    + intros b e [H|[H|[]]]; injection H as <- <-; [exists found_97, va|exists found_16, va]; (split; [apply A; cbn; auto|auto]).
Qed.
Lemma across_placed : forall k v now e, placed across_tree k v now e -> k = found_16 \/ k = found_97.
Proof.
  intros k v now e (m & tick & b & x & V & I & E & _ & _). inversion V as [|? ? ? ? t ? ? T V']; subst.
  - destruct I as [I|[]]. injection I as <- <-. injection E as <- _. auto.
  - destruct T as [<-|[]]. inversion V' as [|? ? ? ? t ? ? T V'']; subst; [|destruct T].
    destruct I as [I|[I|[]]]; injection I as <- <-; injection E as <- _; auto.
Qed.
Ltac across_answer :=
  eapply (answer_node _ _ _ _ _ _ _ _ _ _ _ _ _ _ _ (fun gs => gs));
  [reflexivity|vm_compute; reflexivity|(apply answer_none || (apply answer_more; [across_answer|apply answer_none]))|apply Permutation_refl|
   vm_compute; reflexivity|apply Permutation_refl|intros; apply Permutation_refl|vm_compute; reflexivity].
Example C153_instance :
  tree_wf across_tree /\ directed 2 (vec across_q) /\
  (forall k v now e, placed across_tree k v now e -> directed 2 (vec k)) /\
  forall f w, (f, w) = (bs "VectorMultiplication", found_97) \/ (f, w) = (bs "CosineSimilarity", found_16) ->
  exists out, answer insertion_sort mathlib_ex any_filter (across_config f) (mkDatum (Some across_q) None) across_tree out /\
    map skey out = [Some w].
Proof.
  assert (F : forall k, In k [found_16; found_97; across_q] -> directed 2 (vec k)).
  { intros k [<-|[<-|[<-|[]]]]; (split; [split; [moderate_all|vm_compute; discriminate]|left; vm_compute; discriminate]). }
  split; [apply across_wf|]. split; [apply F; cbn; tauto|]. split.
  { intros k v now e H. apply F. apply across_placed in H. destruct H as [->| ->]; cbn; auto. }
  intros f w [E|E]; injection E as -> ->.
  - eexists. split; [across_answer|reflexivity].
  - eexists. split; [across_answer|reflexivity].
Qed.
