(** Properties C60-C63, C73: the approximate index. *)
From Verif.Base Require Import GoBase GoLemmas Assoc Float GoSort.
From Verif.Model Require Import Codec Store Vector Search Data Sync Annoy.
From Verif.Spec Require Import AnnoySpec.
From Verif.Proof Require Import FloatP StoreP AnnoyP.
From Coq Require Import Lia.
Open Scope nat_scope.

(** ** A concrete index *)

Definition one_bits : N := 1065353216.
Definition mone_bits : N := 3212836864.
Definition adatum (bits : list N) (group : bytes) (lab : bytes) : Datum :=
  mkDatum (Some (mkKey bits group 1 1 1 1)) (Some (mkValue 1 lab)).
Definition akey (d : Datum) : bytes := match GetKeyAsBytes (Some d) with Ok k => k | _ => [] end.
Definition astore (ds : list Datum) : dbmap := map (fun d => (akey d, mkEntry 0 d)) ds.
Definition atick : bytes -> Z := fun _ => 1000%Z.

(** Three data at 1 and one at -1, in one dimension. *)
Definition four : list Datum :=
  [adatum [one_bits] (bs "a") (bs "x"); adatum [one_bits] (bs "b") (bs "y");
   adatum [one_bits] (bs "c") (bs "y"); adatum [mone_bits] (bs "d") (bs "y")].
Definition plane : outcome := (fun i => i <? 3, [f32_of_Z 1]).
Definition four_annoyer : option annoyer :=
  match index_scan true 0 atick (astore four) (astore four) with
  | Ok s => match index_swap exact_imb None s [plane; plane] with Done a => a | _ => None end
  | _ => None
  end.

(** A pick that hands out a largest element. *)
Fixpoint pick_from (best : float * nat) (at_ pos : nat) (q : list (float * nat)) : nat :=
  match q with
  | [] => at_
  | x :: q' => if pair_less best x then pick_from x pos (S pos) q' else pick_from best at_ (S pos) q'
  end.
Definition pick_max (q : list (float * nat)) : nat :=
  match q with [] => 0 | x :: q' => pick_from x 0 1 q' end.

Lemma pick_from_ok : forall q pre best at_,
  Forall (fun x => is_nan (fst x) = false) (pre ++ q) ->
  nth_error (pre ++ q) at_ = Some best -> (forall y, In y pre -> pair_less best y = false) ->
  exists x, nth_error (pre ++ q) (pick_from best at_ (length pre) q) = Some x /\
    forall y, In y (pre ++ q) -> pair_less x y = false.
Proof.
  induction q as [|x q IH]; intros pre best at_ F E M; cbn [pick_from].
  - exists best. split; auto. rewrite app_nil_r. exact M.
  - replace (S (length pre)) with (length (pre ++ [x])) by (rewrite app_length; cbn; lia).
    replace (pre ++ x :: q) with ((pre ++ [x]) ++ q) in * by (rewrite <- app_assoc; reflexivity).
    assert (O : swo pair_less (fun y => In y ((pre ++ [x]) ++ q))).
    { apply (pair_swo (fun y => In y ((pre ++ [x]) ++ q))). intros y Hy. rewrite Forall_forall in F. apply F. exact Hy. }
    assert (Ib : In best ((pre ++ [x]) ++ q)) by (eapply nth_error_In; eauto).
    assert (Ix : In x ((pre ++ [x]) ++ q)) by (apply in_or_app; left; apply in_or_app; right; left; auto).
    assert (Ip : forall y, In y pre -> In y ((pre ++ [x]) ++ q)) by (intros y Hy; apply in_or_app; left; apply in_or_app; auto).
    destruct (pair_less best x) eqn:L.
    + apply IH; auto.
      * rewrite nth_error_app1 by (rewrite app_length; cbn; lia). apply nth_error_last.
      * intros y Hy. apply in_app_or in Hy. destruct Hy as [Hy|[<-|[]]]; [|apply (swo_irr _ _ O); auto].
        destruct (pair_less x y) eqn:Q; auto.
        pose proof (swo_trans _ _ O best x y Ib Ix (Ip y Hy) L Q) as T. rewrite (M y Hy) in T. discriminate.
    + apply IH; auto. intros y Hy. apply in_app_or in Hy. destruct Hy as [Hy|[<-|[]]]; auto.
Qed.

Lemma pick_max_handout : handout pick_max.
Proof.
  intros q NE F. destruct q as [|x q]; [contradiction|]. cbn [pick_max].
  apply (pick_from_ok q [x] x 0); auto.
  intros y [<-|[]]. unfold pair_less, fltb. rewrite SFltb_irr, Nat.ltb_irrefl. reflexivity.
Qed.

Lemma in_firstn : forall (A : Type) n (l : list A) x, In x (firstn n l) -> In x l.
Proof. intros A n l x H. rewrite <- (firstn_skipn n l). apply in_or_app. auto. Qed.
Lemma nodup_firstn : forall (A : Type) n (l : list A), NoDup l -> NoDup (firstn n l).
Proof.
  intros A n. induction n as [|n IH]; intros l H; [constructor|]. destruct H as [|x l N H]; cbn; constructor; auto.
  intro Q. apply N. eapply in_firstn; eauto.
Qed.

(** ** C60 *)

(** Whatever the hyperplanes and coin flips, building never runs out of depth,
    and every tree of the index that comes out holds every item exactly once; the
    items keep their vectors. *)
Theorem C60_every_item : forall I f nodes outs, Forall (fun nd => aDesc nd = 1) nodes ->
  Build I f nodes outs <> Stuck /\
  forall ix, Build I f nodes outs = Done ix ->
    xItems ix = length nodes /\
    (forall i nd, nth_error nodes i = Some nd -> nth_error (xNodes ix) i = Some nd) /\
    (nodes <> [] -> xRoots ix <> []) /\
    forall r, In r (xRoots ix) ->
      exists l, below ix r l /\ Permutation l (seq 0 (length nodes)) /\ forall l', below ix r l' -> l' = l.
Proof.
  intros I f nodes outs A. split; [apply Build_not_stuck; exact A|].
  intros ix H. apply Build_spec in H; auto. destruct H as [B <-].
  split; [apply (bt_items _ _ B)|]. split.
  { intros i nd E. destruct (bt_nodes _ _ B) as [more ->]. rewrite nth_error_app1; auto. apply nth_error_Some. congruence. }
  split; [apply (bt_some _ _ B)|].
  intros r Hr. pose proof (bt_roots _ _ B) as R. rewrite Forall_forall in R.
  destruct (R r Hr) as [_ (l & s & T & P & _)]. apply tree_below in T.
  exists l. split; auto. rewrite <- (bt_items _ _ B). split; auto.
  intros l' T'. eapply below_fun; eauto.
Qed.
Print Assumptions C60_every_item.

(** The index of a dataset holds the first max(1000, N) data that the scan
    visited, each in every tree exactly once, under the number that the data index
    gives back. *)
Theorem C60_every_datum : forall I a, index_of I (Some a) ->
  exists c tick order, indexed a c (visited tick order) /\
    xRoots (yIndex a) <> [] /\
    forall r, In r (xRoots (yIndex a)) ->
      exists l, below (yIndex a) r l /\ Permutation l (seq 0 (length (firstn c (visited tick order)))).
Proof.
  intros I a H. destruct (index_of_idx I _ H a eq_refl) as (tick & order & m & N0 & s & outs & old & _ & _ & _ & IX).
  exists (N.to_nat (N.max 1000 N0)), tick, order. split; [apply idx_indexed; exact IX|].
  pose proof (ix_built _ _ _ IX) as B. split.
  { apply (bt_some _ _ B). intro Z. apply map_eq_nil in Z. pose proof (ix_dim _ _ _ IX) as D. pose proof (ix_cap _ _ _ IX) as C.
    destruct (visited tick order); [discriminate|]. destruct (N.to_nat (N.max 1000 N0)); [lia|discriminate]. }
  intros r Hr. pose proof (bt_roots _ _ B) as R. rewrite Forall_forall in R.
  destruct (R r Hr) as [_ (l & s' & T & P & _)]. apply tree_below in T. exists l. split; auto.
  rewrite (bt_items _ _ B), map_length in P. exact P.
Qed.
Print Assumptions C60_every_datum.

Lemma four_index : index_of exact_imb four_annoyer.
Proof.
  assert (E : exists s, index_scan true 0 atick (astore four) (astore four) = Ok s /\
    index_swap exact_imb None s [plane; plane] = Done four_annoyer).
  { eexists. split; [vm_compute; reflexivity|vm_compute; reflexivity]. }
  destruct E as (s & E1 & E2). eapply index_run; [apply index_none| |exact E1|exact E2]. cbn. unfold M64. lia.
Qed.

(** Four items in one dimension do not fit into one list: two trees of one split,
    one item and one list of three each. *)
Example C60_instance :
  index_of exact_imb four_annoyer /\
  match four_annoyer with
  | Some a => xRoots (yIndex a) = [5; 7] /\ map aKids (xNodes (yIndex a)) = [[]; []; []; []; [0; 1; 2]; [3; 4]; [0; 1; 2]; [3; 6]; [3; 4]; [3; 6]]
  | None => False
  end.
Proof.
  split; [exact four_index|vm_compute; split; reflexivity].
Qed.

(** ** C61 *)

(** Whatever element the queue hands out, a query on a built index returns
    different ids of items, at most n of them, without reading anything that is
    not there. *)
Theorem C61_valid : forall I G f nodes outs ix pick w n k,
  Forall (fun nd => aDesc nd = 1) nodes -> Build I f nodes outs = Done ix -> f <= length w ->
  exists r, GetNns G ix pick (nns_fuel ix) w n k = Ok r /\
    NoDup r /\ Forall (fun i => i < length nodes) r /\ length r <= n.
Proof.
  intros I G f nodes outs ix pick w n k A H L. apply Build_spec in H; auto. destruct H as [B <-].
  destruct (GetNns_sound G nodes ix pick w n k B L) as (r & E & ND & F & LR & _).
  exists r. rewrite <- (bt_items _ _ B). auto.
Qed.
Print Assumptions C61_valid.

(** They come by non-decreasing distance.  Missing: distances that are not a
    number (dot products of vectors beyond 2^63), on which no order exists. *)
Theorem C61_ordered_partial : forall I G f nodes outs ix pick w n k r,
  Forall (fun nd => aDesc nd = 1) nodes -> Build I f nodes outs = Done ix -> f <= length w ->
  let dist i := adist (firstn f w) (item_vec ix i) in
  (forall i, i < length nodes -> is_nan (dist i) = false) ->
  GetNns G ix pick (nns_fuel ix) w n k = Ok r ->
  StronglySorted (fun i j => fltb (dist j) (dist i) = false) r.
Proof.
  intros I G f nodes outs ix pick w n k r A H L dist NN E. apply Build_spec in H; auto. destruct H as [B <-].
  destruct (GetNns_sound G nodes ix pick w n k B L) as (r' & E' & _ & _ & _ & S). rewrite E in E'. injection E' as <-.
  apply S. rewrite (bt_items _ _ B). exact NN.
Qed.
Print Assumptions C61_ordered_partial.

(** With a budget for all items of all trees (or any budget, if the items fit into
    one list) the result is exactly the n nearest.  Missing: as above. *)
Theorem C61_exact_partial : forall I G f nodes outs ix pick w n k,
  Forall (fun nd => aDesc nd = 1) nodes -> Build I f nodes outs = Done ix -> f <= length w ->
  ((N.of_nat (length (xRoots ix) * length nodes) <= budget k n (length (xRoots ix)))%N \/
   (length nodes <= f + 2 /\ budget k n (length (xRoots ix)) <> 0%N)) ->
  let dist i := adist (firstn f w) (item_vec ix i) in
  (forall i, i < length nodes -> is_nan (dist i) = false) ->
  exists r, GetNns G ix pick (nns_fuel ix) w n k = Ok r /\ nearest dist (length nodes) n r.
Proof.
  intros I G f nodes outs ix pick w n k A H L U dist NN. apply Build_spec in H; auto. destruct H as [B <-].
  unfold dist in *. clear dist. rewrite <- (bt_items _ _ B) in *.
  destruct (GetNns_all G nodes ix pick w n k B L U) as (r & E & _ & _ & _ & R). exists r. split; auto.
Qed.
Print Assumptions C61_exact_partial.

(** The budget -1 (which a limit of 2^32 - 1 becomes) is enough if n is at least
    the number of items. *)
Theorem C61_minus_one : forall n roots items, items <= n ->
  (Z.of_nat n * Z.of_nat roots < 2147483648)%Z ->
  (N.of_nat (roots * items) <= budget 4294967295 n roots)%N.
Proof.
  intros n roots items H B. unfold budget. change (i32 4294967295) with (-1)%Z. change (-1 =? -1)%Z with true.
  assert (E : i32 (Z.of_nat n * Z.of_nat roots) = (Z.of_nat n * Z.of_nat roots)%Z).
  { unfold i32. rewrite Z.mod_small by lia. destruct (Z.ltb_spec (Z.of_nat n * Z.of_nat roots) 2147483648); lia. }
  cbn match. rewrite E. unfold size_t. rewrite Z.mod_small by lia. nia.
Qed.
Print Assumptions C61_minus_one.

(** A sort by an order that tells all elements apart has one result. *)
Lemma total_sorted_unique : forall A (less : A -> A -> bool) l l',
  (forall x y, In x l -> In y l -> less x y = false -> less y x = false -> x = y) ->
  sorted less l -> sorted less l' -> Permutation l l' -> l = l'.
Proof.
  intros A less l. induction l as [|x l IH]; intros l' T S S' P.
  - apply Permutation_nil in P. auto.
  - destruct l' as [|y l']; [apply Permutation_sym, Permutation_nil in P; discriminate|].
    inversion S as [|? ? S1 F1]; subst. inversion S' as [|? ? S2 F2]; subst. rewrite Forall_forall in F1, F2.
    assert (E : x = y).
    { assert (I : In y (x :: l)) by (eapply Permutation_in; [apply Permutation_sym, P|left; auto]).
      assert (I' : In x (y :: l')) by (eapply Permutation_in; [apply P|left; auto]).
      destruct I as [?|I]; auto. destruct I' as [?|I']; auto.
      apply T; [left; auto|right; auto|apply F2; auto|apply F1; auto]. }
    subst y. f_equal. apply IH; auto; [|eapply Permutation_cons_inv; eauto].
    intros a b Ia Ib. apply T; right; auto.
Qed.
Lemma any_sort : forall (G : go_sort) A (less : A -> A -> bool) l out,
  swo less (fun x => In x l) -> (forall x y, In x l -> In y l -> less x y = false -> less y x = false -> x = y) ->
  Permutation out l -> sorted less out -> sort_run G less l = out.
Proof.
  intros G A less l out O T P S. apply (total_sorted_unique A less).
  - intros x y X Y. apply T; (eapply Permutation_in; [apply Permutation_sym, sort_perm|eassumption]).
  - apply sort_sorted; auto.
  - exact S.
  - rewrite <- sort_perm. apply Permutation_sym. exact P.
Qed.

(** Without the restriction to numbers it is false, with finite vectors.  Item 0 is
    (2^100, 0), item 1 is (1, 1), and the query (2^40, 2^40) has the direction of
    item 1, whose distance is 0.  The dot product with item 0 overflows, its
    distance is not a number and compares equal to everything; whatever the sort,
    the one nearest neighbour returned is item 0. *)
Definition far : list anode := [mkANode 1 [] [f32_of_Z (2 ^ 100); fzero]; mkANode 1 [] [f32_of_Z 1; f32_of_Z 1]].
Definition far_query : list float := [f32_of_Z (2 ^ 40); f32_of_Z (2 ^ 40)].
Theorem C61_nan_refuted : exists ix, Build exact_imb 2 far [] = Done ix /\
  forallb (forallb (fun x => match x with S754_zero _ | S754_finite _ _ _ => true | _ => false end))
    (far_query :: map aVec far) = true /\
  adist far_query (item_vec ix 1) = fzero /\ is_nan (adist far_query (item_vec ix 0)) = true /\
  forall G, GetNns G ix pick_max (nns_fuel ix) far_query 1 10 = Ok [0].
Proof.
  eexists. split; [vm_compute; reflexivity|]. split; [vm_compute; reflexivity|]. split; [vm_compute; reflexivity|].
  split; [vm_compute; reflexivity|]. intro G.
  match goal with |- GetNns G ?ix ?p ?f ?w ?n ?k = _ => set (ix0 := ix); unfold GetNns end.
  replace (length far_query <? xF ix0) with false by (vm_compute; reflexivity).
  replace (nns_loop _ _ _ _ _ _ _) with (Ok [0; 1; 0; 1]) by (vm_compute; reflexivity). cbn [bind].
  rewrite (any_sort G nat Nat.ltb [0; 1; 0; 1] [0; 0; 1; 1]).
  - replace (dists _ _ _ _) with (Ok [(S754_nan, 0); (fzero, 1)]) by (vm_compute; reflexivity). cbn [bind].
    rewrite (any_sort G (float * nat) pair_less _ [(S754_nan, 0); (fzero, 1)]); [reflexivity| | |reflexivity|].
    + split; intros; repeat match goal with H : In _ _ |- _ => destruct H as [<-|H] | H : In _ [] |- _ => destruct H end;
        vm_compute in *; congruence.
    + intros x y [<-|[<-|[]]] [<-|[<-|[]]]; vm_compute; congruence.
    + repeat constructor.
  - split; intros *; rewrite ?Nat.ltb_lt, ?Nat.ltb_ge; intros; lia.
  - intros x y _ _. rewrite !Nat.ltb_ge. lia.
  - apply perm_skip, perm_swap.
  - repeat constructor.
Qed.
Print Assumptions C61_nan_refuted.


(** From -1, item 3 comes first, at distance 0. *)
Example C61_instance :
  match four_annoyer with
  | Some a =>
      exists r, GetNns insertion_sort (yIndex a) pick_max (nns_fuel (yIndex a)) [f32_of_Z (-1)] 3 8 = Ok r /\ r = [3; 0; 1] /\
        forallb (fun i => negb (is_nan (adist [f32_of_Z (-1)] (item_vec (yIndex a) i)))) [0; 1; 2; 3] = true /\
        budget 8 3 2 = 8%N
  | None => False
  end.
Proof. vm_compute. eexists. repeat split; reflexivity. Qed.

(** ** C62 *)

(** A search with an index: no crash, at most limit results, each a datum among
    those indexed at the last build, passing the filters, with the score the
    configuration names; no datum twice; the store is not touched. *)
Theorem C62_sound : forall I G exists_ score tick order m a pick d config,
  index_of I (Some a) -> dkey d <> None -> (scLimit config < M32)%N ->
  exists c live, indexed a c live /\
    (xF (yIndex a) <= length (features d) -> filterable exists_ config (firstn c live) ->
     exists es, SearchAnnoy G exists_ score tick order m (Some a) pick (Some d) config =
         (m, Ok (map (fun e => mkScored (score (features d) (features (edatum e))) (edatum e)) es)) /\
       (N.of_nat (length es) <= scLimit config)%N /\
       Forall (fun e => In e (firstn c live) /\ passes exists_ config e = true) es /\
       (NoDup (firstn c live) -> NoDup es)).
Proof.
  intros I G exists_ score tick order m a pick d config H KD LM.
  destruct (index_of_idx I _ H a eq_refl) as (tick0 & order0 & m0 & N0 & s & outs & old & _ & _ & _ & IX).
  exists (N.to_nat (N.max 1000 N0)), (visited tick0 order0). split; [apply idx_indexed; exact IX|].
  intros LD FI. destruct (SearchAnnoy_idx G exists_ score tick order m a _ _ pick d config IX KD LD LM FI)
    as (ids & es & _ & ND & F & ->).
  exists (firstn (N.to_nat (scLimit config)) (filter (passes exists_ config) es)).
  split; [reflexivity|]. split; [rewrite firstn_length; lia|]. split.
  - apply Forall_forall. intros e He. apply in_firstn in He. apply filter_In in He. destruct He as [He P].
    split; auto. eapply ids_in; eauto.
  - intro NDl. apply nodup_firstn. apply NoDup_filter. clear - ND F NDl.
    induction F as [|i e ids es E F IH]; [constructor|]. inversion ND as [|? ? N1 N2]; subst. constructor; auto.
    intro He. apply N1. clear - E He F NDl.
    induction F as [|j x ids es E2 F IH]; [destruct He|]. destruct He as [->|He]; [left|right; auto].
    rewrite NoDup_nth_error in NDl. apply NDl; [apply nth_error_Some; congruence|congruence].
Qed.
Print Assumptions C62_sound.

(** Without an index the exact search answers. *)
Theorem C62_fallback : forall G exists_ score tick order m pick query config,
  SearchAnnoy G exists_ score tick order m None pick query config =
  Search G exists_ score tick order m query config.
Proof. reflexivity. Qed.
Print Assumptions C62_fallback.

(** If nothing has changed since the index was built, nothing was left out of it,
    and the budget covers all trees (or all data fit into one list): the search
    finds min(limit, matches) data.  Missing: all other searches, see below. *)
Theorem C62_complete_partial : forall I G exists_ score tick order m a pick d config N0 order0 m0 s outs old,
  (N.of_nat (length order0) < M64)%N ->
  index_scan true N0 tick order0 m0 = Ok s -> index_swap I old s outs = Done (Some a) ->
  visited tick order0 <> [] -> length (visited tick order0) <= N.to_nat (N.max 1000 N0) ->
  dkey d <> None -> (scLimit config < M32)%N -> xF (yIndex a) <= length (features d) ->
  filterable exists_ config (visited tick order0) ->
  (let n := length (visited tick order0) in let roots := length (xRoots (yIndex a)) in
   (N.of_nat (roots * n) <= budget (Z.of_N (scLimit config)) (length (yFrom a)) roots)%N \/
   (n <= xF (yIndex a) + 2 /\ budget (Z.of_N (scLimit config)) (length (yFrom a)) roots <> 0%N)) ->
  exists es, SearchAnnoy G exists_ score tick order m (Some a) pick (Some d) config =
      (m, Ok (map (fun e => mkScored (score (features d) (features (edatum e))) (edatum e)) es)) /\
    length es = Nat.min (N.to_nat (scLimit config)) (length (filter (passes exists_ config) (visited tick order0))).
Proof.
  intros I G exists_ score tick order m a pick d config N0 order0 m0 s outs old B S W NE CP KD LM LD FI U.
  pose proof (scan_idx I old N0 tick order0 m0 s outs a B S NE W) as IX.
  assert (FN : firstn (N.to_nat (N.max 1000 N0)) (visited tick order0) = visited tick order0) by (apply firstn_all2; exact CP).
  pose proof (ix_built _ _ _ IX) as BT.
  assert (LF : length (yFrom a) = N.to_nat (N.max 1000 N0)).
  { rewrite (ix_data _ _ _ IX), app_length, map_length, firstn_length, repeat_length. lia. }
  destruct (SearchAnnoy_idx G exists_ score tick order m a _ _ pick d config IX KD LD LM) as (ids & es & E & ND & F & ->).
  { rewrite FN. exact FI. }
  rewrite FN in *.
  assert (IT : xItems (yIndex a) = length (visited tick order0)) by (rewrite (bt_items _ _ BT); apply map_length).
  cbv zeta in U. rewrite LF, <- IT in U.
  destruct (GetNns_all G _ (yIndex a) pick (features d) (N.to_nat (N.max 1000 N0)) (Z.of_N (scLimit config)) BT LD U)
    as (r & E' & _ & _ & LR & _).
  rewrite E in E'. injection E' as <-. rewrite IT in LR.
  assert (P : Permutation es (visited tick order0)) by (eapply ids_all; eauto; lia).
  eexists. split; [reflexivity|]. rewrite firstn_length. f_equal.
  apply Permutation_length. clear - P. induction P; cbn; auto.
  - destruct (passes _ _ x); auto.
  - destruct (passes _ _ x), (passes _ _ y); auto. apply perm_swap.
  - etransitivity; eauto.
Qed.
Print Assumptions C62_complete_partial.

Definition conf_annoy (limit : N) (filters : list bytes) : SearchConfig :=
  mkSearchConfig (bs "AnnoyVectorDistance") false 0 1000 limit 0 [] 0 [] filters 0 [] [].
Definition score0 : list float -> list float -> float := dot.
Definition at_mone : Datum := adatum [mone_bits] [] [].
Definition anyfilter : bytes -> bytes -> bool := bytes_eqb.

(** A limit of 8 covers two trees of four. *)
Example C62_instance :
  match four_annoyer with
  | Some a =>
      N.of_nat (length (xRoots (yIndex a)) * 4) = budget 8 (length (yFrom a)) (length (xRoots (yIndex a))) /\
      snd (SearchAnnoy insertion_sort anyfilter score0 atick (astore four) (astore four) (Some a) pick_max
             (Some at_mone) (conf_annoy 8 [bs "y"])) =
      Ok [mkScored (f32_of_Z 1) (nth 3 four at_mone); mkScored (f32_of_Z (-1)) (nth 1 four at_mone);
          mkScored (f32_of_Z (-1)) (nth 2 four at_mone)]
  | None => False
  end.
Proof. vm_compute. split; reflexivity. Qed.

Lemma four_short : match four_annoyer with
  | Some a => exists r, snd (SearchAnnoy insertion_sort anyfilter score0 atick (astore four) (astore four) (Some a) pick_max
                               (Some at_mone) (conf_annoy 2 [])) = Ok [r]
  | None => False
  end.
Proof. vm_compute. eexists. reflexivity. Qed.
Lemma four_filtered : match four_annoyer with
  | Some a => snd (SearchAnnoy insertion_sort anyfilter score0 atick (astore four) (astore four) (Some a) pick_max
                     (Some at_mone) (conf_annoy 1 [bs "x"])) = Ok []
  | None => False
  end.
Proof. vm_compute. reflexivity. Qed.

(** With a limit of 2 and four matching data, the search may return a single one:
    both candidates are the same datum, found in two trees. *)
Theorem C62_short_refuted : exists a pick d config,
  index_of exact_imb (Some a) /\ handout pick /\
  length (filter (passes anyfilter config) (visited atick (astore four))) = 4 /\ scLimit config = 2%N /\
  exists r, snd (SearchAnnoy insertion_sort anyfilter score0 atick (astore four) (astore four) (Some a) pick (Some d) config) = Ok [r].
Proof.
  pose proof four_short as FS. pose proof four_index as IO.
  destruct four_annoyer as [a|]; [|contradiction].
  exists a, pick_max, at_mone, (conf_annoy 2 []).
  split; [exact IO|]. split; [apply pick_max_handout|]. split; [vm_compute; reflexivity|]. split; [reflexivity|].
  exact FS.
Qed.
Print Assumptions C62_short_refuted.

(** The candidates are chosen before the filters are applied: a matching datum is
    missed. *)
Theorem C62_filtered_refuted : exists a pick d config e,
  index_of exact_imb (Some a) /\ handout pick /\
  In e (visited atick (astore four)) /\ passes anyfilter config e = true /\ scLimit config = 1%N /\
  snd (SearchAnnoy insertion_sort anyfilter score0 atick (astore four) (astore four) (Some a) pick (Some d) config) = Ok [].
Proof.
  pose proof four_filtered as FS. pose proof four_index as IO.
  destruct four_annoyer as [a|]; [|contradiction].
  exists a, pick_max, at_mone, (conf_annoy 1 [bs "x"]), (mkEntry 0 (nth 0 four at_mone)).
  split; [exact IO|]. split; [apply pick_max_handout|]. split; [left; reflexivity|].
  split; [reflexivity|]. split; [reflexivity|].
  exact FS.
Qed.
Print Assumptions C62_filtered_refuted.

(** A datum that was deleted is still returned; so it is after a later run of
    Process, because a dataset that has become empty keeps its index. *)
Theorem C62_stale_refuted : exists a d config m1 m2,
  index_of exact_imb (Some a) /\
  InsertBDMap 1000 [] (Some d) None = Ok (m1, true) /\ DeleteBDMap m1 (Some d) = Ok m2 /\ m2 = [] /\
  (exists s, index_scan true 1 atick m2 m2 = Ok s /\ index_swap exact_imb (Some a) s [] = Done (Some a)) /\
  exists sc, snd (SearchAnnoy insertion_sort anyfilter score0 atick m2 m2 (Some a) pick_max (Some d) config) = Ok [mkScored sc d].
Proof.
  set (d := adatum [one_bits] (bs "a") (bs "x")).
  assert (E : exists s a, index_scan true 0 atick (astore [d]) (astore [d]) = Ok s /\
    index_swap exact_imb None s [] = Done (Some a) /\
    (exists s, index_scan true 1 atick [] [] = Ok s /\ index_swap exact_imb (Some a) s [] = Done (Some a)) /\
    exists sc, snd (SearchAnnoy insertion_sort anyfilter score0 atick [] [] (Some a) pick_max (Some d) (conf_annoy 10 [])) = Ok [mkScored sc d]).
  { do 2 eexists. split; [vm_compute; reflexivity|]. split; [vm_compute; reflexivity|]. split.
    - eexists. split; [vm_compute; reflexivity|reflexivity].
    - eexists. vm_compute. reflexivity. }
  destruct E as (s & a & E1 & E2 & E3 & E4).
  exists a, d, (conf_annoy 10 []), (astore [d]), []. split.
  { eapply index_run; [apply index_none| |exact E1|exact E2]. cbn. unfold M64. lia. }
  split; [vm_compute; reflexivity|]. split; [vm_compute; reflexivity|]. split; [reflexivity|]. split; [exact E3|exact E4].
Qed.
Print Assumptions C62_stale_refuted.

(** ** C63 *)

(** An index drawn for n candidates is below n; a coin flip is 0 or 1. *)
Theorem C63_in_range : forall n s, n <> 0%N ->
  (exists i s', kiss_index n s = Ok (i, s') /\ (i < n)%N) /\ (fst (kiss_flip s) < 2)%N.
Proof. intros n s H. split; [apply kiss_index_lt; exact H|apply kiss_flip_bit]. Qed.
Print Assumptions C63_in_range.

(** The two starting points of a split are different, and below the number of
    items. *)
Theorem C63_different : forall count s, (2 <= count < M64)%N ->
  exists i j s', two_points count s = Ok (i, j, s') /\ (i < count)%N /\ (j < count)%N /\ i <> j.
Proof. exact two_points_ok. Qed.
Print Assumptions C63_different.

Definition seed0 : kiss64 :=
  mkKiss 1234567890987654321 362436362436362436 1066149217761810 123456123456123456.
Example C63_instance : exists s, two_points 7 seed0 = Ok (2%N, 6%N, s) /\ (2 <= 7 < M64)%N.
Proof. vm_compute. eexists. repeat split; try reflexivity; discriminate. Qed.

(** ** C73 *)

(** If all vectors of a dataset have the same length, and the query's is not
    shorter, neither building nor asking the index reads beyond a vector.
    Missing: other datasets and queries, which nothing prevents (below). *)
Theorem C73_inside_partial : forall I G exists_ score tick order m N0 f,
  (N.of_nat (length order) < M64)%N -> visited tick order <> [] ->
  (forall e, In e (visited tick order) -> dkey (edatum e) <> None /\ length (features (edatum e)) = f) ->
  exists s, index_scan true N0 tick order m = Ok s /\
    forall old outs a pick d config tick' order' m',
    index_swap I old s outs = Done (Some a) ->
    dkey d <> None -> f <= length (features d) -> (scLimit config < M32)%N ->
    filterable exists_ config (visited tick order) ->
    exists l, SearchAnnoy G exists_ score tick' order' m' (Some a) pick (Some d) config = (m', Ok l).
Proof.
  intros I G exists_ score tick order m N0 f B NE H.
  destruct (index_scan_ok N0 tick order m f B H) as [s E]. exists s. split; auto.
  intros old outs a pick d config tick' order' m' W KD LD LM FI.
  pose proof (scan_idx I old N0 tick order m s outs a B E NE W) as IX.
  assert (XF : xF (yIndex a) = f).
  { pose proof (ix_dim _ _ _ IX) as D. destruct (visited tick order) as [|e l] eqn:V; [contradiction|].
    cbn in D. injection D as <-. apply H. left. reflexivity. }
  destruct (SearchAnnoy_idx G exists_ score tick' order' m' a _ _ pick d config IX KD) as (ids & es & _ & _ & _ & ->); eauto.
  - rewrite XF. exact LD.
  - intros e He. apply FI. eapply in_firstn; eauto.
Qed.
Print Assumptions C73_inside_partial.

(** Four data of one length, and a query of that length. *)
Example C73_instance :
  visited atick (astore four) <> [] /\
  forallb (fun e => length (features (edatum e)) =? 1) (visited atick (astore four)) = true /\
  length (features at_mone) = 1.
Proof. vm_compute. split; [discriminate|split; reflexivity]. Qed.

(** Two data of different lengths are both accepted, and the next build reads
    beyond the shorter vector. *)
Theorem C73_build_refuted : exists d1 d2 m1 m2,
  InsertBDMap 1000 [] (Some d1) None = Ok (m1, true) /\ InsertBDMap 1000 m1 (Some d2) None = Ok (m2, true) /\
  (forall f, exists d, In d [d1; d2] /\ length (features d) <> f) /\
  exists order, Permutation order m2 /\ index_scan true 0 atick order m2 = Panic.
Proof.
  set (d1 := adatum [one_bits; one_bits] (bs "a") (bs "x")). set (d2 := adatum [one_bits] (bs "a") (bs "x")).
  exists d1, d2, (astore [d1]), (astore [d2; d1]).
  split; [vm_compute; reflexivity|]. split; [vm_compute; reflexivity|]. split.
  - intro f. destruct (Nat.eq_dec f 2) as [->|N]; [exists d2|exists d1]; (split; [cbn; auto|vm_compute; congruence]).
  - exists (astore [d1; d2]). split; [apply perm_swap|vm_compute; reflexivity].
Qed.
Print Assumptions C73_build_refuted.

(** A query with a shorter vector than the indexed ones reads beyond it. *)
Theorem C73_query_refuted : exists a d config,
  index_of exact_imb (Some a) /\ dkey d <> None /\
  snd (SearchAnnoy insertion_sort anyfilter score0 atick (astore four) (astore four) (Some a) pick_max (Some d) config) = Panic.
Proof.
  pose proof four_index as IO.
  assert (P : match four_annoyer with
    | Some a => snd (SearchAnnoy insertion_sort anyfilter score0 atick (astore four) (astore four) (Some a) pick_max
                       (Some (adatum [] [] [])) (conf_annoy 10 [])) = Panic
    | None => False end) by (vm_compute; reflexivity).
  destruct four_annoyer as [a|]; [|contradiction].
  exists a, (adatum [] [] []), (conf_annoy 10 []). split; [exact IO|]. split; [discriminate|exact P].
Qed.
Print Assumptions C73_query_refuted.
