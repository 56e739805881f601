(** C177: a local search while the dataset is written to. *)
From Verif.Base Require Import GoBase GoLemmas Assoc Float GoSort.
From Verif.Model Require Import Codec Store StoreConc Data Vector Search SearchConc.
From Verif.Spec Require Import Wire StoreSpec StoreConcSpec RenewSpec LinearSpec SnapshotSpec TopK.
From Verif.Proof Require Import CodecP CodecTop StoreP StoreQ StoreConcP FloatP TopKP SearchP.
From Verif.Props Require Import StoreProps StoreConcProps ScanProps LinearProps SearchProps.
From Coq Require Import Lia.
Open Scope N_scope.

(** If nothing else runs, it is the search of Model/Search.v. *)
Theorem C177_alone : forall G ex score config query tick order m,
  SearchVisited G ex score config query (snd (StreamAll tick order m)) = snd (Search G ex score tick order m query config).
Proof.
  intros G ex score config [d|] tick order m; [|reflexivity]. unfold Search, SearchVisited. rewrite loop_spec by reflexivity.
  rewrite StreamAll_spec. cbn [snd]. rewrite <- (map_map snd edatum).
  generalize (map snd (filter (live tick) order)) as es. generalize (@Ok (list ScoredDatum) []) as s.
  intros s es. revert s. induction es as [|e es IH]; intro s; cbn [map fold_left fst]; [reflexivity|]. rewrite <- IH. reflexivity.
Qed.
Print Assumptions C177_alone.

(** The data visited, as the entries of a store in which nothing expires. *)
Definition as_order (ys : list Datum) : list (bytes * entry) := map (fun d => ([], mkEntry 0 d)) ys.

Lemma as_order_visited : forall ys m, snd (StreamAll (fun _ => 0%Z) (as_order ys) m) = ys.
Proof.
  intros ys m. rewrite StreamAll_spec. cbn [snd]. induction ys as [|d ys IH]; [reflexivity|]. cbn. f_equal. exact IH.
Qed.

Lemma found_keys : forall ex score config q ys, (forall d, In d ys -> exists k v, d = kv k v) -> NoDup (map dkey ys) ->
  NoDup (map skey (candidates ex score config q (fun _ => 0%Z) (as_order ys))).
Proof.
  intros ex score config q ys KV ND.
  assert (INC : forall l x, In x (map skey (candidates ex score config q (fun _ => 0%Z) (as_order l))) -> In x (map dkey l)).
  { intros l x X. apply in_map_iff in X. destruct X as (y & <- & Y). apply candidates_in in Y.
    destruct Y as (b & e & k & v & IN & D & _ & _ & ->). unfold as_order in IN. apply in_map_iff in IN. destruct IN as (d & E & IN).
    injection E as <- <-. unfold skey. cbn [sDatum edatum]. apply in_map. exact IN. }
  induction ys as [|d ys IH]; [constructor|]. cbn [map] in ND. inversion ND as [|? ? N1 N2]; subst.
  destruct (KV d (or_introl eq_refl)) as (k & v & ->).
  change (as_order (kv k v :: ys)) with (([] : bytes, mkEntry 0 (kv k v)) :: as_order ys).
  rewrite (candidates_cons ex score config q (fun _ => 0%Z) [] (mkEntry 0 (kv k v)) (as_order ys) k v eq_refl). rewrite map_app.
  assert (IH' : NoDup (map skey (candidates ex score config q (fun _ => 0%Z) (as_order ys)))).
  { apply IH; [|exact N2]. intros d D. apply KV. right. exact D. }
  destruct (negb _ && _); cbn [map app]; [|exact IH']. constructor; [|exact IH']. intro X. apply N1. apply INC in X. exact X.
Qed.

(** C177.  A search that runs while inserts and deletes are under way, and nothing expires,
    returns the best of what it visited: every result was there at some moment of the search,
    and every matching datum that was there all the time is among the results, or the results
    are as many as asked for and none of them is worse. *)
Theorem C177_search : forall T s0 tr1 s1 tr2 s2 j ys G ex score config q qv,
  begins T s0 -> cexec s0 tr1 s1 -> cexec s1 tr2 s2 -> (c_now s2 <= T)%Z ->
  nth_error (c_threads s1) j = Some TScan -> nth_error (c_threads s2) j = Some (TScanDone ys) ->
  1 <= scLimit config < M32 -> (forall k v, In (kv k v) ys -> is_nan (score (vec k) (vec q)) = false) ->
  exists l es1 es2, SearchVisited G ex score config (Some (mkDatum (Some q) qv)) ys = Ok l /\
    explained s0 es1 s1 /\ explained s0 (es1 ++ es2) s2 /\
    NoDup (map skey l) /\ sorted (beats (scHigherIsBetter config)) l /\
    (length l <= N.to_nat (scLimit config))%nat /\
    (forall x, In x l -> exists k v p r, es2 = p ++ r /\ there_after s0 (es1 ++ p) (kv k v) /\
       passes ex config (kv k v) = true /\ x = mkScored (score (vec k) (vec q)) (kv k v)) /\
    (forall k v, key_ok k -> key_fits k -> (forall p r, es2 = p ++ r -> there_after s0 (es1 ++ p) (kv k v)) ->
       passes ex config (kv k v) = true ->
       let x := mkScored (score (vec k) (vec q)) (kv k v) in
       In x l \/ (length l = N.to_nat (scLimit config) /\
                  forall o, In o l -> beats (scHigherIsBetter config) x o = false)).
Proof.
  intros T s0 tr1 s1 tr2 s2 j ys G ex score config q qv B E1 E2 HT J1 J2 [L1 Ln] NN.
  assert (CO : calls_ok s0).
  { destruct B as (W & F & _ & TH). split; [exact W|]. split; [exact F|]. rewrite Forall_forall in *. intros t X. specialize (TH t X).
    destruct t; cbn [caller]; try exact TH; apply TH. }
  destruct (C147_live s0 tr1 s1 j tr2 s2 ys CO E1 J1 E2 J2) as (ND & LV).
  assert (KV : forall d, In d ys -> exists k v, d = kv k v).
  { intros d D. destruct (LV d D) as (_ & _ & s & _ & _ & _ & k & v & _ & -> & _). eauto. }
  destruct (C176_scans T s0 tr1 s1 tr2 s2 j ys B E1 E2 HT J1 J2) as (es1 & es2 & X1 & X2 & SO & CM).
  assert (CI : forall x, In x (candidates ex score config q (fun _ => 0%Z) (as_order ys)) <->
     exists k v, In (kv k v) ys /\ passes ex config (kv k v) = true /\ x = mkScored (score (vec k) (vec q)) (kv k v)).
  { intro x. rewrite candidates_in. split.
    - intros (b & e & k & v & IN & D & _ & P & ->). apply in_map_iff in IN. destruct IN as (d & E & IN). injection E as <- <-. cbn [edatum] in *.
      destruct (KV d IN) as (k' & v' & ->). injection D as <- _. eauto.
    - intros (k & v & IN & P & ->). exists [], (mkEntry 0 (kv k v)), k, (Some v). cbn [edatum exprireAt].
      split; [apply in_map_iff; exists (kv k v); auto|]. split; [reflexivity|]. split; [left; reflexivity|]. auto. }
  destruct (search_loop G ex score config q qv (fun _ => 0%Z) Ln L1 (as_order ys) [] [] []) as (m' & l & E & TK).
  - intros b e IN. apply in_map_iff in IN. destruct IN as (d & X & IN). injection X as <- <-. apply KV. exact IN.
  - apply Forall_forall. intros x X. apply CI in X. destruct X as (k & v & IN & _ & ->). cbn [sScore]. eapply NN; exact IN.
  - constructor.
  - apply topk_nil.
  - rewrite app_nil_r in TK. exists l, es1, es2.
    assert (SV : SearchVisited G ex score config (Some (mkDatum (Some q) qv)) ys = Ok l).
    { rewrite <- (as_order_visited ys []) at 1. rewrite C177_alone. unfold Search. rewrite E. reflexivity. }
    pose proof (found_keys ex score config q ys KV ND) as CD.
    pose proof (topk_distinct _ _ _ _ _ _ TK CD) as (NDl & I & Sl & Ll & BB).
    split; [exact SV|]. split; [exact X1|]. split; [exact X2|]. split; [exact NDl|]. split; [exact Sl|]. split; [exact Ll|]. split.
    + intros x X. apply I, CI in X. destruct X as (k & v & IN & P & ->). destruct (SO _ IN) as (p & r & Ep & TA).
      exists k, v, p, r. auto.
    + intros k v K1 K2 AL P x.
      assert (IN : In (kv k v) ys).
      { destruct (CM k K1 K2) as (v' & IN'); [intros p r Ep; exists v; exact (AL p r Ep)|].
        destruct (SO _ IN') as (p & r & Ep & ka' & va' & Q & Y). injection Q as <- <-.
        destruct (AL p r Ep) as (kb' & vb' & Q & Y'). injection Q as <- <-.
        destruct (last_effect k (es1 ++ p)) as [[i k' v2 dl|i k']|]; [subst; exact IN'|destruct Y|].
        destruct Y as (e & La & Da), Y' as (e' & Lb & Db). assert (QQ : kv k v = kv k v') by congruence. rewrite QQ. exact IN'. }
      assert (Hc : In x (candidates ex score config q (fun _ => 0%Z) (as_order ys))) by (apply CI; exists k, v; auto).
      destruct (BB x Hc) as [Hk|[Hl Hb]]; [|right; auto].
      left. apply in_map_iff in Hk. destruct Hk as (y & Ey & Y). pose proof (I y Y) as Yc. apply CI in Yc. destruct Yc as (k2 & v2 & IN2 & _ & ->).
      unfold skey in Ey. cbn in Ey. injection Ey as ->.
      assert (VV : v2 = v); [|subst v2; exact Y].
      clear -ND IN IN2. induction ys as [|d ys IH]; [destruct IN|]. cbn [map] in ND. inversion ND as [|? ? N1 N2]; subst.
      destruct IN as [->|IN], IN2 as [Q|IN2].
      * injection Q as ->. reflexivity.
      * exfalso. apply N1. apply (in_map dkey) in IN2. exact IN2.
      * subst d. exfalso. apply N1. apply (in_map dkey) in IN. exact IN.
      * apply IH; auto.
Qed.
Print Assumptions C177_search.

Lemma acted_at : forall i t l x, acted_once i t l -> In x l -> l = [x] /\ may_have_changed t = Some (acts_on x).
Proof.
  intros i t l x A X. destruct t as [[]|]; cbn [acted_once may_have_changed] in *;
    try (rewrite A in X; destruct X; fail); try (destruct A as [A|A]; [rewrite A in X; destruct X|]);
    rewrite A in *; destruct X as [<-|[]]; split; reflexivity.
Qed.

Lemma last_only : forall k x es, In x es -> acts_on x = k -> (forall y, In y es -> acts_on y = k -> y = x) -> last_effect k es = Some x.
Proof.
  intros k x es. induction es as [|y es IH] using rev_ind; [intros []|]. intros X K A. rewrite last_effect_snoc.
  destruct (DatumKey_eq_dec (acts_on y) k) as [E|N].
  - rewrite (A y); [reflexivity|apply in_or_app; right; left; reflexivity|exact E].
  - apply IH; [|exact K|intros z Z; apply A; apply in_or_app; auto]. apply in_app_or in X. destruct X as [X|[->|[]]]; [exact X|contradiction].
Qed.

(** A search that begins when an insert has returned finds what was inserted, whatever is done to
    other keys in the meantime. *)
Theorem C177_own : forall T s0 tr1 s1 tr2 s2 j ys G ex score config q qv i k v dl,
  begins T s0 -> cexec s0 tr1 s1 -> cexec s1 tr2 s2 -> (c_now s2 <= T)%Z ->
  nth_error (c_threads s1) j = Some TScan -> nth_error (c_threads s2) j = Some (TScanDone ys) ->
  1 <= scLimit config < M32 -> (forall k v, In (kv k v) ys -> is_nan (score (vec k) (vec q)) = false) ->
  key_ok k -> key_fits k -> nth_error (c_threads s1) i = Some (TInsDone k v dl) ->
  (forall i', may_have_changed (nth_error (c_threads s2) i') = Some k -> i' = i) ->
  passes ex config (kv k v) = true ->
  exists l, SearchVisited G ex score config (Some (mkDatum (Some q) qv)) ys = Ok l /\
    let x := mkScored (score (vec k) (vec q)) (kv k v) in
    In x l \/ (length l = N.to_nat (scLimit config) /\
               forall o, In o l -> beats (scHigherIsBetter config) x o = false).
Proof.
  intros T s0 tr1 s1 tr2 s2 j ys G ex score config q qv i k v dl B E1 E2 HT J1 J2 L NN K1 K2 I1 ON P.
  destruct (C177_search T s0 tr1 s1 tr2 s2 j ys G ex score config q qv B E1 E2 HT J1 J2 L NN)
    as (l & es1 & es2 & SV & X1 & X2 & _ & _ & _ & _ & CM).
  exists l. split; [exact SV|]. apply CM; auto. intros p r Q. exists k, v. split; [reflexivity|].
  assert (EF : forall x es, In x es -> In x (effects_of (who_acts x) es)) by (intros x es X; apply filter_In; split; [exact X|apply Nat.eqb_refl]).
  pose proof (proj1 X1 i) as O1. rewrite I1 in O1. cbn [acted_once] in O1.
  assert (IN : In (EIns i k v dl) es1).
  { assert (In (EIns i k v dl) (effects_of i es1)) as Y by (rewrite O1; left; reflexivity). apply filter_In in Y. apply Y. }
  rewrite (last_only k (EIns i k v dl)); [reflexivity|apply in_or_app; auto|reflexivity|].
  intros y Y KY. assert (Y' : In y (es1 ++ es2)) by (rewrite Q, app_assoc; apply in_or_app; auto).
  destruct (acted_at _ _ _ _ (proj1 X2 (who_acts y)) (EF _ _ Y')) as (A1 & A2). rewrite KY in A2. rewrite (ON _ A2) in A1.
  assert (Z : In (EIns i k v dl) (effects_of i (es1 ++ es2))) by (apply filter_In; split; [apply in_or_app; auto|apply Nat.eqb_refl]).
  rewrite A1 in Z. destruct Z as [Z|[]]. exact Z.
Qed.
Print Assumptions C177_own.

(** A search that begins when a delete has returned does not find the key. *)
Theorem C177_deleted : forall T s0 tr1 s1 tr2 s2 j ys G ex score config q qv i k,
  begins T s0 -> cexec s0 tr1 s1 -> cexec s1 tr2 s2 -> (c_now s2 <= T)%Z ->
  nth_error (c_threads s1) j = Some TScan -> nth_error (c_threads s2) j = Some (TScanDone ys) ->
  1 <= scLimit config < M32 -> (forall k v, In (kv k v) ys -> is_nan (score (vec k) (vec q)) = false) ->
  nth_error (c_threads s1) i = Some (TDelDone k) ->
  (forall i', may_have_changed (nth_error (c_threads s2) i') = Some k -> i' = i) ->
  exists l, SearchVisited G ex score config (Some (mkDatum (Some q) qv)) ys = Ok l /\
    forall x, In x l -> skey x <> Some k.
Proof.
  intros T s0 tr1 s1 tr2 s2 j ys G ex score config q qv i k B E1 E2 HT J1 J2 L NN I1 ON.
  destruct (C177_search T s0 tr1 s1 tr2 s2 j ys G ex score config q qv B E1 E2 HT J1 J2 L NN)
    as (l & es1 & es2 & SV & X1 & X2 & _ & _ & _ & SO & _).
  exists l. split; [exact SV|]. intros x X KX. destruct (SO x X) as (k' & v & p & r & Q & (a & b & E & H) & _ & ->).
  unfold skey in KX. cbn in KX. injection KX as ->. injection E as <- <-.
  assert (EF : forall x es, In x es -> In x (effects_of (who_acts x) es)) by (intros y es Y; apply filter_In; split; [exact Y|apply Nat.eqb_refl]).
  pose proof (proj1 X1 i) as O1. rewrite I1 in O1. cbn [acted_once] in O1.
  assert (IN : In (EDel i k) es1).
  { assert (In (EDel i k) (effects_of i es1)) as Y by (rewrite O1; left; reflexivity). apply filter_In in Y. apply Y. }
  rewrite (last_only k (EDel i k)) in H; [exact H|apply in_or_app; auto|reflexivity|].
  intros y Y KY. assert (Y' : In y (es1 ++ es2)) by (rewrite Q, app_assoc; apply in_or_app; auto).
  destruct (acted_at _ _ _ _ (proj1 X2 (who_acts y)) (EF _ _ Y')) as (A1 & A2). rewrite KY in A2. rewrite (ON _ A2) in A1.
  assert (Z : In (EDel i k) (effects_of i (es1 ++ es2))) by (apply filter_In; split; [apply in_or_app; auto|apply Nat.eqb_refl]).
  rewrite A1 in Z. destruct Z as [Z|[]]. exact Z.
Qed.
Print Assumptions C177_deleted.

(** The run of C176_instance_scan as a search for the vector of ka. *)
Example C177_instance : begins 200 s_scanned /\
  (exists tr s, cexec s_scanned tr s /\ (c_now s <= 200)%Z /\
    nth_error (c_threads s_scanned) 1 = Some TScan /\ nth_error (c_threads s) 1 = Some (TScanDone [kv ka vb])) /\
  is_nan (QuickVectorDistance (vec ka) (vec ka)) = false /\
  SearchVisited insertion_sort any_filter QuickVectorDistance (cfg1 false 1) (Some (mkDatum (Some ka) None)) [kv ka vb]
    = Ok [mkScored (S754_zero false) (kv ka vb)] /\
  SearchVisited insertion_sort any_filter QuickVectorDistance (cfg1 false 1) (Some (mkDatum (Some ka) None)) [kv kb va; kv ka vb]
    = Ok [mkScored (S754_zero false) (kv ka vb)].
Proof.
  destruct C176_instance_scan as (A & tr & s & ys & E & H & J1 & J2 & -> & _). split; [exact A|].
  split; [exists tr, s; auto|]. split; [vm_compute; reflexivity|]. split; vm_compute; reflexivity.
Qed.

(** An insert returns, then another key is inserted while the search is under way. *)
Example C177_instance_own : let s0 := mkC 100 [] [TIns ka va None; TIns kb va None; TScan] in
  begins 200 s0 /\ exists tr1 s1 tr2 s2, cexec s0 tr1 s1 /\ cexec s1 tr2 s2 /\ (c_now s2 <= 200)%Z /\
    nth_error (c_threads s1) 2 = Some TScan /\ nth_error (c_threads s2) 2 = Some (TScanDone [kv ka va]) /\
    nth_error (c_threads s1) 0 = Some (TInsDone ka va 0) /\ nth_error (c_threads s2) 1 = Some (TInsDone kb va 0) /\
    (forall i', may_have_changed (nth_error (c_threads s2) i') = Some ka -> i' = 0%nat).
Proof.
  destruct kva_ok as (A & B & C). split.
  - split; [constructor|]. split; [constructor|]. split; [intros b e H; discriminate|].
    constructor; [split; [exact A|intros now _; left; reflexivity]|].
    constructor; [split; [exact C|intros now _; left; reflexivity]|]. constructor; [exact Logic.I|constructor].
  - exists [LNone; LNone; LInsert 0 ka va], (mkC 100 [(wire_key ka, mkEntry 0 (kv ka va))] [TInsDone ka va 0; TIns kb va None; TScan]),
      [LNone; LNone; LNone; LInsert 1 kb va; LNone; LNone],
      (mkC 100 (mstore [(wire_key ka, mkEntry 0 (kv ka va))] (ekey kb) (mkEntry 0 (kvd kb va))) [TInsDone ka va 0; TInsDone kb va 0; TScanDone [kv ka va]]).
    split; [|split; [|split; [cbn; lia|split; [reflexivity|split; [reflexivity|split; [reflexivity|split; [reflexivity|]]]]]]].
    + eapply ce_cons; [eapply (st_ins_time 100 _ _ 0 ka va _ _); reflexivity|].
      eapply ce_cons; [eapply (st_ins_load' 100 _ _ 0 ka va 0); reflexivity|].
      eapply ce_cons; [eapply (st_ins_store 100 _ _ 0 ka va 0); reflexivity|]. constructor.
    + eapply ce_cons; [eapply (st_scan_start 100 _ _ 2 [wire_key ka] _); first [reflexivity|apply Permutation_refl]|].
      eapply ce_cons; [eapply (st_ins_time 100 _ _ 1 kb va _ _); reflexivity|].
      eapply ce_cons; [eapply (st_ins_load' 100 _ _ 1 kb va 0); reflexivity|].
      eapply ce_cons; [eapply (st_ins_store 100 _ _ 1 kb va 0); reflexivity|].
      eapply ce_cons; [eapply (st_scan_live 100 _ _ 2 (wire_key ka) [] [] (mkEntry 0 (kv ka va)) _); reflexivity|].
      eapply ce_cons; [eapply (st_scan_end 100 _ _ 2 _ _); reflexivity|]. constructor.
    + intros [|[|[|[|i']]]] H; cbn in H; try discriminate H. reflexivity.
Qed.

(** A delete and an insert of another key return, then the search begins. *)
Example C177_instance_deleted : let s0 := mkC 100 [(wire_key ka, mkEntry 0 (kv ka va))] [TDel ka; TIns kb va None; TScan] in
  begins 200 s0 /\ exists tr1 s1 tr2 s2, cexec s0 tr1 s1 /\ cexec s1 tr2 s2 /\ (c_now s2 <= 200)%Z /\
    nth_error (c_threads s1) 2 = Some TScan /\ nth_error (c_threads s2) 2 = Some (TScanDone [kv kb va]) /\
    nth_error (c_threads s1) 0 = Some (TDelDone ka) /\
    (forall i', may_have_changed (nth_error (c_threads s2) i') = Some ka -> i' = 0%nat).
Proof.
  destruct kva_ok as (A & B & C). split.
  - split; [repeat constructor; intros []|]. split; [repeat constructor; exists ka, va; split; [exact A|]; split; reflexivity|]. split.
    + intros b e H. cbn [c_map mload] in H. destruct (bytes_eqb (wire_key ka) b); [|discriminate H]. injection H as <-. left. reflexivity.
    + constructor; [split; apply A|]. constructor; [split; [exact C|intros now _; left; reflexivity]|]. constructor; [exact Logic.I|constructor].
  - exists [LNone; LNone; LNone; LInsert 1 kb va], (mkC 100 [(wire_key kb, mkEntry 0 (kv kb va))] [TDelDone ka; TInsDone kb va 0; TScan]),
      [LNone; LNone; LNone], (mkC 100 [(wire_key kb, mkEntry 0 (kv kb va))] [TDelDone ka; TInsDone kb va 0; TScanDone [kv kb va]]).
    split; [|split; [|split; [cbn; lia|split; [reflexivity|split; [reflexivity|split; [reflexivity|]]]]]].
    + eapply ce_cons; [eapply (st_del 100 _ _ 0 ka _); reflexivity|].
      eapply ce_cons; [eapply (st_ins_time 100 _ _ 1 kb va _ _); reflexivity|].
      eapply ce_cons; [eapply (st_ins_load' 100 _ _ 1 kb va 0); reflexivity|].
      eapply ce_cons; [eapply (st_ins_store 100 [] _ 1 kb va 0); reflexivity|]. constructor.
    + eapply ce_cons; [eapply (st_scan_start 100 _ _ 2 [wire_key kb] _); first [reflexivity|apply Permutation_refl]|].
      eapply ce_cons; [eapply (st_scan_live 100 _ _ 2 (wire_key kb) [] [] (mkEntry 0 (kv kb va)) _); reflexivity|].
      eapply ce_cons; [eapply (st_scan_end 100 _ _ 2 _ _); reflexivity|]. constructor.
    + intros [|[|[|[|i']]]] H; cbn in H; try discriminate H. reflexivity.
Qed.
