(** What merging really returns. *)
From Verif.Base Require Import GoBase GoLemmas Assoc Float GoSort.
From Verif.Model Require Import Codec Store Data Vector Search Sync Aggregator.
From Verif.Spec Require Import Wire StoreSpec TopK TreeSpec MergeSpec.
From Verif.Proof Require Import FloatP TopKP CodecTop StoreP StoreQ SearchP AggP.
From Coq Require Import Lia.
Open Scope nat_scope.

Lemma sorted_last : forall (A : Type) (less : A -> A -> bool) l x, sorted less (l ++ [x]) <->
  sorted less l /\ forall y, In y l -> less x y = false.
Proof.
  intros A less l x. split.
  - intro S. apply sorted_app_inv in S. destruct S as (S1 & _ & S3). split; auto. intros y Y. apply S3; auto. left; auto.
  - intros [S H]. unfold sorted in *. induction l as [|a l IH]; cbn; [constructor; constructor|].
    inversion S as [|? ? S1 S2]; subst. constructor; [apply IH; auto; intros; apply H; right; auto|].
    apply Forall_app. split; auto. constructor; auto. apply H. left; auto.
Qed.

(** Decomposing a sorted list of length k: the k-1 best and a greatest one. *)
Lemma split_greatest : forall R l, Permutation R l -> sorted (beats false) l -> R <> [] -> Forall good R ->
  exists kept w, l = kept ++ [w] /\ topk (beats false) (length R - 1) R kept /\ greatest R w.
Proof.
  intros R l P S NE F.
  destruct (exists_last (l := l)) as (kept & w & ->).
  { intros ->. apply Permutation_sym, Permutation_nil in P. contradiction. }
  exists kept, w. split; auto. apply sorted_last in S. destruct S as [S1 S2].
  pose proof (Permutation_length P) as L. rewrite app_length in L. cbn in L. split; [|split].
  - exists [w]. split; auto. split; [lia|]. split; auto. intros x y X [<-|[]]. apply S2; auto.
  - eapply Permutation_in; [symmetry; exact P|]. apply in_or_app. right. left. auto.
  - intros y Y. eapply Permutation_in in Y; [|exact P]. apply in_app_or in Y. destruct Y as [Y|[<-|[]]].
    + apply (S2 y Y).
    + apply SFltb_irr.
Qed.

(** The list of the aggregator, lower is better. *)
Definition lower_inv (k : nat) (R l : list ScoredDatum) : Prop :=
  if length R <=? k then Permutation R l /\ sorted (beats false) l
  else exists kept w rest, l = kept ++ [w] /\ sorted (beats false) l /\ Permutation R (l ++ rest) /\
    topk (beats false) (k - 1) (firstn k R) kept /\ greatest R w.

Lemma sort_good : forall G l, Forall good l -> sorted (beats false) (sort_run G (less_score false) l).
Proof.
  intros G l F. apply sort_sorted. apply (swo_sub _ _ good); [apply (beats_swo false)|].
  intros x X. rewrite Forall_forall in F. auto.
Qed.

Lemma topk_out : forall k R o o', topk (beats false) k R o -> Permutation o o' -> sorted (beats false) o' ->
  topk (beats false) k R o'.
Proof.
  intros k R o o' (rest & P & L & S & B) Q S'. exists rest. split; [rewrite P; apply Permutation_app_tail; auto|].
  split; [rewrite <- (Permutation_length Q); auto|]. split; auto. intros x y X. apply B.
  eapply Permutation_in; [symmetry; exact Q|auto].
Qed.

Lemma lower_form : forall k R l, 0 < k -> k <= length R -> Forall good R -> lower_inv k R l ->
  exists kept w rest, l = kept ++ [w] /\ sorted (beats false) l /\ Permutation R (l ++ rest) /\ topk (beats false) (k - 1) (firstn k R) kept /\ greatest R w.
Proof.
  intros k R l K L F I. unfold lower_inv in I. destruct (Nat.leb_spec (length R) k) as [C|C]; [|exact I].
  destruct I as [P S]. destruct (split_greatest R l P S) as (kept & w & E1 & E2 & E3); auto.
  { destruct R; [cbn in L; lia|discriminate]. }
  exists kept, w, []. split; auto. split; auto. split; [rewrite app_nil_r; auto|]. split; auto. rewrite firstn_all2 by lia. replace k with (length R) by lia. exact E2.
Qed.

Lemma lower_step : forall G P R l x, aHigher P = false -> (aLimit P < M32)%N -> (1 <= aLimit P)%N ->
  Forall good (R ++ [x]) -> lower_inv (N.to_nat (aLimit P)) R l ->
  exists l', InsertToList G P l x = Ok l' /\ lower_inv (N.to_nat (aLimit P)) (R ++ [x]) l'.
Proof.
  intros G P R l x Hh Hn H1 F I. set (k := N.to_nat (aLimit P)) in *.
  assert (K : 0 < k) by (unfold k; lia).
  apply Forall_app in F as F2. destruct F2 as [FR Fx]. inversion Fx as [|? ? Gx _]; subst.
  unfold InsertToList. rewrite Hh.
  destruct (Nat.ltb_spec (length R) k) as [Lt|Ge].
  - unfold lower_inv in I. replace (length R <=? k) with true in I by (symmetry; apply Nat.leb_le; lia).
    destruct I as [Pm S]. pose proof (Permutation_length Pm) as L.
    assert (E : u32 (blen l) = blen l) by (unfold u32; apply N.mod_small; unfold blen, M32 in *; unfold k in *; lia).
    rewrite E. replace (blen l <? aLimit P)%N with true by (symmetry; apply N.ltb_lt; unfold blen, k in *; lia).
    eexists. split; [reflexivity|]. set (l' := sort_run G (less_score false) (l ++ [x])).
    assert (P2 : Permutation (R ++ [x]) l').
    { unfold l'. rewrite <- (sort_perm G _ (less_score false)). apply Permutation_app_tail. auto. }
    assert (S2 : sorted (beats false) l').
    { apply sort_good. eapply Permutation_Forall; [|exact F]. apply Permutation_app_tail. auto. }
    unfold lower_inv. replace (length (R ++ [x]) <=? k) with true by (symmetry; apply Nat.leb_le; rewrite app_length; cbn; lia). auto.
  - destruct (lower_form k R l K Ge FR I) as (kept & w & rest & -> & S & PR & T & [W1 W2]).
    assert (LF : length (firstn k R) = k) by (rewrite firstn_length; lia).
    assert (Lk : length kept = k - 1) by (destruct T as (rest' & _ & L & _); lia).
    assert (E : u32 (blen (kept ++ [w])) = blen (kept ++ [w])).
    { unfold u32. apply N.mod_small. unfold blen. rewrite app_length. cbn. unfold M32, k in *. lia. }
    rewrite E. replace (blen (kept ++ [w]) <? aLimit P)%N with false
      by (symmetry; apply N.ltb_ge; unfold blen; rewrite app_length; cbn; unfold k in *; lia).
    unfold last_elem. rewrite rev_app_distr. cbn [rev app bind].
    assert (IL : length (R ++ [x]) <=? k = false) by (apply Nat.leb_gt; rewrite app_length; cbn; lia).
    assert (FN : firstn k (R ++ [x]) = firstn k R).
    { rewrite firstn_app. replace (k - length R) with 0 by lia. cbn. apply app_nil_r. }
    assert (Gw : good w) by (rewrite Forall_forall in FR; apply FR; auto).
    unfold IsNewScoredBetter, fltb. destruct (SFltb (sScore w) (sScore x)) eqn:B.
    + eexists. split; [reflexivity|]. unfold lower_inv. rewrite IL, FN.
      unfold set_last. rewrite removelast_last. set (l' := sort_run G (less_score false) (kept ++ [x])).
      assert (P2 : Permutation (kept ++ [x]) l') by apply sort_perm.
      apply sorted_last in S. destruct S as [S1 S2].
      assert (Gk : forall y, In y kept -> good y).
      { intros y Y. rewrite Forall_forall in FR. apply FR. destruct T as (rest' & PT & _).
        rewrite <- (firstn_skipn k R). apply in_or_app. left. eapply Permutation_in; [symmetry; exact PT|]. apply in_or_app. auto. }
      assert (S3 : sorted (beats false) l').
      { apply sort_good. apply Forall_app. split; [apply Forall_forall; auto|constructor; auto]. }
      assert (Big : forall y, In y kept -> SFltb (sScore y) (sScore x) = true).
      { intros y Y. destruct (SFltb (sScore y) (sScore x)) eqn:Q; auto.
        assert (Z : SFltb (sScore w) (sScore x) = false); [|congruence].
        apply (SFltb_neg _ (sScore y)); [apply Gw|apply Gk; auto|exact Gx|exact (S2 y Y)|exact Q]. }
      destruct (exists_last (l := l')) as (kept' & w' & El).
      { intro Z. rewrite Z in P2. apply Permutation_sym, Permutation_nil in P2. destruct kept; discriminate. }
      rewrite El in *. assert (w' = x).
      { assert (In_ : In w' (kept ++ [x])) by (eapply Permutation_in; [symmetry; exact P2|apply in_or_app; right; left; auto]).
        apply in_app_or in In_. destruct In_ as [In_|[<-|[]]]; auto.
        assert (Ix : In x (kept' ++ [w'])) by (eapply Permutation_in; [exact P2|apply in_or_app; right; left; auto]).
        apply in_app_or in Ix. destruct Ix as [Ix|[Q|[]]]; auto.
        apply sorted_last in S3. destruct S3 as [_ S3]. specialize (S3 x Ix). cbn in S3. rewrite Big in S3; [discriminate|auto]. }
      subst w'.
      assert (Q : Permutation kept kept') by (apply (Permutation_app_inv_r [x]); auto).
      exists kept', x, (w :: rest). split; auto. split; auto.
      split.
      { rewrite PR, Q, <- !app_assoc. apply Permutation_app_head. exact (Permutation_sym (Permutation_cons_append (w :: rest) x)). }
      split.
      * eapply topk_out; eauto. apply sorted_last in S3. apply S3.
      * split; [apply in_or_app; right; left; auto|]. intros y Y. apply in_app_or in Y. destruct Y as [Y|[<-|[]]].
        -- destruct (SFltb (sScore x) (sScore y)) eqn:Z; auto.
           rewrite <- (W2 y Y). symmetry. eapply SFltb_trans; eauto.
        -- apply SFltb_irr.
    + eexists. split; [reflexivity|]. unfold lower_inv. rewrite IL, FN. exists kept, w, (rest ++ [x]). split; auto. split; auto.
      split; [rewrite app_assoc; apply Permutation_app_tail; auto|]. split; auto.
      split; [apply in_or_app; auto|]. intros y Y. apply in_app_or in Y. destruct Y as [Y|[<-|[]]]; auto.
Qed.

(** The scores remembered: the greatest with which a key arrived. *)
Definition seen_max (seen : amap float) (xs : list ScoredDatum) : Prop :=
  forall k, key_ok k -> key_fits k ->
    match mload seen (wire_key k) with
    | Some sc => exists y, In y xs /\ skey y = Some k /\ sScore y = sc /\
        forall z, In z xs -> skey z = Some k -> SFltb sc (sScore z) = false
    | None => ~ In (Some k) (map skey xs)
    end.

Definition list_inv (P : aggParams) (R l : list ScoredDatum) : Prop :=
  if aHigher P then topk (beats true) (N.to_nat (aLimit P)) R l else lower_inv (N.to_nat (aLimit P)) R l.

Lemma list_inv_step : forall G P R l x, (aLimit P < M32)%N -> (1 <= aLimit P)%N ->
  Forall good (R ++ [x]) -> list_inv P R l ->
  exists l', InsertToList G P l x = Ok l' /\ list_inv P (R ++ [x]) l'.
Proof.
  intros G P R l x Hn H1 F I. unfold list_inv in *. destruct (aHigher P) eqn:Hh.
  - destruct (list_step G P l R x) as (l' & E & T); auto.
    + apply Forall_app in F. destruct F as [F1 F2]. inversion F2; subst. constructor; auto.
    + rewrite Hh. exact I.
    + exists l'. split; auto. rewrite Hh in T. eapply topk_perm; [|exact T]. apply Permutation_cons_append.
  - apply lower_step; auto.
Qed.

Lemma news_incl : forall xs R, news_of xs R -> incl R xs.
Proof.
  induction 1 as [|xs R x H IH N|xs R x H IH N]; intros y Y; [destruct Y| |].
  - apply in_app_or in Y. apply in_or_app. destruct Y; auto.
  - apply in_or_app. auto.
Qed.

Lemma merge_step : forall G P xs R s x, plain P -> (aLimit P < M32)%N -> (1 <= aLimit P)%N ->
  no_nan (xs ++ [x]) -> keyed x -> news_of xs R -> seen_max (agSeen s) xs -> list_inv P R (agList s) ->
  exists s' R', AggInsert G P s x = Ok s' /\ news_of (xs ++ [x]) R' /\ seen_max (agSeen s') (xs ++ [x]) /\ list_inv P R' (agList s').
Proof.
  intros G P xs R s x Pl Hn H1 NN (k & Ek & K1 & K2) NR SM LI.
  assert (GR : Forall good (R ++ [x])).
  { unfold no_nan in NN. rewrite Forall_forall in *. intros y Y. apply NN. apply in_app_or in Y. apply in_or_app.
    destruct Y as [Y|Y]; auto. left. eapply news_incl; eauto. }
  assert (GX : forall y, In y (xs ++ [x]) -> good y) by (unfold no_nan in NN; rewrite Forall_forall in NN; exact NN).
  unfold AggInsert. rewrite BestScore_plain by auto. cbn [bind].
  assert (Ex : mkScored (sScore x) (sDatum x) = x) by (destruct x; reflexivity).
  rewrite Ex. rewrite (keyed_bytes x k) by auto. cbn [bind]. unfold EncodeToString.
  destruct (list_inv_step G P R (agList s) x Hn H1 GR LI) as (l' & El & LI').
  assert (Store : news xs x -> seen_max (mstore (agSeen s) (wire_key k) (sScore x)) (xs ++ [x])).
  { intros Nw k' O' F'. destruct (DatumKey_eq_dec k k') as [<-|Q].
    - rewrite mload_mstore_same. exists x. split; [apply in_or_app; right; left; auto|]. split; auto. split; auto.
      intros z Z Kz. apply in_app_or in Z. destruct Z as [Z|[<-|[]]]; [|apply SFltb_irr].
      assert (L : SFltb (sScore z) (sScore x) = true) by (apply Nw; congruence).
      destruct (SFltb (sScore x) (sScore z)) eqn:B; auto. rewrite <- (SFltb_irr (sScore x)). symmetry. eapply SFltb_trans; eauto.
    - rewrite mload_mstore_other by (intro C; apply Q; apply wire_key_inj; auto).
      specialize (SM k' O' F'). destruct (mload (agSeen s) (wire_key k')) as [sc|].
      + destruct SM as (y & Y1 & Y2 & Y3 & Y4). exists y. split; [apply in_or_app; auto|]. split; auto. split; auto.
        intros z Z Kz. apply in_app_or in Z. destruct Z as [Z|[<-|[]]]; auto. congruence.
      + rewrite map_app. cbn. intro C. apply in_app_or in C. destruct C as [C|[C|[]]]; [contradiction|congruence]. }
  pose proof (SM k K1 K2) as Sk. destruct (mload (agSeen s) (wire_key k)) as [sc|] eqn:L.
  - destruct Sk as (y & Y1 & Y2 & Y3 & Y4).
    assert (B : IsNewScoredBetter (aHigher P) sc (sScore x) = SFltb sc (sScore x)).
    { unfold IsNewScoredBetter, fgtb, fltb. destruct (aHigher P); reflexivity. }
    rewrite B. destruct (SFltb sc (sScore x)) eqn:C.
    + rewrite El. cbn [bind]. eexists. exists (R ++ [x]). split; [reflexivity|]. cbn [agList agSeen].
      assert (Nw : news xs x).
      { intros z Z Kz. rewrite Ek in Kz. specialize (Y4 z Z Kz). destruct (SFltb (sScore z) (sScore x)) eqn:D; auto.
        rewrite <- C. symmetry. apply (SFltb_neg _ (sScore z)); auto; [| |apply (GX x); apply in_or_app; right; left; auto].
        - rewrite <- Y3. apply (GX y). apply in_or_app; auto.
        - apply (GX z). apply in_or_app; auto. }
      split; [apply news_take; auto|]. split; auto.
    + exists s, R. split; auto. split; [apply news_skip; auto|split; auto].
      * intro Nw. specialize (Nw y Y1). rewrite Y3, C in Nw. assert (false = true) by (apply Nw; congruence). discriminate.
      * intros k' O' F'. specialize (SM k' O' F'). destruct (DatumKey_eq_dec k k') as [<-|Q].
        -- rewrite L in *. exists y. split; [apply in_or_app; auto|]. split; auto. split; auto.
           intros z Z Kz. apply in_app_or in Z. destruct Z as [Z|[<-|[]]]; auto.
        -- destruct (mload (agSeen s) (wire_key k')) as [sc'|].
           ++ destruct SM as (y' & A1 & A2 & A3 & A4). exists y'. split; [apply in_or_app; auto|]. split; auto. split; auto.
              intros z Z Kz. apply in_app_or in Z. destruct Z as [Z|[<-|[]]]; auto. congruence.
           ++ rewrite map_app. cbn. intro D. apply in_app_or in D. destruct D as [D|[D|[]]]; [contradiction|congruence].
  - rewrite El. cbn [bind]. eexists. exists (R ++ [x]). split; [reflexivity|]. cbn [agList agSeen].
    assert (Nw : news xs x).
    { intros z Z Kz. exfalso. apply Sk. apply in_map_iff. exists z. split; auto. congruence. }
    split; [apply news_take; auto|]. split; auto.
Qed.

Lemma merge_all : forall G P, plain P -> (aLimit P < M32)%N -> (1 <= aLimit P)%N ->
  forall ys xs R s, no_nan (xs ++ ys) -> Forall keyed ys -> news_of xs R -> seen_max (agSeen s) xs -> list_inv P R (agList s) ->
  exists s' R', AggInsertAll G P s ys = Ok s' /\ news_of (xs ++ ys) R' /\ list_inv P R' (agList s').
Proof.
  intros G P Pl Hn H1. induction ys as [|y ys IH]; intros xs R s NN KY NR SM LI.
  - rewrite app_nil_r. exists s, R. auto.
  - inversion KY; subst. replace (xs ++ y :: ys) with ((xs ++ [y]) ++ ys) in * by (rewrite <- app_assoc; reflexivity).
    destruct (merge_step G P xs R s y) as (s1 & R1 & E & N1 & S1 & L1); auto.
    { apply no_nan_app in NN. tauto. }
    cbn [AggInsertAll]. rewrite E. cbn [bind]. eapply IH; eauto.
Qed.

Lemma merge_exact : forall G P xs, plain P -> (aLimit P < M32)%N -> (1 <= aLimit P)%N ->
  no_nan xs -> Forall keyed xs ->
  exists s R, AggInsertAll G P agg_empty xs = Ok s /\ news_of xs R /\ list_inv P R (agList s).
Proof.
  intros G P xs Pl Hn H1 NN KY. apply (merge_all G P Pl Hn H1 xs [] [] agg_empty); auto.
  - constructor.
  - intros k _ _. cbn. auto.
  - unfold list_inv. destruct (aHigher P); [apply topk_nil|]. split; constructor.
Qed.

Lemma lower_inv_answer : forall k R l, lower_inv k R l -> lower_answer k R l.
Proof.
  intros k R l I. unfold lower_inv, lower_answer in *. destruct (Nat.leb_spec (length R) k) as [L|L].
  - destruct I as [P S].
    exists []. rewrite app_nil_r. split; auto. split; [rewrite <- (Permutation_length P); lia|]. split; auto. intros ? ? ? [].
  - destruct I as (kept & w & rest & -> & S & PR & T & W). exists kept, w, rest. auto.
Qed.

(** ** Duplicates *)
Lemma news_dec : forall xs x, news xs x \/ exists y, In y xs /\ skey y = skey x /\ SFltb (sScore y) (sScore x) = false.
Proof.
  induction xs as [|y xs IH]; intro x; [left; intros ? []|].
  destruct (IH x) as [H|(z & Z1 & Z2 & Z3)]; [|right; exists z; cbn; auto].
  destruct (skey_dec (skey y) (skey x)) as [E|E]; [|left; intros z [<-|Z] K; [contradiction|auto]].
  destruct (SFltb (sScore y) (sScore x)) eqn:B; [left; intros z [<-|Z] K; auto|right; exists y; cbn; auto].
Qed.

Lemma never_snoc : forall xs x, never_greater (xs ++ [x]) <->
  never_greater xs /\ (In (skey x) (map skey xs) -> exists y, In y xs /\ skey y = skey x /\ SFltb (sScore y) (sScore x) = false).
Proof.
  intros xs x. split.
  - intro H. split.
    + intros pre y post E K. apply (H pre y (post ++ [x])); auto. rewrite E, <- app_assoc. reflexivity.
    + intro K. apply (H xs x []); auto.
  - intros [H1 H2] pre y post E K.
    destruct (exists_last (l := y :: post)) as (post' & z & Ez); [discriminate|].
    rewrite Ez, app_assoc in E. apply app_inj_tail in E. destruct E as [E <-].
    destruct post' as [|p post']; cbn in Ez.
    + injection Ez as -> ->. rewrite app_nil_r in E. subst. auto.
    + injection Ez as -> Ez. apply (H1 pre p post'); auto.
Qed.

Lemma news_keys : forall xs R, news_of xs R -> forall x, In x xs -> In (skey x) (map skey R).
Proof.
  induction 1 as [|xs R x H IH N|xs R x H IH N]; intros y Y; [destruct Y| |].
  - rewrite map_app. apply in_or_app. apply in_app_or in Y. destruct Y as [Y|[<-|[]]]; [left; auto|right; left; auto].
  - apply in_app_or in Y. destruct Y as [Y|[<-|[]]]; auto.
    destruct (news_dec xs x) as [Q|(z & Z1 & Z2 & _)]; [contradiction|]. rewrite <- Z2. auto.
Qed.

Lemma news_never : forall xs R, news_of xs R -> (NoDup (map skey R) <-> never_greater xs).
Proof.
  induction 1 as [|xs R x H IH N|xs R x H IH N].
  - split; [|constructor]. intros _ [|? ?] x post E; discriminate.
  - rewrite never_snoc, <- IH, map_app. cbn. split.
    + intro Q. split; [eapply NoDup_app_l; eauto|]. intro K. exfalso. apply NoDup_remove_2 in Q. rewrite app_nil_r in Q.
      apply in_map_iff in K. destruct K as (y & E & Y). apply Q. rewrite <- E. eapply news_keys; eauto.
    + intros [Q1 Q2]. apply (Permutation_NoDup (Permutation_cons_append _ _)). constructor; auto.
      intro K. destruct Q2 as (y & Y1 & Y2 & Y3).
      * apply in_map_iff in K. destruct K as (y & E & Y). apply in_map_iff. exists y. split; auto. eapply news_incl; eauto.
      * rewrite (N y Y1 Y2) in Y3. discriminate.
  - rewrite never_snoc, <- IH. split; [|tauto]. intro Q. split; auto. intros _.
    destruct (news_dec xs x) as [C|C]; [contradiction|exact C].
Qed.

Lemma news_unique : forall xs R, news_of xs R -> forall R', news_of xs R' -> R = R'.
Proof.
  assert (Nil : forall (l : list ScoredDatum) x, l ++ [x] <> []) by (intros [|? ?] ? Q; discriminate).
  intros xs R H. induction H as [|xs R x H IH N|xs R x H IH N]; intros R' Q.
  - inversion Q as [Q1 Q2|ys S y A B E|ys S y A B E]; auto; destruct (Nil _ _ E).
  - inversion Q as [Q1 Q2|ys S y A B E|ys S y A B E].
    + destruct (Nil _ _ (eq_sym Q1)).
    + apply app_inj_tail in E. destruct E as [-> ->]. f_equal. auto.
    + apply app_inj_tail in E. destruct E as [-> ->]. contradiction.
  - inversion Q as [Q1 Q2|ys S y A B E|ys S y A B E].
    + destruct (Nil _ _ (eq_sym Q1)).
    + apply app_inj_tail in E. destruct E as [-> ->]. contradiction.
    + apply app_inj_tail in E. destruct E as [-> ->]. auto.
Qed.

(** ** Contexts *)
Lemma best_loop_greatest : forall P fe ctx cur sc, Forall (fun d => dkey d <> None) ctx ->
  (forall d, In d ctx -> is_nan (aScore P fe (features d)) = false) -> (forall c, cur = Some c -> is_nan c = false) ->
  best_loop P fe ctx cur = Ok sc ->
  match sc with
  | Some c => In c ((match cur with Some c => [c] | None => [] end) ++ map (fun d => aScore P fe (features d)) ctx) /\
      forall o, In o ((match cur with Some c => [c] | None => [] end) ++ map (fun d => aScore P fe (features d)) ctx) -> SFltb c o = false
  | None => cur = None /\ ctx = []
  end.
Proof.
  intros P fe. induction ctx as [|d ctx IH]; intros cur sc K NN NC E; cbn [best_loop] in E.
  - injection E as <-. destruct cur as [c|]; auto. cbn. split; auto. intros o [<-|[]]. apply SFltb_irr.
  - inversion K as [|? ? Kd K2]; subst.
    assert (FE : featureOf (Some d) = Ok (features d)).
    { unfold featureOf, features. destruct d as [[k|] v]; cbn in *; [reflexivity|congruence]. }
    rewrite FE in E. cbn [bind] in E. set (n := aScore P fe (features d)) in *.
    assert (Nn : is_nan n = false) by (apply NN; left; auto).
    apply IH in E; auto; [|intros; apply NN; right; auto|].
    2: { intros c Q. destruct cur as [c0|]; [|injection Q as <-; auto].
         destruct (IsNewScoredBetter (aHigher P) c0 n); injection Q as <-; auto. }
    destruct sc as [c|].
    + destruct cur as [c0|].
      * assert (N0 : is_nan c0 = false) by (apply NC; auto).
        assert (B : IsNewScoredBetter (aHigher P) c0 n = SFltb c0 n) by (unfold IsNewScoredBetter, fgtb, fltb; destruct (aHigher P); reflexivity).
        rewrite B in E. destruct E as [E1 E2]. destruct (SFltb c0 n) eqn:L; cbn [app map] in *.
        -- split; [cbn in E1; cbn; tauto|]. intros o [<-|[<-|O]]; [|apply E2; left; auto|apply E2; right; auto].
           destruct (SFltb c c0) eqn:Q; auto. assert (Z : SFltb c n = true) by (eapply SFltb_trans; eauto).
           rewrite E2 in Z; [discriminate|left; auto].
        -- split; [cbn in E1; cbn; tauto|]. intros o [<-|[<-|O]]; [apply E2; left; auto| |apply E2; right; auto].
           assert (Nc : is_nan c = false).
           { destruct E1 as [<-|E1]; auto. apply in_map_iff in E1. destruct E1 as (d' & <- & D'). apply NN. right; auto. }
           apply (SFltb_neg _ c0); auto; apply E2; left; auto.
      * exact E.
    + destruct E as [E _]. destruct cur; [destruct (IsNewScoredBetter _ _ _)|]; discriminate.
Qed.

Definition no_context (P : aggParams) : aggParams :=
  mkAgg (aHigher P) (aLimit P) (aGroupLimit P) (aResultLimit P) None (aScore P).

Lemma best_loop_runs : forall P fe ctx cur, Forall (fun d => dkey d <> None) ctx -> exists sc, best_loop P fe ctx cur = Ok sc.
Proof.
  intros P fe. induction ctx as [|d ctx IH]; intros cur K; cbn [best_loop]; [eauto|]. inversion K as [|? ? Kd K2]; subst.
  assert (FE : featureOf (Some d) = Ok (features d)).
  { unfold featureOf, features. destruct d as [[k|] v]; cbn in *; [reflexivity|congruence]. }
  rewrite FE. cbn [bind]. apply IH; auto.
Qed.

Lemma best_offered : forall P x, keyed x -> match aContext P with Some c => Forall (fun d => dkey d <> None) (ctxDatum c) | None => True end ->
  (forall o, In o (offered P x) -> is_nan o = false) ->
  exists sc, BestScore P x = Ok sc /\ In sc (offered P x) /\ forall o, In o (offered P x) -> SFltb sc o = false.
Proof.
  intros P x (k & Ek & _) KC NN. unfold BestScore, offered in *. destruct (aContext P) as [[[|d ctx] pr]|]; cbn [ctxDatum ctxPrioritize] in *.
  - exists (sScore x). split; auto. split; [left; auto|]. intros o [<-|[]]. apply SFltb_irr.
  - assert (FE : featureOf (Some (sDatum x)) = Ok (vector (sDatum x))).
    { unfold featureOf, vector, skey in *. destruct (sDatum x) as [[k'|] v]; cbn in *; [reflexivity|discriminate]. }
    rewrite FE. cbn [bind]. set (cur := if pr then None else Some (sScore x)).
    destruct (best_loop_runs P (vector (sDatum x)) (d :: ctx) cur KC) as [sc E]. rewrite E.
    apply best_loop_greatest in E; auto.
    + assert (EQ : match cur with Some c => [c] | None => [] end = if pr then [] else [sScore x]) by (destruct pr; reflexivity).
      rewrite EQ in E. destruct sc as [c|]; [|destruct E; discriminate]. cbn [bind]. exists c. split; auto.
    + intros d' D'. apply NN. apply in_or_app. right. apply in_map_iff. exists d'. auto.
    + intros c Q. destruct pr; [discriminate|]. injection Q as <-. apply NN. left. auto.
  - exists (sScore x). split; auto. split; [left; auto|]. intros o [<-|[]]. apply SFltb_irr.
Qed.

Lemma list_no_context : forall G P l x, InsertToList G (no_context P) l x = InsertToList G P l x.
Proof. reflexivity. Qed.

Lemma insert_rescored : forall G P s x y, sDatum y = sDatum x -> BestScore P x = Ok (sScore y) ->
  AggInsert G P s x = AggInsert G (no_context P) s y.
Proof.
  intros G P s x y D B. unfold AggInsert. rewrite B. cbn [BestScore no_context aContext bind sDatum sScore]. rewrite D. reflexivity.
Qed.

Lemma merge_rescored : forall G P xs s, Forall keyed xs ->
  match aContext P with Some c => Forall (fun d => dkey d <> None) (ctxDatum c) | None => True end ->
  (forall x o, In x xs -> In o (offered P x) -> is_nan o = false) ->
  exists ys, rescored P xs ys /\ AggInsertAll G P s xs = AggInsertAll G (no_context P) s ys.
Proof.
  intros G P xs s KY KC NN. revert s.
  assert (W : exists ys, rescored P xs ys /\ Forall2 (fun x y => sDatum y = sDatum x /\ BestScore P x = Ok (sScore y)) xs ys).
  { induction xs as [|x xs IH]; [exists []; split; constructor|]. inversion KY; subst.
    destruct IH as (ys & A & B); auto. { intros; eapply NN; [right|]; eauto. }
    destruct (best_offered P x) as (sc & C1 & C2 & C3); auto. { intros; eapply NN; [left|]; eauto. }
    exists (mkScored sc (sDatum x) :: ys). split; constructor; cbn; auto. }
  destruct W as (ys & A & B). intro s. exists ys. split; auto. clear - B. revert s.
  induction B as [|x y xs ys [D E] B IH]; intro s; [reflexivity|]. cbn [AggInsertAll]. rewrite (insert_rescored G P s x y D E).
  destruct (AggInsert G (no_context P) s y); cbn [bind]; auto.
Qed.

Lemma rescored_keyed : forall P xs ys, rescored P xs ys -> Forall keyed xs -> Forall keyed ys.
Proof.
  intros P xs ys H. induction H as [|x y xs ys (D & _) H IH]; intro K; [constructor|]. inversion K as [|? ? (k & A & B) K2]; subst.
  constructor; auto. exists k. unfold skey in *. rewrite D. auto.
Qed.
Lemma rescored_nan : forall P xs ys, rescored P xs ys -> (forall x o, In x xs -> In o (offered P x) -> is_nan o = false) -> no_nan ys.
Proof.
  intros P xs ys H. induction H as [|x y xs ys (D & I & _) H IH]; intro K; [constructor|].
  constructor; [apply (K x); [left|]; auto|]. apply IH. intros; eapply K; [right|]; eauto.
Qed.
