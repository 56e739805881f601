(** Facts about the k best elements of a collection. *)
From Verif.Base Require Import GoBase GoLemmas Float GoSort.
From Verif.Model Require Import Codec Store Search.
From Verif.Spec Require Import TopK.
Open Scope nat_scope.

Lemma swo_sub : forall A (less : A -> A -> bool) (P Q : A -> Prop),
  swo less P -> (forall x, Q x -> P x) -> swo less Q.
Proof.
  intros A less P Q [I T N] H. constructor; intros; eauto.
Qed.

Lemma swo_asym : forall A (less : A -> A -> bool) P x y,
  swo less P -> P x -> P y -> less x y = true -> less y x = false.
Proof.
  intros A less P x y O Px Py H. destruct (less y x) eqn:E; auto.
  pose proof (swo_trans _ _ O x y x Px Py Px H E) as T.
  rewrite (swo_irr _ _ O x Px) in T. discriminate.
Qed.

Section G.
Context {A : Type}.
Variable better : A -> A -> bool.
Implicit Types l input out : list A.

Lemma sorted_app_inv : forall l1 l2, sorted better (l1 ++ l2) ->
  sorted better l1 /\ sorted better l2 /\
  (forall x y, In x l1 -> In y l2 -> better y x = false).
Proof.
  induction l1 as [|a l1 IH]; cbn; intros l2 S.
  - split; [constructor|]. split; auto. intros x y [].
  - inversion S as [|? ? S' F]; subst. destruct (IH _ S') as (S1 & S2 & H).
    rewrite Forall_forall in F. split; [constructor; auto|].
    + apply Forall_forall. intros. apply F. apply in_or_app. auto.
    + split; auto. intros x y [<-|Hx] Hy; auto. apply F. apply in_or_app. auto.
Qed.

Lemma topk_perm : forall k input input' out,
  Permutation input input' -> topk better k input out -> topk better k input' out.
Proof.
  intros k i i' out P (rest & H1 & H2 & H3 & H4). exists rest.
  split; [rewrite <- P; auto|]. rewrite <- (Permutation_length P). auto.
Qed.

Lemma topk_nil : forall k, topk better k [] [].
Proof.
  intro k. exists []. split; [constructor|]. split; [cbn; lia|]. split; [constructor|].
  intros ? ? [].
Qed.

Lemma topk_short : forall k input out, topk better k input out -> length out < k ->
  Permutation input out.
Proof.
  intros k i out (rest & P & L & S & B) H.
  pose proof (Permutation_length P) as PL. rewrite app_length in PL.
  destruct rest; [rewrite app_nil_r in P; auto|]. cbn in PL. lia.
Qed.

Section S.
Variable G : go_sort.
Variable P : A -> Prop.
Hypothesis O : swo better P.

Lemma topk_append : forall k input out x,
  Forall P input -> P x -> topk better k input out -> length out < k ->
  topk better k (x :: input) (sort_run G better (out ++ [x])).
Proof.
  intros k input out x F Px T H.
  pose proof (topk_short _ _ _ T H) as E.
  exists []. rewrite app_nil_r.
  pose proof (sort_perm G _ better (out ++ [x])) as SP.
  split; [|split; [|split]].
  - rewrite <- SP, E. apply Permutation_cons_append.
  - rewrite <- (Permutation_length SP), app_length. pose proof (Permutation_length E).
    cbn. lia.
  - apply sort_sorted. apply (swo_sub _ _ P); auto. intros y Hy.
    apply in_app_or in Hy. destruct Hy as [Hy|[<-|[]]]; auto.
    rewrite Forall_forall in F. apply F. eapply Permutation_in; [symmetry; eauto|auto].
  - intros ? ? ? [].
Qed.

Lemma last_split : forall l (la : A), last_elem l = Ok la -> l = removelast l ++ [la].
Proof.
  intros l la H. unfold last_elem in H. destruct (rev l) as [|x r] eqn:E; [discriminate|].
  injection H as ->. apply (f_equal (@rev A)) in E. rewrite rev_involutive in E. cbn in E.
  rewrite E at 1. rewrite E, removelast_last. reflexivity.
Qed.

Lemma last_elem_ok : forall l, l <> [] -> exists la, last_elem l = Ok la.
Proof.
  intros l H. unfold last_elem. destruct (rev l) as [|x r] eqn:E; eauto.
  destruct H. apply (f_equal (@rev A)) in E. rewrite rev_involutive in E. exact E.
Qed.

Lemma topk_replace : forall k input out x la,
  Forall P input -> P x -> topk better k input out -> k <= length out -> 
  last_elem out = Ok la -> better x la = true ->
  topk better k (x :: input) (sort_run G better (set_last out x)).
Proof.
  intros k input out x la F Px (rest & E & L & S & B) H HL Hb.
  pose proof (last_split _ _ HL) as Eo. unfold set_last.
  set (o := removelast out) in *. clearbody o. subst out.
  pose proof (sort_perm G _ better (o ++ [x])) as SP.
  rewrite Forall_forall in F.
  assert (Pin : forall y, In y (o ++ [la]) \/ In y rest -> P y).
  { intros y Hy. apply F. eapply Permutation_in; [symmetry; exact E|].
    apply in_or_app. exact Hy. }
  destruct (sorted_app_inv _ _ S) as (So & _ & Sla).
  assert (Pla : P la) by (apply Pin; left; apply in_or_app; right; left; auto).
  assert (Po : forall y, In y o -> P y) by (intros; apply Pin; left; apply in_or_app; auto).
  exists (la :: rest). split; [|split; [|split]].
  - rewrite <- SP, E. rewrite <- !app_assoc. cbn.
    rewrite (Permutation_middle o (la :: rest) x). reflexivity.
  - rewrite <- (Permutation_length SP). rewrite app_length in *. cbn in *. lia.
  - apply sort_sorted. apply (swo_sub _ _ P); auto. intros y Hy.
    apply in_app_or in Hy. destruct Hy as [Hy|[<-|[]]]; auto.
  - intros a y Ha Hy. apply (Permutation_in _ (Permutation_sym SP)) in Ha.
    apply in_app_or in Ha. destruct Ha as [Ha|[<-|[]]].
    + destruct Hy as [<-|Hy]; [apply Sla; cbn; auto|].
      apply B; auto. apply in_or_app. auto.
    + destruct Hy as [<-|Hy]; [eapply swo_asym; eauto|].
      destruct (better y x) eqn:Eyx; auto.
      assert (better y la = true) by (eapply (swo_trans _ _ O y x la); eauto).
      rewrite B in *; auto; try discriminate. apply in_or_app. cbn. auto.
Qed.

Lemma topk_skip : forall k input out x la,
  Forall P input -> P x -> topk better k input out -> k <= length out ->
  last_elem out = Ok la -> better x la = false ->
  topk better k (x :: input) out.
Proof.
  intros k input out x la F Px (rest & E & L & S & B) H HL Hb.
  pose proof (last_split _ _ HL) as Eo.
  rewrite Forall_forall in F.
  assert (Pin : forall y, In y out \/ In y rest -> P y).
  { intros y Hy. apply F. eapply Permutation_in; [symmetry; exact E|].
    apply in_or_app. exact Hy. }
  exists (x :: rest). split; [|split; [|split]]; auto.
  - rewrite E. rewrite <- Permutation_middle. reflexivity.
  - cbn. lia.
  - intros a y Ha [<-|Hy]; [|auto].
    set (o := removelast out) in *. clearbody o. subst out.
    apply in_app_or in Ha as Ha'. destruct Ha' as [Ha'|[<-|[]]]; auto.
    destruct (sorted_app_inv _ _ S) as (_ & _ & Sla).
    apply (swo_neg _ _ O x la a); auto.
    + apply Pin. left. apply in_or_app. cbn. auto.
    + apply Sla; cbn; auto.
Qed.
End S.

(** From multisets with distinct keys to [distinct_topk]. *)
Lemma topk_distinct : forall K (key : A -> K) k input out,
  topk better k input out -> NoDup (map key input) -> distinct_topk better key k input out.
Proof.
  intros K key k input out (rest & E & L & S & B) N.
  assert (N' : NoDup (map key out ++ map key rest)).
  { rewrite <- map_app. eapply Permutation_NoDup; [|exact N]. apply Permutation_map. exact E. }
  split; [eapply NoDup_app_l; eauto|].
  split. { intros x Hx. eapply Permutation_in; [symmetry; exact E|]. apply in_or_app. auto. }
  split; auto. split; [lia|].
  intros x Hx. eapply Permutation_in in Hx; [|exact E]. apply in_app_or in Hx.
  destruct Hx as [Hx|Hx]; [left; apply in_map; auto|]. right.
  split; [|intros; eapply B; eauto].
  pose proof (Permutation_length E) as PL. rewrite app_length in PL.
  destruct rest; [destruct Hx|]. cbn in PL. lia.
Qed.

Lemma distinct_topk_ext : forall K (key : A -> K) k input input' out,
  (forall x, In x input <-> In x input') ->
  distinct_topk better key k input out -> distinct_topk better key k input' out.
Proof.
  intros K key k i i' out H (N & I & S & L & B). split; auto.
  split; [intros x Hx; apply H; auto|]. split; auto. split; auto.
  intros x Hx. apply B. apply H. auto.
Qed.

(** ** Composition *)
Section C.
Context {K : Type}.
Variable key : A -> K.
Hypothesis Kdec : forall a b : K, {a = b} + {a <> b}.
Variable P : A -> Prop.
Hypothesis O : swo better P.
(** Elements with the same key are equally good. *)
Variable same : A -> A -> Prop.
Hypothesis same_l : forall x y z, P x -> P y -> P z -> same x y -> better x z = better y z.
Hypothesis same_r : forall x y z, P x -> P y -> P z -> same x y -> better z x = better z y.

Lemma in_key : forall x l, In (key x) (map key l) -> exists y, In y l /\ key y = key x.
Proof. intros x l H. apply in_map_iff in H. destruct H as (y & E & I). eauto. Qed.

Lemma sorted_firstn : forall r l, sorted better l -> sorted better (firstn r l).
Proof.
  intros r l S. rewrite <- (firstn_skipn r l) in S.
  apply sorted_app_inv in S. tauto.
Qed.

(** A prefix of the k best are the r best. *)
Lemma distinct_topk_firstn : forall k r input out,
  Forall P input ->
  (forall x y, In x input -> In y input -> key x = key y -> same x y) ->
  distinct_topk better key k input out ->
  distinct_topk better key (Nat.min k r) input (firstn r out).
Proof.
  intros k r input out F Sm (N & I & S & L & B).
  assert (Hin : incl (firstn r out) out).
  { intros x Hx. rewrite <- (firstn_skipn r out). apply in_or_app. auto. }
  split.
  { rewrite <- (firstn_skipn r out), map_app in N. eapply NoDup_app_l; eauto. }
  split. { intros x Hx. auto. }
  split. { apply sorted_firstn. auto. }
  split. { rewrite firstn_length. lia. }
  intros x Hx. rewrite Forall_forall in F.
  destruct (B x Hx) as [Hk|[Hl Hb]].
  - destruct (in_key _ _ Hk) as (y & Hy & Ey).
    rewrite <- (firstn_skipn r out) in Hy. apply in_app_or in Hy.
    destruct Hy as [Hy|Hy]; [left; rewrite <- Ey; apply in_map; auto|].
    right. split.
    + rewrite firstn_length. pose proof (f_equal (@length A) (firstn_skipn r out)) as E.
      rewrite app_length, firstn_length, skipn_length in E.
      assert (length (skipn r out) <> 0) by (destruct (skipn r out); [destruct Hy|cbn; lia]).
      rewrite skipn_length in *. lia.
    + intros o Ho.
      assert (Iy : In y out) by (rewrite <- (firstn_skipn r out); apply in_or_app; auto).
      rewrite (same_l x y o); auto.
      rewrite <- (firstn_skipn r out) in S. apply sorted_app_inv in S.
      destruct S as (_ & _ & S). apply S; auto.
  - right. rewrite firstn_length. split; [lia|]. intros o Ho. auto.
Qed.

(** The best of the bests of the parts are the best of the whole. *)
Lemma distinct_topk_merge : forall k (parts : list (list A * list A)) out,
  Forall P (concat (map fst parts)) ->
  (forall x y, In x (concat (map fst parts)) -> In y (concat (map fst parts)) ->
     key x = key y -> same x y) ->
  Forall (fun p => exists kp, k <= kp /\ distinct_topk better key kp (fst p) (snd p)) parts ->
  distinct_topk better key k (concat (map snd parts)) out ->
  distinct_topk better key k (concat (map fst parts)) out.
Proof.
  intros k parts out F Sm D (N & I & S & L & B).
  rewrite Forall_forall in F, D.
  assert (HI : incl (concat (map snd parts)) (concat (map fst parts))).
  { intros x Hx. apply in_concat in Hx. destruct Hx as (l & Hl & Hx).
    apply in_map_iff in Hl. destruct Hl as (p & <- & Hp).
    apply in_concat. exists (fst p). split; [apply in_map; auto|].
    destruct (D p Hp) as (? & _ & _ & J & _). auto. }
  split; auto. split; [intros x Hx; auto|]. split; auto. split; auto.
  intros x Hx. pose proof Hx as Hx0. apply in_concat in Hx. destruct Hx as (l & Hl & Hx).
  apply in_map_iff in Hl. destruct Hl as (p & <- & Hp).
  destruct (D p Hp) as (kp & Hkp & Np & Ip & Sp & Lp & Bp).
  assert (Hsub : forall y, In y (snd p) -> In y (concat (map snd parts))).
  { intros y Hy. apply in_concat. exists (snd p). split; auto. apply in_map. auto. }
  destruct (Bp x Hx) as [Hk|[Hlp Hb]].
  - destruct (in_key _ _ Hk) as (y & Hy & Ey).
    destruct (B y (Hsub y Hy)) as [Hk'|[Hl' Hb']].
    + left. rewrite <- Ey. auto.
    + right. split; auto. intros o Ho. rewrite (same_l x y o); auto.
  - (* x lost against k others of its part *)
    destruct (Forall_Exists_dec (fun y => In (key y) (map key out))
                (fun y => in_dec Kdec (key y) (map key out)) (snd p)) as [All|Ex].
    + right.
      assert (HA : incl (map key (snd p)) (map key out)).
      { intros z Hz. apply in_map_iff in Hz. destruct Hz as (y & <- & Hy).
        rewrite Forall_forall in All. auto. }
      assert (Hlen : length (map key (snd p)) <= length (map key out))
        by (apply NoDup_incl_length; auto).
      rewrite !map_length in Hlen.
      split; [lia|]. intros o Ho.
      assert (Hrev : incl (map key out) (map key (snd p))).
      { apply NoDup_length_incl; auto. rewrite !map_length. lia. }
      destruct (in_key o (snd p)) as (y & Hy & Ey).
      { apply Hrev. apply in_map. auto. }
      rewrite (same_r o y x); auto.
    + apply Exists_exists in Ex. destruct Ex as (y & Hy & Ny).
      right. destruct (B y (Hsub y Hy)) as [C|[Hl' Hb']]; [contradiction|].
      split; auto. intros o Ho. apply (swo_neg _ _ O x y o); auto.
Qed.
End C.
End G.
