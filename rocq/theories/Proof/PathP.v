(** Proofs about the folders of the datasets. *)
From Verif.Base Require Import GoBase GoLemmas Assoc.
From Verif.Model Require Import Path.
From Coq Require Import Lia.
Open Scope N_scope.

(** A name that is one ordinary component. *)
Definition plain (c : bytes) : Prop := c <> [] /\ c <> dot /\ c <> dotdot /\ ~ In slash c.

Lemma split_ne : forall p, split_slash p <> [].
Proof. destruct p as [|b p]; cbn; [discriminate|]. destruct (split_slash p); destruct (b =? slash); discriminate. Qed.

Lemma split_noslash : forall c, ~ In slash c -> split_slash c = [c].
Proof.
  induction c as [|b c IH]; intro N; cbn; auto. rewrite IH by (intro; apply N; cbn; auto).
  destruct (b =? slash) eqn:E; auto. exfalso. apply N. left. lia.
Qed.

Lemma split_app : forall c p, ~ In slash c -> split_slash (c ++ slash :: p) = c :: split_slash p.
Proof.
  induction c as [|b c IH]; intros p N.
  - cbn. destruct (split_slash p) eqn:E; [destruct (split_ne p E)|]. reflexivity.
  - cbn. rewrite IH by (intro; apply N; cbn; auto).
    destruct (b =? slash) eqn:E; auto. exfalso. apply N. left. lia.
Qed.

Lemma split_join : forall cs p, Forall (fun c => ~ In slash c) cs -> cs <> [] ->
  split_slash (join_slash cs ++ slash :: p) = cs ++ split_slash p.
Proof.
  induction cs as [|c cs IH]; intros p F N; [congruence|]. inversion F; subst.
  destruct cs as [|d cs]; cbn [join_slash].
  - apply split_app; auto.
  - rewrite <- app_assoc. cbn [app]. rewrite split_app by auto. rewrite IH by (auto; discriminate). reflexivity.
Qed.

(** Stacks that Clean produces. *)
Inductive canon (rooted : bool) : list bytes -> Prop :=
| can_nil : canon rooted []
| can_plain : forall c st, plain c -> canon rooted st -> canon rooted (c :: st)
| can_up : forall st, rooted = false -> Forall (eq dotdot) st -> canon rooted (dotdot :: st).

Lemma ups_canon : forall st, Forall (eq dotdot) st -> canon false st.
Proof. induction 1; [constructor|subst; apply can_up; auto]. Qed.

Lemma canon_noslash : forall r st, canon r st -> Forall (fun c => ~ In slash c) st.
Proof.
  induction 1; constructor; auto; [apply H|intros [E|[E|[]]]; discriminate|].
  eapply Forall_impl; [|exact H0]. intros a <- [E|[E|[]]]; discriminate.
Qed.

Lemma eqb_false : forall a b : bytes, a <> b -> bytes_eqb a b = false.
Proof. intros. apply bytes_eqb_neq. auto. Qed.

Lemma clean_plain : forall r st c cs, plain c -> clean_comps r st (c :: cs) = clean_comps r (c :: st) cs.
Proof.
  intros r st c cs (A & B & C & _). cbn [clean_comps].
  rewrite (eqb_false c []), (eqb_false c dot), (eqb_false c dotdot); auto.
Qed.

Lemma plain_dec : forall c, ~ In slash c -> plain c \/ c = [] \/ c = dot \/ c = dotdot.
Proof.
  intros c N. assert (D : forall a b : bytes, {a = b} + {a <> b}) by apply list_eq_dec, N.eq_dec.
  destruct (D c []); auto. destruct (D c dot); auto. destruct (D c dotdot); auto. left. repeat split; auto.
Qed.

Lemma clean_canon : forall r cs st, Forall (fun c => ~ In slash c) cs -> canon r st -> canon r (clean_comps r st cs).
Proof.
  intros r. induction cs as [|c cs IH]; intros st F C; auto. inversion F as [|? ? N F']; subst.
  destruct (plain_dec c N) as [P|[-> |[-> | ->]]].
  - rewrite clean_plain by auto. apply IH; auto. constructor; auto.
  - cbn. auto.
  - cbn. auto.
  - change (clean_comps r st (dotdot :: cs)) with
      (match st with
        | [] => clean_comps r (if r then [] else [dotdot]) cs
        | t :: st' => if bytes_eqb t dotdot then clean_comps r (dotdot :: st) cs else clean_comps r st' cs
        end).
    destruct C as [|t st P C|st E C].
    + apply IH; auto. destruct r; [constructor|]. apply can_up; auto.
    + rewrite eqb_false by apply P. auto.
    + change (bytes_eqb dotdot dotdot) with true. cbn iota. apply IH; auto. apply can_up; auto.
Qed.

(** Cleaning what was rendered gives it back. *)
Lemma clean_again : forall r st, canon r st -> forall cs, clean_comps r [] (rev st ++ cs) = clean_comps r st cs.
Proof.
  induction 1 as [|c st P C IH|st E C]; intro cs; auto.
  - cbn [rev]. rewrite <- app_assoc. cbn [app]. rewrite IH. apply clean_plain; auto.
  - subst r. revert cs. assert (G : forall st, Forall (eq dotdot) st -> forall cs,
      clean_comps false [] (rev st ++ cs) = clean_comps false st cs).
    { clear. induction 1 as [|x st <- F IH]; intro cs; auto. cbn [rev]. rewrite <- app_assoc. cbn [app]. rewrite IH.
      destruct F as [|y st <- F]; reflexivity. }
    apply (G (dotdot :: st)). constructor; auto.
Qed.

Lemma split_forall : forall p, Forall (fun c => ~ In slash c) (split_slash p).
Proof.
  induction p as [|b p IH]; cbn.
  - constructor; auto.
  - destruct (split_slash p) as [|c cs] eqn:E; [destruct (split_ne p E)|]. inversion IH; subst.
    destruct (b =? slash) eqn:B; constructor; auto. intros [Q|Q]; [subst; rewrite N.eqb_refl in B; discriminate|auto].
Qed.

Lemma data_plain : plain (bs "data").
Proof. repeat split; try discriminate. cbn. intros [E|[E|[E|[E|[]]]]]; discriminate. Qed.

(** The data folder: its last component is "data". *)
Lemma data_path : forall root, exists r st, canon r st /\ DataPath root = render r (bs "data" :: st).
Proof.
  intro root. unfold DataPath, Join. destruct root as [|b root].
  - exists false, []. split; [constructor|]. reflexivity.
  - change (bs "data") with [100; 97; 116; 97] at 1. cbn iota. set (p := b :: root).
    unfold Clean. set (q := p ++ slash :: [100; 97; 116; 97]).
    exists (is_rooted q), (clean_comps (is_rooted q) [] (split_slash p)). split.
    + apply clean_canon; [apply split_forall|constructor].
    + f_equal. unfold q. change [100; 97; 116; 97] with (bs "data").
      assert (G : forall p r st, clean_comps r st (split_slash (p ++ slash :: bs "data")) =
                 bs "data" :: clean_comps r st (split_slash p)).
      { clear. intros p r.
        assert (S : split_slash (p ++ slash :: bs "data") = split_slash p ++ [bs "data"]).
        { induction p as [|b p IH].
          - reflexivity.
          - cbn [app]. cbn [split_slash]. rewrite IH. destruct (split_slash p) eqn:E; [destruct (split_ne p E)|].
            cbn [app]. destruct (b =? slash); reflexivity. }
        rewrite S. generalize (split_slash p) as cs. induction cs as [|c cs IH]; intro st.
        - cbn [app]. rewrite clean_plain by apply data_plain. reflexivity.
        - cbn [app clean_comps]. destruct (bytes_eqb c [] || bytes_eqb c dot); auto.
          destruct (bytes_eqb c dotdot); auto. destruct st as [|t st]; auto. destruct (bytes_eqb t dotdot); auto. }
      apply G.
Qed.

Lemma join_app : forall cs c, cs <> [] -> join_slash (cs ++ [c]) = join_slash cs ++ slash :: c.
Proof.
  induction cs as [|d cs IH]; intros c N; [congruence|]. destruct cs as [|e cs]; [reflexivity|].
  cbn [app join_slash]. rewrite <- app_assoc. cbn [app]. do 2 f_equal. apply (IH c). discriminate.
Qed.

Theorem folder_of_plain : forall root name, plain name ->
  DBPath root name = DataPath root ++ slash :: name.
Proof.
  intros root name P. unfold DBPath. destruct (data_path root) as (r & st & C & E). rewrite E.
  assert (C2 : canon r (bs "data" :: st)) by (constructor; auto using data_plain).
  remember (bs "data" :: st) as st2 eqn:Q. assert (Ne : st2 <> []) by (subst; discriminate). clear Q E C st.
  assert (Nr : render r st2 <> []).
  { unfold render. destruct r; [discriminate|]. destruct st2 as [|c s]; [congruence|]. cbn [rev].
    destruct (rev s) as [|d t] eqn:R.
    - cbn. inversion C2; subst; [apply H1|discriminate].
    - cbn. destruct (t ++ [c]) eqn:X; [destruct t; discriminate|]. destruct d; discriminate. }
  assert (Rt : is_rooted (render r st2) = r).
  { unfold render. destruct r; [reflexivity|]. destruct st2 as [|c s]; [congruence|].
    pose proof (canon_noslash _ _ C2) as F. apply Forall_rev in F.
    destruct (rev (c :: s)) as [|d t] eqn:R; [reflexivity|].
    assert (Cd : d <> []).
    { assert (In d (c :: s)) by (apply in_rev; rewrite R; cbn; auto). clear - C2 H.
      induction C2 as [|x l P C IH|l E G]; [destruct H| |].
      - destruct H as [<-|H]; [apply P|auto].
      - destruct H as [<-|H]; [discriminate|]. eapply Forall_forall in G; eauto. subst; discriminate. }
    unfold bytes in R, F. rewrite R in F. inversion F as [|? ? F1 F2]; subst. destruct d as [|b d]; [congruence|].
    cbn [join_slash]. destruct t; cbn; (destruct (b =? slash) eqn:B; auto; exfalso; apply F1; left; lia). }
  assert (Sp : split_slash (render r st2 ++ slash :: name) = (if r then [[]] else []) ++ rev st2 ++ [name]).
  { pose proof (canon_noslash _ _ C2) as F. apply Forall_rev in F.
    assert (Rn : rev st2 <> []). { intro X. apply (f_equal (@rev _)) in X. rewrite rev_involutive in X. auto. }
    unfold render. destruct r.
    - change ((slash :: join_slash (rev st2)) ++ slash :: name) with ([] ++ slash :: (join_slash (rev st2) ++ slash :: name)).
      rewrite split_app by (intros []). rewrite split_join, split_noslash by (auto; apply P). reflexivity.
    - destruct st2; [congruence|]. rewrite split_join, split_noslash by (auto; apply P). reflexivity. }
  unfold Join. destruct (render r st2) as [|b0 R0] eqn:Er; [congruence|]. assert (Jn : match name with [] => Clean (b0 :: R0) | _ => Clean ((b0 :: R0) ++ slash :: name) end
               = Clean ((b0 :: R0) ++ slash :: name)).
  { destruct name; auto. destruct P; congruence. }
  rewrite Jn. clear Jn. unfold Clean. rewrite Sp.
  replace (is_rooted ((b0 :: R0) ++ slash :: name)) with r by (rewrite <- Rt; reflexivity).
  assert (Cl : clean_comps r [] ((if r then [[]] else []) ++ rev st2 ++ [name]) = name :: st2).
  { transitivity (clean_comps r [] (rev st2 ++ [name])); [destruct r; reflexivity|].
    rewrite clean_again by auto. rewrite clean_plain by auto. reflexivity. }
  rewrite Cl. rewrite <- Er. unfold render. destruct r; cbn [rev].
  - cbn [app]. f_equal. apply join_app. intro X. apply (f_equal (@rev _)) in X. rewrite rev_involutive in X. auto.
  - destruct st2; [congruence|]. apply (join_app (rev (b :: st2))).
    intro X. apply (f_equal (@rev _)) in X. rewrite rev_involutive in X. discriminate.
Qed.

Theorem folders_confined : forall root n q, plain n -> removed_by_close root n q ->
  exists t, q = DataPath root ++ slash :: n ++ t /\ (t = [] \/ exists t', t = slash :: t').
Proof.
  intros root n q P [-> |[t ->]]; rewrite folder_of_plain by auto.
  - exists []. rewrite app_nil_r. auto.
  - exists (slash :: t). rewrite <- app_assoc. cbn [app]. split; eauto.
Qed.

Theorem folders_distinct : forall root n1 n2 t, plain n1 -> plain n2 -> n1 <> n2 ->
  (t = [] \/ exists t', t = slash :: t') ->
  ~ removed_by_close root n1 (DBPath root n2 ++ t).
Proof.
  intros root n1 n2 t P1 P2 N T R. rewrite folder_of_plain in R by auto.
  destruct (folders_confined _ _ _ P1 R) as (u & E & U).
  rewrite <- app_assoc in E. apply app_inv_head in E. cbn [app] in E. injection E as E.
  destruct P1 as (_ & _ & _ & S1). destruct P2 as (_ & _ & _ & S2).
  assert (G : forall a b t u, a ++ t = b ++ u -> ~ In slash a -> ~ In slash b ->
    (t = [] \/ exists t', t = slash :: t') -> (u = [] \/ exists t', u = slash :: t') -> a = b).
  { clear. induction a as [|x a IH]; intros [|y b] t u E A B T U; cbn in *; auto.
    - subst t. destruct T as [T|[t' T]]; [discriminate|]. injection T as -> _. exfalso. apply B; auto.
    - subst u. destruct U as [U|[t' U]]; [discriminate|]. injection U as -> _. exfalso. apply A; auto.
    - injection E as -> E. f_equal. eapply IH; eauto. }
  apply N. symmetry. eapply G; eauto.
Qed.
