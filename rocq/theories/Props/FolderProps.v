(** C125: exactly what the end of a dataset deletes. *)
From Verif.Base Require Import GoBase GoLemmas Assoc.
From Verif.Model Require Import Path.
From Verif.Spec Require Import FolderSpec.
From Verif.Proof Require Import PathP.
From Coq Require Import Lia.
Open Scope N_scope.

Lemma spelled_split : forall cs p, spelled cs p <-> split_slash p = cs.
Proof.
  intros cs p. split.
  - induction 1 as [c N|c cs p N S IH]; [apply split_noslash; auto|].
    change 47 with slash. rewrite split_app, IH by auto. reflexivity.
  - revert cs. induction p as [|b p IH]; intros cs E; cbn in E.
    + subst. constructor. intros [].
    + destruct (split_slash p) as [|c cs'] eqn:S; [destruct (split_ne p S)|].
      specialize (IH _ eq_refl).
      destruct (b =? slash) eqn:B; subst cs.
      * apply N.eqb_eq in B. subst b. apply (spell_more [] (c :: cs') p); [intros []|auto].
      * apply N.eqb_neq in B. inversion IH; subst.
        -- constructor. intros [X|X]; [apply B; unfold slash; lia|auto].
        -- apply (spell_more (b :: c)); [|auto].
           intros [X|X]; [apply B; unfold slash; lia|auto].
Qed.

Definition start (cwd : list bytes) (p : bytes) : list bytes := if is_rooted p then [] else cwd.

Lemma start_spec : forall cwd p, match p with 47 :: _ => [] | _ => cwd end = start cwd p.
Proof.
  intros cwd [|b p]; [reflexivity|]. unfold start. cbn [is_rooted].
  destruct (N.eqb_spec b slash) as [->|N]; [reflexivity|].
  destruct b as [|b]; [reflexivity|].
  repeat (destruct b as [b|b|]; try reflexivity). unfold slash in N. congruence.
Qed.

Definition place (cwd : list bytes) (p : bytes) : list bytes :=
  walk (start cwd p) (split_slash p).

Lemma leads_place : forall cwd p pos, leads cwd p pos <-> pos = place cwd p.
Proof.
  intros cwd p pos. unfold leads, place. rewrite start_spec. split.
  - intros (cs & S & ->). apply spelled_split in S. rewrite S. reflexivity.
  - intros ->. exists (split_slash p). split; [apply spelled_split|]; reflexivity.
Qed.

Lemma walk_app : forall a b pos, walk pos (a ++ b) = walk (walk pos a) b.
Proof. intros. unfold walk. apply fold_left_app. Qed.

Lemma goes_nil : forall pos, goes pos [] = pos.
Proof. reflexivity. Qed.
Lemma goes_dot : forall pos, goes pos dot = pos.
Proof. reflexivity. Qed.
Lemma goes_up : forall pos, goes pos dotdot = tl pos.
Proof. reflexivity. Qed.
Lemma goes_down : forall pos c, c <> [] -> c <> dot -> c <> dotdot -> goes pos c = c :: pos.
Proof.
  intros pos c A B C. unfold goes.
  destruct (list_eq_dec N.eq_dec c []); [contradiction|].
  destruct (list_eq_dec N.eq_dec c [46]); [contradiction|].
  destruct (list_eq_dec N.eq_dec c [46; 46]); [contradiction|]. reflexivity.
Qed.

(** Cleaning a path does not change where it leads. *)
Lemma clean_walk : forall r cs st base,
  Forall (fun c => c <> [] /\ c <> dot) st -> (r = true -> base = []) ->
  walk base (rev (clean_comps r st cs)) = walk (walk base (rev st)) cs.
Proof.
  intros r. induction cs as [|c cs IH]; intros st base F R; [reflexivity|].
  cbn [clean_comps]. change (walk (walk base (rev st)) (c :: cs))
    with (walk (goes (walk base (rev st)) c) cs).
  destruct (bytes_eqb c []) eqn:E0.
  { apply bytes_eqb_spec in E0. subst c. cbn [orb]. rewrite IH by auto. reflexivity. }
  destruct (bytes_eqb c dot) eqn:E1.
  { apply bytes_eqb_spec in E1. subst c. cbn [orb]. rewrite IH by auto. reflexivity. }
  cbn [orb]. apply bytes_eqb_neq in E0, E1.
  destruct (bytes_eqb c dotdot) eqn:E2.
  - apply bytes_eqb_spec in E2. subst c. rewrite goes_up.
    destruct st as [|t st].
    + destruct r.
      * rewrite IH by (auto; constructor). rewrite (R eq_refl). reflexivity.
      * rewrite IH; [reflexivity| |discriminate].
        repeat constructor; discriminate.
    + inversion F as [|? ? [T0 T1] F']; subst.
      destruct (bytes_eqb t dotdot) eqn:E3.
      * rewrite IH; [| |auto].
        -- change (rev (dotdot :: t :: st)) with (rev (t :: st) ++ [dotdot]).
           rewrite walk_app. reflexivity.
        -- constructor; [split; discriminate|auto].
      * apply bytes_eqb_neq in E3. rewrite IH by auto. cbn [rev]. rewrite walk_app.
        cbn [walk fold_left]. change (fold_left goes (rev st) base) with (walk base (rev st)).
        rewrite goes_down by auto. reflexivity.
  - apply bytes_eqb_neq in E2. rewrite IH; [|constructor; auto|auto].
    cbn [rev]. rewrite walk_app. reflexivity.
Qed.

Lemma walk_join : forall cs base, Forall (fun c => ~ In slash c) cs ->
  walk base (split_slash (join_slash cs)) = walk base cs.
Proof.
  intros cs base F. destruct cs as [|c cs]; [reflexivity|]. f_equal.
  revert c F. induction cs as [|d cs IH]; intros c F; inversion F; subst; cbn [join_slash].
  - apply split_noslash. auto.
  - rewrite split_app by auto. f_equal. apply IH. auto.
Qed.

Lemma walk_render : forall r st base, Forall (fun c => ~ In slash c) st ->
  walk base (split_slash (render r st)) = walk base (rev st).
Proof.
  intros r st base F. apply Forall_rev in F. unfold render. destruct r.
  - change (slash :: join_slash (rev st)) with ([] ++ slash :: join_slash (rev st)).
    rewrite split_app by (intros []).
    change (walk base ([] :: split_slash (join_slash (rev st))))
      with (walk base (split_slash (join_slash (rev st)))). apply walk_join. auto.
  - destruct st as [|c st]; [reflexivity|]. apply walk_join. auto.
Qed.

Lemma canon_ne : forall r st, canon r st -> Forall (fun c => c <> [] /\ c <> dot) st.
Proof.
  induction 1 as [|c st P C IH|st E F]; constructor; auto.
  - destruct P as (A & B & _). auto.
  - split; discriminate.
  - eapply Forall_impl; [|exact F]. intros a <-. split; discriminate.
Qed.

Lemma render_rooted : forall r st, canon r st -> is_rooted (render r st) = r.
Proof.
  intros r st C. unfold render. destruct r; [reflexivity|]. destruct st as [|c s]; [reflexivity|].
  pose proof (canon_noslash _ _ C) as F. pose proof (canon_ne _ _ C) as Ne.
  apply Forall_rev in F, Ne.
  destruct (rev (c :: s)) as [|d t] eqn:R; [reflexivity|].
  unfold bytes in *. rewrite R in F, Ne.
  inversion F as [|? ? F1 F2]; subst. inversion Ne as [|? ? [N1 _] _]; subst.
  destruct d as [|b d]; [congruence|].
  cbn [join_slash]. destruct t; cbn; (destruct (b =? slash) eqn:B; auto; exfalso; apply F1; left; lia).
Qed.

Lemma clean_place : forall cwd p, place cwd (Clean p) = place cwd p.
Proof.
  intros cwd p. unfold Clean.
  assert (C : canon (is_rooted p) (clean_comps (is_rooted p) [] (split_slash p)))
    by (apply clean_canon; [apply split_forall|constructor]).
  unfold place, start. rewrite render_rooted by exact C.
  rewrite walk_render by (eapply canon_noslash; exact C).
  rewrite clean_walk; [reflexivity|constructor|]. intros ->. reflexivity.
Qed.

Lemma split_both : forall a b, split_slash (a ++ slash :: b) = split_slash a ++ split_slash b.
Proof.
  induction a as [|x a IH]; intros b.
  - cbn. destruct (split_slash b) eqn:E; [destruct (split_ne b E)|reflexivity].
  - cbn [app split_slash]. rewrite IH. destruct (split_slash a) eqn:E; [destruct (split_ne a E)|].
    cbn [app]. destruct (x =? slash); reflexivity.
Qed.

Lemma join_place : forall cwd a b, a <> [] ->
  place cwd (Join a b) = walk (place cwd a) (split_slash b).
Proof.
  intros cwd a b N. destruct a as [|x a]; [congruence|].
  assert (E : Join (x :: a) b = match b with [] => Clean (x :: a) | _ => Clean ((x :: a) ++ slash :: b) end)
    by (destruct b; reflexivity).
  rewrite E. destruct b as [|y b].
  - rewrite clean_place. reflexivity.
  - rewrite clean_place. unfold place at 1. rewrite split_both, walk_app. reflexivity.
Qed.

Lemma data_place : forall cwd root, place cwd (DataPath root) = bs "data" :: place cwd root.
Proof.
  intros cwd root. unfold DataPath. destruct root as [|b root]; [reflexivity|].
  rewrite join_place by discriminate. reflexivity.
Qed.

Lemma data_nonempty : forall root, DataPath root <> [].
Proof.
  intros root E. destruct (data_path root) as (r & st & C & Q). rewrite E in Q.
  unfold render in Q. destruct r; [discriminate|]. cbn [rev] in Q.
  destruct (rev st) as [|x y]; [discriminate|].
  rewrite join_app in Q by discriminate. destruct (join_slash (x :: y)); discriminate.
Qed.

(** The folder of a dataset is where its name leads from the folder "data" inside
    the node's folder. *)
Theorem C125_folder : forall cwd root R name cs,
  leads cwd root R -> spelled cs name ->
  forall pos, leads cwd (DBPath root name) pos <-> pos = walk (bs "data" :: R) cs.
Proof.
  intros cwd root R name cs L S pos. apply leads_place in L. apply spelled_split in S.
  rewrite leads_place. unfold DBPath. rewrite join_place by apply data_nonempty.
  rewrite data_place, S, <- L. tauto.
Qed.
Print Assumptions C125_folder.

(** The end of a dataset of a node with an absolute folder deletes exactly what
    is at that place or below it. *)
Theorem C125_deleted : forall cwd root R name cs q,
  (exists p, root = 47 :: p) -> leads cwd root R -> spelled cs name ->
  (deletes cwd (DBPath root name) q <-> inside (walk (bs "data" :: R) cs) q).
Proof.
  intros cwd root R name cs q (p & Er) L S. unfold deletes. split.
  - intros (_ & pos & Lp & I). apply (C125_folder cwd root R name cs L S) in Lp. subst. auto.
  - intros I. split.
    + assert (RT : is_rooted (DBPath root name) = true); [|intros X; rewrite X in RT; discriminate].
      assert (J : forall a b, is_rooted a = true -> is_rooted (Join a b) = true).
      { intros a b Ha. destruct a as [|x a]; [discriminate|].
        assert (E : Join (x :: a) b = match b with [] => Clean (x :: a) | _ => Clean ((x :: a) ++ slash :: b) end)
          by (destruct b; reflexivity).
        assert (CR : forall y, is_rooted y = true -> is_rooted (Clean y) = true)
          by (intros y Y; unfold Clean; rewrite Y; reflexivity).
        rewrite E. destruct b; apply CR; exact Ha. }
      unfold DBPath, DataPath. apply J, J. rewrite Er. reflexivity.
    + exists (walk (bs "data" :: R) cs). split; [|auto].
      apply (C125_folder cwd root R name cs L S). reflexivity.
Qed.
Print Assumptions C125_deleted.

Lemma walk_down : forall cs pos, ~ In dotdot cs ->
  walk pos cs = rev (real_pieces cs) ++ pos.
Proof.
  induction cs as [|c cs IH]; intros pos N; [reflexivity|].
  change (walk pos (c :: cs)) with (walk (goes pos c) cs).
  rewrite IH by (intro; apply N; cbn; auto). unfold real_pieces. cbn [filter].
  destruct (list_eq_dec N.eq_dec c []) as [->|A]; [rewrite goes_nil; reflexivity|].
  destruct (list_eq_dec N.eq_dec c [46]) as [->|B]; [change [46] with dot; rewrite goes_dot; reflexivity|].
  rewrite goes_down by (auto; intros ->; apply N; cbn; auto).
  cbn [rev]. rewrite <- app_assoc. reflexivity.
Qed.

(** Names without ".." stay in the data folder; such a dataset's end deletes
    the folder of another one exactly if the pieces of its name, "" and "."
    left out, begin the other's. *)
Theorem C125_names : forall cwd root R n1 cs1 n2 cs2,
  (exists p, root = 47 :: p) -> leads cwd root R ->
  spelled cs1 n1 -> spelled cs2 n2 ->
  ~ In [46; 46] cs1 -> ~ In [46; 46] cs2 ->
  (forall q, deletes cwd (DBPath root n1) q -> inside (bs "data" :: R) q) /\
  (forall pos, leads cwd (DBPath root n2) pos ->
     (deletes cwd (DBPath root n1) pos <->
      exists more, real_pieces cs2 = real_pieces cs1 ++ more)).
Proof.
  intros cwd root R n1 cs1 n2 cs2 Er L S1 S2 N1 N2. split.
  - intros q D. apply (C125_deleted cwd root R n1 cs1 q Er L S1) in D.
    rewrite walk_down in D by exact N1. destruct D as (b & ->).
    exists (b ++ rev (real_pieces cs1)). rewrite <- app_assoc. reflexivity.
  - intros pos Lp. apply (C125_folder cwd root R n2 cs2 L S2) in Lp. subst pos.
    rewrite (C125_deleted cwd root R n1 cs1 _ Er L S1).
    rewrite !walk_down by assumption. split.
    + intros (b & E). rewrite app_assoc in E. apply app_inv_tail in E.
      exists (rev b). rewrite <- (rev_involutive (real_pieces cs2)), E.
      rewrite rev_app_distr, rev_involutive. reflexivity.
    + intros (more & E). exists (rev more). rewrite E, rev_app_distr, <- app_assoc. reflexivity.
Qed.
Print Assumptions C125_names.

(** A node in /srv/veri with a dataset called a/../../x, which lives in
    /srv/veri/x, and one called ../data/b, which lives with the others. *)
Example C125_instance : forall cwd,
  leads cwd (bs "/srv/veri") [bs "veri"; bs "srv"] /\
  leads cwd (DBPath (bs "/srv/veri") (bs "a/../../x")) [bs "x"; bs "veri"; bs "srv"] /\
  leads cwd (DBPath (bs "/srv/veri") (bs "../data/b")) [bs "b"; bs "data"; bs "veri"; bs "srv"] /\
  deletes cwd (DBPath (bs "/srv/veri") (bs "a/../../x")) [bs "f"; bs "x"; bs "veri"; bs "srv"].
Proof.
  intros cwd. rewrite !leads_place. split; [reflexivity|]. split; [reflexivity|]. split; [reflexivity|].
  split; [vm_compute; discriminate|]. exists [bs "x"; bs "veri"; bs "srv"].
  rewrite leads_place. split; [reflexivity|]. exists [bs "f"]. reflexivity.
Qed.
