(** C127: what the HTTP port answers. *)
From Verif.Base Require Import GoBase GoLemmas Assoc.
From Verif.Model Require Import Path Node Http.
From Verif.Spec Require Import FolderSpec HttpSpec.
From Verif.Proof Require Import PathP.
From Verif.Props Require Import FolderProps.
From Coq Require Import Lia.
Open Scope N_scope.

Lemma names_plain : forall c, names c <-> plain c.
Proof. intros c. unfold names, plain, dot, dotdot, slash. tauto. Qed.

Lemma canon_plain : forall st, canon true st -> Forall plain st.
Proof. induction 1; constructor; auto. discriminate. discriminate. Qed.

Lemma split_exact : forall cs, cs <> [] -> Forall (fun c => ~ In slash c) cs ->
  split_slash (join_slash cs) = cs.
Proof.
  intros cs N F. destruct cs as [|c cs]; [congruence|]. clear N.
  revert c F. induction cs as [|d cs IH]; intros c F; inversion F; subst; cbn [join_slash].
  - apply split_noslash. auto.
  - rewrite split_app by auto. f_equal. apply IH. auto.
Qed.

Lemma plain_noslash : forall cs, Forall plain cs -> Forall (fun c => ~ In slash c) cs.
Proof. intros cs. apply Forall_impl. intros c (_ & _ & _ & N). auto. Qed.

Lemma clean_plains : forall r cs st, Forall plain cs -> clean_comps r st cs = rev cs ++ st.
Proof.
  intros r. induction cs as [|c cs IH]; intros st F; [reflexivity|]. inversion F; subst.
  rewrite clean_plain by auto. rewrite IH by auto. cbn [rev]. rewrite <- app_assoc. reflexivity.
Qed.

Lemma last_join : forall cs c, Forall plain (cs ++ [c]) -> (last (join_slash (cs ++ [c])) 0 =? slash) = false.
Proof.
  intros cs c F. apply Forall_app in F. destruct F as [_ F]. inversion F as [|? ? (A & _ & _ & N) _]; subst.
  assert (L : last (join_slash (cs ++ [c])) 0 = last c 0).
  { destruct cs as [|d cs]; [reflexivity|]. rewrite join_app by discriminate.
    generalize (join_slash (d :: cs)) as x. clear -A. intros x. induction x as [|y x IH].
    - cbn [app]. destruct c; [congruence|reflexivity].
    - cbn [app]. rewrite <- IH. destruct x; reflexivity. }
  rewrite L. apply N.eqb_neq. intros E. apply N. rewrite <- E. clear -A.
  destruct c as [|x c]; [congruence|]. clear A. revert x. induction c as [|y c IH]; intros x; [left; reflexivity|].
  right. apply IH.
Qed.

Lemma spelled_tidy : forall p, tidy p <->
  exists cs, Forall plain cs /\
    ((p = slash :: join_slash cs /\ cs <> []) \/
     (p = slash :: join_slash cs ++ [slash] /\ cs <> []) \/ (p = [slash] /\ cs = [])).
Proof.
  intros p. split.
  - intros (cs & F & H). assert (Fp : Forall plain cs)
      by (eapply Forall_impl; [|exact F]; intros c; apply names_plain).
    exists cs. split; [auto|].
    assert (J : forall l q, spelled l q -> q = join_slash l).
    { clear. induction 1 as [c N|c l q N S IH]; [reflexivity|]. subst q.
      destruct l; [inversion S|]. reflexivity. }
    destruct H as [S|(Ne & S)]; apply J in S.
    + destruct cs as [|c cs].
      * right. right. cbn in S. auto.
      * right. left. split; [|discriminate]. rewrite S.
        transitivity (slash :: join_slash ((c :: cs) ++ [[]])); [reflexivity|].
        rewrite join_app by discriminate. reflexivity.
    + left. split; [|auto]. rewrite S. destruct cs; [congruence|]. reflexivity.
  - intros (cs & F & H). assert (Fn : Forall names cs)
      by (eapply Forall_impl; [|exact F]; intros c; apply names_plain).
    exists cs. split; [auto|]. destruct H as [(E & Ne)|[(E & Ne)|(E & ->)]].
    + right. split; [auto|]. apply spelled_split. rewrite E.
      change (slash :: join_slash cs) with ([] ++ slash :: join_slash cs).
      rewrite split_app by (intros []). rewrite split_exact; auto. apply plain_noslash. auto.
    + left. apply spelled_split. rewrite E.
      change (slash :: join_slash cs ++ [slash]) with ([] ++ slash :: (join_slash cs ++ slash :: [])).
      rewrite split_app by (intros []). rewrite split_join; auto. apply plain_noslash. auto.
    + left. apply spelled_split. rewrite E. reflexivity.
Qed.

Lemma last_app_slash : forall l : bytes, last (l ++ [slash]) 0 = slash.
Proof. intros. apply last_last. Qed.

Lemma render_true : forall cs, render true (rev cs) = slash :: join_slash cs.
Proof. intros. unfold render. rewrite rev_involutive. reflexivity. Qed.

Lemma cleanPath_tidy : forall p, tidy (cleanPath p).
Proof.
  intros p. unfold cleanPath. destruct p as [|b p].
  - apply spelled_tidy. exists []. split; [constructor|auto].
  - cbv zeta. match goal with |- context [Clean ?x] => set (q := x) end.
    assert (R : is_rooted q = true).
    { unfold q. destruct (b =? slash) eqn:B; [cbn; auto|reflexivity]. }
    assert (K : exists cs, Forall plain cs /\ Clean q = slash :: join_slash cs).
    { unfold Clean. rewrite R. set (st := clean_comps true [] (split_slash q)).
      assert (C : canon true st) by (apply clean_canon; [apply split_forall|constructor]).
      exists (rev st). split; [apply Forall_rev, canon_plain; auto|]. reflexivity. }
    destruct K as (cs & F & E).  rewrite E. apply spelled_tidy. exists cs. split; [auto|].
    destruct cs as [|c cs].
    + rewrite andb_false_r. right. right. auto.
    + assert (X : bytes_eqb (slash :: join_slash (c :: cs)) [slash] = false).
      { apply bytes_eqb_neq. intros X. injection X as X. inversion F as [|? ? (A & _) _]; subst.
        destruct c as [|x c]; [congruence|]. destruct cs; discriminate. }
      rewrite X. cbn [negb]. rewrite andb_true_r. destruct (last q 0 =? slash).
      * right. left. split; [reflexivity|discriminate].
      * left. split; [reflexivity|discriminate].
Qed.

Lemma tidy_cleanPath : forall p, tidy p -> cleanPath p = p.
Proof.
  intros p T. apply spelled_tidy in T. destruct T as (cs & F & H).
  pose proof (plain_noslash cs F) as NS.
  destruct H as [(-> & Ne)|[(-> & Ne)|(-> & ->)]]; [| |reflexivity].
  - unfold cleanPath. rewrite N.eqb_refl. cbv zeta.
    assert (E : Clean (slash :: join_slash cs) = slash :: join_slash cs).
    { unfold Clean. change (is_rooted (slash :: join_slash cs)) with true.
      change (slash :: join_slash cs) with ([] ++ slash :: join_slash cs) at 1.
      rewrite split_app by (intros []). rewrite split_exact by auto.
      change (clean_comps true [] ([] :: cs)) with (clean_comps true [] cs).
      rewrite clean_plains, app_nil_r by auto. apply render_true. }
    rewrite E.
    assert (L : (last (slash :: join_slash cs) 0 =? slash) = false).
    { destruct (exists_last Ne) as (l & x & Ex). rewrite Ex in *.
      pose proof (last_join l x F) as L. destruct (join_slash (l ++ [x])) as [|y j] eqn:J; [|exact L].
      exfalso. destruct l as [|d l].
      - cbn in J. inversion F as [|? ? (A & _) _]; subst. congruence.
      - rewrite join_app in J by discriminate. destruct (join_slash (d :: l)); discriminate. }
    rewrite L. reflexivity.
  - unfold cleanPath. rewrite N.eqb_refl. cbv zeta.
    assert (E : Clean (slash :: join_slash cs ++ [slash]) = slash :: join_slash cs).
    { unfold Clean. change (is_rooted (slash :: join_slash cs ++ [slash])) with true.
      change (slash :: join_slash cs ++ [slash]) with ([] ++ slash :: (join_slash cs ++ slash :: [])) at 1.
      rewrite split_app by (intros []). rewrite split_join by auto.
      change (clean_comps true [] ([] :: cs ++ split_slash [])) with (clean_comps true [] (cs ++ [[]])).
      assert (G : forall st, clean_comps true st (cs ++ [[]]) = rev cs ++ st).
      { clear Ne NS. induction cs as [|c cs IH]; intros st; [reflexivity|].
        inversion F; subst. change ((c :: cs) ++ [[]]) with (c :: (cs ++ [[]])).
        rewrite clean_plain by auto. rewrite IH by auto. cbn [rev]. rewrite <- app_assoc. reflexivity. }
      rewrite G, app_nil_r. apply render_true. }
    rewrite E.
    assert (L : last (slash :: join_slash cs ++ [slash]) 0 = slash)
      by (rewrite app_comm_cons; apply last_last).
    rewrite L, N.eqb_refl.
    assert (X : bytes_eqb (slash :: join_slash cs) [slash] = false).
    { apply bytes_eqb_neq. intros X. injection X as X. destruct cs as [|c cs]; [congruence|].
      inversion F as [|? ? (A & _) _]; subst.
      destruct c as [|x c]; [congruence|]. destruct cs; discriminate. }
    rewrite X. reflexivity.
Qed.

(** Every request and every state of the server. *)
Theorem C127_answers : forall s method path,
  let a := serve_http s method path w0 in
  (status a = 301 <-> ~ tidy path) /\
  (tidy path ->
    (status a = 404 <-> path <> bs "/" /\ path <> bs "/health" /\ path <> bs "/ready") /\
    (path = bs "/" \/ path = bs "/health" \/ path = bs "/ready" ->
       (method <> bs "GET" -> status a = 405) /\
       (method = bs "GET" -> path = bs "/ready" -> status a = if lReady s then 200 else 503) /\
       (method = bs "GET" -> path <> bs "/ready" -> status a = if lHealth s then 200 else 500))).
Proof.
  intros s method path a. unfold a, serve_http.
  assert (T : tidy path <-> bytes_eqb (cleanPath path) path = true).
  { rewrite bytes_eqb_spec. split; [apply tidy_cleanPath|]. intros <-. apply cleanPath_tidy. }
  destruct (bytes_eqb (cleanPath path) path) eqn:Q; cbn [negb].
  - assert (Y : tidy path) by (apply T; reflexivity). clear T Q.
    assert (D1 : bs "/" <> bs "/ready") by discriminate.
    assert (D2 : bs "/health" <> bs "/ready") by discriminate.
    assert (VH : status (Handled (GetHeath s w0)) = if lHealth s then 200 else 500)
      by (destruct s as [h r dr ad]; destruct h; reflexivity).
    assert (VR : status (Handled (GetReady s w0)) = if lReady s then 200 else 503)
      by (destruct s as [h r dr ad]; destruct r; reflexivity).
    assert (NH : forall h, (h = GetHeath \/ h = GetReady) ->
              status (if bytes_eqb method (bs "GET") then Handled (h s w0) else MethodNotAllowed) <> 301 /\
              status (if bytes_eqb method (bs "GET") then Handled (h s w0) else MethodNotAllowed) <> 404).
    { intros h [-> | ->]; destruct (bytes_eqb method (bs "GET")); try (split; discriminate);
        rewrite ?VH, ?VR; [destruct (lHealth s)|destruct (lReady s)]; split; discriminate. }
    assert (HH : forall h, (h = GetHeath \/ h = GetReady) -> (h = GetReady <-> path = bs "/ready") ->
        (path = bs "/" \/ path = bs "/health" \/ path = bs "/ready") ->
        let x := status (if bytes_eqb method (bs "GET") then Handled (h s w0) else MethodNotAllowed) in
        (x = 301 <-> ~ tidy path) /\
        (tidy path ->
          (x = 404 <-> path <> bs "/" /\ path <> bs "/health" /\ path <> bs "/ready") /\
          (path = bs "/" \/ path = bs "/health" \/ path = bs "/ready" ->
             (method <> bs "GET" -> x = 405) /\
             (method = bs "GET" -> path = bs "/ready" -> x = if lReady s then 200 else 503) /\
             (method = bs "GET" -> path <> bs "/ready" -> x = if lHealth s then 200 else 500)))).
    { intros h Hh Rh P x. destruct (NH h Hh) as [N1 N2]. fold x in N1, N2.
      split; [tauto|]. intros _. split; [tauto|]. intros _. unfold x.
      destruct (bytes_eqb method (bs "GET")) eqn:M;
        [apply bytes_eqb_spec in M|apply bytes_eqb_neq in M].
      - split; [tauto|]. split; intros _ Pr.
        + assert (Eh : h = GetReady) by tauto. rewrite Eh. exact VR.
        + destruct Hh as [Eh|Eh]; [rewrite Eh; exact VH|tauto].
      - split; [reflexivity|]. split; intros; contradiction. }
    assert (GN : GetHeath <> GetReady).
    { intros E. apply (f_equal (fun f => wSent (f (mkLife true false false []) w0))) in E. discriminate. }
    unfold routes. cbn [route_of].
    destruct (bytes_eqb path (bs "/")) eqn:E1;
      [|destruct (bytes_eqb path (bs "/health")) eqn:E2;
        [|destruct (bytes_eqb path (bs "/ready")) eqn:E3]];
      repeat match goal with
      | H : bytes_eqb path _ = true |- _ => apply bytes_eqb_spec in H
      | H : bytes_eqb path _ = false |- _ => apply bytes_eqb_neq in H
      end.
    + apply HH; [auto| |auto]. split; [contradiction|]. intros E. exfalso. apply D1. rewrite <- E1. exact E.
    + apply HH; [auto| |auto]. split; [contradiction|]. intros E. exfalso. apply D2. rewrite <- E2. exact E.
    + apply HH; [auto|tauto|auto].
    + cbn [status]. split; [split; [discriminate|contradiction]|]. intros _.
      split; [tauto|]. tauto.
  - split; [split; [intros _ Y; apply T in Y; discriminate|reflexivity]|].
    intros Y. apply T in Y. discriminate.
Qed.
Print Assumptions C127_answers.

(** A redirection leads to the tidy path of the same place, which is not
    redirected again. *)
Theorem C127_redirected : forall s method path to,
  serve_http s method path w0 = Redirect to ->
  tidy to /\ (forall pos, leads [] path pos <-> leads [] to pos) /\
  status (serve_http s method to w0) <> 301.
Proof.
  intros s method path to H. unfold serve_http in H.
  destruct (bytes_eqb (cleanPath path) path) eqn:Q; cbn [negb] in H.
  { destruct (route_of routes path); [|discriminate]. destruct (bytes_eqb method (bs "GET")); discriminate. }
  injection H as <-. split; [apply cleanPath_tidy|]. split.
  - intros pos. rewrite !leads_place.
    assert (E : place [] (cleanPath path) = place [] path); [|rewrite E; tauto].
    unfold cleanPath. destruct path as [|b p]; [reflexivity|]. cbv zeta.
    match goal with |- context [Clean ?x] => set (q := x) end.
    assert (Eq : place [] q = place [] (b :: p)).
    { unfold q. destruct (b =? slash) eqn:B; [reflexivity|].
      unfold place, start. destruct (is_rooted (b :: p)); destruct (is_rooted (slash :: b :: p));
      (change (slash :: b :: p) with ([] ++ slash :: (b :: p));
       rewrite split_app by (intros []); reflexivity). }
    assert (Tr : forall x, x <> [] -> place [] (x ++ [slash]) = place [] x).
    { intros x Nx. unfold place. change (x ++ [slash]) with (x ++ slash :: []).
      rewrite split_both, walk_app. destruct x; [congruence|]. reflexivity. }
    destruct ((last q 0 =? slash) && negb (bytes_eqb (Clean q) [slash])).
    + rewrite Tr, clean_place; auto. unfold Clean, render.
      assert (R : is_rooted q = true)
        by (unfold q; destruct (b =? slash) eqn:B; [cbn; auto|reflexivity]).
      rewrite R. discriminate.
    + rewrite clean_place. auto.
  - intros C. apply (proj1 (C127_answers s method (cleanPath path))) in C.
    apply C. apply cleanPath_tidy.
Qed.
Print Assumptions C127_redirected.

Example C127_instance :
  let s := mkLife true false false [] in
  status (serve_http s (bs "GET") (bs "/health") w0) = 200 /\
  status (serve_http s (bs "HEAD") (bs "/health") w0) = 405 /\
  status (serve_http s (bs "GET") (bs "/health/") w0) = 404 /\
  status (serve_http s (bs "GET") (bs "/ready") w0) = 503 /\
  serve_http s (bs "GET") (bs "/x/..//ready") w0 = Redirect (bs "/ready") /\
  tidy (bs "/health/") /\ ~ tidy (bs "//health").
Proof.
  cbv zeta. repeat (split; [vm_compute; reflexivity|]). split.
  - apply spelled_tidy. exists [bs "health"]. split.
    + repeat constructor; try discriminate. vm_compute. intuition discriminate.
    + right. left. split; [reflexivity|discriminate].
  - intros T. apply tidy_cleanPath in T. vm_compute in T. discriminate.
Qed.
