(** Property C79: the server process and the files of its folder. *)
From Verif.Base Require Import GoBase GoLemmas Assoc Float.
From Verif.Model Require Import Codec Store Data Dataset Json Index Path Serve.
From Verif.Spec Require Import Text RegistrySpec IndexSpec ServeSpec.
From Verif.Proof Require Import DatasetP IndexP FloatLibP.
From Verif.Props Require Import DatasetProps IndexProps.
From Coq Require Import Lia Permutation.
Open Scope N_scope.

(** C79 A node never destroys the files of its folder.

    First the registry of a running node: what loading and saving do to it. *)
Lemma drun_app : forall inc closed es es' s s1, drun inc closed s es = Ok s1 ->
  drun inc closed s (es ++ es') = drun inc closed s1 es'.
Proof.
  induction es as [|e es IH]; intros es' s s1 E; cbn [drun app] in *.
  - injection E as <-. reflexivity.
  - destruct (dstep inc closed s e) as [s2| |]; cbn [bind] in *; try discriminate. eauto.
Qed.
Lemma reach_more : forall inc closed s es s', reachable inc closed s -> drun inc closed s es = Ok s' ->
  reachable inc closed s'.
Proof. intros inc closed s es s' (es0 & E0) E. exists (es0 ++ es). rewrite (drun_app _ _ _ _ _ _ E0). exact E. Qed.

Lemma load_drun : forall L inc closed now lines s s', load_lines L inc now s lines = Ok s' ->
  exists es, drun inc closed s es = Ok s'.
Proof.
  induction lines as [|x lines IH]; intros s s' E; cbn [load_lines] in E.
  - injection E as <-. exists []. reflexivity.
  - destruct (UnmarshalConfig L x) as [c|]; [|eauto].
    destruct (CreateIfNotExists inc deep now s c) as [s1| |] eqn:C; cbn [bind] in E; try discriminate.
    destruct (IH _ _ E) as (es & R). exists (EvCreate now c :: es). cbn [drun dstep]. rewrite C. exact R.
Qed.
Lemma save_drun : forall L inc closed now names s s' text, save_lines L inc now s names = Ok (s', text) ->
  exists es, drun inc closed s es = Ok s'.
Proof.
  induction names as [|k names IH]; intros s s' text E; cbn [save_lines] in E.
  - injection E as <- <-. exists []. reflexivity.
  - destruct (Get inc deep now s k) as [[s1 a]| |] eqn:G; cbn [bind] in E; try discriminate.
    destruct (nth_error (dsObjs s1) a) as [dt|]; try discriminate.
    destruct (save_lines L inc now s1 names) as [[s2 t]| |] eqn:S; cbn [bind] in E; try discriminate.
    injection E as <- _. destruct (IH _ _ _ S) as (es & R). exists (EvGet now k :: es). cbn [drun dstep].
    rewrite G. exact R.
Qed.

(** The registry of a running node is one the histories of the registry lead to,
    and its folder is the configured one. *)
Definition sane inc closed directory temp (x : files * phase) : Prop :=
  match snd x with Up d s => d = folder directory temp /\ reachable inc closed s | _ => True end.
Lemma sane_step : forall L inc closed directory temp l x y,
  serve_step L inc closed directory temp l x y -> sane inc closed directory temp x -> sane inc closed directory temp y.
Proof.
  intros L inc closed directory temp l x y H I. destruct H; unfold sane in *; cbn [snd] in *; auto.
  - split; auto. destruct (load_drun L inc closed _ _ _ _ H) as (es & R). exists es. exact R.
  - destruct I as [-> I]. split; auto. apply (reach_more inc closed s [e]); auto. cbn [drun]. rewrite H. reflexivity.
  - destruct I as [-> I]. split; auto. destruct (save_drun L inc closed _ _ _ _ _ H0) as (es & R).
    apply (reach_more inc closed s es); auto.
Qed.

(** If Listen does not return, the node touches no file but its index, and the
    index is there once the node has started. *)
Theorem C79_other_files_partial : forall L inc closed directory temp ls x y,
  serve_run L inc closed directory temp ls x y -> sane inc closed directory temp x -> ~ In ListenReturned ls ->
  forall q, q <> index_file (folder directory temp) -> mload (fst y) q = mload (fst x) q.
Proof.
  intros L inc closed directory temp ls x y R. induction R as [x|l ls x y z S R IH]; intros I N q Q; auto.
  rewrite IH; auto; [|eapply sane_step; eauto|intro H; apply N; right; auto].
  destruct S; cbn [fst]; unfold sane in I; cbn [snd] in I; auto.
  - destruct (mload fs (index_file d)); auto. rewrite mload_mstore_other; auto.
  - destruct I as [-> _]. rewrite mload_mstore_other; auto.
  - exfalso. apply N. left. reflexivity.
  - destruct I as [-> _]. rewrite mload_mstore_other; auto.
Qed.

(** The model's test is the notion of the specification. *)
Lemma starts_with_spec : forall p q, starts_with p q = true <-> exists r, q = p ++ r.
Proof.
  induction p as [|b p IH]; intro q; cbn; [split; eauto|]. destruct q as [|c q].
  - split; [discriminate|]. intros (r & H). discriminate.
  - rewrite andb_true_iff, N.eqb_eq, IH. split.
    + intros (-> & r & ->). exists r. reflexivity.
    + intros (r & H). injection H as -> ->. split; eauto.
Qed.
Lemma below_spec : forall d q, below d q = true <-> in_folder (Clean d) q.
Proof.
  intros d q. unfold below, in_folder. change (bs "/") with [slash].
  rewrite orb_true_iff, bytes_eqb_spec, starts_with_spec.
  destruct (bytes_eqb (Clean d) [slash]) eqn:E.
  - apply bytes_eqb_spec in E. rewrite E. split.
    + intros [H|H]; auto.
    + intros [H|[(r & ->)|(_ & H)]]; auto. right. exists ([slash] ++ r). reflexivity.
  - split.
    + intros [H|(r & ->)]; auto. right. left. exists r. rewrite <- app_assoc. reflexivity.
    + intros [H|[(r & ->)|(H & _)]]; auto.
      * right. exists r. rewrite <- app_assoc. reflexivity.
      * rewrite H in E. discriminate.
Qed.
Lemma ends_in_dot_spec : forall d, ends_in_dot d = true <-> last_dot d.
Proof.
  intro d. unfold ends_in_dot, last_dot. split.
  - destruct (rev d) as [|b [|c l]] eqn:E; [discriminate| |].
    + rewrite N.eqb_eq. intros ->. left. rewrite <- (rev_involutive d), E. reflexivity.
    + rewrite andb_true_iff, !N.eqb_eq. intros (-> & ->). right. exists (rev l).
      rewrite <- (rev_involutive d), E. cbn [rev]. rewrite <- app_assoc. reflexivity.
  - intros [->|(r & ->)]; [reflexivity|]. change (bs "/.") with [slash; 46]. rewrite rev_app_distr. reflexivity.
Qed.

(** However it ends, files that are not in the folder stay. *)
Theorem C79_outside_partial : forall L inc closed directory temp ls x y,
  serve_run L inc closed directory temp ls x y -> sane inc closed directory temp x ->
  forall q, ~ in_folder (Clean (folder directory temp)) q -> q <> index_file (folder directory temp) ->
  mload (fst y) q = mload (fst x) q.
Proof.
  intros L inc closed directory temp ls x y R I q B0.
  assert (B : below (folder directory temp) q = false).
  { destruct (below (folder directory temp) q) eqn:B; auto. exfalso. apply B0. apply below_spec. exact B. }
  clear B0. revert I q B. induction R as [x|l ls x y z S R IH]; intros I q B Q; auto.
  rewrite IH; auto; [|eapply sane_step; eauto].
  destruct S; cbn [fst]; unfold sane in I; cbn [snd] in I; auto.
  - destruct (mload fs (index_file d)); auto. rewrite mload_mstore_other; auto.
  - destruct I as [-> _]. rewrite mload_mstore_other; auto.
  - destruct I as [-> _]. unfold RemoveAll. destruct (folder directory temp) eqn:F; auto. rewrite <- F in *.
    destruct (ends_in_dot (folder directory temp)); auto. clear - B.
    induction fs as [|[k v] fs IHf]; auto. cbn [filter fst]. cbn [mload].
    destruct (bytes_eqb k q) eqn:E.
    + apply bytes_eqb_spec in E. subst. rewrite B. cbn [negb mload]. rewrite bytes_eqb_refl. reflexivity.
    + destruct (below (folder directory temp) k); cbn [negb mload]; auto. rewrite E. auto.
  - destruct I as [-> _]. rewrite mload_mstore_other; auto.
Qed.

(** A node that is told to stop leaves an index from which the next node restores
    every dataset. *)
Theorem C79_signal_partial : forall L inc closed directory temp ls fs fs' t s t',
  float_roundtrip L -> keeps_config closed ->
  serve_run L inc closed directory temp (ls ++ [Signal t s]) (fs, Before) (fs', Gone) ->
  (forall c, has_dataset t s c -> storable c) ->
  exists text s', mload fs' (index_file (folder directory temp)) = Some text /\
    LoadIndex L inc t' text = Ok s' /\
    (forall n, (exists a, holds t' s' n a) <-> (exists a, holds t s n a)) /\
    (forall n a a' c m, holds t s n a -> object s a c m -> holds t' s' n a' ->
       exists c', object s' a' c' [] /\ same_dataconfig c c').
Proof.
  intros L inc closed directory temp ls fs fs' t s t' RT K R ST.
  assert (I : sane inc closed directory temp (fs, Before)) by exact Logic.I.
  remember (fs, Before) as x eqn:X. clear X. revert x R I. induction ls as [|l ls IH]; intros x R I.
  - cbn [app] in R. inversion R as [|l0 ls0 x0 y z S R']; subst. inversion R'; subst. inversion S; subst.
    destruct I as [-> RS]. cbn [snd] in RS.
    match goal with P : Permutation ?nm (ListNames t s), E : SaveIndex L inc t s _ = _ |- _ =>
      destruct (C38_save_load_partial L inc closed s t nm t' RT K RS ST P) as (s1 & tx & s2 & E1 & E2 & A & B);
      rewrite E in E1; injection E1 as <- <- end. exists text, s2. split; [apply mload_mstore_same|]. auto.
  - cbn [app] in R. inversion R as [|l0 ls0 x0 y z S R']; subst. eapply IH; [exact R'|]. eapply sane_step; eauto.
Qed.

(** If Listen returns, everything in the folder is gone: every file in it, whether
    the node made it or not (unless the folder is given as a path ending in
    "."). *)
Theorem C79_return_destroys : forall L inc closed directory temp ls fs fs',
  serve_run L inc closed directory temp (ls ++ [ListenReturned]) (fs, Before) (fs', Gone) ->
  folder directory temp <> [] -> ~ last_dot (folder directory temp) ->
  forall q, in_folder (Clean (folder directory temp)) q -> mload fs' q = None.
Proof.
  intros L inc closed directory temp ls fs fs' R NE D0 q B0.
  apply below_spec in B0. rename B0 into B.
  assert (D : ends_in_dot (folder directory temp) = false).
  { destruct (ends_in_dot (folder directory temp)) eqn:D; auto. exfalso. apply D0. apply ends_in_dot_spec. exact D. }
  assert (I : sane inc closed directory temp (fs, Before)) by exact Logic.I.
  remember (fs, Before) as x eqn:X. clear X. revert x R I. induction ls as [|l ls IH]; intros x R I.
  - cbn [app] in R. inversion R as [|l0 ls0 x0 y z S R']; subst. inversion R'; subst. inversion S; subst.
    destruct I as [-> _]. unfold RemoveAll. destruct (folder directory temp) eqn:F; [congruence|]. rewrite <- F in *.
    rewrite D. apply mload_none. unfold mkeys. intro H. apply in_map_iff in H. destruct H as ([k v] & <- & H).
    apply filter_In in H. destruct H as [_ H]. cbn [fst] in *. rewrite B in H. discriminate.
  - cbn [app] in R. inversion R as [|l0 ls0 x0 y z S R']; subst. eapply IH; [exact R'|]. eapply sane_step; eauto.
Qed.

(** The claim is false: a second node started on the folder of the first by
    mistake cannot open the port; it removes the index of three datasets, which
    the node started afterwards does not have, and a file it never wrote. *)
Definition srv : bytes := bs "/srv/veri".
Definition disk : files := [(bs "/srv/veri/index.save", three_text); (bs "/srv/veri/notes.txt", bs "mine"); (bs "/srv/verify", bs "x")].
Theorem C79_failed_start_refuted : exists fs fs' s s' n,
  mload fs (bs "/srv/veri/notes.txt") = Some (bs "mine") /\
  serve_run simple_lib fresh close_it srv (bs "/tmp/node1") [Start] (fs, Before) (fs, Up srv s) /\
  (exists a, holds 9 s n a) /\
  serve_run simple_lib fresh close_it srv (bs "/tmp/node1") [Start; ListenReturned] (fs, Before) (fs', Gone) /\
  mload fs' (bs "/srv/veri/notes.txt") = None /\
  (exists fs2, serve_run simple_lib fresh close_it srv (bs "/tmp/node1") [Start] (fs', Before) (fs2, Up srv s')) /\
  forall t a, ~ holds t s' n a.
Proof.
  assert (E : exists s, LoadIndex simple_lib fresh 9 three_text = Ok s /\ dl_get 9 s (bs "a") <> None).
  { eexists. split; [vm_compute; reflexivity|]. vm_compute. discriminate. }
  destruct E as (s & E & G).
  assert (I : inv s).
  { destruct (load_drun simple_lib fresh close_it _ _ _ _ E) as (es & R).
    apply (reachable_inv fresh close_it close_keeps). exists es. exact R. }
  assert (M : mload disk (index_file (folder srv (bs "/tmp/node1"))) = Some three_text) by (vm_compute; reflexivity).
  assert (S : serve_step simple_lib fresh close_it srv (bs "/tmp/node1") Start (disk, Before) (disk, Up srv s)).
  { pose proof (sv_start simple_lib fresh close_it srv (bs "/tmp/node1") disk 9 s) as S. cbv zeta in S.
    rewrite M in S. exact (S E). }
  exists disk, (RemoveAll srv disk), s, (mkDS [] []), (bs "a").
  split; [vm_compute; reflexivity|]. split; [eapply sr_step; [exact S|apply sr_here]|].
  split. { destruct (dl_get 9 s (bs "a")) as [a|] eqn:Ga; [|congruence]. exists a. apply get_holds; auto. }
  split. { eapply sr_step; [exact S|]. eapply sr_step; [apply sv_return|apply sr_here]. }
  split; [vm_compute; reflexivity|]. split.
  - eexists. eapply sr_step; [|apply sr_here].
    pose proof (sv_start simple_lib fresh close_it srv (bs "/tmp/node1") (RemoveAll srv disk) 9 (mkDS [] [])) as S2.
    cbv zeta in S2. apply S2. vm_compute. reflexivity.
  - intros t a (i & [] & _).
Qed.
Print Assumptions C79_other_files_partial.
Print Assumptions C79_outside_partial.
Print Assumptions C79_signal_partial.
Print Assumptions C79_return_destroys.
Print Assumptions C79_failed_start_refuted.

(** The same folder with a node that works, saves, and is told to stop. *)
Example C79_instance : exists fs' s, 
  serve_run simple_lib fresh close_it srv [] [Start; Work; Signal 12 s] (disk, Before) (fs', Gone) /\
  mload fs' (bs "/srv/veri/notes.txt") = Some (bs "mine") /\ mload fs' (bs "/srv/verify") = Some (bs "x") /\
  (exists a, holds 12 s (bs "new") a) /\
  exists text s', mload fs' (bs "/srv/veri/index.save") = Some text /\ text <> three_text /\
    LoadIndex simple_lib fresh 20 text = Ok s' /\ exists a, holds 20 s' (bs "new") a.
Proof.
  assert (E : exists s1 s, LoadIndex simple_lib fresh 9 three_text = Ok s1 /\
    dstep fresh close_it s1 (EvCreate 10 (cfg (bs "new") 1)) = Ok s /\ dl_get 12 s (bs "new") = Some 3%nat /\
    exists s2 text s', SaveIndex simple_lib fresh 12 s (ListNames 12 s) = Ok (s2, text) /\ text <> three_text /\
      LoadIndex simple_lib fresh 20 text = Ok s' /\ exists a, holds 20 s' (bs "new") a).
  { eexists. eexists. split; [vm_compute; reflexivity|]. split; [vm_compute; reflexivity|].
    split; [vm_compute; reflexivity|]. eexists. eexists. eexists. split; [vm_compute; reflexivity|].
    split; [vm_compute; discriminate|]. split; [vm_compute; reflexivity|].
    exists 0%nat. eexists. split; [right; right; right; left; reflexivity|]. split; [reflexivity|]. right. vm_compute. discriminate. }
  destruct E as (s1 & s & E1 & E2 & G & s2 & text & s' & E3 & NE & E4 & H).
  assert (M : mload disk (index_file (folder srv [])) = Some three_text) by (vm_compute; reflexivity).
  exists (mstore disk (index_file srv) text), s. split.
  { eapply sr_step.
    { pose proof (sv_start simple_lib fresh close_it srv [] disk 9 s1) as S. cbv zeta in S.
      rewrite M in S. exact (S E1). }
    eapply sr_step; [eapply sv_work; exact E2|].
    eapply sr_step; [|apply sr_here]. apply sv_signal with (names := ListNames 12 s) (s' := s2); auto. }
  split; [reflexivity|]. split; [reflexivity|]. split.
  { exists 3%nat. apply get_holds; auto. apply (reachable_inv fresh close_it close_keeps).
    destruct (load_drun simple_lib fresh close_it _ _ _ _ E1) as (es & R).
    apply (reach_more fresh close_it s1 [EvCreate 10 (cfg (bs "new") 1)]); [exists es; exact R|].
    cbn [drun]. rewrite E2. reflexivity. }
  exists text, s'. split; [apply mload_mstore_same|]. auto.
Qed.
