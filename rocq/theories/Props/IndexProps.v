(** Properties C38 to C42, C68 and C69: the index file. *)
From Verif.Base Require Import GoBase GoLemmas Assoc Float.
From Verif.Model Require Import Codec Store Data Dataset Json Index.
From Verif.Spec Require Import Text RegistrySpec IndexSpec.
From Verif.Proof Require Import JsonP QueryCacheP DatasetP IndexP SaversP FloatLibP.
From Verif.Props Require Import DatasetProps.
From Coq Require Import Lia Permutation.
Open Scope N_scope.

(** C38 Saved configurations are restored.  The datasets of [s] at time [t] are
    saved, in any order, and loaded at time [t'] with nothing else going on.
    [names] is the order in which the map is walked. *)
Theorem C38_save_load_partial : forall L inc closed s t names t', float_roundtrip L -> keeps_config closed ->
  reachable inc closed s -> (forall c, has_dataset t s c -> storable c) -> Permutation names (ListNames t s) ->
  exists s1 text s', SaveIndex L inc t s names = Ok (s1, text) /\ LoadIndex L inc t' text = Ok s' /\
    (forall n, (exists a, holds t' s' n a) <-> (exists a, holds t s n a)) /\
    (forall n a a' c m, holds t s n a -> object s a c m -> holds t' s' n a' ->
       exists c', object s' a' c' [] /\ same_dataconfig c c').
Proof.
  intros L inc closed s t names t' RT K R ST P. pose proof (reachable_inv inc closed K s R) as I.
  destruct (save_all L inc t s names I P ST) as (s1 & cs & E & NM & ND & HC & SC & I1 & ALL & _).
  exists s1. eexists. rewrite <- NM in ND.
  destruct (load_prefix L RT inc t' cs _ [] SC ND (eq_sym (app_nil_r _))) as (j & s' & J & JR & _ & EL & I' & A & B).
  exists s'. split; [exact E|]. split; [exact EL|]. rewrite (JR eq_refl), firstn_all in *. rewrite Forall_forall in HC.
  split.
  - intro n. split.
    + intros [a H]. apply get_holds in H; auto. apply B in H. apply in_map_iff in H. destruct H as (c & <- & Ic).
      destruct (HC _ Ic) as (a' & m & H & _). eauto.
    + intros [a H]. pose proof (proj2 (get_holds t s n a I) H) as G. destruct (get_some _ _ _ _ G) as (i & Ei & <- & _).
      pose proof I as [_ J2]. destruct (J2 _ _ Ei) as (dt & c & X & Y & <-).
      assert (Ic : In c cs). { apply ALL. exists (diObj i), (dDBMap dt). split; auto. exists dt. auto. }
      destruct (A _ Ic) as (a' & G' & _). exists a'. apply get_holds; auto.
  - intros n a a' c m H (dt & X & Y & Z) H'. pose proof (proj2 (get_holds t s n a I) H) as G.
    destruct (get_some _ _ _ _ G) as (i & Ei & <- & _).
    pose proof I as [_ J2]. destruct (J2 _ _ Ei) as (dt' & c' & X' & Y' & <-).
    rewrite X in X'. injection X' as <-. rewrite Y in Y'. injection Y' as <-.
    assert (Ic : In c cs). { apply ALL. exists (diObj i), m. split; auto. exists dt. auto. }
    destruct (A _ Ic) as (a2 & G' & dt2 & X2 & Y2 & Z2). apply get_holds in H'; auto. assert (a' = a2) by congruence. subst a2.
    exists (norm c). split; [exists dt2; auto|apply norm_same].
Qed.
Print Assumptions C38_save_load_partial.

(** The SaveIndex calls that LoadIndex itself starts (one for every dataset it
    creates) run at the same time and rewrite the file that is being read.  If the
    index has at most 4096 bytes, still every dataset is there again, whatever the
    schedule. *)
Theorem C38_small_partial : forall L inc closed s t names t' s1 text l, float_roundtrip L -> keeps_config closed ->
  reachable inc closed s -> (forall c, has_dataset t s c -> storable c) -> Permutation names (ListNames t s) ->
  (forall d old, (old <= 0)%Z \/ (t' <= old)%Z -> (inc t' d old <= 0)%Z \/ (t' <= inc t' d old)%Z) ->
  SaveIndex L inc t s names = Ok (s1, text) -> (length text <= 4096)%nat ->
  lrun L inc t' (load_start text) l -> lDone l = true ->
  forall n a, holds t s n a -> exists a', holds t' (lReg l) n a'.
Proof.
  intros L inc closed s t names t' s1 text l RT K R ST P INC E LEN RUN D n a H. pose proof (reachable_inv inc closed K s R) as I.
  destruct (save_all L inc t s names I P ST) as (s1' & cs & E' & NM & ND & HC & SC & I1 & ALL & _).
  rewrite E in E'. injection E' as -> ->.
  pose proof (proj2 (get_holds t s n a I) H) as G. destruct (get_some _ _ _ _ G) as (i & Ei & <- & _).
  pose proof I as [_ J2]. destruct (J2 _ _ Ei) as (dt & c & X & Y & <-).
  eapply (load_small L RT inc t' INC cs l SC LEN RUN D). apply ALL. exists (diObj i), (dDBMap dt). split; auto. exists dt. auto.
Qed.
Print Assumptions C38_small_partial.

(** In general the statement is false.  A node has the forty datasets "dataset-00" to
    "dataset-39" with default configurations; after a restart LoadIndex has read the first
    4096 bytes when the saver started by the first dataset truncates the file. *)
Definition fresh : Z -> Z -> Z -> Z := fun now d _ => dl_expiry now d.
Definition forty : list bytes :=
  map (fun k => bs "dataset-" ++ [48 + N.of_nat k / 10; 48 + N.of_nat k mod 10]) (seq 0 40).
Definition forty_created : list devent := map (fun n => EvCreate 0 (GetDefaultConfig n)) forty.

Inductive choice := CLine | CRead | CEof | CCollect (i : nat) | COpen (i : nat) | CWrite (i : nat).
Definition choose (L : floatlib) (inc : Z -> Z -> Z -> Z) (now : Z) (c : choice) (l : loader) : option loader :=
  let '(mkLoader f o b a r ts d) := l in
  match c with
  | CLine =>
      match d, cut_line [] b with
      | false, Some (line, rest) =>
          match load_line L inc now r (a ++ line) with
          | Ok (r', st) => Some (mkLoader f o rest [] r' (ts ++ if st : bool then [SNew] else []) false)
          | _ => None
          end
      | _, _ => None
      end
  | CRead =>
      match d, cut_line [] b, next_read l with
      | false, None, x :: c => if (length b <? 4096)%nat then Some (mkLoader f (o + length (x :: c)) (b ++ x :: c) a r ts false) else None
      | _, _, _ => None
      end
  | CEof =>
      match d, cut_line [] b, next_read l with
      | false, None, [] => if (length b <? 4096)%nat then Some (mkLoader f o b a r ts true) else None
      | _, _, _ => None
      end
  | CCollect i =>
      match nth_error ts i, SaveIndex L inc now r (ListNames now r) with
      | Some SNew, Ok (r', text) =>
          match list_set ts i (SWait text) with Some ts' => Some (mkLoader f o b a r' ts' d) | None => None end
      | _, _ => None
      end
  | COpen i =>
      match nth_error ts i with
      | Some (SWait text) =>
          match list_set ts i (SWriting (chunks text)) with Some ts' => Some (mkLoader [] o b a r ts' d) | None => None end
      | _ => None
      end
  | CWrite i =>
      match nth_error ts i with
      | Some (SWriting (c :: rest)) =>
          match list_set ts i (SWriting rest) with Some ts' => Some (mkLoader (f ++ c) o b a r ts' d) | None => None end
      | _ => None
      end
  end.
Fixpoint choose_all L inc now (cs : list choice) (l : loader) : option loader :=
  match cs with
  | [] => Some l
  | c :: cs' => match choose L inc now c l with Some l' => choose_all L inc now cs' l' | None => None end
  end.
Lemma choose_sound : forall L inc now c l l', choose L inc now c l = Some l' -> lstep L inc now l l'.
Proof.
  intros L inc now c [f o b a r ts d] l' E. destruct c; cbn [choose] in E.
  - destruct d; [discriminate|]. destruct (cut_line [] b) as [[line rest]|] eqn:E1; [|discriminate].
    destruct (load_line L inc now r (a ++ line)) as [[r' st]| |] eqn:E2; [|discriminate..]. injection E as <-. eapply ls_line; eauto.
  - destruct d; [discriminate|]. destruct (cut_line [] b) as [[line rest]|] eqn:E1; [discriminate|].
    destruct (next_read _) as [|x c] eqn:E2; [discriminate|]. destruct (Nat.ltb_spec (length b) 4096); [|discriminate]. injection E as <-.
    pose proof (ls_read L inc now f o b a r ts E1 H) as S. cbv zeta in S. rewrite E2 in S. apply S. discriminate.
  - destruct d; [discriminate|]. destruct (cut_line [] b) as [[line rest]|] eqn:E1; [discriminate|].
    destruct (next_read _) as [|x c] eqn:E2; [|discriminate]. destruct (Nat.ltb_spec (length b) 4096); [|discriminate]. injection E as <-.
    apply ls_eof; auto.
  - destruct (nth_error ts i) as [[]|] eqn:E1; try discriminate.
    destruct (SaveIndex L inc now r (ListNames now r)) as [[r' text]| |] eqn:E2; try discriminate.
    destruct (list_set ts i (SWait text)) as [ts'|] eqn:E3; [|discriminate]. injection E as <-. eapply ls_collect; eauto.
  - destruct (nth_error ts i) as [[]|] eqn:E1; try discriminate.
    destruct (list_set _ _ _) as [ts'|] eqn:E3; [|discriminate]. injection E as <-. apply ls_file. eapply ss_open; eauto.
  - destruct (nth_error ts i) as [[| |[]]|] eqn:E1; try discriminate.
    destruct (list_set _ _ _) as [ts'|] eqn:E3; [|discriminate]. injection E as <-. apply ls_file. eapply ss_write; eauto.
Qed.
Lemma lrun_first : forall L inc now x y z, lstep L inc now x y -> lrun L inc now y z -> lrun L inc now x z.
Proof. intros L inc now x y z S R. induction R; [eapply lr_step; [apply lr_here|exact S]|]. eapply lr_step; eauto. Qed.
Lemma choose_all_sound : forall L inc now cs l l', choose_all L inc now cs l = Some l' -> lrun L inc now l l'.
Proof.
  induction cs as [|c cs IH]; intros l l' E; cbn in E; [injection E as <-; apply lr_here|].
  destruct (choose L inc now c l) as [l1|] eqn:E1; [|discriminate]. eapply lrun_first; [eapply choose_sound; exact E1|]. apply IH. exact E.
Qed.

Definition forty_state : dstate :=
  match drun fresh close_it (mkDS [] []) forty_created with Ok s => s | _ => mkDS [] [] end.
Definition forty_text : bytes :=
  match SaveIndex simple_lib fresh 5 forty_state (ListNames 5 forty_state) with Ok (_, t) => t | _ => [] end.
(** The schedule: one read, the first line, the saver of the first dataset; then the
    remaining lines of the buffer; the file ends; the other savers. *)
Definition bad_schedule : list choice :=
  [CRead; CLine; CCollect 0; COpen 0; CWrite 0] ++ repeat CLine 29 ++ [CEof] ++
  flat_map (fun i => [CCollect i; COpen i; CWrite i]) (seq 1 29).

Lemma fresh_keeps : forall now d old, (old <= 0)%Z \/ (now <= old)%Z ->
  (fresh now d old <= 0)%Z \/ (now <= fresh now d old)%Z.
Proof.
  intros. unfold fresh, dl_expiry. destruct (Z.eqb_spec d 0); [lia|]. destruct (Z.ltb_spec 0 d); lia.
Qed.

Lemma default_storable : forall n, valid_text n -> storable (GetDefaultConfig n).
Proof. intros n H. repeat split; auto. Qed.

Theorem C38_large_refuted : exists s names s1 text l n,
  reachable fresh close_it s /\ Permutation names (ListNames 5 s) /\
  SaveIndex simple_lib fresh 5 s names = Ok (s1, text) /\
  (exists a, holds 5 s n a) /\
  lrun simple_lib fresh 9 (load_start text) l /\ lDone l = true /\ Forall finished (lSavers l) /\
  ~ (exists a, holds 9 (lReg l) n a) /\
  (forall s', LoadIndex simple_lib fresh 11 (lFile l) = Ok s' -> ~ exists a, holds 11 s' n a).
Proof.
  exists forty_state, (ListNames 5 forty_state).
  destruct (SaveIndex simple_lib fresh 5 forty_state (ListNames 5 forty_state)) as [[s1 t]| |] eqn:E.
  2, 3: vm_compute in E; discriminate.
  exists s1, forty_text.
  destruct (choose_all simple_lib fresh 9 bad_schedule (load_start forty_text)) as [l|] eqn:R.
  2: { vm_compute in R; discriminate. }
  exists l, (bs "dataset-05").
  assert (RS : reachable fresh close_it forty_state).
  { exists forty_created. vm_compute. reflexivity. }
  split; [exact RS|]. split; [reflexivity|]. split.
  { unfold forty_text. rewrite E. reflexivity. }
  assert (I : inv forty_state) by (eapply (reachable_inv fresh close_it close_keeps); eauto).
  split. { exists 5%nat. apply get_holds; auto. }
  split. { apply choose_all_sound with (cs := bad_schedule). exact R. }
  assert (IL : inv (lReg l) /\ lDone l = true /\ Forall finished (lSavers l) /\ dl_get 9 (lReg l) (bs "dataset-05") = None /\
    match LoadIndex simple_lib fresh 11 (lFile l) with Ok s' => inv s' /\ dl_get 11 s' (bs "dataset-05") = None | _ => False end).
  { assert (Q : match choose_all simple_lib fresh 9 bad_schedule (load_start forty_text) with
        | Some l' => (lDone l' && forallb (fun t => match t with SWriting [] => true | _ => false end) (lSavers l'),
              dl_get 9 (lReg l') (bs "dataset-05"),
              match LoadIndex simple_lib fresh 11 (lFile l') with Ok s' => Some (dl_get 11 s' (bs "dataset-05")) | _ => None end)
        | None => (false, None, None) end = (true, None, Some None)) by (vm_compute; reflexivity).
    rewrite R in Q. injection Q as Q1 Q2 Q3. apply andb_true_iff in Q1. destruct Q1 as [Q0 Q1].
    split. { eapply (lrun_inv simple_lib fresh 9 (fresh_keeps 9)); [eapply choose_all_sound; exact R|]. apply empty_inv. }
    split; auto. split. { apply Forall_forall. intros t' It. rewrite forallb_forall in Q1. specialize (Q1 _ It).
      destruct t' as [| |[]]; first [discriminate Q1|reflexivity]. }
    split; auto. destruct (LoadIndex simple_lib fresh 11 (lFile l)) as [s'| |] eqn:EL; [|discriminate Q3..]. injection Q3 as Q3.
    split; auto. eapply (load_inv simple_lib fresh 11 (fresh_keeps 11)); [apply empty_inv|exact EL]. }
  destruct IL as (I2 & D & FS & G & LD). split; [exact D|]. split; [exact FS|]. split.
  - intros [a H]. apply get_holds in H; auto. congruence.
  - intros s' Es [a H]. rewrite Es in LD. destruct LD as [I3 G3]. apply get_holds in H; auto. congruence.
Qed.
Print Assumptions C38_large_refuted.

(** Three datasets, one with a name of quotes, a newline and a non-ASCII character
    and a target utilization of -0. *)
Definition odd_name : bytes := [34; 10; 92; 206; 187].
Definition three : list DataConfig :=
  [GetDefaultConfig (bs "a"); mkDataConfig odd_name 18446744073709551615 7 (S754_zero true) true 4294967295 false 60;
   mkDataConfig [] 1 0 (S754_finite true 4503599627370496 (-1074)) false 0 true 0].
Definition three_state : dstate :=
  match drun fresh close_it (mkDS [] []) (map (EvCreate 0) three) with Ok s => s | _ => mkDS [] [] end.
Lemma three_reachable : reachable fresh close_it three_state.
Proof. exists (map (EvCreate 0) three). vm_compute. reflexivity. Qed.
Lemma three_inv : inv three_state.
Proof. apply (reachable_inv fresh close_it close_keeps). exact three_reachable. Qed.
Lemma three_storable : forall c, has_dataset 5 three_state c -> storable c.
Proof.
  intros c (a & m & H & dt & X & Y & _).
  assert (F : Forall (fun dt => match dConfig dt with Some c => storable c | None => True end) (dsObjs three_state)).
  { cbv [three_state]. cbn -[three_state]. repeat constructor.
    1, 3: cbn; ascii. 
    exists [34; 10; 92; 955]. split; [|reflexivity]. repeat constructor; unfold rune_ok; lia. }
  rewrite Forall_forall in F. apply nth_error_In in X. specialize (F _ X). rewrite Y in F. exact F.
Qed.
Example C38_instance : exists s1 text s' a, SaveIndex simple_lib fresh 5 three_state [odd_name; []; bs "a"] = Ok (s1, text) /\
  LoadIndex simple_lib fresh 9 text = Ok s' /\ holds 9 s' odd_name a.
Proof.
  destruct (C38_save_load_partial simple_lib fresh close_it three_state 5 [odd_name; []; bs "a"] 9 simple_roundtrip
    close_keeps three_reachable three_storable) as (s1 & text & s' & A & B & C & _).
  - replace (ListNames 5 three_state) with [[]; odd_name; bs "a"] by (vm_compute; reflexivity). apply perm_swap.
  - exists s1, text, s'. destruct (proj2 (C odd_name)) as [a H].
    { exists 1%nat. apply get_holds; [exact three_inv|]. reflexivity. }
    eauto.
Qed.

Definition three_text : bytes :=
  match SaveIndex simple_lib fresh 5 three_state (ListNames 5 three_state) with Ok (_, t) => t | _ => [] end.
Lemma three_saved : exists s1, SaveIndex simple_lib fresh 5 three_state (ListNames 5 three_state) = Ok (s1, three_text).
Proof. eexists. vm_compute. reflexivity. Qed.
Lemma three_small : (length three_text <= 4096)%nat.
Proof. apply Nat.leb_le. vm_compute. reflexivity. Qed.
Lemma three_ends : ends_line three_text.
Proof. right. exists (removelast three_text). vm_compute. reflexivity. Qed.
Opaque three_text.
Example C38_instance_small : forall l, lrun simple_lib fresh 9 (load_start three_text) l -> lDone l = true ->
  exists a, holds 9 (lReg l) odd_name a.
Proof.
  intros l R D. destruct three_saved as [s1 E].
  apply (C38_small_partial simple_lib fresh close_it three_state 5 (ListNames 5 three_state) 9 s1 three_text l simple_roundtrip
    close_keeps three_reachable three_storable (Permutation_refl _) (fresh_keeps 9) E three_small R D) with (a := 1%nat).
  apply get_holds; [exact three_inv|]. reflexivity.
Qed.

(** C39 A crash while saving never corrupts a configuration: from any prefix of the
    text, loading restores the first [j] datasets written and nothing else, each
    with its configuration. *)
Theorem C39_crash_prefix : forall L inc closed s t names t' s1 text p rest, float_roundtrip L -> keeps_config closed ->
  reachable inc closed s -> (forall c, has_dataset t s c -> storable c) -> Permutation names (ListNames t s) ->
  SaveIndex L inc t s names = Ok (s1, text) -> text = p ++ rest ->
  exists s' j, LoadIndex L inc t' p = Ok s' /\
    (forall n, (exists a, holds t' s' n a) <-> In n (firstn j names)) /\
    (forall n a', holds t' s' n a' -> exists a c m c', holds t s n a /\ object s a c m /\
       object s' a' c' [] /\ same_dataconfig c c').
Proof.
  intros L inc closed s t names t' s1 text p rest RT K R ST P E EP. pose proof (reachable_inv inc closed K s R) as I.
  destruct (save_all L inc t s names I P ST) as (s1' & cs & E' & NM & ND & HC & SC & I1 & ALL & _).
  rewrite E in E'. injection E' as -> ->. rewrite <- NM in ND.
  destruct (load_prefix L RT inc t' cs p rest SC ND EP) as (j & s' & J & JR & _ & EL & I' & A & B).
  exists s', j. split; [exact EL|]. rewrite <- NM, firstn_map. rewrite Forall_forall in HC. split.
  - intro n. split.
    + intros [a H]. apply get_holds in H; auto. eapply B; eauto.
    + intro H. apply in_map_iff in H. destruct H as (c & <- & Ic). destruct (A _ Ic) as (a' & G' & _). exists a'. apply get_holds; auto.
  - intros n a' H. apply get_holds in H; auto. pose proof (B _ _ H) as Hn. apply in_map_iff in Hn. destruct Hn as (c & <- & Ic).
    destruct (A _ Ic) as (a2 & G2 & dt2 & X2 & Y2 & Z2). assert (a' = a2) by congruence. subst a2.
    assert (Ic' : In c cs). { rewrite <- (firstn_skipn j cs). apply in_or_app. auto. }
    destruct (HC _ Ic') as (a & m & Ha & Hob). exists a, c, m, (norm c). split; auto. split; auto. split; [exists dt2; auto|apply norm_same].
Qed.
Print Assumptions C39_crash_prefix.

(** A crash after 200 bytes of the three datasets. *)
Example C39_instance : exists s' j, LoadIndex simple_lib fresh 9 (firstn 200 three_text) = Ok s' /\
  forall n, (exists a, holds 9 s' n a) <-> In n (firstn j (ListNames 5 three_state)).
Proof.
  destruct three_saved as [s1 E].
  destruct (C39_crash_prefix simple_lib fresh close_it three_state 5 (ListNames 5 three_state) 9 s1 three_text
    (firstn 200 three_text) (skipn 200 three_text) simple_roundtrip
    close_keeps three_reachable three_storable (Permutation_refl _) E (eq_sym (firstn_skipn _ _))) as (s' & j & A & B & _). eauto.
Qed.
(** Of 5440 bytes for forty datasets, the first 1000 give seven of them. *)
Example C39_instance_some : exists s', LoadIndex simple_lib fresh 9 (firstn 1000 forty_text) = Ok s' /\
  length (ListNames 9 s') = 7%nat.
Proof. eexists. split; vm_compute; reflexivity. Qed.

(** C40 A crash while saving loses nothing.  What holds: at any point of the save,
    loading gives all datasets saved before, or the first ones of those being saved
    (all of them if the save got to its end).  Missing: that none is lost in
    between. *)
Theorem C40_crash_partial : forall L inc closed s0 t0 names0 s1 old s t names s2 new f t',
  float_roundtrip L -> keeps_config closed ->
  reachable inc closed s0 -> (forall c, has_dataset t0 s0 c -> storable c) -> Permutation names0 (ListNames t0 s0) ->
  SaveIndex L inc t0 s0 names0 = Ok (s1, old) ->
  reachable inc closed s -> (forall c, has_dataset t s c -> storable c) -> Permutation names (ListNames t s) ->
  SaveIndex L inc t s names = Ok (s2, new) ->
  during_save old new f ->
  exists s', LoadIndex L inc t' f = Ok s' /\
    ((forall n, (exists a, holds t' s' n a) <-> (exists a, holds t0 s0 n a)) \/
     (exists j, (f = new -> j = length names) /\
        forall n, (exists a, holds t' s' n a) <-> In n (firstn j names))).
Proof.
  intros L inc closed s0 t0 names0 s1 old s t names s2 new f t' RT K R0 ST0 P0 E0 R ST P E D.
  destruct D as [|p rest EP].
  - destruct (C38_save_load_partial L inc closed s0 t0 names0 t' RT K R0 ST0 P0) as (s1' & text & s' & A & B & C & _).
    rewrite E0 in A. injection A as <- <-. exists s'. auto.
  - pose proof (reachable_inv inc closed K s R) as I.
    destruct (save_all L inc t s names I P ST) as (s1' & cs & E' & NM & ND & HC & SC & I1 & ALL & _).
    rewrite E in E'. injection E' as -> ->. rewrite <- NM in ND.
    destruct (load_prefix L RT inc t' cs p rest SC ND EP) as (j & s' & J & JR & _ & EL & I' & A & B).
    exists s'. split; [exact EL|]. right. exists j. split.
    { intros Q. rewrite <- NM, map_length. apply JR. rewrite EP in Q.
      destruct rest; auto. exfalso. apply (f_equal (@length N)) in Q. rewrite app_length in Q. cbn in Q. lia. }
    rewrite <- NM, firstn_map. intro n. split.
    + intros [a H]. apply get_holds in H; auto. eapply B; eauto.
    + intro H. apply in_map_iff in H. destruct H as (c & <- & Ic). destruct (A _ Ic) as (a' & G' & _). exists a'. apply get_holds; auto.
Qed.
Print Assumptions C40_crash_partial.

(** The full statement is false: O_TRUNC empties the file first. *)
Theorem C40_truncate_refuted : exists s s1 text f s',
  reachable fresh close_it s /\ SaveIndex simple_lib fresh 5 s (ListNames 5 s) = Ok (s1, text) /\
  during_save text text f /\ LoadIndex simple_lib fresh 9 f = Ok s' /\
  (exists n a, holds 5 s n a) /\ forall n a, ~ holds 9 s' n a.
Proof.
  destruct three_saved as [s1 E]. exists three_state, s1, three_text, [], (mkDS [] []).
  split; [exact three_reachable|]. split; [exact E|]. split; [apply (ds_part _ _ [] three_text); reflexivity|].
  split; [reflexivity|]. split.
  - exists (bs "a"), 0%nat. apply get_holds; [exact three_inv|]. reflexivity.
  - intros n a (i & [] & _).
Qed.
Print Assumptions C40_truncate_refuted.

Example C40_instance : exists s', LoadIndex simple_lib fresh 9 three_text = Ok s' /\
  ((forall n, (exists a, holds 9 s' n a) <-> (exists a, holds 5 three_state n a)) \/
   (exists j, (three_text = three_text -> j = length (ListNames 5 three_state)) /\
      forall n, (exists a, holds 9 s' n a) <-> In n (firstn j (ListNames 5 three_state)))).
Proof.
  destruct three_saved as [s1 E].
  eapply (C40_crash_partial simple_lib fresh close_it three_state 5 (ListNames 5 three_state) s1 three_text
    three_state 5 (ListNames 5 three_state) s1 three_text three_text 9); eauto using simple_roundtrip, close_keeps, three_reachable, three_storable.
  apply ds_before.
Qed.

(** C41 Concurrent saves do not corrupt the index.  What holds: if every text has
    at most 4096 bytes (one write each), every complete line of the file is a line
    of one of the texts or of the file before. *)
Theorem C41_small_partial : forall file0 ts0 file ts, 
  ends_line file0 -> Forall (fun t => exists u, t = SWait u /\ ends_line u /\ (length u <= 4096)%nat) ts0 ->
  saver_run (file0, ts0) (file, ts) ->
  forall line, In line (read_lines [] file) ->
    In line (read_lines [] file0) \/ exists u, In (SWait u) ts0 /\ In line (read_lines [] u).
Proof.
  intros file0 ts0 file ts F0 F R line H.
  set (ok := fun u => ends_line u /\ (u = file0 \/ In (SWait u) ts0)).
  destruct (savers_whole ok _ _ R) as (_ & l & E & O).
  - cbn [snd]. apply Forall_forall. intros t It. rewrite Forall_forall in F. destruct (F t It) as (u & -> & A & B). cbn. unfold ok. auto.
  - exists [file0]. cbn. rewrite app_nil_r. split; auto. constructor; [|constructor]. split; auto.
  - cbn [fst] in E. subst file. rewrite read_concat in H.
    2:{ eapply Forall_impl; [|exact O]. intros u [U _]. exact U. }
    apply in_flat_map in H. destruct H as (u & Iu & Hl). rewrite Forall_forall in O. destruct (O u Iu) as [_ [->|Q]]; eauto.
Qed.
Print Assumptions C41_small_partial.

(** In general it is false.  Thirty-three datasets, the last one with its own targets;
    two savers that walk the map in different orders.  The load then finds a
    configuration that never existed. *)
Definition ds (k : nat) : bytes := bs "ds-" ++ [48 + N.of_nat k / 10; 48 + N.of_nat k mod 10].
Definition special : DataConfig := mkDataConfig (ds 32) 0 5000 f0_4 false 3 true 0.
Definition many : list DataConfig := map (fun k => GetDefaultConfig (ds k)) (seq 0 32) ++ [special].
Definition many_state : dstate :=
  match drun fresh close_it (mkDS [] []) (map (EvCreate 0) many) with Ok s => s | _ => mkDS [] [] end.
Definition order_a : list bytes := map ds (seq 0 33).
Definition order_b : list bytes := map ds (seq 0 31 ++ [32; 31]%nat).
Definition text_of (names : list bytes) : bytes :=
  match SaveIndex simple_lib fresh 5 many_state names with Ok (_, t) => t | _ => [] end.
Definition mangled : DataConfig := mkDataConfig (ds 32) 0 5000 f0_4 false 1 true 0.

Lemma saver_first : forall x y z, saver_step x y -> saver_run y z -> saver_run x z.
Proof. intros x y z S R. induction R; [eapply sv_step; [apply sv_here|exact S]|]. eapply sv_step; eauto. Qed.

Theorem C41_mangled_refuted : exists s1 s2 file ts s',
  reachable fresh close_it many_state /\
  Permutation order_a (ListNames 5 many_state) /\ Permutation order_b (ListNames 5 many_state) /\
  SaveIndex simple_lib fresh 5 many_state order_a = Ok (s1, text_of order_a) /\
  SaveIndex simple_lib fresh 5 many_state order_b = Ok (s2, text_of order_b) /\
  saver_run ([], [SWait (text_of order_a); SWait (text_of order_b)]) (file, ts) /\ Forall finished ts /\
  LoadIndex simple_lib fresh 9 file = Ok s' /\ has_dataset 9 s' mangled /\
  (forall c, has_dataset 5 many_state c -> ~ same_dataconfig c mangled).
Proof.
  assert (RM : reachable fresh close_it many_state).
  { exists (map (EvCreate 0) many). vm_compute. reflexivity. }
  pose proof (reachable_inv fresh close_it close_keeps _ RM) as IM.
  assert (PM : ListNames 5 many_state = rev order_a) by (vm_compute; reflexivity).
  set (a1 := firstn 4096 (text_of order_a)). set (a2 := skipn 4096 (text_of order_a)).
  set (b1 := firstn 4096 (text_of order_b)). set (b2 := skipn 4096 (text_of order_b)).
  assert (CA : chunks (text_of order_a) = [a1; a2]) by (vm_compute; reflexivity).
  assert (CB : chunks (text_of order_b) = [b1; b2]) by (vm_compute; reflexivity).
  assert (EA : exists s1, SaveIndex simple_lib fresh 5 many_state order_a = Ok (s1, text_of order_a)).
  { eexists. vm_compute. reflexivity. }
  assert (EB : exists s1, SaveIndex simple_lib fresh 5 many_state order_b = Ok (s1, text_of order_b)).
  { eexists. vm_compute. reflexivity. }
  destruct EA as [s1 EA]. destruct EB as [s2 EB].
  assert (LD : exists s' dt, LoadIndex simple_lib fresh 9 (((([] ++ a1) ++ b1) ++ a2) ++ b2) = Ok s' /\
     exists a, dl_get 9 s' (ds 32) = Some a /\ nth_error (dsObjs s') a = Some dt /\ dConfig dt = Some mangled).
  { eexists. eexists. split; [vm_compute; reflexivity|]. eexists. split; [vm_compute; reflexivity|].
    split; vm_compute; reflexivity. }
  destruct LD as (s' & dt & LD & a & G & X & Y).
  exists s1, s2, (((([] ++ a1) ++ b1) ++ a2) ++ b2), [SWriting []; SWriting []], s'.
  split; [exact RM|]. split. { rewrite PM. apply Permutation_rev. }
  split. { rewrite PM. eapply perm_trans; [|apply Permutation_rev]. unfold order_b, order_a. apply Permutation_map.
    change (seq 0 33) with (seq 0 31 ++ [31; 32]%nat). apply Permutation_app_head. apply perm_swap. }
  split; [exact EA|]. split; [exact EB|]. split.
  { eapply saver_first. { apply ss_open with (i := 0%nat) (text := text_of order_a); reflexivity. }
    eapply saver_first. { apply ss_open with (i := 1%nat) (text := text_of order_b); reflexivity. }
    rewrite CA, CB.
    eapply saver_first. { apply ss_write with (i := 0%nat) (c := a1) (rest := [a2]); reflexivity. }
    eapply saver_first. { apply ss_write with (i := 1%nat) (c := b1) (rest := [b2]); reflexivity. }
    eapply saver_first. { apply ss_write with (i := 0%nat) (c := a2) (rest := []); reflexivity. }
    eapply saver_first. { apply ss_write with (i := 1%nat) (c := b2) (rest := []); reflexivity. }
    apply sv_here. }
  split; [repeat constructor|]. split; [exact LD|]. split.
  { exists a, (dDBMap dt). split; [|exists dt; auto]. apply get_holds; [|exact G].
    eapply (load_inv simple_lib fresh 9 (fresh_keeps 9)); [apply empty_inv|exact LD]. }
  intros c (a' & m & H & dt' & X' & Y' & _) Sm. apply get_holds in H; auto. destruct Sm as (Nm & _ & _ & _ & _ & Rp & _).
  rewrite Nm in H. change (cName mangled) with (ds 32) in H.
  assert (Q : dl_get 5 many_state (ds 32) = Some 32%nat) by (vm_compute; reflexivity). rewrite Q in H. injection H as <-.
  assert (Q2 : match nth_error (dsObjs many_state) 32 with Some d => match dConfig d with Some c => cReplicationOnInsert c | None => 0 end | None => 0 end = 3)
    by (vm_compute; reflexivity).
  rewrite X', Y' in Q2. rewrite Rp in Q2. discriminate Q2.
Qed.
Print Assumptions C41_mangled_refuted.

Example C41_instance : forall file ts line,
  saver_run ([], [SWait three_text; SWait (bs "{}" ++ [newline])]) (file, ts) -> In line (read_lines [] file) ->
  In line (read_lines [] three_text) \/ line = bs "{}" ++ [newline].
Proof.
  intros file ts line R H.
  assert (F : Forall (fun t => exists u, t = SWait u /\ ends_line u /\ (length u <= 4096)%nat)
                [SWait three_text; SWait (bs "{}" ++ [newline])]).
  { constructor; [|constructor; [|constructor]].
    - exists three_text. split; [reflexivity|]. split; [exact three_ends|exact three_small].
    - exists (bs "{}" ++ [newline]). split; [reflexivity|]. split; [right; eauto|cbn; lia]. }
  destruct (C41_small_partial _ _ _ _ (or_introl eq_refl) F R line H) as [[]|(u & [Q|[Q|[]]] & Iu)].
  - injection Q as <-. auto.
  - injection Q as <-. destruct Iu as [<-|[]]. auto.
Qed.

(** C42 Data survives a restart: it does not.  A dataset with a datum is saved and
    loaded; it is empty then. *)
Theorem C42_data_lost_refuted : exists s a m s1 text s' a',
  reachable inc_now close_it s /\ holds 5 s (bs "a") a /\ object s a (cfg (bs "a") 1) m /\ m <> [] /\
  SaveIndex simple_lib inc_now 5 s (ListNames 5 s) = Ok (s1, text) /\
  LoadIndex simple_lib inc_now 9 text = Ok s' /\ holds 9 s' (bs "a") a' /\ object s' a' (cfg (bs "a") 1) [].
Proof.
  exists one_datum, 0%nat, [([1], mkEntry 0 (mkDatum None None))].
  assert (E : exists s1 text s', SaveIndex simple_lib inc_now 5 one_datum (ListNames 5 one_datum) = Ok (s1, text) /\
     LoadIndex simple_lib inc_now 9 text = Ok s' /\ s' = mkDS [InitData (NewPreData (cfg (bs "a") 1))] [(bs "a", mkDI 0 1209600000000009)]).
  { eexists. eexists. eexists. split; [vm_compute; reflexivity|]. split; vm_compute; reflexivity. }
  destruct E as (s1 & text & s' & E1 & E2 & ->). exists s1, text. eexists. exists 0%nat. split.
  { exists [EvCreate 0 (cfg (bs "a") 1); EvData 0 with_datum]. vm_compute. reflexivity. }
  split. { eexists. split; [left; reflexivity|]. split; auto. right. cbn. lia. }
  split. { eexists. split; [reflexivity|]. auto. }
  split; [discriminate|]. split; [exact E1|]. split; [exact E2|]. split.
  { eexists. split; [left; reflexivity|]. split; auto. right. cbn. lia. }
  eexists. split; [reflexivity|]. auto.
Qed.
Print Assumptions C42_data_lost_refuted.

(** What a restart gives back, for every registry and all data: the datasets, empty
    (C38_save_load_partial).  Every dataset that loading any text creates is empty. *)
Theorem C42_restart_partial : forall L inc now file s', LoadIndex L inc now file = Ok s' ->
  forall a dt, nth_error (dsObjs s') a = Some dt -> dDBMap dt = [] /\ dInitialized dt = true.
Proof.
  intros L inc now file s' E. unfold LoadIndex in E.
  assert (H : forall lines s, inv s -> (forall a dt, nth_error (dsObjs s) a = Some dt -> dDBMap dt = [] /\ dInitialized dt = true) ->
    load_lines L inc now s lines = Ok s' -> forall a dt, nth_error (dsObjs s') a = Some dt -> dDBMap dt = [] /\ dInitialized dt = true).
  { clear. induction lines as [|x lines IH]; intros s I H E; cbn [load_lines] in E.
    - injection E as <-. exact H.
    - destruct (UnmarshalConfig L x) as [c|]; [|eapply IH; eauto].
      destruct (create_ok inc deep now s c I) as (s1 & E1 & C); [unfold deep; lia|].
      rewrite E1 in E. cbn [bind] in E. eapply IH; [eapply created_inv; eauto| |exact E].
      unfold created in C. destruct (dl_get now s (cName c)) as [b|] eqn:G.
      + destruct C as (_ & U & O). intros a dt X. destruct (Nat.eq_dec a b) as [->|N].
        * pose proof I as [_ J]. destruct (get_some _ _ _ _ G) as (i & Ei & <- & _). destruct (J _ _ Ei) as (dt0 & c0 & A & B & _).
          rewrite (U _ _ A B) in X. injection X as <-. destruct (cVersion c0 <? cVersion c); apply (H _ _ A).
        * rewrite O in X by auto. eapply H; eauto.
      + subst s1. intros a dt X. unfold added in X. cbn [dsObjs] in X.
        destruct (Nat.lt_ge_cases a (length (dsObjs s))) as [Q|Q].
        * rewrite nth_error_app1 in X by auto. eapply H; eauto.
        * rewrite nth_error_app2 in X by auto. destruct (a - length (dsObjs s))%nat as [|[|]]; try discriminate X.
          injection X as <-. split; reflexivity. }
  eapply H; [apply empty_inv| |exact E]. intros [|] dt X; discriminate X.
Qed.
Print Assumptions C42_restart_partial.
Example C42_instance : exists s', LoadIndex simple_lib fresh 9 three_text = Ok s' /\ length (dsObjs s') = 3%nat.
Proof. eexists. split; vm_compute; reflexivity. Qed.

(** C68 When all saves have finished, the index lists every dataset.  What holds, for
    texts of at most 4096 bytes: at least one saver's whole text is in the file. *)
Theorem C68_last_save_partial : forall file0 ts0 file ts, ts0 <> [] ->
  Forall (fun t => exists u, t = SWait u /\ (length u <= 4096)%nat) ts0 ->
  saver_run (file0, ts0) (file, ts) -> Forall finished ts ->
  exists u a b, In (SWait u) ts0 /\ file = a ++ u ++ b.
Proof.
  intros file0 ts0 file ts NE F R D. destruct (savers_some ts0 file0 _ R F) as (Ln & _ & B). cbn [fst snd] in *.
  rewrite Forall_forall in D, F. destruct B as [->|(i & u & U0 & [U|(a & b & E)])].
  - exfalso. destruct ts0 as [|t ts0]; [congruence|]. destruct (F t (or_introl eq_refl)) as (u & -> & _).
    specialize (D _ (or_introl eq_refl)). discriminate D.
  - specialize (D _ (nth_error_In _ _ U)). discriminate D.
  - exists u, a, b. split; auto. eapply nth_error_In; eauto.
Qed.
Print Assumptions C68_last_save_partial.

(** The full statement is false: a saver that collected its text before a dataset
    was created opens the file after the one that collected it afterwards. *)
Theorem C68_stale_refuted : exists s s' s1 s2 old new file ts,
  reachable fresh close_it s /\ SaveIndex simple_lib fresh 5 s (ListNames 5 s) = Ok (s1, old) /\
  CreateIfNotExists fresh deep 6 s1 (GetDefaultConfig (bs "new")) = Ok s' /\
  SaveIndex simple_lib fresh 7 s' (ListNames 7 s') = Ok (s2, new) /\
  saver_run ([], [SWait old; SWait new]) (file, ts) /\ Forall finished ts /\
  (exists a, holds 7 s' (bs "new") a) /\
  forall r, LoadIndex simple_lib fresh 9 file = Ok r -> ~ exists a, holds 9 r (bs "new") a.
Proof.
  destruct three_saved as [s1 E]. 
  assert (Q : exists s' s2 new, CreateIfNotExists fresh deep 6 s1 (GetDefaultConfig (bs "new")) = Ok s' /\
     SaveIndex simple_lib fresh 7 s' (ListNames 7 s') = Ok (s2, new) /\ chunks new = [new] /\
     dl_get 7 s' (bs "new") <> None).
  { assert (I1 : s1 = match SaveIndex simple_lib fresh 5 three_state (ListNames 5 three_state) with Ok (x, _) => x | _ => three_state end) by (rewrite E; auto).
    rewrite I1. eexists. eexists. eexists. split; [vm_compute; reflexivity|]. split; [vm_compute; reflexivity|].
    split; [vm_compute; reflexivity|]. vm_compute. discriminate. }
  destruct Q as (s' & s2 & new & Q1 & Q2 & Q3 & Q4).
  exists three_state, s', s1, s2, three_text, new, ([] ++ three_text), [SWriting []; SWriting []].
  split; [exact three_reachable|]. split; [exact E|]. split; [exact Q1|]. split; [exact Q2|]. split.
  { eapply saver_first. { apply ss_open with (i := 1%nat) (text := new); reflexivity. }
    rewrite Q3. eapply saver_first. { apply ss_write with (i := 1%nat) (c := new) (rest := []); reflexivity. }
    eapply saver_first. { apply ss_open with (i := 0%nat) (text := three_text); reflexivity. }
    replace (chunks three_text) with [three_text] by (vm_compute; reflexivity).
    eapply saver_first. { apply ss_write with (i := 0%nat) (c := three_text) (rest := []); reflexivity. }
    apply sv_here. }
  split; [repeat constructor|]. split.
  { destruct (dl_get 7 s' (bs "new")) as [a|] eqn:G; [|congruence]. exists a.
    destruct (save_all simple_lib fresh 5 three_state (ListNames 5 three_state) three_inv (Permutation_refl _) three_storable)
      as (s1' & cs & E' & _ & _ & _ & _ & I1 & _). rewrite E in E'. injection E' as <- _.
    apply get_holds; auto. destruct (create_ok fresh deep 6 s1 (GetDefaultConfig (bs "new")) I1) as (x & E1 & C); [unfold deep; lia|].
    rewrite Q1 in E1. injection E1 as <-. eapply created_inv; eauto. }
  intros r Er [a H]. apply get_holds in H.
  2:{ eapply (load_inv simple_lib fresh 9 (fresh_keeps 9)); [apply empty_inv|exact Er]. }
  assert (X : match LoadIndex simple_lib fresh 9 ([] ++ three_text) with Ok r => dl_get 9 r (bs "new") | _ => None end = None) by (vm_compute; reflexivity).
  rewrite Er in X. congruence.
Qed.
Print Assumptions C68_stale_refuted.
Example C68_instance : forall file ts, saver_run ([], [SWait three_text; SWait (bs "{}" ++ [newline])]) (file, ts) -> Forall finished ts ->
  exists u a b, In (SWait u) [SWait three_text; SWait (bs "{}" ++ [newline])] /\ file = a ++ u ++ b.
Proof.
  intros file ts R D. eapply C68_last_save_partial; [discriminate| |exact R|exact D]. repeat constructor.
  - exists three_text. split; [reflexivity|]. exact three_small.
  - eexists. split; [reflexivity|]. cbn. lia.
Qed.

(** C69 A deleted dataset stays deleted.  What holds: as long as nothing is asked of
    that name. *)
Theorem C69_deleted_partial : forall inc closed s now name s1 es s2 t, keeps_config closed ->
  reachable inc closed s -> Delete closed now s name = (s1, true) ->
  drun inc closed s1 es = Ok s2 -> Forall (fun e => event_name e <> Some name) es ->
  forall a, ~ holds t s2 name a.
Proof.
  intros inc closed s now name s1 es s2 t K R D E F a H. pose proof (reachable_inv inc closed K s R) as I.
  assert (N1 : mload (dsList s1) name = None /\ inv s1).
  { unfold Delete in D. destruct (dl_get now s name) as [b|]; [|discriminate D]. injection D as <-.
    split; [|apply delete_inv, close_inv; auto]. unfold dl_delete.
    destruct (mload (dsList (close_obj closed s b)) name) as [i|] eqn:M; [|exact M]. cbn [dsList].
    rewrite mload_mdelete, bytes_eqb_refl. reflexivity. }
  assert (G : mload (dsList s2) name = None /\ inv s2).
  { clear D R I H. revert s1 N1 E. induction F as [|e es Fe F IH]; intros s1 [N1 I1] E; cbn [drun] in E; [injection E as <-; auto|].
    destruct (step_all inc closed K s1 e I1) as (s' & E1 & I' & A & B). rewrite E1 in E. cbn [bind] in E.
    apply (IH s'); [|exact E]. split; auto. destruct (event_name e) as [n|] eqn:En.
    - destruct (A n eq_refl) as [[O _] _]. rewrite O; auto. congruence.
    - destruct e; try discriminate En. destruct (B _ _ eq_refl) as [Ls _]. rewrite Ls. exact N1. }
  destruct G as [G I2]. apply get_holds in H; auto. unfold dl_get in H. rewrite G in H. discriminate H.
Qed.
Print Assumptions C69_deleted_partial.

(** The full statement is false: a SaveIndex that walked the list before the deletion
    creates the dataset again, with the default configuration. *)
Theorem C69_resurrected_refuted : exists s s1 s2 text a,
  reachable fresh close_it s /\ Delete close_it 6 s odd_name = (s1, true) /\ (forall b, ~ holds 7 s1 odd_name b) /\
  SaveIndex simple_lib fresh 7 s1 (ListNames 5 s) = Ok (s2, text) /\
  holds 7 s2 odd_name a /\ object s2 a (GetDefaultConfig odd_name) [].
Proof.
  exists three_state.
  destruct (Delete close_it 6 three_state odd_name) as [s1 b] eqn:D.
  assert (B : b = true). { assert (X : snd (Delete close_it 6 three_state odd_name) = true) by (vm_compute; reflexivity). rewrite D in X. exact X. }
  subst b.
  assert (Q : exists s2 text dt, SaveIndex simple_lib fresh 7 (fst (Delete close_it 6 three_state odd_name)) (ListNames 5 three_state) = Ok (s2, text) /\
    (exists i, In (odd_name, i) (dsList s2) /\ diObj i = 3%nat /\ (7 <= diExpires i)%Z) /\ nth_error (dsObjs s2) 3 = Some dt /\
    dConfig dt = Some (GetDefaultConfig odd_name) /\ dDBMap dt = []).
  { eexists. eexists. eexists. split; [vm_compute; reflexivity|]. cbn [dsList dsObjs nth_error]. split.
    { eexists. split; [cbn; tauto|]. cbn. split; [reflexivity|lia]. }
    split; [reflexivity|]. split; reflexivity. }
  rewrite D in Q. cbn [fst] in Q. destruct Q as (s2 & text & dt & Q1 & (i & Q2 & Q3 & Q4) & Q5 & Q6 & Q7).
  exists s1, s2, text, 3%nat. split; [exact three_reachable|]. split; [reflexivity|]. split.
  { intro b. apply (C69_deleted_partial fresh close_it three_state 6 odd_name s1 [] s1 7 close_keeps three_reachable D eq_refl). constructor. }
  split; [exact Q1|]. split; [exists i; auto|]. exists dt. auto.
Qed.
Print Assumptions C69_resurrected_refuted.
Example C69_instance : forall s1, Delete close_it 6 three_state odd_name = (s1, true) ->
  forall s2, drun fresh close_it s1 [EvGet 7 (bs "b"); EvCreate 8 (cfg (bs "a") 3)] = Ok s2 -> forall a, ~ holds 9 s2 odd_name a.
Proof.
  intros s1 D s2 E. eapply (C69_deleted_partial fresh close_it three_state 6 odd_name s1 _ s2 9 close_keeps three_reachable D E).
  repeat constructor; discriminate.
Qed.

(** There are such states. *)
Example C69_instance_exists : exists s1 s2, Delete close_it 6 three_state odd_name = (s1, true) /\
  drun fresh close_it s1 [EvGet 7 (bs "b"); EvCreate 8 (cfg (bs "a") 3)] = Ok s2 /\
  ListNames 9 s2 = [bs "b"; []; bs "a"].
Proof. eexists. eexists. split; [vm_compute; reflexivity|]. split; [vm_compute; reflexivity|]. vm_compute. reflexivity. Qed.
