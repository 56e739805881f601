(** Property C121: the settings a server runs with. *)
From Verif.Base Require Import GoBase GoLemmas.
From Verif.Model Require Import Codec Node Serve Settings.
From Verif.Spec Require Import NodeSpec SettingsSpec.
From Verif.Proof Require Import NodeP.
Open Scope N_scope.

(** ** C121 *)

Lemma variable_nonempty : forall h n, variable h n = nonempty (hEnv h n).
Proof. intros. unfold variable, nonempty. destruct (hEnv h n) as [[|c v]|]; reflexivity. Qed.

Lemma first_default : forall A (o : option A) d, first [o; Some d] (match o with Some a => a | None => d end).
Proof. intros A [a|] d; repeat constructor. Qed.

Lemma first_unique : forall A (o : option A) d p, first [o; Some d] p -> p = match o with Some a => a | None => d end.
Proof.
  intros A [a|] d p F; inversion F as [? ? X|? ? X]; [reflexivity|]. inversion X. reflexivity.
Qed.

Lemma split_words : forall t, words t (split_comma t).
Proof.
  induction t as [|c t IH]; cbn [split_comma].
  - constructor. intros [].
  - destruct (c =? comma) eqn:E.
    + apply N.eqb_eq in E. subst c. apply (words_more []); auto.
    + apply N.eqb_neq in E. inversion IH as [x H1 H2 H3|x t' l H1 H2 H3 H4].
      * constructor. intros [X|X]; [congruence|]. subst x. auto.
      * apply (words_more (c :: x)); [|auto]. intros [X|X]; [congruence|]. auto.
Qed.

Lemma int_text_ok : forall z, integer_text z (int_text z).
Proof.
  intro z. unfold integer_text, int_text. destruct (z <? 0)%Z.
  - exists (decimal (Z.to_N (- z))). split; [reflexivity|]. apply decimal_text.
  - apply decimal_text.
Qed.

Lemma serve_reads : forall h temp f,
  (forall c, serve h temp f = Some c -> exists m, reads h f m /\ c = RunServer temp (configMap h m f)) /\
  (serve h temp f = None <->
   nonempty (fConfig f) = None /\ nonempty (hEnv h (bs "CONFIG")) = None /\
   nonempty (hEnv h (bs "VERICONFIG")) = None /\ hHome h = None).
Proof.
  intros h temp f. unfold serve, initConfig, cfgFile. rewrite !variable_nonempty.
  assert (F : fConfig f = nonempty (fConfig f) \/ (fConfig f = Some [] /\ nonempty (fConfig f) = None))
    by (destruct (fConfig f) as [[|c p]|]; cbn; auto).
  destruct (nonempty (fConfig f)) as [p|] eqn:E0.
  - destruct F as [F|[_ F]]; [|discriminate]. rewrite F. destruct p as [|c p].
    { rewrite F in E0. discriminate. }
    split; [intros c' Q; injection Q as <-|].
    + eexists. split; [|reflexivity]. apply (reads_path _ _ _ (c :: p)); [rewrite E0; constructor|]. apply first_default.
    + split; [discriminate|intros (X & _); discriminate].
  - assert (G : match fConfig f with Some (c :: p) => c :: p
      | _ => match nonempty (hEnv h (bs "CONFIG")) with Some p => p
             | None => match nonempty (hEnv h (bs "VERICONFIG")) with Some p => p | None => [] end end end =
      match nonempty (hEnv h (bs "CONFIG")) with Some p => p
             | None => match nonempty (hEnv h (bs "VERICONFIG")) with Some p => p | None => [] end end).
    { destruct (fConfig f) as [[|c p]|]; try reflexivity. cbn in E0. discriminate. }
    rewrite G. clear G F.
    assert (N0 : forall n, nonempty (hEnv h n) <> Some []).
    { intro n. unfold nonempty. destruct (hEnv h n) as [[|]|]; discriminate. }
    destruct (nonempty (hEnv h (bs "CONFIG"))) as [p|] eqn:E1; [|destruct (nonempty (hEnv h (bs "VERICONFIG"))) as [p|] eqn:E2].
    + destruct p as [|c p]; [exfalso; apply (N0 (bs "CONFIG")); auto|].
      split; [intros c' Q; injection Q as <-|].
      * eexists. split; [|reflexivity]. apply (reads_path _ _ _ (c :: p)); [rewrite E0, E1; repeat constructor|]. apply first_default.
      * split; [discriminate|intros (_ & X & _); discriminate].
    + destruct p as [|c p]; [exfalso; apply (N0 (bs "VERICONFIG")); auto|].
      split; [intros c' Q; injection Q as <-|].
      * eexists. split; [|reflexivity]. apply (reads_path _ _ _ (c :: p)); [rewrite E0, E1, E2; repeat constructor|]. apply first_default.
      * split; [discriminate|intros (_ & _ & X & _); discriminate].
    + destruct (hHome h) as [home|] eqn:EH; split.
      * intros c' Q. injection Q as <-. eexists. split; [|reflexivity]. apply (reads_home _ _ _ home); auto. apply first_default.
      * split; [discriminate|intros (_ & _ & _ & X); discriminate].
      * discriminate.
      * split; auto.
Qed.

Lemma first_det : forall A (l : list (option A)) a b, first l a -> first l b -> a = b.
Proof. intros A l a b F. revert b. induction F; intros b X; inversion X; auto. Qed.

Lemma reads_det : forall h f m m', reads h f m -> reads h f m' -> m = m'.
Proof.
  intros h f m m' [p P F|home E1 E2 E3 H F] [p' P' F'|home' E1' E2' E3' H' F'].
  - pose proof (first_det _ _ _ _ P P'). subst p'. apply (first_det _ _ _ _ F F').
  - exfalso. rewrite E1', E2', E3' in P. inversion P as [|? ? Q]. inversion Q as [|? ? Q']. inversion Q' as [|? ? Q'']. inversion Q''.
  - exfalso. rewrite E1, E2, E3 in P'. inversion P' as [|? ? Q]. inversion Q as [|? ? Q']. inversion Q' as [|? ? Q'']. inversion Q''.
  - rewrite H in H'. injection H' as <-. apply (first_det _ _ _ _ F F').
Qed.

(** The process goes on exactly if there is a configuration file to look for; one file
    is read and no other matters. *)
Theorem C121_file_partial : forall h temp f,
  (serve h temp f = None <->
   nonempty (fConfig f) = None /\ nonempty (hEnv h (bs "CONFIG")) = None /\
   nonempty (hEnv h (bs "VERICONFIG")) = None /\ hHome h = None) /\
  (forall c, serve h temp f = Some c -> exists m, reads h f m) /\
  forall h' m, hEnv h' = hEnv h -> hHome h' = hHome h -> reads h f m -> reads h' f m ->
    serve h temp f = serve h' temp f.
Proof.
  intros h temp f. destruct (serve_reads h temp f) as [S N]. split; [exact N|]. split.
  - intros c Q. destruct (S c Q) as (m & R & _). exists m. exact R.
  - intros h' m V H R R'. destruct (serve_reads h' temp f) as [S' N']. rewrite V, H in N'.
    destruct (serve h temp f) as [c|] eqn:E.
    + destruct (S c eq_refl) as (m1 & R1 & ->). rewrite (reads_det _ _ _ _ R1 R).
      destruct (serve h' temp f) as [c'|] eqn:E'; [|exfalso; discriminate (proj2 N (proj1 N' eq_refl))].
      destruct (S' c' eq_refl) as (m2 & R2 & ->). rewrite (reads_det _ _ _ _ R2 R'). do 2 f_equal.
      unfold configMap, viper_broadcast, variable. rewrite V. reflexivity.
    + symmetry. apply N'. apply N. reflexivity.
Qed.
Print Assumptions C121_file_partial.

(** The broadcast addresses come from the flag, else from the variable BROADCAST,
    else from a text in the file; each gets the port of the command line if it has
    none. *)
Theorem C121_broadcast_partial : forall h temp f c, serve h temp f = Some c ->
  exists m b l t, reads h f m /\
    first [fBroadcast f; nonempty (hEnv h (bs "BROADCAST")); text (m (bs "broadcast")); Some []] b /\
    items b l /\ (exists p, first [fPort f; Some 10000%Z] p /\ integer_text p t) /\
    Forall2 (fun a x => (In colon a -> x = a) /\ (~ In colon a -> x = a ++ bs ":" ++ t)) l (ncAdvertisedIds c).
Proof.
  intros h temp f c S. destruct (serve_reads h temp f) as [F _]. destruct (F c S) as (m & R & ->). clear F S.
  set (b := mBroadcast (configMap h m f)). set (p := given (fPort f) 10000%Z).
  exists m, b, (match b with [] => [] | _ => split_comma b end), (int_text p). split; [exact R|]. split.
  { unfold b. cbn [configMap mBroadcast]. unfold viper_broadcast. rewrite variable_nonempty.
    destruct (fBroadcast f); [constructor|]. constructor.
    destruct (nonempty (hEnv h (bs "BROADCAST"))); [constructor|]. constructor.
    destruct (m (bs "broadcast")) as [[|]|]; cbn; repeat constructor. }
  split.
  { unfold items. destruct b as [|x b']; [left; auto|]. right. split; [discriminate|apply split_words]. }
  split.
  { exists p. split; [|apply int_text_ok]. unfold p, given. apply first_default. }
  unfold RunServer. cbn [ncAdvertisedIds]. fold b. replace (mPort (configMap h m f)) with p by reflexivity.
  destruct b as [|x b']; [constructor|]. generalize (split_comma (x :: b')). intro l.
  induction l as [|a l IH]; cbn [map]; constructor; auto.
  destruct (existsb (N.eqb colon) a) eqn:E.
  - apply existsb_exists in E. destruct E as (y & IN & Y). apply N.eqb_eq in Y. subst y. split; [auto|contradiction].
  - split; [|auto]. intro IN. assert (X : existsb (N.eqb colon) a = true) by (apply existsb_exists; exists colon; split; [auto|apply N.eqb_refl]).
    congruence.
Qed.
Print Assumptions C121_broadcast_partial.

(** The other settings come from the flags alone. *)
Theorem C121_flags_partial : forall h temp f c, serve h temp f = Some c ->
  (exists s, first [fServices f; Some []] s /\ items s (ncServices c)) /\
  first [nonempty (fDirectory f); Some temp] (ncFolder c) /\
  (forall p, first [fPort f; Some 10000%Z] p -> (0 <= p < 2 ^ 32)%Z ->
     Z.of_N (ncPort c) = p /\ exists t, number_text (Z.to_N p) t /\ listen_address c = bs "0.0.0.0:" ++ t).
Proof.
  intros h temp f c S. destruct (serve_reads h temp f) as [F _]. destruct (F c S) as (m & _ & ->). clear F S.
  unfold RunServer. cbn [configMap mServices mPort mBroadcast mDirectory ncServices ncFolder ncPort]. split; [|split].
  - exists (given (fServices f) []). split; [apply first_default|]. unfold items.
    destruct (given (fServices f) []) as [|x s]; [left; auto|]. right. split; [discriminate|apply split_words].
  - unfold folder, given, nonempty. destruct (fDirectory f) as [[|x d]|]; repeat constructor.
  - intros p FP R.
    assert (P : given (fPort f) 10000%Z = p).
    { symmetry. apply (first_unique _ (fPort f)). exact FP. }
    unfold listen_address. cbn [ncPort]. rewrite P. change 4294967296%Z with (2 ^ 32)%Z. rewrite Z.mod_small by exact R.
    split; [apply Z2N.id; lia|]. exists (decimal (Z.to_N p)). split; [apply decimal_text|reflexivity].
Qed.
Print Assumptions C121_flags_partial.

(** A host with a configuration file and variables for every setting. *)
Definition example_settings : settings := fun k =>
  if bytes_eqb k (bs "directory") then Some (Text (bs "/data"))
  else if bytes_eqb k (bs "broadcast") then Some (Text (bs "n1,n2:7"))
  else None.
Definition example_host : host := {|
  hEnv := fun n => if bytes_eqb n (bs "VERICONFIG") then Some (bs "/etc/veri.yaml")
                   else if bytes_eqb n (bs "SERVICES") then Some (bs "seed:10000") else None;
  hHome := Some (bs "/root");
  hFile := fun p => match p with
                    | AtPath q => if bytes_eqb q (bs "/etc/veri.yaml") then Some example_settings else None
                    | InFolder _ => None
                    end |}.

Example C121_instance :
  serve example_host (bs "/tmp/node1") (mkFlags None None (Some 9000%Z) None None) =
    Some (mkNC 9000 (bs "/tmp/node1") [bs "n1:9000"; bs "n2:7"] []) /\
  serve example_host (bs "/tmp/node1") (mkFlags None (Some (bs "a,b:1")) None (Some (bs "x")) (Some (bs "/d"))) =
    Some (mkNC 10000 (bs "/d") [bs "x:10000"] [bs "a"; bs "b:1"]).
Proof. split; vm_compute; reflexivity. Qed.

(** C121 refuted: the folder in the configuration file and the services in the
    environment are ignored. *)
Theorem C121_ignored_refuted : exists h temp f c m,
  serve h temp f = Some c /\ reads h f m /\ fDirectory f = None /\ fServices f = None /\
  m (bs "directory") = Some (Text (bs "/data")) /\ ncFolder c <> bs "/data" /\
  hEnv h (bs "SERVICES") = Some (bs "seed:10000") /\ ncServices c = [].
Proof.
  exists example_host, (bs "/tmp/node1"), (mkFlags None None None None None). eexists. exists example_settings.
  split; [reflexivity|]. split; [apply (reads_path _ _ _ (bs "/etc/veri.yaml")); [do 2 apply first_next|]; apply first_here|].
  repeat split; try reflexivity. vm_compute. discriminate.
Qed.
Print Assumptions C121_ignored_refuted.

(** C121 refuted: a port that is too large is not refused: the node listens at
    another one and advertises the one given. *)
Theorem C121_port_refuted : exists h temp f c,
  serve h temp f = Some c /\ fPort f = Some 4294977296%Z /\ listen_address c = bs "0.0.0.0:10000" /\
  ncAdvertisedIds c = [bs "n1:4294977296"; bs "n2:7"].
Proof.
  exists example_host, (bs "/tmp/node1"), (mkFlags None None (Some 4294977296%Z) None None). eexists.
  split; [vm_compute; reflexivity|]. repeat split; vm_compute; reflexivity.
Qed.
Print Assumptions C121_port_refuted.

(** C121 refuted: the file named by VERICONFIG is not read if there is a variable
    CONFIG of somebody else. *)
Theorem C121_variable_refuted : exists h temp f c m,
  fConfig f = None /\ hEnv h (bs "VERICONFIG") = Some (bs "/etc/veri.yaml") /\
  hFile h (AtPath (bs "/etc/veri.yaml")) = Some m /\ m (bs "broadcast") = Some (Text (bs "n1,n2:7")) /\
  fBroadcast f = None /\ hEnv h (bs "BROADCAST") = None /\
  serve h temp f = Some c /\ ncAdvertisedIds c = [].
Proof.
  exists (mkHost (fun n => if bytes_eqb n (bs "CONFIG") then Some (bs "release") else hEnv example_host n)
            (hHome example_host) (hFile example_host)).
  exists (bs "/tmp/node1"), (mkFlags None None None None None). eexists. exists example_settings.
  repeat split; vm_compute; reflexivity.
Qed.
Print Assumptions C121_variable_refuted.
