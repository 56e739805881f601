(** Saving and loading the index. *)
From Verif.Base Require Import GoBase GoLemmas Assoc Float.
From Verif.Model Require Import Codec Store Data Dataset Json QueryCache Index.
From Verif.Spec Require Import Text RegistrySpec IndexSpec.
From Verif.Proof Require Import JsonP QueryCacheP DatasetP.
From Coq Require Import Lia Permutation.
Open Scope N_scope.

(** * Lines *)
Definition flat (s : bytes) : Prop := ~ In newline s.

Lemma flat_app : forall a b, flat a -> flat b -> flat (a ++ b).
Proof. unfold flat. intros a b A B H. apply in_app_or in H. tauto. Qed.
Lemma flat_cons : forall x s, x <> newline -> flat s -> flat (x :: s).
Proof. unfold flat. intros x s A B [H|H]; auto. Qed.
Lemma flat_nil : flat [].
Proof. intros []. Qed.

Lemma encode_flat : forall r, 128 <= r -> flat (encode_rune r).
Proof.
  intros r H. unfold flat, newline, encode_rune. replace (r <? 128) with false by (symmetry; apply N.ltb_ge; lia).
  destruct (r <? 2048) eqn:A; [|destruct (r <? 65536) eqn:B]; intros H'; repeat (destruct H' as [H'|H']; [lia|]); auto.
Qed.
Lemma hexdigit_flat : forall n, hexdigit n <> newline.
Proof. intro n. unfold hexdigit, newline. destruct (n <? 10); lia. Qed.
Lemma quote_rune_flat : forall r, flat (quote_rune r).
Proof.
  intro r. unfold quote_rune. destruct (r <? 128) eqn:A.
  - unfold quote_ascii. repeat match goal with |- flat (if ?b then _ else _) => destruct b eqn:? end;
      repeat (apply flat_cons; [try apply hexdigit_flat; unfold newline; try lia|]); try apply flat_nil.
  - destruct ((r =? 8232) || (r =? 8233)).
    + repeat (apply flat_cons; [try apply hexdigit_flat; unfold newline; lia|]). apply flat_nil.
    + apply encode_flat. apply N.ltb_ge in A. auto.
Qed.
Lemma quote_flat : forall s, valid_text s -> flat (quote s).
Proof.
  intros s (rs & F & ->). rewrite quote_spec by auto. apply flat_cons; [unfold newline; lia|].
  apply flat_app; [|apply flat_cons; [unfold newline; lia|apply flat_nil]].
  clear F. induction rs as [|r rs IH]; cbn [flat_map]; [apply flat_nil|]. apply flat_app; auto. apply quote_rune_flat.
Qed.
Lemma join_flat : forall l, Forall flat l -> flat (join 44 l).
Proof.
  induction l as [|x l IH]; intro F; [apply flat_nil|]. inversion F; subst. destruct l as [|y l]; auto.
  change (join 44 (x :: y :: l)) with (x ++ 44 :: join 44 (y :: l)). apply flat_app; auto. apply flat_cons; auto.
  unfold newline; lia.
Qed.
Lemma print_flat : forall v, json_ok v -> flat (print v).
Proof.
  induction v using json_ind'; intro O; inversion O; subst.
  - intro H. cbn in H. unfold newline in H. repeat destruct H as [H|H]; try discriminate; auto.
  - destruct b; intro H; cbn in H; unfold newline in H; repeat destruct H as [H|H]; try discriminate; auto.
  - destruct H0 as (_ & H & _). intro I. apply H in I. destruct I as (_ & _ & _ & I & _). discriminate.
  - apply quote_flat. auto.
  - cbn [print]. apply flat_cons; [unfold newline; lia|]. apply flat_app.
    2:{ apply flat_cons; [unfold newline; lia|apply flat_nil]. }
    apply join_flat. apply Forall_map. rewrite Forall_forall in *. auto.
  - rewrite print_obj. apply flat_cons; [unfold newline; lia|]. apply flat_app.
    2:{ apply flat_cons; [unfold newline; lia|apply flat_nil]. }
    apply join_flat. apply Forall_map. rewrite Forall_forall in *. intros [k v] I. specialize (H _ I). specialize (H1 _ I).
    cbn [fst snd] in *. destruct H1. cbn [print_member]. apply flat_app; [apply quote_flat; auto|]. apply flat_cons; [unfold newline; lia|]. auto.
Qed.

Lemma parse_line : forall v, json_ok v -> is_num v = false -> parse (print v ++ [newline]) = Some v.
Proof.
  intros v O N1. unfold parse. rewrite (pval_print v O).
  - reflexivity.
  - rewrite app_length. cbn. lia.
  - congruence.
Qed.

Lemma read_line : forall x acc y, flat x -> read_lines acc (x ++ newline :: y) = (rev acc ++ x ++ [newline]) :: read_lines [] y.
Proof.
  induction x as [|b x IH]; intros acc y F.
  - cbn. reflexivity.
  - cbn [app read_lines]. destruct (N.eqb_spec b newline) as [->|N].
    { exfalso. apply F. left. auto. }
    rewrite IH. { cbn [rev]. rewrite <- app_assoc. reflexivity. }
    intro H. apply F. right. auto.
Qed.
Lemma read_partial : forall x acc, flat x -> read_lines acc x = [].
Proof.
  induction x as [|b x IH]; intros acc F; cbn [read_lines]; auto. destruct (N.eqb_spec b newline) as [->|N].
  { exfalso. apply F. left. auto. }
  apply IH. intro H. apply F. right. auto.
Qed.

(** A text made of lines. *)
Definition unlines (xs : list bytes) : bytes := flat_map (fun x => x ++ [newline]) xs.

Lemma read_unlines : forall xs y, Forall flat xs -> read_lines [] (unlines xs ++ y) = map (fun x => x ++ [newline]) xs ++ read_lines [] y.
Proof.
  induction xs as [|x xs IH]; intros y F; [reflexivity|]. inversion F; subst. cbn [unlines flat_map map app].
  rewrite <- !app_assoc. cbn [app]. rewrite read_line by auto. cbn [rev app]. f_equal. apply IH. auto.
Qed.

(** A prefix of such a text is some of the lines and a part of the next one. *)
Lemma prefix_unlines : forall xs p rest, Forall flat xs -> unlines xs = p ++ rest ->
  exists j q, p = unlines (firstn j xs) ++ q /\ flat q /\ (j <= length xs)%nat /\ (rest = [] -> j = length xs).
Proof.
  induction xs as [|x xs IH]; intros p rest F E.
  - exists 0%nat, []. cbn in E. symmetry in E. apply app_eq_nil in E. destruct E as [-> ->].
    cbn. repeat split; auto. apply flat_nil.
  - inversion F as [|? ? Fx Fxs]; subst. cbn [unlines flat_map] in E. fold unlines in E.
    destruct (Nat.le_gt_cases (length (x ++ [newline])) (length p)) as [Q|Q].
    + assert (E2 : exists p', p = (x ++ [newline]) ++ p' /\ unlines xs = p' ++ rest).
      { clear - E Q. fold (unlines xs) in E. remember (x ++ [newline]) as a. clear Heqa. revert p E Q.
        induction a as [|b a IHa]; intros p E Q; cbn in *; [eauto|].
        destruct p as [|c p]; cbn in *; [lia|]. injection E as -> E. destruct (IHa p E) as (p' & -> & E'); [lia|]. eauto. }
      destruct E2 as (p' & -> & E2). destruct (IH p' rest Fxs E2) as (j & q & -> & Fq & J & R).
      exists (S j), q. cbn [firstn unlines flat_map length]. split; [rewrite <- !app_assoc; reflexivity|].
      split; auto. split; [lia|]. intro. f_equal. auto.
    + exists 0%nat, p. cbn. split; auto. split; [|split; [lia|]].
      * rewrite app_length in Q. cbn in Q.
        assert (P : exists t, x = p ++ t).
        { clear - E Q. fold (unlines xs) in E. rewrite <- app_assoc in E. revert p E Q.
          induction x as [|b x IHx]; intros p E Q; cbn in *.
          - destruct p; [exists []; auto|cbn in Q; lia].
          - destruct p as [|c p]; [exists (b :: x); auto|]. cbn in *. injection E as -> E. destruct (IHx p E) as [t ->]; [lia|]. eauto. }
        destruct P as [t ->]. intro H. apply Fx. apply in_or_app. auto.
      * intros ->. rewrite app_nil_r in E. subst p. exfalso. rewrite app_length in Q. lia.
Qed.

Lemma nodup_app_l : forall A (a b : list A), NoDup (a ++ b) -> NoDup a.
Proof.
  induction a as [|x a IH]; intros b H; [constructor|]. inversion H; subst. constructor; eauto.
  intro I. apply H2. apply in_or_app. auto.
Qed.

(** * Configurations *)
Section Config.
Variable L : floatlib.
Hypothesis RT : float_roundtrip L.

Lemma members_float : forall n x, valid_text n -> finite64 x ->
  Forall (fun m => valid_text (fst m) /\ json_ok (snd m)) (f_float L n x).
Proof.
  intros n x Hn Fx. destruct x; cbn in *; try contradiction; constructor; auto.
  split; auto. apply ok_num. apply RT; [exact Fx|discriminate].
Qed.

Lemma config_json_ok : forall c, storable c -> json_ok (config_json L c).
Proof.
  intros [n ve tn tu nt ro en re] (H1 & H2 & H3 & H4 & H5 & H6). cbn in *. unfold config_json. cbn. apply ok_obj.
  repeat (apply Forall_app; split);
    (apply members_str || apply members_uint || apply members_float || apply members_bool); auto; try ascii; unfold M64; lia.
Qed.

(** -0 is read back as +0. *)
Definition norm (c : DataConfig) : DataConfig :=
  mkDataConfig (cName c) (cVersion c) (cTargetN c)
    (match cTargetUtilization c with S754_zero _ => S754_zero false | x => x end)
    (cNoTarget c) (cReplicationOnInsert c) (cEnforceReplicationOnInsert c) (cRetention c).

Lemma norm_same : forall c, same_dataconfig c (norm c).
Proof.
  intros [n ve tn tu nt ro en re]. unfold same_dataconfig, norm. cbn. split; [reflexivity|]. split; [reflexivity|].
  split; [reflexivity|]. split; [|auto]. destruct tu; eauto.
Qed.

Lemma decode_app : forall a b c, decode_members L c (a ++ b) =
  match decode_members L c a with Some c' => decode_members L c' b | None => None end.
Proof.
  induction a as [|m a IH]; intros b c; cbn [app decode_members]; auto. destruct (decode_member L c m); auto.
Qed.

Lemma decode_config : forall c, storable c -> decode_members L zero_config
  (match config_json L c with JObj l => l | _ => [] end) = Some (norm c).
Proof.
  intros [n ve tn tu nt ro en re] (H1 & H2 & H3 & H4 & H5 & H6). cbn in H1, H2, H3, H4, H5, H6.
  unfold config_json, zero_config. cbn [cName cVersion cTargetN cTargetUtilization cNoTarget cReplicationOnInsert cEnforceReplicationOnInsert cRetention].
  assert (E1 : decode_members L (mkDataConfig [] 0 0 (S754_zero false) false 0 false 0) (f_str (bs "name") n) =
     Some (mkDataConfig n 0 0 (S754_zero false) false 0 false 0)).
  { destruct n; reflexivity. }
  rewrite decode_app, E1. clear E1.
  assert (U : forall max x, x < 2 ^ 64 -> x <= max -> x <> 0 -> parse_uint max (dec x) = Some x).
  { intros. apply parse_uint_dec; auto. }
  unfold f_uint.
  assert (E2 : decode_members L (mkDataConfig n 0 0 (S754_zero false) false 0 false 0)
     (if ve =? 0 then [] else [(bs "version", JNum (dec ve))]) = Some (mkDataConfig n ve 0 (S754_zero false) false 0 false 0)).
  { destruct (N.eqb_spec ve 0) as [->|Z]; [reflexivity|]. cbn - [parse_uint dec M64].
    rewrite U; auto. unfold M64; lia. }
  rewrite decode_app, E2. clear E2.
  assert (E3 : decode_members L (mkDataConfig n ve 0 (S754_zero false) false 0 false 0)
     (if tn =? 0 then [] else [(bs "targetN", JNum (dec tn))]) = Some (mkDataConfig n ve tn (S754_zero false) false 0 false 0)).
  { destruct (N.eqb_spec tn 0) as [->|Z]; [reflexivity|]. cbn - [parse_uint dec M64].
    rewrite U; auto. unfold M64; lia. }
  rewrite decode_app, E3. clear E3.
  set (tu' := match tu with S754_zero _ => S754_zero false | x => x end).
  assert (E4 : decode_members L (mkDataConfig n ve tn (S754_zero false) false 0 false 0)
     (f_float L (bs "targetUtilization") tu) = Some (mkDataConfig n ve tn tu' false 0 false 0)).
  { destruct tu; cbn in H4; try contradiction; [reflexivity|]. cbn - [finite64] in *.
    destruct (RT (S754_finite s m e)) as [_ R]; [exact H4|discriminate|]. rewrite R. reflexivity. }
  rewrite decode_app, E4. clear E4.
  assert (E5 : decode_members L (mkDataConfig n ve tn tu' false 0 false 0) (f_bool (bs "noTarget") nt) =
     Some (mkDataConfig n ve tn tu' nt 0 false 0)).
  { destruct nt; reflexivity. }
  rewrite decode_app, E5. clear E5.
  assert (E6 : decode_members L (mkDataConfig n ve tn tu' nt 0 false 0)
     (if ro =? 0 then [] else [(bs "replicationOnInsert", JNum (dec ro))]) = Some (mkDataConfig n ve tn tu' nt ro false 0)).
  { destruct (N.eqb_spec ro 0) as [->|Z]; [reflexivity|]. cbn - [parse_uint dec M32].
    rewrite U; auto; unfold M32; lia. }
  rewrite decode_app, E6. clear E6.
  assert (E7 : decode_members L (mkDataConfig n ve tn tu' nt ro false 0) (f_bool (bs "enforceReplicationOnInsert") en) =
     Some (mkDataConfig n ve tn tu' nt ro en 0)).
  { destruct en; reflexivity. }
  rewrite decode_app, E7. clear E7.
  assert (Q : norm (mkDataConfig n ve tn tu nt ro en re) = mkDataConfig n ve tn tu' nt ro en re).
  { destruct tu; reflexivity. }
  rewrite Q. clearbody tu'.
  destruct (N.eqb_spec re 0) as [->|Z]; [reflexivity|]. cbn - [parse_uint dec M64].
  rewrite U; auto. unfold M64; lia.
Qed.

Definition cline (c : DataConfig) : bytes := print (config_json L c).

Lemma cline_flat : forall c, storable c -> flat (cline c).
Proof. intros. apply print_flat, config_json_ok. auto. Qed.

Lemma unmarshal_line : forall c, storable c -> UnmarshalConfig L (cline c ++ [newline]) = Some (norm c).
Proof.
  intros c S. unfold UnmarshalConfig, cline. rewrite parse_line; [|apply config_json_ok; auto|reflexivity].
  pose proof (decode_config c S) as D. unfold config_json in *. exact D.
Qed.

Lemma marshal_line : forall c, storable c -> MarshalConfig L c = cline c.
Proof.
  intros c (_ & _ & _ & F & _). unfold MarshalConfig. destruct (cTargetUtilization c); cbn in F; try contradiction; reflexivity.
Qed.

(** * Loading *)
Variable inc : Z -> Z -> Z -> Z.

Definition config_at (now : Z) (s : dstate) (n : bytes) (c : DataConfig) : Prop :=
  exists a, dl_get now s n = Some a /\ exists dt, nth_error (dsObjs s) a = Some dt /\ dConfig dt = Some c /\ dDBMap dt = [].

Lemma empty_inv : inv (mkDS [] []).
Proof. split; [constructor|]. cbn. discriminate. Qed.

Lemma dl_get_eq : forall now s s' n, mload (dsList s') n = mload (dsList s) n -> dl_get now s' n = dl_get now s n.
Proof. intros. unfold dl_get. rewrite H. auto. Qed.

(** Loading the lines of configurations with new names. *)
Lemma load_configs : forall now cs s, inv s -> Forall storable cs -> NoDup (map cName cs) ->
  (forall c, In c cs -> dl_get now s (cName c) = None) ->
  exists s', load_lines L inc now s (map (fun x => x ++ [newline]) (map cline cs)) = Ok s' /\ inv s' /\
    (forall c, In c cs -> config_at now s' (cName c) (norm c)) /\
    (forall n, ~ In n (map cName cs) -> dl_get now s' n = dl_get now s n /\
       forall i, mload (dsList s) n = Some i -> nth_error (dsObjs s') (diObj i) = nth_error (dsObjs s) (diObj i)).
Proof.
  intros now. induction cs as [|c cs IH]; intros s I F ND NEW.
  - exists s. cbn. split; [reflexivity|]. split; [exact I|]. split; [intros ? []|]. auto.
  - inversion F as [|? ? F1 F2]; subst. inversion ND as [|? ? N1 N2]; subst. cbn [map load_lines].
    rewrite unmarshal_line by auto.
    destruct (create_ok inc deep now s (norm c) I) as (s1 & E & C); [unfold deep; lia|].
    rewrite E. cbn [bind]. unfold created in C. change (cName (norm c)) with (cName c) in C.
    rewrite NEW in C by (left; auto). subst s1.
    pose proof (inv_added now s (norm c) I) as I1.
    assert (OT : forall m, m <> cName c -> mload (dsList (added now s (norm c))) m = mload (dsList s) m).
    { intros m N. unfold added. cbn [dsList]. apply mload_mstore_other. cbn. auto. }
    destruct (IH (added now s (norm c)) I1 F2 N2) as (s' & E' & I' & A' & B').
    { intros c' Ic. rewrite (dl_get_eq now s). { apply NEW. right. auto. }
      apply OT. intro Q. apply N1. rewrite <- Q. apply in_map. auto. }
    exists s'. split; auto. split; auto. split.
    + intros c' [<-|Ic]; auto. destruct (B' (cName c) N1) as [G X].
      pose proof (get_added now s (norm c)) as GA. change (cName (norm c)) with (cName c) in GA. rewrite <- G in GA.
      exists (length (dsObjs s)). split; auto. exists (InitData (NewPreData (norm c))).
      assert (M : mload (dsList (added now s (norm c))) (cName c) =
        Some (mkDI (length (dsObjs s)) (dl_expiry now (GetRetention (cRetention (norm c)))))).
      { unfold added. cbn [dsList]. change (cName (norm c)) with (cName c). apply mload_mstore_same. }
      apply X in M. cbn [diObj] in M. rewrite M. split; [|split; reflexivity].
      unfold added. cbn [dsObjs]. rewrite nth_error_app2, Nat.sub_diag by lia. reflexivity.
    + intros n Nn. cbn in Nn. destruct (B' n) as [G X]; [tauto|]. split.
      * rewrite G. apply dl_get_eq. apply OT. intro Q. apply Nn. auto.
      * intros i Ei. rewrite X by (rewrite OT; [exact Ei|intro Q; apply Nn; auto]). unfold added. cbn [dsObjs].
        apply nth_error_app1. destruct I as [_ I]. destruct (I _ _ Ei) as (dt & c' & A & _). apply nth_error_Some. congruence.
Qed.

(** * Saving *)
Lemma save_ok : forall now names s, inv s -> NoDup names ->
  (forall k, In k names -> exists a, dl_get now s k = Some a) ->
  (forall c, has_dataset now s c -> storable c) ->
  exists s' cs, SaveIndex L inc now s names = Ok (s', unlines (map cline cs)) /\ map cName cs = names /\
    Forall (has_dataset now s) cs /\ inv s' /\ dsObjs s' = dsObjs s /\
    (forall n, ~ In n names -> mload (dsList s') n = mload (dsList s) n) /\
    (forall n i, mload (dsList s) n = Some i -> exists e, mload (dsList s') n = Some (mkDI (diObj i) e)).
Proof.
  intros now. unfold SaveIndex. induction names as [|k names IH]; intros s I ND H ST.
  - exists s, []. cbn [save_lines unlines flat_map map]. split; [reflexivity|]. split; [reflexivity|]. split; [constructor|].
    split; auto. split; auto. split; auto. intros n [o e] ->. eauto.
  - inversion ND as [|? ? N1 N2]; subst. destruct (H k) as [a G]; [left; auto|].
    destruct (get_ok inc deep now s k I) as (s1 & a' & E & I1 & [(G' & T)|(G' & _)]); [unfold deep; lia| |congruence].
    rewrite G in G'. injection G' as <-. cbn [save_lines]. rewrite E. cbn [bind].
    destruct T as (T1 & T2 & T3 & _). pose proof I as [_ J]. destruct (get_some _ _ _ _ G) as (i & Ei & <- & Lv).
    destruct (J _ _ Ei) as (dt & c & A & B & C). rewrite T1, A.
    assert (HD : has_dataset now s c).
    { exists (diObj i), (dDBMap dt). split. { rewrite C. apply get_holds; auto. } exists dt. auto. }
    rewrite B.
    assert (O2 : forall m, In m names -> dl_get now s1 m = dl_get now s m).
    { intros m Im. apply dl_get_eq, T2. intros ->. contradiction. }
    (* only the names still to come matter *)
    assert (IH' : exists s' cs, save_lines L inc now s1 names = Ok (s', unlines (map cline cs)) /\ map cName cs = names /\
      Forall (has_dataset now s) cs /\ inv s' /\ dsObjs s' = dsObjs s1 /\
      (forall n, ~ In n names -> mload (dsList s') n = mload (dsList s1) n) /\
      (forall n i, mload (dsList s1) n = Some i -> exists e, mload (dsList s') n = Some (mkDI (diObj i) e))).
    { destruct (IH s1 I1 N2) as (s' & cs & X1 & X2 & X3 & X4).
      - intros m Im. rewrite O2 by auto. apply H. right. auto.
      - intros c' (a' & m' & Hh & (dt' & D1 & D2 & D3)). apply get_holds in Hh; auto.
        destruct (get_some _ _ _ _ Hh) as (i' & Ei' & Oi' & Li'). rewrite T1 in D1. 
        destruct (bytes_dec (cName c') k) as [Q|Q].
        + destruct (T3 _ Ei) as [e Ee]. rewrite Q, Ee in Ei'. injection Ei' as <-. cbn in Oi'. subst a'.
          rewrite A in D1. injection D1 as <-. rewrite B in D2. injection D2 as <-. apply ST. exact HD.
        + apply ST. exists a', m'. split. { apply get_holds; auto. rewrite <- Hh. symmetry. apply dl_get_eq, T2. auto. }
          exists dt'. auto.
      - exists s', cs. split; auto. split; auto. split; auto. rewrite Forall_forall in *. intros c' Ic.
        specialize (X3 _ Ic). destruct X3 as (a' & m' & Hh & (dt' & D1 & D2 & D3)). apply get_holds in Hh; auto.
        exists a', m'. split. { apply get_holds; auto. rewrite <- Hh. symmetry. apply O2. rewrite <- X2. apply in_map. auto. }
        exists dt'. rewrite <- T1. auto. }
    destruct IH' as (s' & cs & X1 & X2 & X3 & X4 & X5 & X6 & X7). exists s', (c :: cs). rewrite X1. cbn [bind].
    split. { rewrite marshal_line by auto. cbn [map unlines flat_map]. rewrite <- app_assoc. reflexivity. }
    split; [cbn; congruence|]. split; [constructor; auto|]. split; auto. split; [congruence|]. split.
    + intros n Nn. cbn in Nn. rewrite X6, T2; auto; intro; apply Nn; auto.
    + intros n j Ej. destruct (bytes_dec n k) as [->|Q].
      * destruct (T3 _ Ej) as [e Ee]. destruct (X7 _ _ Ee) as [e' Ee']. exists e'. exact Ee'.
      * apply X7. rewrite T2; auto.
Qed.

Lemma list_names : forall now s, inv s -> NoDup (ListNames now s) /\
  forall n, In n (ListNames now s) <-> exists a, holds now s n a.
Proof.
  intros now s I. pose proof I as [W _]. split.
  - unfold ListNames, Items. unfold mwf in W. revert W. generalize (dsList s) as l.
    induction l as [|[k i] l IH]; cbn; intro ND; [constructor|]. inversion ND; subst.
    destruct (item_live now i); cbn; auto. constructor; auto. intro H. apply H1.
    apply in_map_iff in H. destruct H as ([k' i'] & E & F). cbn in E. subst. apply filter_In in F. destruct F as [F _].
    apply in_map_iff. exists (k, i'). auto.
  - intro n. unfold ListNames, Items. rewrite in_map_iff. split.
    + intros ([k i] & <- & F). apply filter_In in F. destruct F as [F Lv]. cbn in *. exists (diObj i), i.
      split; auto. split; auto. apply live_iff. auto.
    + intros (a & i & F & _ & Lv). exists (n, i). split; auto. apply filter_In. split; auto. cbn. apply live_iff. auto.
Qed.

(** Saving the whole registry. *)
Lemma save_all : forall now s names, inv s -> Permutation names (ListNames now s) ->
  (forall c, has_dataset now s c -> storable c) ->
  exists s' cs, SaveIndex L inc now s names = Ok (s', unlines (map cline cs)) /\ map cName cs = names /\
    NoDup names /\ Forall (has_dataset now s) cs /\ Forall storable cs /\ inv s' /\
    (forall c, has_dataset now s c -> In c cs) /\
    (forall n i, mload (dsList s) n = Some i -> exists e, mload (dsList s') n = Some (mkDI (diObj i) e)) /\
    dsObjs s' = dsObjs s.
Proof.
  intros now s names I P ST. destruct (list_names now s I) as [ND LN].
  assert (ND' : NoDup names). { eapply Permutation_NoDup; [symmetry; exact P|exact ND]. }
  destruct (save_ok now names s I ND') as (s' & cs & A & B & C & D & E & F & G); auto.
  { intros k Ik. eapply Permutation_in in Ik; [|exact P]. apply LN in Ik. destruct Ik as [a Ha]. exists a. apply get_holds; auto. }
  exists s', cs. split; auto. split; auto. split; auto. split; auto. split.
  { eapply Forall_impl; [|exact C]. auto. }
  split; auto. split; auto. intros c (a & m & Hh & (dt & D1 & D2 & D3)).
  assert (In (cName c) names). { eapply Permutation_in; [symmetry; exact P|]. apply LN. eauto. }
  rewrite <- B in H. apply in_map_iff in H. destruct H as (c' & Q & Ic). rewrite Forall_forall in C.
  destruct (C _ Ic) as (a' & m' & Hh' & (dt' & D1' & D2' & D3')). rewrite Q in Hh'.
  apply get_holds in Hh, Hh'; auto. assert (a = a') by congruence. subst a'.
  rewrite D1 in D1'. injection D1' as <-. rewrite D2 in D2'. injection D2' as <-. auto.
Qed.

(** Loading any prefix of a saved text. *)
Lemma load_prefix : forall now cs p rest, Forall storable cs -> NoDup (map cName cs) ->
  unlines (map cline cs) = p ++ rest ->
  exists j s', (j <= length cs)%nat /\ (rest = [] -> j = length cs) /\
    p = unlines (map cline (firstn j cs)) ++ skipn (length (unlines (map cline (firstn j cs)))) p /\
    LoadIndex L inc now p = Ok s' /\ inv s' /\
    (forall c, In c (firstn j cs) -> config_at now s' (cName c) (norm c)) /\
    (forall n a, dl_get now s' n = Some a -> In n (map cName (firstn j cs))).
Proof.
  intros now cs p rest F ND E.
  assert (FL : Forall flat (map cline cs)).
  { apply Forall_map. eapply Forall_impl; [|exact F]. apply cline_flat. }
  destruct (prefix_unlines _ _ _ FL E) as (j & q & -> & Fq & J & R). rewrite map_length in *.
  rewrite firstn_map. exists j.
  assert (F' : Forall storable (firstn j cs)). { rewrite Forall_forall in *. intros x Hx. apply F. rewrite <- (firstn_skipn j cs). apply in_or_app. auto. }
  assert (ND' : NoDup (map cName (firstn j cs))).
  { rewrite <- (firstn_skipn j cs), map_app in ND. eapply nodup_app_l. exact ND. }
  destruct (load_configs now (firstn j cs) (mkDS [] []) empty_inv F' ND') as (s' & A & B & C & D).
  { reflexivity. }
  exists s'. split; auto. split; auto. split.
  { rewrite skipn_app, skipn_all, Nat.sub_diag. reflexivity. }
  split.
  { unfold LoadIndex. rewrite read_unlines.
    - rewrite read_partial by auto. rewrite app_nil_r. exact A.
    - apply Forall_map. eapply Forall_impl; [|exact F']. apply cline_flat. }
  split; auto. split; auto. intros n a G. destruct (in_dec bytes_dec n (map cName (firstn j cs))) as [Q|Q]; auto.
  destruct (D n Q) as [X _]. rewrite X in G. discriminate.
Qed.
End Config.
