(** Loading an index file, against Spec/HandSpec.v. *)
From Verif.Base Require Import GoBase GoLemmas Assoc Float.
From Verif.Model Require Import Codec Store Data Dataset Json Index.
From Verif.Spec Require Import Text JsonSpec HandSpec.
From Verif.Proof Require Import JsonP GrammarP DatasetP IndexP.
Open Scope N_scope.

(** ** Names *)

Lemma lower_alike : forall x y, lower x = lower y <-> x = y \/ (65 <= x <= 90 /\ y = x + 32) \/ (65 <= y <= 90 /\ x = y + 32).
Proof.
  intros x y. unfold lower. destruct (in_range 65 90 x) eqn:A, (in_range 65 90 y) eqn:B; rng; lia.
Qed.
Lemma same_alike : forall a b, same_name a b = true <-> alike a b.
Proof.
  intros a b. unfold same_name, alike. rewrite bytes_eqb_spec. revert b. induction a as [|x a IH]; intros [|y b]; cbn [map].
  - split; constructor.
  - split; intro H; [discriminate H|inversion H].
  - split; intro H; [discriminate H|inversion H].
  - split; intro H.
    + injection H as H1 H2. constructor; [apply lower_alike; exact H1|apply IH; exact H2].
    + inversion H; subst. f_equal; [apply lower_alike; auto|apply IH; auto].
Qed.
Lemma same_false : forall a b, same_name a b = false <-> ~ alike a b.
Proof. intros. rewrite <- same_alike. destruct (same_name a b); split; congruence. Qed.
Lemma same_other : forall k a b, same_name k a = true -> same_name a b = false -> same_name k b = false.
Proof.
  intros k a b H N. unfold same_name in *. apply bytes_eqb_spec in H. rewrite H. exact N.
Qed.

(** ** Fields *)

Lemma digits_value_iff : forall d acc n, digits_value acc d = Some n <->
  Forall digit d /\ n = fold_left (fun a b => a * 10 + (b - 48)) d acc.
Proof.
  induction d as [|b d IH]; intros acc n; cbn [digits_value fold_left].
  - split; [intro H; injection H as <-; auto|intros [_ ->]; reflexivity].
  - destruct (is_digit b) eqn:D.
    + rewrite IH. apply is_digit_iff in D. split; intros [F E]; split; auto. inversion F; auto.
    + split; [discriminate|]. intros [F _]. inversion F; subst. apply is_digit_iff in H1. congruence.
Qed.
Lemma parse_uint_iff : forall max t n, parse_uint max t = Some n <-> decimal t n /\ n <= max.
Proof.
  intros max t n. unfold parse_uint, decimal, some_digits. destruct t as [|b t].
  - split; [discriminate|]. intros [[[X _] _] _]. contradiction.
  - destruct (digits_value 0 (b :: t)) as [m|] eqn:D.
    + apply digits_value_iff in D. destruct D as [F E]. destruct (N.leb_spec m max).
      * split; [intro X; injection X as <-; repeat split; auto; discriminate|intros [[_ X] _]; congruence].
      * split; [discriminate|]. intros [[_ X] Y]. subst. lia.
    + split; [discriminate|]. intros [[[_ F] E] _].
      assert (X : digits_value 0 (b :: t) = Some n) by (apply digits_value_iff; auto). congruence.
Qed.

Definition upd {A} (means : json -> A -> Prop) (v : json) (x0 x1 : A) : Prop := (v = JNull /\ x1 = x0) \/ means v x1.
Lemma upd_str : forall v x0 x1, set_str v x0 = Some x1 <-> upd means_str v x0 x1.
Proof. intros v x0 x1. unfold upd, means_str. destruct v; cbn; intuition congruence. Qed.
Lemma upd_bool : forall v x0 x1, set_bool v x0 = Some x1 <-> upd means_bool v x0 x1.
Proof. intros v x0 x1. unfold upd, means_bool. destruct v; cbn; intuition congruence. Qed.
Lemma upd_float : forall L v x0 x1, set_float L v x0 = Some x1 <-> upd (means_float L) v x0 x1.
Proof.
  intros L v x0 x1. unfold upd, means_float. destruct v; cbn;
    (split; [intro H; try discriminate H|intros [[H X]|(t & H & X)]; try discriminate H]).
  - injection H as <-. auto.
  - subst. reflexivity.
  - right. eauto.
  - injection H as ->. exact X.
Qed.
Lemma upd_uint : forall bits v x0 x1, set_uint (2 ^ bits - 1) v x0 = Some x1 <-> upd (means_uint bits) v x0 x1.
Proof.
  intros bits v x0 x1. assert (P : 2 ^ bits <> 0) by (apply N.pow_nonzero; discriminate).
  unfold upd, means_uint. destruct v; cbn [set_uint];
    (split; [intro H; try discriminate H|intros [[H X]|(t & H & X & Y)]; try discriminate H]).
  - injection H as <-. auto.
  - subst. reflexivity.
  - apply parse_uint_iff in H. right. exists tok. split; [reflexivity|]. split; [tauto|]. destruct H. clear H. lia.
  - injection H as ->. apply parse_uint_iff. split; [exact X|]. clear X. lia.
Qed.

(** The effect of one member on one field. *)
Definition fstep {A} (means : json -> A -> Prop) (name : bytes) (m : bytes * json) (x0 x1 : A) : Prop :=
  if same_name (fst m) name then upd means (snd m) x0 x1 else x1 = x0.

Lemma field_nil : forall A (means : json -> A -> Prop) name x0 x, field means name x0 [] x <-> x = x0.
Proof.
  intros. unfold field. split.
  - intros [_ [[_ E]|(l1 & k & v & l2 & E & _)]]; [exact E|]. destruct l1; discriminate E.
  - intros ->. split; [intros ? ? []|]. left. split; [intros ? ? []|reflexivity].
Qed.
Lemma field_cons : forall A (means : json -> A -> Prop) name m l x0 x,
  field means name x0 (m :: l) x <-> exists x1, fstep means name m x0 x1 /\ field means name x1 l x.
Proof.
  intros A means name [k v] l x0 x. unfold fstep, upd. cbn [fst snd]. split.
  - intros [T V]. destruct (same_name k name) eqn:S.
    + apply same_alike in S. assert (TV : v = JNull \/ exists y, means v y) by (apply (T k v); [left; reflexivity|exact S]).
      assert (TL : forall k' v', In (k', v') l -> alike k' name -> v' = JNull \/ exists y, means v' y).
      { intros k' v' I. apply T. right. exact I. }
      destruct V as [[V E]|(l1 & k1 & v1 & l2 & E & K & M & R)].
      * exists x0. split; [left; split; [apply (V k v); [left; reflexivity|exact S]|reflexivity]|].
        split; [exact TL|]. left. split; [|exact E]. intros k' v' I. apply V. right. exact I.
      * destruct l1 as [|m l1]; cbn in E; injection E as E1 E2.
        -- subst. exists x. split; [right; exact M|]. split; [exact TL|]. left. auto.
        -- subst. destruct TV as [TV|[y TV]].
           ++ exists x0. split; [left; auto|]. split; [exact TL|]. right. exists l1, k1, v1, l2. auto.
           ++ exists y. split; [right; auto|]. split; [exact TL|]. right. exists l1, k1, v1, l2. auto.
    + apply same_false in S. exists x0. split; [reflexivity|]. split.
      * intros k' v' I. apply T. right. exact I.
      * destruct V as [[V E]|(l1 & k1 & v1 & l2 & E & K & M & R)].
        -- left. split; [|exact E]. intros k' v' I. apply V. right. exact I.
        -- right. destruct l1 as [|m l1]; cbn in E; injection E as E1 E2; [subst; contradiction|].
           exists l1, k1, v1, l2. auto.
  - intros (x1 & ST & T & V). destruct (same_name k name) eqn:S.
    + split.
      * intros k' v' [I|I] A'; [|eapply T; eauto]. injection I as <- <-. destruct ST as [[-> _]|M]; eauto.
      * destruct V as [[V E]|(l1 & k1 & v1 & l2 & E & K & M & R)].
        -- subst x1. destruct ST as [[-> ->]|M].
           ++ left. split; [|reflexivity]. intros k' v' [I|I] A'; [congruence|eauto].
           ++ right. exists [], k, v, l. split; [reflexivity|]. split; [apply same_alike; exact S|]. auto.
        -- right. exists ((k, v) :: l1), k1, v1, l2. rewrite E. auto.
    + subst x1. apply same_false in S. split.
      * intros k' v' [I|I] A'; [injection I as <- <-; contradiction|eapply T; eauto].
      * destruct V as [[V E]|(l1 & k1 & v1 & l2 & E & K & M & R)].
        -- left. split; [|exact E]. intros k' v' [I|I] A'; [injection I as <- <-; contradiction|eauto].
        -- right. exists ((k, v) :: l1), k1, v1, l2. rewrite E. auto.
Qed.

Definition all_steps (L : floatlib) (m : bytes * json) (z c : DataConfig) : Prop :=
  fstep means_str (bs "name") m (cName z) (cName c) /\
  fstep (means_uint 64) (bs "version") m (cVersion z) (cVersion c) /\
  fstep (means_uint 64) (bs "targetN") m (cTargetN z) (cTargetN c) /\
  fstep (means_float L) (bs "targetUtilization") m (cTargetUtilization z) (cTargetUtilization c) /\
  fstep means_bool (bs "noTarget") m (cNoTarget z) (cNoTarget c) /\
  fstep (means_uint 32) (bs "replicationOnInsert") m (cReplicationOnInsert z) (cReplicationOnInsert c) /\
  fstep means_bool (bs "enforceReplicationOnInsert") m (cEnforceReplicationOnInsert z) (cEnforceReplicationOnInsert c) /\
  fstep (means_uint 64) (bs "retention") m (cRetention z) (cRetention c).

Lemma config_ext : forall n ve tn tu nt ro en re c, mkDataConfig n ve tn tu nt ro en re = c <->
  n = cName c /\ ve = cVersion c /\ tn = cTargetN c /\ tu = cTargetUtilization c /\ nt = cNoTarget c /\
  ro = cReplicationOnInsert c /\ en = cEnforceReplicationOnInsert c /\ re = cRetention c.
Proof. intros. destruct c. cbn. split; [intro H; injection H; intros; subst; repeat split|intros (-> & -> & -> & -> & -> & -> & -> & ->); reflexivity]. Qed.

Lemma map_some : forall A B (f : A -> B) o c, option_map f o = Some c <-> exists x, o = Some x /\ f x = c.
Proof.
  intros A B f [a|] c; cbn; split.
  - intro H. injection H as <-. eauto.
  - intros (x & E & <-). injection E as ->. reflexivity.
  - discriminate.
  - intros (x & E & _). discriminate E.
Qed.

Lemma member_iff : forall L z m c, decode_member L z m = Some c <-> all_steps L m z c.
Proof.
  intros L [n ve tn tu nt ro en re] [k v] c. unfold decode_member, all_steps, fstep. cbn [fst snd].
  change (M64 - 1) with (2 ^ 64 - 1). change (M32 - 1) with (2 ^ 32 - 1).
  cbn [cName cVersion cTargetN cTargetUtilization cNoTarget cReplicationOnInsert cEnforceReplicationOnInsert cRetention].
  destruct (same_name k (bs "name")) eqn:E1.
  { do 7 (rewrite (same_other k (bs "name") _ E1); [|reflexivity]). rewrite map_some.
    setoid_rewrite config_ext. setoid_rewrite upd_str. split.
    - intros (x & U & -> & H). intuition congruence.
    - intros (U & H). exists (cName c). intuition congruence. }
  destruct (same_name k (bs "version")) eqn:E2.
  { do 6 (rewrite (same_other k (bs "version") _ E2); [|reflexivity]). rewrite map_some.
    setoid_rewrite config_ext. setoid_rewrite (upd_uint 64). split.
    - intros (x & U & A & -> & H). intuition congruence.
    - intros (A & U & H). exists (cVersion c). intuition congruence. }
  destruct (same_name k (bs "targetN")) eqn:E3.
  { do 5 (rewrite (same_other k (bs "targetN") _ E3); [|reflexivity]). rewrite map_some.
    setoid_rewrite config_ext. setoid_rewrite (upd_uint 64). split.
    - intros (x & U & A & B & -> & H). intuition congruence.
    - intros (A & B & U & H). exists (cTargetN c). intuition congruence. }
  destruct (same_name k (bs "targetUtilization")) eqn:E4.
  { do 4 (rewrite (same_other k (bs "targetUtilization") _ E4); [|reflexivity]). rewrite map_some.
    setoid_rewrite config_ext. setoid_rewrite upd_float. split.
    - intros (x & U & A & B & C & -> & H). intuition congruence.
    - intros (A & B & C & U & H). exists (cTargetUtilization c). intuition congruence. }
  destruct (same_name k (bs "noTarget")) eqn:E5.
  { do 3 (rewrite (same_other k (bs "noTarget") _ E5); [|reflexivity]). rewrite map_some.
    setoid_rewrite config_ext. setoid_rewrite upd_bool. split.
    - intros (x & U & A & B & C & D & -> & H). intuition congruence.
    - intros (A & B & C & D & U & H). exists (cNoTarget c). intuition congruence. }
  destruct (same_name k (bs "replicationOnInsert")) eqn:E6.
  { do 2 (rewrite (same_other k (bs "replicationOnInsert") _ E6); [|reflexivity]). rewrite map_some.
    setoid_rewrite config_ext. setoid_rewrite (upd_uint 32). split.
    - intros (x & U & A & B & C & D & E & -> & H). intuition congruence.
    - intros (A & B & C & D & E & U & H). exists (cReplicationOnInsert c). intuition congruence. }
  destruct (same_name k (bs "enforceReplicationOnInsert")) eqn:E7.
  { do 1 (rewrite (same_other k (bs "enforceReplicationOnInsert") _ E7); [|reflexivity]). rewrite map_some.
    setoid_rewrite config_ext. setoid_rewrite upd_bool. split.
    - intros (x & U & A & B & C & D & E & F & -> & H). intuition congruence.
    - intros (A & B & C & D & E & F & U & H). exists (cEnforceReplicationOnInsert c). intuition congruence. }
  destruct (same_name k (bs "retention")) eqn:E8.
  { rewrite map_some. setoid_rewrite config_ext. setoid_rewrite (upd_uint 64). split.
    - intros (x & U & A & B & C & D & E & F & G & ->). intuition congruence.
    - intros (A & B & C & D & E & F & G & U). exists (cRetention c). intuition congruence. }
  split.
  - intro H. injection H as <-. repeat split.
  - intros H. f_equal. apply config_ext. intuition congruence.
Qed.

Lemma members_iff : forall L l z c, decode_members L z l = Some c <-> describes_from L z l c.
Proof.
  intros L. induction l as [|m l IH]; intros z c.
  - cbn [decode_members]. unfold describes_from. rewrite !field_nil. split.
    + intro H. injection H as <-. repeat split.
    + intros H. f_equal. destruct z as [n ve tn tu nt ro en re]. apply config_ext. cbn [cName cVersion cTargetN cTargetUtilization cNoTarget cReplicationOnInsert cEnforceReplicationOnInsert cRetention] in H. intuition congruence.
  - cbn [decode_members]. unfold describes_from. rewrite !field_cons. split.
    + destruct (decode_member L z m) as [z1|] eqn:D; [|discriminate]. intro H. apply IH in H. apply member_iff in D.
      destruct D as (D1 & D2 & D3 & D4 & D5 & D6 & D7 & D8). destruct H as (H1 & H2 & H3 & H4 & H5 & H6 & H7 & H8).
      repeat split; eauto.
    + intros ((x1 & A1 & B1) & (x2 & A2 & B2) & (x3 & A3 & B3) & (x4 & A4 & B4) & (x5 & A5 & B5) & (x6 & A6 & B6) & (x7 & A7 & B7) & (x8 & A8 & B8)).
      assert (D : decode_member L z m = Some (mkDataConfig x1 x2 x3 x4 x5 x6 x7 x8)).
      { apply member_iff. repeat split; assumption. }
      rewrite D. apply IH. repeat split; cbn [cName cVersion cTargetN cTargetUtilization cNoTarget cReplicationOnInsert cEnforceReplicationOnInsert cRetention]; first [apply B1|apply B2|apply B3|apply B4|apply B5|apply B6|apply B7|apply B8].
Qed.

Theorem unmarshal_iff : forall L t c, UnmarshalConfig L t = Some c <-> describes_text L t c.
Proof.
  intros L t c. unfold UnmarshalConfig, describes_text. split.
  - destruct (parse t) as [v|] eqn:P; [|discriminate]. apply parse_iff in P. intro H. exists v. split; [exact P|].
    destruct v; try discriminate H.
    + injection H as <-. left. auto.
    + right. exists l. split; [reflexivity|]. apply members_iff. exact H.
  - intros (v & P & D). apply parse_iff in P. rewrite P. destruct D as [[-> ->]|(l & -> & D)]; [reflexivity|].
    apply members_iff. exact D.
Qed.

(** ** Loading *)

(** The configuration of a dataset. *)
Definition cfg (now : Z) (s : dstate) (n : bytes) : option DataConfig :=
  match dl_get now s n with
  | Some a => match nth_error (dsObjs s) a with Some dt => dConfig dt | None => None end
  | None => None
  end.

(** The registered configuration after another one with the same name. *)
Definition pick (o : option DataConfig) (c : DataConfig) : option DataConfig :=
  match o with Some c0 => Some (if cVersion c0 <? cVersion c then c else c0) | None => Some c end.

Lemma cfg_name : forall now s n c, inv s -> cfg now s n = Some c -> cName c = n.
Proof.
  intros now s n c [_ I] H. unfold cfg in H. destruct (dl_get now s n) as [a|] eqn:G; [|discriminate H].
  destruct (get_some _ _ _ _ G) as (i & E & <- & _). destruct (I _ _ E) as (dt & c0 & A & B & C).
  rewrite A in H. congruence.
Qed.

Lemma cfg_created : forall now s c s', inv s -> created now s c s' -> forall n,
  cfg now s' n = if bytes_eqb (cName c) n then pick (cfg now s n) c else cfg now s n.
Proof.
  intros now s c s' I C n. pose proof I as [W J]. unfold created in C. unfold cfg at 1.
  destruct (dl_get now s (cName c)) as [a|] eqn:G.
  - destruct C as (L & U & O). assert (LG : dl_get now s' n = dl_get now s n) by (apply dl_get_eq; rewrite L; reflexivity).
    rewrite LG. destruct (get_some _ _ _ _ G) as (i & E & <- & _). destruct (J _ _ E) as (dt & c0 & A & B & D).
    destruct (bytes_eqb (cName c) n) eqn:Q.
    + apply bytes_eqb_spec in Q. subst n. unfold cfg. rewrite G, A, (U dt c0 A B), B. cbn [pick].
      destruct (cVersion c0 <? cVersion c); [reflexivity|exact B].
    + unfold cfg. destruct (dl_get now s n) as [b|] eqn:Gn; [|reflexivity].
      destruct (Nat.eq_dec b (diObj i)) as [->|NE]; [|rewrite O by exact NE; reflexivity]. exfalso.
      destruct (get_some _ _ _ _ Gn) as (j & Ej & Ob & _). destruct (J _ _ Ej) as (dt' & c' & A' & B' & D').
      rewrite Ob in A'. rewrite A in A'. injection A' as <-. rewrite B in B'. injection B' as <-.
      assert (X : cName c = n) by congruence. apply bytes_eqb_spec in X. congruence.
  - subst s'. destruct (bytes_eqb (cName c) n) eqn:Q.
    + apply bytes_eqb_spec in Q. subst n. rewrite get_added. unfold cfg. rewrite G. cbn [pick].
      unfold added. cbn [dsObjs]. rewrite nth_error_app2, Nat.sub_diag by lia. reflexivity.
    + assert (X : mload (dsList (added now s c)) n = mload (dsList s) n).
      { unfold added. cbn [dsList]. apply mload_mstore_other. intro Z. apply bytes_eqb_spec in Z. congruence. }
      rewrite (dl_get_eq now s _ n X). unfold cfg. destruct (dl_get now s n) as [b|] eqn:Gn; [|reflexivity].
      destruct (get_some _ _ _ _ Gn) as (j & Ej & <- & _). destruct (J _ _ Ej) as (dt' & c' & A' & _).
      unfold added. cbn [dsObjs]. rewrite nth_error_app1; [reflexivity|]. apply nth_error_Some. congruence.
Qed.

Lemma load_iff : forall L inc now lines cs s, described L lines cs -> inv s ->
  exists s', load_lines L inc now s lines = Ok s' /\ inv s' /\
    forall n, cfg now s' n = fold_left (fun o c => if bytes_eqb (cName c) n then pick o c else o) cs (cfg now s n).
Proof.
  intros L inc now lines cs s D. revert s. induction D as [|x xs c cs T D IH|x xs cs T D IH]; intros s I.
  - exists s. cbn. auto.
  - cbn [load_lines]. apply unmarshal_iff in T. rewrite T.
    destruct (create_ok inc deep now s c I) as (s1 & E & C); [unfold deep; lia|]. rewrite E. cbn [bind].
    destruct (IH s1 (created_inv _ _ _ _ I C)) as (s' & E' & I' & F). exists s'. split; [exact E'|]. split; [exact I'|].
    intro n. rewrite F. cbn [fold_left]. rewrite (cfg_created _ _ _ _ I C n). reflexivity.
  - cbn [load_lines]. destruct (UnmarshalConfig L x) as [c|] eqn:U.
    { apply unmarshal_iff in U. exfalso. apply (T c U). }
    apply IH. exact I.
Qed.

(** [best] is what the fold computes. *)
Lemma best_fold : forall n cs o c, (forall c0, o = Some c0 -> cName c0 = n) ->
  fold_left (fun o c => if bytes_eqb (cName c) n then pick o c else o) cs o = Some c <->
  (o = Some c /\ forall c', In c' cs -> cName c' = n -> cVersion c' <= cVersion c) \/
  (exists l1 l2, cs = l1 ++ c :: l2 /\ cName c = n /\
     (forall c0, o = Some c0 -> cVersion c0 < cVersion c) /\
     (forall c', In c' l1 -> cName c' = n -> cVersion c' < cVersion c) /\
     (forall c', In c' l2 -> cName c' = n -> cVersion c' <= cVersion c)).
Proof.
  intro n. induction cs as [|x cs IH]; intros o c ON.
  - cbn. split; [intro H; left; split; [exact H|intros ? []]|].
    intros [[H _]|(l1 & l2 & E & _)]; [exact H|destruct l1; discriminate E].
  - cbn [fold_left]. destruct (bytes_eqb (cName x) n) eqn:Q.
    + apply bytes_eqb_spec in Q. assert (PN : forall c0, pick o x = Some c0 -> cName c0 = n).
      { intros c0 P. unfold pick in P. destruct o as [c1|]; injection P as <-; [destruct (_ <? _); auto|auto]. }
      rewrite (IH (pick o x) c PN). split.
      * intros [[P B]|(l1 & l2 & E & N1 & P & B1 & B2)].
        -- unfold pick in P. destruct o as [c0|]; injection P as P.
           ++ destruct (N.ltb_spec (cVersion c0) (cVersion x)) as [LT|GE].
              ** right. exists [], cs. subst c. split; [reflexivity|]. split; [exact Q|]. split; [intros c1 X; injection X as <-; exact LT|].
                 split; [intros ? []|exact B].
              ** left. subst c. split; [reflexivity|]. intros c' [<-|Ic] Nc; auto.
           ++ subst c. right. exists [], cs. split; [reflexivity|]. split; [exact Q|]. split; [discriminate|]. split; [intros ? []|exact B].
        -- right. exists (x :: l1), l2. split; [rewrite E; reflexivity|]. split; [exact N1|].
           assert (PX : forall c0, pick o x = Some c0 -> cVersion c0 < cVersion c) by exact P.
           unfold pick in PX. destruct o as [c0|].
           ++ specialize (PX _ eq_refl). split; [|split; [|exact B2]].
              ** intros c1 X. injection X as <-. destruct (N.ltb_spec (cVersion c0) (cVersion x)); lia.
              ** intros c' [<-|Ic] Nc; auto. destruct (N.ltb_spec (cVersion c0) (cVersion x)); lia.
           ++ specialize (PX _ eq_refl). split; [discriminate|]. split; [|exact B2]. intros c' [<-|Ic] Nc; auto.
      * intros [[-> B]|(l1 & l2 & E & N1 & P & B1 & B2)].
        -- left. cbn [pick]. assert (cVersion x <= cVersion c) by (apply B; [left; reflexivity|exact Q]).
           destruct (N.ltb_spec (cVersion c) (cVersion x)); [lia|]. split; [reflexivity|]. intros c' Ic. apply B. right. exact Ic.
        -- destruct l1 as [|y l1]; cbn in E; injection E as E1 E2.
           ++ left. subst. split; [|exact B2]. unfold pick. destruct o as [c0|]; [|reflexivity].
              specialize (P _ eq_refl). destruct (N.ltb_spec (cVersion c0) (cVersion c)); [reflexivity|lia].
           ++ right. subst y. exists l1, l2. split; [exact E2|]. split; [exact N1|]. split; [|split; [|exact B2]].
              ** assert (X : cVersion x < cVersion c) by (apply B1; [left; reflexivity|exact Q]).
                 intros c0 PK. unfold pick in PK. destruct o as [c1|]; injection PK as <-; [|exact X].
                 destruct (_ <? _); [exact X|apply P; reflexivity].
              ** intros c' Ic. apply B1. right. exact Ic.
    + rewrite (IH o c ON). assert (NQ : cName x <> n) by (intro Z; apply bytes_eqb_spec in Z; congruence). split.
      * intros [[P B]|(l1 & l2 & E & N1 & P & B1 & B2)].
        -- left. split; [exact P|]. intros c' [<-|Ic] Nc; [contradiction|auto].
        -- right. exists (x :: l1), l2. split; [rewrite E; reflexivity|]. split; [exact N1|]. split; [exact P|]. split; [|exact B2].
           intros c' [<-|Ic] Nc; [contradiction|auto].
      * intros [[P B]|(l1 & l2 & E & N1 & P & B1 & B2)].
        -- left. split; [exact P|]. intros c' Ic. apply B. right. exact Ic.
        -- right. destruct l1 as [|y l1]; cbn in E; injection E as E1 E2; [subst; contradiction|].
           exists l1, l2. split; [exact E2|]. split; [exact N1|]. split; [exact P|]. split; [|exact B2].
           intros c' Ic. apply B1. right. exact Ic.
Qed.

Lemma split_read : forall file xs rest, split_lines file xs rest -> read_lines [] file = map (fun x => x ++ [10]) xs.
Proof.
  intros file xs rest (-> & F & R).
  assert (A : forall xs, Forall (fun x => ~ In 10 x) xs -> read_lines [] (flat_map (fun x => x ++ [10]) xs ++ rest) = map (fun x => x ++ [10]) xs ++ read_lines [] rest).
  { clear xs F. induction xs as [|x xs IH]; intro F; [reflexivity|]. inversion F; subst. cbn [flat_map map app].
    rewrite <- !app_assoc. cbn [app]. change 10 with newline at 1. rewrite read_line by assumption. cbn [rev app]. f_equal. apply IH. auto. }
  rewrite A by exact F. rewrite read_partial by exact R. apply app_nil_r.
Qed.

(** Every file has lines, and these describe some list of datasets. *)
Lemma split_exists : forall file, exists xs rest, split_lines file xs rest.
Proof.
  unfold split_lines. induction file as [|b file (xs & rest & -> & F & R)].
  - exists [], []. cbn. auto.
  - destruct (N.eqb_spec b 10) as [->|N].
    + exists ([] :: xs), rest. split; [reflexivity|]. split; [constructor; auto|exact R].
    + destruct xs as [|x xs].
      * exists [], (b :: rest). split; [reflexivity|]. split; [auto|]. intros [X|X]; [congruence|auto].
      * exists ((b :: x) :: xs), rest. inversion F; subst. split; [reflexivity|]. split; [|exact R].
        constructor; auto. intros [X|X]; [congruence|auto].
Qed.
Lemma described_exists : forall L lines, exists cs, described L lines cs.
Proof.
  intros L. induction lines as [|x lines (cs & D)]; [exists []; constructor|].
  destruct (UnmarshalConfig L x) as [c|] eqn:U.
  - exists (c :: cs). constructor; auto. apply unmarshal_iff. exact U.
  - exists cs. apply d_other; auto. intros c T. apply unmarshal_iff in T. congruence.
Qed.
