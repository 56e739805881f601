From Verif.Base Require Import GoBase GoLemmas.
From Verif.Model Require Import Json.
From Verif.Spec Require Import Text.
From Coq Require Import Lia.
Open Scope N_scope.
Ltac Zify.zify_post_hook ::= Z.div_mod_to_equations.

Lemma in_range_spec : forall lo hi b, in_range lo hi b = true <-> lo <= b <= hi.
Proof. intros. unfold in_range. rewrite andb_true_iff, !N.leb_le. tauto. Qed.
Lemma in_range_false : forall lo hi b, in_range lo hi b = false <-> b < lo \/ hi < b.
Proof.
  intros. unfold in_range. rewrite andb_false_iff, !N.leb_gt. tauto.
Qed.

(** * Runes *)
Ltac ltb := repeat match goal with
  | |- context [?a <? ?b] => first [rewrite (proj2 (N.ltb_lt a b)) by lia | rewrite (proj2 (N.ltb_ge a b)) by lia]
  | |- context [?a =? ?b] => first [rewrite (proj2 (N.eqb_eq a b)) by lia | rewrite (proj2 (N.eqb_neq a b)) by lia]
  | |- context [in_range ?a ?b ?c] => first [rewrite (proj2 (in_range_spec a b c)) by lia
                                            | rewrite (proj2 (in_range_false a b c)) by lia]
  end.

Lemma decode_encode : forall r s, rune_ok r -> decode_rune (encode_rune r ++ s) = Some (r, s).
Proof.
  intros r s H. unfold rune_ok in H. unfold encode_rune.
  destruct (r <? 128) eqn:E1; [|destruct (r <? 2048) eqn:E2; [|destruct (r <? 65536) eqn:E3]].
  - cbn [app decode_rune]. rewrite E1. auto.
  - apply N.ltb_ge in E1. apply N.ltb_lt in E2. cbn [app decode_rune]. ltb.
    repeat f_equal. lia.
  - apply N.ltb_ge in E1, E2. apply N.ltb_lt in E3. cbn [app decode_rune].
    assert (B : 224 + r / 4096 <= 239) by lia.
    assert (C : 128 + (r / 64) mod 64 <= 191) by lia.
    rewrite (proj2 (N.ltb_ge _ 128)) by lia. rewrite (proj2 (in_range_false 194 223 _)) by lia.
    rewrite (proj2 (in_range_spec 224 239 _)) by lia.
    rewrite (proj2 (in_range_spec 128 191 (128 + r mod 64))) by lia.
    assert (in_range (if 224 + r / 4096 =? 224 then 160 else 128)
              (if 224 + r / 4096 =? 237 then 159 else 191) (128 + (r / 64) mod 64) = true) as ->.
    { apply in_range_spec.
      destruct (224 + r / 4096 =? 224) eqn:Q1; destruct (224 + r / 4096 =? 237) eqn:Q2;
        rewrite ?N.eqb_eq, ?N.eqb_neq in *; lia. }
    cbn [andb]. repeat f_equal. lia.
  - apply N.ltb_ge in E1, E2, E3. cbn [app decode_rune].
    assert (B : 240 + r / 262144 <= 244) by lia.
    rewrite (proj2 (N.ltb_ge _ 128)) by lia. rewrite (proj2 (in_range_false 194 223 _)) by lia.
    rewrite (proj2 (in_range_false 224 239 _)) by lia. rewrite (proj2 (in_range_spec 240 244 _)) by lia.
    rewrite (proj2 (in_range_spec 128 191 (128 + r mod 64))) by lia.
    rewrite (proj2 (in_range_spec 128 191 (128 + (r / 64) mod 64))) by lia.
    assert (in_range (if 240 + r / 262144 =? 240 then 144 else 128)
              (if 240 + r / 262144 =? 244 then 143 else 191) (128 + (r / 4096) mod 64) = true) as ->.
    { apply in_range_spec.
      destruct (240 + r / 262144 =? 240) eqn:Q1; destruct (240 + r / 262144 =? 244) eqn:Q2;
        rewrite ?N.eqb_eq, ?N.eqb_neq in *; lia. }
    cbn [andb]. repeat f_equal. lia.
Qed.

Lemma encode_length : forall r, (1 <= length (encode_rune r))%nat.
Proof. intro r. unfold encode_rune. destruct (r <? 128), (r <? 2048), (r <? 65536); cbn; lia. Qed.

Lemma quote_body_spec : forall rs fuel, Forall rune_ok rs ->
  (length (flat_map encode_rune rs) <= fuel)%nat ->
  quote_body fuel (flat_map encode_rune rs) = flat_map quote_rune rs.
Proof.
  induction rs as [|r rs IH]; intros fuel F L; cbn [flat_map] in *.
  - destruct fuel; reflexivity.
  - inversion F; subst. rewrite app_length in L. pose proof (encode_length r).
    destruct fuel; [lia|]. cbn [quote_body].
    destruct (encode_rune r ++ flat_map encode_rune rs) as [|b t] eqn:E.
    { apply (f_equal (@length N)) in E. rewrite app_length in E. cbn in E. lia. }
    rewrite <- E, decode_encode by auto. rewrite IH; auto. lia.
Qed.

(** The text of a quoted string, rune by rune. *)
Lemma hex_unhex : forall n, n < 16 -> unhex (hexdigit n) = Some n.
Proof.
  intros n H. unfold hexdigit, unhex. destruct (n <? 10) eqn:E.
  - apply N.ltb_lt in E. ltb. f_equal. lia.
  - apply N.ltb_ge in E. ltb. f_equal. lia.
Qed.

Lemma pstr_step_rune : forall f r s x rest, rune_ok r ->
  pstr f s = Some (x, rest) -> pstr (S f) (quote_rune r ++ s) = Some (encode_rune r ++ x, rest).
Proof.
  intros f r s x rest H E. unfold quote_rune.
  destruct (r <? 128) eqn:E1.
  - apply N.ltb_lt in E1. unfold quote_ascii.
    assert (ER : encode_rune r = [r]) by (unfold encode_rune; ltb; auto).
    destruct ((r =? 34) || (r =? 92))%bool eqn:Q1.
    { cbn [app pstr].
      replace (92 =? 34) with false by reflexivity. replace (92 =? 92) with true by reflexivity.
      apply orb_true_iff in Q1. rewrite !N.eqb_eq in Q1.
      unfold simple_escape. destruct Q1; subst r; cbn; rewrite E, ?ER; reflexivity. }
    destruct (r =? 10) eqn:Q2; [apply N.eqb_eq in Q2; subst r; cbn; rewrite E; reflexivity|].
    destruct (r =? 13) eqn:Q3; [apply N.eqb_eq in Q3; subst r; cbn; rewrite E; reflexivity|].
    destruct (r =? 9) eqn:Q4; [apply N.eqb_eq in Q4; subst r; cbn; rewrite E; reflexivity|].
    destruct ((r <? 32) || (r =? 60) || (r =? 62) || (r =? 38))%bool eqn:Q5.
    { cbn [app pstr].
      replace (92 =? 34) with false by reflexivity. replace (92 =? 92) with true by reflexivity.
      replace (117 =? 117) with true by reflexivity.
      unfold hex4. rewrite !hex_unhex by lia. change (unhex 48) with (Some 0). cbv iota beta.
      replace (((0 * 16 + 0) * 16 + r / 16) * 16 + r mod 16) with r by lia.
      rewrite (proj2 (in_range_false 55296 57343 r)) by lia. rewrite E. reflexivity. }
    { apply orb_false_iff in Q1. rewrite !N.eqb_neq in Q1.
      rewrite !orb_false_iff, !N.eqb_neq, N.ltb_ge in Q5.
      cbn [app pstr]. ltb. cbn [decode_rune]. ltb. rewrite E. reflexivity. }
  - apply N.ltb_ge in E1.
    destruct ((r =? 8232) || (r =? 8233))%bool eqn:Q.
    { cbn [app pstr].
      replace (92 =? 34) with false by reflexivity. replace (92 =? 92) with true by reflexivity.
      replace (117 =? 117) with true by reflexivity.
      apply orb_true_iff in Q. rewrite !N.eqb_eq in Q.
      destruct Q; subst r; cbn; rewrite E; reflexivity. }
    { pose proof (decode_encode r s H) as D. pose proof (encode_length r) as L.
      assert (B : exists b t, encode_rune r = b :: t /\ 128 <= b).
      { unfold encode_rune. rewrite (proj2 (N.ltb_ge r 128)) by lia.
        destruct (r <? 2048); [|destruct (r <? 65536)]; eexists; eexists; (split; [reflexivity|lia]). }
      destruct B as (b & t & Eb & Hb). rewrite Eb in *. cbn [app] in *. cbn [pstr].
      rewrite (proj2 (N.eqb_neq b 34)) by lia. rewrite (proj2 (N.eqb_neq b 92)) by lia.
      rewrite (proj2 (N.ltb_ge b 32)) by lia. rewrite D, E. rewrite Eb. reflexivity. }
Qed.

Lemma quote_rune_length : forall r, (1 <= length (quote_rune r))%nat.
Proof.
  intro r. unfold quote_rune, quote_ascii.
  destruct (r <? 128); [|destruct (_ || _)%bool; [cbn; lia|apply encode_length]].
  repeat match goal with |- context [if ?c then _ else _] => destruct c end; cbn; lia.
Qed.

Lemma pstr_fuel : forall f s x r, pstr f s = Some (x, r) -> forall f', (f <= f')%nat -> pstr f' s = Some (x, r).
Proof.
  induction f as [|f IH]; intros s x r E f' L; [discriminate|].
  destruct f' as [|f']; [lia|].
  assert (K : forall y rest z q, match pstr f rest with Some (w, k) => Some (y ++ w, k) | None => None end = Some (z, q) ->
                match pstr f' rest with Some (w, k) => Some (y ++ w, k) | None => None end = Some (z, q)).
  { intros y rest z q H. destruct (pstr f rest) as [[w k]|] eqn:Ep; [|discriminate].
    rewrite (IH _ _ _ Ep f') by lia. exact H. }
  cbn [pstr] in *.
  repeat (match goal with
          | H : context [match ?c with _ => _ end] |- _ =>
              match c with
              | pstr _ _ => fail 1
              | _ => destruct c
              end
          end; try discriminate); auto.
Qed.

Lemma pstr_quote : forall rs rest, Forall rune_ok rs ->
  exists f, (f <= length (flat_map quote_rune rs) + 1)%nat /\
    pstr f (flat_map quote_rune rs ++ 34 :: rest) = Some (flat_map encode_rune rs, rest).
Proof.
  induction rs as [|r rs IH]; intros rest F.
  - exists 1%nat. split; [cbn; lia|]. reflexivity.
  - inversion F; subst. destruct (IH rest H2) as (f & L & E). exists (S f). split.
    + cbn [flat_map]. rewrite app_length. pose proof (quote_rune_length r). lia.
    + cbn [flat_map]. rewrite <- app_assoc. apply pstr_step_rune; auto.
Qed.

Lemma quote_spec : forall rs, Forall rune_ok rs ->
  quote (flat_map encode_rune rs) = 34 :: flat_map quote_rune rs ++ [34].
Proof. intros rs F. unfold quote. rewrite quote_body_spec; auto. Qed.

Lemma pstr_of_quote : forall s rest, valid_text s -> exists q, quote s = 34 :: q /\
  pstr (length (q ++ rest)) (q ++ rest) = Some (s, rest).
Proof.
  intros s rest (rs & F & ->). eexists. split; [apply quote_spec; auto|].
  destruct (pstr_quote rs rest F) as (f & L & E).
  rewrite <- app_assoc. cbn [app]. eapply pstr_fuel; [exact E|]. rewrite app_length. cbn. lia.
Qed.

(** * Values *)
Section ind.
  Variable P : json -> Prop.
  Hypotheses (h1 : P JNull) (h2 : forall b, P (JBool b)) (h3 : forall t, P (JNum t))
    (h4 : forall s, P (JStr s)) (h5 : forall l, Forall P l -> P (JArr l))
    (h6 : forall l, Forall (fun m => P (snd m)) l -> P (JObj l)).
  Fixpoint json_ind' (v : json) : P v :=
    match v with
    | JNull => h1
    | JBool b => h2 b
    | JNum t => h3 t
    | JStr s => h4 s
    | JArr l => h5 l ((fix go l := match l return Forall P l with
                        | [] => Forall_nil _ | x :: l' => Forall_cons x (json_ind' x) (go l') end) l)
    | JObj l => h6 l ((fix go (l : list (bytes * json)) := match l return Forall (fun m => P (snd m)) l with
                        | [] => Forall_nil _ | x :: l' => Forall_cons x (json_ind' (snd x)) (go l') end) l)
    end.
End ind.

Definition is_num (v : json) : bool := match v with JNum _ => true | _ => false end.
(** What may follow a value inside an array or an object *)
Definition after (s : bytes) : Prop := exists c s', s = c :: s' /\ (c = 44 \/ c = 93 \/ c = 125).

Definition print_member (m : bytes * json) : bytes := let '(k, v) := m in quote k ++ 58 :: print v.

Lemma print_obj : forall l, print (JObj l) = 123 :: join 44 (map print_member l) ++ [125].
Proof. reflexivity. Qed.

Lemma skip_ws_no : forall b s, is_ws b = false -> skip_ws (b :: s) = b :: s.
Proof. intros b s H. cbn. rewrite H. auto. Qed.

Lemma print_first : forall v, json_ok v -> exists b s, print v = b :: s /\ is_ws b = false /\ b <> 93 /\ b <> 125.
Proof.
  intros v O. destruct O; cbn [print].
  - eexists; eexists; split; [reflexivity|]. split; [reflexivity|split; discriminate].
  - destruct b; eexists; eexists; (split; [reflexivity|]); split; try reflexivity; split; discriminate.
  - destruct H as (NE & C & P). destruct t as [|b t]; [congruence|]. exists b, t. split; auto.
    destruct (C b (or_introl eq_refl)) as (_ & _ & _ & W & _). split; auto.
    specialize (P 44 [] (or_introl eq_refl)). cbn [app] in P. unfold pnum in P.
    split; intros ->; discriminate.
  - eexists; eexists; split; [reflexivity|]. split; [reflexivity|split; discriminate].
  - eexists; eexists; split; [reflexivity|]. split; [reflexivity|split; discriminate].
  - eexists; eexists; split; [reflexivity|]. split; [reflexivity|split; discriminate].
Qed.

Lemma literal_app : forall w s, literal w (w ++ s) = Some s.
Proof. induction w; intros; cbn; auto. rewrite N.eqb_refl. auto. Qed.

Lemma pval_print : forall v, json_ok v -> forall n rest,
  (length (print v) <= n)%nat -> (is_num v = true -> after rest) ->
  pval n (print v ++ rest) = Some (v, rest).
Proof.
  induction v using json_ind'; intros O n rest L A; inversion O; subst;
    (destruct n as [|n]; [exfalso; destruct (print_first _ O) as (b0 & s0 & E0 & _); rewrite E0 in L; cbn in L; lia|]).
  - cbn. reflexivity.
  - destruct b; cbn; reflexivity.
  - (* number *)
    destruct H0 as (NE & C & P). destruct (A eq_refl) as (c & r' & -> & Hc).
    cbn [print]. specialize (P c r' Hc). destruct t as [|b t]; [congruence|].
    destruct (C b (or_introl eq_refl)) as (C1 & C2 & C3 & C4 & C5 & C6 & C7).
    cbn [pval app]. rewrite skip_ws_no by auto. cbn [app] in P.
    rewrite !(proj2 (N.eqb_neq b _)) by auto. rewrite P. reflexivity.
  - cbn [print]. destruct (pstr_of_quote s rest H0) as (q & Eq & Ep). rewrite Eq.
    cbn [app pval]. rewrite skip_ws_no by reflexivity.
    replace (34 =? 123) with false by reflexivity. replace (34 =? 91) with false by reflexivity.
    replace (34 =? 34) with true by reflexivity. rewrite Ep. reflexivity.
  - (* array *)
    cbn [print app pval]. rewrite skip_ws_no by reflexivity.
    replace (91 =? 123) with false by reflexivity. replace (91 =? 91) with true by reflexivity.
    destruct l as [|v l].
    { cbn [map join app]. rewrite skip_ws_no by reflexivity. reflexivity. }
    assert (EL : forall l v n rest, Forall json_ok (v :: l) ->
              Forall (fun v => json_ok v -> forall n rest, (length (print v) <= n)%nat ->
                       (is_num v = true -> after rest) -> pval n (print v ++ rest) = Some (v, rest)) (v :: l) ->
              (length (join 44 (map print (v :: l))) < n)%nat ->
              pelems n (join 44 (map print (v :: l)) ++ 93 :: rest) = Some (v :: l, rest)).
    { clear. induction l as [|w l IHl]; intros v n rest FO FH L; destruct n as [|n]; try (cbn in L; lia).
      - cbn [map join] in *. inversion FO; inversion FH; subst.
        cbn [pelems]. rewrite H5 by first [assumption | lia | intros _; eexists; eexists; split; [reflexivity|auto]].
        rewrite skip_ws_no by reflexivity. reflexivity.
      - inversion FO; inversion FH; subst.
        change (join 44 (map print (v :: w :: l))) with (print v ++ 44 :: join 44 (map print (w :: l))) in *.
        rewrite app_length in L. cbn [length] in L.
        cbn [pelems]. rewrite <- app_assoc. cbn [app].
        rewrite H5 by first [assumption | lia | intros _; eexists; eexists; split; [reflexivity|auto]].
        rewrite skip_ws_no by reflexivity.
        replace (44 =? 93) with false by reflexivity. replace (44 =? 44) with true by reflexivity.
        rewrite IHl; auto. lia. }
    assert (Hfirst : exists b s, join 44 (map print (v :: l)) = b :: s /\ is_ws b = false /\ b <> 93).
    { inversion H1; subst. destruct (print_first v H3) as (b & s & E & W & N1 & N2).
      destruct l; cbn [map join]; rewrite E; eexists; eexists; (split; [reflexivity|auto]). }
    destruct Hfirst as (b & s & E & W & N1).
    rewrite <- app_assoc. cbn [app].
    rewrite E. cbn [app]. rewrite skip_ws_no by auto. rewrite (proj2 (N.eqb_neq b 93)) by auto.
    change (b :: s ++ 93 :: rest) with ((b :: s) ++ 93 :: rest). rewrite <- E.
    rewrite EL; auto. cbn [print length] in L. rewrite app_length in L. cbn in L. cbn. lia.
  - (* object *)
    rewrite print_obj in *. cbn [app pval]. rewrite skip_ws_no by reflexivity.
    replace (123 =? 123) with true by reflexivity.
    destruct l as [|m l].
    { cbn [map join app]. rewrite skip_ws_no by reflexivity. reflexivity. }
    assert (EL : forall l m n rest, Forall (fun m => valid_text (fst m) /\ json_ok (snd m)) (m :: l) ->
              Forall (fun m => json_ok (snd m) -> forall n rest, (length (print (snd m)) <= n)%nat ->
                       (is_num (snd m) = true -> after rest) -> pval n (print (snd m) ++ rest) = Some (snd m, rest)) (m :: l) ->
              (length (join 44 (map print_member (m :: l))) < n)%nat ->
              pmembers n (join 44 (map print_member (m :: l)) ++ 125 :: rest) = Some (m :: l, rest)).
    { clear. induction l as [|w l IHl]; intros [k v] n rest FO FH L; destruct n as [|n]; try (cbn in L; lia).
      - cbn [map join print_member] in *. inversion FO; inversion FH; subst. cbn [fst snd] in *. destruct H1 as [Vk Ov].
        rewrite <- app_assoc. cbn [app].
        destruct (pstr_of_quote k (58 :: print v ++ 125 :: rest) Vk) as (q & Eq & Ep).
        rewrite Eq in L |- *. cbn [app]. cbn [pmembers]. rewrite skip_ws_no by reflexivity.
        replace (34 =? 34) with true by reflexivity. rewrite Ep.
        rewrite skip_ws_no by reflexivity. replace (58 =? 58) with true by reflexivity.
        cbn [app length] in L. rewrite app_length in L. cbn [length] in L.
        rewrite H5 by first [assumption | lia | intros _; eexists; eexists; split; [reflexivity|auto]].
        rewrite skip_ws_no by reflexivity. reflexivity.
      - inversion FO; inversion FH; subst. cbn [fst snd] in *. destruct H1 as [Vk Ov].
        change (join 44 (map print_member ((k, v) :: w :: l)))
          with ((quote k ++ 58 :: print v) ++ 44 :: join 44 (map print_member (w :: l))) in *.
        rewrite <- !app_assoc. cbn [app].
        destruct (pstr_of_quote k (58 :: print v ++ 44 :: join 44 (map print_member (w :: l)) ++ 125 :: rest) Vk)
          as (q & Eq & Ep).
        rewrite Eq in L |- *. cbn [app] in L |- *. cbn [pmembers]. rewrite skip_ws_no by reflexivity.
        replace (34 =? 34) with true by reflexivity. rewrite Ep.
        rewrite skip_ws_no by reflexivity. replace (58 =? 58) with true by reflexivity.
        cbn [length] in L. rewrite !app_length in L. cbn [length] in L.
        rewrite H5 by first [assumption | lia | intros _; eexists; eexists; split; [reflexivity|auto]].
        rewrite skip_ws_no by reflexivity.
        replace (44 =? 125) with false by reflexivity. replace (44 =? 44) with true by reflexivity.
        rewrite IHl; auto. lia. }
    assert (Hfirst : exists s, join 44 (map print_member (m :: l)) = 34 :: s).
    { destruct m as [k v]. destruct l; cbn [map join print_member]; unfold quote; eexists; reflexivity. }
    destruct Hfirst as (s & E).
    rewrite <- app_assoc. cbn [app].
    rewrite E. cbn [app]. rewrite skip_ws_no by reflexivity. replace (34 =? 125) with false by reflexivity.
    change (34 :: s ++ 125 :: rest) with ((34 :: s) ++ 125 :: rest). rewrite <- E.
    rewrite EL; auto. cbn [length] in L. rewrite app_length in L. cbn in L. cbn. lia.
Qed.

Theorem parse_print : forall v, json_ok v -> is_num v = false -> parse (print v) = Some v.
Proof.
  intros v O N1. unfold parse. pose proof (pval_print v O (length (print v)) []) as H.
  rewrite app_nil_r in H. rewrite H; auto. congruence.
Qed.

Corollary print_injective : forall v w, json_ok v -> json_ok w -> is_num v = false -> is_num w = false ->
  print v = print w -> v = w.
Proof. intros v w Ov Ow Nv Nw E. apply parse_print in Ov, Ow; auto. congruence. Qed.

(** * Numbers *)
Lemma dec_loop_spec : forall f n acc, (1 <= f)%nat -> n < 10 ^ N.of_nat f ->
  exists d, dec_loop f n acc = d ++ acc /\ d <> [] /\ Forall (fun b => 48 <= b <= 57) d /\
    (n <> 0 -> hd 0 d <> 48) /\
    (forall a tl, digits_value a (d ++ tl) = digits_value (a * 10 ^ blen d + n) tl).
Proof.
  induction f as [|f IH]; intros n acc Hf Hn; [lia|].
  cbn [dec_loop]. destruct (n / 10 =? 0) eqn:E.
  - apply N.eqb_eq in E. exists [48 + n mod 10]. split; auto. split; [discriminate|].
    split; [repeat constructor; lia|]. split.
    + cbn [hd]. intro. lia.
    + intros a tl. cbn [app digits_value]. unfold is_digit.
      rewrite (proj2 (in_range_spec 48 57 (48 + n mod 10))) by lia.
      f_equal. unfold blen. cbn [length]. change (10 ^ N.of_nat 1) with 10. lia.
  - apply N.eqb_neq in E.
    assert (Hf' : (1 <= f)%nat).
    { destruct f; [|lia]. exfalso. cbn in Hn. lia. }
    assert (Hn' : n / 10 < 10 ^ N.of_nat f).
    { rewrite Nat2N.inj_succ, N.pow_succ_r in Hn by lia. apply N.div_lt_upper_bound; lia. }
    destruct (IH (n / 10) ((48 + n mod 10) :: acc) Hf' Hn') as (d & E1 & NE & F & H0 & V).
    exists (d ++ [48 + n mod 10]). rewrite E1. split; [rewrite <- app_assoc; auto|].
    split; [destruct d; discriminate|]. split; [apply Forall_app; split; auto; repeat constructor; lia|].
    split.
    + intros _. destruct d as [|b d]; [congruence|]. cbn in *. apply H0. auto.
    + intros a tl. rewrite <- app_assoc. rewrite V. cbn [app digits_value]. unfold is_digit.
      rewrite (proj2 (in_range_spec 48 57 (48 + n mod 10))) by lia.
      f_equal. rewrite blen_app. change (blen [48 + n mod 10]) with 1.
      rewrite N.pow_add_r. change (10 ^ 1) with 10. nia.
Qed.

Lemma dec_spec : forall n, n < M64 ->
  dec n <> [] /\ Forall (fun b => 48 <= b <= 57) (dec n) /\ (n <> 0 -> hd 0 (dec n) <> 48) /\
  digits_value 0 (dec n) = Some n.
Proof.
  intros n H. destruct (dec_loop_spec 20 n []) as (d & E & NE & F & H0 & V); [lia| |].
  { unfold M64 in H. eapply N.lt_trans; [exact H|]. reflexivity. }
  unfold dec. rewrite app_nil_r in E. rewrite E. repeat split; auto.
  specialize (V 0 []). rewrite app_nil_r in V. rewrite V. reflexivity.
Qed.

Lemma digits_all : forall d c rest, Forall (fun b => 48 <= b <= 57) d -> is_digit c = false ->
  digits (d ++ c :: rest) = (d, c :: rest).
Proof.
  induction d as [|b d IH]; intros c rest F H; cbn [app digits].
  - rewrite H. auto.
  - inversion F; subst. unfold is_digit. rewrite (proj2 (in_range_spec 48 57 b)) by auto.
    fold is_digit. rewrite IH; auto.
Qed.

Lemma dec_token : forall n, n < M64 -> n <> 0 -> num_token (dec n).
Proof.
  intros n H Hn. destruct (dec_spec n H) as (NE & F & H0 & V). specialize (H0 Hn).
  split; auto. split.
  - intros b Hb. rewrite Forall_forall in F. specialize (F b Hb). cbn in F.
    repeat split; try lia. unfold is_ws. ltb. reflexivity.
  - intros c rest Hc. destruct (dec n) as [|b d] eqn:E; [congruence|].
    inversion F as [|? ? Fb Fd]; subst. cbn in H0. cbn [app]. unfold pnum.
    rewrite (proj2 (N.eqb_neq b 45)) by lia. unfold pint.
    rewrite (proj2 (N.eqb_neq b 48)) by auto. rewrite (proj2 (in_range_spec 49 57 b)) by lia.
    change (b :: d ++ c :: rest) with ((b :: d) ++ c :: rest).
    rewrite digits_all; auto.
    2:{ unfold is_digit. destruct Hc as [-> | [-> | ->]]; reflexivity. }
    unfold pfrac, pexp. destruct Hc as [-> | [-> | ->]]; cbn; rewrite app_nil_r; reflexivity.
Qed.

Lemma parse_uint_dec : forall n max, n < M64 -> n <= max -> parse_uint max (dec n) = Some n.
Proof.
  intros n max H Hm. destruct (dec_spec n H) as (NE & F & H0 & V). unfold parse_uint.
  destruct (dec n) eqn:E; [congruence|]. rewrite V. rewrite (proj2 (N.leb_le n max)) by auto. auto.
Qed.

(** * Fields *)
Lemma find_app : forall name a b, find_field name (a ++ b) =
  match find_field name b with Some v => Some v | None => find_field name a end.
Proof.
  induction a as [|[k v] a IH]; intros b; cbn; [destruct (find_field name b); auto|].
  rewrite IH. destruct (find_field name b); auto.
Qed.
Lemma find_str : forall name n s, find_field name (f_str n s) =
  if same_name n name then match s with [] => None | _ => Some (JStr s) end else None.
Proof. intros. unfold f_str. destruct s; cbn; destruct (same_name n name); auto. Qed.
Lemma find_uint : forall name n x, find_field name (f_uint n x) =
  if same_name n name then if x =? 0 then None else Some (JNum (dec x)) else None.
Proof. intros. unfold f_uint. destruct (x =? 0); cbn; destruct (same_name n name); auto. Qed.
Lemma find_bool : forall name n b, find_field name (f_bool n b) =
  if same_name n name then if b then Some (JBool true) else None else None.
Proof. intros. unfold f_bool. destruct b; cbn; destruct (same_name n name); auto. Qed.
Lemma find_strs : forall name n l, find_field name (f_strs n l) =
  if same_name n name then match l with [] => None | _ => Some (JArr (map JStr l)) end else None.
Proof. intros. unfold f_strs. destruct l; cbn; destruct (same_name n name); auto. Qed.
