(** A proper prefix of a written object is not a JSON text. *)
From Verif.Base Require Import GoBase GoLemmas.
From Verif.Model Require Import Json.
From Verif.Spec Require Import Text.
From Verif.Proof Require Import JsonP.
From Coq Require Import Lia.
Open Scope N_scope.

(** * More fuel *)
Lemma pval_fuel_S : forall f,
  (forall s v r, pval f s = Some (v, r) -> pval (S f) s = Some (v, r)) /\
  (forall s v r, pelems f s = Some (v, r) -> pelems (S f) s = Some (v, r)) /\
  (forall s v r, pmembers f s = Some (v, r) -> pmembers (S f) s = Some (v, r)).
Proof.
  induction f as [|f (IH1 & IH2 & IH3)]; [repeat split; discriminate|].
  split; [|split]; intros s v r E.
  - cbn [pval] in E. change (pval (S (S f)) s) with
      (match skip_ws s with
      | [] => None
      | b :: s' =>
          if b =? 123 then
            match skip_ws s' with
            | c :: s'' =>
                if c =? 125 then Some (JObj [], s'')
                else match pmembers (S f) s' with Some (l, r) => Some (JObj l, r) | None => None end
            | [] => None
            end
          else if b =? 91 then
            match skip_ws s' with
            | c :: s'' =>
                if c =? 93 then Some (JArr [], s'')
                else match pelems (S f) s' with Some (l, r) => Some (JArr l, r) | None => None end
            | [] => None
            end
          else if b =? 34 then
            match pstr (length s') s' with Some (x, r) => Some (JStr x, r) | None => None end
          else if b =? 116 then
            match literal (bs "true") (b :: s') with Some r => Some (JBool true, r) | None => None end
          else if b =? 102 then
            match literal (bs "false") (b :: s') with Some r => Some (JBool false, r) | None => None end
          else if b =? 110 then
            match literal (bs "null") (b :: s') with Some r => Some (JNull, r) | None => None end
          else match pnum (b :: s') with Some (t, r) => Some (JNum t, r) | None => None end
      end).
    destruct (skip_ws s) as [|b s']; [discriminate|].
    destruct (b =? 123).
    { destruct (skip_ws s') as [|c s'']; [discriminate|]. destruct (c =? 125); auto.
      destruct (pmembers f s') as [[l r']|] eqn:Em; [|discriminate]. rewrite (IH3 _ _ _ Em). auto. }
    destruct (b =? 91); auto.
    destruct (skip_ws s') as [|c s'']; [discriminate|]. destruct (c =? 93); auto.
    destruct (pelems f s') as [[l r']|] eqn:Em; [|discriminate]. rewrite (IH2 _ _ _ Em). auto.
  - cbn [pelems] in E. change (pelems (S (S f)) s) with
     (match pval (S f) s with
      | None => None
      | Some (v, r) =>
          match skip_ws r with
          | c :: r' =>
              if c =? 93 then Some ([v], r')
              else if c =? 44 then
                match pelems (S f) r' with Some (l, r2) => Some (v :: l, r2) | None => None end
              else None
          | [] => None
          end
      end).
    destruct (pval f s) as [[w q]|] eqn:Ev; [|discriminate]. rewrite (IH1 _ _ _ Ev).
    destruct (skip_ws q) as [|c r']; [discriminate|]. destruct (c =? 93); auto. destruct (c =? 44); auto.
    destruct (pelems f r') as [[l r2]|] eqn:Em; [|discriminate]. rewrite (IH2 _ _ _ Em). auto.
  - cbn [pmembers] in E. change (pmembers (S (S f)) s) with
      (match skip_ws s with
      | q :: s' =>
          if q =? 34 then
            match pstr (length s') s' with
            | None => None
            | Some (k, r) =>
                match skip_ws r with
                | c :: r' =>
                    if c =? 58 then
                      match pval (S f) r' with
                      | None => None
                      | Some (v, r2) =>
                          match skip_ws r2 with
                          | d :: r3 =>
                              if d =? 125 then Some ([(k, v)], r3)
                              else if d =? 44 then
                                match pmembers (S f) r3 with
                                | Some (l, r4) => Some ((k, v) :: l, r4)
                                | None => None
                                end
                              else None
                          | [] => None
                          end
                      end
                    else None
                | [] => None
                end
            end
          else None
      | [] => None
      end).
    destruct (skip_ws s) as [|q s']; [discriminate|]. destruct (q =? 34); auto.
    destruct (pstr (length s') s') as [[k r0]|]; auto.
    destruct (skip_ws r0) as [|c r']; auto. destruct (c =? 58); auto.
    destruct (pval f r') as [[w r2]|] eqn:Ev; [|discriminate]. rewrite (IH1 _ _ _ Ev).
    destruct (skip_ws r2) as [|d r3]; auto. destruct (d =? 125); auto. destruct (d =? 44); auto.
    destruct (pmembers f r3) as [[l r4]|] eqn:Em; [|discriminate]. rewrite (IH3 _ _ _ Em). auto.
Qed.

Lemma pval_fuel : forall f f' s v r, (f <= f')%nat -> pval f s = Some (v, r) -> pval f' s = Some (v, r).
Proof.
  intros f f' s v r L E. induction L; auto. apply pval_fuel_S. auto.
Qed.

(** * Longer texts *)
Lemma pstr_one : forall f b x r, pstr f [b] = Some (x, r) -> b = 34.
Proof.
  intros f b x r E. destruct f as [|f]; [discriminate|]. cbn [pstr] in E.
  destruct (b =? 34) eqn:Q; [apply N.eqb_eq; auto|].
  destruct (b =? 92); [discriminate|]. destruct (b <? 32); [discriminate|].
  assert (Z : pstr f [] = None) by (destruct f; reflexivity).
  destruct (decode_rune [b]) as [[c rest]|] eqn:D.
  - assert (rest = []).
    { unfold decode_rune in D.
      repeat match type of D with context [if ?c then _ else _] => destruct c end; try discriminate; congruence. }
    subst. rewrite Z in E. discriminate.
  - rewrite Z in E. discriminate.
Qed.

Lemma pstr_two : forall f b c x r, pstr f [b; c] = Some (x, r) -> b = 34 \/ c = 34.
Proof.
  intros f b c x r E. destruct f as [|f]; [discriminate|]. cbn [pstr] in E.
  destruct (b =? 34) eqn:Q; [left; apply N.eqb_eq; auto|].
  assert (Z : pstr f [] = None) by (destruct f; reflexivity).
  destruct (b =? 92).
  { destruct (c =? 117); [discriminate|]. destruct (simple_escape c); [|discriminate].
    rewrite Z in E. discriminate. }
  destruct (b <? 32); [discriminate|].
  destruct (decode_rune [b; c]) as [[d rest]|] eqn:D.
  - assert (rest = [] \/ rest = [c]) as [-> | ->].
    { unfold decode_rune in D.
      repeat match type of D with context [if ?c then _ else _] => destruct c end; try discriminate;
        injection D as <- <-; auto. }
    + rewrite Z in E. discriminate.
    + destruct (pstr f [c]) as [[y q]|] eqn:P; [|discriminate]. apply pstr_one in P. auto.
  - destruct (pstr f [c]) as [[y q]|] eqn:P; [|discriminate]. apply pstr_one in P. auto.
Qed.

Lemma decode_none_ext : forall f b s t x r, pstr f s = Some (x, r) ->
  decode_rune (b :: s) = None -> decode_rune (b :: s ++ t) = None.
Proof.
  intros f b s t x r E D.
  assert (R : forall lo hi, 34 < lo -> in_range lo hi 34 = false).
  { intros. apply in_range_false. auto. }
  destruct s as [|b1 [|b2 [|b3 s]]].
  - destruct f; discriminate.
  - apply pstr_one in E. subst b1.
    unfold decode_rune in *. cbn [app].
    destruct (b <? 128); [discriminate|]. destruct (in_range 194 223 b); [rewrite R by lia; auto|].
    destruct (in_range 224 239 b).
    { destruct t as [|b2 t]; auto.
      destruct (b =? 224); rewrite R by lia; auto. }
    destruct (in_range 240 244 b); auto.
    destruct t as [|b2 [|b3 t]]; auto. destruct (b =? 240); rewrite R by lia; auto.
  - apply pstr_two in E.
    unfold decode_rune in *. cbn [app].
    destruct (b <? 128); [discriminate|]. destruct (in_range 194 223 b).
    { destruct (in_range 128 191 b1); auto. discriminate. }
    destruct (in_range 224 239 b).
    { match type of D with (if ?c then _ else _) = None => destruct c; [discriminate|reflexivity] end. }
    destruct (in_range 240 244 b); auto.
    destruct t as [|b3 t]; auto.
    destruct E as [-> | ->].
    + destruct (b =? 240); rewrite R by lia; auto.
    + rewrite (R 128 191) by lia. rewrite andb_false_r. auto.
  - unfold decode_rune in *. cbn [app].
    destruct (b <? 128); [discriminate|]. destruct (in_range 194 223 b).
    { destruct (in_range 128 191 b1); auto. discriminate. }
    destruct (in_range 224 239 b).
    { match type of D with (if ?c then _ else _) = None => destruct c; [discriminate|reflexivity] end. }
    destruct (in_range 240 244 b); auto.
    match type of D with (if ?c then _ else _) = None => destruct c; [discriminate|reflexivity] end.
Qed.

Lemma decode_some_ext : forall s r rest t, decode_rune s = Some (r, rest) ->
  decode_rune (s ++ t) = Some (r, rest ++ t).
Proof.
  intros s r rest t D. destruct s as [|b [|b1 [|b2 [|b3 s]]]]; [discriminate| | | |];
    unfold decode_rune in *; cbn [app];
    repeat match type of D with
      | (if ?c then _ else _) = _ => destruct c; try discriminate
      end; try (injection D as <- <-; reflexivity).
Qed.

Lemma hex4_ext : forall s r rest t, hex4 s = Some (r, rest) -> hex4 (s ++ t) = Some (r, rest ++ t).
Proof.
  intros s r rest t H. destruct s as [|a [|b [|c [|d s]]]]; try discriminate.
  cbn [hex4 app] in *. destruct (unhex a), (unhex b), (unhex c), (unhex d); try discriminate.
  injection H as <- <-. reflexivity.
Qed.

Lemma pstr_ext : forall f s x r t, pstr f s = Some (x, r) -> pstr f (s ++ t) = Some (x, r ++ t).
Proof.
  induction f as [|f IH]; intros s x r t E; [discriminate|].
  destruct s as [|b s']; [discriminate|]. cbn [app pstr] in *.
  assert (K : forall y rest z q,
     match pstr f rest with Some (w, k) => Some (y ++ w, k) | None => None end = Some (z, q) ->
     match pstr f (rest ++ t) with Some (w, k) => Some (y ++ w, k) | None => None end = Some (z, q ++ t)).
  { intros y rest z q H. destruct (pstr f rest) as [[w k]|] eqn:Ep; [|discriminate].
    rewrite (IH _ _ _ t Ep). injection H as <- <-. reflexivity. }
  destruct (b =? 34); [injection E as <- <-; reflexivity|].
  destruct (b =? 92).
  { destruct s' as [|e s'']; [discriminate|]. cbn [app].
    destruct (e =? 117).
    - destruct (hex4 s'') as [[c s3]|] eqn:H4; [|discriminate]. rewrite (hex4_ext _ _ _ t H4).
      destruct (in_range 55296 57343 c); [|apply K; auto].
      destruct s3 as [|c1 [|c2 s4]].
      + destruct f; discriminate.
      + cbn [app].
        assert (c1 = 34).
        { destruct (pstr f [c1]) as [[y q]|] eqn:P; [|discriminate]. eapply pstr_one; eauto. }
        subst c1. destruct t as [|c2 t]; [apply (K replacement [34]); auto|].
        replace ((34 =? 92) && (c2 =? 117))%bool with false by reflexivity.
        apply (K replacement [34]). auto.
      + cbn [app]. destruct ((c1 =? 92) && (c2 =? 117))%bool eqn:Q.
        * destruct (hex4 s4) as [[r2 s5]|] eqn:H5.
          -- rewrite (hex4_ext _ _ _ t H5).
             destruct (in_range 55296 56319 c && in_range 56320 57343 r2)%bool; [apply K; auto|].
             apply (K replacement (c1 :: c2 :: s4)). auto.
          -- exfalso. apply andb_true_iff in Q. rewrite !N.eqb_eq in Q. destruct Q as [-> ->].
             destruct f as [|f]; [discriminate|].
             cbn [pstr] in E. replace (92 =? 34) with false in E by reflexivity.
             replace (92 =? 92) with true in E by reflexivity. replace (117 =? 117) with true in E by reflexivity.
             rewrite H5 in E. discriminate.
        * apply (K replacement (c1 :: c2 :: s4)). auto.
    - destruct (simple_escape e); [|discriminate]. apply (K [n]). auto. }
  destruct (b <? 32); [discriminate|].
  destruct (decode_rune (b :: s')) as [[c rest]|] eqn:D.
  - pose proof (decode_some_ext _ _ _ t D) as X. cbn [app] in X. rewrite X. apply K. auto.
  - destruct (pstr f s') as [[y q]|] eqn:P; [|discriminate].
    rewrite (decode_none_ext f b s' t y q P D). apply K. rewrite P. auto.
Qed.

Lemma digits_ext : forall s d r t, digits s = (d, r) -> r <> [] -> digits (s ++ t) = (d, r ++ t).
Proof.
  induction s as [|b s IH]; intros d r t E H; cbn in *.
  - injection E as <- <-. congruence.
  - destruct (is_digit b); [|injection E as <- <-; auto].
    destruct (digits s) as [d' r'] eqn:Ed. injection E as <- <-. rewrite (IH d' r' t); auto.
Qed.

Lemma pnum_ext : forall s x r t, pnum s = Some (x, r) -> r <> [] -> pnum (s ++ t) = Some (x, r ++ t).
Proof.
  intros s x r t E H. unfold pnum in *.
  assert (P1 : forall s i s1 , pint s = Some (i, s1) -> s1 <> [] -> pint (s ++ t) = Some (i, s1 ++ t)).
  { intros s0 i s1 E1 H1. destruct s0 as [|b s0]; [discriminate|]. unfold pint in *. cbn [app].
    destruct (b =? 48); [injection E1 as <- <-; auto|]. destruct (in_range 49 57 b); [|discriminate].
    injection E1 as E1. f_equal. apply (digits_ext (b :: s0)); auto. }
  assert (P2 : forall s i s1 , pfrac s = Some (i, s1) -> s1 <> [] -> pfrac (s ++ t) = Some (i, s1 ++ t)).
  { intros s0 i s1 E1 H1. destruct s0 as [|b s0]; [injection E1 as <- <-; congruence|].
    unfold pfrac in *. cbn [app]. destruct (b =? 46); [|injection E1 as <- <-; auto].
    destruct (digits s0) as [d q] eqn:Ed. destruct d as [|d0 d]; [discriminate|]. injection E1 as <- <-.
    rewrite (digits_ext _ _ _ t Ed) by auto. auto. }
  assert (P3 : forall s i s1 , pexp s = Some (i, s1) -> s1 <> [] -> pexp (s ++ t) = Some (i, s1 ++ t)).
  { intros s0 i s1 E1 H1. destruct s0 as [|b s0]; [injection E1 as <- <-; congruence|].
    unfold pexp in *. cbn [app]. destruct ((b =? 101) || (b =? 69))%bool; [|injection E1 as <- <-; auto].
    destruct s0 as [|c s0].
    - cbn in E1. discriminate.
    - cbn [app]. destruct ((c =? 43) || (c =? 45))%bool.
      + destruct (digits s0) as [d q] eqn:Ed. destruct d as [|d0 d]; [discriminate|]. injection E1 as <- <-.
        rewrite (digits_ext _ _ _ t Ed) by auto. auto.
      + destruct (digits (c :: s0)) as [d q] eqn:Ed. destruct d as [|d0 d]; [discriminate|]. injection E1 as <- <-.
        pose proof (digits_ext _ _ _ t Ed H1) as X. cbn [app] in X. rewrite X. auto. }
  assert (N2 : forall s i s1, pfrac s = Some (i, s1) -> s1 <> [] -> s <> []).
  { intros s0 i s1 E1 H1 ->. injection E1 as <- <-. congruence. }
  assert (N3 : forall s i s1, pexp s = Some (i, s1) -> s1 <> [] -> s <> []).
  { intros s0 i s1 E1 H1 ->. injection E1 as <- <-. congruence. }
  assert (Main : forall sg s0, match pint s0 with
    | None => None
    | Some (i, s1) => match pfrac s1 with None => None | Some (f, s2) =>
       match pexp s2 with None => None | Some (e, s3) => Some (sg ++ i ++ f ++ e, s3) end end end = Some (x, r) ->
    match pint (s0 ++ t) with
    | None => None
    | Some (i, s1) => match pfrac s1 with None => None | Some (f, s2) =>
       match pexp s2 with None => None | Some (e, s3) => Some (sg ++ i ++ f ++ e, s3) end end end = Some (x, r ++ t)).
  { intros sg s0 E0. destruct (pint s0) as [[i s1]|] eqn:Ei; [|discriminate].
    destruct (pfrac s1) as [[f s2]|] eqn:Ef; [|discriminate].
    destruct (pexp s2) as [[e s3]|] eqn:Ee; [|discriminate]. injection E0 as <- <-.
    assert (s2 <> []) by eauto. assert (s1 <> []) by eauto.
    rewrite (P1 _ _ _ Ei), (P2 _ _ _ Ef), (P3 _ _ _ Ee) by auto. reflexivity. }
  destruct s as [|b s]; [discriminate|]. cbn [app]. destruct (b =? 45).
  - apply Main. auto.
  - apply (Main [] (b :: s)). auto.
Qed.

Lemma skip_ws_ext : forall s b s' t, skip_ws s = b :: s' -> skip_ws (s ++ t) = b :: s' ++ t.
Proof.
  induction s as [|c s IH]; intros b s' t E; [discriminate|]. cbn in *.
  destruct (is_ws c); auto. injection E as <- <-. auto.
Qed.

Lemma literal_ext : forall w s r t, literal w s = Some r -> literal w (s ++ t) = Some (r ++ t).
Proof.
  induction w as [|x w IH]; intros s r t E; cbn in *.
  - injection E as <-. auto.
  - destruct s as [|y s]; [discriminate|]. cbn. destruct (x =? y); [auto|discriminate].
Qed.

Lemma pstr_ext_len : forall s x r t, pstr (length s) s = Some (x, r) ->
  pstr (length (s ++ t)) (s ++ t) = Some (x, r ++ t).
Proof.
  intros s x r t E. eapply pstr_fuel; [apply pstr_ext; exact E|]. rewrite app_length. lia.
Qed.

Lemma pval_ext : forall f,
  (forall s v r t, pval f s = Some (v, r) -> is_num v = false \/ r <> [] -> pval f (s ++ t) = Some (v, r ++ t)) /\
  (forall s v r t, pelems f s = Some (v, r) -> pelems f (s ++ t) = Some (v, r ++ t)) /\
  (forall s v r t, pmembers f s = Some (v, r) -> pmembers f (s ++ t) = Some (v, r ++ t)).
Proof.
  induction f as [|f (IH1 & IH2 & IH3)]; [repeat split; discriminate|].
  split; [|split].
  - intros s v r t E H. cbn [pval] in *.
    destruct (skip_ws s) as [|b s'] eqn:Es; [discriminate|]. rewrite (skip_ws_ext _ _ _ t Es).
    destruct (b =? 123).
    { destruct (skip_ws s') as [|c s''] eqn:Es'; [discriminate|]. rewrite (skip_ws_ext _ _ _ t Es').
      destruct (c =? 125); [injection E as <- <-; auto|].
      destruct (pmembers f s') as [[l r']|] eqn:Em; [|discriminate]. rewrite (IH3 _ _ _ t Em).
      injection E as <- <-. auto. }
    destruct (b =? 91).
    { destruct (skip_ws s') as [|c s''] eqn:Es'; [discriminate|]. rewrite (skip_ws_ext _ _ _ t Es').
      destruct (c =? 93); [injection E as <- <-; auto|].
      destruct (pelems f s') as [[l r']|] eqn:Em; [|discriminate]. rewrite (IH2 _ _ _ t Em).
      injection E as <- <-. auto. }
    destruct (b =? 34).
    { destruct (pstr (length s') s') as [[x r']|] eqn:Ep; [|discriminate].
      rewrite (pstr_ext_len _ _ _ t Ep). injection E as <- <-. auto. }
    change (b :: s' ++ t) with ((b :: s') ++ t).
    destruct (b =? 116).
    { destruct (literal (bs "true") (b :: s')) as [q|] eqn:El; [|discriminate].
      rewrite (literal_ext _ _ _ t El). injection E as <- <-. auto. }
    destruct (b =? 102).
    { destruct (literal (bs "false") (b :: s')) as [q|] eqn:El; [|discriminate].
      rewrite (literal_ext _ _ _ t El). injection E as <- <-. auto. }
    destruct (b =? 110).
    { destruct (literal (bs "null") (b :: s')) as [q|] eqn:El; [|discriminate].
      rewrite (literal_ext _ _ _ t El). injection E as <- <-. auto. }
    destruct (pnum (b :: s')) as [[x q]|] eqn:En; [|discriminate]. injection E as <- <-.
    destruct H as [H|H]; [discriminate|]. rewrite (pnum_ext _ _ _ t En H). auto.
  - intros s v r t E. cbn [pelems] in *.
    destruct (pval f s) as [[w q]|] eqn:Ev; [|discriminate].
    destruct (skip_ws q) as [|c r'] eqn:Eq; [discriminate|].
    assert (q <> []) by (intros ->; discriminate).
    rewrite (IH1 _ _ _ t Ev) by auto. rewrite (skip_ws_ext _ _ _ t Eq).
    destruct (c =? 93); [injection E as <- <-; auto|]. destruct (c =? 44); [|discriminate].
    destruct (pelems f r') as [[l r2]|] eqn:Em; [|discriminate]. rewrite (IH2 _ _ _ t Em).
    injection E as <- <-. auto.
  - intros s v r t E. cbn [pmembers] in *.
    destruct (skip_ws s) as [|q s'] eqn:Es; [discriminate|]. rewrite (skip_ws_ext _ _ _ t Es).
    destruct (q =? 34); [|discriminate].
    destruct (pstr (length s') s') as [[k r0]|] eqn:Ep; [|discriminate].
    rewrite (pstr_ext_len _ _ _ t Ep).
    destruct (skip_ws r0) as [|c r'] eqn:E0; [discriminate|]. rewrite (skip_ws_ext _ _ _ t E0).
    destruct (c =? 58); [|discriminate].
    destruct (pval f r') as [[w r2]|] eqn:Ev; [|discriminate].
    destruct (skip_ws r2) as [|d r3] eqn:E2; [discriminate|].
    assert (r2 <> []) by (intros ->; discriminate).
    rewrite (IH1 _ _ _ t Ev) by auto. rewrite (skip_ws_ext _ _ _ t E2).
    destruct (d =? 125); [injection E as <- <-; auto|]. destruct (d =? 44); [|discriminate].
    destruct (pmembers f r3) as [[l r4]|] eqn:Em; [|discriminate]. rewrite (IH3 _ _ _ t Em).
    injection E as <- <-. auto.
Qed.

(** A proper prefix of a written object cannot be read. *)
Theorem prefix_unreadable : forall l p t, json_ok (JObj l) -> print (JObj l) = p ++ t -> t <> [] ->
  parse p = None.
Proof.
  intros l p t O E Ht. destruct (parse p) as [v|] eqn:P; auto. exfalso.
  unfold parse in P. destruct (pval (length p) p) as [[w r]|] eqn:V; [|discriminate].
  destruct (skip_ws r) eqn:W; [|discriminate]. injection P as ->.
  assert (NV : is_num v = false).
  { destruct p as [|b p]; [discriminate|].
    rewrite print_obj in E. cbn [app] in E. injection E as <- _.
    cbn [pval length] in V. rewrite skip_ws_no in V by reflexivity.
    replace (123 =? 123) with true in V by reflexivity.
    destruct (skip_ws p); [discriminate|]. destruct (n =? 125); [injection V as <- <-; auto|].
    destruct (pmembers (length p) p) as [[? ?]|]; [|discriminate]. injection V as <- <-. auto. }
  destruct (pval_ext (length p)) as (X & _). specialize (X p v r t V (or_introl NV)).
  apply (pval_fuel _ (length (p ++ t))) in X; [|rewrite app_length; lia].
  rewrite <- E in X.
  pose proof (pval_print (JObj l) O (length (print (JObj l))) [] (le_n _)) as Y.
  rewrite app_nil_r in Y. rewrite Y in X by discriminate. injection X as _ X.
  symmetry in X. apply app_eq_nil in X. tauto.
Qed.
