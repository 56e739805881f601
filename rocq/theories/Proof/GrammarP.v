(** The reader of Model/Json.v accepts exactly the texts of Spec/JsonSpec.v. *)
From Verif.Base Require Import GoBase GoLemmas.
From Verif.Model Require Import Json.
From Verif.Spec Require Import Text JsonSpec.
From Verif.Proof Require Import JsonP.
Open Scope N_scope.

(** ** UTF-8 *)

Ltac rng := repeat match goal with
  | H : (_ && _)%bool = true |- _ => apply andb_true_iff in H; destruct H
  | H : in_range _ _ _ = true |- _ => apply in_range_spec in H
  | H : in_range _ _ _ = false |- _ => apply in_range_false in H
  | H : (_ <? _) = true |- _ => apply N.ltb_lt in H
  | H : (_ <? _) = false |- _ => apply N.ltb_ge in H
  | H : (_ =? _) = true |- _ => apply N.eqb_eq in H
  | H : (_ =? _) = false |- _ => apply N.eqb_neq in H
  end.

Lemma decode_sound : forall s r rest, decode_rune s = Some (r, rest) -> exists e, utf8 r e /\ s = e ++ rest.
Proof.
  intros s r rest H. unfold decode_rune in H. destruct s as [|b0 s0]; [discriminate H|].
  destruct (b0 <? 128) eqn:E0.
  { injection H as <- <-. exists [b0]. split; [constructor; rng; auto|reflexivity]. }
  destruct (in_range 194 223 b0) eqn:E1.
  { destruct s0 as [|b1 s1]; [discriminate H|]. destruct (in_range 128 191 b1) eqn:E2; [|discriminate H].
    injection H as <- <-. exists [b0; b1]. split; [|reflexivity]. rng.
    replace [b0; b1] with [192 + (b0 - 192); 128 + (b1 - 128)] by (repeat f_equal; lia). constructor; lia. }
  destruct (in_range 224 239 b0) eqn:E2.
  { destruct s0 as [|b1 [|b2 s2]]; try discriminate H.
    destruct (in_range (if b0 =? 224 then 160 else 128) (if b0 =? 237 then 159 else 191) b1 && in_range 128 191 b2) eqn:E3; [|discriminate H].
    injection H as <- <-. exists [b0; b1; b2]. split; [|reflexivity].
    apply andb_true_iff in E3. destruct E3 as [E3 E4].
    replace [b0; b1; b2] with [224 + (b0 - 224); 128 + (b1 - 128); 128 + (b2 - 128)] by (rng; destruct (b0 =? 224), (b0 =? 237); repeat f_equal; lia).
    destruct (b0 =? 224) eqn:X, (b0 =? 237) eqn:Y; rng; constructor; unfold surrogate; try lia. }
  destruct (in_range 240 244 b0) eqn:E3; [|discriminate H].
  destruct s0 as [|b1 [|b2 [|b3 s3]]]; try discriminate H.
  destruct (in_range (if b0 =? 240 then 144 else 128) (if b0 =? 244 then 143 else 191) b1 && in_range 128 191 b2 && in_range 128 191 b3) eqn:E4; [|discriminate H].
  injection H as <- <-. exists [b0; b1; b2; b3]. split; [|reflexivity].
  apply andb_true_iff in E4. destruct E4 as [E4 E5]. apply andb_true_iff in E4. destruct E4 as [E4 E6].
  replace [b0; b1; b2; b3] with [240 + (b0 - 240); 128 + (b1 - 128); 128 + (b2 - 128); 128 + (b3 - 128)]
    by (rng; destruct (b0 =? 240), (b0 =? 244); repeat f_equal; lia).
  destruct (b0 =? 240) eqn:X, (b0 =? 244) eqn:Y; rng; constructor; try lia.
Qed.

Lemma utf8_rune : forall r e, utf8 r e -> rune_ok r /\ e = encode_rune r.
Proof.
  intros r e H. unfold rune_ok, encode_rune. destruct H.
  - split; [lia|]. destruct (a <? 128) eqn:E; rng; [reflexivity|lia].
  - split; [lia|]. destruct (a * 64 + b <? 128) eqn:E; rng; [lia|].
    destruct (a * 64 + b <? 2048) eqn:E'; rng; [|lia].
    repeat f_equal; [|]; Z.to_euclidean_division_equations; nia.
  - unfold surrogate in *. split; [lia|]. set (r := a * 4096 + b * 64 + c) in *.
    destruct (r <? 128) eqn:E; rng; [lia|]. destruct (r <? 2048) eqn:E'; rng; [lia|].
    destruct (r <? 65536) eqn:E2; rng; [|lia]. subst r.
    assert (A : (a * 4096 + b * 64 + c) / 64 = a * 64 + b).
    { symmetry. apply (N.div_unique _ 64 _ c); lia. }
    rewrite A. f_equal; [f_equal; apply (N.div_unique _ 4096 _ (b * 64 + c)); lia|].
    f_equal; [f_equal; apply (N.mod_unique _ 64 a); lia|].
    f_equal; f_equal. apply (N.mod_unique _ 64 (a * 64 + b)); lia.
  - split; [lia|]. set (r := a * 262144 + b * 4096 + c * 64 + d) in *.
    destruct (r <? 128) eqn:E; rng; [lia|]. destruct (r <? 2048) eqn:E'; rng; [lia|].
    destruct (r <? 65536) eqn:E2; rng; [lia|]. subst r.
    assert (A : (a * 262144 + b * 4096 + c * 64 + d) / 64 = a * 4096 + b * 64 + c).
    { symmetry. apply (N.div_unique _ 64 _ d); lia. }
    assert (B : (a * 262144 + b * 4096 + c * 64 + d) / 4096 = a * 64 + b).
    { symmetry. apply (N.div_unique _ 4096 _ (c * 64 + d)); lia. }
    rewrite A, B. f_equal; [f_equal; apply (N.div_unique _ 262144 _ (b * 4096 + c * 64 + d)); lia|].
    f_equal; [f_equal; apply (N.mod_unique _ 64 a); lia|].
    f_equal; [f_equal; apply (N.mod_unique _ 64 (a * 64 + b)); lia|].
    f_equal; f_equal. apply (N.mod_unique _ 64 (a * 4096 + b * 64 + c)); lia.
Qed.

Lemma decode_complete : forall r e s, utf8 r e -> decode_rune (e ++ s) = Some (r, s).
Proof. intros r e s H. apply utf8_rune in H. destruct H as [A ->]. apply decode_encode. exact A. Qed.

Lemma rune_utf8 : forall r, rune_ok r -> utf8 r (encode_rune r).
Proof.
  intros r H. pose proof (decode_encode r [] H) as D. destruct (decode_sound _ _ _ D) as (e & U & E).
  rewrite !app_nil_r in E. rewrite E. exact U.
Qed.

(** No byte of an encoding but that of an ASCII character is below 128. *)
Lemma utf8_high : forall r e, utf8 r e -> e = [r] \/ Forall (fun b => 128 <= b) e.
Proof. intros r e H. destruct H; [left; reflexivity|right..]; repeat constructor; lia. Qed.
Lemma utf8_nonempty : forall r e, utf8 r e -> exists b e', e = b :: e'.
Proof. intros r e H. destruct H; eauto. Qed.

(** A prefix of a text with a quote does not reach the quote. *)
Lemma prefix_short : forall (e : bytes) s rest t, s ++ 34 :: rest = e ++ t -> ~ In 34 e ->
  exists t', s = e ++ t' /\ t = t' ++ 34 :: rest.
Proof.
  induction e as [|b e IH]; intros s rest t H N; [exists s; auto|].
  destruct s as [|x s]; cbn in H; injection H as E0 H.
  - exfalso. apply N. left. auto.
  - subst x. destruct (IH s rest t H) as (t' & -> & E); [intro; apply N; right; auto|]. exists t'. auto.
Qed.

(** ** Escapes *)

Lemma unhex_iff : forall c n, unhex c = Some n <-> hex c n.
Proof.
  intros c n. unfold unhex, hex.
  destruct (in_range 48 57 c) eqn:A; [|destruct (in_range 97 102 c) eqn:B; [|destruct (in_range 65 70 c) eqn:C]]; rng;
    (split; [intro H; try discriminate H; injection H as <-; lia|intros [[X Y]|[[X Y]|[X Y]]]; try lia; subst; reflexivity]).
Qed.

Lemma hex4_iff : forall s r rest, hex4 s = Some (r, rest) <-> exists u, s = u ++ rest /\ unit4 u r.
Proof.
  intros s r rest. split; intro H.
  - unfold hex4 in H. destruct s as [|a [|b [|c [|d s']]]]; try discriminate H.
    destruct (unhex a) as [x|] eqn:A; [|discriminate H]. destruct (unhex b) as [y|] eqn:B; [|discriminate H].
    destruct (unhex c) as [z|] eqn:C; [|discriminate H]. destruct (unhex d) as [w|] eqn:D; [|discriminate H].
    injection H as <- <-. apply unhex_iff in A, B, C, D. exists [a; b; c; d]. split; [reflexivity|].
    exists a, b, c, d, x, y, z, w. repeat (split; [auto; fail|]). lia.
  - destruct H as (u & -> & a & b & c & d & x & y & z & w & -> & A & B & C & D & ->).
    apply unhex_iff in A, B, C, D. cbn [app hex4]. rewrite A, B, C, D. f_equal. f_equal. lia.
Qed.

Lemma hex_bound : forall c n, hex c n -> n < 16 /\ c <> 34.
Proof. unfold hex. intros. lia. Qed.
Lemma unit4_bound : forall u r, unit4 u r -> r < 65536 /\ ~ In 34 u.
Proof.
  intros u r (a & b & c & d & x & y & z & w & -> & A & B & C & D & ->).
  apply hex_bound in A, B, C, D. split; [lia|]. cbn. intuition.
Qed.
Lemma unit4_fun : forall u r r', unit4 u r -> unit4 u r' -> r = r'.
Proof.
  intros u r r' H H'. assert (A : hex4 (u ++ []) = Some (r, [])) by (apply hex4_iff; eauto).
  assert (B : hex4 (u ++ []) = Some (r', [])) by (apply hex4_iff; eauto). congruence.
Qed.

Lemma simple_iff : forall c b, simple_escape c = Some b <-> In (c, b) escapes.
Proof.
  intros c b. unfold simple_escape, escapes. split.
  - intro H. repeat match type of H with context [if ?x then _ else _] => destruct x eqn:? end; try discriminate H;
      injection H as <-; repeat match goal with
        | H : (_ || _)%bool = true |- _ => apply orb_true_iff in H; destruct H
        | H : (_ =? _) = true |- _ => apply N.eqb_eq in H; subst
        end; cbn; auto 20.
  - cbn [In]. intros H. repeat (destruct H as [H|H]; [injection H as <- <-; reflexivity|]). contradiction.
Qed.

(** ** Strings *)

Lemma pstr_sound : forall f s v r, pstr f s = Some (v, r) -> exists q, s = q ++ 34 :: r /\ chars q v.
Proof.
  induction f as [|f IH]; intros s v r H; [discriminate H|]. cbn [pstr] in H.
  destruct s as [|b s']; [discriminate H|].
  destruct (N.eqb_spec b 34) as [->|N1].
  { injection H as <- <-. exists []. split; [reflexivity|constructor]. }
  assert (K : forall x rest, match pstr f rest with Some (y, r0) => Some (x ++ y, r0) | None => None end = Some (v, r) ->
    exists q y, v = x ++ y /\ rest = q ++ 34 :: r /\ chars q y).
  { intros x rest E. destruct (pstr f rest) as [[y r0]|] eqn:P; [|discriminate E]. injection E as <- <-.
    destruct (IH _ _ _ P) as (q & -> & C). exists q, y. auto. }
  destruct (N.eqb_spec b 92) as [->|N2].
  - destruct s' as [|e s'']; [discriminate H|]. destruct (N.eqb_spec e 117) as [->|N3].
    + destruct (hex4 s'') as [[r1 s3]|] eqn:H4; [|discriminate H]. apply hex4_iff in H4. destruct H4 as (u & -> & U).
      destruct (in_range 55296 57343 r1) eqn:SR.
      * assert (LONE : ~ second_half r1 s3 ->
          match pstr f s3 with Some (y, r0) => Some (replacement ++ y, r0) | None => None end = Some (v, r) ->
          exists q, 92 :: 117 :: u ++ s3 = q ++ 34 :: r /\ chars q v).
        { intros NS E. apply K in E. destruct E as (q & y & -> & -> & C). exists (92 :: 117 :: u ++ q).
          split; [cbn; rewrite <- app_assoc; reflexivity|]. apply (c_lone u r1 q y); auto.
          - rng. unfold surrogate. lia.
          - intros (L & u2 & r2 & t & -> & U2 & R2). apply NS. split; [exact L|]. exists u2, r2, (t ++ 34 :: r).
            split; [cbn; rewrite <- app_assoc; reflexivity|auto]. }
        destruct s3 as [|c1 [|c2 s4]].
        { apply LONE; auto. intros (_ & u2 & r2 & t & X & _). discriminate X. }
        { apply LONE; auto. intros (_ & u2 & r2 & t & X & _). discriminate X. }
        destruct (if (c1 =? 92) && (c2 =? 117) then hex4 s4 else None) as [[r2 s5]|] eqn:H5.
        { destruct ((c1 =? 92) && (c2 =? 117)) eqn:CC; [|discriminate H5]. rng. subst c1 c2.
          apply hex4_iff in H5. destruct H5 as (u2 & -> & U2).
          destruct (in_range 55296 56319 r1 && in_range 56320 57343 r2) eqn:RR.
          - apply K in H. destruct H as (q & y & -> & -> & C). exists (92 :: 117 :: u ++ 92 :: 117 :: u2 ++ q).
            split; [cbn; rewrite <- app_assoc; cbn; rewrite <- app_assoc; reflexivity|].
            rng. apply (c_pair u r1 u2 r2); auto. apply rune_utf8. unfold rune_ok. lia.
          - apply LONE; auto. intros (L & u2' & r2' & t & X & U2' & R2). injection X as X.
            assert (A : hex4 (u2 ++ s5) = Some (r2, s5)) by (apply hex4_iff; eauto).
            assert (B : hex4 (u2' ++ t) = Some (r2', t)) by (apply hex4_iff; eauto).
            rewrite X in A. rewrite A in B. injection B as -> ->.
            apply andb_false_iff in RR. destruct RR; rng; lia. }
        apply LONE; auto. intros (L & u2 & r2 & t & X & U2 & R2). injection X as -> -> ->.
        rewrite !N.eqb_refl in H5. cbn [andb] in H5.
        assert (A : hex4 (u2 ++ t) = Some (r2, t)) by (apply hex4_iff; eauto). rewrite A in H5. discriminate H5.
      * apply K in H. destruct H as (q & y & -> & -> & C). exists (92 :: 117 :: u ++ q).
        split; [cbn; rewrite <- app_assoc; reflexivity|]. apply (c_unit u r1); auto. apply rune_utf8.
        pose proof (unit4_bound _ _ U). rng. unfold rune_ok. lia.
    + destruct (simple_escape e) as [c|] eqn:SE; [|discriminate H]. apply simple_iff in SE.
      apply K in H. destruct H as (q & y & -> & -> & C). exists (92 :: e :: q). split; [reflexivity|]. apply c_esc; auto.
  - destruct (b <? 32) eqn:B32; [discriminate H|]. destruct (decode_rune (b :: s')) as [[r1 rest]|] eqn:D.
    + destruct (decode_sound _ _ _ D) as (e & U & E). destruct (utf8_rune _ _ U) as (_ & EE). subst e.
      apply K in H. destruct H as (q & y & -> & -> & C). exists (encode_rune r1 ++ q).
      split; [rewrite <- app_assoc; exact E|]. rng. destruct (utf8_high _ _ U) as [X|X].
      * rewrite X in E. injection E as -> _. apply (c_plain r1); auto.
      * apply (c_plain r1); auto.
        { destruct (r1 <? 128) eqn:L; rng; [|lia]. unfold encode_rune in X.
          destruct (N.ltb_spec r1 128); [|lia]. inversion X; lia. }
        { intro Z. subst r1. cbn in X. inversion X; subst. lia. }
        { intro Z. subst r1. cbn in X. inversion X; subst. lia. }
    + apply K in H. destruct H as (q & y & -> & -> & C). exists (b :: q). split; [reflexivity|]. apply c_bad; auto.
      * unfold decode_rune in D. destruct (b <? 128) eqn:L; [discriminate D|]. rng. lia.
      * intros r1 e t U X. change ((b :: q) ++ 34 :: r) with (b :: q ++ 34 :: r) in *.
        assert (Y : b :: q ++ 34 :: r = e ++ (t ++ 34 :: r)) by (rewrite app_assoc, <- X; reflexivity).
        rewrite Y, (decode_complete _ _ _ U) in D. discriminate D.
Qed.

Lemma pstr_complete : forall q v, chars q v -> forall r f, (length q < f)%nat -> pstr f (q ++ 34 :: r) = Some (v, r).
Proof.
  intros q v C. induction C as [|r0 e s v U L N1 N2 C IH|c b s v I C IH|u r0 e s v U8 U C IH|u1 r1 u2 r2 e s v U1 R1 U2 R2 U C IH|u r0 s v U8 SR NS C IH|b s v HB NP C IH];
    intros r f F; (destruct f as [|f]; [cbn in F; lia|]); cbn [pstr].
  - reflexivity.
  - destruct (utf8_nonempty _ _ U) as (b & e' & E). pose proof (decode_complete r0 e (s ++ 34 :: r) U) as D.
    destruct (utf8_rune _ _ U) as (_ & EE).
    assert (HB : b <> 34 /\ b <> 92 /\ 32 <= b).
    { destruct (utf8_high _ _ U) as [X|X]; rewrite E in X; [injection X as -> ->; lia|inversion X; lia]. }
    rewrite <- app_assoc. rewrite E in D |- *. cbn [app] in D |- *.
    destruct (N.eqb_spec b 34); [lia|]. destruct (N.eqb_spec b 92); [lia|]. destruct (N.ltb_spec b 32); [lia|].
    rewrite D. rewrite IH; [rewrite <- EE, E; reflexivity|]. rewrite E, app_length in F. cbn in F. lia.
  - cbn [app]. change (92 =? 34) with false. change (92 =? 92) with true. cbv iota.
    destruct (N.eqb_spec c 117) as [->|NE].
    { exfalso. cbn in I. repeat (destruct I as [I|I]; [discriminate I|]). contradiction. }
    apply simple_iff in I. rewrite I, IH; [reflexivity|]. cbn in F. lia.
  - cbn [app]. change (92 =? 34) with false. change (92 =? 92) with true. change (117 =? 117) with true. cbv iota.
    rewrite <- app_assoc. assert (H4 : hex4 (u ++ s ++ 34 :: r) = Some (r0, s ++ 34 :: r)) by (apply hex4_iff; eauto).
    rewrite H4. destruct (utf8_rune _ _ U) as (RO & EE).
    destruct (in_range 55296 57343 r0) eqn:SR; [rng; unfold rune_ok in RO; lia|].
    rewrite IH; [rewrite EE; reflexivity|]. cbn in F. rewrite app_length in F. lia.
  - cbn [app]. change (92 =? 34) with false. change (92 =? 92) with true. change (117 =? 117) with true. cbv iota.
    rewrite <- app_assoc. cbn [app]. rewrite <- app_assoc.
    assert (H4 : hex4 (u1 ++ 92 :: 117 :: u2 ++ s ++ 34 :: r) = Some (r1, 92 :: 117 :: u2 ++ s ++ 34 :: r)) by (apply hex4_iff; eauto).
    rewrite H4. destruct (in_range 55296 57343 r1) eqn:SR; [|rng; lia].
    rewrite !N.eqb_refl. cbn [andb].
    assert (H5 : hex4 (u2 ++ s ++ 34 :: r) = Some (r2, s ++ 34 :: r)) by (apply hex4_iff; eauto).
    rewrite H5. destruct (in_range 55296 56319 r1) eqn:A; [|rng; lia]. destruct (in_range 56320 57343 r2) eqn:B; [|rng; lia].
    cbn [andb]. rewrite IH; [destruct (utf8_rune _ _ U) as (_ & <-); reflexivity|].
    cbn in F. rewrite app_length in F. cbn in F. rewrite app_length in F. lia.
  - cbn [app]. change (92 =? 34) with false. change (92 =? 92) with true. change (117 =? 117) with true. cbv iota.
    rewrite <- app_assoc. assert (H4 : hex4 (u ++ s ++ 34 :: r) = Some (r0, s ++ 34 :: r)) by (apply hex4_iff; eauto).
    rewrite H4. unfold surrogate in SR. destruct (in_range 55296 57343 r0) eqn:SR'; [|rng; lia].
    assert (REC : pstr f (s ++ 34 :: r) = Some (v, r)).
    { apply IH. cbn in F. rewrite app_length in F. lia. }
    destruct (s ++ 34 :: r) as [|c1 [|c2 s4]] eqn:SS; try (rewrite REC; reflexivity).
    destruct (if (c1 =? 92) && (c2 =? 117) then hex4 s4 else None) as [[r2 s5]|] eqn:H5; [|rewrite REC; reflexivity].
    destruct ((c1 =? 92) && (c2 =? 117)) eqn:CC; [|discriminate H5]. rng. subst c1 c2.
    apply hex4_iff in H5. destruct H5 as (u2 & -> & U2).
    destruct (in_range 55296 56319 r0 && in_range 56320 57343 r2) eqn:RR; [|rewrite REC; reflexivity].
    exfalso. apply NS. rng. split; [lia|].
    destruct (prefix_short (92 :: 117 :: u2) s r s5) as (t' & E & _).
    { rewrite SS. reflexivity. }
    { intros [X|[X|X]]; try discriminate X. apply unit4_bound in U2. tauto. }
    exists u2, r2, t'. split; [exact E|]. split; [exact U2|]. lia.
  - cbn [app]. destruct (N.eqb_spec b 34); [lia|]. destruct (N.eqb_spec b 92); [lia|]. destruct (N.ltb_spec b 32); [lia|].
    destruct (decode_rune (b :: s ++ 34 :: r)) as [[r1 rest]|] eqn:D.
    + exfalso. destruct (decode_sound _ _ _ D) as (e & U & E).
      destruct (prefix_short e (b :: s) r rest) as (t' & E' & _); [exact E| |apply (NP r1 e t' U); exact E'].
      destruct (utf8_high _ _ U) as [X|X].
      * rewrite X in E. injection E as -> _. rewrite X in U. apply utf8_rune in U. destruct U as (_ & U).
        unfold encode_rune in U. intro IN. rewrite X in IN. destruct IN as [->|[]]. lia.
      * intro IN. rewrite Forall_forall in X. apply X in IN. lia.
    + rewrite IH; [reflexivity|]. cbn in F. lia.
Qed.

(** ** Numbers *)

Definition stop (s : bytes) : Prop := s = [] \/ exists b t, s = b :: t /\ In b [32; 9; 10; 13; 44; 93; 125].

Lemma is_digit_iff : forall b, is_digit b = true <-> digit b.
Proof. intro b. unfold is_digit, digit. apply in_range_spec. Qed.

Lemma digits_sound : forall s d r, digits s = (d, r) -> s = d ++ r /\ Forall digit d.
Proof.
  induction s as [|b s IH]; intros d r H; cbn [digits] in H.
  - injection H as <- <-. auto.
  - destruct (is_digit b) eqn:D.
    + destruct (digits s) as [d' r'] eqn:E. injection H as <- <-. destruct (IH _ _ eq_refl) as [-> F].
      split; [reflexivity|]. constructor; auto. apply is_digit_iff. exact D.
    + injection H as <- <-. auto.
Qed.

Definition no_digit (s : bytes) : Prop := match s with [] => True | b :: _ => is_digit b = false end.
Lemma digits_complete : forall d r, Forall digit d -> no_digit r -> digits (d ++ r) = (d, r).
Proof.
  induction d as [|b d IH]; intros r F N.
  - cbn [app]. destruct r as [|b r]; [reflexivity|]. cbn in *. rewrite N. reflexivity.
  - inversion F; subst. cbn [app digits]. apply is_digit_iff in H1. rewrite H1, IH by auto. reflexivity.
Qed.

Lemma pnum_sound : forall s t r, pnum s = Some (t, r) -> s = t ++ r /\ number t.
Proof.
  intros s t r H. unfold pnum in H.
  assert (SG : exists sg s0, (match s with b :: s' => if b =? 45 then ([45], s') else ([], s) | [] => ([], s) end) = (sg, s0) /\
     s = sg ++ s0 /\ (sg = [] \/ sg = [45])).
  { destruct s as [|b s']; [exists [], []; auto|]. destruct (N.eqb_spec b 45) as [->|N]; [exists [45], s'|exists [], (b :: s')]; auto. }
  destruct SG as (sg & s0 & E0 & -> & SG). rewrite E0 in H. clear E0.
  destruct (pint s0) as [[i s1]|] eqn:E1; [|discriminate H].
  destruct (pfrac s1) as [[f s2]|] eqn:E2; [|discriminate H].
  destruct (pexp s2) as [[e s3]|] eqn:E3; [|discriminate H]. injection H as <- <-.
  assert (I : s0 = i ++ s1 /\ (i = [48] \/ exists d ds, i = d :: ds /\ 49 <= d <= 57 /\ Forall digit ds)).
  { unfold pint in E1. destruct s0 as [|b s']; [discriminate E1|]. destruct (N.eqb_spec b 48) as [->|N].
    - injection E1 as <- <-. auto.
    - destruct (in_range 49 57 b) eqn:R; [|discriminate E1]. injection E1 as E1. cbn [digits] in E1.
      rng. assert (D : is_digit b = true) by (apply is_digit_iff; unfold digit; lia). rewrite D in E1.
      destruct (digits s') as [d' r'] eqn:E. injection E1 as <- <-. destruct (digits_sound _ _ _ E) as [-> F].
      split; [reflexivity|]. right. exists b, d'. auto. }
  assert (F : s1 = f ++ s2 /\ (f = [] \/ exists ds, f = 46 :: ds /\ some_digits ds)).
  { unfold pfrac in E2. destruct s1 as [|b s']; [injection E2 as <- <-; auto|]. destruct (N.eqb_spec b 46) as [->|N].
    - destruct (digits s') as [d' r'] eqn:E. destruct (digits_sound _ _ _ E) as [-> FD].
      destruct d' as [|x d']; [discriminate E2|]. injection E2 as <- <-. split; [reflexivity|]. right. exists (x :: d').
      split; [reflexivity|]. split; [discriminate|exact FD].
    - injection E2 as <- <-. auto. }
  assert (X : s2 = e ++ s3 /\ (e = [] \/ exists x s ds, e = x :: s ++ ds /\ (x = 101 \/ x = 69) /\ (s = [] \/ s = [43] \/ s = [45]) /\ some_digits ds)).
  { unfold pexp in E3. destruct s2 as [|b s']; [injection E3 as <- <-; auto|]. destruct ((b =? 101) || (b =? 69)) eqn:B.
    - assert (S' : exists sg' s1', (match s' with c :: s'' => if (c =? 43) || (c =? 45) then ([c], s'') else ([], s') | [] => ([], s') end) = (sg', s1') /\
        s' = sg' ++ s1' /\ (sg' = [] \/ sg' = [43] \/ sg' = [45])).
      { destruct s' as [|c s'']; [exists [], []; auto|]. destruct (N.eqb_spec c 43) as [->|N]; [exists [43], s''; auto|].
        destruct (N.eqb_spec c 45) as [->|N']; [exists [45], s''; auto|]. exists [], (c :: s''). auto. }
      destruct S' as (sg' & s1' & E' & -> & SG'). rewrite E' in E3. clear E'.
      destruct (digits s1') as [d' r'] eqn:E. destruct (digits_sound _ _ _ E) as [-> FD].
      destruct d' as [|x d']; [discriminate E3|]. injection E3 as <- <-. split; [cbn; rewrite <- app_assoc; reflexivity|].
      right. exists b, sg', (x :: d'). split; [reflexivity|]. split.
      + apply orb_true_iff in B. rewrite !N.eqb_eq in B. exact B.
      + split; [exact SG'|]. split; [discriminate|exact FD].
    - injection E3 as <- <-. auto. }
  destruct I as [-> I]. destruct F as [-> F]. destruct X as [-> X].
  split; [rewrite <- !app_assoc; reflexivity|]. exists sg, i, f, e. auto.
Qed.

Lemma stop_digit : forall r, stop r -> no_digit r.
Proof.
  intros r [->|(b & t & -> & I)]; cbn; auto. cbn [In] in I.
  repeat (destruct I as [<-|I]; [reflexivity|]). contradiction.
Qed.

Lemma pnum_complete : forall t r, number t -> stop r -> pnum (t ++ r) = Some (t, r).
Proof.
  intros t r (sg & i & f & e & -> & SG & I & F & X) ST. rewrite <- !app_assoc.
  assert (PE : pexp (e ++ r) = Some (e, r)).
  { destruct X as [->|(x & s & ds & -> & X1 & X2 & NE & FD)].
    - cbn [app]. destruct ST as [->|(b & t & -> & IN)]; [reflexivity|]. cbn [pexp].
      cbn [In] in IN. repeat (destruct IN as [<-|IN]; [reflexivity|]). contradiction.
    - cbn [app pexp]. replace ((x =? 101) || (x =? 69)) with true by (destruct X1 as [-> | ->]; reflexivity).
      rewrite <- app_assoc. pose proof (digits_complete ds r FD (stop_digit r ST)) as D.
      destruct ds as [|y ds]; [contradiction|].
      assert (Y : match s ++ (y :: ds) ++ r with c :: s'' => if (c =? 43) || (c =? 45) then ([c], s'') else ([], s ++ (y :: ds) ++ r) | [] => ([], s ++ (y :: ds) ++ r) end = (s, (y :: ds) ++ r)).
      { destruct X2 as [-> |[-> | ->]]; cbn [app]; try reflexivity. inversion FD; subst. unfold digit in *.
        destruct (N.eqb_spec y 43); [lia|]. destruct (N.eqb_spec y 45); [lia|]. reflexivity. }
      rewrite Y, D. reflexivity. }
  assert (HE : no_digit (e ++ r) /\ (match e ++ r with [] => True | b :: _ => b <> 46 end)).
  { destruct X as [->|(x & s & ds & -> & X1 & X2 & NE & FD)].
    - split; [apply stop_digit; exact ST|]. cbn [app]. destruct ST as [->|(b & t & -> & IN)]; [exact Logic.I|].
      cbn [In] in IN. intro; subst. repeat (destruct IN as [IN|IN]; [discriminate IN|]). contradiction.
    - cbn. destruct X1 as [-> | ->]; split; (reflexivity || discriminate). }
  assert (PF : pfrac (f ++ e ++ r) = Some (f, e ++ r)).
  { destruct F as [->|(ds & -> & NE & FD)].
    - cbn [app]. unfold pfrac. destruct (e ++ r) as [|b u]; [reflexivity|]. destruct HE as [_ HE].
      destruct (N.eqb_spec b 46); [contradiction|reflexivity].
    - cbn [app pfrac]. rewrite N.eqb_refl. rewrite digits_complete; [|exact FD|apply HE].
      destruct ds; [contradiction|reflexivity]. }
  assert (HF : no_digit (f ++ e ++ r)).
  { destruct F as [->|(ds & -> & _)]; [apply HE|reflexivity]. }
  assert (PI : pint (i ++ f ++ e ++ r) = Some (i, f ++ e ++ r)).
  { destruct I as [->|(d & ds & -> & D & FD)]; [reflexivity|]. cbn [app pint].
    destruct (N.eqb_spec d 48); [lia|]. replace (in_range 49 57 d) with true by (symmetry; apply in_range_spec; lia).
    f_equal. change (d :: ds ++ f ++ e ++ r) with ((d :: ds) ++ f ++ e ++ r). apply digits_complete; auto.
    constructor; auto. unfold digit. lia. }
  destruct SG as [-> | ->].
  - cbn [app]. unfold pnum. destruct (i ++ f ++ e ++ r) as [|b u] eqn:E.
    { destruct I as [->|(d & ds & -> & D & FD)]; discriminate E. }
    assert (NB : b <> 45).
    { destruct I as [->|(d & ds & -> & D & FD)]; cbn [app] in E; injection E as <- _; [discriminate|lia]. }
    destruct (N.eqb_spec b 45); [contradiction|]. rewrite PI, PF, PE. reflexivity.
  - cbn [app]. unfold pnum. rewrite N.eqb_refl, PI, PF, PE. reflexivity.
Qed.

(** ** Values *)

Lemma ws_iff : forall b, is_ws b = true <-> In b [32; 9; 10; 13].
Proof. intro b. unfold is_ws. rewrite !orb_true_iff, !N.eqb_eq. cbn. intuition. Qed.

Lemma skip_sound : forall s, exists w, s = w ++ skip_ws s /\ blanks w.
Proof.
  induction s as [|b s (w & E & B)]; [exists []; split; [reflexivity|constructor]|]. cbn [skip_ws].
  destruct (is_ws b) eqn:W; [|exists []; split; [reflexivity|constructor]].
  exists (b :: w). split; [cbn; rewrite <- E; reflexivity|]. constructor; auto. apply ws_iff. exact W.
Qed.
Lemma skip_complete : forall w s, blanks w -> skip_ws (w ++ s) = skip_ws s.
Proof.
  intros w s B. induction B as [|b w I B IH]; [reflexivity|]. cbn [app skip_ws]. apply ws_iff in I. rewrite I. exact IH.
Qed.

Lemma literal_sound : forall w s r, literal w s = Some r -> s = w ++ r.
Proof.
  induction w as [|x w IH]; intros s r H; [injection H as <-; reflexivity|]. cbn [literal] in H.
  destruct s as [|y s]; [discriminate H|]. destruct (N.eqb_spec x y) as [->|]; [|discriminate H].
  apply IH in H. subst. reflexivity.
Qed.

Lemma pval_sound : forall f,
  (forall s v r, pval f s = Some (v, r) -> exists w t, s = w ++ t ++ r /\ blanks w /\ value t v) /\
  (forall s l r, pelems f s = Some (l, r) -> exists t, s = t ++ 93 :: r /\ elements t l) /\
  (forall s l r, pmembers f s = Some (l, r) -> exists t, s = t ++ 125 :: r /\ members t l).
Proof.
  induction f as [|f (IHv & IHe & IHm)]; [repeat split; intros; discriminate|]. split; [|split]; intros s v r H.
  - cbn [pval] in H. destruct (skip_sound s) as (w & E & B). exists w. rewrite E.
    destruct (skip_ws s) as [|b s']; [discriminate H|].
    assert (K : forall t, b :: s' = t ++ r -> value t v -> exists t0, w ++ b :: s' = w ++ t0 ++ r /\ blanks w /\ value t0 v).
    { intros t E' V. exists t. rewrite E'. auto. }
    destruct (N.eqb_spec b 123) as [->|N1].
    { destruct (skip_sound s') as (w2 & E2 & B2). destruct (skip_ws s') as [|c s'']; [discriminate H|].
      destruct (N.eqb_spec c 125) as [->|N2].
      - injection H as <- <-. apply (K (123 :: w2 ++ [125])); [rewrite E2; cbn; rewrite <- app_assoc; reflexivity|]. constructor. exact B2.
      - destruct (pmembers f s') as [[l r']|] eqn:P; [|discriminate H]. injection H as <- <-.
        destruct (IHm _ _ _ P) as (t & Et & M). apply (K (123 :: t ++ [125])); [rewrite Et; cbn; rewrite <- app_assoc; reflexivity|].
        constructor. exact M. }
    destruct (N.eqb_spec b 91) as [->|N2].
    { destruct (skip_sound s') as (w2 & E2 & B2). destruct (skip_ws s') as [|c s'']; [discriminate H|].
      destruct (N.eqb_spec c 93) as [->|N3].
      - injection H as <- <-. apply (K (91 :: w2 ++ [93])); [rewrite E2; cbn; rewrite <- app_assoc; reflexivity|]. constructor. exact B2.
      - destruct (pelems f s') as [[l r']|] eqn:P; [|discriminate H]. injection H as <- <-.
        destruct (IHe _ _ _ P) as (t & Et & M). apply (K (91 :: t ++ [93])); [rewrite Et; cbn; rewrite <- app_assoc; reflexivity|].
        constructor. exact M. }
    destruct (N.eqb_spec b 34) as [->|N3].
    { destruct (pstr (length s') s') as [[x r']|] eqn:P; [|discriminate H]. injection H as <- <-.
      destruct (pstr_sound _ _ _ _ P) as (q & Eq & C). apply (K (34 :: q ++ [34])); [rewrite Eq; cbn; rewrite <- app_assoc; reflexivity|].
      constructor. exact C. }
    destruct (N.eqb_spec b 116) as [->|N4].
    { destruct (literal (bs "true") (116 :: s')) as [r'|] eqn:P; [|discriminate H]. injection H as <- <-.
      apply literal_sound in P. apply (K (bs "true") P). constructor. }
    destruct (N.eqb_spec b 102) as [->|N5].
    { destruct (literal (bs "false") (102 :: s')) as [r'|] eqn:P; [|discriminate H]. injection H as <- <-.
      apply literal_sound in P. apply (K (bs "false") P). constructor. }
    destruct (N.eqb_spec b 110) as [->|N6].
    { destruct (literal (bs "null") (110 :: s')) as [r'|] eqn:P; [|discriminate H]. injection H as <- <-.
      apply literal_sound in P. apply (K (bs "null") P). constructor. }
    destruct (pnum (b :: s')) as [[t r']|] eqn:P; [|discriminate H]. injection H as <- <-.
    destruct (pnum_sound _ _ _ P) as (Et & NB). apply (K t Et). constructor. exact NB.
  - cbn [pelems] in H. destruct (pval f s) as [[x r1]|] eqn:P; [|discriminate H].
    destruct (IHv _ _ _ P) as (w & t & -> & B & V). destruct (skip_sound r1) as (w2 & E2 & B2).
    destruct (skip_ws r1) as [|c r']; [discriminate H|]. rewrite E2. destruct (N.eqb_spec c 93) as [->|N1].
    + injection H as <- <-. exists (w ++ t ++ w2). split; [rewrite <- !app_assoc; reflexivity|]. constructor; auto.
    + destruct (N.eqb_spec c 44) as [->|N2]; [|discriminate H].
      destruct (pelems f r') as [[l r2]|] eqn:P2; [|discriminate H]. injection H as <- <-.
      destruct (IHe _ _ _ P2) as (t2 & -> & EL). exists (w ++ t ++ w2 ++ 44 :: t2).
      split; [rewrite <- !app_assoc; cbn; reflexivity|]. constructor; auto.
  - cbn [pmembers] in H. destruct (skip_sound s) as (w & E & B). rewrite E. destruct (skip_ws s) as [|q s']; [discriminate H|].
    destruct (N.eqb_spec q 34) as [->|N0]; [|discriminate H].
    destruct (pstr (length s') s') as [[k r0]|] eqn:P; [|discriminate H].
    destruct (pstr_sound _ _ _ _ P) as (qs & -> & C). destruct (skip_sound r0) as (w2 & E2 & B2).
    destruct (skip_ws r0) as [|c r']; [discriminate H|]. rewrite E2. destruct (N.eqb_spec c 58) as [->|N1]; [|discriminate H].
    destruct (pval f r') as [[x r2]|] eqn:P2; [|discriminate H]. destruct (IHv _ _ _ P2) as (w3 & t & -> & B3 & V).
    destruct (skip_sound r2) as (w4 & E4 & B4). destruct (skip_ws r2) as [|d r3]; [discriminate H|]. rewrite E4.
    destruct (N.eqb_spec d 125) as [->|N2].
    + injection H as <- <-. exists (w ++ 34 :: qs ++ 34 :: w2 ++ 58 :: w3 ++ t ++ w4).
      split; [rewrite <- !app_assoc; cbn; rewrite <- !app_assoc; cbn; rewrite <- !app_assoc; cbn; rewrite <- !app_assoc; reflexivity|].
      constructor; auto.
    + destruct (N.eqb_spec d 44) as [->|N3]; [|discriminate H].
      destruct (pmembers f r3) as [[l r4]|] eqn:P4; [|discriminate H]. injection H as <- <-.
      destruct (IHm _ _ _ P4) as (t2 & -> & ML). exists (w ++ 34 :: qs ++ 34 :: w2 ++ 58 :: w3 ++ t ++ w4 ++ 44 :: t2).
      split; [rewrite <- !app_assoc; cbn; rewrite <- !app_assoc; cbn; rewrite <- !app_assoc; cbn; rewrite <- !app_assoc; reflexivity|].
      constructor; auto.
Qed.

Scheme value_rec := Minimality for value Sort Prop
with elements_rec := Minimality for elements Sort Prop
with members_rec := Minimality for members Sort Prop.
Combined Scheme values_ind from value_rec, elements_rec, members_rec.

(** The first character of a value. *)
Lemma value_first : forall t v, value t v -> exists b s, t = b :: s /\ is_ws b = false /\ b <> 93 /\ b <> 125.
Proof.
  intros t v V. destruct V as [| | |t N|s v C|w B|s l E|w B|s l M];
    try (eexists; eexists; split; [reflexivity|]; split; [reflexivity|split; discriminate]).
  destruct N as (sg & i & f & e & -> & SG & I & _).
  assert (H : exists b s, sg ++ i ++ f ++ e = b :: s /\ (b = 45 \/ digit b)).
  { destruct SG as [-> | ->]; [|cbn; eauto]. destruct I as [->|(d & ds & -> & D & _)]; cbn [app]; eexists; eexists; (split; [reflexivity|]); right; unfold digit; lia. }
  destruct H as (b & s & E & H). exists b, s. split; [exact E|]. unfold digit in H. split.
  - destruct (is_ws b) eqn:W; [|reflexivity]. apply ws_iff in W. cbn in W. lia.
  - lia.
Qed.

Lemma stop_blank : forall w r, blanks w -> stop r -> stop (w ++ r).
Proof.
  intros w r B S. destruct B as [|b w I B]; [exact S|]. right. exists b, (w ++ r). split; [reflexivity|].
  cbn [In] in *. tauto.
Qed.
Lemma stop_char : forall b r, In b [44; 93; 125] -> stop (b :: r).
Proof. intros b r I. right. exists b, r. split; [reflexivity|]. cbn [In] in *. tauto. Qed.

Lemma elements_first : forall t l, elements t l -> forall r, exists b s, skip_ws (t ++ r) = b :: s /\ b <> 93.
Proof.
  intros t l E r.
  assert (K : forall w1 s v u, blanks w1 -> value s v -> exists b s', skip_ws ((w1 ++ s ++ u) ++ r) = b :: s' /\ b <> 93).
  { intros w1 s v u B V. rewrite <- app_assoc, skip_complete by auto. destruct (value_first _ _ V) as (b & s0 & -> & W & N & _).
    cbn [app skip_ws]. rewrite W. eauto. }
  destruct E as [w1 s v w2 B1 V B2|w1 s v w2 s' l B1 V B2 E]; eapply K; eauto.
Qed.
Lemma members_first : forall t l, members t l -> forall r, exists s, skip_ws (t ++ r) = 34 :: s.
Proof.
  intros t l M r. destruct M; rewrite <- app_assoc, skip_complete by auto; cbn [app skip_ws is_ws N.eqb Pos.eqb orb]; eexists; reflexivity.
Qed.

Lemma pval_complete :
  (forall t v, value t v -> forall w r f, blanks w -> stop r -> (length t <= f)%nat -> pval f (w ++ t ++ r) = Some (v, r)) /\
  (forall t l, elements t l -> forall r f, (length t < f)%nat -> pelems f (t ++ 93 :: r) = Some (l, r)) /\
  (forall t l, members t l -> forall r f, (length t < f)%nat -> pmembers f (t ++ 125 :: r) = Some (l, r)).
Proof.
  apply values_ind.
  - intros w r f B S L. destruct f as [|f]; [cbn in L; lia|]. cbn [pval]. rewrite skip_complete by auto. reflexivity.
  - intros w r f B S L. destruct f as [|f]; [cbn in L; lia|]. cbn [pval]. rewrite skip_complete by auto. reflexivity.
  - intros w r f B S L. destruct f as [|f]; [cbn in L; lia|]. cbn [pval]. rewrite skip_complete by auto. reflexivity.
  - intros t N w r f B S L. pose proof (pnum_complete t r N S) as P.
    destruct (value_first t _ (v_num t N)) as (b & s & E & W & _).
    assert (D : b = 45 \/ digit b).
    { destruct N as (sg & i & fr & e & E' & SG & I & _). rewrite E in E'.
      destruct SG as [-> | ->]; [|injection E' as -> _; auto]. right.
      destruct I as [->|(d & ds & -> & D & _)]; cbn [app] in E'; injection E' as -> _; unfold digit; lia. }
    destruct f as [|f]; [rewrite E in L; cbn in L; lia|]. cbn [pval]. rewrite skip_complete by auto.
    rewrite E in *. cbn [app] in *. cbn [skip_ws]. rewrite W. unfold digit in D.
    destruct (N.eqb_spec b 123); [lia|]. destruct (N.eqb_spec b 91); [lia|]. destruct (N.eqb_spec b 34); [lia|].
    destruct (N.eqb_spec b 116); [lia|]. destruct (N.eqb_spec b 102); [lia|]. destruct (N.eqb_spec b 110); [lia|].
    rewrite P. reflexivity.
  - intros s v C w r f B S L. destruct f as [|f]; [cbn in L; lia|]. cbn [pval]. rewrite skip_complete by auto.
    cbn [app skip_ws is_ws N.eqb Pos.eqb orb]. rewrite <- app_assoc. cbn [app].
    rewrite (pstr_complete s v C); [reflexivity|]. rewrite app_length. cbn. lia.
  - intros w0 B0 w r f B S L. destruct f as [|f]; [cbn in L; lia|]. cbn [pval]. rewrite skip_complete by auto.
    cbn [app skip_ws is_ws N.eqb Pos.eqb orb]. rewrite <- app_assoc. rewrite skip_complete by auto. reflexivity.
  - intros s l E IH w r f B S L. destruct f as [|f]; [cbn in L; lia|]. cbn [pval]. rewrite skip_complete by auto.
    cbn [app skip_ws is_ws N.eqb Pos.eqb orb]. rewrite <- app_assoc. cbn [app].
    destruct (elements_first s l E (93 :: r)) as (b & s' & E1 & N1). rewrite E1. destruct (N.eqb_spec b 93); [contradiction|].
    rewrite IH; [reflexivity|]. cbn in L. rewrite app_length in L. cbn in L. lia.
  - intros w0 B0 w r f B S L. destruct f as [|f]; [cbn in L; lia|]. cbn [pval]. rewrite skip_complete by auto.
    cbn [app skip_ws is_ws N.eqb Pos.eqb orb]. rewrite <- app_assoc. rewrite skip_complete by auto. reflexivity.
  - intros s l M IH w r f B S L. destruct f as [|f]; [cbn in L; lia|]. cbn [pval]. rewrite skip_complete by auto.
    cbn [app skip_ws is_ws N.eqb Pos.eqb orb]. rewrite <- app_assoc. cbn [app].
    destruct (members_first s l M (125 :: r)) as (s' & E1). rewrite E1. cbn [N.eqb Pos.eqb].
    rewrite IH; [reflexivity|]. cbn in L. rewrite app_length in L. cbn in L. lia.
  - intros w1 s v w2 B1 V IH B2 r f L. destruct f as [|f]; [lia|]. cbn [pelems].
    rewrite <- !app_assoc. rewrite !app_length in L.
    rewrite (IH w1 (w2 ++ 93 :: r) f B1); [|apply stop_blank; auto; apply stop_char; cbn; auto|lia].
    rewrite skip_complete by auto. reflexivity.
  - intros w1 s v w2 s' l B1 V IH B2 E IHe r f L. destruct f as [|f]; [lia|]. cbn [pelems].
    rewrite <- !app_assoc. rewrite !app_length in L. cbn [app length] in *.
    rewrite (IH w1 (w2 ++ 44 :: s' ++ 93 :: r) f B1); [|apply stop_blank; auto; apply stop_char; cbn; auto|lia].
    rewrite skip_complete by auto. cbn [skip_ws is_ws N.eqb Pos.eqb orb]. rewrite IHe by lia. reflexivity.
  - intros w1 q k w2 w3 s v w4 B1 C B2 B3 V IH B4 r f L. destruct f as [|f]; [lia|]. cbn [pmembers].
    rewrite <- !app_assoc. rewrite skip_complete by auto. cbn [app skip_ws is_ws N.eqb Pos.eqb orb].
    rewrite <- !app_assoc. cbn [app]. rewrite <- !app_assoc. cbn [app]. rewrite <- !app_assoc. cbn [app].
    rewrite (pstr_complete q k C); [|rewrite app_length; cbn; lia].
    rewrite skip_complete by auto. cbn [skip_ws is_ws N.eqb Pos.eqb orb].
    repeat (rewrite app_length in L; cbn [length] in L).
    rewrite (IH w3 (w4 ++ 125 :: r) f B3); [|apply stop_blank; auto; apply stop_char; cbn; auto|lia].
    rewrite skip_complete by auto. reflexivity.
  - intros w1 q k w2 w3 s v w4 s' l B1 C B2 B3 V IH B4 M IHm r f L. destruct f as [|f]; [lia|]. cbn [pmembers].
    rewrite <- !app_assoc. rewrite skip_complete by auto. cbn [app skip_ws is_ws N.eqb Pos.eqb orb].
    rewrite <- !app_assoc. cbn [app]. rewrite <- !app_assoc. cbn [app]. rewrite <- !app_assoc. cbn [app].
    rewrite (pstr_complete q k C); [|rewrite app_length; cbn; lia].
    rewrite skip_complete by auto. cbn [skip_ws is_ws N.eqb Pos.eqb orb].
    repeat (rewrite app_length in L; cbn [length] in L).
    rewrite (IH w3 (w4 ++ 44 :: s' ++ 125 :: r) f B3); [|apply stop_blank; auto; apply stop_char; cbn; auto|lia].
    rewrite skip_complete by auto. cbn [skip_ws is_ws N.eqb Pos.eqb orb]. rewrite IHm by lia. reflexivity.
Qed.

Theorem parse_iff : forall t v, parse t = Some v <-> document t v.
Proof.
  intros t v. unfold parse. split.
  - destruct (pval (length t) t) as [[v' r]|] eqn:P; [|discriminate]. destruct (pval_sound (length t)) as (S & _).
    destruct (S _ _ _ P) as (w & s & E & B & V). destruct (skip_sound r) as (w2 & E2 & B2).
    destruct (skip_ws r); [|discriminate]. intro H. injection H as <-. rewrite app_nil_r in E2. subst w2.
    exists w, s, r. auto.
  - intros (w1 & s & w2 & -> & B1 & V & B2). destruct pval_complete as (C & _).
    rewrite (C s v V w1 w2 (length (w1 ++ s ++ w2)) B1).
    + pose proof (skip_complete w2 [] B2) as X. rewrite app_nil_r in X. rewrite X. reflexivity.
    + rewrite <- (app_nil_r w2). apply stop_blank; auto. left. reflexivity.
    + rewrite !app_length. lia.
Qed.
