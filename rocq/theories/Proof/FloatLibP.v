(** A formatting library that satisfies the round-trip contract. *)
From Verif.Base Require Import GoBase GoLemmas Float.
From Verif.Model Require Import Codec Store Data Dataset Json Index.
From Verif.Spec Require Import Text RegistrySpec IndexSpec.
From Verif.Proof Require Import JsonP.
From Coq Require Import Lia.
Open Scope N_scope.

(** A library that satisfies the contract (its texts are mantissa and exponent). *)
Definition simple_fmt (x : float) : bytes :=
  match x with
  | S754_finite s m e =>
      (if s then [45] else []) ++ dec (Npos m) ++ 101 :: (if (e <? 0)%Z then [45] else []) ++ dec (Z.abs_N e)
  | _ => [48]
  end.
Definition take_sign (t : bytes) : bool * bytes :=
  match t with c :: t' => if c =? 45 then (true, t') else (false, t) | [] => (false, t) end.
Definition simple_scan (t : bytes) : option float :=
  let '(s, t1) := take_sign t in
  let '(d, r) := digits t1 in
  match digits_value 0 d, r with
  | Some (Npos m), 101 :: r1 =>
      let '(es, r2) := take_sign r1 in
      match digits_value 0 r2 with
      | Some e => Some (S754_finite s m (if es : bool then - Z.of_N e else Z.of_N e)%Z)
      | None => None
      end
  | _, _ => None
  end.
Definition simple_lib : floatlib := mkFloatlib simple_fmt simple_scan.

Lemma dec_head : forall n, n < M64 -> exists b d, dec n = b :: d /\ 48 <= b <= 57.
Proof.
  intros n H. destruct (dec_spec n H) as (A & B & _). destruct (dec n) as [|b d]; [congruence|]. inversion B; subst. eauto.
Qed.
Lemma digits_all_end : forall d, Forall (fun b => 48 <= b <= 57) d -> digits d = (d, []).
Proof.
  induction d as [|b d IH]; intro F; [reflexivity|]. inversion F; subst. cbn [digits]. unfold is_digit.
  rewrite (proj2 (in_range_spec 48 57 b)) by auto. rewrite IH; auto.
Qed.

Lemma finite_small : forall s m e, valid_binary prec64 emax64 (S754_finite s m e) = true ->
  Npos m < M64 /\ Z.abs_N e < M64.
Proof.
  intros s m e V. cbn in V. unfold bounded, canonical_mantissa in V. apply andb_true_iff in V. destruct V as [A B].
  apply Zeq_bool_eq in A. apply Z.leb_le in B. unfold fexp, emin, prec64, emax64 in *.
  assert (D : (Zpos (digits2_pos m) <= 53)%Z) by lia.
  split.
  - assert (P : (Zpos m < 2 ^ Zpos (digits2_pos m))%Z).
    { clear. induction m as [m IH|m IH|]; cbn [digits2_pos]; rewrite ?Pos2Z.inj_succ, ?Z.pow_succ_r by lia; lia. }
    assert (Q : (2 ^ Zpos (digits2_pos m) <= 2 ^ 53)%Z) by (apply Z.pow_le_mono_r; lia).
    change (2 ^ 53)%Z with 9007199254740992%Z in Q. unfold M64. lia.
  - unfold M64. lia.
Qed.

Lemma simple_roundtrip : float_roundtrip simple_lib.
Proof.
  intros x Fx NZ. destruct x as [s|s| |s m e]; cbn in Fx; try contradiction; [exfalso; eapply NZ; reflexivity|].
  destruct (finite_small s m e Fx) as [Hm He]. cbn [fmt scan simple_lib].
  destruct (dec_spec _ Hm) as (M1 & M2 & M3 & M4). destruct (dec_spec _ He) as (E1 & E2 & _ & E4).
  specialize (M3 ltac:(discriminate)). unfold simple_fmt.
  destruct (dec (N.pos m)) as [|b d] eqn:Dm; [congruence|]. inversion M2 as [|? ? Mb Md]; subst. cbn [hd] in M3.
  destruct (dec (Z.abs_N e)) as [|b' d'] eqn:De; [congruence|]. inversion E2 as [|? ? Eb Ed]; subst.
  set (es := if (e <? 0)%Z then [45] else []).
  split.
  - split; [destruct s; discriminate|]. split.
    + intros c Hc. assert (Q : 48 <= c <= 57 \/ c = 45 \/ c = 101).
      { apply in_app_or in Hc. destruct Hc as [Hc|Hc].
        - destruct s; cbn in Hc; [destruct Hc as [<-|[]]; auto|contradiction].
        - apply in_app_or in Hc. destruct Hc as [Hc|[<-|Hc]]; [rewrite Forall_forall in M2; auto|auto|].
          apply in_app_or in Hc. destruct Hc as [Hc|Hc]; [|rewrite Forall_forall in E2; auto].
          unfold es in Hc. destruct (e <? 0)%Z; [destruct Hc as [<-|[]]; auto|contradiction]. }
      assert (W : is_ws c = false).
      { destruct Q as [Q|[-> | ->]]; try reflexivity. unfold is_ws.
        rewrite !(proj2 (N.eqb_neq _ _)) by lia. reflexivity. }
      repeat split; try lia. exact W.
    + intros c rest Hc.
      assert (Dc : is_digit c = false) by (destruct Hc as [-> | [-> | ->]]; reflexivity).
      assert (X : digits ((b :: d) ++ 101 :: es ++ (b' :: d') ++ c :: rest) = (b :: d, 101 :: es ++ (b' :: d') ++ c :: rest)).
      { apply digits_all; auto. }
      assert (P : pnum ((b :: d) ++ 101 :: es ++ (b' :: d') ++ c :: rest) = Some ((b :: d) ++ 101 :: es ++ b' :: d', c :: rest) /\
        pnum (45 :: (b :: d) ++ 101 :: es ++ (b' :: d') ++ c :: rest) = Some (45 :: (b :: d) ++ 101 :: es ++ b' :: d', c :: rest)).
      { assert (PI : pint ((b :: d) ++ 101 :: es ++ (b' :: d') ++ c :: rest) = Some (b :: d, 101 :: es ++ (b' :: d') ++ c :: rest)).
        { unfold pint. cbn [app]. rewrite (proj2 (N.eqb_neq b 48)) by auto. rewrite (proj2 (in_range_spec 49 57 b)) by lia.
          cbn [app] in X. rewrite X. reflexivity. }
        assert (PE : pexp (101 :: es ++ (b' :: d') ++ c :: rest) = Some (101 :: es ++ b' :: d', c :: rest)).
        { assert (Y : digits ((b' :: d') ++ c :: rest) = (b' :: d', c :: rest)) by (apply digits_all; auto).
          unfold pexp, es. destruct (e <? 0)%Z; cbn [app N.eqb Pos.eqb orb] in *.
          - rewrite Y. reflexivity.
          - rewrite (proj2 (N.eqb_neq b' 43)) by lia. rewrite (proj2 (N.eqb_neq b' 45)) by lia. cbn [orb]. rewrite Y. reflexivity. }
        assert (PF : pfrac (101 :: es ++ (b' :: d') ++ c :: rest) = Some ([], 101 :: es ++ (b' :: d') ++ c :: rest)) by reflexivity.
        split; unfold pnum.
        - cbn [app]. rewrite (proj2 (N.eqb_neq b 45)) by lia. cbn [app] in PI, PF, PE. rewrite PI, PF, PE. reflexivity.
        - replace (45 =? 45) with true by reflexivity. rewrite PI, PF, PE. reflexivity. }
      destruct P as [P1 P2]. destruct s; cbn [app] in *; rewrite <- !app_assoc; cbn [app]; rewrite <- !app_assoc; cbn [app]; auto.
  - assert (X : digits ((b :: d) ++ 101 :: es ++ b' :: d') = (b :: d, 101 :: es ++ b' :: d')) by (apply digits_all; auto).
    assert (Q : simple_scan ((b :: d) ++ 101 :: es ++ b' :: d') = Some (S754_finite false m e) /\
                simple_scan (45 :: (b :: d) ++ 101 :: es ++ b' :: d') = Some (S754_finite true m e)).
    { assert (R : forall sg : bool, (let '(dd, r) := digits ((b :: d) ++ 101 :: es ++ b' :: d') in
        match digits_value 0 dd, r with
        | Some (Npos m), 101 :: r1 =>
          let '(es, r2) := take_sign r1 in
          match digits_value 0 r2 with
          | Some e => Some (S754_finite sg m (if es : bool then - Z.of_N e else Z.of_N e)%Z)
          | None => None
          end
        | _, _ => None end) = Some (S754_finite sg m e)).
      { intro sg. rewrite X. rewrite M4. unfold es. destruct (Z.ltb_spec e 0).
        - cbn [app take_sign]. replace (45 =? 45) with true by reflexivity. rewrite E4. do 2 f_equal. lia.
        - cbn [app take_sign]. rewrite (proj2 (N.eqb_neq b' 45)) by lia. rewrite E4. do 2 f_equal. lia. }
      split.
      - unfold simple_scan. cbn [app take_sign]. cbn [app] in R. rewrite (proj2 (N.eqb_neq b 45)) by lia. apply (R false).
      - unfold simple_scan. rewrite <- (R true). reflexivity. }
    destruct Q as [Q1 Q2]. destruct s; cbn [app] in *; auto.
Qed.
