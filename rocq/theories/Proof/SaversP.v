(** Savers that overlap, and the loading of an index during which savers run. *)
From Verif.Base Require Import GoBase GoLemmas Assoc Float.
From Verif.Model Require Import Codec Store Data Dataset Json Index.
From Verif.Spec Require Import Text RegistrySpec IndexSpec.
From Verif.Proof Require Import JsonP QueryCacheP DatasetP IndexP.
From Coq Require Import Lia Permutation.
Open Scope N_scope.

Definition ends_line (t : bytes) : Prop := t = [] \/ exists u, t = u ++ [newline].

Lemma read_app : forall a acc b, read_lines acc (a ++ [newline] ++ b) = read_lines acc (a ++ [newline]) ++ read_lines [] b.
Proof.
  induction a as [|x a IH]; intros acc b; cbn [app read_lines].
  - cbn. reflexivity.
  - destruct (x =? newline); [cbn [app]; f_equal|]; apply IH.
Qed.
Lemma read_concat : forall l, Forall ends_line l -> read_lines [] (concat l) = flat_map (read_lines []) l.
Proof.
  induction l as [|t l IH]; intro F; [reflexivity|]. inversion F as [|? ? [->|[u ->]] F2]; subst; cbn [concat flat_map].
  - cbn. auto.
  - rewrite <- app_assoc, read_app. f_equal. auto.
Qed.
Lemma unlines_ends : forall xs, ends_line (unlines xs).
Proof.
  intros xs. destruct xs as [|x xs] using rev_ind; [left; reflexivity|]. right. unfold unlines.
  rewrite flat_map_app. cbn. rewrite app_nil_r, app_assoc. eauto.
Qed.

Lemma chunks_small : forall t, (length t <= 4096)%nat -> chunks t = if t then [] else [t].
Proof.
  intros t H. unfold chunks. destruct t as [|b t]; [reflexivity|]. 
  change (chunks_of (length (b :: t)) 4096 (b :: t)) with
    (firstn 4096 (b :: t) :: chunks_of (length t) 4096 (skipn 4096 (b :: t))).
  rewrite firstn_all2, skipn_all2 by auto. f_equal. destruct (length t); reflexivity.
Qed.

Lemma set_nth_cases : forall A (l : list A) i x l', list_set l i x = Some l' ->
  forall j y, nth_error l' j = Some y -> (j = i /\ y = x) \/ (j <> i /\ nth_error l j = Some y).
Proof.
  induction l as [|a l IH]; intros [|i] x l' E j y H; cbn in E; try discriminate.
  - injection E as <-. destruct j; cbn in *; [left; split; congruence|right; split; auto; lia].
  - destruct (list_set l i x) as [l1|] eqn:E1; [|discriminate]. injection E as <-. destruct j; cbn in *.
    + right. auto.
    + destruct (IH _ _ _ E1 _ _ H) as [[-> ->]|[N H']]; auto.
Qed.

Section Savers.
Variable ok : bytes -> Prop.
Definition small_saver (t : saver) : Prop :=
  match t with
  | SNew => True
  | SWait u => ok u /\ (length u <= 4096)%nat
  | SWriting rest => rest = [] \/ exists u, rest = [u] /\ ok u
  end.

Lemma savers_whole : forall x y, saver_run x y -> Forall small_saver (snd x) -> 
  (exists l, fst x = concat l /\ Forall ok l) ->
  Forall small_saver (snd y) /\ exists l, fst y = concat l /\ Forall ok l.
Proof.
  intros x y R. induction R as [x|x y z R IH S]; intros A B; auto.
  destruct (IH A B) as [A1 (l & E & F)]. clear IH. inversion S as [file ts i text ts' H1 H2|file ts i c rest ts' H1 H2]; subst; cbn [fst snd] in *.
  - rewrite Forall_forall in A1. pose proof (A1 _ (nth_error_In _ _ H1)) as [T1 T2]. split; [|exists []; auto].
    apply Forall_forall. intros t It. apply In_nth_error in It. destruct It as [j It].
    destruct (set_nth_cases _ _ _ _ _ H2 _ _ It) as [[-> ->]|[_ It']].
    + cbn. rewrite chunks_small by auto. destruct text; eauto.
    + apply A1. eapply nth_error_In; eauto.
  - rewrite Forall_forall in A1. pose proof (A1 _ (nth_error_In _ _ H1)) as T. cbn in T.
    destruct T as [T|(u & T & O)]; [discriminate|]. injection T as -> ->. split.
    + apply Forall_forall. intros t It. apply In_nth_error in It. destruct It as [j It].
      destruct (set_nth_cases _ _ _ _ _ H2 _ _ It) as [[-> ->]|[_ It']]; [cbn; auto|].
      apply A1. eapply nth_error_In; eauto.
    + exists (l ++ [u]). split. { rewrite concat_app, E. cbn. rewrite app_nil_r. auto. }
      apply Forall_app. auto.
Qed.
End Savers.

Definition finished (t : saver) : Prop := t = SWriting [].

(** The file holds the text of a saver that opened it, or one of those that opened
    it still has its text to write. *)
Lemma savers_some : forall ts0 f0 y, saver_run (f0, ts0) y ->
  Forall (fun t => exists u, t = SWait u /\ (length u <= 4096)%nat) ts0 ->
  length (snd y) = length ts0 /\
  (forall i t, nth_error (snd y) i = Some t -> exists u, nth_error ts0 i = Some (SWait u) /\
     (t = SWait u \/ t = SWriting [] \/ t = SWriting [u])) /\
  (snd y = ts0 \/
   exists i u, nth_error ts0 i = Some (SWait u) /\
     (nth_error (snd y) i = Some (SWriting [u]) \/ exists a b, fst y = a ++ u ++ b)).
Proof.
  intros ts0 f0 y R F. remember (f0, ts0) as x eqn:Ex. induction R as [x|x y z R IH S]; subst.
  - cbn. split; auto. split; auto. intros i t Ht. rewrite Forall_forall in F. destruct (F _ (nth_error_In _ _ Ht)) as (u & -> & _). eauto.
  - destruct (IH eq_refl) as (L & A & B). clear IH R.
    assert (LS : forall (l : list saver) i x l', list_set l i x = Some l' -> length l' = length l).
    { clear. induction l; intros [|i] x l' E; cbn in E; try discriminate.
      - injection E as <-. reflexivity.
      - destruct (list_set l i x) eqn:E1; [|discriminate]. injection E as <-. cbn. f_equal. eauto. }
    assert (SS : forall (l : list saver) i x l', list_set l i x = Some l' -> nth_error l' i = Some x).
    { clear. induction l; intros [|i] x l' E; cbn in E; try discriminate.
      - injection E as <-. reflexivity.
      - destruct (list_set l i x) eqn:E1; [|discriminate]. injection E as <-. cbn. eauto. }
    assert (SO : forall (l : list saver) i x l' j, list_set l i x = Some l' -> j <> i -> nth_error l' j = nth_error l j).
    { clear. induction l; intros [|i] x l' j E N; cbn in E; try discriminate.
      - injection E as <-. destruct j; [lia|]. reflexivity.
      - destruct (list_set l i x) eqn:E1; [|discriminate]. injection E as <-. destruct j; cbn; auto. eapply IHl; eauto. }
    rewrite Forall_forall in F.
    inversion S as [file ts i text ts' H1 H2|file ts i c rest ts' H1 H2]; subst; cbn [fst snd] in *.
    + split; [erewrite LS; eauto|]. destruct (A _ _ H1) as (u & U0 & [U|[U|U]]); try discriminate. injection U as ->.
      destruct (F _ (nth_error_In _ _ U0)) as (u' & Q & Hl). injection Q as <-. rewrite chunks_small in H2 by auto. split.
      * intros j t Ht. destruct (set_nth_cases _ _ _ _ _ H2 _ _ Ht) as [[-> ->]|[_ Ht']]; auto.
        exists u. split; auto. destruct u; auto.
      * right. exists i, u. split; auto. rewrite (SS _ _ _ _ H2). destruct u; [right; exists [], []; auto|auto].
    + split; [erewrite LS; eauto|]. destruct (A _ _ H1) as (u & U0 & [U|[U|U]]); try discriminate. injection U as -> ->. split.
      * intros j t Ht. destruct (set_nth_cases _ _ _ _ _ H2 _ _ Ht) as [[-> ->]|[_ Ht']]; auto. eauto.
      * right. destruct B as [B|(k & v & V0 & V)].
        { subst ts. rewrite U0 in H1. discriminate. }
        exists k, v. split; auto. destruct (Nat.eq_dec k i) as [->|N].
        { right. rewrite U0 in V0. injection V0 as <-. exists file, []. rewrite app_nil_r. auto. }
        rewrite (SO _ _ _ _ _ H2 N). destruct V as [V|(a & b & ->)]; auto.
        right. exists a, (b ++ u). rewrite <- !app_assoc. auto.
Qed.

(** * Loading while savers run *)
Lemma cut_unlines : forall x y acc, flat x -> cut_line acc (x ++ newline :: y) = Some (rev acc ++ x ++ [newline], y).
Proof.
  induction x as [|b x IH]; intros y acc F; cbn [app cut_line].
  - cbn. reflexivity.
  - destruct (N.eqb_spec b newline) as [->|N]; [exfalso; apply F; left; auto|].
    rewrite IH. { cbn [rev]. rewrite <- app_assoc. reflexivity. } intro H. apply F. right. auto.
Qed.

Section Load.
Variable L : floatlib.
Hypothesis RT : float_roundtrip L.
Variable inc : Z -> Z -> Z -> Z.
Variable now : Z.
(** Touching an item that is not expired does not expire it. *)
Hypothesis INC : forall d old, (old <= 0)%Z \/ (now <= old)%Z -> (inc now d old <= 0)%Z \/ (now <= inc now d old)%Z.

Definition alive_name (s : dstate) (n : bytes) : Prop := exists a, dl_get now s n = Some a.

Lemma touch_alive : forall s n a s' m, dl_get now s n = Some a -> dl_touch inc now s n a = Ok s' ->
  alive_name s m -> alive_name s' m.
Proof.
  intros s n a s' m G E (b & B). unfold dl_touch in E. destruct (nth_error (dsObjs s) a) as [dt|]; [|discriminate].
  destruct (dConfig dt) as [c|]; [|discriminate]. destruct (mload (dsList s) n) as [i|] eqn:M.
  2:{ injection E as <-. exists b. auto. }
  injection E as <-. destruct (bytes_dec n m) as [<-|N].
  - exists (diObj i). unfold dl_get. cbn [dsList]. rewrite mload_mstore_same.
    destruct (get_some _ _ _ _ G) as (i' & E' & _ & Lv). rewrite M in E'. injection E' as <-.
    assert (Q : item_live now (mkDI (diObj i) (inc now (GetRetention (cRetention c)) (diExpires i))) = true).
    { apply live_iff. cbn [diExpires]. apply INC. apply live_iff. auto. }
    rewrite Q. reflexivity.
  - exists b. rewrite <- B. apply dl_get_eq. cbn [dsList]. apply mload_mstore_other. auto.
Qed.

Lemma save_alive : forall names s s' text, inv s -> (forall k, In k names -> alive_name s k) ->
  save_lines L inc now s names = Ok (s', text) -> inv s' /\ forall m, alive_name s m -> alive_name s' m.
Proof.
  induction names as [|k names IH]; intros s s' text I H E; cbn [save_lines] in E.
  - injection E as <- _. auto.
  - destruct (H k (or_introl eq_refl)) as [a G].
    unfold deep in E. cbn [Get] in E. rewrite G in E.
    destruct (touch_ok inc now s k a I G) as (s1 & T & _ & I1). rewrite T in E. cbn [bind] in E.
    destruct (nth_error (dsObjs s1) a) as [dt|]; [|discriminate].
    destruct (save_lines L inc now s1 names) as [[s2 t2]| |] eqn:E2; [|discriminate..]. cbn [bind] in E.
    injection E as <- _. pose proof (fun m => touch_alive s k a s1 m G T) as TA.
    destruct (IH s1 s2 t2 I1) as [I2 K]; auto. intros k' Ik. apply TA. apply H. right. auto.
Qed.

Lemma create_alive : forall s c s' m, inv s -> CreateIfNotExists inc deep now s c = Ok s' ->
  inv s' /\ (alive_name s m -> alive_name s' m) /\ alive_name s' (cName c).
Proof.
  intros s c s' m I E. destruct (create_ok inc deep now s c I) as (s1 & E1 & C); [unfold deep; lia|].
  rewrite E in E1. injection E1 as <-. split; [eapply created_inv; eauto|]. split.
  - intros (a & G). destruct (bytes_dec (cName c) m) as [<-|N].
    + destruct (created_get _ _ _ _ I C) as (b & B & _). exists b. auto.
    + exists a. rewrite <- G. apply dl_get_eq. destruct (created_others _ _ _ _ I C) as [O _]. auto.
  - destruct (created_get _ _ _ _ I C) as (b & B & _). exists b. auto.
Qed.

(** The loader has read the whole text and handled [j] lines. *)
Definition loading (cs : list DataConfig) (l : loader) : Prop :=
  inv (lReg l) /\
  ((l = load_start (unlines (map (cline L) cs))) \/
   (exists j rest, (j <= length cs)%nat /\ (lDone l = false \/ j = length cs) /\
      (j = length cs \/ lAcc l = [] /\ lBuf l = unlines (map (cline L) (skipn j cs)) ++ rest) /\
      forall c, In c (firstn j cs) -> alive_name (lReg l) (cName c))).

Lemma load_step : forall cs, Forall storable cs -> cs <> [] -> (length (unlines (map (cline L) cs)) <= 4096)%nat ->
  forall x y, loading cs x -> lstep L inc now x y -> loading cs y.
Proof.
  intros cs F NE LEN x y [I H] Sx.
  assert (NL : unlines (map (cline L) cs) <> []).
  { destruct cs; [congruence|]. cbn. discriminate. }
  destruct H as [->|(j & rest & J & D & B & A)].
  - unfold load_start in Sx. inversion Sx; subst; cbn [lReg lBuf] in *.
    + match goal with H : cut_line [] [] = Some _ |- _ => discriminate H end.
    + match goal with H : length [] = _ |- _ => discriminate H end.
    + split; [exact I|]. right. exists 0%nat, []. split; [lia|]. split; auto. split; [|intros ? []].
      right. split; auto. cbn [lBuf skipn]. unfold c, next_read. cbn [lBuf lOff lFile length app skipn].
      rewrite firstn_all2 by lia. rewrite app_nil_r. auto.
    + exfalso. match goal with H : next_read _ = [] |- _ => rename H into Q end.
      unfold next_read in Q. cbn [lBuf lOff lFile length app skipn] in Q. rewrite firstn_all2 in Q by lia. auto.
    + match goal with H : nth_error [] ?i = Some _ |- _ => destruct i; discriminate H end.
    + match goal with H : saver_step _ _ |- _ => inversion H end;
      match goal with H : nth_error [] ?i = Some _ |- _ => destruct i; discriminate H end.
  - assert (CUT : forall c cs', skipn j cs = c :: cs' -> cut_line [] (unlines (map (cline L) (skipn j cs)) ++ rest) =
      Some (cline L c ++ [newline], unlines (map (cline L) cs') ++ rest)).
    { intros c cs' E. rewrite E. cbn [map unlines flat_map]. rewrite <- !app_assoc. cbn [app]. rewrite cut_unlines; [reflexivity|].
      apply cline_flat; auto. rewrite Forall_forall in F. apply F. rewrite <- (firstn_skipn j cs), E. apply in_or_app. cbn. auto. }
    assert (LAST : (j < length cs)%nat -> exists c cs', skipn j cs = c :: cs' /\ firstn (S j) cs = firstn j cs ++ [c] /\ skipn (S j) cs = cs').
    { intro Lt. clear - Lt. revert j Lt. induction cs as [|c cs IH]; intros j Lt; cbn in Lt; [lia|]. destruct j.
      - exists c, cs. auto.
      - destruct (IH j) as (c' & cs' & E1 & E2 & E3); [lia|]. exists c', cs'. cbn [firstn skipn app] in *. rewrite E1. split; auto. split; auto.
        f_equal. exact E2. }
    inversion Sx; subst; cbn [lReg lBuf lAcc lDone] in *.
    + (* a line *)
      destruct B as [->|[-> B]].
      * assert (Q : inv r' /\ forall m, alive_name r m -> alive_name r' m).
        { unfold load_line in H0. destruct (UnmarshalConfig L _) as [c|]; [|injection H0 as <- _; auto].
          destruct (CreateIfNotExists inc deep now r c) as [r1| |] eqn:E; [|discriminate..]. cbn [bind] in H0. injection H0 as <- _.
          split; [eapply (create_alive r c r1 []); eauto|]. intros m Hm. destruct (create_alive r c r1 m I E) as (_ & K & _). apply K. exact Hm. }
        destruct Q as [Q1 Q2]. split; auto. right. exists (length cs), []. split; [lia|]. split; [auto|]. split; [auto|]. intros c Ic. apply Q2. apply A. auto.
      * destruct (Nat.eq_dec j (length cs)) as [->|NJ].
        { (* handled before *)
          assert (Q : inv r' /\ forall m, alive_name r m -> alive_name r' m).
          { unfold load_line in H0. destruct (UnmarshalConfig L _) as [c|]; [|injection H0 as <- _; auto].
            destruct (CreateIfNotExists inc deep now r c) as [r1| |] eqn:E; [|discriminate..]. cbn [bind] in H0. injection H0 as <- _.
            split; [eapply (create_alive r c r1 []); eauto|]. intros m Hm. destruct (create_alive r c r1 m I E) as (_ & K & _). apply K. exact Hm. }
          destruct Q as [Q1 Q2]. split; auto. right. exists (length cs), []. split; [lia|]. split; [auto|]. split; [auto|]. intros c Ic. apply Q2. apply A. auto. }
        destruct LAST as (c & cs' & E1 & E2 & E3); [lia|]. rewrite B, (CUT _ _ E1) in H. assert (Ln : line = cline L c ++ [newline]) by congruence. assert (Rs : rest0 = unlines (map (cline L) cs') ++ rest) by congruence. subst line rest0. clear H.
        assert (ST : storable c). { rewrite Forall_forall in F. apply F. rewrite <- (firstn_skipn j cs), E1. apply in_or_app. cbn. auto. }
        unfold load_line in H0. rewrite app_nil_l, unmarshal_line in H0 by auto.
        destruct (CreateIfNotExists inc deep now r (norm c)) as [r1| |] eqn:E; [|discriminate..]. cbn [bind] in H0. injection H0 as <- _.
        split; [eapply (create_alive r (norm c) r1 []); eauto|]. right. exists (S j), rest. split; [lia|]. split; auto. split.
        { right. split; auto. rewrite E3. auto. }
        intros c' Ic. rewrite E2 in Ic. apply in_app_or in Ic. destruct Ic as [Ic|[<-|[]]].
        { destruct (create_alive r (norm c) r1 (cName c') I E) as (_ & K & _). apply K. apply A. exact Ic. }
        { destruct (create_alive r (norm c) r1 [] I E) as (_ & _ & K). exact K. }
    + (* a full buffer *)
      split; auto. right. exists (length cs), []. destruct (Nat.eq_dec j (length cs)) as [->|NJ]; [split; auto|].
      exfalso. destruct B as [->|[_ B]]; [congruence|]. destruct LAST as (c & cs' & E1 & _); [lia|].
      rewrite B, (CUT _ _ E1) in H. discriminate.
    + split; auto. right. exists (length cs), []. destruct (Nat.eq_dec j (length cs)) as [->|NJ]; [split; auto|].
      exfalso. destruct B as [->|[_ B]]; [congruence|]. destruct LAST as (c' & cs' & E1 & _); [lia|].
      rewrite B, (CUT _ _ E1) in H. discriminate.
    + split; auto. right. exists (length cs), []. destruct (Nat.eq_dec j (length cs)) as [->|NJ]; [split; auto|].
      exfalso. destruct B as [->|[_ B]]; [congruence|]. destruct LAST as (c' & cs' & E1 & _); [lia|].
      rewrite B, (CUT _ _ E1) in H. discriminate.
    + (* a saver collects *)
      destruct (save_alive names r r' text I) as [I' K]; auto.
      { intros k Ik. eapply Permutation_in in Ik; [|eassumption]. apply list_names in Ik; auto.
        destruct Ik as [a' Ha]. exists a'. apply get_holds; auto. }
      split; auto. right. exists j, rest. split; [exact J|]. split; [exact D|]. split; [exact B|]. intros c Ic. apply K. apply A. exact Ic.
    + split; auto. right. exists j, rest. split; auto.
Qed.

Lemma load_line_inv : forall r line r' st, inv r -> load_line L inc now r line = Ok (r', st) -> inv r'.
Proof.
  intros r line r' st I E. unfold load_line in E. destruct (UnmarshalConfig L line) as [c|]; [|injection E as <- _; auto].
  destruct (CreateIfNotExists inc deep now r c) as [r1| |] eqn:E1; [|discriminate..]. cbn [bind] in E. injection E as <- _.
  destruct (create_alive r c r1 [] I E1) as (X & _). exact X.
Qed.
Lemma lrun_inv : forall x y, lrun L inc now x y -> inv (lReg x) -> inv (lReg y).
Proof.
  intros x y R I. induction R as [x|x y z R IH Sx]; auto. specialize (IH I). clear R I.
  inversion Sx; subst; cbn [lReg] in *; auto.
  - eapply load_line_inv; eauto.
  - match goal with H : SaveIndex _ _ _ _ ?ns = _ |- _ => destruct (save_alive ns r r' text IH) as [X _]; auto end.
    intros k Ik. eapply Permutation_in in Ik; [|eassumption]. apply list_names in Ik; auto.
    destruct Ik as [a' Ha]. exists a'. apply get_holds; auto.
Qed.
Lemma load_inv : forall lines s s', inv s -> load_lines L inc now s lines = Ok s' -> inv s'.
Proof.
  induction lines as [|x lines IH]; intros s s' I E; cbn [load_lines] in E; [congruence|].
  destruct (UnmarshalConfig L x) as [c|]; [|eauto].
  destruct (CreateIfNotExists inc deep now s c) as [r1| |] eqn:E1; [|discriminate..]. cbn [bind] in E.
  destruct (create_alive s c r1 [] I E1) as (X & _). eauto.
Qed.

Theorem load_small : forall cs l, Forall storable cs -> (length (unlines (map (cline L) cs)) <= 4096)%nat ->
  lrun L inc now (load_start (unlines (map (cline L) cs))) l -> lDone l = true ->
  forall c, In c cs -> exists a, holds now (lReg l) (cName c) a.
Proof.
  intros cs l F LEN R D c Ic.
  assert (NE : cs <> []) by (intros ->; contradiction).
  assert (H : loading cs l).
  { clear D. remember (load_start (unlines (map (cline L) cs))) as x eqn:Ex. induction R as [x|x y z R IH S]; subst.
    - split; [apply empty_inv|left; auto].
    - eapply load_step; eauto. }
  destruct H as [I [->|(j & rest & J & [D'|D'] & B & A)]]; [discriminate|congruence|]. subst j.
  rewrite firstn_all in A. destruct (A c Ic) as [a G]. exists a. apply get_holds; auto.
Qed.
End Load.
