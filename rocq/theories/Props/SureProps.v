(** C164: when an insert with replication is possible, and when it is sure to succeed. *)
From Verif.Base Require Import GoBase GoLemmas Assoc Float.
From Verif.Model Require Import Codec Store Data Insert.
From Verif.Spec Require Import Wire StoreSpec InsertSpec SureSpec.
From Verif.Proof Require Import CodecP CodecTop StoreP StoreQ InsertP.
From Verif.Props Require Import StoreProps InsertProps.
From Coq Require Import Permutation.
Open Scope N_scope.

Section S.
Variable W : Type.
Variable send : W -> bytes -> option Datum -> InsertConfig -> W * option err.
Variable ok : bytes -> bool.
Hypothesis ST : steady send ok.
Variables (d : option Datum) (cfg : InsertConfig) (R : N).
Definition ask : W * N -> bytes -> (W * N) * option err :=
  fun '(w, counter) source =>
    let '(w, e) := send w source d cfg in
    let counter := match e with None => u32 (counter + 1) | Some _ => counter end in
    ((w, counter), if R <=? counter then Some errReached else None).

Lemma counted : forall items L w c w' c' e, (-1 <= L <= 5)%Z -> c + Z.to_N (L + 2) <= 4294967295 ->
  RunOnRandomSources L items ask (w, c) = ((w', c'), e) ->
  c <= c' /\ c' <= c + N.of_nat (willing ok (firstn (Z.to_nat (L + 1)) items)) /\
  (c' < R -> c' = c + N.of_nat (willing ok (firstn (Z.to_nat (L + 1)) items))).
Proof.
  induction items as [|i items IH]; intros L w c w' c' e HL HC H; cbn [RunOnRandomSources] in H.
  - injection H as <- <- <-. rewrite firstn_nil. cbn. lia.
  - destruct (L <? 0)%Z eqn:LZ.
    + injection H as <- <- <-. apply Z.ltb_lt in LZ. replace (Z.to_nat (L + 1)) with 0%nat by lia. cbn. lia.
    + apply Z.ltb_ge in LZ. unfold ask at 1 in H. pose proof (ST w i d cfg) as SI.
      destruct (send w i d cfg) as [w1 e1] eqn:SE. cbn [snd] in SI.
      replace (Z.to_nat (L + 1)) with (S (Z.to_nat (L - 1 + 1))) by lia. cbn [firstn]. unfold willing. cbn [filter].
      set (c1 := match e1 with None => u32 (c + 1) | Some _ => c end) in *.
      assert (C1 : c1 = c + if ok i then 1 else 0).
      { unfold c1. destruct e1 as [e1|].
        - destruct (ok i); [|lia]. pose proof (proj2 SI eq_refl) as X. discriminate X.
        - rewrite (proj1 SI eq_refl). unfold u32, M32. rewrite N.mod_small; lia. }
      destruct (R <=? c1) eqn:RC.
      * injection H as <- <- <-. apply N.leb_le in RC. destruct (ok i); cbn [length]; lia.
      * apply N.leb_gt in RC. apply IH in H; [|lia|destruct (ok i); lia].
        unfold willing in H. destruct (ok i); cbn [length]; lia.
Qed.
End S.

(** It succeeds if, with the node's own copy, enough of the first six sources are willing. *)
Theorem C164_order : forall W (send : W -> bytes -> option Datum -> InsertConfig -> W * option err) ok now order w dt dc k v config,
  steady send ok -> asks_for_copies dt dc k v config ->
  (succeeds send now order w dt k v config <->
   cReplicationOnInsert dc <= 1 + N.of_nat (willing ok (firstn 6 order))).
Proof.
  intros W send ok now order w dt dc k v config ST (Hkv & SF & DC & HE & HC & NOT).
  unfold succeeds, Insert.
  destruct (local_spec now dt k v config Hkv SF) as
    [[OT E]|(_ & dt' & m & fresh & E & E2 & E3 & E4 & E5 & _)]; [contradiction|].
  rewrite E, E4, DC. unfold Replicate. rewrite HE. cbn [andb].
  assert (HC' : Count match config with Some c => c | None => mkInsertConfig 0 0 end = 0) by (destruct config; [exact HC|reflexivity]).
  rewrite HC', N.eqb_refl.
  set (cfg := mkInsertConfig _ (u64 (0 + 1))).
  match goal with |- context [RunOnRandomSources 5 order ?f (w, 1)] =>
    change f with (ask W send (Some (kv k v)) cfg (cReplicationOnInsert dc)) end.
  destruct (RunOnRandomSources 5 order _ (w, 1)) as [[w' c'] e] eqn:RR.
  destruct (counted W send ok ST _ _ _ order 5 w 1 w' c' e ltac:(lia) ltac:(cbn; lia) RR) as (A & B & C).
  change (Z.to_nat (5 + 1)) with 6%nat in *.
  destruct (c' <? cReplicationOnInsert dc) eqn:L.
  - apply N.ltb_lt in L. split.
    + intros (o & Eo & EO). injection Eo as <-. discriminate EO.
    + intro H. rewrite <- (C L) in H. lia.
  - apply N.ltb_ge in L. split; [intros _; lia|]. intros _. eexists. split; reflexivity.
Qed.
Print Assumptions C164_order.

Lemma willing_app : forall ok a b, willing ok (a ++ b) = (willing ok a + willing ok b)%nat.
Proof. intros. unfold willing. rewrite filter_app, app_length. reflexivity. Qed.
Lemma willing_perm : forall ok a b, Permutation a b -> willing ok a = willing ok b.
Proof.
  intros ok a b P. unfold willing. induction P as [|x a b P IH|x y a|a b c P IH P' IH']; cbn [filter]; auto; try congruence.
  - destruct (ok x); cbn [length]; congruence.
  - destruct (ok x), (ok y); reflexivity.
Qed.
Lemma willing_split : forall ok l, length l = (willing ok l + willing (fun x => negb (ok x)) l)%nat.
Proof. intros ok l. unfold willing. induction l as [|x l IH]; [reflexivity|]. cbn [filter length]. destruct (ok x); cbn [negb length]; lia. Qed.
Lemma willing_le : forall ok l, (willing ok l <= length l)%nat.
Proof. intros ok l. rewrite (willing_split ok l). lia. Qed.
Lemma parted : forall ok (l : list bytes), Permutation l (filter ok l ++ filter (fun x => negb (ok x)) l).
Proof.
  intros ok l. induction l as [|x l IH]; [constructor|]. cbn [filter]. destruct (ok x); cbn [negb app].
  - constructor. exact IH.
  - eapply perm_trans; [constructor; exact IH|]. apply Permutation_middle.
Qed.
Lemma all_willing : forall ok l, (forall x, In x l -> ok x = true) -> willing ok l = length l.
Proof.
  intros ok l H. unfold willing. induction l as [|x l IH]; [reflexivity|]. cbn [filter]. rewrite (H x) by (left; reflexivity).
  cbn [length]. f_equal. apply IH. intros y Y. apply H. right. exact Y.
Qed.
Lemma none_willing : forall ok l, (forall x, In x l -> ok x = false) -> willing ok l = 0%nat.
Proof.
  intros ok l H. unfold willing. induction l as [|x l IH]; [reflexivity|]. cbn [filter]. rewrite (H x) by (left; reflexivity).
  apply IH. intros y Y. apply H. right. exact Y.
Qed.

(** Sources are asked in an order that is not known.  With g willing and b unwilling ones, the
    insert can succeed exactly if it asks for no more than 1 + min(g, 6) copies ... *)
Theorem C164_possible : forall W (send : W -> bytes -> option Datum -> InsertConfig -> W * option err) ok now sources w dt dc k v config,
  steady send ok -> asks_for_copies dt dc k v config ->
  ((exists order, Permutation sources order /\ succeeds send now order w dt k v config) <->
   cReplicationOnInsert dc <= 1 + N.of_nat (Nat.min (willing ok sources) 6)).
Proof.
  intros W send ok now sources w dt dc k v config ST AC. split.
  - intros (order & P & S). apply (C164_order W send ok now order w dt dc k v config ST AC) in S.
    rewrite (willing_perm ok _ _ P).
    pose proof (willing_app ok (firstn 6 order) (skipn 6 order)) as E. rewrite firstn_skipn in E.
    pose proof (willing_le ok (firstn 6 order)). pose proof (firstn_le_length 6 order). lia.
  - intro H. exists (filter ok sources ++ filter (fun x => negb (ok x)) sources). split; [apply parted|].
    apply (C164_order W send ok now _ w dt dc k v config ST AC).
    rewrite firstn_app, willing_app, all_willing.
    + rewrite firstn_length. fold (willing ok sources). lia.
    + intros x X. assert (I : In x (filter ok sources)) by (rewrite <- (firstn_skipn 6 (filter ok sources)); apply in_or_app; left; exact X).
      apply filter_In in I. apply I.
Qed.
Print Assumptions C164_possible.

(** ... and is sure to exactly if it asks for no more than 1 + min(g, 6 - b). *)
Theorem C164_sure : forall W (send : W -> bytes -> option Datum -> InsertConfig -> W * option err) ok now sources w dt dc k v config,
  steady send ok -> asks_for_copies dt dc k v config ->
  ((forall order, Permutation sources order -> succeeds send now order w dt k v config) <->
   cReplicationOnInsert dc <= 1 + N.of_nat (Nat.min (willing ok sources) (6 - willing (fun x => negb (ok x)) sources))).
Proof.
  intros W send ok now sources w dt dc k v config ST AC.
  set (no := fun x => negb (ok x)). split.
  - intro H. specialize (H (filter no sources ++ filter ok sources)).
    assert (P : Permutation sources (filter no sources ++ filter ok sources))
      by (eapply perm_trans; [apply (parted ok)|apply Permutation_app_comm]).
    specialize (H P). apply (C164_order W send ok now _ w dt dc k v config ST AC) in H.
    rewrite firstn_app, willing_app, none_willing, all_willing in H.
    + rewrite firstn_length in H. fold (willing ok sources) in H. fold (willing no sources) in H. lia.
    + intros x X. assert (I : In x (filter ok sources)).
      { rewrite <- (firstn_skipn (6 - length (filter no sources)) (filter ok sources)). apply in_or_app. left. exact X. }
      apply filter_In in I. apply I.
    + intros x X. assert (I : In x (filter no sources)) by (rewrite <- (firstn_skipn 6 (filter no sources)); apply in_or_app; left; exact X).
      apply filter_In in I. destruct I as [_ I]. unfold no in I. apply negb_true_iff in I. exact I.
  - intros H order P. apply (C164_order W send ok now order w dt dc k v config ST AC).
    rewrite (willing_perm ok _ _ P), (willing_perm no _ _ P) in H.
    pose proof (willing_split ok order) as E0. pose proof (willing_split ok (firstn 6 order)) as E1. fold no in E0, E1.
    pose proof (willing_app no (firstn 6 order) (skipn 6 order)) as E2. rewrite firstn_skipn in E2.
    rewrite firstn_length in E1. lia.
Qed.
Print Assumptions C164_sure.

(** Three copies asked for, seven sources: one of them, or three, unwilling leaves the insert
    sure; five may fail it although two sources are willing; six make it impossible. *)
Definition unwilling (l : list bytes) (id : bytes) : bool := negb (existsb (bytes_eqb id) l).
Definition refuse (l : list bytes) (w : unit) (id : bytes) (d : option Datum) (c : InsertConfig) : unit * option err :=
  (tt, if unwilling l id then None else Some errLink).
Lemma refuse_steady : forall l, steady (refuse l) (unwilling l).
Proof. intros l w id d c. unfold refuse. cbn [snd]. destruct (unwilling l id); split; congruence. Qed.
Example C164_instance :
  asks_for_copies (dt_ex 0 true 3 srcs7) (cfg_ex 0 true 3) ka va None /\
  (forall order, Permutation srcs7 order -> succeeds (refuse (firstn 3 srcs7)) 100 order tt (dt_ex 0 true 3 srcs7) ka va None) /\
  (exists order, Permutation srcs7 order /\ succeeds (refuse (firstn 5 srcs7)) 100 order tt (dt_ex 0 true 3 srcs7) ka va None) /\
  ~ (forall order, Permutation srcs7 order -> succeeds (refuse (firstn 5 srcs7)) 100 order tt (dt_ex 0 true 3 srcs7) ka va None) /\
  ~ (exists order, Permutation srcs7 order /\ succeeds (refuse (firstn 6 srcs7)) 100 order tt (dt_ex 0 true 3 srcs7) ka va None).
Proof.
  assert (AC : asks_for_copies (dt_ex 0 true 3 srcs7) (cfg_ex 0 true 3) ka va None).
  { split; [apply kva_ok|]. split; [intros e X; discriminate X|]. split; [reflexivity|]. split; [reflexivity|]. split; [reflexivity|].
    intros (c & E & A & B). injection E as <-. discriminate A. }
  split; [exact AC|]. split; [|split; [|split]].
  - apply (C164_sure _ _ _ 100 srcs7 tt _ _ _ _ _ (refuse_steady _) AC). vm_compute. discriminate.
  - apply (C164_possible _ _ _ 100 srcs7 tt _ _ _ _ _ (refuse_steady _) AC). vm_compute. discriminate.
  - intro H. apply (C164_sure _ _ _ 100 srcs7 tt _ _ _ _ _ (refuse_steady _) AC) in H. vm_compute in H. apply H. reflexivity.
  - intro H. apply (C164_possible _ _ _ 100 srcs7 tt _ _ _ _ _ (refuse_steady _) AC) in H. vm_compute in H. apply H. reflexivity.
Qed.
